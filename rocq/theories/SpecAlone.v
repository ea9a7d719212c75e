(** Vocabulary for a LoudsSparse object that is used alone, over all levels of
    the trie, as its unit tests do.  Of the model it uses only the public calls
    of SuRFBuilder, LoudsSparse and its iterator. *)
From Coq Require Import Arith List NArith ZArith Bool.
From Verif Require Import Res Config Builder Dense Sparse Surf Serialize Spec SpecApi SpecFilter SpecIter SpecRange SpecBare.
Import ListNotations.

(** Settings: no dense levels, any suffix. *)
Definition sparse_settings (c : config) : Prop :=
  cf_dense c = false /\ cf_hlen c + cf_rlen c <= 64 /\
  match cf_type c with
  | kNone => True
  | kHash => 1 <= cf_hlen c
  | kReal => 1 <= cf_rlen c
  | kMixed => 1 <= cf_hlen c
  end.

(** [builder.build(keys); LoudsSparse s(&builder);] *)
Definition alone (e : env) (c : config) (keys : list bytes) (s : sparse) : Prop :=
  (b <- build e c keys ;; sparse_make e b) = Ok s.

(** [s'] is what deSerialize makes of the bytes that serialize wrote for [s] into
    a block of serializedSize() bytes, copied to some block that may be longer. *)
Definition s_restored (e : env) (s s' : sparse) : Prop :=
  exists a a' mem buf rest n n',
    N.of_nat (length mem) = sparse_serializedSize s /\ block a (length mem) /\ block a' (length mem) /\
    sparse_serialize e a s (mem, 0) = Ok (buf, n) /\ sparse_deSerialize a' (buf ++ rest) 0 = Ok (s', n').

(** Built from [keys], or restored any number of times since. *)
Inductive s_part (e : env) (c : config) (keys : list bytes) : sparse -> Prop :=
| sp_built : forall s, alone e c keys s -> s_part e c keys s
| sp_restored : forall s s', s_part e c keys s -> storable e keys -> s_restored e s s' -> s_part e c keys s'.

Definition s_move (e : env) (s : sparse) (m : move) (it : siter) : res siter :=
  match m with Fwd => si_next e s it | Bwd => si_prev e s it end.

Fixpoint s_run (e : env) (s : sparse) (ms : list move) (it : siter) : res siter :=
  match ms with
  | [] => Ok it
  | m :: r => it' <- s_move e s m it ;; s_run e s r it'
  end.

Definition s_look (e : env) (s : sparse) (it : siter) : res view :=
  if si_valid it then
    k <- si_getKey it ;; '(l, w) <- si_getSuffix e s it ;; ks <- si_getKeyWithSuffix e s it 0 ;;
    Ok (mkView true k (l, Some w) ks)
  else Ok (mkView false [] (0, None) ([], 0)).

(** An iterator at key number [i]: moves that stay on the keys lead where they
    should, and there compare is sound; a move off either end makes it invalid. *)
Definition stands_alone (e : env) (c : config) (s : sparse) (keys : list bytes) (it : siter) (i : nat) : Prop :=
  forall ms j, steps keys ms i = Some j -> exists it' v,
    s_run e s ms it = Ok it' /\ s_look e s it' = Ok v /\ view_at c keys (Some j) v /\
    (forall q, is_bytes q -> exists z, si_compare e s it' q = Ok z /\ cmp_sound c keys (nth j (uniq keys) []) q z) /\
    forall m, step keys m j = None -> exists it'', s_move e s m it' = Ok it'' /\ si_valid it'' = false.

(** [it.setToFirstLabelInRoot(); it.moveToLeftMostKey();] on a new iterator, and
    the same for the last key *)
Definition s_first (e : env) (s : sparse) : res siter :=
  it <- si_setToFirstLabelInRoot e s (siter_new s) ;; si_moveToLeftMostKey e s it.
Definition s_last (e : env) (s : sparse) : res siter :=
  it <- si_setToLastLabelInRoot e s (siter_new s) ;; si_moveToRightMostKey e s it.
