(** Vocabulary for a LoudsDense object that is used alone, over all levels of
    the trie, as its unit tests do.  Of the model it uses only the public calls
    of SuRFBuilder, LoudsDense and its iterator. *)
From Coq Require Import Arith List NArith ZArith Bool.
From Verif Require Import Res Config Builder Dense Surf Serialize Spec SpecApi SpecFilter SpecIter SpecRange.
Import ListNotations.

(** Settings: all levels dense (ratio 0), any suffix. *)
Definition dense_settings (c : config) : Prop :=
  cf_dense c = true /\ cf_ratio c = 0%N /\ cf_hlen c + cf_rlen c <= 64 /\
  match cf_type c with
  | kNone => True
  | kHash => 1 <= cf_hlen c
  | kReal => 1 <= cf_rlen c
  | kMixed => 1 <= cf_hlen c
  end.

(** [builder.build(keys); LoudsDense d(&builder);] *)
Definition d_alone (e : env) (c : config) (keys : list bytes) (d : dense) : Prop :=
  (b <- build e c keys ;; dense_make e b) = Ok d.

(** [d'] is what deSerialize makes of the bytes that serialize wrote for [d] into
    a block of serializedSize() bytes, copied to some block that may be longer. *)
Definition d_restored (d d' : dense) : Prop :=
  exists a a' mem buf rest n n',
    N.of_nat (length mem) = dense_serializedSize d /\ block a (length mem) /\ block a' (length mem) /\
    dense_serialize a d (mem, 0) = Ok (buf, n) /\ dense_deSerialize a' (buf ++ rest) 0 = Ok (d', n').

(** Built from [keys], or restored any number of times since. *)
Inductive d_part (e : env) (c : config) (keys : list bytes) : dense -> Prop :=
| dp_built : forall d, d_alone e c keys d -> d_part e c keys d
| dp_restored : forall d d', d_part e c keys d -> storable e keys -> d_restored d d' -> d_part e c keys d'.

Definition d_move (e : env) (d : dense) (m : move) (it : diter) : res diter :=
  match m with Fwd => di_next e d it | Bwd => di_prev e d it end.

Fixpoint d_run (e : env) (d : dense) (ms : list move) (it : diter) : res diter :=
  match ms with
  | [] => Ok it
  | m :: r => it' <- d_move e d m it ;; d_run e d r it'
  end.

Definition d_look (e : env) (d : dense) (it : diter) : res view :=
  if di_valid it then
    k <- di_getKey it ;; '(l, w) <- di_getSuffix e d it ;; ks <- di_getKeyWithSuffix e d it 0 ;;
    Ok (mkView true k (l, Some w) ks)
  else Ok (mkView false [] (0, None) ([], 0)).

(** An iterator at key number [i]: it is complete, as it is wherever moves that
    stay on the keys lead.  There it shows the right key, and compare is sound.
    A move off the keys, or one back over a stuck place, makes it invalid. *)
Definition d_stands (e : env) (c : config) (d : dense) (keys : list bytes) (it : diter) (i : nat) : Prop :=
  forall ms j, path keys (d_height d) ms (Some i) (Some j) -> exists it' v,
    d_run e d ms it = Ok it' /\ di_complete it' = true /\ d_look e d it' = Ok v /\ view_at c keys (Some j) v /\
    (forall q, is_bytes q -> exists z, di_compare e d it' q = Ok z /\ cmp_sound c keys (nth j (uniq keys) []) q z) /\
    forall m, ahead keys m (d_height d) (Some j) None -> exists it'', d_move e d m it' = Ok it'' /\ di_valid it'' = false.

(** Which seeks go wrong: with assertions on that for the empty string, and
    those that meet a key that ends inside its own suffix. *)
Definition d_trap (e : env) (c : config) (keys : list bytes) (q : bytes) : Prop :=
  (q = [] /\ asserts e = true) \/ meets_short_key c keys q.

(** [it.setToFirstLabelInRoot(); it.moveToLeftMostKey();] on a new iterator, and
    the same for the last key *)
Definition d_first (e : env) (d : dense) : res diter :=
  it <- di_setToFirstLabelInRoot e d (diter_new d) ;; di_moveToLeftMostKey e d it.
Definition d_last (e : env) (d : dense) : res diter :=
  it <- di_setToLastLabelInRoot e d (diter_new d) ;; di_moveToRightMostKey e d it.
