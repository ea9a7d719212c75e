(** Vocabulary for approxCount of LoudsSparse and LoudsDense objects that are
    used alone.  Of the model it uses only the public calls. *)
From Coq Require Import Arith List NArith ZArith Bool.
From Verif Require Import Res Config Builder Dense Sparse Surf Spec SpecApi SpecIter SpecRange SpecAlone SpecDAlone.
Import ListNotations.

(** Iterators of a LoudsSparse: set to either end, to a key by a seek that does
    not go astray, or moved on from there. *)
Inductive s_gotten (e : env) (s : sparse) (keys : list bytes) : siter -> Prop :=
| s_got_first : forall it, s_first e s = Ok it -> s_gotten e s keys it
| s_got_last : forall it, s_last e s = Ok it -> s_gotten e s keys it
| s_got_gt : forall q incl fp it, is_bytes q -> ~ stray e keys 0 q ->
    s_moveToKeyGreaterThan e s q incl (siter_new s) = Ok (fp, it) -> s_gotten e s keys it
| s_got_move : forall m it it', s_gotten e s keys it -> si_valid it = true -> s_move e s m it = Ok it' ->
    s_gotten e s keys it'.

(** one that shows key number [i] *)
Definition s_shows (e : env) (c : config) (s : sparse) (keys : list bytes) (it : siter) (i : nat) : Prop :=
  s_gotten e s keys it /\ exists v, s_look e s it = Ok v /\ view_at c keys (Some i) v.

(** The same for a LoudsDense. *)
Inductive d_gotten (e : env) (d : dense) (keys : list bytes) : diter -> Prop :=
| d_got_first : forall it, d_first e d = Ok it -> d_gotten e d keys it
| d_got_last : forall it, d_last e d = Ok it -> d_gotten e d keys it
| d_got_gt : forall q incl fp it, is_bytes q -> ~ (q = [] /\ asserts e = true) ->
    d_moveToKeyGreaterThan e d q incl (diter_new d) = Ok (fp, it) -> d_gotten e d keys it
| d_got_move : forall m it it', d_gotten e d keys it -> di_valid it = true -> d_move e d m it = Ok it' ->
    d_gotten e d keys it'.

Definition d_shows (e : env) (c : config) (d : dense) (keys : list bytes) (it : diter) (i : nat) : Prop :=
  d_gotten e d keys it /\ exists v, d_look e d it = Ok v /\ view_at c keys (Some i) v.
