(** Vocabulary for comparing range queries on two filters over the same keys. *)
From Coq Require Import Arith List.
From Verif Require Import Res Config Builder Spec SpecApi SpecIter SpecRange SpecExact.
Import ListNotations.

(** The dense parts are equally high, or no stored key is a proper prefix of
    another one. *)
Definition same_part (keys : list bytes) (h h' : nat) : Prop :=
  h = h' \/ forall k, In k keys -> ~ inner keys k.

(** The same real suffixes; hash bits may differ. *)
Definition same_real (c c' : config) : Prop :=
  (keeps_real c <-> keeps_real c') /\ (keeps_real c -> cf_rlen c = cf_rlen c').

(** Both keep real suffixes, those of [c] at least as long. *)
Definition longer_real (c c' : config) : Prop := keeps_real c /\ keeps_real c' /\ cf_rlen c' <= cf_rlen c.

(** [x] does not end inside the real suffix of a key it follows. *)
Definition not_short (c : config) (keys : list bytes) (x : bytes) : Prop :=
  forall k d, In k keys -> dist_len keys k d -> firstn d x = firstn d k -> whole c x d.
(** The place [p] is not after [p']; past the last key comes last. *)
Definition no_later (p p' : option nat) : Prop :=
  match p, p' with
  | _, None => True
  | None, Some _ => False
  | Some i, Some i' => i <= i'
  end.

(** There is a key at the place. *)
Definition present (p : option nat) : bool := match p with Some _ => true | None => false end.
