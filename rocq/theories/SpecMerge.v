(** Vocabulary for filters of the parts of a key list. *)
From Coq Require Import Arith List.
From Verif Require Import Res Config Builder Spec SpecApi SpecIter SpecRange.
Import ListNotations.

(** [keys] holds the keys of [a] and [b] and no others. *)
Definition parts (keys a b : list bytes) : Prop := forall k, In k keys <-> In k a \/ In k b.

(** The real suffixes of the keys that [q] follows are complete; with kReal they
    are not zero, with kMixed the bits of [q] there are complete too. *)
Definition full_suffixes (c : config) (keys : list bytes) (q : bytes) : Prop :=
  forall k d, In k keys -> dist_len keys k d -> firstn d q = firstn d k ->
    next_bits k d (cf_rlen c) <> None /\
    (cf_type c = kReal -> ~ all_zero (next_bits0 k d (cf_rlen c))) /\
    (cf_type c = kMixed -> next_bits q d (cf_rlen c) <> None).
