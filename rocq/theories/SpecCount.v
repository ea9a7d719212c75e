(** Vocabulary for approxCount.  Of the model it uses nothing. *)
From Coq Require Import Arith List NArith Bool.
From Verif Require Import Spec.
Import ListNotations.

(** The part of each key that lies in the first [h] levels, up to the byte that
    tells it from the other keys, has no byte 0 or 255. *)
Definition plain_top (keys : list bytes) (h : nat) : Prop :=
  forall k d, In k keys -> dist_len keys k d -> Forall (fun b => 0 < b < 255) (firstn (Nat.min h d) k).

(** A stored key of [h] - 1 bytes that is a prefix of another one. *)
Definition last_level_prefix (keys : list bytes) (h : nat) : Prop :=
  exists k k', In k keys /\ In k' keys /\ k <> k' /\ S (length k) = h /\ firstn (length k) k' = k.

(** A key from [r] on, or the last key, reaches the last of [h] levels. *)
Definition reaches (keys : list bytes) (h : nat) (r : bytes) : Prop :=
  exists k d, In k keys /\ (kle r k \/ forall x, In x keys -> kle x k) /\ dist_len keys k d /\ h <= d.

(** All keys end in the first [h] levels; or a key after [r], and after some
    key from [r] on, goes deeper than all keys from [l] up to that one. *)
Definition room (keys : list bytes) (h : nat) (l r : bytes) : Prop :=
  (forall k d, In k keys -> dist_len keys k d -> d <= h) \/
  exists d z k d', h <= d /\ In z keys /\ kle r z /\ In k keys /\ klt z k /\ dist_len keys k d' /\ d < d' /\
    forall x dx, In x keys -> kle l x -> kle x z -> dist_len keys x dx -> dx <= d.

(** [xs] lists the keys with property [P], each once. *)
Definition lists (keys xs : list bytes) (P : bytes -> Prop) : Prop :=
  NoDup xs /\ forall x, In x xs <-> In x keys /\ P x.
