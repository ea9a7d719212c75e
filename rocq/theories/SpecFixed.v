(** Vocabulary for keys of one length, integers in particular. *)
From Coq Require Import List NArith Sorting.Sorted.
From Verif Require Import Config Spec.
Import ListNotations.

Definition fixed (n : nat) (keys : list bytes) : Prop := forall k, In k keys -> length k = n.

(** 64-bit integers in ascending order (duplicates allowed). *)
Definition good_ints (ks : list N) : Prop :=
  ks <> [] /\ Forall (fun w => (w < 2 ^ 64)%N) ks /\ StronglySorted N.le ks.

(** The keys of an integer workload: big-endian strings of 8 bytes. *)
Definition int_keys (ks : list N) : list bytes := map uint64ToString ks.

(** The only distinct integer has 255 as its top byte. *)
Definition lone_big (ks : list N) : Prop :=
  exists w, In w ks /\ (255 * 2 ^ 56 <= w)%N /\ forall v, In v ks -> v = w.
