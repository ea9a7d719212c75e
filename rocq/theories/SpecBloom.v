(** Vocabulary for the Bloom filter property. *)
From Coq Require Import Arith List NArith.
Import ListNotations.

(** The j-th probe for a hash pair in an array of [bits] bits. *)
Definition probe (bits : N) (hd : N * N) (j : nat) : N :=
  (((fst hd + N.of_nat j * snd hd) mod 2 ^ 32) mod bits)%N.

(** The size of the bit array: at least 64, in whole bytes. *)
Definition bloom_size (bits_per_key n : nat) (bits : N) : Prop :=
  exists m, bits = (8 * m)%N /\ (64 <= bits)%N /\ (N.of_nat (n * bits_per_key) <= bits)%N /\
    (bits < N.max 64 (N.of_nat (n * bits_per_key)) + 8)%N.

(** The number of probes: [x] clamped to 1..30. *)
Definition probes (x : nat) : nat := Nat.min 30 (Nat.max 1 x).

(** [q] hits only bits that some of the keys set. *)
Definition all_hit {K} (hash : K -> N * N) (bits : N) (k : nat) (keys : list K) (q : K) : Prop :=
  forall j, j < k -> exists key j', In key keys /\ j' < k /\ probe bits (hash q) j = probe bits (hash key) j'.

Definition hash_ok {K} (hash : K -> N * N) : Prop := forall k, (fst (hash k) < 2 ^ 32)%N /\ (snd (hash k) < 2 ^ 32)%N.
