(** Vocabulary for the string hash: LevelDB's hash function in plain arithmetic,
    without words and shifts.  Nothing of the model is used. *)
From Coq Require Import Arith List NArith.
From Verif Require Import Spec.
Import ListNotations.

(** A group of bytes as a number, lowest byte first. *)
Definition number (g : bytes) : N := fold_right (fun b v => (N.of_nat b + 256 * v)%N) 0%N g.

(** Add, multiply, and mix the bits from [s] on into the low ones. *)
Definition stir (s : N) (h v : N) : N :=
  let x := (((h + v) * 0xc6a4a793) mod 2 ^ 32)%N in N.lxor x (x / 2 ^ s)%N.

(** Whole groups of four bytes are stirred in one after the other, then the one
    to three bytes left over, if any. *)
Definition leveldb_hash (k : bytes) (seed : N) : N :=
  let n := length k in
  let start := (N.lxor seed (N.of_nat n * 0xc6a4a793) mod 2 ^ 32)%N in
  let h := fold_left (fun h i => stir 16 h (number (firstn 4 (skipn (4 * i) k)))) (seq 0 (n / 4)) start in
  if n mod 4 =? 0 then h else stir 24 h (number (skipn (4 * (n / 4)) k)).

(** Two strings of one length that differ in one group of four only. *)
Definition one_group (k q : bytes) : Prop :=
  length q = length k /\ q <> k /\
  exists i, firstn (4 * i) q = firstn (4 * i) k /\ skipn (4 * i + 4) q = skipn (4 * i + 4) k.

(** [q] is [k] with another byte at position [i]. *)
Definition changed_at (i : nat) (k q : bytes) : Prop :=
  length q = length k /\ i < length k /\ nth i q 0 <> nth i k 0 /\ forall j, j <> i -> nth j q 0 = nth j k 0.
(** Position [i] is in the last group of [k], which has one to four bytes. *)
Definition in_last_group (k : bytes) (i : nat) : Prop := 4 * ((length k - 1) / 4) <= i.
