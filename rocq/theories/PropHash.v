(** The string hash and what hash suffixes tell apart: C58.  Only property
    theorems, examples and counterexamples. *)
From Coq Require Import Arith List NArith Bool Lia.
From Verif Require Import Res Config Hash Builder Surf Spec SpecApi SpecFilter SpecExact SpecHash HashFacts Samples SamplesIter SamplesRange.
Import ListNotations.

(** Hash of hash.hpp is LevelDB's hash function, for every string and seed. *)
Theorem C58_hash : forall k seed, Hash k seed = leveldb_hash k seed.
Proof. exact hash_is_leveldb. Qed.
Print Assumptions C58_hash.
(** LevelDB's own test vectors. *)
Example C58_hash_ex :
  leveldb_hash [] 0xbc9f1d34 = 0xbc9f1d34%N /\ leveldb_hash [0x62] 0xbc9f1d34 = 0xef1345c4%N /\
  leveldb_hash [0xc3; 0x97] 0xbc9f1d34 = 0x5b663814%N /\ leveldb_hash [0xe2; 0x99; 0xa5] 0xbc9f1d34 = 0x323c078f%N /\
  leveldb_hash [0xe1; 0x80; 0xb9; 0x32] 0xbc9f1d34 = 0xed21633a%N.
Proof. repeat split; vm_compute; reflexivity. Qed.

(** Strings of one length that differ in one group of four bytes only never have
    the same 32-bit hash. *)
Theorem C58_one_group : forall k q seed, is_bytes k -> is_bytes q -> one_group k q -> Hash q seed <> Hash k seed.
Proof. exact hash_one_group. Qed.
Print Assumptions C58_one_group.
Example C58_one_group_ex : one_group [1; 2; 3; 4; 5; 6; 7; 8; 9] [1; 2; 3; 4; 50; 60; 70; 80; 9].
Proof. split; [reflexivity|]. split; [discriminate|]. exists 1. split; reflexivity. Qed.
(** Two groups can make up for each other. *)
Theorem C58_two_groups_refuted : exists k q seed, is_bytes k /\ is_bytes q /\ length q = length k /\ q <> k /\ Hash q seed = Hash k seed.
Proof.
  exists [0; 0; 0; 0; 0; 0; 0; 0], [1; 0; 0; 0; 210; 193; 90; 57], 0xbc9f1d34%N.
  split; [repeat constructor; lia|]. split; [repeat constructor; lia|]. split; [reflexivity|]. split; [discriminate|]. vm_compute. reflexivity.
Qed.
Print Assumptions C58_two_groups_refuted.

(** A hash suffix of at least 25 bits notices every change of one byte in the
    last group of a stored key; one of at least 17 bits does so if that group is
    not full. *)
Theorem C58_rejects : forall e c keys f, machine e -> settings c -> good_keys keys -> ~ lone_ff keys ->
  padded e c keys f -> filter_of e c keys f -> cf_type c = kHash \/ cf_type c = kMixed ->
  forall k q i, In k keys -> is_bytes q -> follows keys k q -> changed_at i k q -> in_last_group k i -> cf_hlen c <= 57 ->
  25 <= cf_hlen c \/ 17 <= cf_hlen c /\ length k mod 4 <> 0 -> lookupKey e f q = Ok false.
Proof. exact hash_rejects. Qed.
Print Assumptions C58_rejects.

Definition c_hash_len (n : nat) : config := mkCfg true 16 kHash n 0.
Definition keys_h : list bytes := [[1]; [203; 24; 202]].
Lemma keys_h_dist : dist_len keys_h [203; 24; 202] 1.
Proof.
  split; [lia|]. split; [|intros d' L; lia]. intros k' [<-|[<-|[]]] NE; [discriminate|contradiction].
Qed.
Lemma keys_h_small : small keys_h.
Proof.
  exists [[1]; [203; 24; 202]], [1; 1]. split; [intros k H; exact H|]. split; [|vm_compute; discriminate].
  constructor; [|constructor; [exact keys_h_dist|constructor]].
  split; [lia|]. split; [|intros d' L; lia]. intros k' [<-|[<-|[]]] NE; [contradiction|discriminate].
Qed.
Example C58_rejects_ex : let q := [203; 24; 74] in
  settings (c_hash_len 17) /\ good_keys keys_h /\ ~ lone_ff keys_h /\ small keys_h /\ follows keys_h [203; 24; 202] q /\
  changed_at 2 [203; 24; 202] q /\ in_last_group [203; 24; 202] 2 /\ length [203; 24; 202] mod 4 <> 0 /\
  answer e0 (c_hash_len 17) keys_h q = Ok false.
Proof.
  cbv zeta. split; [repeat split; cbn; lia|]. split; [apply good_keysb_ok; reflexivity|].
  split; [intros (k & H & _); apply in_inb in H; discriminate|]. split; [exact keys_h_small|].
  split; [exists 1; split; [exact keys_h_dist|reflexivity]|].
  split; [split; [reflexivity|]; split; [cbn; lia|]; split; [discriminate|]; intros [|[|[|j]]] J; try reflexivity; contradiction|].
  split; [cbv; lia|]. split; [discriminate|]. vm_compute. reflexivity.
Qed.

(** 16 bits are not enough. *)
Theorem C58_16_refuted : exists keys k q i, good_keys keys /\ In k keys /\ is_bytes q /\ follows keys k q /\ changed_at i k q /\
  in_last_group k i /\ length k mod 4 <> 0 /\ answer e0 (c_hash_len 16) keys q = Ok true.
Proof.
  exists keys_h, [203; 24; 202], [203; 24; 74], 2. split; [apply good_keysb_ok; reflexivity|]. split; [right; left; reflexivity|].
  split; [repeat constructor; lia|]. split; [exists 1; split; [exact keys_h_dist|reflexivity]|].
  split; [split; [reflexivity|]; split; [cbn; lia|]; split; [discriminate|]; intros [|[|[|j]]] J; try reflexivity; contradiction|].
  split; [cbv; lia|]. split; [discriminate|]. vm_compute. reflexivity.
Qed.
Print Assumptions C58_16_refuted.

(** Nor is any length enough if the byte is in an earlier group. *)
Theorem C58_earlier_refuted : exists keys k q i, good_keys keys /\ In k keys /\ is_bytes q /\ follows keys k q /\ changed_at i k q /\
  forall n, In n [25; 32; 57] -> answer e0 (c_hash_len n) keys q = Ok true.
Proof.
  exists [[1]; [165; 170; 38; 77; 248; 189; 184; 111; 144]], [165; 170; 38; 77; 248; 189; 184; 111; 144], [165; 243; 38; 77; 248; 189; 184; 111; 144], 1.
  split; [apply good_keysb_ok; reflexivity|]. split; [right; left; reflexivity|]. split; [repeat constructor; lia|].
  split.
  { exists 1. split; [|reflexivity]. split; [lia|]. split; [|intros d' L; lia]. intros k' [<-|[<-|[]]] NE; [discriminate|contradiction]. }
  split.
  { split; [reflexivity|]. split; [cbn; lia|]. split; [discriminate|]. intros [|[|j]] J; try reflexivity. contradiction. }
  intros n [<-|[<-|[<-|[]]]]; vm_compute; reflexivity.
Qed.
Print Assumptions C58_earlier_refuted.
