(** The baseline Bloom filter: C36.  Only property theorems, examples and
    counterexamples. *)
From Coq Require Import Arith List NArith Bool Lia.
From Verif Require Import Res Bloom SpecBloom BloomFacts.
Import ListNotations.

(** [flt] is what CreateFilter appends to the destination string. *)
Theorem C36_no_false_negative : forall (K : Type) (hash : K -> N * N) b x keys n dst, hash_ok hash -> n <= length keys ->
  exists flt, CreateFilter K hash b x keys n dst = Ok (dst ++ flt) /\
    forall k, In k (firstn n keys) -> KeyMayMatch K hash k flt = Ok true.
Proof. exact bloom_no_miss. Qed.
Print Assumptions C36_no_false_negative.

Theorem C36_exact : forall (K : Type) (hash : K -> N * N) b x keys n dst, hash_ok hash -> n <= length keys ->
  exists flt bits, CreateFilter K hash b x keys n dst = Ok (dst ++ flt) /\ bloom_size b n bits /\ (8 * N.of_nat (length flt) = bits + 8)%N /\
    forall q, exists r, KeyMayMatch K hash q flt = Ok r /\
      (r = true <-> all_hit hash bits (probes x) (firstn n keys) q).
Proof. exact bloom_exact. Qed.
Print Assumptions C36_exact.

Definition toy_hash (k : N) : N * N := ((k * 2654435761) mod 2 ^ 32, (k * 40503 + 1) mod 2 ^ 32)%N.
Definition toy_keys : list N := [3; 14; 159; 26; 535; 897; 93; 238; 462]%N.
Example C36_ex : hash_ok toy_hash /\ 9 <= length toy_keys /\
  (flt <- FilterBloom N toy_hash 6 toy_keys ;; a <- KeyMayMatch N toy_hash 535%N flt ;; b <- KeyMayMatch N toy_hash 536%N flt ;;
   Ok (length flt, a, b)) = Ok (13, true, false).
Proof.
  split; [intros k; split; apply N.mod_lt; discriminate|]. split; [cbn; lia|vm_compute; reflexivity].
Qed.

(** Appended to a non-empty string, the filter must be cut out again: looked up
    in the whole string keys are lost. *)
Theorem C36_whole_string_refuted : exists dst k flt, CreateFilter N toy_hash 10 6 toy_keys 9 dst = Ok flt /\
  In k toy_keys /\ KeyMayMatch N toy_hash k flt = Ok false.
Proof.
  eexists [65%N], 3%N, _. split; [vm_compute; reflexivity|]. split; [left; reflexivity|vm_compute; reflexivity].
Qed.
Print Assumptions C36_whole_string_refuted.
