(** select64_broadword (C52). *)
From Coq Require Import Arith List NArith ZArith Bool.
From Verif Require Import Res Word Broadword SpecBits BroadFacts Samples SamplesSafe.
Import ListNotations.

(** * C52 *)
(** Positions count from the most significant bit, as in [word_bits]; the
    function counts from the least significant one. *)
Theorem C52_broadword : forall e x k, (x < 2 ^ 64)%N -> k < ones (word_bits x) -> exists p,
  select64_broadword e x (Z.of_nat k) = Ok (63 - Z.of_nat p)%Z /\ p < 64 /\ nth p (word_bits x) false = true /\
  ones (skipn (S p) (word_bits x)) = k.
Proof. exact api_broadword. Qed.
Print Assumptions C52_broadword.
Theorem C52_mirror : forall e x k, (x < 2 ^ 64)%N -> k < ones (word_bits x) ->
  select64_broadword e x (Z.of_nat k) = Ok (63 - select64 x (Z.of_nat (ones (word_bits x) - k)))%Z.
Proof. exact api_broadword_mirror. Qed.
Print Assumptions C52_mirror.
Theorem C52_wide : forall e x k, (x < 2 ^ 64)%N -> ones (word_bits x) <= k -> k < 128 -> strict_shift e = true ->
  select64_broadword e x (Z.of_nat k) = Fail WideShift.
Proof. exact api_broadword_wide. Qed.
Print Assumptions C52_wide.
Example C52_ex : (0xF0F < 2 ^ 64)%N /\ ones (word_bits 0xF0F) = 8 /\ strict_shift e_strict = true /\
  select64_broadword e_strict 0xF0F 5 = Ok 9%Z /\ select64_broadword e_strict 0xF0F 0 = Ok 0%Z /\
  select64_broadword e_strict 0xF0F 7 = Ok 11%Z /\ select64_broadword e_strict 0xF0F 8 = Fail WideShift.
Proof. repeat split; vm_compute; reflexivity. Qed.
(** It cannot take the place of select64. *)
Theorem C52_same_refuted : exists x k, (x < 2 ^ 64)%N /\ (1 <= k < Z.of_nat (ones (word_bits x)))%Z /\
  forall e, select64_broadword e x k <> Ok (select64 x k).
Proof.
  exists 0xF0F%N, 1%Z. split; [reflexivity|]. split; [vm_compute; split; [discriminate|reflexivity]|].
  intros e H. vm_compute in H. discriminate.
Qed.
Print Assumptions C52_same_refuted.
