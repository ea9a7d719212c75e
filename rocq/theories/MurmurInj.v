(** MurmurHash3_x86_128 loses nothing: every step can be undone. *)
From Coq Require FinFun.
From Coq Require Import List NArith ZArith Arith Bool Lia.
From Verif Require Import Res Word Config Spec SpecMurmur Murmur MurmurFacts.
From Verif Require HashFacts SpecHash BitvectorFacts IntKeys Bloom Bench BenchFacts.
Import ListNotations.
Local Open Scope N_scope.

Lemma p32 : two32 = 2 ^ 32. Proof. reflexivity. Qed.
Lemma nz32 : 2 ^ 32 <> 0. Proof. discriminate. Qed.
Lemma lt_bits : forall x, x < 2 ^ 32 -> forall i, 32 <= i -> N.testbit x i = false.
Proof.
  intros x H i Hi. rewrite <- (N.mod_small x (2 ^ 32)) by exact H. apply N.mod_pow2_bits_high. exact Hi.
Qed.
Lemma bits_lt : forall x, (forall i, 32 <= i -> N.testbit x i = false) -> x < 2 ^ 32.
Proof.
  intros x H. replace x with (x mod 2 ^ 32); [apply N.mod_lt; exact nz32|]. apply N.bits_inj. intros i.
  destruct (N.lt_ge_cases i 32) as [L|L]; [apply N.mod_pow2_bits_low; exact L|]. rewrite N.mod_pow2_bits_high by exact L. symmetry. auto.
Qed.
Lemma lxor_lt : forall a b, a < 2 ^ 32 -> b < 2 ^ 32 -> N.lxor a b < 2 ^ 32.
Proof. intros a b A B. apply bits_lt. intros i Hi. rewrite N.lxor_spec, (lt_bits a A i Hi), (lt_bits b B i Hi). reflexivity. Qed.
Lemma mul_lt : forall a b, mul32 a b < 2 ^ 32. Proof. intros. apply wrap_lt. Qed.
Lemma add_lt : forall a b, add32 a b < 2 ^ 32. Proof. intros. apply wrap_lt. Qed.

Lemma lxor_inj_r : forall a b c, N.lxor a b = N.lxor a c -> b = c.
Proof.
  intros a b c H. rewrite <- (N.lxor_0_l b), <- (N.lxor_0_l c), <- (N.lxor_nilpotent a), !N.lxor_assoc, H. reflexivity.
Qed.
Lemma lxor_inj_l : forall a b c, N.lxor b a = N.lxor c a -> b = c.
Proof. intros a b c H. apply (lxor_inj_r a). rewrite (N.lxor_comm a b), (N.lxor_comm a c). exact H. Qed.

Lemma shift_inj : forall s x y, 0 < s -> N.lxor x (N.shiftr x s) = N.lxor y (N.shiftr y s) -> x = y.
Proof.
  intros s x y Hs H. assert (D : N.lxor x y = N.shiftr (N.lxor x y) s).
  { rewrite N.shiftr_lxor. apply N.lxor_eq. rewrite <- (N.lxor_nilpotent (N.lxor x (N.shiftr x s))). rewrite H at 2.
    rewrite !N.lxor_assoc. f_equal. rewrite <- !N.lxor_assoc. f_equal. apply N.lxor_comm. }
  apply N.lxor_eq. rewrite N.shiftr_div_pow2 in D. destruct (N.eq_dec (N.lxor x y) 0) as [|NZ]; auto. exfalso.
  assert (1 < 2 ^ s) by (apply N.pow_gt_1; lia). pose proof (N.div_lt (N.lxor x y) (2 ^ s) ltac:(lia) ltac:(lia)). lia.
Qed.

Lemma mul_inj : forall c c' a b, (c * c') mod 2 ^ 32 = 1 -> a < 2 ^ 32 -> b < 2 ^ 32 -> mul32 a c = mul32 b c -> a = b.
Proof.
  intros c c' a b C A B H. unfold mul32, wrap32 in H. rewrite p32 in H.
  assert (Q : forall x, x < 2 ^ 32 -> (((x * c) mod 2 ^ 32) * c') mod 2 ^ 32 = x).
  { intros x X. rewrite N.mul_mod_idemp_l by exact nz32. rewrite <- N.mul_assoc, <- N.mul_mod_idemp_r, C, N.mul_1_r by exact nz32. apply N.mod_small. exact X. }
  rewrite <- (Q a A), <- (Q b B), H. reflexivity.
Qed.
Lemma add_inj : forall g a b, a < 2 ^ 32 -> b < 2 ^ 32 -> add32 a g = add32 b g -> a = b.
Proof.
  intros g a b A B H. unfold add32, wrap32 in H. rewrite p32, (N.add_comm a), (N.add_comm b) in H. exact (HashFacts.add_mod_inj a b g A B H).
Qed.

Lemma rotl_bits : forall x r i, x < 2 ^ 32 -> 0 < r -> r < 32 -> i < 32 ->
  N.testbit (rotl32 x r) i = if i <? r then N.testbit x (i + 32 - r) else N.testbit x (i - r).
Proof.
  intros x r i X R1 R2 I. unfold rotl32, wrap32. rewrite p32, N.lor_spec, N.mod_pow2_bits_low, N.shiftr_spec' by lia.
  destruct (N.ltb_spec i r) as [L|L].
  - rewrite N.shiftl_spec_low by lia. cbn [orb]. f_equal. lia.
  - rewrite N.shiftl_spec_high' by lia. rewrite (lt_bits x X (i + (32 - r))) by lia. apply orb_false_r.
Qed.
Lemma rotl_inj : forall r x y, 0 < r -> r < 32 -> x < 2 ^ 32 -> y < 2 ^ 32 -> rotl32 x r = rotl32 y r -> x = y.
Proof.
  intros r x y R1 R2 X Y H. apply N.bits_inj. intros i. destruct (N.lt_ge_cases i 32) as [L|L].
  2: { rewrite (lt_bits x X i L), (lt_bits y Y i L). reflexivity. }
  destruct (N.lt_ge_cases i (32 - r)) as [G|G].
  - pose proof (rotl_bits x r (i + r) X R1 R2 ltac:(lia)) as A. pose proof (rotl_bits y r (i + r) Y R1 R2 ltac:(lia)) as B.
    destruct (N.ltb_spec (i + r) r) as [Q|Q]; [lia|]. replace (i + r - r) with i in * by lia. congruence.
  - pose proof (rotl_bits x r (i + r - 32) X R1 R2 ltac:(lia)) as A. pose proof (rotl_bits y r (i + r - 32) Y R1 R2 ltac:(lia)) as B.
    destruct (N.ltb_spec (i + r - 32) r) as [Q|Q]; [|lia]. replace (i + r - 32 + 32 - r) with i in * by lia. congruence.
Qed.
Lemma rotl_lt : forall x r, x < 2 ^ 32 -> r < 32 -> rotl32 x r < 2 ^ 32.
Proof.
  intros x r X R. apply bits_lt. intros i I. unfold rotl32. rewrite N.lor_spec, (lt_bits _ (wrap_lt _) i I), N.shiftr_spec' , (lt_bits x X) by lia. reflexivity.
Qed.

Lemma scramble_lt : forall k c r c', scramble k c r c' < 2 ^ 32. Proof. intros. apply mul_lt. Qed.
Lemma scramble_inj : forall c ci r c' ci' k k', (c * ci) mod 2 ^ 32 = 1 -> (c' * ci') mod 2 ^ 32 = 1 -> 0 < r -> r < 32 ->
  k < 2 ^ 32 -> k' < 2 ^ 32 -> scramble k c r c' = scramble k' c r c' -> k = k'.
Proof.
  intros c ci r c' ci' k k' C C' R1 R2 K K' H. unfold scramble in H.
  apply (mul_inj c' ci') in H; try apply rotl_lt; try apply mul_lt; auto.
  apply rotl_inj in H; try apply mul_lt; auto. apply (mul_inj c ci) in H; auto.
Qed.
Lemma stir_lt : forall h k r g d, stir h k r g d < 2 ^ 32. Proof. intros. apply add_lt. Qed.
Lemma stir_inj : forall h k h' k' r g d, 0 < r -> r < 32 -> h < 2 ^ 32 -> k < 2 ^ 32 -> h' < 2 ^ 32 -> k' < 2 ^ 32 ->
  stir h k r g d = stir h' k' r g d -> N.lxor h k = N.lxor h' k'.
Proof.
  intros h k h' k' r g d R1 R2 A B A' B' H. unfold stir in H. apply add_inj in H; try apply mul_lt.
  apply (mul_inj 5 0xcccccccd) in H; [|reflexivity|apply add_lt|apply add_lt].
  apply add_inj in H; [|apply rotl_lt; [apply lxor_lt; auto|auto]|apply rotl_lt; [apply lxor_lt; auto|auto]].
  apply rotl_inj in H; auto; apply lxor_lt; auto.
Qed.

Lemma shiftr_lt : forall x s, x < 2 ^ 32 -> N.shiftr x s < 2 ^ 32.
Proof. intros x s X. apply bits_lt. intros i I. rewrite N.shiftr_spec'. apply lt_bits; auto. lia. Qed.
Lemma fmix_inj : forall a b, a < 2 ^ 32 -> b < 2 ^ 32 -> fmix32 a = fmix32 b -> a = b.
Proof.
  intros a b A B H. unfold fmix32 in H. apply shift_inj in H; [|reflexivity].
  apply (mul_inj 0xc2b2ae35 0x7ed1b41d) in H; [|vm_compute; reflexivity| |]; try (apply lxor_lt; [|apply shiftr_lt]; apply mul_lt).
  apply shift_inj in H; [|reflexivity].
  apply (mul_inj 0x85ebca6b 0xa5cb9243) in H; [|vm_compute; reflexivity| |]; try (apply lxor_lt; [|apply shiftr_lt]; assumption).
  apply shift_inj in H; [exact H|reflexivity].
Qed.
Lemma fmix_lt : forall a, fmix32 a < 2 ^ 32.
Proof. intros a. unfold fmix32. apply lxor_lt; [|apply shiftr_lt]; apply mul_lt. Qed.

(** ** the words of a string *)
Notation number := SpecHash.number.
Definition wd (d : bytes) (a m : nat) : N := number (firstn m (skipn a d)).

Lemma vget_skipn : forall (d : bytes) a j x, nth_error (skipn a d) j = Some x -> vget d (a + j) = Ok x.
Proof.
  intros d a j x H. unfold vget. replace (nth_error d (a + j)) with (nth_error (skipn a d) j); [rewrite H; reflexivity|].
  clear. revert d. induction a as [|a IH]; intros d; [reflexivity|]. destruct d as [|y d]; [destruct j; reflexivity|]. cbn [skipn Nat.add nth_error]. apply IH.
Qed.

Lemma getblock_ok : forall d i, (4 * i + 4 <= length d)%nat -> getblock32 d i = Ok (wd d (4 * i) 4).
Proof.
  intros d i H. unfold getblock32, wd. pose proof (skipn_length (4 * i) d) as L.
  pose proof (vget_skipn d (4 * i)) as V. destruct (skipn (4 * i) d) as [|x0 [|x1 [|x2 [|x3 t]]]]; cbn [length] in L; try lia.
  pose proof (V 0%nat x0 eq_refl) as V0. rewrite Nat.add_0_r in V0. rewrite V0. cbn [bind].
  rewrite (V 1%nat x1 eq_refl). cbn [bind]. rewrite (V 2%nat x2 eq_refl). cbn [bind]. rewrite (V 3%nat x3 eq_refl). cbn [bind].
  rewrite HashFacts.number_le. reflexivity.
Qed.

Lemma byte_xor : forall b v, (b < 256)%nat -> N.lxor (N.shiftl v 8) (N.of_nat b) = N.of_nat b + 256 * v.
Proof.
  intros b v H. rewrite <- N.add_nocarry_lxor.
  - rewrite N.shiftl_mul_pow2. change (2 ^ 8) with 256. lia.
  - apply N.bits_inj. intros i. rewrite N.land_spec, N.bits_0. destruct (N.lt_ge_cases i 8) as [L|L].
    + rewrite N.shiftl_spec_low by exact L. reflexivity.
    + assert (B : N.testbit (N.of_nat b) i = false); [|rewrite B; apply andb_false_r].
      rewrite <- (N.mod_small (N.of_nat b) (2 ^ 8)) by (change (2 ^ 8) with 256; lia). apply N.mod_pow2_bits_high. exact L.
Qed.

Lemma word_ok : forall t a m, is_bytes t -> (m <= 4)%nat -> (a + m <= length t)%nat -> mur_word t a m = Ok (wd t a m).
Proof.
  intros t a m HB HM H. unfold mur_word, wd. pose proof (skipn_length a t) as L. pose proof (HashFacts.bytes_skipn a t HB) as HS.
  pose proof (vget_skipn t a) as V. remember (skipn a t) as u eqn:Hu. clear Hu.
  assert (S8 : forall x n, N.shiftl x (8 + n) = N.shiftl (N.shiftl x n) 8) by (intros; rewrite N.shiftl_shiftl; f_equal; lia).
  assert (Z : forall x, N.shiftl x (8 * N.of_nat 0) = x) by (intros; apply N.shiftl_0_r).
  destruct m as [|[|[|[|[|m]]]]]; try lia; [reflexivity| | | |].
  - destruct u as [|x0 u]; cbn [length] in L; try lia. inversion HS; subst.
    cbn [seq rev app foldM]. rewrite (V 0%nat x0 eq_refl). cbn [bind]. rewrite Z, N.lxor_0_l. f_equal. cbn. lia.
  - destruct u as [|x0 [|x1 u]]; cbn [length] in L; try lia. inversion HS as [|? ? B0 HS1]; subst. inversion HS1 as [|? ? B1 HS2]; subst.
    cbn [seq rev app foldM]. rewrite (V 1%nat x1 eq_refl). cbn [bind]. rewrite (V 0%nat x0 eq_refl). cbn [bind]. rewrite Z, N.lxor_0_l.
    change (8 * N.of_nat 1) with 8. rewrite byte_xor by exact B0. f_equal. cbn [firstn number fold_right]. unfold number. cbn [fold_right]. lia.
  - destruct u as [|x0 [|x1 [|x2 u]]]; cbn [length] in L; try lia. inversion HS as [|? ? B0 HS1]; subst. inversion HS1 as [|? ? B1 HS2]; subst.
    inversion HS2 as [|? ? B2 HS3]; subst.
    cbn [seq rev app foldM]. rewrite (V 2%nat x2 eq_refl). cbn [bind]. rewrite (V 1%nat x1 eq_refl). cbn [bind]. rewrite (V 0%nat x0 eq_refl). cbn [bind].
    rewrite Z, N.lxor_0_l. change (8 * N.of_nat 2) with (8 + 8). change (8 * N.of_nat 1) with 8. rewrite S8, <- N.shiftl_lxor.
    rewrite byte_xor by exact B0. rewrite byte_xor by exact B1. f_equal. cbn [firstn]. unfold number. cbn [fold_right]. lia.
  - destruct u as [|x0 [|x1 [|x2 [|x3 u]]]]; cbn [length] in L; try lia. inversion HS as [|? ? B0 HS1]; subst. inversion HS1 as [|? ? B1 HS2]; subst.
    inversion HS2 as [|? ? B2 HS3]; subst. inversion HS3 as [|? ? B3 HS4]; subst.
    cbn [seq rev app foldM]. rewrite (V 3%nat x3 eq_refl). cbn [bind]. rewrite (V 2%nat x2 eq_refl). cbn [bind].
    rewrite (V 1%nat x1 eq_refl). cbn [bind]. rewrite (V 0%nat x0 eq_refl). cbn [bind].
    rewrite Z, N.lxor_0_l. change (8 * N.of_nat 3) with (8 + (8 + 8)). change (8 * N.of_nat 2) with (8 + 8). change (8 * N.of_nat 1) with 8.
    rewrite !S8, <- !N.shiftl_lxor. rewrite byte_xor by exact B0. rewrite byte_xor by exact B1. rewrite byte_xor by exact B2.
    f_equal. cbn [firstn]. unfold number. cbn [fold_right]. lia.
Qed.

Lemma wd_lt : forall d a m, is_bytes d -> (m <= 4)%nat -> wd d a m < 2 ^ 32.
Proof.
  intros d a m H L. apply HashFacts.number_32; [apply HashFacts.bytes_firstn, HashFacts.bytes_skipn, H|]. rewrite firstn_length. lia.
Qed.
Lemma wd_inj : forall d d' a m, is_bytes d -> is_bytes d' -> length d = length d' -> wd d a m = wd d' a m -> firstn m (skipn a d) = firstn m (skipn a d').
Proof.
  intros d d' a m H H' L E. apply HashFacts.number_inj; auto; try (apply HashFacts.bytes_firstn, HashFacts.bytes_skipn; assumption).
  rewrite !firstn_length, !skipn_length, L. reflexivity.
Qed.

(** ** one round *)
Definition ok4 (st : mstate) : Prop := let '(a, b, c, d) := st in a < 2 ^ 32 /\ b < 2 ^ 32 /\ c < 2 ^ 32 /\ d < 2 ^ 32.
Definition rnd (st : mstate) (k1 k2 k3 k4 : N) : mstate :=
  let '(h1, h2, h3, h4) := st in
  let h1 := stir h1 (scramble k1 mc1 15 mc2) 19 h2 0x561ccd1b in
  let h2 := stir h2 (scramble k2 mc2 16 mc3) 17 h3 0x0bcaa747 in
  let h3 := stir h3 (scramble k3 mc3 17 mc4) 15 h4 0x96cd1c35 in
  let h4 := stir h4 (scramble k4 mc4 18 mc1) 13 h1 0x32ac3b17 in
  (h1, h2, h3, h4).
Lemma rnd_ok : forall st a b c d, ok4 (rnd st a b c d).
Proof. intros [[[h1 h2] h3] h4] a b c d. cbn. repeat split; apply stir_lt. Qed.

Lemma sc1 : forall k k', k < 2 ^ 32 -> k' < 2 ^ 32 -> scramble k mc1 15 mc2 = scramble k' mc1 15 mc2 -> k = k'.
Proof. intros k k' K K'. apply (scramble_inj mc1 0x89c95413 15 mc2 0xdf130eb9); auto; vm_compute; reflexivity. Qed.
Lemma sc2 : forall k k', k < 2 ^ 32 -> k' < 2 ^ 32 -> scramble k mc2 16 mc3 = scramble k' mc2 16 mc3 -> k = k'.
Proof. intros k k' K K'. apply (scramble_inj mc2 0xdf130eb9 16 mc3 0x747862ed); auto; vm_compute; reflexivity. Qed.
Lemma sc3 : forall k k', k < 2 ^ 32 -> k' < 2 ^ 32 -> scramble k mc3 17 mc4 = scramble k' mc3 17 mc4 -> k = k'.
Proof. intros k k' K K'. apply (scramble_inj mc3 0x747862ed 17 mc4 0x58d64a9b); auto; vm_compute; reflexivity. Qed.
Lemma sc4 : forall k k', k < 2 ^ 32 -> k' < 2 ^ 32 -> scramble k mc4 18 mc1 = scramble k' mc4 18 mc1 -> k = k'.
Proof. intros k k' K K'. apply (scramble_inj mc4 0x58d64a9b 18 mc1 0x89c95413); auto; vm_compute; reflexivity. Qed.

Ltac side := first [assumption|apply scramble_lt|reflexivity].
Lemma rnd_state : forall st st' a b c d, ok4 st -> ok4 st' -> rnd st a b c d = rnd st' a b c d -> st = st'.
Proof.
  intros [[[h1 h2] h3] h4] [[[g1 g2] g3] g4] a b c d (A1 & A2 & A3 & A4) (B1 & B2 & B3 & B4) H. unfold rnd in H. injection H as E1 E2 E3 E4.
  rewrite E1 in E4. apply stir_inj in E4; try side. apply lxor_inj_l in E4. subst g4.
  apply stir_inj in E3; try side. apply lxor_inj_l in E3. subst g3.
  apply stir_inj in E2; try side. apply lxor_inj_l in E2. subst g2.
  apply stir_inj in E1; try side. apply lxor_inj_l in E1. subst g1. reflexivity.
Qed.
Lemma rnd_words : forall st a b c d a' b' c' d', ok4 st -> a < 2 ^ 32 -> b < 2 ^ 32 -> c < 2 ^ 32 -> d < 2 ^ 32 ->
  a' < 2 ^ 32 -> b' < 2 ^ 32 -> c' < 2 ^ 32 -> d' < 2 ^ 32 -> rnd st a b c d = rnd st a' b' c' d' -> a = a' /\ b = b' /\ c = c' /\ d = d'.
Proof.
  intros [[[h1 h2] h3] h4] a b c d a' b' c' d' (A1 & A2 & A3 & A4) P1 P2 P3 P4 Q1 Q2 Q3 Q4 H. unfold rnd in H. injection H as E1 E2 E3 E4.
  rewrite E1 in E4. apply stir_inj in E4; try side. apply lxor_inj_r, sc4 in E4; auto.
  apply stir_inj in E3; try side. apply lxor_inj_r, sc3 in E3; auto.
  apply stir_inj in E2; try side. apply lxor_inj_r, sc2 in E2; auto.
  apply stir_inj in E1; try side. apply lxor_inj_r, sc1 in E1; auto.
Qed.

(** ** all rounds *)
Definition step (d : bytes) (st : mstate) (i : nat) : mstate :=
  rnd st (wd d (16 * i) 4) (wd d (16 * i + 4) 4) (wd d (16 * i + 8) 4) (wd d (16 * i + 12) 4).
Lemma round_ok : forall d st i, (16 * i + 16 <= length d)%nat -> mur_round d st i = Ok (step d st i).
Proof.
  intros d [[[h1 h2] h3] h4] i H. unfold mur_round, step.
  rewrite (getblock_ok d (4 * i)), (getblock_ok d (4 * i + 1)), (getblock_ok d (4 * i + 2)), (getblock_ok d (4 * i + 3)) by lia. cbn [bind].
  replace (4 * (4 * i))%nat with (16 * i)%nat by lia. replace (4 * (4 * i + 1))%nat with (16 * i + 4)%nat by lia.
  replace (4 * (4 * i + 2))%nat with (16 * i + 8)%nat by lia. replace (4 * (4 * i + 3))%nat with (16 * i + 12)%nat by lia. reflexivity.
Qed.
Lemma rounds_ok : forall d l st, (forall i, In i l -> (16 * i + 16 <= length d)%nat) -> foldM (mur_round d) l st = Ok (fold_left (step d) l st).
Proof.
  intros d. induction l as [|i l IH]; intros st H; cbn [foldM fold_left]; [reflexivity|].
  rewrite round_ok by (apply H; left; reflexivity). cbn [bind]. apply IH. intros j J. apply H. right. exact J.
Qed.
Lemma step_ok : forall d st i, ok4 (step d st i). Proof. intros. apply rnd_ok. Qed.
Lemma fold_ok : forall d l st, ok4 st -> ok4 (fold_left (step d) l st).
Proof. intros d. induction l as [|i l IH]; intros st H; cbn [fold_left]; auto. apply IH, step_ok. Qed.

Lemma wd_same : forall (d d' : bytes) a m, firstn m (skipn a d) = firstn m (skipn a d') -> wd d a m = wd d' a m.
Proof. intros d d' a m H. unfold wd. rewrite H. reflexivity. Qed.
Lemma sub_same : forall (d d' : bytes) a k b m, (a <= b)%nat -> (b + m <= a + k)%nat -> firstn k (skipn a d) = firstn k (skipn a d') ->
  firstn m (skipn b d) = firstn m (skipn b d').
Proof.
  assert (G : forall (d : bytes) a k b m, (a <= b)%nat -> (b + m <= a + k)%nat -> firstn m (skipn b d) = firstn m (skipn (b - a) (firstn k (skipn a d)))).
  { intros d a k b m H1 H2. rewrite skipn_firstn_comm, firstn_firstn, BitvectorFacts.skipn_skipn'. f_equal; [lia|]. f_equal. lia. }
  intros d d' a k b m H1 H2 E. rewrite (G d a k b m H1 H2), (G d' a k b m H1 H2), E. reflexivity.
Qed.
Definition same16 (d d' : bytes) (i : nat) : Prop := firstn 16 (skipn (16 * i) d) = firstn 16 (skipn (16 * i) d').
Lemma step_same : forall d d' st i, same16 d d' i -> step d st i = step d' st i.
Proof.
  intros d d' st i H. unfold step, same16 in *. f_equal; apply wd_same; apply (sub_same d d' (16 * i) 16); auto; lia.
Qed.
Lemma step_state : forall d st st' i, ok4 st -> ok4 st' -> step d st i = step d st' i -> st = st'.
Proof. intros d st st' i A B. apply rnd_state; auto. Qed.
Lemma step_words : forall d d' st i, is_bytes d -> is_bytes d' -> length d = length d' -> ok4 st -> step d st i = step d' st i -> same16 d d' i.
Proof.
  intros d d' st i B B' L S H. unfold step in H. apply rnd_words in H; try (apply wd_lt; auto; lia); auto. destruct H as (H1 & H2 & H3 & H4).
  apply wd_inj in H1, H2, H3, H4; auto. unfold same16.
  assert (G : forall x : bytes, firstn 16 (skipn (16 * i) x) = firstn 4 (skipn (16 * i) x) ++ firstn 4 (skipn (16 * i + 4) x) ++
     firstn 4 (skipn (16 * i + 8) x) ++ firstn 4 (skipn (16 * i + 12) x)).
  { intros x. rewrite <- !(BitvectorFacts.skipn_skipn' _ x). generalize (skipn (16 * i) x) as y. clear. intros y.
    do 16 (destruct y as [|? y]; [reflexivity|]). reflexivity. }
  rewrite !G, H1, H2, H3, H4. reflexivity.
Qed.
Lemma fold_same : forall d d' l st, (forall i, In i l -> same16 d d' i) -> fold_left (step d) l st = fold_left (step d') l st.
Proof.
  intros d d'. induction l as [|i l IH]; intros st H; cbn [fold_left]; [reflexivity|]. rewrite (step_same d d') by (apply H; left; reflexivity).
  apply IH. intros j J. apply H. right. exact J.
Qed.
Lemma fold_state : forall d l st st', ok4 st -> ok4 st' -> fold_left (step d) l st = fold_left (step d) l st' -> st = st'.
Proof.
  intros d. induction l as [|i l IH]; intros st st' A B H; cbn [fold_left] in H; [exact H|].
  apply IH in H; try apply step_ok. apply step_state in H; auto.
Qed.

(** ** the tail and the end *)
Definition tailp (t : bytes) (n : nat) (st : mstate) : mstate :=
  let '(h1, h2, h3, h4) := st in
  ((if (0 <? n)%nat then N.lxor h1 (scramble (wd t 0 (Nat.min 4 n)) mc1 15 mc2) else h1),
   (if (4 <? n)%nat then N.lxor h2 (scramble (wd t 4 (Nat.min 4 (n - 4))) mc2 16 mc3) else h2),
   (if (8 <? n)%nat then N.lxor h3 (scramble (wd t 8 (Nat.min 4 (n - 8))) mc3 17 mc4) else h3),
   (if (12 <? n)%nat then N.lxor h4 (scramble (wd t 12 (n - 12)) mc4 18 mc1) else h4)).
Lemma tail_ok : forall t n st, is_bytes t -> length t = n -> (n <= 15)%nat -> mur_tail t n st = Ok (tailp t n st).
Proof.
  intros t n [[[h1 h2] h3] h4] B L H. unfold mur_tail, tailp.
  destruct (Nat.ltb_spec 12 n) as [G4|G4]; [rewrite (word_ok t 12) by (auto; lia)|]; cbn [bind];
  (destruct (Nat.ltb_spec 8 n) as [G3|G3]; [rewrite (word_ok t 8) by (auto; lia)|]; cbn [bind];
  (destruct (Nat.ltb_spec 4 n) as [G2|G2]; [rewrite (word_ok t 4) by (auto; lia)|]; cbn [bind];
  (destruct (Nat.ltb_spec 0 n) as [G1|G1]; [rewrite (word_ok t 0) by (auto; lia)|]; cbn [bind]; reflexivity))).
Qed.
Lemma tailp_ok : forall t n st, ok4 st -> ok4 (tailp t n st).
Proof.
  intros t n [[[h1 h2] h3] h4] (A1 & A2 & A3 & A4). unfold tailp, ok4.
  repeat split; match goal with |- context [if ?b then _ else _] => destruct b; auto; apply lxor_lt; auto; apply scramble_lt end.
Qed.
Lemma quad_inj : forall a b c d a' b' c' d' : N, (a, b, c, d) = (a', b', c', d') -> a = a' /\ b = b' /\ c = c' /\ d = d'.
Proof. intros. injection H; auto. Qed.
Lemma tailp_state : forall t n st st', tailp t n st = tailp t n st' -> st = st'.
Proof.
  intros t n [[[h1 h2] h3] h4] [[[g1 g2] g3] g4] H. unfold tailp in H. apply quad_inj in H. destruct H as (E1 & E2 & E3 & E4).
  destruct (0 <? n)%nat, (4 <? n)%nat, (8 <? n)%nat, (12 <? n)%nat; try apply lxor_inj_l in E1; try apply lxor_inj_l in E2;
    try apply lxor_inj_l in E3; try apply lxor_inj_l in E4; subst; reflexivity.
Qed.
Lemma tailp_words : forall t t' n st, is_bytes t -> is_bytes t' -> length t = n -> length t' = n -> (n <= 15)%nat ->
  tailp t n st = tailp t' n st -> t = t'.
Proof.
  intros t t' n [[[h1 h2] h3] h4] B B' L L' H H0. unfold tailp in H0. apply quad_inj in H0. destruct H0 as (E1 & E2 & E3 & E4).
  assert (P : forall a m, (a + m <= n)%nat -> (m <= 4)%nat -> (m = 0%nat \/ wd t a m = wd t' a m) -> firstn m (skipn a t) = firstn m (skipn a t')).
  { intros a m _ _ [->|Q]; [reflexivity|]. apply wd_inj; auto. lia. }
  assert (Q1 : firstn (Nat.min 4 n) t = firstn (Nat.min 4 n) t').
  { apply (P 0%nat); try lia. destruct (Nat.ltb_spec 0 n) as [G|G]; [right|left; lia]. apply lxor_inj_r, sc1 in E1; auto; apply wd_lt; auto; lia. }
  assert (Q2 : firstn (Nat.min 4 (n - 4)) (skipn 4 t) = firstn (Nat.min 4 (n - 4)) (skipn 4 t')).
  { destruct (Nat.ltb_spec 4 n) as [G|G]; [|replace (Nat.min 4 (n - 4)) with 0%nat by lia; reflexivity].
    apply P; try lia. right. apply lxor_inj_r, sc2 in E2; auto; apply wd_lt; auto; lia. }
  assert (Q3 : firstn (Nat.min 4 (n - 8)) (skipn 8 t) = firstn (Nat.min 4 (n - 8)) (skipn 8 t')).
  { destruct (Nat.ltb_spec 8 n) as [G|G]; [|replace (Nat.min 4 (n - 8)) with 0%nat by lia; reflexivity].
    apply P; try lia. right. apply lxor_inj_r, sc3 in E3; auto; apply wd_lt; auto; lia. }
  assert (Q4 : firstn (n - 12) (skipn 12 t) = firstn (n - 12) (skipn 12 t')).
  { destruct (Nat.ltb_spec 12 n) as [G|G]; [|replace (n - 12)%nat with 0%nat by lia; reflexivity].
    apply P; try lia. right. apply lxor_inj_r, sc4 in E4; auto; apply wd_lt; auto; lia. }
  assert (G : forall x : bytes, length x = n -> x = firstn (Nat.min 4 n) x ++ firstn (Nat.min 4 (n - 4)) (skipn 4 x) ++
     firstn (Nat.min 4 (n - 8)) (skipn 8 x) ++ firstn (n - 12) (skipn 12 x)).
  { clear - H. intros x <-. do 16 (destruct x as [|? x]; [reflexivity|]). cbn [length] in H. lia. }
  rewrite (G t L), (G t' L'), Q1, Q2, Q3, Q4. reflexivity.
Qed.

Lemma mix_ok : forall st, ok4 (mur_mix st).
Proof. intros [[[a b] c] d]. unfold mur_mix, ok4. repeat split; apply add_lt. Qed.
Lemma mix_inj : forall st st', ok4 st -> ok4 st' -> mur_mix st = mur_mix st' -> st = st'.
Proof.
  intros [[[a b] c] d] [[[a' b'] c'] d'] (A & B & C & D) (A' & B' & C' & D') H. unfold mur_mix in H. apply quad_inj in H. destruct H as (E1 & E2 & E3 & E4).
  rewrite E1 in E2, E3, E4. apply add_inj in E2, E3, E4; auto. subst b' c' d'.
  apply add_inj in E1; try apply add_lt. apply add_inj in E1; try apply add_lt. apply add_inj in E1; auto. subst a'. reflexivity.
Qed.

Definition finish (l : N) (st : mstate) : mstate :=
  let '(h1, h2, h3, h4) := st in
  let '(h1, h2, h3, h4) := mur_mix (N.lxor h1 l, N.lxor h2 l, N.lxor h3 l, N.lxor h4 l) in
  mur_mix (fmix32 h1, fmix32 h2, fmix32 h3, fmix32 h4).
Lemma finish_inj : forall l st st', l < 2 ^ 32 -> ok4 st -> ok4 st' -> finish l st = finish l st' -> st = st'.
Proof.
  intros l [[[a b] c] d] [[[a' b'] c'] d'] L (A & B & C & D) (A' & B' & C' & D') H. unfold finish in H.
  pose proof (mix_ok (N.lxor a l, N.lxor b l, N.lxor c l, N.lxor d l)) as M. pose proof (mix_ok (N.lxor a' l, N.lxor b' l, N.lxor c' l, N.lxor d' l)) as M'.
  destruct (mur_mix (N.lxor a l, N.lxor b l, N.lxor c l, N.lxor d l)) as [[[x1 x2] x3] x4] eqn:X.
  destruct (mur_mix (N.lxor a' l, N.lxor b' l, N.lxor c' l, N.lxor d' l)) as [[[y1 y2] y3] y4] eqn:Y.
  destruct M as (M1 & M2 & M3 & M4). destruct M' as (N1 & N2 & N3 & N4).
  apply mix_inj in H; [|repeat split; apply fmix_lt|repeat split; apply fmix_lt]. injection H as F1 F2 F3 F4.
  apply fmix_inj in F1, F2, F3, F4; auto. subst y1 y2 y3 y4. rewrite <- Y in X.
  apply mix_inj in X; [|repeat split; apply lxor_lt; auto|repeat split; apply lxor_lt; auto]. injection X as F1 F2 F3 F4.
  apply lxor_inj_l in F1, F2, F3, F4. subst. reflexivity.
Qed.

Lemma hash_ok : forall d seed, is_bytes d -> MurmurHash3_x86_128 d seed =
  Ok (finish (wrap32 (N.of_nat (length d))) (tailp (skipn (16 * (length d / 16)) d) (length d mod 16)
        (fold_left (step d) (seq 0 (length d / 16)) (seed, seed, seed, seed)))).
Proof.
  intros d seed B. unfold MurmurHash3_x86_128. cbv zeta. pose proof (Nat.div_mod_eq (length d) 16) as Q. pose proof (Nat.mod_upper_bound (length d) 16 ltac:(lia)) as R.
  rewrite rounds_ok by (intros i Hi; apply in_seq in Hi; lia). cbn [bind].
  rewrite tail_ok; [|apply HashFacts.bytes_skipn; exact B|rewrite skipn_length; lia|lia]. cbn [bind].
  destruct (tailp _ _ _) as [[[h1 h2] h3] h4]. unfold finish. destruct (mur_mix _) as [[[g1 g2] g3] g4]. reflexivity.
Qed.

Theorem mur_one_block : forall k q seed, is_bytes k -> is_bytes q -> seed < 2 ^ 32 -> one_block k q ->
  MurmurHash3_x86_128 q seed <> MurmurHash3_x86_128 k seed.
Proof.
  intros k q seed Bk Bq SD (L & NE & i & F & T) H. rewrite !hash_ok in H by auto. assert (OI : forall a b : mstate, Ok a = Ok b -> a = b) by (intros a b E; injection E; auto). apply OI in H. clear OI. rewrite L in H.
  assert (S4 : ok4 (seed, seed, seed, seed)) by (repeat split; exact SD).
  apply finish_inj in H; [|apply wrap_lt|apply tailp_ok, fold_ok, S4|apply tailp_ok, fold_ok, S4].
  set (n := length k) in *. set (nb := (n / 16)%nat) in *. pose proof (Nat.div_mod_eq n 16) as DM. fold nb in DM.
  pose proof (Nat.mod_upper_bound n 16 ltac:(lia)) as R.
  assert (SL : forall j, (j < i)%nat -> same16 q k j).
  { intros j J. unfold same16. apply (sub_same q k 0 (16 * i)); [lia|lia|exact F]. }
  assert (SR : forall a, (16 * i + 16 <= a)%nat -> skipn a q = skipn a k).
  { intros a A. replace a with (16 * i + 16 + (a - (16 * i + 16)))%nat by lia. rewrite <- (BitvectorFacts.skipn_skipn' _ q (a - (16 * i + 16)) (16 * i + 16)), <- (BitvectorFacts.skipn_skipn' _ k (a - (16 * i + 16)) (16 * i + 16)), T. reflexivity. }
  destruct (Nat.lt_ge_cases i nb) as [I|I].
  - rewrite (SR (16 * nb)%nat) in H by lia. apply tailp_state in H.
    replace (seq 0 nb) with (seq 0 i ++ i :: seq (S i) (nb - S i)) in H.
    2: { change (i :: seq (S i) (nb - S i)) with (seq i (S (nb - S i))). replace i with (0 + i)%nat at 2 by lia. rewrite <- seq_app. f_equal. lia. }
    rewrite !fold_left_app in H. cbn [fold_left] in H.
    rewrite (fold_same q k (seq 0 i)) in H by (intros j J; apply in_seq in J; apply SL; lia).
    rewrite (fold_same q k (seq (S i) (nb - S i))) in H by (intros j J; apply in_seq in J; unfold same16; rewrite (SR (16 * j)%nat) by lia; reflexivity).
    apply fold_state in H; try apply step_ok. apply step_words in H; auto; [|apply fold_ok, S4].
    apply NE. rewrite <- (firstn_skipn (16 * i) q), <- (firstn_skipn (16 * i) k), F. f_equal.
    rewrite <- (firstn_skipn 16 (skipn (16 * i) q)), <- (firstn_skipn 16 (skipn (16 * i) k)), !BitvectorFacts.skipn_skipn', T. f_equal. exact H.
  - rewrite (fold_same q k (seq 0 nb)) in H by (intros j J; apply in_seq in J; apply SL; lia).
    apply tailp_words in H; try (apply HashFacts.bytes_skipn; assumption); try (rewrite skipn_length; lia); [|lia].
    apply NE. rewrite <- (firstn_skipn (16 * nb) q), <- (firstn_skipn (16 * nb) k), H. f_equal.
    apply (sub_same q k 0 (16 * i) 0 (16 * nb)); [lia|lia|exact F].
Qed.

Corollary mur_short : forall k q seed, is_bytes k -> is_bytes q -> seed < 2 ^ 32 -> length q = length k -> (length k <= 16)%nat -> q <> k ->
  MurmurHash3_x86_128 q seed <> MurmurHash3_x86_128 k seed.
Proof.
  intros k q seed Bk Bq SD L H NE. apply mur_one_block; auto. split; [exact L|]. split; [exact NE|]. exists 0%nat.
  split; [reflexivity|]. rewrite !skipn_all2 by lia. reflexivity.
Qed.

Theorem mur_seed : forall k s s', is_bytes k -> s < 2 ^ 32 -> s' < 2 ^ 32 -> s <> s' -> MurmurHash3_x86_128 k s <> MurmurHash3_x86_128 k s'.
Proof.
  intros k s s' B A A' NE H. rewrite !hash_ok in H by auto. assert (OI : forall a b : mstate, Ok a = Ok b -> a = b) by (intros a b E; injection E; auto).
  apply OI in H. assert (S4 : ok4 (s, s, s, s)) by (repeat split; auto). assert (S4' : ok4 (s', s', s', s')) by (repeat split; auto).
  apply finish_inj in H; [|apply wrap_lt|apply tailp_ok, fold_ok, S4|apply tailp_ok, fold_ok, S4'].
  apply tailp_state in H. apply fold_state in H; auto. apply quad_inj in H. tauto.
Qed.

Corollary mur_ints : forall w w' seed, w < 2 ^ 64 -> w' < 2 ^ 64 -> seed < 2 ^ 32 -> w <> w' ->
  MurmurHash3_x86_128 (le_bytes 8 w) seed <> MurmurHash3_x86_128 (le_bytes 8 w') seed.
Proof.
  intros w w' seed W W' SD NE. apply mur_short; try apply IntKeys.le_bytes_ok; auto; rewrite ?IntKeys.le_bytes_length; auto; [lia|].
  intros H. apply NE. apply (IntKeys.le_inj 8); auto.
Qed.

(** ** strings that collide go on colliding *)
Lemma app_far : forall (k t : bytes) a, (length k <= a)%nat -> skipn a (k ++ t) = skipn (a - length k) t.
Proof. intros k t a H. rewrite skipn_app, skipn_all2 by exact H. reflexivity. Qed.
Lemma app_near : forall (k t : bytes) i, (16 * i + 16 <= length k)%nat -> same16 (k ++ t) k i.
Proof.
  intros k t i H. unfold same16. rewrite skipn_app, firstn_app. replace (16 - length (skipn (16 * i) k))%nat with 0%nat by (rewrite skipn_length; lia).
  cbn [firstn]. apply app_nil_r.
Qed.
Lemma mur_app : forall k q t seed m, is_bytes k -> is_bytes q -> is_bytes t -> seed < 2 ^ 32 -> length k = (16 * m)%nat -> length q = (16 * m)%nat ->
  MurmurHash3_x86_128 q seed = MurmurHash3_x86_128 k seed -> MurmurHash3_x86_128 (q ++ t) seed = MurmurHash3_x86_128 (k ++ t) seed.
Proof.
  intros k q t seed m Bk Bq Bt SD Lk Lq H. rewrite !hash_ok in H by auto. assert (OI : forall a b : mstate, Ok a = Ok b -> a = b) by (intros a b E; injection E; auto).
  apply OI in H. assert (S4 : ok4 (seed, seed, seed, seed)) by (repeat split; exact SD). rewrite Lk, Lq in H.
  apply finish_inj in H; [|apply wrap_lt|apply tailp_ok, fold_ok, S4|apply tailp_ok, fold_ok, S4].
  rewrite (Nat.mul_comm 16 m), Nat.mod_mul, Nat.div_mul in H by lia.
  assert (T0 : forall x st, tailp x 0 st = st) by (intros x [[[a b] c] d]; reflexivity). rewrite !T0 in H.
  assert (Bkt : is_bytes (k ++ t)) by (apply Forall_app; split; assumption). assert (Bqt : is_bytes (q ++ t)) by (apply Forall_app; split; assumption).
  rewrite !hash_ok by assumption. rewrite !app_length, Lk, Lq. set (e := (16 * m + length t)%nat).
  assert (E1 : (e / 16 = m + length t / 16)%nat) by (unfold e; rewrite Nat.add_comm, (Nat.mul_comm 16 m), Nat.div_add by lia; lia).
  rewrite E1, seq_app, !fold_left_app, (app_far k), (app_far q) by lia. rewrite Lk, Lq. do 3 f_equal.
  rewrite (fold_same (q ++ t) q (seq 0 m)) by (intros i I; apply in_seq in I; apply app_near; lia).
  rewrite (fold_same (k ++ t) k (seq 0 m)) by (intros i I; apply in_seq in I; apply app_near; lia).
  rewrite H. apply fold_same. intros i I. apply in_seq in I. unfold same16. rewrite !app_far by lia. rewrite Lk, Lq. reflexivity.
Qed.

(** ** undoing a change in the next block *)
Lemma fin_surj : forall (M : N) (f : N -> N), (forall x, x < M -> f x < M) -> (forall x y, x < M -> y < M -> f x = f y -> x = y) ->
  forall y, y < M -> exists x, x < M /\ f x = y.
Proof.
  intros M f F I y Y. set (g := fun n => N.to_nat (f (N.of_nat n))).
  assert (G1 : FinFun.bFun (N.to_nat M) g). { intros n H. unfold g. specialize (F (N.of_nat n)). lia. }
  assert (G2 : FinFun.bInjective (N.to_nat M) g).
  { intros a b A B E. unfold g in E. apply N2Nat.inj, I in E; lia. }
  destruct (proj1 (FinFun.bInjective_bSurjective G1) G2 (N.to_nat y)) as (n & L & E); [lia|].
  exists (N.of_nat n). unfold g in E. split; [lia|]. apply N2Nat.inj. exact E.
Qed.
Lemma rnd_reach : forall st out, ok4 st -> ok4 out -> exists a b c d, a < 2 ^ 32 /\ b < 2 ^ 32 /\ c < 2 ^ 32 /\ d < 2 ^ 32 /\ rnd st a b c d = out.
Proof.
  intros [[[h1 h2] h3] h4] [[[o1 o2] o3] o4] (A1 & A2 & A3 & A4) (B1 & B2 & B3 & B4).
  destruct (fin_surj (2 ^ 32) (fun k => stir h1 (scramble k mc1 15 mc2) 19 h2 0x561ccd1b)) with (y := o1) as (a & La & Ea); auto;
    [intros; apply stir_lt|intros x y X Y E; apply stir_inj in E; auto; try apply scramble_lt; [|reflexivity|reflexivity]; apply lxor_inj_r, sc1 in E; auto|].
  destruct (fin_surj (2 ^ 32) (fun k => stir h2 (scramble k mc2 16 mc3) 17 h3 0x0bcaa747)) with (y := o2) as (b & Lb & Eb); auto;
    [intros; apply stir_lt|intros x y X Y E; apply stir_inj in E; auto; try apply scramble_lt; [|reflexivity|reflexivity]; apply lxor_inj_r, sc2 in E; auto|].
  destruct (fin_surj (2 ^ 32) (fun k => stir h3 (scramble k mc3 17 mc4) 15 h4 0x96cd1c35)) with (y := o3) as (c & Lc & Ec); auto;
    [intros; apply stir_lt|intros x y X Y E; apply stir_inj in E; auto; try apply scramble_lt; [|reflexivity|reflexivity]; apply lxor_inj_r, sc3 in E; auto|].
  destruct (fin_surj (2 ^ 32) (fun k => stir h4 (scramble k mc4 18 mc1) 13 o1 0x32ac3b17)) with (y := o4) as (d & Ld & Ed); auto;
    [intros; apply stir_lt|intros x y X Y E; apply stir_inj in E; auto; try apply scramble_lt; [|reflexivity|reflexivity]; apply lxor_inj_r, sc4 in E; auto|].
  exists a, b, c, d. do 4 (split; [assumption|]). unfold rnd. cbv zeta. cbv beta in Ea, Eb, Ec, Ed. rewrite Ea, Eb, Ec, Ed. reflexivity.
Qed.
Lemma four : forall x1 x2 x3 x4 : bytes, length x1 = 4%nat -> length x2 = 4%nat -> length x3 = 4%nat -> length x4 = 4%nat ->
  let b := x1 ++ x2 ++ x3 ++ x4 in length b = 16%nat /\ firstn 4 (skipn 0 b) = x1 /\ firstn 4 (skipn 4 b) = x2 /\ firstn 4 (skipn 8 b) = x3 /\ firstn 4 (skipn 12 b) = x4.
Proof.
  intros x1 x2 x3 x4. do 4 (destruct x1 as [|? x1]; [discriminate|]). destruct x1; [|discriminate]. do 4 (destruct x2 as [|? x2]; [discriminate|]). destruct x2; [|discriminate].
  do 4 (destruct x3 as [|? x3]; [discriminate|]). destruct x3; [|discriminate]. do 4 (destruct x4 as [|? x4]; [discriminate|]). destruct x4; [|discriminate].
  intros. repeat split; reflexivity.
Qed.
Lemma num_le : forall w, w < 2 ^ 32 -> number (le_bytes 4 w) = w.
Proof. intros w H. rewrite <- HashFacts.number_le. apply IntKeys.of_le_le. exact H. Qed.
Theorem mur_undo : forall p p' b seed m, is_bytes p -> is_bytes p' -> is_bytes b -> seed < 2 ^ 32 -> length p = (16 * m)%nat -> length p' = (16 * m)%nat -> length b = 16%nat ->
  exists b', is_bytes b' /\ length b' = 16%nat /\ MurmurHash3_x86_128 (p' ++ b') seed = MurmurHash3_x86_128 (p ++ b) seed.
Proof.
  intros p p' b seed m Bp Bp' Bb SD Lp Lp' Lb. assert (S4 : ok4 (seed, seed, seed, seed)) by (repeat split; exact SD).
  assert (X : forall x y, is_bytes x -> is_bytes y -> length x = (16 * m)%nat -> length y = 16%nat ->
    MurmurHash3_x86_128 (x ++ y) seed = Ok (finish (wrap32 (N.of_nat (16 * m + 16))) (step (x ++ y) (fold_left (step x) (seq 0 m) (seed, seed, seed, seed)) m))).
  { intros x y Bx By Lx Ly. rewrite hash_ok by (apply Forall_app; split; assumption). rewrite app_length, Lx, Ly.
    replace ((16 * m + 16) / 16)%nat with (m + 1)%nat by (replace (16 * m + 16)%nat with ((m + 1) * 16)%nat by lia; rewrite Nat.div_mul; lia).
    replace ((16 * m + 16) mod 16)%nat with 0%nat by (replace (16 * m + 16)%nat with ((m + 1) * 16)%nat by lia; rewrite Nat.mod_mul; lia).
    rewrite seq_app, fold_left_app. rewrite (fold_same (x ++ y) x (seq 0 m)) by (intros i I; apply in_seq in I; apply app_near; lia).
    cbn [seq fold_left Nat.add]. f_equal. f_equal. destruct (step _ _ _) as [[[h1 h2] h3] h4]. reflexivity. }
  destruct (rnd_reach (fold_left (step p') (seq 0 m) (seed, seed, seed, seed)) (step (p ++ b) (fold_left (step p) (seq 0 m) (seed, seed, seed, seed)) m))
    as (a & c & d & e & La & Lc & Ld & Le & E); [apply fold_ok, S4|apply step_ok|].
  destruct (four (le_bytes 4 a) (le_bytes 4 c) (le_bytes 4 d) (le_bytes 4 e)) as (L & F1 & F2 & F3 & F4); try apply IntKeys.le_bytes_length.
  set (b' := le_bytes 4 a ++ le_bytes 4 c ++ le_bytes 4 d ++ le_bytes 4 e) in *.
  assert (B' : is_bytes b') by (unfold b', is_bytes; repeat (apply Forall_app; split); apply IntKeys.le_bytes_ok).
  exists b'. split; [exact B'|]. split; [exact L|]. rewrite !X by assumption. do 2 f_equal. rewrite <- E. unfold step, wd.
  rewrite !app_far by lia. rewrite Lp'. replace (16 * m - 16 * m)%nat with 0%nat by lia. replace (16 * m + 4 - 16 * m)%nat with 4%nat by lia.
  replace (16 * m + 8 - 16 * m)%nat with 8%nat by lia. replace (16 * m + 12 - 16 * m)%nat with 12%nat by lia.
  rewrite F1, F2, F3, F4, !num_le by assumption. reflexivity.
Qed.

(** The Bloom filter cannot tell apart two strings with one hash. *)
Lemma bloom_same : forall k q keys e, BloomHash q = BloomHash k -> In k keys ->
  exists d, Bench.newFilterBloom keys = Ok (Bench.FBloom d) /\ Bench.lookup e (Bench.FBloom d) q = Ok true.
Proof.
  intros k q keys e H I. destruct (BenchFacts.bloom_murmur keys) as (d & bits & NF & _ & _ & BH & L). exists d. split; [exact NF|].
  destruct (L e k) as (r & E & _ & T). rewrite (T I) in E. rewrite <- E.
  assert (X : Bench.bloom_hash q = Bench.bloom_hash k) by (unfold Bench.bloom_hash; rewrite H; reflexivity).
  cbn [Bench.lookup]. unfold Bloom.KeyMayMatch. rewrite X. reflexivity.
Qed.
