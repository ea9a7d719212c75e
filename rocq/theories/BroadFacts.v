(** select64_broadword finds the bit. *)
From Coq Require Import Arith List NArith ZArith Bool Lia ZifyN ZifyNat ZifyBool.
From Verif Require Import Res Word BitFacts WordFacts Swar Broadword SpecBits BitsApi WordApi.
Import ListNotations.
Local Open Scope N_scope.

Lemma lor_lt : forall a b, a < 256 -> b < 256 -> N.lor a b < 256.
Proof.
  intros a b Ha Hb. assert (E : N.lor a b = (N.lor a b) mod 2 ^ 8).
  { rewrite <- N.land_ones, N.land_lor_distr_l, !N.land_ones, !N.mod_small by assumption. reflexivity. }
  rewrite E. apply N.mod_lt. discriminate.
Qed.
Lemma lxor_lt : forall a b, a < 256 -> b < 256 -> N.lxor a b < 256.
Proof.
  intros a b Ha Hb. assert (E : N.lxor a b = (N.lxor a b) mod 2 ^ 8).
  { rewrite <- N.land_ones. apply N.bits_inj. intros i. rewrite N.land_spec, !N.lxor_spec.
    destruct (N.ltb_spec i 8) as [L|L]; [rewrite N.ones_spec_low by assumption; rewrite andb_true_r; reflexivity|].
    rewrite N.ones_spec_high by assumption. rewrite andb_false_r.
    assert (Z : forall c, c < 256 -> N.testbit c i = false).
    { intros c Hc. rewrite <- (N.mod_small c (2 ^ 8)) by exact Hc. apply N.mod_pow2_bits_high. exact L. }
    rewrite !Z by assumption. reflexivity. }
  rewrite E. apply N.mod_lt. discriminate.
Qed.
Lemma lor_lane : forall a x m y, a < 256 -> m < 256 -> N.lor (a + 256 * x) (m + 256 * y) = N.lor a m + 256 * N.lor x y.
Proof.
  intros a x m y Ha Hm. apply N.bits_inj. intros i. rewrite N.lor_spec, !lane_bit by (auto; apply lor_lt; auto).
  destruct (i <? 8); rewrite N.lor_spec; reflexivity.
Qed.
Lemma lxor_lane : forall a x m y, a < 256 -> m < 256 -> N.lxor (a + 256 * x) (m + 256 * y) = N.lxor a m + 256 * N.lxor x y.
Proof.
  intros a x m y Ha Hm. apply N.bits_inj. intros i. rewrite N.lxor_spec, !lane_bit by (auto; apply lxor_lt; auto).
  destruct (i <? 8); rewrite N.lxor_spec; reflexivity.
Qed.

(** one byte of LEQ_STEP_8 *)
Definition le1 (x y : N) : N := if x <=? y then 1 else 0.
Lemma le1_le : forall x y, le1 x y <= 1. Proof. intros. unfold le1. destruct (x <=? y); lia. Qed.
Lemma low7 : forall b, b < 256 -> N.land b 128 = (if N.testbit b 7 then 128 else 0) /\ N.testbit b 7 = (128 <=? b).
Proof.
  intros b Hb.
  pose proof (byte_all_ok (fun b => (N.land b 128 =? (if N.testbit b 7 then 128 else 0)) && eqb (N.testbit b 7) (128 <=? b)) ltac:(vm_compute; reflexivity) b Hb) as H.
  cbv beta in H. rewrite andb_true_iff, N.eqb_eq in H. destruct H as [A B]. split; [exact A|]. apply eqb_prop. exact B.
Qed.
Lemma low127 : forall b, b < 128 -> N.land b 127 = b /\ N.lor b 128 = b + 128.
Proof.
  intros b Hb. pose proof (byte_all_ok (fun b => if b <? 128 then (N.land b 127 =? b) && (N.lor b 128 =? b + 128) else true) ltac:(vm_compute; reflexivity) b ltac:(lia)) as H.
  cbv beta in H. replace (b <? 128) with true in H by lia. rewrite andb_true_iff, !N.eqb_eq in H. exact H.
Qed.
Lemma leq_byte : forall x y, x < 128 -> y < 128 -> N.land (N.lxor (N.lxor (y + 128 - x) x) y) 128 = 128 * le1 x y.
Proof.
  intros x y Hx Hy. assert (D : N.lxor (N.lxor (y + 128 - x) x) y < 256) by (repeat apply lxor_lt; lia).
  rewrite (proj1 (low7 _ D)), !N.lxor_spec. rewrite (proj2 (low7 (y + 128 - x) ltac:(lia))), (proj2 (low7 x ltac:(lia))), (proj2 (low7 y ltac:(lia))).
  replace (128 <=? x) with false by lia. replace (128 <=? y) with false by lia. rewrite !xorb_false_r. unfold le1.
  destruct (N.leb_spec 128 (y + 128 - x)), (N.leb_spec x y); lia.
Qed.

Lemma leq_lanes : forall x0 x1 x2 x3 x4 x5 x6 x7 y0 y1 y2 y3 y4 y5 y6 y7,
  x0 < 128 -> x1 < 128 -> x2 < 128 -> x3 < 128 -> x4 < 128 -> x5 < 128 -> x6 < 128 -> x7 < 128 ->
  y0 < 128 -> y1 < 128 -> y2 < 128 -> y3 < 128 -> y4 < 128 -> y5 < 128 -> y6 < 128 -> y7 < 128 ->
  LEQ_STEP_8 (w8 x0 x1 x2 x3 x4 x5 x6 x7) (w8 y0 y1 y2 y3 y4 y5 y6 y7) =
  w8 (le1 x0 y0) (le1 x1 y1) (le1 x2 y2) (le1 x3 y3) (le1 x4 y4) (le1 x5 y5) (le1 x6 y6) (le1 x7 y7).
Proof.
  intros. unfold LEQ_STEP_8.
  assert (A : N.lor (w8 y0 y1 y2 y3 y4 y5 y6 y7) MSBS_STEP_8 =
    w8 (y0 + 128) (y1 + 128) (y2 + 128) (y3 + 128) (y4 + 128) (y5 + 128) (y6 + 128) (y7 + 128)).
  { change MSBS_STEP_8 with (w8 128 128 128 128 128 128 128 128). unfold w8. rewrite !lor_lane by lia.
    rewrite !(fun b Hb => proj2 (low127 b Hb)) by assumption. reflexivity. }
  assert (B : N.land (w8 x0 x1 x2 x3 x4 x5 x6 x7) NOT_MSBS_STEP_8 = w8 x0 x1 x2 x3 x4 x5 x6 x7).
  { change NOT_MSBS_STEP_8 with (w8 127 127 127 127 127 127 127 127). rewrite w8_land by lia.
    rewrite !(fun b Hb => proj1 (low127 b Hb)) by assumption. reflexivity. }
  rewrite A, B. clear A B.
  assert (S : sub64 (w8 (y0 + 128) (y1 + 128) (y2 + 128) (y3 + 128) (y4 + 128) (y5 + 128) (y6 + 128) (y7 + 128)) (w8 x0 x1 x2 x3 x4 x5 x6 x7) =
    w8 (y0 + 128 - x0) (y1 + 128 - x1) (y2 + 128 - x2) (y3 + 128 - x3) (y4 + 128 - x4) (y5 + 128 - x5) (y6 + 128 - x6) (y7 + 128 - x7)).
  { rewrite (w8_sub (y0 + 128) (y1 + 128) (y2 + 128) (y3 + 128) (y4 + 128) (y5 + 128) (y6 + 128) (y7 + 128) x0 x1 x2 x3 x4 x5 x6 x7) by lia.
    assert (B : w8 (y0 + 128 - x0) (y1 + 128 - x1) (y2 + 128 - x2) (y3 + 128 - x3) (y4 + 128 - x4) (y5 + 128 - x5) (y6 + 128 - x6) (y7 + 128 - x7) < two64) by (apply w8_lt; lia).
    revert B. generalize (w8 (y0 + 128 - x0) (y1 + 128 - x1) (y2 + 128 - x2) (y3 + 128 - x3) (y4 + 128 - x4) (y5 + 128 - x5) (y6 + 128 - x6) (y7 + 128 - x7)) (w8 x0 x1 x2 x3 x4 x5 x6 x7). clear.
    intros a b B. unfold sub64. replace (a + b + two64 - b) with (a + 1 * two64) by lia.
    unfold wrap64. rewrite N.mod_add by discriminate. apply N.mod_small. exact B. }
  rewrite S. clear S. change MSBS_STEP_8 with (w8 128 128 128 128 128 128 128 128). unfold w8 at 1 2 3 4.
  rewrite !lxor_lane by (first [lia | apply lxor_lt; lia]). rewrite !land_lane by (first [lia | repeat apply lxor_lt; lia]).
  rewrite !leq_byte by assumption.
  apply (w8_shr _ _ _ _ _ _ _ _ (le1 x0 y0) (le1 x1 y1) (le1 x2 y2) (le1 x3 y3) (le1 x4 y4) (le1 x5 y5) (le1 x6 y6) (le1 x7 y7)); reflexivity.
Qed.

(** multiplication by L8 adds up the bytes below *)
Lemma mul_lanes : forall c0 c1 c2 c3 c4 c5 c6 c7,
  c0 <= 8 -> c1 <= 8 -> c2 <= 8 -> c3 <= 8 -> c4 <= 8 -> c5 <= 8 -> c6 <= 8 -> c7 <= 8 ->
  wrap64 (w8 c0 c1 c2 c3 c4 c5 c6 c7 * L8) =
  w8 c0 (c0 + c1) (c0 + c1 + c2) (c0 + c1 + c2 + c3) (c0 + c1 + c2 + c3 + c4) (c0 + c1 + c2 + c3 + c4 + c5)
     (c0 + c1 + c2 + c3 + c4 + c5 + c6) (c0 + c1 + c2 + c3 + c4 + c5 + c6 + c7).
Proof.
  intros. set (R := w8 c0 (c0 + c1) _ _ _ _ _ _).
  set (Q := c1 + c2 + c3 + c4 + c5 + c6 + c7 + 256 * (c2 + c3 + c4 + c5 + c6 + c7 + 256 * (c3 + c4 + c5 + c6 + c7 + 256 * (c4 + c5 + c6 + c7
     + 256 * (c5 + c6 + c7 + 256 * (c6 + c7 + 256 * c7)))))).
  assert (HR : R < two64) by (unfold R; apply w8_lt; lia).
  assert (E : w8 c0 c1 c2 c3 c4 c5 c6 c7 * L8 = R + Q * two64) by (unfold R, Q, w8, L8, two64; ring).
  rewrite E. unfold wrap64. rewrite N.mod_add by discriminate. apply N.mod_small. exact HR.
Qed.

Lemma pop8 : forall b, b < 256 -> N.of_nat (popcnt b) <= 8.
Proof. intros b Hb. pose proof (stages b Hb) as (_ & _ & _ & _ & _ & F & G & <-). unfold st3. lia. Qed.

(** all of it inside one byte *)
Lemma in_byte_ok : forall b r, b < 256 -> r < N.of_nat (popcnt b) -> exists q, in_byte b (Z.of_N r) = q /\ q < 8 /\
  N.testbit b q = true /\ N.of_nat (popcnt (b mod 2 ^ q)) = r.
Proof.
  intros b r Hb Hr. pose proof (pop8 b Hb) as P8.
  pose proof (byte_all_ok (fun b => forallb (fun r => if r <? N.of_nat (popcnt b) then
    let q := in_byte b (Z.of_N r) in (q <? 8) && N.testbit b q && (N.of_nat (popcnt (b mod 2 ^ q)) =? r) else true) [0; 1; 2; 3; 4; 5; 6; 7])
    ltac:(vm_compute; reflexivity) b Hb) as H. cbv beta in H. rewrite forallb_forall in H. specialize (H r). cbv zeta in H.
  assert (I : In r [0; 1; 2; 3; 4; 5; 6; 7]).
  { assert (r = 0 \/ r = 1 \/ r = 2 \/ r = 3 \/ r = 4 \/ r = 5 \/ r = 6 \/ r = 7) by lia. cbn [In]. intuition (subst; auto). }
  specialize (H I). replace (r <? N.of_nat (popcnt b)) with true in H by lia.
  rewrite !andb_true_iff, N.ltb_lt, N.eqb_eq in H. destruct H as [[A B] C]. eauto.
Qed.

(** bit [r] of [x] is a one with [k] ones below it *)
Definition at_one (x k r : N) : Prop := N.testbit x r = true /\ N.of_nat (popcnt (x mod 2 ^ r)) = k.
Lemma at_here : forall a x k r, a < 256 -> r < 8 -> at_one a k r -> at_one (a + 256 * x) k r.
Proof.
  intros a x k r Ha Hr (A & B). split; [rewrite lane_bit by exact Ha; replace (r <? 8) with true by lia; exact A|].
  rewrite <- B. f_equal. f_equal. replace (256 * x) with (2 ^ (8 - r) * x * 2 ^ r).
  - apply N.mod_add. apply N.pow_nonzero. discriminate.
  - rewrite <- N.mul_assoc, (N.mul_comm x), N.mul_assoc, <- N.pow_add_r. replace (8 - r + r) with 8 by lia. reflexivity.
Qed.
Lemma at_next : forall a x k r, a < 256 -> at_one x k r -> at_one (a + 256 * x) (N.of_nat (popcnt a) + k) (8 + r).
Proof.
  intros a x k r Ha (A & B). split.
  - rewrite lane_bit by exact Ha. replace (8 + r <? 8) with false by lia. replace (8 + r - 8) with r by lia. exact A.
  - rewrite <- B, <- Nat2N.inj_add, <- popcnt_lane by exact Ha. f_equal. f_equal.
    rewrite N.pow_add_r. change (2 ^ 8) with 256. rewrite N.mod_mul_r by (try discriminate; apply N.pow_nonzero; discriminate).
    rewrite (N.mul_comm 256 x), N.mod_add, N.div_add by discriminate. rewrite N.mod_small, N.div_small by exact Ha. rewrite N.add_0_l. reflexivity.
Qed.

Lemma shr_lane : forall a x j, a < 256 -> N.shiftr (a + 256 * x) (8 + j) = N.shiftr x j.
Proof.
  intros a x j Ha. rewrite <- N.shiftr_shiftr. f_equal. rewrite N.shiftr_div_pow2. change (2 ^ 8) with 256.
  rewrite (N.mul_comm 256), N.div_add, N.div_small by (auto; discriminate). lia.
Qed.
Lemma land_ff : forall a x, a < 256 -> N.land (a + 256 * x) 255 = a.
Proof. intros a x Ha. change 255 with (N.ones 8). rewrite N.land_ones. change (2 ^ 8) with 256. rewrite (N.mul_comm 256), N.mod_add, N.mod_small by (auto; discriminate). reflexivity. Qed.
Lemma land_ff0 : forall a, a < 256 -> N.land a 255 = a.
Proof. intros a Ha. change 255 with (N.ones 8). rewrite N.land_ones. apply N.mod_small. exact Ha. Qed.

Lemma int_small : forall k, k < 1024 -> int_to_u64 (Z.of_N k) = k /\ u64_to_int k = Z.of_N k.
Proof.
  intros k Hk. split.
  - unfold int_to_u64. rewrite Z.mod_small by lia. apply N2Z.id.
  - unfold u64_to_int, wrap32. rewrite N.mod_small by (unfold two32; lia). replace (Z.of_N k <? 2147483648)%Z with true by lia. reflexivity.
Qed.
Lemma sub_small : forall a b, b <= a -> a < 1024 -> sub64 a b = a - b.
Proof. intros a b H1 H2. unfold sub64, wrap64. replace (a + two64 - b) with (a - b + 1 * two64) by lia. rewrite N.mod_add by discriminate. apply N.mod_small. unfold two64. lia. Qed.

Lemma byte_sums_eq : forall b0 b1 b2 b3 b4 b5 b6 b7, b0 < 256 -> b1 < 256 -> b2 < 256 -> b3 < 256 -> b4 < 256 -> b5 < 256 -> b6 < 256 -> b7 < 256 ->
  byte_sums (w8 b0 b1 b2 b3 b4 b5 b6 b7) = wrap64 (w8 (N.of_nat (popcnt b0)) (N.of_nat (popcnt b1)) (N.of_nat (popcnt b2)) (N.of_nat (popcnt b3))
    (N.of_nat (popcnt b4)) (N.of_nat (popcnt b5)) (N.of_nat (popcnt b6)) (N.of_nat (popcnt b7)) * L8).
Proof. intros. unfold byte_sums, sub64. cbv zeta. rewrite stage1, stage2, stage3 by assumption. reflexivity. Qed.

(** phase 2: the byte *)
Lemma place_eq : forall s0 s1 s2 s3 s4 s5 s6 s7 k, k < 128 ->
  s0 < 128 -> s1 < 128 -> s2 < 128 -> s3 < 128 -> s4 < 128 -> s5 < 128 -> s6 < 128 -> s7 < 128 ->
  N.land (N.shiftr (wrap64 (LEQ_STEP_8 (w8 s0 s1 s2 s3 s4 s5 s6 s7) (wrap64 (k * L8)) * L8)) 53) (two64 - 8) =
  8 * (le1 s0 k + le1 s1 k + le1 s2 k + le1 s3 k + le1 s4 k + le1 s5 k + le1 s6 k + le1 s7 k).
Proof.
  intros. assert (E : wrap64 (k * L8) = w8 k k k k k k k k).
  { rewrite wrap64_lt by (unfold two64, L8; lia). unfold w8, L8. ring. }
  rewrite E. clear E. rewrite leq_lanes by assumption.
  pose proof (le1_le s0 k). pose proof (le1_le s1 k). pose proof (le1_le s2 k). pose proof (le1_le s3 k).
  pose proof (le1_le s4 k). pose proof (le1_le s5 k). pose proof (le1_le s6 k). pose proof (le1_le s7 k).
  rewrite mul_lanes by lia.
  generalize dependent (le1 s0 k). generalize dependent (le1 s1 k). generalize dependent (le1 s2 k). generalize dependent (le1 s3 k).
  generalize dependent (le1 s4 k). generalize dependent (le1 s5 k). generalize dependent (le1 s6 k). generalize dependent (le1 s7 k).
  clear. intros l7 H7 l6 H6 l5 H5 l4 H4 l3 H3 l2 H2 l1 H1 l0 H0. set (t := l0 + l1 + l2 + l3 + l4 + l5 + l6 + l7).
  assert (E : N.shiftr (w8 l0 (l0 + l1) (l0 + l1 + l2) (l0 + l1 + l2 + l3) (l0 + l1 + l2 + l3 + l4) (l0 + l1 + l2 + l3 + l4 + l5) (l0 + l1 + l2 + l3 + l4 + l5 + l6) t) 53 = 8 * t).
  { rewrite N.shiftr_div_pow2. change (2 ^ 53) with 9007199254740992. symmetry.
    apply (N.div_unique _ _ _ (w8 l0 (l0 + l1) (l0 + l1 + l2) (l0 + l1 + l2 + l3) (l0 + l1 + l2 + l3 + l4) (l0 + l1 + l2 + l3 + l4 + l5) (l0 + l1 + l2 + l3 + l4 + l5 + l6) 0)); unfold w8; lia. }
  rewrite E. assert (t <= 8) by (unfold t; lia).
  assert (C : t = 0 \/ t = 1 \/ t = 2 \/ t = 3 \/ t = 4 \/ t = 5 \/ t = 6 \/ t = 7 \/ t = 8) by lia.
  destruct C as [->|[->|[->|[->|[->|[->|[->|[->| ->]]]]]]]]; reflexivity.
Qed.

Lemma shl_lanes : forall s0 s1 s2 s3 s4 s5 s6 s7, s0 < 256 -> s1 < 256 -> s2 < 256 -> s3 < 256 -> s4 < 256 -> s5 < 256 -> s6 < 256 ->
  wrap64 (N.shiftl (w8 s0 s1 s2 s3 s4 s5 s6 s7) 8) = w8 0 s0 s1 s2 s3 s4 s5 s6.
Proof.
  intros. rewrite N.shiftl_mul_pow2. assert (E : w8 s0 s1 s2 s3 s4 s5 s6 s7 * 2 ^ 8 = w8 0 s0 s1 s2 s3 s4 s5 s6 + s7 * two64).
  { change (2 ^ 8) with 256. unfold w8, two64. ring. }
  rewrite E. unfold wrap64. rewrite N.mod_add by discriminate. apply N.mod_small. apply w8_lt; try lia.
Qed.

(** phase 3, for the byte found *)
Definition finish (e : env) (sums x place : N) (k : Z) : res Z :=
  below <- shr64 e (wrap64 (N.shiftl sums 8)) place ;;
  let byte_rank := u64_to_int (sub64 (int_to_u64 k) (N.land below 0xFF)) in
  w <- shr64 e x place ;;
  Ok (u64_to_int (wrap64 (place + in_byte (N.land w 0xFF) byte_rank))).

Lemma finish_ok : forall e sums x place k b s, place < 64 -> k < 128 -> b < 256 ->
  N.land (N.shiftr (wrap64 (N.shiftl sums 8)) place) 255 = s -> N.land (N.shiftr x place) 255 = b ->
  s <= k -> k < s + N.of_nat (popcnt b) -> exists q,
  finish e sums x place (Z.of_N k) = Ok (Z.of_N (place + q)) /\ q < 8 /\ at_one b (k - s) q.
Proof.
  intros e sums x place k b s Hp Hk Hb ES EB H1 H2. destruct (in_byte_ok b (k - s) Hb ltac:(lia)) as (q & EQ & Hq & A & B).
  exists q. unfold finish, shr64. replace (place <? 64) with true by lia. cbn [bind]. rewrite ES, EB.
  rewrite (proj1 (int_small k ltac:(lia))), sub_small, (proj2 (int_small (k - s) ltac:(lia))), EQ by lia.
  rewrite wrap64_lt by (unfold two64; lia). rewrite (proj2 (int_small (place + q) ltac:(lia))). split; [reflexivity|]. split; [exact Hq|]. split; assumption.
Qed.

Lemma le1_yes : forall x y, x <= y -> le1 x y = 1. Proof. intros x y H. unfold le1. replace (x <=? y) with true by lia. reflexivity. Qed.
Lemma le1_no : forall x y, y < x -> le1 x y = 0. Proof. intros x y H. unfold le1. replace (x <=? y) with false by lia. reflexivity. Qed.

Lemma lanes : forall b0 b1 b2 b3 b4 b5 b6 b7, b0 < 256 -> b1 < 256 -> b2 < 256 -> b3 < 256 -> b4 < 256 -> b5 < 256 -> b6 < 256 -> b7 < 256 ->
  N.land (N.shiftr (w8 b0 b1 b2 b3 b4 b5 b6 b7) 0) 255 = b0 /\
  N.land (N.shiftr (w8 b0 b1 b2 b3 b4 b5 b6 b7) 8) 255 = b1 /\
  N.land (N.shiftr (w8 b0 b1 b2 b3 b4 b5 b6 b7) 16) 255 = b2 /\
  N.land (N.shiftr (w8 b0 b1 b2 b3 b4 b5 b6 b7) 24) 255 = b3 /\
  N.land (N.shiftr (w8 b0 b1 b2 b3 b4 b5 b6 b7) 32) 255 = b4 /\
  N.land (N.shiftr (w8 b0 b1 b2 b3 b4 b5 b6 b7) 40) 255 = b5 /\
  N.land (N.shiftr (w8 b0 b1 b2 b3 b4 b5 b6 b7) 48) 255 = b6 /\
  N.land (N.shiftr (w8 b0 b1 b2 b3 b4 b5 b6 b7) 56) 255 = b7.
Proof.
  intros. unfold w8. repeat apply conj.
  - rewrite N.shiftr_0_r. apply land_ff; assumption.
  - change 8 with (8 + 0). rewrite (shr_lane b0 _ 0) by assumption. rewrite N.shiftr_0_r. apply land_ff; assumption.
  - change 16 with (8 + 8). rewrite (shr_lane b0 _ 8) by assumption. change 8 with (8 + 0). rewrite (shr_lane b1 _ 0) by assumption. rewrite N.shiftr_0_r. apply land_ff; assumption.
  - change 24 with (8 + 16). rewrite (shr_lane b0 _ 16) by assumption. change 16 with (8 + 8). rewrite (shr_lane b1 _ 8) by assumption. change 8 with (8 + 0). rewrite (shr_lane b2 _ 0) by assumption. rewrite N.shiftr_0_r. apply land_ff; assumption.
  - change 32 with (8 + 24). rewrite (shr_lane b0 _ 24) by assumption. change 24 with (8 + 16). rewrite (shr_lane b1 _ 16) by assumption. change 16 with (8 + 8). rewrite (shr_lane b2 _ 8) by assumption. change 8 with (8 + 0). rewrite (shr_lane b3 _ 0) by assumption. rewrite N.shiftr_0_r. apply land_ff; assumption.
  - change 40 with (8 + 32). rewrite (shr_lane b0 _ 32) by assumption. change 32 with (8 + 24). rewrite (shr_lane b1 _ 24) by assumption. change 24 with (8 + 16). rewrite (shr_lane b2 _ 16) by assumption. change 16 with (8 + 8). rewrite (shr_lane b3 _ 8) by assumption. change 8 with (8 + 0). rewrite (shr_lane b4 _ 0) by assumption. rewrite N.shiftr_0_r. apply land_ff; assumption.
  - change 48 with (8 + 40). rewrite (shr_lane b0 _ 40) by assumption. change 40 with (8 + 32). rewrite (shr_lane b1 _ 32) by assumption. change 32 with (8 + 24). rewrite (shr_lane b2 _ 24) by assumption. change 24 with (8 + 16). rewrite (shr_lane b3 _ 16) by assumption. change 16 with (8 + 8). rewrite (shr_lane b4 _ 8) by assumption. change 8 with (8 + 0). rewrite (shr_lane b5 _ 0) by assumption. rewrite N.shiftr_0_r. apply land_ff; assumption.
  - change 56 with (8 + 48). rewrite (shr_lane b0 _ 48) by assumption. change 48 with (8 + 40). rewrite (shr_lane b1 _ 40) by assumption. change 40 with (8 + 32). rewrite (shr_lane b2 _ 32) by assumption. change 32 with (8 + 24). rewrite (shr_lane b3 _ 24) by assumption. change 24 with (8 + 16). rewrite (shr_lane b4 _ 16) by assumption. change 16 with (8 + 8). rewrite (shr_lane b5 _ 8) by assumption. change 8 with (8 + 0). rewrite (shr_lane b6 _ 0) by assumption. rewrite N.shiftr_0_r. apply land_ff0; assumption.
Qed.
Lemma at_lanes : forall b0 b1 b2 b3 b4 b5 b6 b7 k q, b0 < 256 -> b1 < 256 -> b2 < 256 -> b3 < 256 -> b4 < 256 -> b5 < 256 -> b6 < 256 -> b7 < 256 -> q < 8 ->
  (at_one b0 k q -> at_one (w8 b0 b1 b2 b3 b4 b5 b6 b7) (k) (0 + q)) /\
  (at_one b1 k q -> at_one (w8 b0 b1 b2 b3 b4 b5 b6 b7) (N.of_nat (popcnt b0) + (k)) (8 + q)) /\
  (at_one b2 k q -> at_one (w8 b0 b1 b2 b3 b4 b5 b6 b7) (N.of_nat (popcnt b0) + (N.of_nat (popcnt b1) + (k))) (16 + q)) /\
  (at_one b3 k q -> at_one (w8 b0 b1 b2 b3 b4 b5 b6 b7) (N.of_nat (popcnt b0) + (N.of_nat (popcnt b1) + (N.of_nat (popcnt b2) + (k)))) (24 + q)) /\
  (at_one b4 k q -> at_one (w8 b0 b1 b2 b3 b4 b5 b6 b7) (N.of_nat (popcnt b0) + (N.of_nat (popcnt b1) + (N.of_nat (popcnt b2) + (N.of_nat (popcnt b3) + (k))))) (32 + q)) /\
  (at_one b5 k q -> at_one (w8 b0 b1 b2 b3 b4 b5 b6 b7) (N.of_nat (popcnt b0) + (N.of_nat (popcnt b1) + (N.of_nat (popcnt b2) + (N.of_nat (popcnt b3) + (N.of_nat (popcnt b4) + (k)))))) (40 + q)) /\
  (at_one b6 k q -> at_one (w8 b0 b1 b2 b3 b4 b5 b6 b7) (N.of_nat (popcnt b0) + (N.of_nat (popcnt b1) + (N.of_nat (popcnt b2) + (N.of_nat (popcnt b3) + (N.of_nat (popcnt b4) + (N.of_nat (popcnt b5) + (k))))))) (48 + q)) /\
  (at_one b7 k q -> at_one (w8 b0 b1 b2 b3 b4 b5 b6 b7) (N.of_nat (popcnt b0) + (N.of_nat (popcnt b1) + (N.of_nat (popcnt b2) + (N.of_nat (popcnt b3) + (N.of_nat (popcnt b4) + (N.of_nat (popcnt b5) + (N.of_nat (popcnt b6) + (k)))))))) (56 + q)).
Proof.
  intros. unfold w8. repeat apply conj; intros A.
  - rewrite N.add_0_l. apply at_here; assumption.
  - replace (8 + q) with (8 + (0 + q)) by lia. apply at_next; [assumption|]. rewrite N.add_0_l. apply at_here; assumption.
  - replace (16 + q) with (8 + (8 + q)) by lia. apply at_next; [assumption|]. replace (8 + q) with (8 + (0 + q)) by lia. apply at_next; [assumption|]. rewrite N.add_0_l. apply at_here; assumption.
  - replace (24 + q) with (8 + (16 + q)) by lia. apply at_next; [assumption|]. replace (16 + q) with (8 + (8 + q)) by lia. apply at_next; [assumption|]. replace (8 + q) with (8 + (0 + q)) by lia. apply at_next; [assumption|]. rewrite N.add_0_l. apply at_here; assumption.
  - replace (32 + q) with (8 + (24 + q)) by lia. apply at_next; [assumption|]. replace (24 + q) with (8 + (16 + q)) by lia. apply at_next; [assumption|]. replace (16 + q) with (8 + (8 + q)) by lia. apply at_next; [assumption|]. replace (8 + q) with (8 + (0 + q)) by lia. apply at_next; [assumption|]. rewrite N.add_0_l. apply at_here; assumption.
  - replace (40 + q) with (8 + (32 + q)) by lia. apply at_next; [assumption|]. replace (32 + q) with (8 + (24 + q)) by lia. apply at_next; [assumption|]. replace (24 + q) with (8 + (16 + q)) by lia. apply at_next; [assumption|]. replace (16 + q) with (8 + (8 + q)) by lia. apply at_next; [assumption|]. replace (8 + q) with (8 + (0 + q)) by lia. apply at_next; [assumption|]. rewrite N.add_0_l. apply at_here; assumption.
  - replace (48 + q) with (8 + (40 + q)) by lia. apply at_next; [assumption|]. replace (40 + q) with (8 + (32 + q)) by lia. apply at_next; [assumption|]. replace (32 + q) with (8 + (24 + q)) by lia. apply at_next; [assumption|]. replace (24 + q) with (8 + (16 + q)) by lia. apply at_next; [assumption|]. replace (16 + q) with (8 + (8 + q)) by lia. apply at_next; [assumption|]. replace (8 + q) with (8 + (0 + q)) by lia. apply at_next; [assumption|]. rewrite N.add_0_l. apply at_here; assumption.
  - replace (56 + q) with (8 + (48 + q)) by lia. apply at_next; [assumption|]. replace (48 + q) with (8 + (40 + q)) by lia. apply at_next; [assumption|]. replace (40 + q) with (8 + (32 + q)) by lia. apply at_next; [assumption|]. replace (32 + q) with (8 + (24 + q)) by lia. apply at_next; [assumption|]. replace (24 + q) with (8 + (16 + q)) by lia. apply at_next; [assumption|]. replace (16 + q) with (8 + (8 + q)) by lia. apply at_next; [assumption|]. replace (8 + q) with (8 + (0 + q)) by lia. apply at_next; [assumption|]. rewrite N.add_0_l. exact A.
Qed.

Theorem broadword_ok : forall e x k, x < 2 ^ 64 -> k < N.of_nat (popcnt x) -> exists r,
  select64_broadword e x (Z.of_N k) = Ok (Z.of_N r) /\ r < 64 /\ at_one x k r.
Proof.
  intros e x k Hx Hk. destruct (w8_exists x Hx) as (b0 & b1 & b2 & b3 & b4 & b5 & b6 & b7 & -> & H0 & H1 & H2 & H3 & H4 & H5 & H6 & H7).
  change (exists r, finish e (byte_sums (w8 b0 b1 b2 b3 b4 b5 b6 b7)) (w8 b0 b1 b2 b3 b4 b5 b6 b7) (N.land (N.shiftr (wrap64 (LEQ_STEP_8 (byte_sums (w8 b0 b1 b2 b3 b4 b5 b6 b7)) (wrap64 (int_to_u64 (Z.of_N k) * L8)) * L8)) 53) (two64 - 8)) (Z.of_N k)
    = Ok (Z.of_N r) /\ r < 64 /\ at_one (w8 b0 b1 b2 b3 b4 b5 b6 b7) k r).
  rewrite popcnt_w8, !Nat2N.inj_add in Hk by assumption. rewrite byte_sums_eq by assumption.
  pose proof (pop8 b0 H0). pose proof (pop8 b1 H1). pose proof (pop8 b2 H2). pose proof (pop8 b3 H3).
  pose proof (pop8 b4 H4). pose proof (pop8 b5 H5). pose proof (pop8 b6 H6). pose proof (pop8 b7 H7).
  rewrite mul_lanes by assumption. rewrite (proj1 (int_small k ltac:(lia))).
  rewrite place_eq by lia.
  pose proof (lanes b0 b1 b2 b3 b4 b5 b6 b7 H0 H1 H2 H3 H4 H5 H6 H7) as (L0 & L1 & L2 & L3 & L4 & L5 & L6 & L7).
  pose proof (fun j q Q => at_lanes b0 b1 b2 b3 b4 b5 b6 b7 j q H0 H1 H2 H3 H4 H5 H6 H7 Q) as AL.
  set (c0 := N.of_nat (popcnt b0)) in *.
  set (c1 := N.of_nat (popcnt b1)) in *.
  set (c2 := N.of_nat (popcnt b2)) in *.
  set (c3 := N.of_nat (popcnt b3)) in *.
  set (c4 := N.of_nat (popcnt b4)) in *.
  set (c5 := N.of_nat (popcnt b5)) in *.
  set (c6 := N.of_nat (popcnt b6)) in *.
  set (c7 := N.of_nat (popcnt b7)) in *.
  pose proof (shl_lanes (c0) (c0 + c1) (c0 + c1 + c2) (c0 + c1 + c2 + c3) (c0 + c1 + c2 + c3 + c4) (c0 + c1 + c2 + c3 + c4 + c5) (c0 + c1 + c2 + c3 + c4 + c5 + c6) (c0 + c1 + c2 + c3 + c4 + c5 + c6 + c7)) as SH. specialize (SH ltac:(lia) ltac:(lia) ltac:(lia) ltac:(lia) ltac:(lia) ltac:(lia) ltac:(lia)).
  pose proof (lanes 0 (c0) (c0 + c1) (c0 + c1 + c2) (c0 + c1 + c2 + c3) (c0 + c1 + c2 + c3 + c4) (c0 + c1 + c2 + c3 + c4 + c5) (c0 + c1 + c2 + c3 + c4 + c5 + c6) ltac:(lia) ltac:(lia) ltac:(lia) ltac:(lia) ltac:(lia) ltac:(lia) ltac:(lia) ltac:(lia)) as (M0 & M1 & M2 & M3 & M4 & M5 & M6 & M7).
  rewrite <- SH in M0, M1, M2, M3, M4, M5, M6, M7.
  assert (C : (0 <= k /\ k < c0) \/ (c0 <= k /\ k < c0 + c1) \/ (c0 + c1 <= k /\ k < c0 + c1 + c2) \/ (c0 + c1 + c2 <= k /\ k < c0 + c1 + c2 + c3) \/ (c0 + c1 + c2 + c3 <= k /\ k < c0 + c1 + c2 + c3 + c4) \/ (c0 + c1 + c2 + c3 + c4 <= k /\ k < c0 + c1 + c2 + c3 + c4 + c5) \/ (c0 + c1 + c2 + c3 + c4 + c5 <= k /\ k < c0 + c1 + c2 + c3 + c4 + c5 + c6) \/ (c0 + c1 + c2 + c3 + c4 + c5 + c6 <= k /\ k < c0 + c1 + c2 + c3 + c4 + c5 + c6 + c7)) by lia.
  destruct C as [C|[C|[C|[C|[C|[C|[C|C]]]]]]].
  - replace (8 * (le1 (c0) k + le1 (c0 + c1) k + le1 (c0 + c1 + c2) k + le1 (c0 + c1 + c2 + c3) k + le1 (c0 + c1 + c2 + c3 + c4) k + le1 (c0 + c1 + c2 + c3 + c4 + c5) k + le1 (c0 + c1 + c2 + c3 + c4 + c5 + c6) k + le1 (c0 + c1 + c2 + c3 + c4 + c5 + c6 + c7) k)) with 0 by (rewrite (le1_no (c0)) by lia; rewrite (le1_no (c0 + c1)) by lia; rewrite (le1_no (c0 + c1 + c2)) by lia; rewrite (le1_no (c0 + c1 + c2 + c3)) by lia; rewrite (le1_no (c0 + c1 + c2 + c3 + c4)) by lia; rewrite (le1_no (c0 + c1 + c2 + c3 + c4 + c5)) by lia; rewrite (le1_no (c0 + c1 + c2 + c3 + c4 + c5 + c6)) by lia; rewrite (le1_no (c0 + c1 + c2 + c3 + c4 + c5 + c6 + c7)) by lia; reflexivity).
    destruct (finish_ok e (w8 (c0) (c0 + c1) (c0 + c1 + c2) (c0 + c1 + c2 + c3) (c0 + c1 + c2 + c3 + c4) (c0 + c1 + c2 + c3 + c4 + c5) (c0 + c1 + c2 + c3 + c4 + c5 + c6) (c0 + c1 + c2 + c3 + c4 + c5 + c6 + c7)) (w8 b0 b1 b2 b3 b4 b5 b6 b7) 0 k b0 (0) ltac:(reflexivity) ltac:(lia) H0 M0 L0 ltac:(lia) ltac:(fold c0; lia)) as (q & E & Hq & A).
    exists (0 + q). split; [exact E|]. split; [lia|]. pose proof (AL (k - (0)) q Hq) as (A' & _ & _ & _ & _ & _ & _ & _). specialize (A' A). fold c0 c1 c2 c3 c4 c5 c6 c7 in A'.
    replace k with (k - (0)) by lia. exact A'.
  - replace (8 * (le1 (c0) k + le1 (c0 + c1) k + le1 (c0 + c1 + c2) k + le1 (c0 + c1 + c2 + c3) k + le1 (c0 + c1 + c2 + c3 + c4) k + le1 (c0 + c1 + c2 + c3 + c4 + c5) k + le1 (c0 + c1 + c2 + c3 + c4 + c5 + c6) k + le1 (c0 + c1 + c2 + c3 + c4 + c5 + c6 + c7) k)) with 8 by (rewrite (le1_yes (c0)) by lia; rewrite (le1_no (c0 + c1)) by lia; rewrite (le1_no (c0 + c1 + c2)) by lia; rewrite (le1_no (c0 + c1 + c2 + c3)) by lia; rewrite (le1_no (c0 + c1 + c2 + c3 + c4)) by lia; rewrite (le1_no (c0 + c1 + c2 + c3 + c4 + c5)) by lia; rewrite (le1_no (c0 + c1 + c2 + c3 + c4 + c5 + c6)) by lia; rewrite (le1_no (c0 + c1 + c2 + c3 + c4 + c5 + c6 + c7)) by lia; reflexivity).
    destruct (finish_ok e (w8 (c0) (c0 + c1) (c0 + c1 + c2) (c0 + c1 + c2 + c3) (c0 + c1 + c2 + c3 + c4) (c0 + c1 + c2 + c3 + c4 + c5) (c0 + c1 + c2 + c3 + c4 + c5 + c6) (c0 + c1 + c2 + c3 + c4 + c5 + c6 + c7)) (w8 b0 b1 b2 b3 b4 b5 b6 b7) 8 k b1 (c0) ltac:(reflexivity) ltac:(lia) H1 M1 L1 ltac:(lia) ltac:(fold c1; lia)) as (q & E & Hq & A).
    exists (8 + q). split; [exact E|]. split; [lia|]. pose proof (AL (k - (c0)) q Hq) as (_ & A' & _ & _ & _ & _ & _ & _). specialize (A' A). fold c0 c1 c2 c3 c4 c5 c6 c7 in A'.
    replace k with (c0 + (k - (c0))) by lia. exact A'.
  - replace (8 * (le1 (c0) k + le1 (c0 + c1) k + le1 (c0 + c1 + c2) k + le1 (c0 + c1 + c2 + c3) k + le1 (c0 + c1 + c2 + c3 + c4) k + le1 (c0 + c1 + c2 + c3 + c4 + c5) k + le1 (c0 + c1 + c2 + c3 + c4 + c5 + c6) k + le1 (c0 + c1 + c2 + c3 + c4 + c5 + c6 + c7) k)) with 16 by (rewrite (le1_yes (c0)) by lia; rewrite (le1_yes (c0 + c1)) by lia; rewrite (le1_no (c0 + c1 + c2)) by lia; rewrite (le1_no (c0 + c1 + c2 + c3)) by lia; rewrite (le1_no (c0 + c1 + c2 + c3 + c4)) by lia; rewrite (le1_no (c0 + c1 + c2 + c3 + c4 + c5)) by lia; rewrite (le1_no (c0 + c1 + c2 + c3 + c4 + c5 + c6)) by lia; rewrite (le1_no (c0 + c1 + c2 + c3 + c4 + c5 + c6 + c7)) by lia; reflexivity).
    destruct (finish_ok e (w8 (c0) (c0 + c1) (c0 + c1 + c2) (c0 + c1 + c2 + c3) (c0 + c1 + c2 + c3 + c4) (c0 + c1 + c2 + c3 + c4 + c5) (c0 + c1 + c2 + c3 + c4 + c5 + c6) (c0 + c1 + c2 + c3 + c4 + c5 + c6 + c7)) (w8 b0 b1 b2 b3 b4 b5 b6 b7) 16 k b2 (c0 + c1) ltac:(reflexivity) ltac:(lia) H2 M2 L2 ltac:(lia) ltac:(fold c2; lia)) as (q & E & Hq & A).
    exists (16 + q). split; [exact E|]. split; [lia|]. pose proof (AL (k - (c0 + c1)) q Hq) as (_ & _ & A' & _ & _ & _ & _ & _). specialize (A' A). fold c0 c1 c2 c3 c4 c5 c6 c7 in A'.
    replace k with (c0 + (c1 + (k - (c0 + c1)))) by lia. exact A'.
  - replace (8 * (le1 (c0) k + le1 (c0 + c1) k + le1 (c0 + c1 + c2) k + le1 (c0 + c1 + c2 + c3) k + le1 (c0 + c1 + c2 + c3 + c4) k + le1 (c0 + c1 + c2 + c3 + c4 + c5) k + le1 (c0 + c1 + c2 + c3 + c4 + c5 + c6) k + le1 (c0 + c1 + c2 + c3 + c4 + c5 + c6 + c7) k)) with 24 by (rewrite (le1_yes (c0)) by lia; rewrite (le1_yes (c0 + c1)) by lia; rewrite (le1_yes (c0 + c1 + c2)) by lia; rewrite (le1_no (c0 + c1 + c2 + c3)) by lia; rewrite (le1_no (c0 + c1 + c2 + c3 + c4)) by lia; rewrite (le1_no (c0 + c1 + c2 + c3 + c4 + c5)) by lia; rewrite (le1_no (c0 + c1 + c2 + c3 + c4 + c5 + c6)) by lia; rewrite (le1_no (c0 + c1 + c2 + c3 + c4 + c5 + c6 + c7)) by lia; reflexivity).
    destruct (finish_ok e (w8 (c0) (c0 + c1) (c0 + c1 + c2) (c0 + c1 + c2 + c3) (c0 + c1 + c2 + c3 + c4) (c0 + c1 + c2 + c3 + c4 + c5) (c0 + c1 + c2 + c3 + c4 + c5 + c6) (c0 + c1 + c2 + c3 + c4 + c5 + c6 + c7)) (w8 b0 b1 b2 b3 b4 b5 b6 b7) 24 k b3 (c0 + c1 + c2) ltac:(reflexivity) ltac:(lia) H3 M3 L3 ltac:(lia) ltac:(fold c3; lia)) as (q & E & Hq & A).
    exists (24 + q). split; [exact E|]. split; [lia|]. pose proof (AL (k - (c0 + c1 + c2)) q Hq) as (_ & _ & _ & A' & _ & _ & _ & _). specialize (A' A). fold c0 c1 c2 c3 c4 c5 c6 c7 in A'.
    replace k with (c0 + (c1 + (c2 + (k - (c0 + c1 + c2))))) by lia. exact A'.
  - replace (8 * (le1 (c0) k + le1 (c0 + c1) k + le1 (c0 + c1 + c2) k + le1 (c0 + c1 + c2 + c3) k + le1 (c0 + c1 + c2 + c3 + c4) k + le1 (c0 + c1 + c2 + c3 + c4 + c5) k + le1 (c0 + c1 + c2 + c3 + c4 + c5 + c6) k + le1 (c0 + c1 + c2 + c3 + c4 + c5 + c6 + c7) k)) with 32 by (rewrite (le1_yes (c0)) by lia; rewrite (le1_yes (c0 + c1)) by lia; rewrite (le1_yes (c0 + c1 + c2)) by lia; rewrite (le1_yes (c0 + c1 + c2 + c3)) by lia; rewrite (le1_no (c0 + c1 + c2 + c3 + c4)) by lia; rewrite (le1_no (c0 + c1 + c2 + c3 + c4 + c5)) by lia; rewrite (le1_no (c0 + c1 + c2 + c3 + c4 + c5 + c6)) by lia; rewrite (le1_no (c0 + c1 + c2 + c3 + c4 + c5 + c6 + c7)) by lia; reflexivity).
    destruct (finish_ok e (w8 (c0) (c0 + c1) (c0 + c1 + c2) (c0 + c1 + c2 + c3) (c0 + c1 + c2 + c3 + c4) (c0 + c1 + c2 + c3 + c4 + c5) (c0 + c1 + c2 + c3 + c4 + c5 + c6) (c0 + c1 + c2 + c3 + c4 + c5 + c6 + c7)) (w8 b0 b1 b2 b3 b4 b5 b6 b7) 32 k b4 (c0 + c1 + c2 + c3) ltac:(reflexivity) ltac:(lia) H4 M4 L4 ltac:(lia) ltac:(fold c4; lia)) as (q & E & Hq & A).
    exists (32 + q). split; [exact E|]. split; [lia|]. pose proof (AL (k - (c0 + c1 + c2 + c3)) q Hq) as (_ & _ & _ & _ & A' & _ & _ & _). specialize (A' A). fold c0 c1 c2 c3 c4 c5 c6 c7 in A'.
    replace k with (c0 + (c1 + (c2 + (c3 + (k - (c0 + c1 + c2 + c3)))))) by lia. exact A'.
  - replace (8 * (le1 (c0) k + le1 (c0 + c1) k + le1 (c0 + c1 + c2) k + le1 (c0 + c1 + c2 + c3) k + le1 (c0 + c1 + c2 + c3 + c4) k + le1 (c0 + c1 + c2 + c3 + c4 + c5) k + le1 (c0 + c1 + c2 + c3 + c4 + c5 + c6) k + le1 (c0 + c1 + c2 + c3 + c4 + c5 + c6 + c7) k)) with 40 by (rewrite (le1_yes (c0)) by lia; rewrite (le1_yes (c0 + c1)) by lia; rewrite (le1_yes (c0 + c1 + c2)) by lia; rewrite (le1_yes (c0 + c1 + c2 + c3)) by lia; rewrite (le1_yes (c0 + c1 + c2 + c3 + c4)) by lia; rewrite (le1_no (c0 + c1 + c2 + c3 + c4 + c5)) by lia; rewrite (le1_no (c0 + c1 + c2 + c3 + c4 + c5 + c6)) by lia; rewrite (le1_no (c0 + c1 + c2 + c3 + c4 + c5 + c6 + c7)) by lia; reflexivity).
    destruct (finish_ok e (w8 (c0) (c0 + c1) (c0 + c1 + c2) (c0 + c1 + c2 + c3) (c0 + c1 + c2 + c3 + c4) (c0 + c1 + c2 + c3 + c4 + c5) (c0 + c1 + c2 + c3 + c4 + c5 + c6) (c0 + c1 + c2 + c3 + c4 + c5 + c6 + c7)) (w8 b0 b1 b2 b3 b4 b5 b6 b7) 40 k b5 (c0 + c1 + c2 + c3 + c4) ltac:(reflexivity) ltac:(lia) H5 M5 L5 ltac:(lia) ltac:(fold c5; lia)) as (q & E & Hq & A).
    exists (40 + q). split; [exact E|]. split; [lia|]. pose proof (AL (k - (c0 + c1 + c2 + c3 + c4)) q Hq) as (_ & _ & _ & _ & _ & A' & _ & _). specialize (A' A). fold c0 c1 c2 c3 c4 c5 c6 c7 in A'.
    replace k with (c0 + (c1 + (c2 + (c3 + (c4 + (k - (c0 + c1 + c2 + c3 + c4))))))) by lia. exact A'.
  - replace (8 * (le1 (c0) k + le1 (c0 + c1) k + le1 (c0 + c1 + c2) k + le1 (c0 + c1 + c2 + c3) k + le1 (c0 + c1 + c2 + c3 + c4) k + le1 (c0 + c1 + c2 + c3 + c4 + c5) k + le1 (c0 + c1 + c2 + c3 + c4 + c5 + c6) k + le1 (c0 + c1 + c2 + c3 + c4 + c5 + c6 + c7) k)) with 48 by (rewrite (le1_yes (c0)) by lia; rewrite (le1_yes (c0 + c1)) by lia; rewrite (le1_yes (c0 + c1 + c2)) by lia; rewrite (le1_yes (c0 + c1 + c2 + c3)) by lia; rewrite (le1_yes (c0 + c1 + c2 + c3 + c4)) by lia; rewrite (le1_yes (c0 + c1 + c2 + c3 + c4 + c5)) by lia; rewrite (le1_no (c0 + c1 + c2 + c3 + c4 + c5 + c6)) by lia; rewrite (le1_no (c0 + c1 + c2 + c3 + c4 + c5 + c6 + c7)) by lia; reflexivity).
    destruct (finish_ok e (w8 (c0) (c0 + c1) (c0 + c1 + c2) (c0 + c1 + c2 + c3) (c0 + c1 + c2 + c3 + c4) (c0 + c1 + c2 + c3 + c4 + c5) (c0 + c1 + c2 + c3 + c4 + c5 + c6) (c0 + c1 + c2 + c3 + c4 + c5 + c6 + c7)) (w8 b0 b1 b2 b3 b4 b5 b6 b7) 48 k b6 (c0 + c1 + c2 + c3 + c4 + c5) ltac:(reflexivity) ltac:(lia) H6 M6 L6 ltac:(lia) ltac:(fold c6; lia)) as (q & E & Hq & A).
    exists (48 + q). split; [exact E|]. split; [lia|]. pose proof (AL (k - (c0 + c1 + c2 + c3 + c4 + c5)) q Hq) as (_ & _ & _ & _ & _ & _ & A' & _). specialize (A' A). fold c0 c1 c2 c3 c4 c5 c6 c7 in A'.
    replace k with (c0 + (c1 + (c2 + (c3 + (c4 + (c5 + (k - (c0 + c1 + c2 + c3 + c4 + c5)))))))) by lia. exact A'.
  - replace (8 * (le1 (c0) k + le1 (c0 + c1) k + le1 (c0 + c1 + c2) k + le1 (c0 + c1 + c2 + c3) k + le1 (c0 + c1 + c2 + c3 + c4) k + le1 (c0 + c1 + c2 + c3 + c4 + c5) k + le1 (c0 + c1 + c2 + c3 + c4 + c5 + c6) k + le1 (c0 + c1 + c2 + c3 + c4 + c5 + c6 + c7) k)) with 56 by (rewrite (le1_yes (c0)) by lia; rewrite (le1_yes (c0 + c1)) by lia; rewrite (le1_yes (c0 + c1 + c2)) by lia; rewrite (le1_yes (c0 + c1 + c2 + c3)) by lia; rewrite (le1_yes (c0 + c1 + c2 + c3 + c4)) by lia; rewrite (le1_yes (c0 + c1 + c2 + c3 + c4 + c5)) by lia; rewrite (le1_yes (c0 + c1 + c2 + c3 + c4 + c5 + c6)) by lia; rewrite (le1_no (c0 + c1 + c2 + c3 + c4 + c5 + c6 + c7)) by lia; reflexivity).
    destruct (finish_ok e (w8 (c0) (c0 + c1) (c0 + c1 + c2) (c0 + c1 + c2 + c3) (c0 + c1 + c2 + c3 + c4) (c0 + c1 + c2 + c3 + c4 + c5) (c0 + c1 + c2 + c3 + c4 + c5 + c6) (c0 + c1 + c2 + c3 + c4 + c5 + c6 + c7)) (w8 b0 b1 b2 b3 b4 b5 b6 b7) 56 k b7 (c0 + c1 + c2 + c3 + c4 + c5 + c6) ltac:(reflexivity) ltac:(lia) H7 M7 L7 ltac:(lia) ltac:(fold c7; lia)) as (q & E & Hq & A).
    exists (56 + q). split; [exact E|]. split; [lia|]. pose proof (AL (k - (c0 + c1 + c2 + c3 + c4 + c5 + c6)) q Hq) as (_ & _ & _ & _ & _ & _ & _ & A'). specialize (A' A). fold c0 c1 c2 c3 c4 c5 c6 c7 in A'.
    replace k with (c0 + (c1 + (c2 + (c3 + (c4 + (c5 + (c6 + (k - (c0 + c1 + c2 + c3 + c4 + c5 + c6))))))))) by lia. exact A'.
Qed.

(** too few ones: the shift by 64 *)
Theorem broadword_wide : forall e x k, x < 2 ^ 64 -> N.of_nat (popcnt x) <= k -> k < 128 -> strict_shift e = true ->
  select64_broadword e x (Z.of_N k) = Fail WideShift.
Proof.
  intros e x k Hx Hk HK HS. destruct (w8_exists x Hx) as (b0 & b1 & b2 & b3 & b4 & b5 & b6 & b7 & -> & H0 & H1 & H2 & H3 & H4 & H5 & H6 & H7).
  change (finish e (byte_sums (w8 b0 b1 b2 b3 b4 b5 b6 b7)) (w8 b0 b1 b2 b3 b4 b5 b6 b7) (N.land (N.shiftr (wrap64 (LEQ_STEP_8 (byte_sums (w8 b0 b1 b2 b3 b4 b5 b6 b7)) (wrap64 (int_to_u64 (Z.of_N k) * L8)) * L8)) 53) (two64 - 8)) (Z.of_N k)
    = Fail WideShift).
  rewrite popcnt_w8, !Nat2N.inj_add in Hk by assumption. rewrite byte_sums_eq by assumption.
  pose proof (pop8 b0 H0). pose proof (pop8 b1 H1). pose proof (pop8 b2 H2). pose proof (pop8 b3 H3).
  pose proof (pop8 b4 H4). pose proof (pop8 b5 H5). pose proof (pop8 b6 H6). pose proof (pop8 b7 H7).
  rewrite mul_lanes by assumption. rewrite (proj1 (int_small k ltac:(lia))). rewrite place_eq by lia.
  rewrite !le1_yes by lia. change (8 * (1 + 1 + 1 + 1 + 1 + 1 + 1 + 1)) with 64. unfold finish, shr64. rewrite HS. reflexivity.
Qed.

Local Open Scope nat_scope.
Lemma low_bits : forall x r, r <= 64 -> skipn (64 - r) (bits64 x) = bitsn r (x mod 2 ^ N.of_nat r)%N.
Proof.
  intros x r Hr. apply (nth_ext _ _ false false).
  - rewrite skipn_length, bits64_length, bitsn_length. lia.
  - intros i Hi. rewrite skipn_length, bits64_length in Hi. rewrite nth_skipn_add, bits64_nth, bitsn_nth by lia.
    rewrite N.mod_pow2_bits_low by lia. f_equal. lia.
Qed.
Theorem api_broadword : forall e x k, (x < 2 ^ 64)%N -> k < ones (word_bits x) -> exists p,
  select64_broadword e x (Z.of_nat k) = Ok (63 - Z.of_nat p)%Z /\ p < 64 /\ nth p (word_bits x) false = true /\
  ones (skipn (S p) (word_bits x)) = k.
Proof.
  intros e x k Hx Hk. rewrite ones_cnt, word_bits_eq, <- popcnt_bits64 in Hk by exact Hx.
  destruct (broadword_ok e x (N.of_nat k) Hx ltac:(lia)) as (r & E & Hr & A & B). exists (63 - N.to_nat r).
  rewrite nat_N_Z in E. rewrite E. split; [f_equal; lia|]. split; [lia|]. rewrite ones_cnt, word_bits_eq. split.
  - rewrite bits64_nth by lia. rewrite <- A. f_equal. lia.
  - replace (S (63 - N.to_nat r)) with (64 - N.to_nat r) by lia. rewrite low_bits by lia. rewrite N2Nat.id.
    rewrite <- popcnt_bitsn; [lia|]. rewrite N2Nat.id. apply N.mod_lt. apply N.pow_nonzero. discriminate.
Qed.
Lemma skipn_here : forall (l : list bool) p, p < length l -> skipn p l = nth p l false :: skipn (S p) l.
Proof. induction l as [|a l IH]; intros [|p] H; cbn in *; try lia; auto. apply IH. lia. Qed.
Theorem api_broadword_mirror : forall e x k, (x < 2 ^ 64)%N -> k < ones (word_bits x) ->
  select64_broadword e x (Z.of_nat k) = Ok (63 - select64 x (Z.of_nat (ones (word_bits x) - k)))%Z.
Proof.
  intros e x k Hx Hk. destruct (api_broadword e x k Hx Hk) as (p & E & Hp & A & B). rewrite E. f_equal. f_equal.
  destruct (api_select64 x (ones (word_bits x) - k) Hx ltac:(lia)) as (p' & _ & _ & E' & Hp' & A' & B'). rewrite E'. f_equal.
  rewrite !ones_cnt in *. rewrite word_bits_eq in *. set (l := bits64 x) in *. set (n := cnt l - k) in *.
  assert (L : length l = 64) by apply bits64_length.
  assert (T : cnt l = cnt (firstn p l) + 1 + cnt (skipn (S p) l)).
  { rewrite <- (firstn_skipn p l) at 1. rewrite cnt_app. rewrite (skipn_here l p) by lia. rewrite A. cbn [cnt]. lia. }
  transitivity (sel n l); [symmetry|]; apply sel_unique; auto; unfold n; lia.
Qed.
Theorem api_broadword_wide : forall e x k, (x < 2 ^ 64)%N -> ones (word_bits x) <= k -> k < 128 -> strict_shift e = true ->
  select64_broadword e x (Z.of_nat k) = Fail WideShift.
Proof.
  intros e x k Hx Hk HK HS. rewrite ones_cnt, word_bits_eq, <- popcnt_bits64 in Hk by exact Hx.
  rewrite <- nat_N_Z. apply broadword_wide; auto; lia.
Qed.
