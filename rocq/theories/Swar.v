(** Population count by byte lanes and the select helpers of include/popcount.h. *)
From Coq Require Import Arith List NArith ZArith Bool Lia ZifyN ZifyNat ZifyBool.
From Verif Require Import Res Word BitFacts WordFacts.
Import ListNotations.
Local Open Scope N_scope.

Lemma lane_bit : forall a x i, a < 256 -> N.testbit (a + 256 * x) i = if i <? 8 then N.testbit a i else N.testbit x (i - 8).
Proof.
  intros a x i Ha. destruct (N.ltb_spec i 8) as [L|L].
  - rewrite <- (N.mod_pow2_bits_low (a + 256 * x) 8 i L). change (2 ^ 8) with 256.
    replace (a + 256 * x) with (a + x * 256) by lia. rewrite N.mod_add, N.mod_small by lia. reflexivity.
  - replace i with ((i - 8) + 8) at 1 by lia. rewrite <- N.div_pow2_bits. change (2 ^ 8) with 256.
    replace (a + 256 * x) with (a + x * 256) by lia. rewrite N.div_add, N.div_small by lia. reflexivity.
Qed.

Lemma land_lt : forall a m, a < 256 -> N.land a m < 256.
Proof.
  intros a m Ha. assert (E : N.land a m = (N.land a m) mod 256).
  { change 256 with (2 ^ 8). rewrite <- N.land_ones. rewrite <- N.land_assoc, (N.land_comm m), N.land_assoc.
    f_equal. rewrite N.land_ones. symmetry. apply N.mod_small. exact Ha. }
  rewrite E. apply N.mod_lt. lia.
Qed.

Lemma land_lane : forall a x m y, a < 256 -> m < 256 ->
  N.land (a + 256 * x) (m + 256 * y) = N.land a m + 256 * N.land x y.
Proof.
  intros a x m y Ha Hm. apply N.bits_inj. intros i. rewrite N.land_spec, !lane_bit by (auto; apply land_lt; auto).
  destruct (i <? 8); rewrite N.land_spec; reflexivity.
Qed.

Definition byte_all (p : N -> bool) : bool := forallb p (map N.of_nat (seq 0 256)).
Lemma byte_all_ok : forall p, byte_all p = true -> forall b, b < 256 -> p b = true.
Proof.
  intros p H b Hb. unfold byte_all in H. rewrite forallb_forall in H. apply H. apply in_map_iff.
  exists (N.to_nat b). split; [apply N2Nat.id|]. apply in_seq. lia.
Qed.

(** eight bytes, least significant first *)
Definition w8 b0 b1 b2 b3 b4 b5 b6 b7 : N :=
  b0 + 256 * (b1 + 256 * (b2 + 256 * (b3 + 256 * (b4 + 256 * (b5 + 256 * (b6 + 256 * b7)))))).

Lemma w8_exists : forall x, x < 2 ^ 64 -> exists b0 b1 b2 b3 b4 b5 b6 b7,
  x = w8 b0 b1 b2 b3 b4 b5 b6 b7 /\ b0 < 256 /\ b1 < 256 /\ b2 < 256 /\ b3 < 256 /\ b4 < 256 /\ b5 < 256 /\ b6 < 256 /\ b7 < 256.
Proof.
  intros x H. change (2 ^ 64) with 18446744073709551616 in H.
  assert (D : forall y, exists b z, y = b + 256 * z /\ b < 256).
  { intros y. exists (y mod 256), (y / 256). pose proof (N.div_mod y 256 ltac:(lia)). split; [lia|]. apply N.mod_lt. lia. }
  destruct (D x) as (b0 & x1 & E0 & H0). destruct (D x1) as (b1 & x2 & E1 & H1). destruct (D x2) as (b2 & x3 & E2 & H2).
  destruct (D x3) as (b3 & x4 & E3 & H3). destruct (D x4) as (b4 & x5 & E4 & H4). destruct (D x5) as (b5 & x6 & E5 & H5).
  destruct (D x6) as (b6 & b7 & E6 & H6).
  exists b0, b1, b2, b3, b4, b5, b6, b7. unfold w8. subst. repeat split; auto. lia.
Qed.

Lemma w8_land : forall b0 b1 b2 b3 b4 b5 b6 b7 m, m < 256 ->
  b0 < 256 -> b1 < 256 -> b2 < 256 -> b3 < 256 -> b4 < 256 -> b5 < 256 -> b6 < 256 ->
  N.land (w8 b0 b1 b2 b3 b4 b5 b6 b7) (w8 m m m m m m m m) =
  w8 (N.land b0 m) (N.land b1 m) (N.land b2 m) (N.land b3 m) (N.land b4 m) (N.land b5 m) (N.land b6 m) (N.land b7 m).
Proof. intros. unfold w8. rewrite !land_lane by auto. reflexivity. Qed.

Lemma w8_div : forall b0 b1 b2 b3 b4 b5 b6 b7 k, 2 ^ k <> 0 ->
  N.shiftr (w8 (2 ^ k * b0) (2 ^ k * b1) (2 ^ k * b2) (2 ^ k * b3) (2 ^ k * b4) (2 ^ k * b5) (2 ^ k * b6) (2 ^ k * b7)) k
  = w8 b0 b1 b2 b3 b4 b5 b6 b7.
Proof.
  intros. rewrite N.shiftr_div_pow2. symmetry. apply N.div_unique_exact; auto. unfold w8. ring.
Qed.

(** the three byte-wise stages *)
Definition st1 b := b - N.land b 0xAA / 2.
Definition st2 c := N.land c 0x33 + N.land c 0xCC / 4.
Definition st3 d := d mod 16 + d / 16.

Lemma stages : forall b, b < 256 ->
  N.land b 0xAA = 2 * (N.land b 0xAA / 2) /\ N.land b 0xAA / 2 <= b /\ st1 b < 256 /\
  N.land (st1 b) 0xCC = 4 * (N.land (st1 b) 0xCC / 4) /\ st2 (st1 b) < 256 /\
  st2 (st1 b) mod 16 <= 4 /\ st2 (st1 b) / 16 <= 4 /\ st3 (st2 (st1 b)) = N.of_nat (popcnt b).
Proof.
  intros b Hb.
  pose proof (byte_all_ok (fun b => (N.land b 0xAA =? 2 * (N.land b 0xAA / 2)) && (N.land b 0xAA / 2 <=? b) && (st1 b <? 256)
    && (N.land (st1 b) 0xCC =? 4 * (N.land (st1 b) 0xCC / 4)) && (st2 (st1 b) <? 256)
    && (st2 (st1 b) mod 16 <=? 4) && (st2 (st1 b) / 16 <=? 4) && (st3 (st2 (st1 b)) =? N.of_nat (popcnt b))) ltac:(vm_compute; reflexivity) b Hb) as H.
  cbv beta in H. rewrite !andb_true_iff, !N.eqb_eq, !N.leb_le, !N.ltb_lt in H. tauto.
Qed.

Lemma popcnt_lane : forall a x, a < 256 -> popcnt (a + 256 * x) = (popcnt a + popcnt x)%nat.
Proof.
  intros a x Ha. destruct (N.eq_dec x 0) as [->|Hx].
  { rewrite N.mul_0_r, N.add_0_r. cbn [popcnt]. lia. }
  assert (G : forall n a, a < 2 ^ N.of_nat n -> popcnt (a + 2 ^ N.of_nat n * x) = (popcnt a + popcnt x)%nat).
  { clear a Ha Hx. induction n as [|n IH]; intros a Ha.
    - cbn in Ha. assert (a = 0) by lia. subst. replace (0 + 2 ^ N.of_nat 0 * x) with x by (cbn [N.of_nat]; rewrite N.pow_0_r; lia). reflexivity.
    - rewrite Nat2N.inj_succ, N.pow_succ_r' in *. rewrite (popcnt_div2 (a + _)), (popcnt_div2 a).
      assert (E : N.div2 (a + 2 * 2 ^ N.of_nat n * x) = N.div2 a + 2 ^ N.of_nat n * x).
      { rewrite !N.div2_div. replace (a + 2 * 2 ^ N.of_nat n * x) with (a + (2 ^ N.of_nat n * x) * 2) by ring. apply N.div_add. lia. }
      assert (O : N.odd (a + 2 * 2 ^ N.of_nat n * x) = N.odd a).
      { replace (2 * 2 ^ N.of_nat n * x) with (2 * (2 ^ N.of_nat n * x)) by ring. apply N.odd_add_mul_2. }
      rewrite E, O, IH; [lia|]. rewrite N.div2_div. apply N.div_lt_upper_bound; lia. }
  exact (G 8%nat a Ha).
Qed.

Lemma popcnt_w8 : forall b0 b1 b2 b3 b4 b5 b6 b7,
  b0 < 256 -> b1 < 256 -> b2 < 256 -> b3 < 256 -> b4 < 256 -> b5 < 256 -> b6 < 256 ->
  popcnt (w8 b0 b1 b2 b3 b4 b5 b6 b7) =
  (popcnt b0 + (popcnt b1 + (popcnt b2 + (popcnt b3 + (popcnt b4 + (popcnt b5 + (popcnt b6 + popcnt b7)))))))%nat.
Proof. intros. unfold w8. rewrite !popcnt_lane by auto. reflexivity. Qed.

Lemma w8_lt : forall b0 b1 b2 b3 b4 b5 b6 b7,
  b0 < 256 -> b1 < 256 -> b2 < 256 -> b3 < 256 -> b4 < 256 -> b5 < 256 -> b6 < 256 -> b7 < 256 ->
  w8 b0 b1 b2 b3 b4 b5 b6 b7 < two64.
Proof. intros. unfold w8, two64. lia. Qed.

Lemma wrap64_lt : forall x, x < two64 -> wrap64 x = x.
Proof. intros. apply N.mod_small. auto. Qed.

Lemma nib_sum : forall l0 h0 l1 h1 l2 h2 l3 h3 l4 h4 l5 h5 l6 h6 l7 h7,
  l0 <= 4 -> h0 <= 4 -> l1 <= 4 -> h1 <= 4 -> l2 <= 4 -> h2 <= 4 -> l3 <= 4 -> h3 <= 4 ->
  l4 <= 4 -> h4 <= 4 -> l5 <= 4 -> h5 <= 4 -> l6 <= 4 -> h6 <= 4 -> l7 <= 4 -> h7 <= 4 ->
  let x := w8 (l0 + 16 * h0) (l1 + 16 * h1) (l2 + 16 * h2) (l3 + 16 * h3) (l4 + 16 * h4) (l5 + 16 * h5) (l6 + 16 * h6) (l7 + 16 * h7) in
  N.land (wrap64 (x + N.shiftr x 4)) G8 = w8 (l0 + h0) (l1 + h1) (l2 + h2) (l3 + h3) (l4 + h4) (l5 + h5) (l6 + h6) (l7 + h7).
Proof.
  intros. assert (E : N.shiftr x 4 = w8 (h0 + 16 * l1) (h1 + 16 * l2) (h2 + 16 * l3) (h3 + 16 * l4) (h4 + 16 * l5) (h5 + 16 * l6) (h6 + 16 * l7) h7).
  { rewrite N.shiftr_div_pow2. change (2 ^ 4) with 16. symmetry. apply (N.div_unique _ _ _ l0); [lia|]. unfold x, w8. ring. }
  assert (S : x + N.shiftr x 4 = w8 (l0 + h0 + 16 * (h0 + l1)) (l1 + h1 + 16 * (h1 + l2)) (l2 + h2 + 16 * (h2 + l3)) (l3 + h3 + 16 * (h3 + l4))
    (l4 + h4 + 16 * (h4 + l5)) (l5 + h5 + 16 * (h5 + l6)) (l6 + h6 + 16 * (h6 + l7)) (l7 + h7 + 16 * h7)).
  { rewrite E. unfold x, w8. ring. }
  rewrite S. rewrite wrap64_lt by (apply w8_lt; lia).
  change G8 with (w8 15 15 15 15 15 15 15 15). rewrite w8_land by lia.
  assert (M : forall a b, a < 16 -> N.land (a + 16 * b) 15 = a).
  { intros a b Hab. change 15 with (N.ones 4). rewrite N.land_ones. change (2 ^ 4) with 16. rewrite (N.mul_comm 16), N.mod_add, N.mod_small by lia. reflexivity. }
  rewrite !M by lia. reflexivity.
Qed.

Lemma mul_sum : forall c0 c1 c2 c3 c4 c5 c6 c7,
  c0 <= 8 -> c1 <= 8 -> c2 <= 8 -> c3 <= 8 -> c4 <= 8 -> c5 <= 8 -> c6 <= 8 -> c7 <= 8 ->
  N.shiftr (wrap64 (w8 c0 c1 c2 c3 c4 c5 c6 c7 * L8)) 56 = c0 + (c1 + (c2 + (c3 + (c4 + (c5 + (c6 + c7)))))).
Proof.
  intros. rewrite N.shiftr_div_pow2. change (2 ^ 56) with 72057594037927936.
  set (R := w8 c0 (c0 + c1) (c0 + c1 + c2) (c0 + c1 + c2 + c3) (c0 + c1 + c2 + c3 + c4) (c0 + c1 + c2 + c3 + c4 + c5) (c0 + c1 + c2 + c3 + c4 + c5 + c6) 0).
  set (T := c0 + c1 + c2 + c3 + c4 + c5 + c6 + c7).
  set (Q := c1 + c2 + c3 + c4 + c5 + c6 + c7 + 256 * (c2 + c3 + c4 + c5 + c6 + c7 + 256 * (c3 + c4 + c5 + c6 + c7 + 256 * (c4 + c5 + c6 + c7
     + 256 * (c5 + c6 + c7 + 256 * (c6 + c7 + 256 * c7)))))).
  assert (HR : R < 72057594037927936) by (unfold R, w8; lia).
  assert (E : w8 c0 c1 c2 c3 c4 c5 c6 c7 * L8 = R + 72057594037927936 * T + Q * two64).
  { unfold R, T, Q, w8, L8, two64. ring. }
  rewrite E. unfold wrap64. rewrite N.mod_add by (unfold two64; lia). rewrite N.mod_small by (unfold two64, T; lia).
  symmetry. apply (N.div_unique _ _ _ R); auto. unfold T. lia.
Qed.

Lemma w8_shr : forall a0 a1 a2 a3 a4 a5 a6 a7 h0 h1 h2 h3 h4 h5 h6 h7 k,
  a0 = 2 ^ k * h0 -> a1 = 2 ^ k * h1 -> a2 = 2 ^ k * h2 -> a3 = 2 ^ k * h3 -> a4 = 2 ^ k * h4 -> a5 = 2 ^ k * h5 -> a6 = 2 ^ k * h6 -> a7 = 2 ^ k * h7 ->
  N.shiftr (w8 (a0) (a1) (a2) (a3) (a4) (a5) (a6) (a7)) k = w8 (h0) (h1) (h2) (h3) (h4) (h5) (h6) (h7).
Proof. intros. subst. apply w8_div. apply N.pow_nonzero. lia. Qed.

Lemma w8_add : forall a0 a1 a2 a3 a4 a5 a6 a7 h0 h1 h2 h3 h4 h5 h6 h7, w8 (a0) (a1) (a2) (a3) (a4) (a5) (a6) (a7) + w8 (h0) (h1) (h2) (h3) (h4) (h5) (h6) (h7) = w8 (a0 + h0) (a1 + h1) (a2 + h2) (a3 + h3) (a4 + h4) (a5 + h5) (a6 + h6) (a7 + h7).
Proof. intros. unfold w8. ring. Qed.

Lemma w8_sub : forall b0 b1 b2 b3 b4 b5 b6 b7 h0 h1 h2 h3 h4 h5 h6 h7, h0 <= b0 -> h1 <= b1 -> h2 <= b2 -> h3 <= b3 -> h4 <= b4 -> h5 <= b5 -> h6 <= b6 -> h7 <= b7 ->
  w8 (b0) (b1) (b2) (b3) (b4) (b5) (b6) (b7) = w8 (b0 - h0) (b1 - h1) (b2 - h2) (b3 - h3) (b4 - h4) (b5 - h5) (b6 - h6) (b7 - h7) + w8 (h0) (h1) (h2) (h3) (h4) (h5) (h6) (h7).
Proof. intros. rewrite w8_add. rewrite !N.sub_add by assumption. reflexivity. Qed.

Lemma stage1 : forall b0 b1 b2 b3 b4 b5 b6 b7, b0 < 256 -> b1 < 256 -> b2 < 256 -> b3 < 256 -> b4 < 256 -> b5 < 256 -> b6 < 256 -> b7 < 256 ->
  let x := w8 (b0) (b1) (b2) (b3) (b4) (b5) (b6) (b7) in
  wrap64 (x + two64 - N.shiftr (N.land x G2) 1) = w8 (st1 b0) (st1 b1) (st1 b2) (st1 b3) (st1 b4) (st1 b5) (st1 b6) (st1 b7).
Proof.
  intros b0 b1 b2 b3 b4 b5 b6 b7 H0 H1 H2 H3 H4 H5 H6 H7 x.
  assert (E : N.shiftr (N.land x G2) 1 = w8 (N.land b0 0xAA / 2) (N.land b1 0xAA / 2) (N.land b2 0xAA / 2) (N.land b3 0xAA / 2) (N.land b4 0xAA / 2) (N.land b5 0xAA / 2) (N.land b6 0xAA / 2) (N.land b7 0xAA / 2)).
  { change G2 with (w8 0xAA 0xAA 0xAA 0xAA 0xAA 0xAA 0xAA 0xAA). unfold x. rewrite w8_land by (assumption || reflexivity).
    change 2 with (2 ^ 1). apply w8_shr; change (2 ^ 1) with 2; apply stages; assumption. }
  rewrite E. clear E.
  assert (L : x = w8 (st1 b0) (st1 b1) (st1 b2) (st1 b3) (st1 b4) (st1 b5) (st1 b6) (st1 b7) + w8 (N.land b0 0xAA / 2) (N.land b1 0xAA / 2) (N.land b2 0xAA / 2) (N.land b3 0xAA / 2) (N.land b4 0xAA / 2) (N.land b5 0xAA / 2) (N.land b6 0xAA / 2) (N.land b7 0xAA / 2)).
  { apply w8_sub; apply stages; assumption. }
  assert (B : w8 (st1 b0) (st1 b1) (st1 b2) (st1 b3) (st1 b4) (st1 b5) (st1 b6) (st1 b7) < two64) by (apply w8_lt; apply stages; assumption).
  rewrite L. revert B. generalize (w8 (st1 b0) (st1 b1) (st1 b2) (st1 b3) (st1 b4) (st1 b5) (st1 b6) (st1 b7)) (w8 (N.land b0 0xAA / 2) (N.land b1 0xAA / 2) (N.land b2 0xAA / 2) (N.land b3 0xAA / 2) (N.land b4 0xAA / 2) (N.land b5 0xAA / 2) (N.land b6 0xAA / 2) (N.land b7 0xAA / 2)). clear.
  intros a b B. replace (a + b + two64 - b) with (a + 1 * two64) by lia.
  unfold wrap64. rewrite N.mod_add by discriminate. apply N.mod_small. exact B.
Qed.

Lemma stage2 : forall b0 b1 b2 b3 b4 b5 b6 b7, b0 < 256 -> b1 < 256 -> b2 < 256 -> b3 < 256 -> b4 < 256 -> b5 < 256 -> b6 < 256 -> b7 < 256 ->
  let x := w8 (st1 b0) (st1 b1) (st1 b2) (st1 b3) (st1 b4) (st1 b5) (st1 b6) (st1 b7) in
  wrap64 (N.land x Word.G4 + N.land (N.shiftr x 2) Word.G4) = w8 (st2 (st1 b0)) (st2 (st1 b1)) (st2 (st1 b2)) (st2 (st1 b3)) (st2 (st1 b4)) (st2 (st1 b5)) (st2 (st1 b6)) (st2 (st1 b7)).
Proof.
  intros b0 b1 b2 b3 b4 b5 b6 b7 H0 H1 H2 H3 H4 H5 H6 H7 x.
  assert (E : N.land (N.shiftr x 2) Word.G4 = w8 (N.land (st1 b0) 0xCC / 4) (N.land (st1 b1) 0xCC / 4) (N.land (st1 b2) 0xCC / 4) (N.land (st1 b3) 0xCC / 4) (N.land (st1 b4) 0xCC / 4) (N.land (st1 b5) 0xCC / 4) (N.land (st1 b6) 0xCC / 4) (N.land (st1 b7) 0xCC / 4)).
  { change Word.G4 with (N.shiftr (w8 0xCC 0xCC 0xCC 0xCC 0xCC 0xCC 0xCC 0xCC) 2). rewrite <- N.shiftr_land. unfold x.
    rewrite w8_land by ((apply stages; assumption) || reflexivity).
    change 4 with (2 ^ 2). apply w8_shr; change (2 ^ 2) with 4; apply stages; assumption. }
  rewrite E. change Word.G4 with (w8 0x33 0x33 0x33 0x33 0x33 0x33 0x33 0x33). unfold x.
  rewrite w8_land by ((apply stages; assumption) || reflexivity). rewrite w8_add. apply wrap64_lt.
  apply w8_lt; match goal with |- context [st1 ?b] => change (st2 (st1 b) < 256) end; apply stages; assumption.
Qed.

Lemma stage3 : forall b0 b1 b2 b3 b4 b5 b6 b7, b0 < 256 -> b1 < 256 -> b2 < 256 -> b3 < 256 -> b4 < 256 -> b5 < 256 -> b6 < 256 -> b7 < 256 ->
  let x := w8 (st2 (st1 b0)) (st2 (st1 b1)) (st2 (st1 b2)) (st2 (st1 b3)) (st2 (st1 b4)) (st2 (st1 b5)) (st2 (st1 b6)) (st2 (st1 b7)) in
  N.land (wrap64 (x + N.shiftr x 4)) G8 = w8 (N.of_nat (popcnt b0)) (N.of_nat (popcnt b1)) (N.of_nat (popcnt b2)) (N.of_nat (popcnt b3)) (N.of_nat (popcnt b4)) (N.of_nat (popcnt b5)) (N.of_nat (popcnt b6)) (N.of_nat (popcnt b7)).
Proof.
  intros b0 b1 b2 b3 b4 b5 b6 b7 H0 H1 H2 H3 H4 H5 H6 H7 x.
  assert (DM : forall d, d mod 16 + 16 * (d / 16) = d) by (clear; intros d; pose proof (N.div_mod d 16 ltac:(lia)); lia).
  pose proof (nib_sum (st2 (st1 b0) mod 16) (st2 (st1 b0) / 16) (st2 (st1 b1) mod 16) (st2 (st1 b1) / 16) (st2 (st1 b2) mod 16) (st2 (st1 b2) / 16) (st2 (st1 b3) mod 16) (st2 (st1 b3) / 16) (st2 (st1 b4) mod 16) (st2 (st1 b4) / 16) (st2 (st1 b5) mod 16) (st2 (st1 b5) / 16) (st2 (st1 b6) mod 16) (st2 (st1 b6) / 16) (st2 (st1 b7) mod 16) (st2 (st1 b7) / 16)) as NS. cbv zeta in NS.
  rewrite !DM in NS. unfold x. rewrite NS by (apply stages; assumption). clear NS.
  f_equal; apply stages; assumption.
Qed.

Theorem suxpopcount_spec : forall x, x < 2 ^ 64 -> suxpopcount x = N.of_nat (popcnt x).
Proof.
  intros x Hx. destruct (w8_exists x Hx) as (b0 & b1 & b2 & b3 & b4 & b5 & b6 & b7 & -> & H0 & H1 & H2 & H3 & H4 & H5 & H6 & H7).
  rewrite popcnt_w8 by auto. unfold suxpopcount. cbv zeta. rewrite stage1, stage2, stage3 by assumption.
  assert (P : forall b, b < 256 -> N.of_nat (popcnt b) <= 8).
  { intros b Hb. pose proof (stages b Hb) as (_ & _ & _ & _ & _ & F & G & <-). unfold st3. lia. }
  rewrite mul_sum by (apply P; assumption). rewrite !Nat2N.inj_add. reflexivity.
Qed.
Local Close Scope N_scope.
Local Open Scope nat_scope.

Lemma naive_spec : forall n x k c, 1 <= k <= cnt (bitsn n x) ->
  select64_naive_loop n x (Z.of_nat k) (n - 1) c = (c + 1 + Z.of_nat (sel k (bitsn n x)))%Z.
Proof.
  induction n as [|n IH]; intros x k c H; [cbn in H; lia|].
  cbn [select64_naive_loop]. replace (S n - 1) with n by lia. rewrite N.shiftl_1_l, land_pow2_test.
  cbn [bitsn] in *. destruct (N.testbit x (N.of_nat n)); cbn [cnt sel] in *.
  - destruct k as [|k]; [lia|]. replace (Z.of_nat (S k) - 1)%Z with (Z.of_nat k) by lia.
    destruct (Z.eqb_spec (Z.of_nat k) 0) as [E|E].
    + assert (k = 0) by lia. subst k. cbn. lia.
    + rewrite IH by lia. destruct k; [lia|]. lia.
  - rewrite IH by lia. lia.
Qed.

Lemma select64_naive_spec : forall x k, 1 <= k <= cnt (bits64 x) ->
  select64_naive x (Z.of_nat k) = Z.of_nat (sel k (bits64 x)).
Proof. intros x k H. unfold select64_naive. rewrite (naive_spec 64) by exact H. unfold bits64. lia. Qed.

Section Scan.
Variables (e : env) (ws : list N).
Hypothesis HW : Forall word_ok ws.
Notation w i := (nth i ws 0%N).

Definition avail (en p : nat) : list bool := bits_of (firstn (en - p) (skipn p ws)).

Lemma avail_cons : forall en p, p < en -> en <= length ws -> avail en p = bits64 (w p) ++ avail en (S p).
Proof.
  intros en p H1 H2. unfold avail. rewrite (skipn_nth_cons _ ws p 0%N) by lia.
  replace (en - p) with (S (en - S p)) by lia. cbn [firstn]. reflexivity.
Qed.
Lemma avail_nil : forall en, avail en en = [].
Proof. intros. unfold avail. rewrite Nat.sub_diag. reflexivity. Qed.

Lemma linear_found : forall len x en, en <= length ws -> en <= x + len -> forall fuel i k,
  x + i < en -> en - x - i <= S fuel -> 1 <= k <= cnt (avail en (x + i)) ->
  exists i' k', selectLinear_loop e fuel ws len x i (Z.of_nat k) (Z.of_nat (popcnt (w (x + i)))) =
      Ok (i', Z.of_nat k', Z.of_nat (popcnt (w (x + i')))) /\ x + i' < en /\ 1 <= k' <= popcnt (w (x + i')) /\
      64 * i' + sel k' (bits64 (w (x + i'))) = 64 * i + sel k (avail en (x + i)).
Proof.
  intros len x en He Hl. induction fuel as [|f IH]; intros i k Hi Hf Hk.
  - assert (E : en = S (x + i)) by lia. rewrite avail_cons in Hk by lia.
    rewrite E, avail_nil, app_nil_r in Hk. pose proof (popcnt_bits64 (w (x + i)) (nth_Forall_ok _ _ HW)) as P.
    exists i, k. cbn [selectLinear_loop]. destruct (Z.gtb_spec (Z.of_nat k) (Z.of_nat (popcnt (w (x + i))))) as [G|G]; [lia|].
    cbn [andb]. split; [reflexivity|]. split; [lia|]. split; [lia|].
    rewrite avail_cons by lia. rewrite E, avail_nil, app_nil_r. reflexivity.
  - pose proof (popcnt_bits64 (w (x + i)) (nth_Forall_ok _ _ HW)) as P. rewrite avail_cons in * by lia.
    cbn [selectLinear_loop]. destruct (Z.gtb_spec (Z.of_nat k) (Z.of_nat (popcnt (w (x + i))))) as [G|G].
    + assert (N : S (x + i) < en).
      { destruct (Nat.eq_dec (S (x + i)) en) as [Q|Q]; [|lia]. rewrite Q, avail_nil, app_nil_r in Hk. lia. }
      replace (i <? len - 1) with true by (symmetry; apply Nat.ltb_lt; lia). cbn [andb].
      rewrite wread_ok by lia. cbn [bind].
      replace (Z.of_nat k - Z.of_nat (popcnt (w (x + i))))%Z with (Z.of_nat (k - popcnt (w (x + i)))) by lia.
      rewrite cnt_app in Hk.
      destruct (IH (S i) (k - popcnt (w (x + i)))) as (i' & k' & A & B & C & D); try lia.
      { replace (x + S i) with (S (x + i)) by lia. lia. }
      exists i', k'. split; [exact A|]. split; [exact B|]. split; [exact C|]. rewrite D.
      rewrite sel_app_r by lia. rewrite bits64_length, P. replace (x + S i) with (S (x + i)) by lia. lia.
    + cbn [andb]. exists i, k. split; [reflexivity|]. split; [lia|]. split; [lia|].
      rewrite sel_app_l by lia. reflexivity.
Qed.

Lemma linear_missing : forall len x, x + len <= length ws -> 1 <= len -> forall fuel i k,
  i < len -> len - i <= S fuel -> cnt (avail (x + len) (x + i)) < k ->
  exists k', selectLinear_loop e fuel ws len x i (Z.of_nat k) (Z.of_nat (popcnt (w (x + i)))) =
      Ok (len - 1, Z.of_nat k', Z.of_nat (popcnt (w (x + (len - 1))))) /\ popcnt (w (x + (len - 1))) < k'.
Proof.
  intros len x He Hl. induction fuel as [|f IH]; intros i k Hi Hf Hk.
  - assert (E : i = len - 1) by lia. subst i. rewrite avail_cons in Hk by lia.
    replace (S (x + (len - 1))) with (x + len) in Hk by lia. rewrite avail_nil, app_nil_r in Hk.
    pose proof (popcnt_bits64 (w (x + (len - 1))) (nth_Forall_ok _ _ HW)) as P.
    exists k. cbn [selectLinear_loop]. rewrite Nat.ltb_irrefl, andb_false_r. split; [reflexivity|lia].
  - pose proof (popcnt_bits64 (w (x + i)) (nth_Forall_ok _ _ HW)) as P. rewrite avail_cons in * by lia. rewrite cnt_app in Hk.
    cbn [selectLinear_loop]. destruct (Z.gtb_spec (Z.of_nat k) (Z.of_nat (popcnt (w (x + i))))) as [G|G]; [|lia].
    cbn [andb]. destruct (Nat.ltb_spec i (len - 1)) as [L|L].
    + rewrite wread_ok by lia. cbn [bind].
      replace (Z.of_nat k - Z.of_nat (popcnt (w (x + i))))%Z with (Z.of_nat (k - popcnt (w (x + i)))) by lia.
      apply IH; try lia. replace (x + S i) with (S (x + i)) by lia. lia.
    + assert (E : i = len - 1) by lia. subst i. exists k. split; [reflexivity|lia].
Qed.

Lemma select512_loop_eq : forall fuel x i k pop, select512_loop e fuel ws x i k pop = selectLinear_loop e fuel ws 8 x i k pop.
Proof.
  induction fuel as [|f IH]; intros x i k pop; cbn [select512_loop selectLinear_loop]; change (8 - 1) with 7; [reflexivity|].
  destruct ((k >? pop)%Z && (i <? 7)); [|reflexivity]. destruct (wread e ws (x + S i)); cbn [bind]; auto.
Qed.

Lemma select512_spec : forall x k, x + 8 <= length ws -> 1 <= k ->
  select512 e ws x (Z.of_nat k) =
    Ok (if k <=? cnt (avail (x + 8) x) then Z.of_nat (sel k (avail (x + 8) x)) else (-1)%Z).
Proof.
  intros x k H Hk. unfold select512. rewrite wread_ok by lia. cbn [bind]. rewrite select512_loop_eq.
  replace (w x) with (w (x + 0)) by (f_equal; lia). destruct (Nat.leb_spec k (cnt (avail (x + 8) x))) as [L|L].
  - destruct (linear_found 8 x (x + 8) H ltac:(lia) 7 0 k ltac:(lia) ltac:(lia)) as (i' & k' & A & B & C & D).
    { rewrite Nat.add_0_r. lia. }
    rewrite A. cbn [bind]. rewrite wread_ok by lia. cbn [bind].
    destruct (Z.ltb_spec (Z.of_nat (popcnt (w (x + i')))) (Z.of_nat k')) as [Q|Q]; [lia|]. rewrite andb_false_r.
    unfold select64. rewrite select64_spec.
    + f_equal. rewrite Nat.add_0_r in D. lia.
    + apply nth_Forall_ok. auto.
    + lia.
    + rewrite <- popcnt_bits64 by (apply nth_Forall_ok; auto). lia.
  - destruct (linear_missing 8 x H ltac:(lia) 7 0 k ltac:(lia) ltac:(lia)) as (k' & A & B).
    { rewrite Nat.add_0_r. lia. }
    rewrite A. cbn [bind]. rewrite wread_ok by lia. cbn [bind]. change (8 - 1) with 7 in *. cbn [Nat.eqb andb].
    destruct (Z.ltb_spec (Z.of_nat (popcnt (w (x + 7)))) (Z.of_nat k')) as [Q|Q]; [|lia]. reflexivity.
Qed.

Lemma selectLinear_spec : forall x k, x < length ws -> 1 <= k <= cnt (avail (length ws) x) ->
  selectLinear e ws (length ws) x (Z.of_nat k) = Ok (Some (Z.of_nat (sel k (avail (length ws) x)))).
Proof.
  intros x k H Hk. unfold selectLinear.
  assert (LB : cnt (avail (length ws) x) <= (length ws - x) * 64).
  { pose proof (cnt_le_length (avail (length ws) x)) as Q. unfold avail in Q at 2. rewrite bits_of_length, firstn_length, skipn_length in Q. lia. }
  destruct (Z.gtb_spec (Z.of_nat k) (Z.of_nat ((length ws - x) * 64))) as [G|G]; [lia|].
  rewrite wread_ok by lia. cbn [bind]. replace (w x) with (w (x + 0)) by (f_equal; lia).
  destruct (linear_found (length ws) x (length ws) ltac:(lia) ltac:(lia) (length ws) 0 k ltac:(lia) ltac:(lia)) as (i' & k' & A & B & C & D).
  { rewrite Nat.add_0_r. lia. }
  rewrite A. cbn [bind]. destruct (Z.ltb_spec (Z.of_nat (popcnt (w (x + i')))) (Z.of_nat k')) as [Q|Q]; [lia|]. rewrite andb_false_r.
  rewrite wread_ok by lia. cbn [bind]. unfold select64. rewrite select64_spec.
  - f_equal. f_equal. rewrite Nat.add_0_r in D. lia.
  - apply nth_Forall_ok. auto.
  - lia.
  - rewrite <- popcnt_bits64 by (apply nth_Forall_ok; auto). lia.
Qed.

Lemma selectLinear_none : forall k, 1 <= length ws -> cnt (avail (length ws) 0) < k ->
  selectLinear e ws (length ws) 0 (Z.of_nat k) = Ok None.
Proof.
  intros k H Hk. unfold selectLinear. destruct (Z.of_nat k >? _)%Z; [reflexivity|].
  rewrite wread_ok by lia. cbn [bind]. replace (w 0) with (w (0 + 0)) by reflexivity.
  destruct (linear_missing (length ws) 0 ltac:(lia) H (length ws) 0 k ltac:(lia) ltac:(lia)) as (k' & A & B); [exact Hk|].
  rewrite A. cbn [bind]. rewrite Nat.eqb_refl. cbn [andb].
  destruct (Z.ltb_spec (Z.of_nat (popcnt (w (0 + (length ws - 1))))) (Z.of_nat k')) as [Q|Q]; [reflexivity|lia].
Qed.
End Scan.
