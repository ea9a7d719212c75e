(** Words as lists of booleans, most significant bit first. *)
From Coq Require Import Arith List NArith ZArith Bool Lia ZifyN ZifyNat ZifyBool.
From Verif Require Import Res Word BitFacts.
Import ListNotations.

Fixpoint bitsn (n : nat) (w : N) : list bool :=
  match n with
  | O => []
  | S m => N.testbit w (N.of_nat m) :: bitsn m w
  end.

Definition bits64 := bitsn 64.
Definition bits_of (ws : list N) : list bool := flat_map bits64 ws.
Definition word_ok (w : N) : Prop := (w < 2 ^ 64)%N.

Lemma two64_pow : two64 = (2 ^ 64)%N.
Proof. reflexivity. Qed.
Lemma two32_pow : two32 = (2 ^ 32)%N.
Proof. reflexivity. Qed.

Lemma bitsn_length : forall n w, length (bitsn n w) = n.
Proof. induction n; intros; simpl; auto. Qed.

Lemma bits64_length : forall w, length (bits64 w) = 64.
Proof. intros. apply bitsn_length. Qed.

Lemma bitsn_nth : forall n w i, i < n -> nth i (bitsn n w) false = N.testbit w (N.of_nat (n - 1 - i)).
Proof.
  induction n; intros w i H; [lia|]. destruct i as [|i].
  - simpl. f_equal. lia.
  - cbn [bitsn nth]. rewrite IHn by lia. f_equal. lia.
Qed.

Lemma bits64_nth : forall w i, i < 64 -> nth i (bits64 w) false = N.testbit w (N.of_nat (63 - i)).
Proof. intros. unfold bits64. rewrite bitsn_nth by lia. f_equal. Qed.

Lemma bitsn_ext : forall n w v, (forall i, i < n -> N.testbit w (N.of_nat i) = N.testbit v (N.of_nat i)) ->
  bitsn n w = bitsn n v.
Proof.
  induction n; intros w v H; simpl; auto. f_equal; [apply H; lia|].
  apply IHn. intros. apply H. lia.
Qed.

Lemma bitsn_app : forall a b w, bitsn (a + b) w = bitsn a (N.shiftr w (N.of_nat b)) ++ bitsn b w.
Proof.
  induction a; intros b w; simpl; auto. rewrite IHa. f_equal.
  rewrite N.shiftr_spec by lia. f_equal. lia.
Qed.

Lemma bitsn_mod : forall n m w, n <= m -> bitsn n (w mod 2 ^ N.of_nat m) = bitsn n w.
Proof.
  intros. apply bitsn_ext. intros i Hi. apply N.mod_pow2_bits_low. lia.
Qed.

Lemma bitsn_zero : forall n, bitsn n 0 = repeat false n.
Proof. induction n; simpl; auto. rewrite IHn. reflexivity. Qed.

Lemma bits64_zero : bits64 0 = repeat false 64.
Proof. apply bitsn_zero. Qed.

Lemma testbit_high : forall w n i, (w < 2 ^ N.of_nat n)%N -> n <= i -> N.testbit w (N.of_nat i) = false.
Proof.
  intros w n i H Hi. destruct (N.eq_dec w 0) as [->|Hw]; [apply N.bits_0|].
  apply N.bits_above_log2. apply N.log2_lt_pow2; [lia|].
  apply N.lt_le_trans with (2 ^ N.of_nat n)%N; auto. apply N.pow_le_mono_r; lia.
Qed.

Lemma testbit_high_N : forall w n i, (w < 2 ^ n)%N -> (n <= i)%N -> N.testbit w i = false.
Proof.
  intros w n i H Hi. rewrite <- (N2Nat.id i). apply testbit_high with (n := N.to_nat n); [rewrite N2Nat.id; auto|lia].
Qed.

Lemma word_ext : forall w v n, (w < 2 ^ N.of_nat n)%N -> (v < 2 ^ N.of_nat n)%N ->
  bitsn n w = bitsn n v -> w = v.
Proof.
  intros w v n Hw Hv H. apply N.bits_inj. intros i.
  rewrite <- (N2Nat.id i). set (j := N.to_nat i).
  destruct (lt_dec j n) as [L|L].
  - assert (E : nth (n - 1 - j) (bitsn n w) false = nth (n - 1 - j) (bitsn n v) false) by (rewrite H; auto).
    rewrite !bitsn_nth in E by lia.
    replace (n - 1 - (n - 1 - j)) with j in E by lia. exact E.
  - rewrite (testbit_high w n), (testbit_high v n) by (auto; lia). reflexivity.
Qed.

Lemma popcnt_div2 : forall w, popcnt w = popcnt (N.div2 w) + (if N.odd w then 1 else 0).
Proof. intros [|[p|p|]]; simpl; lia. Qed.

Lemma bitsn_snoc : forall n w, bitsn (S n) w = bitsn n (N.div2 w) ++ [N.odd w].
Proof.
  intros. replace (S n) with (n + 1) by lia. rewrite bitsn_app.
  change (N.of_nat 1) with 1%N. rewrite <- N.div2_spec. f_equal.
  cbn [bitsn]. change (N.of_nat 0) with 0%N. rewrite N.bit0_odd. reflexivity.
Qed.

Lemma popcnt_bitsn : forall n w, (w < 2 ^ N.of_nat n)%N -> popcnt w = cnt (bitsn n w).
Proof.
  induction n; intros w H.
  - simpl in H. assert (w = 0%N) by lia. subst. reflexivity.
  - rewrite bitsn_snoc, cnt_app, popcnt_div2. simpl. rewrite (IHn (N.div2 w)).
    + destruct (N.odd w); lia.
    + rewrite N.div2_div. apply N.div_lt_upper_bound; [lia|].
      replace (2 * 2 ^ N.of_nat n)%N with (2 ^ N.of_nat (S n))%N; auto.
      rewrite Nat2N.inj_succ, N.pow_succ_r'; lia.
Qed.

Lemma popcnt_bits64 : forall w, word_ok w -> popcnt w = cnt (bits64 w).
Proof. intros. apply popcnt_bitsn. exact H. Qed.

Lemma popcnt_le64 : forall w, word_ok w -> popcnt w <= 64.
Proof.
  intros. rewrite popcnt_bits64 by auto. pose proof (cnt_le_length (bits64 w)).
  rewrite bits64_length in H0. exact H0.
Qed.

Lemma shiftr_ok : forall w k, word_ok w -> word_ok (N.shiftr w k).
Proof.
  unfold word_ok. intros. rewrite N.shiftr_div_pow2.
  apply N.le_lt_trans with w; auto. apply N.div_le_upper_bound.
  - apply N.pow_nonzero; lia.
  - pose proof (N.pow_nonzero 2 k ltac:(lia)). nia.
Qed.

Lemma wrap64_ok : forall w, word_ok (wrap64 w).
Proof. intros. unfold wrap64, word_ok. rewrite two64_pow. apply N.mod_lt. lia. Qed.

Lemma lor_ok : forall a b, word_ok a -> word_ok b -> word_ok (N.lor a b).
Proof.
  unfold word_ok. intros a b Ha Hb.
  destruct (N.eq_dec (N.lor a b) 0) as [->|Hz]; [reflexivity|].
  apply N.log2_lt_pow2; [lia|]. rewrite N.log2_lor.
  apply N.max_lub_lt.
  - destruct (N.eq_dec a 0) as [->|]; [reflexivity|]. apply N.log2_lt_pow2; lia.
  - destruct (N.eq_dec b 0) as [->|]; [reflexivity|]. apply N.log2_lt_pow2; lia.
Qed.

Lemma bits64_shiftr : forall w k, word_ok w -> k <= 64 ->
  bits64 (N.shiftr w (N.of_nat k)) = repeat false k ++ firstn (64 - k) (bits64 w).
Proof.
  intros w k Hw Hk. apply list_ext with (d := false).
  - rewrite app_length, repeat_length, firstn_length, !bits64_length. lia.
  - intros i Hi. rewrite bits64_length in Hi. rewrite bits64_nth by lia.
    rewrite N.shiftr_spec by lia. destruct (lt_dec i k) as [L|L].
    + rewrite app_nth1 by (rewrite repeat_length; lia).
      rewrite nth_repeat. apply testbit_high_N with 64%N; auto. lia.
    + rewrite app_nth2 by (rewrite repeat_length; lia). rewrite repeat_length.
      rewrite nth_firstn' by lia. rewrite bits64_nth by lia. f_equal. lia.
Qed.

Lemma bits64_shiftl : forall w k, k <= 64 ->
  bits64 (wrap64 (N.shiftl w (N.of_nat k))) = skipn k (bits64 w) ++ repeat false k.
Proof.
  intros w k Hk. unfold wrap64. rewrite two64_pow. apply list_ext with (d := false).
  - rewrite app_length, repeat_length, skipn_length, !bits64_length. lia.
  - intros i Hi. rewrite bits64_length in Hi. rewrite bits64_nth by lia.
    rewrite N.mod_pow2_bits_low by lia.
    destruct (lt_dec (63 - i) k) as [L|L].
    + rewrite N.shiftl_spec_low by lia.
      rewrite app_nth2 by (rewrite skipn_length, bits64_length; lia).
      rewrite nth_repeat. reflexivity.
    + rewrite N.shiftl_spec_high' by lia.
      rewrite app_nth1 by (rewrite skipn_length, bits64_length; lia).
      rewrite nth_skipn'. rewrite bits64_nth by lia. f_equal. lia.
Qed.

Lemma bits64_lor_nth : forall a b i, i < 64 ->
  nth i (bits64 (N.lor a b)) false = nth i (bits64 a) false || nth i (bits64 b) false.
Proof.
  intros. rewrite !bits64_nth by lia. apply N.lor_spec.
Qed.

Lemma kMsb_shiftr : forall off, off < 64 ->
  N.shiftr kMsbMask (N.of_nat off) = (2 ^ N.of_nat (63 - off))%N.
Proof.
  intros. unfold kMsbMask. change 0x8000000000000000%N with (2 ^ 63)%N.
  rewrite N.shiftr_div_pow2, <- N.pow_sub_r by lia. f_equal. lia.
Qed.

Lemma land_pow2_test : forall w k, negb (N.land w (2 ^ k) =? 0)%N = N.testbit w k.
Proof.
  intros. destruct (N.testbit w k) eqn:E.
  - apply negb_true_iff, N.eqb_neq. intros H.
    assert (N.testbit (N.land w (2 ^ k)) k = false) by (rewrite H; apply N.bits_0).
    rewrite N.land_spec, E, N.pow2_bits_true in H0. discriminate.
  - apply negb_false_iff, N.eqb_eq. apply N.bits_inj. intros i.
    rewrite N.land_spec, N.bits_0. destruct (N.eq_dec k i) as [->|Hn].
    + rewrite E. reflexivity.
    + rewrite N.pow2_bits_false by auto. apply andb_false_r.
Qed.

Lemma test_msb : forall w off, off < 64 ->
  negb (N.land w (N.shiftr kMsbMask (N.of_nat off)) =? 0)%N = nth off (bits64 w) false.
Proof. intros. rewrite kMsb_shiftr, land_pow2_test, bits64_nth by auto. reflexivity. Qed.

Lemma cnt_bits64_zero : forall w, word_ok w -> (cnt (bits64 w) = 0 <-> w = 0%N).
Proof.
  intros w Hw. split; intros H.
  - apply (word_ext w 0 64); auto; [lia|]. change (bitsn 64 w) with (bits64 w).
    change (bitsn 64 0) with (bits64 0). rewrite bits64_zero.
    apply list_ext with (d := false).
    + rewrite bits64_length, repeat_length. reflexivity.
    + intros i _. rewrite nth_repeat. apply cnt_zero_nth. exact H.
  - subst. rewrite bits64_zero. apply cnt_repeat_false.
Qed.

Lemma pos_word_cnt : forall w, word_ok w -> (0 <? w)%N = negb (cnt (bits64 w) =? 0).
Proof.
  intros w Hw. pose proof (cnt_bits64_zero w Hw) as H.
  destruct (N.ltb_spec 0 w), (Nat.eqb_spec (cnt (bits64 w)) 0); auto; simpl.
  - apply H in e. lia.
  - exfalso. apply n. apply H. lia.
Qed.

Lemma clz_spec : forall w, word_ok w -> w <> 0%N -> clz64 w = first_true (bits64 w).
Proof.
  intros w Hw Hz. symmetry. unfold clz64.
  assert (L : (N.log2 w < 64)%N) by (apply N.log2_lt_pow2; [lia|exact Hw]).
  apply first_true_unique.
  - rewrite bits64_length. lia.
  - rewrite bits64_nth by lia.
    replace (N.of_nat (63 - (63 - N.to_nat (N.log2 w)))) with (N.log2 w) by lia.
    apply N.bit_log2. auto.
  - intros i Hi. rewrite bits64_nth by lia. apply N.bits_above_log2. lia.
Qed.

Lemma ctz_pos_spec : forall p, N.testbit (Npos p) (N.of_nat (ctz_pos p)) = true /\
  forall i, i < ctz_pos p -> N.testbit (Npos p) (N.of_nat i) = false.
Proof.
  induction p as [p IH|p IH|]; simpl ctz_pos.
  - split; [reflexivity|intros; lia].
  - destruct IH as [A B]. change (Npos p~0) with (2 * Npos p)%N. split.
    + rewrite Nat2N.inj_succ, N.testbit_even_succ by lia. exact A.
    + intros [|i] Hi; [apply N.testbit_even_0|].
      rewrite Nat2N.inj_succ, N.testbit_even_succ by lia. apply B. lia.
  - split; [reflexivity|intros; lia].
Qed.

Lemma ctz_spec : forall w, word_ok w -> w <> 0%N -> ctz w = first_true (rev (bits64 w)).
Proof.
  intros w Hw Hz. destruct w as [|p]; [lia|]. destruct (ctz_pos_spec p) as [A B].
  assert (L : ctz_pos p < 64).
  { destruct (lt_dec (ctz_pos p) 64) as [|G]; auto.
    rewrite (testbit_high (Npos p) 64) in A; [discriminate| exact Hw|lia]. }
  symmetry. apply first_true_unique.
  - rewrite rev_length, bits64_length. exact L.
  - cbn [ctz]. rewrite rev_nth by (rewrite bits64_length; lia). rewrite bits64_length.
    rewrite bits64_nth by lia. replace (63 - (64 - S (ctz_pos p))) with (ctz_pos p) by lia. exact A.
  - cbn [ctz]. intros i Hi. rewrite rev_nth by (rewrite bits64_length; lia). rewrite bits64_length.
    rewrite bits64_nth by lia. replace (63 - (64 - S i)) with i by lia. apply B. exact Hi.
Qed.

(** select within a word *)
Lemma select_step_spec : forall t x loc k, (x < 2 ^ N.of_nat (t + t))%N ->
  1 <= k -> k <= cnt (bitsn (t + t) x) ->
  exists x' off k',
    select64_step (x, loc, Z.of_nat k) (N.of_nat t) = (x', (loc + Z.of_nat off)%Z, Z.of_nat k') /\
    (x' < 2 ^ N.of_nat t)%N /\ 1 <= k' /\ k' <= cnt (bitsn t x') /\
    sel k (bitsn (t + t) x) = off + sel k' (bitsn t x').
Proof.
  intros t x loc k Hx Hk1 Hk. rewrite bitsn_app in Hk. rewrite cnt_app in Hk.
  assert (Hsh : (N.shiftr x (N.of_nat t) < 2 ^ N.of_nat t)%N).
  { rewrite N.shiftr_div_pow2. apply N.div_lt_upper_bound; [apply N.pow_nonzero; lia|].
    rewrite <- N.pow_add_r. replace (N.of_nat t + N.of_nat t)%N with (N.of_nat (t + t)) by lia. exact Hx. }
  unfold select64_step. rewrite (popcnt_bitsn t) by exact Hsh.
  set (A := bitsn t (N.shiftr x (N.of_nat t))) in *.
  assert (Hl : N.land x (N.shiftl 1 (N.of_nat t) - 1) = (x mod 2 ^ N.of_nat t)%N).
  { rewrite N.shiftl_1_l, N.sub_1_r. change (N.pred (2 ^ N.of_nat t)) with (N.pred (2 ^ N.of_nat t)).
    rewrite <- N.ones_equiv. apply N.land_ones. }
  destruct (Z.gtb_spec (Z.of_nat k) (Z.of_nat (cnt A))) as [G|G].
  - exists (x mod 2 ^ N.of_nat t)%N, t, (k - cnt A). split; [|split; [|split; [|split]]].
    + rewrite Hl. f_equal; [f_equal|]; lia.
    + apply N.mod_lt. apply N.pow_nonzero. lia.
    + lia.
    + rewrite bitsn_mod by lia. lia.
    + rewrite bitsn_app. fold A. rewrite sel_app_r by lia. unfold A at 1. rewrite bitsn_length.
      rewrite bitsn_mod by lia. reflexivity.
  - exists (N.shiftr x (N.of_nat t)), 0, k. split; [|split; [|split; [|split]]]; auto.
    + f_equal. f_equal. lia.
    + fold A. lia.
    + rewrite bitsn_app. fold A. rewrite sel_app_l by lia. reflexivity.
Qed.

Lemma select64_spec : forall x k, word_ok x -> 1 <= k -> k <= cnt (bits64 x) ->
  select64_popcount_search x (Z.of_nat k) = Z.of_nat (sel k (bits64 x)).
Proof.
  intros x k Hx H1 Hk. unfold select64_popcount_search.
  unfold fold_left.
  destruct (select_step_spec 32 x (-1)%Z k) as (x1 & o1 & k1 & E1 & B1 & P1 & Q1 & S1); auto.
  change (N.of_nat 32) with 32%N in E1. rewrite E1. clear E1.
  destruct (select_step_spec 16 x1 (-1 + Z.of_nat o1)%Z k1) as (x2 & o2 & k2 & E2 & B2 & P2 & Q2 & S2); auto.
  change (N.of_nat 16) with 16%N in E2. rewrite E2. clear E2.
  destruct (select_step_spec 8 x2 (-1 + Z.of_nat o1 + Z.of_nat o2)%Z k2) as (x3 & o3 & k3 & E3 & B3 & P3 & Q3 & S3); auto.
  change (N.of_nat 8) with 8%N in E3. rewrite E3. clear E3.
  destruct (select_step_spec 4 x3 (-1 + Z.of_nat o1 + Z.of_nat o2 + Z.of_nat o3)%Z k3) as (x4 & o4 & k4 & E4 & B4 & P4 & Q4 & S4); auto.
  change (N.of_nat 4) with 4%N in E4. rewrite E4. clear E4.
  destruct (select_step_spec 2 x4 (-1 + Z.of_nat o1 + Z.of_nat o2 + Z.of_nat o3 + Z.of_nat o4)%Z k4) as (x5 & o5 & k5 & E5 & B5 & P5 & Q5 & S5); auto.
  change (N.of_nat 2) with 2%N in E5. rewrite E5. clear E5.
  destruct (select_step_spec 1 x5 (-1 + Z.of_nat o1 + Z.of_nat o2 + Z.of_nat o3 + Z.of_nat o4 + Z.of_nat o5)%Z k5) as (x6 & o6 & k6 & E6 & B6 & P6 & Q6 & S6); auto.
  change (N.of_nat 1) with 1%N in E6. rewrite E6. clear E6.
  assert (Hk6 : k6 = 1) by (pose proof (cnt_le_length (bitsn 1 x6)); rewrite bitsn_length in *; lia).
  assert (Hs6 : sel k6 (bitsn 1 x6) = 0).
  { destruct (sel_spec (bitsn 1 x6) k6) as (L & _); try lia. rewrite bitsn_length in L. lia. }
  change (32 + 32) with 64 in S1. change (16 + 16) with 32 in S2. change (8 + 8) with 16 in S3.
  change (4 + 4) with 8 in S4. change (2 + 2) with 4 in S5. change (1 + 1) with 2 in S6.
  unfold bits64. rewrite S1, S2, S3, S4, S5, S6, Hs6. lia.
Qed.

(** the bits of an array *)
Lemma bits_of_length : forall ws, length (bits_of ws) = 64 * length ws.
Proof.
  induction ws as [|w ws IH]; auto. change (bits_of (w :: ws)) with (bits64 w ++ bits_of ws).
  rewrite app_length, bits64_length, IH. cbn [length]. lia.
Qed.

Lemma bits_of_app : forall a b, bits_of (a ++ b) = bits_of a ++ bits_of b.
Proof. intros. apply flat_map_app. Qed.

Lemma bits_of_nth : forall ws i, nth i (bits_of ws) false = nth (i mod 64) (bits64 (nth (i / 64) ws 0%N)) false.
Proof.
  induction ws as [|w ws IH]; intros i.
  - change (bits_of []) with (@nil bool). replace (nth (i / 64) [] 0%N) with 0%N by (destruct (i / 64); auto).
    rewrite bits64_zero, nth_repeat. destruct i; auto.
  - change (bits_of (w :: ws)) with (bits64 w ++ bits_of ws).
    destruct (lt_dec i 64) as [L|L].
    + rewrite app_nth1 by (rewrite bits64_length; auto).
      rewrite Nat.div_small, Nat.mod_small by auto. reflexivity.
    + rewrite app_nth2 by (rewrite bits64_length; lia). rewrite bits64_length, IH.
      replace i with (1 * 64 + (i - 64)) at 3 4 by lia.
      rewrite Nat.div_add_l by lia. rewrite (Nat.add_comm (1 * 64)), Nat.mod_add by lia.
      reflexivity.
Qed.

Lemma bits_of_skipn : forall ws n, skipn (64 * n) (bits_of ws) = bits_of (skipn n ws).
Proof.
  induction ws as [|w ws IH]; intros n.
  - rewrite !skipn_nil. reflexivity.
  - destruct n as [|n]; [reflexivity|].
    change (bits_of (w :: ws)) with (bits64 w ++ bits_of ws).
    rewrite skipn_app, bits64_length. rewrite skipn_all2 by (rewrite bits64_length; lia).
    cbn [skipn app]. rewrite <- IH. f_equal. lia.
Qed.

Lemma bits_of_firstn : forall ws n, firstn (64 * n) (bits_of ws) = bits_of (firstn n ws).
Proof.
  induction ws as [|w ws IH]; intros n.
  - rewrite !firstn_nil. reflexivity.
  - destruct n as [|n]; [reflexivity|].
    change (bits_of (w :: ws)) with (bits64 w ++ bits_of ws).
    rewrite firstn_app, bits64_length. rewrite firstn_all2 by (rewrite bits64_length; lia).
    cbn [firstn]. change (bits_of (w :: firstn n ws)) with (bits64 w ++ bits_of (firstn n ws)).
    f_equal. rewrite <- IH. f_equal. lia.
Qed.

Lemma bits_of_repeat0 : forall n, bits_of (repeat 0%N n) = repeat false (64 * n).
Proof.
  induction n; auto. change (bits_of (repeat 0%N (S n))) with (bits64 0 ++ bits_of (repeat 0%N n)).
  rewrite IHn, bits64_zero, <- repeat_app. f_equal. lia.
Qed.

Lemma nth_Forall_ok : forall ws i, Forall word_ok ws -> word_ok (nth i ws 0%N).
Proof.
  intros ws i H. destruct (lt_dec i (length ws)) as [L|L].
  - rewrite Forall_forall in H. apply H. apply nth_In. auto.
  - rewrite nth_overflow by lia. reflexivity.
Qed.

Lemma wread_ok : forall e ws i, i < length ws -> wread e ws i = Ok (nth i ws 0%N).
Proof.
  intros e ws i H. unfold wread. rewrite (nth_error_nth' ws 0%N) by auto. reflexivity.
Qed.

(** the part of popcountLinear's result that matters *)
Lemma skipn_nth_cons : forall (A : Type) (l : list A) n d, n < length l ->
  skipn n l = nth n l d :: skipn (S n) l.
Proof.
  induction l as [|x l IH]; intros n d H; simpl in H; [lia|].
  destruct n; [reflexivity|]. simpl. apply IH. lia.
Qed.

Lemma popcount_words : forall e ws x n acc, Forall word_ok ws -> x + n <= length ws ->
  foldM (fun acc i => w <- wread e ws (x + i) ;; Ok (acc + popcnt w)) (seq 0 n) acc
  = Ok (acc + cnt (firstn (64 * n) (skipn (64 * x) (bits_of ws)))).
Proof.
  intros e ws x n acc Hok. rewrite bits_of_skipn, bits_of_firstn.
  assert (G : forall n s acc, x + s + n <= length ws ->
    foldM (fun acc i => w <- wread e ws (x + i) ;; Ok (acc + popcnt w)) (seq s n) acc
    = Ok (acc + cnt (bits_of (firstn n (skipn (x + s) ws))))).
  { clear n acc. induction n as [|n IH]; intros s acc H.
    - simpl. f_equal. lia.
    - cbn [seq foldM]. rewrite wread_ok by lia. cbn [bind].
      rewrite IH by lia. f_equal.
      rewrite (skipn_nth_cons _ ws (x + s) 0%N) by lia. cbn [firstn].
      change (bits_of (?a :: ?b)) with (bits64 a ++ bits_of b). rewrite cnt_app.
      rewrite popcnt_bits64 by (apply nth_Forall_ok; auto).
      replace (S (x + s)) with (x + S s) by lia. lia. }
  intros H. rewrite (G n 0 acc) by lia. rewrite Nat.add_0_r. reflexivity.
Qed.

Lemma firstn_app_repeat : forall w k, k < 64 -> word_ok w ->
  popcnt (N.shiftr w (63 - N.of_nat k)) = cnt (firstn (S k) (bits64 w)).
Proof.
  intros w k Hk Hw. replace (63 - N.of_nat k)%N with (N.of_nat (63 - k)) by lia.
  rewrite popcnt_bits64 by (apply shiftr_ok; auto).
  rewrite bits64_shiftr by (auto; lia). rewrite cnt_app, cnt_repeat_false.
  rewrite Nat.add_0_l. replace (64 - (63 - k)) with (S k) by lia. reflexivity.
Qed.

Lemma firstn_plus : forall (A : Type) (l : list A) a b,
  firstn (a + b) l = firstn a l ++ firstn b (skipn a l).
Proof.
  intros A l a. revert l. induction a; intros l b; simpl; auto.
  destruct l; simpl; [rewrite firstn_nil; auto|]. f_equal. apply IHa.
Qed.

Lemma popcountLinear_spec : forall e ws x nbits, Forall word_ok ws ->
  64 * x + nbits <= 64 * length ws ->
  popcountLinear e ws x nbits = Ok (cnt (firstn nbits (skipn (64 * x) (bits_of ws)))).
Proof.
  intros e ws x [|m] Hok H; [reflexivity|].
  unfold popcountLinear.
  pose proof (Nat.div_mod m 64 ltac:(lia)) as DM. pose proof (Nat.mod_upper_bound m 64 ltac:(lia)) as MB.
  remember (m / 64) as q eqn:Eq. remember (m mod 64) as r eqn:Er. clear Eq Er.
  rewrite popcount_words by (auto; lia). cbn [bind].
  rewrite wread_ok by lia. cbn [bind]. unfold shr64.
  replace (63 - N.of_nat r <? 64)%N with true by lia. cbn [bind].
  rewrite firstn_app_repeat by (auto using nth_Forall_ok).
  f_equal. replace (S m) with (64 * q + S r) by lia. rewrite firstn_plus, cnt_app.
  cbn [Nat.add]. f_equal. f_equal.
  rewrite bits_of_skipn, bits_of_skipn.
  rewrite (skipn_nth_cons _ (skipn x ws) q 0%N) by (rewrite skipn_length; lia).
  change (bits_of (?a :: ?b)) with (bits64 a ++ bits_of b).
  rewrite firstn_app, bits64_length. replace (S r - 64) with 0 by lia.
  rewrite firstn_O, app_nil_r. f_equal. f_equal. symmetry. apply nth_skipn'.
Qed.
