(** What the answer of a range query depends on. *)
From Coq Require Import Arith List NArith ZArith Bool Lia ZifyN ZifyNat ZifyBool.
From Verif Require Import Res Config Builder Dense Sparse Surf Spec SpecApi SpecFilter SpecIter SpecRange SpecExact SpecDepend
  BitFacts WordFacts IterKey SuffixFacts IterApi SuffixOrder BuilderFacts StructFacts PointFacts ExactFacts.
Import ListNotations.

Lemma kle_firstn : forall d l r, kle l r -> firstn d l = firstn d r \/ klt (firstn d l) r.
Proof.
  intros d l r [H|<-]; [|auto]. revert l r H.
  induction d as [|d IH]; intros l r H; [auto|]. destruct r as [|y r]; [destruct l; contradiction|].
  destruct l as [|x l]; [right; exact I|]. cbn [firstn klt] in *. destruct H as [H|[-> H]]; [auto|].
  destruct (IH l r H) as [E|E]; [left; f_equal; exact E|auto].
Qed.

Lemma klt_irr : forall a, ~ klt a a.
Proof. induction a as [|x a IH]; cbn [klt]; [tauto|]. intros [H|[_ H]]; [lia|auto]. Qed.
Lemma klt_asym : forall a b, klt a b -> ~ klt b a.
Proof.
  induction a as [|x a IH]; intros [|y b] H; cbn [klt] in *; try tauto.
  intros [H'|[E H']]; destruct H as [H|[E' H]]; try lia. eapply IH; eauto.
Qed.

(** ** numbers *)
Lemma bits_value_app : forall a b, bits_value (a ++ b) = (bits_value a * 2 ^ N.of_nat (length b) + bits_value b)%N.
Proof.
  assert (G : forall b s, fold_left (fun a (x : bool) => (2 * a + (if x then 1 else 0))%N) b s = (s * 2 ^ N.of_nat (length b) + bits_value b)%N).
  { unfold bits_value. induction b as [|x b IH]; intros s; cbn [fold_left length]; [cbn; lia|].
    rewrite IH. rewrite (IH (2 * 0 + _)%N). rewrite Nat2N.inj_succ, N.pow_succ_r'. destruct x; lia. }
  intros a b. unfold bits_value at 1. rewrite fold_left_app. apply G.
Qed.
Lemma bits_value_lt : forall b, (bits_value b < 2 ^ N.of_nat (length b))%N.
Proof.
  induction b as [|x b IH] using rev_ind; [cbn; lia|]. rewrite bits_value_app, app_length. cbn [length].
  change (2 ^ N.of_nat 1)%N with 2%N. rewrite Nat.add_1_r, Nat2N.inj_succ, N.pow_succ_r'.
  assert (B : (bits_value [x] < 2)%N) by (destruct x; reflexivity). lia.
Qed.
Lemma bits_value_zeros : forall n, bits_value (repeat false n) = 0%N.
Proof. unfold bits_value. induction n as [|n IH]; [reflexivity|]. cbn [repeat fold_left]. exact IH. Qed.
Lemma byte_bits_len : forall k, length (key_bits k) = 8 * length k.
Proof. induction k as [|x k IH]; [reflexivity|]. unfold key_bits in *. cbn [flat_map]. rewrite app_length, IH. cbn [length byte_bits map seq]. lia. Qed.

Lemma number_short : forall c c' k d, keeps_real c -> cf_rlen c' <= cf_rlen c -> whole c k d ->
  suffix_number c' k d = (suffix_number c k d / 2 ^ N.of_nat (cf_rlen c - cf_rlen c'))%N.
Proof.
  intros c c' k d KR L W. unfold suffix_number, next_bits0, next_bits.
  rewrite byte_bits_len, skipn_length.
  destruct (le_lt_dec (length k) d) as [LD|LD].
  - replace (length k - d) with 0 by lia. change (8 * 0) with 0.
    assert (Z : forall m, bits_value match (if m <=? 0 then Some (firstn m (key_bits (skipn d k))) else None) with Some b => b | None => repeat false m end = 0%N).
    { intros m. destruct (Nat.leb_spec m 0); [|apply bits_value_zeros]. replace m with 0 by lia. reflexivity. }
    rewrite !Z. rewrite N.div_0_l; [reflexivity|apply N.pow_nonzero; lia].
  - specialize (W KR LD).
    destruct (Nat.leb_spec (cf_rlen c) (8 * (length k - d))); [|lia]. destruct (Nat.leb_spec (cf_rlen c') (8 * (length k - d))); [|lia].
    set (b := key_bits (skipn d k)). assert (LB : length b = 8 * (length k - d)) by (unfold b; rewrite byte_bits_len, skipn_length; reflexivity).
    rewrite <- (firstn_skipn (cf_rlen c') (firstn (cf_rlen c) b)). rewrite bits_value_app, firstn_firstn, Nat.min_l by lia.
    set (t := skipn (cf_rlen c') (firstn (cf_rlen c) b)).
    assert (LT : length t = cf_rlen c - cf_rlen c') by (unfold t; rewrite skipn_length, firstn_length; lia).
    pose proof (bits_value_lt t) as BT. rewrite LT in *. rewrite N.div_add_l by (apply N.pow_nonzero; lia).
    rewrite (N.div_small _ _ BT). lia.
Qed.

Lemma number_mono : forall c c' k q d, keeps_real c -> cf_rlen c' <= cf_rlen c -> whole c k d -> whole c q d ->
  (suffix_number c k d <= suffix_number c q d)%N -> (suffix_number c' k d <= suffix_number c' q d)%N.
Proof.
  intros c c' k q d KR L W W' H. rewrite (number_short c c' k d KR L W), (number_short c c' q d KR L W').
  apply N.div_le_mono; [apply N.pow_nonzero; lia|exact H].
Qed.

Lemma whole_short : forall c c' k d, keeps_real c -> cf_rlen c' <= cf_rlen c -> whole c k d -> whole c' k d.
Proof. intros c c' k d KR L W KR' LD. specialize (W KR LD). lia. Qed.

(** strings that agree up to byte [d] and go on are ordered by their suffixes *)
Lemma number_order : forall c l r d, keeps_real c -> is_bytes l -> is_bytes r -> firstn d l = firstn d r -> kle l r ->
  whole c l d -> whole c r d -> (suffix_number c l d <= suffix_number c r d)%N.
Proof.
  intros c l r d KR Hl Hr E H Wl Wr. destruct H as [H| ->]; [|lia].
  apply N.le_ngt. intros X. apply (klt_asym l r H). apply (cmp_neg c r l d); auto.
  - unfold cmp_val. rewrite (proj2 (has_real_keeps c) KR).
    assert (A : forall q, is_bytes q -> suffix_number c q d = real_val q d (cf_rlen c)).
    { intros q Hq. unfold suffix_number, bits_value. rewrite next_bits0_val by auto. apply bitsn_value. apply real_val_bound; auto. }
    rewrite (A l Hl), (A r Hr) in X. destruct (N.eqb_spec (real_val r d (cf_rlen c)) (real_val l d (cf_rlen c))); [lia|].
    destruct (_ || _) eqn:O; [reflexivity|]. lia.
  - intros [A B]. specialize (Wr KR A). lia.
Qed.

Section Depend.
Variables (keys : list bytes).
Hypothesis HG : good_keys keys.
Notation K := (uniq keys).

Lemma in_nth : forall i, i < length K -> In (nth i K []) keys.
Proof. intros i H. apply uniq_in. apply nth_In. exact H. Qed.

Lemma fewer_core : forall c1 c2 h1 h2 l li r p,
  (forall k, In k keys -> passed c2 keys h2 l li k -> passed c1 keys h1 l li k) ->
  (forall k, In k keys -> passed c1 keys h1 l li k -> ~ passed c2 keys h2 l li k -> reaches c2 keys h2 k r) ->
  (forall k, In k keys -> reaches c1 keys h1 k r -> reaches c2 keys h2 k r) ->
  seek_at c2 keys h2 l li p ->
  (exists i, seek_at c1 keys h1 l li (Some i) /\ reaches c1 keys h1 (nth i K []) r) ->
  exists i, seek_at c2 keys h2 l li (Some i) /\ reaches c2 keys h2 (nth i K []) r.
Proof.
  intros c1 c2 h1 h2 l li r p W1 W2 W3 P (i & (Hi & N1 & B1) & R).
  destruct p as [j|]; [|exfalso; apply N1, W1, P; apply in_nth; exact Hi].
  exists j. split; [exact P|]. destruct P as (Hj & N2 & B2).
  destruct (lt_eq_lt_dec j i) as [[L| ->]|L].
  - apply W2; auto. apply in_nth. exact Hj.
  - apply W3; [apply in_nth; exact Hi|exact R].
  - exfalso. apply N1, W1; [apply in_nth; exact Hi|]. apply B2. exact L.
Qed.

Lemma cut_same : forall h1 h2 k r, In k keys -> same_part keys h1 h2 -> cut_off keys h1 k r -> cut_off keys h2 k r.
Proof. intros h1 h2 k r Hk [<-|H] C; [exact C|]. destruct C as (A & _). destruct (H k Hk A). Qed.

Lemma passed_same : forall c1 c2 h1 h2 l li k, In k keys -> same_real c1 c2 -> same_part keys h1 h2 ->
  passed c1 keys h1 l li k -> passed c2 keys h2 l li k.
Proof.
  intros c1 c2 h1 h2 l li k Hk [SR SL] SP [A|[(KR & d & D & E & L)|(E & I & J & L)]]; [left; exact A| |].
  - right. left. split; [apply SR; exact KR|]. exists d. unfold suffix_number in *. rewrite <- (SL KR). auto.
  - destruct SP as [<-|H]; [right; right; auto|]. destruct (H k Hk J).
Qed.
Lemma reaches_same : forall c1 c2 h1 h2 k r, In k keys -> same_real c1 c2 -> same_part keys h1 h2 ->
  reaches c1 keys h1 k r -> reaches c2 keys h2 k r.
Proof.
  intros c1 c2 h1 h2 k r Hk [SR SL] SP [A|(d & D & A)]; [left; eapply cut_same; eauto|].
  right. exists d. split; [exact D|]. destruct A as [(E & L)|A]; [left|right; exact A].
  split; [exact E|]. intros KR. apply SR in KR. unfold suffix_number in *. rewrite <- (SL KR). auto.
Qed.

Lemma part_sym : forall h1 h2, same_part keys h1 h2 -> same_part keys h2 h1.
Proof. intros h1 h2 [<-|H]; [left|right]; auto. Qed.
Lemma real_sym : forall c1 c2, same_real c1 c2 -> same_real c2 c1.
Proof. intros c1 c2 [A B]. split; [tauto|]. intros KR. symmetry. apply B, A, KR. Qed.

Variables (e1 e2 : env) (c1 c2 : config) (f1 f2 : surf).
Hypotheses (HM1 : machine e1) (HM2 : machine e2) (HC1 : settings c1) (HC2 : settings c2) (HL : ~ lone_ff keys).
Hypotheses (HF1 : filter_of e1 c1 keys f1) (HF2 : filter_of e2 c2 keys f2).
Notation h1 := (getSparseStartLevel f1).
Notation h2 := (getSparseStartLevel f2).
Variables (it1 it2 : iter) (l : bytes) (li : bool) (r : bytes) (ri : bool).
Hypotheses (HI1 : member_iter e1 f1 it1) (HI2 : member_iter e2 f2 it2) (Hl : is_bytes l) (Hr : is_bytes r).
Hypotheses (T1 : ~ stray e1 keys h1 l) (T2 : ~ stray e2 keys h2 l) (NC : no_clash keys r).
Hypothesis SP : same_part keys h1 h2.

Lemma depend_same : same_real c1 c2 -> range_after e1 f1 it1 l li r ri = range_after e2 f2 it2 l li r ri.
Proof.
  intros SR.
  destruct (range_exact e1 c1 keys f1 HM1 HC1 HG HL HF1 it1 l li r ri HI1 Hl Hr T1 NC) as (b1 & E1 & I1).
  destruct (range_exact e2 c2 keys f2 HM2 HC2 HG HL HF2 it2 l li r ri HI2 Hl Hr T2 NC) as (b2 & E2 & I2).
  rewrite E1, E2. f_equal.
  destruct (seek_exact e1 c1 keys f1 HM1 HC1 HG HL HF1 l li Hl T1) as (_ & p1 & _ & _ & P1 & _).
  destruct (seek_exact e2 c2 keys f2 HM2 HC2 HG HL HF2 l li Hl T2) as (_ & p2 & _ & _ & P2 & _).
  apply eq_true_iff_eq. rewrite I1, I2. split.
  - apply fewer_core with (p := p2); auto.
    + intros k Hk. apply passed_same; auto using real_sym, part_sym.
    + intros k Hk P N. destruct N. eapply passed_same; eauto.
    + intros k Hk. apply reaches_same; auto.
  - apply fewer_core with (p := p1); auto.
    + intros k Hk. apply passed_same; auto.
    + intros k Hk P N. destruct N. eapply passed_same; eauto using real_sym, part_sym.
    + intros k Hk. apply reaches_same; auto using real_sym, part_sym.
Qed.

Lemma depend_fewer : ~ keeps_real c2 -> kle l r ->
  range_after e1 f1 it1 l li r ri = Ok true -> range_after e2 f2 it2 l li r ri = Ok true.
Proof.
  intros NR LR.
  destruct (range_exact e1 c1 keys f1 HM1 HC1 HG HL HF1 it1 l li r ri HI1 Hl Hr T1 NC) as (b1 & E1 & I1).
  destruct (range_exact e2 c2 keys f2 HM2 HC2 HG HL HF2 it2 l li r ri HI2 Hl Hr T2 NC) as (b2 & E2 & I2).
  destruct (seek_exact e2 c2 keys f2 HM2 HC2 HG HL HF2 l li Hl T2) as (_ & p2 & _ & _ & P2 & _).
  rewrite E1, E2. intros H. injection H as ->. f_equal. apply I2. apply (fewer_core c1 c2 h1 h2 l li r p2); auto; [| | |apply I1; reflexivity].
  - intros k Hk [A|[(KR & _)|(E & I & J & L)]]; [left; exact A|contradiction|].
    destruct SP as [SE|H]; [rewrite SE; right; right; auto|destruct (H k Hk J)].
  - intros k Hk [A|[(KR & d & D & E & L)|(E & I & J & L)]] N.
    + destruct N. left. exact A.
    + right. exists d. split; [exact D|]. destruct (kle_firstn d l r LR) as [X|X].
      * left. split; [congruence|contradiction].
      * destruct (list_eq_dec Nat.eq_dec (firstn d r) (firstn d k)) as [Y|Y]; [left; split; [exact Y|contradiction]|right].
        split; [exact Y|]. rewrite <- E. exact X.
    + destruct N. destruct SP as [SE|H]; [rewrite <- SE; right; right; auto|destruct (H k Hk J)].
  - intros k Hk [A|(d & D & A)]; [left; eapply cut_same; eauto|].
    right. exists d. split; [exact D|]. destruct A as [(E & L)|A]; [left|right; exact A]. split; [exact E|contradiction].
Qed.

Lemma depend_longer : longer_real c1 c2 -> kle l r -> not_short c1 keys l -> not_short c1 keys r ->
  (forall k d, In k keys -> dist_len keys k d -> whole c1 k d) ->
  range_after e1 f1 it1 l li r ri = Ok true -> range_after e2 f2 it2 l li r ri = Ok true.
Proof.
  intros (KR1 & KR2 & LL) LR WL WR WK.
  destruct (range_exact e1 c1 keys f1 HM1 HC1 HG HL HF1 it1 l li r ri HI1 Hl Hr T1 NC) as (b1 & E1 & I1).
  destruct (range_exact e2 c2 keys f2 HM2 HC2 HG HL HF2 it2 l li r ri HI2 Hl Hr T2 NC) as (b2 & E2 & I2).
  destruct (seek_exact e2 c2 keys f2 HM2 HC2 HG HL HF2 l li Hl T2) as (_ & p2 & _ & _ & P2 & _).
  rewrite E1, E2. intros H. injection H as ->. f_equal. apply I2. apply (fewer_core c1 c2 h1 h2 l li r p2); auto; [| | |apply I1; reflexivity].
  - intros k Hk [A|[(KR & d & D & E & L)|(E & I & J & L)]]; [left; exact A| |].
    + right. left. split; [exact KR1|]. exists d. split; [exact D|]. split; [exact E|].
      apply N.lt_nge. intros X. apply (number_mono c1 c2) in X; eauto. lia.
    + destruct SP as [SE|H]; [rewrite SE; right; right; auto|destruct (H k Hk J)].
  - intros k Hk [A|[(KR & d & D & E & L)|(E & I & J & L)]] N.
    + destruct N. left. exact A.
    + right. exists d. split; [exact D|].
      destruct (list_eq_dec Nat.eq_dec (firstn d r) (firstn d k)) as [Y|Y].
      * left. split; [exact Y|]. intros _.
        assert (A1 : (suffix_number c2 k d <= suffix_number c2 l d)%N) by (apply (number_mono c1 c2); eauto; lia).
        assert (A2 : (suffix_number c2 l d <= suffix_number c2 r d)%N).
        { apply number_order; auto; [congruence| |]; apply (whole_short c1); eauto. }
        lia.
      * right. split; [exact Y|]. destruct (kle_firstn d l r LR) as [X|X]; [congruence|]. rewrite <- E. exact X.
    + destruct N. destruct SP as [SE|H]; [rewrite <- SE; right; right; auto|destruct (H k Hk J)].
  - intros k Hk [A|(d & D & A)]; [left; eapply cut_same; eauto|].
    right. exists d. split; [exact D|]. destruct A as [(E & L)|A]; [left|right; exact A]. split; [exact E|].
    intros _. apply (number_mono c1 c2); eauto.
Qed.

End Depend.
