(** What an iterator that stands at a key returns: getKey, getSuffix and
    getKeyWithSuffix. *)
From Coq Require Import Arith List NArith ZArith Bool Lia ZifyN ZifyNat ZifyBool Sorting.Sorted.
From Verif Require Import Res Word Config BitFacts WordFacts Bitvector BitvectorFacts Rank Select
  RankSelectFacts LabelVector LabelFacts Suffix Spec SuffixFacts Builder KeyFacts Trie BuilderFacts
  DenseBuild StructFacts NodeFacts SparseFacts Dense Sparse DenseFacts LookupFacts PointFacts IntKeys
  Surf IterTrie IterDense IterDMove IterSparse IterFacts.
Import ListNotations.

(** ** suffix words *)
Lemma extract_real : forall e v h n, strict_shift e = false -> (v < 2 ^ N.of_nat n)%N ->
  n < 64 -> (h * 2 ^ N.of_nat n + v < 2 ^ 64)%N ->
  extractRealSuffix e (h * 2 ^ N.of_nat n + v) n = Ok v.
Proof.
  intros e v h n He Hv Hn Hw. unfold extractRealSuffix, shl64. replace (N.of_nat n <? 64)%N with true by lia.
  cbn [bind]. f_equal. rewrite N.shiftl_mul_pow2, N.mul_1_l.
  assert (P : (2 ^ N.of_nat n < 2 ^ 64)%N) by (apply N.pow_lt_mono_r; lia).
  pose proof (pow2_pos (N.of_nat n)) as PP. unfold wrap64. rewrite two64_pow, (N.mod_small _ _ P).
  replace (2 ^ N.of_nat n + 2 ^ 64 - 1)%N with ((2 ^ N.of_nat n - 1) + 1 * 2 ^ 64)%N by lia.
  rewrite N.mod_add by lia. rewrite N.mod_small by lia.
  replace (2 ^ N.of_nat n - 1)%N with (N.ones (N.of_nat n)) by (rewrite N.ones_equiv; lia).
  rewrite N.land_ones. rewrite N.add_comm, N.mod_add by lia. apply N.mod_small. auto.
Qed.

Lemma extract_real64 : forall e w, strict_shift e = false -> extractRealSuffix e w 64 = Ok 0%N.
Proof.
  intros e w He. unfold extractRealSuffix, shl64. change (N.of_nat 64 <? 64)%N with false. cbv iota. rewrite He.
  change (N.of_nat 64 mod 64)%N with 0%N. cbn [bind]. f_equal.
  change (wrap64 (wrap64 (N.shiftl 1 0) + two64 - 1)) with 0%N. apply N.land_0_r.
Qed.

(** the part of a stored suffix that extractRealSuffix returns *)
Definition real_read (k : bytes) (d n : nat) : N := if n =? 64 then 0%N else real_val k d n.

Lemma readReal_spec : forall c e s vs i k d, strict_shift e = false ->
  lens_ok (cf_type c) (cf_hlen c) (cf_rlen c) -> is_bytes k -> has_real (cf_type c) = true ->
  suf_rel c s vs -> i < length vs -> nth i vs 0%N = suf_val (cf_type c) k (cf_hlen c) d (cf_rlen c) ->
  sf_type s = cf_type c /\ sf_rlen s = cf_rlen c /\
  suf_readReal e s (wrap32 (N.of_nat i)) = Ok (real_read k d (cf_rlen c)).
Proof.
  intros c e s vs i k d He Hlen Hk HH HR Hi HV. unfold suf_rel in HR.
  destruct Hlen as [HL1 HL2]. pose proof (real_val_bound k d (cf_rlen c) Hk) as RB.
  assert (G : forall t h, cf_type c = t -> t <> kNone -> sf_type s = t /\ sf_hlen s = cf_hlen c /\ sf_rlen s = cf_rlen c /\ suf_ok s vs ->
     suf_val t k (cf_hlen c) d (cf_rlen c) = (h * 2 ^ N.of_nat (cf_rlen c) + real_val k d (cf_rlen c))%N ->
     sf_type s = t /\ sf_rlen s = cf_rlen c /\
     suf_readReal e s (wrap32 (N.of_nat i)) = Ok (real_read k d (cf_rlen c))).
  { intros t h Ht Hn (E1 & E2 & E3 & E4) EV. rewrite (suf_idx_small s vs i E4 Hi). split; auto. split; auto.
    unfold suf_readReal. rewrite (suf_read_spec e s vs i) by (auto; congruence). cbn [bind].
    rewrite HV, E3, Ht, EV. unfold real_read. destruct (Nat.eqb_spec (cf_rlen c) 64) as [->|NE].
    - apply extract_real64. auto.
    - apply extract_real; auto; try lia. rewrite <- EV.
      apply N.lt_le_trans with (2 ^ N.of_nat (cf_hlen c + cf_rlen c))%N; [apply suf_val_bound; auto|].
      change (2 ^ 64)%N with (2 ^ N.of_nat 64)%N. apply pow2_le. auto. }
  destruct (cf_type c) eqn:Ht; try discriminate.
  - apply (G kReal 0%N); auto; congruence.
  - apply (G kMixed (hash_val k (cf_hlen c))); auto; congruence.
Qed.

Lemma be_le : forall m w, be_val (rev (le_bytes m w)) = (w mod 256 ^ N.of_nat m)%N.
Proof.
  induction m as [|m IH]; intros w; cbn [le_bytes rev].
  - cbn. rewrite N.mod_1_r. reflexivity.
  - rewrite be_val_app, IH. rewrite N2Nat.id, Nat2N.inj_succ, N.pow_succ_r'.
    rewrite N.mod_mul_r by (try apply N.pow_nonzero; lia). lia.
Qed.

Lemma be_bytes : forall w, word_ok w -> key_bits (rev (le_bytes 8 w)) = bitsn 64 w.
Proof.
  intros w Hw. rewrite key_bits_be.
  - rewrite rev_length, le_bytes_length, be_le. f_equal. apply N.mod_small. exact Hw.
  - apply Forall_rev. apply le_bytes_ok.
Qed.

Lemma key_bits_firstn : forall m k, key_bits (firstn m k) = firstn (8 * m) (key_bits k).
Proof.
  intros m k. rewrite <- (firstn_skipn m k) at 2. rewrite key_bits_app.
  destruct (le_lt_dec (length k) m) as [L|L].
  - rewrite (skipn_all2 k L). cbn [key_bits flat_map]. rewrite app_nil_r. symmetry. apply firstn_all2.
    rewrite key_bits_length, firstn_length. lia.
  - rewrite firstn_app. rewrite key_bits_length, firstn_length. replace (Nat.min m (length k)) with m by lia.
    rewrite Nat.sub_diag. cbn [firstn]. rewrite app_nil_r. symmetry. apply firstn_all2.
    rewrite key_bits_length, firstn_length. lia.
Qed.

(** the bytes appended by getKeyWithSuffix: the suffix bits, padded to a byte *)
Lemma suffix_bytes_spec : forall e v n, 1 <= n <= 64 -> (v < 2 ^ N.of_nat n)%N ->
  exists b, suffix_bytes e v n = Ok b /\ is_bytes b /\ length b = (n + 7) / 8 /\
    key_bits b = bitsn n v ++ repeat false (8 * ((n + 7) / 8) - n).
Proof.
  intros e v n Hn Hv. unfold suffix_bytes.
  pose proof (Nat.div_mod (n + 7) 8 ltac:(lia)) as DM. pose proof (Nat.mod_upper_bound (n + 7) 8 ltac:(lia)) as MB.
  set (m := (n + 7) / 8) in *.
  rewrite sub32_ok by (unfold two32; lia). unfold shl64. replace (64 - N.of_nat n <? 64)%N with true by lia.
  cbn [bind]. eexists. split; [reflexivity|].
  rewrite N.shiftl_mul_pow2. replace (64 - N.of_nat n)%N with (N.of_nat (64 - n)) by lia.
  assert (W : (v * 2 ^ N.of_nat (64 - n) < 2 ^ 64)%N).
  { change (2 ^ 64)%N with (2 ^ N.of_nat 64)%N. replace (N.of_nat 64) with (N.of_nat (n + (64 - n))) by lia.
    rewrite pow2_add. apply N.mul_lt_mono_pos_r; [apply pow2_pos|auto]. }
  unfold wrap64. rewrite two64_pow, (N.mod_small _ _ W). split; [|split].
  - apply is_bytes_firstn. apply Forall_rev. apply le_bytes_ok.
  - rewrite firstn_length, rev_length, le_bytes_length. lia.
  - rewrite key_bits_firstn, be_bytes by exact W.
    replace 64 with (n + (64 - n)) at 1 by lia. rewrite bitsn_app. rewrite N.shiftr_div_pow2, N.div_mul by (apply N.pow_nonzero; lia).
    assert (Z : bitsn (64 - n) (v * 2 ^ N.of_nat (64 - n)) = repeat false (64 - n)).
    { rewrite <- (N.add_0_r (v * 2 ^ N.of_nat (64 - n))). rewrite bitsn_shift_low by (auto; apply pow2_pos). apply bitsn_zero. }
    rewrite Z, firstn_app, bitsn_length. rewrite firstn_all2 by (rewrite bitsn_length; lia). f_equal.
    replace (64 - n) with ((8 * m - n) + (64 - 8 * m)) by lia. rewrite repeat_app, firstn_app, repeat_length, Nat.sub_diag.
    cbn [firstn]. rewrite app_nil_r. apply firstn_all2. rewrite repeat_length. lia.
Qed.

(** bits, most significant first, as a number *)
Lemma bitsn_value : forall n v, (v < 2 ^ N.of_nat n)%N ->
  fold_left (fun a (b : bool) => (2 * a + (if b then 1 else 0))%N) (bitsn n v) 0%N = v.
Proof.
  assert (G : forall n v a, (v < 2 ^ N.of_nat n)%N ->
    fold_left (fun a (b : bool) => (2 * a + (if b then 1 else 0))%N) (bitsn n v) a = (a * 2 ^ N.of_nat n + v)%N).
  { induction n as [|n IH]; intros v a Hv.
    - cbn in *. lia.
    - replace (S n) with (1 + n) by lia. rewrite bitsn_app, fold_left_app.
      rewrite <- (bitsn_mod n n v) by auto. rewrite IH by (apply N.mod_lt; apply N.pow_nonzero; lia).
      cbn [bitsn fold_left]. rewrite N.shiftr_div_pow2. replace (N.of_nat (S n)) with (N.succ (N.of_nat n)) in Hv by lia. rewrite N.pow_succ_r' in Hv.
      pose proof (pow2_pos (N.of_nat n)) as PP.
      assert (Q : (v / 2 ^ N.of_nat n < 2)%N) by (apply N.div_lt_upper_bound; lia).
      pose proof (N.div_mod v (2 ^ N.of_nat n) ltac:(lia)) as DM.
      set (q := (v / 2 ^ N.of_nat n)%N) in *. assert (T : (if N.testbit q (N.of_nat 0) then 1 else 0)%N = q).
      { assert (q = 0 \/ q = 1)%N as [->| ->] by lia; reflexivity. }
      rewrite T. replace (N.of_nat (1 + n)) with (N.succ (N.of_nat n)) by lia. rewrite N.pow_succ_r'. nia. }
  intros n v Hv. rewrite G by auto. lia.
Qed.

Section Key.
Variables (c : config) (K : list bytes).
Notation kk := (kk K). Notation lo := (lo K). Notation hi := (hi K). Notation leafl := (leafl K).
Notation item := (item K). Notation child := (child K). Notation louds := (louds K).
Notation leaf := (leaf K). Notation lab := (lab K). Notation term := (term K). Notation anc := (anc K).
Notation height := (height K). Notation NN := (NN K). Notation same_node := (same_node K).
Let n := length K.
Hypothesis HS : StronglySorted klt K.
Hypothesis HB : Forall is_bytes K.
Hypothesis HE : Forall (fun k => k <> []) K.
Hypothesis HNE : length K <> 0.
Hypothesis HFF : no_lone_ff K.
Variables (st : nat) (f : surf) (e : env).
Hypothesis Hst1 : 1 <= st.
Hypothesis Hst2 : S st <= height.
Hypothesis HD : dense_ok c K st (sf_dense f).
Hypothesis HK : sparse_ok c K st (sf_sparse f).
Hypothesis Hmem : strict_mem e = false.
Notation lpre := (lpre K st). Notation slpre := (slpre K st). Notation dat := (dat K st).
Notation sat := (sat K st). Notation spos := (spos K st). Notation dpos := (dpos K). Notation it_at := (it_at K st).

Lemma path_key : forall i len k o, (forall m, m < len -> nth m k 0 = lab (o + m) (anc (o + m) i)) ->
  len <= length k -> o + len <= length (kk i) -> firstn len k = firstn len (skipn o (kk i)).
Proof.
  clear Hst1 Hst2 HD HK HFF Hmem. intros i len k o H L1 L2. apply nth_ext with (d := 0) (d' := 0).
  - rewrite !firstn_length, skipn_length. lia.
  - intros m Hm. rewrite firstn_length in Hm. rewrite !nth_firstn', nth_skipn' by lia.
    rewrite H by lia. unfold Trie.lab. pose proof (anc_prefix K (o + m) i) as AP.
    apply (f_equal (fun l => nth (o + m) l 255)) in AP. rewrite !nth_firstn' in AP by lia. rewrite AP.
    apply nth_indep. lia.
Qed.

Lemma key_len : forall i, i < n -> S (leafl i) <= length (kk i) \/ (term (leafl i) i = true /\ length (kk i) = leafl i).
Proof.
  clear Hst1 Hst2 HD HK HFF Hmem. intros i Hi. destruct (term (leafl i) i) eqn:ET.
  - right. split; auto. unfold Trie.term in ET. pose proof (leafl_le K i). lia.
  - left. unfold Trie.term in ET. lia.
Qed.

Lemma di_key_ok : forall i it, i < n -> dat i it ->
  di_getKey it = Ok (firstn (Nat.min st (S (leafl i))) (kk i)).
Proof.
  clear Hst2 HD HK HFF Hmem. intros i it Hi (V & H). unfold di_getKey. rewrite V. cbn [negb]. pose proof (leafl_le K i) as LE.
  destruct (Nat.ltb_spec (leafl i) st) as [L|L].
  - destruct H as (_ & _ & _ & HL & HA & HP). rewrite HA, HL. replace (Nat.min st (S (leafl i))) with (S (leafl i)) by lia.
    destruct (term (leafl i) i) eqn:ET.
    + destruct (term_leafl K HS HE i Hi ET) as (T1 & T2 & _). cbn [pred_idx bind].
      assert (HP' : lpre i (leafl i) (di_key it) (di_pos it)).
      { apply lpre_bwd; [lia|]. eapply lpre_le; [exact HP|lia]. }
      destruct HP' as (P1 & P2 & P3). replace (leafl i <=? length (di_key it)) with true by lia. f_equal.
      rewrite (path_key i (leafl i) (di_key it) 0); [|intros m Hm; apply P3; auto|lia|lia].
      cbn [skipn]. unfold Trie.term in ET. rewrite !firstn_all2 by lia. reflexivity.
    + cbn [bind]. destruct HP as (P1 & P2 & P3). replace (S (leafl i) <=? length (di_key it)) with true by lia. f_equal.
      unfold Trie.term in ET. rewrite (path_key i (S (leafl i)) (di_key it) 0); [reflexivity|intros m Hm; apply P3; auto|lia|lia].
  - destruct H as (_ & HL & HA & HP). rewrite HA, HL. cbn [bind]. replace (Nat.min st (S (leafl i))) with st by lia.
    destruct HP as (P1 & P2 & P3). replace (st <=? length (di_key it)) with true by lia. f_equal.
    rewrite (path_key i st (di_key it) 0); [reflexivity|intros m Hm; apply P3; auto|lia|lia].
Qed.

Lemma si_key_ok : forall i it, i < n -> st <= leafl i -> sat i it ->
  si_getKey it = Ok (firstn (S (leafl i) - st) (skipn st (kk i))).
Proof.
  intros i it Hi Hl (V & HL & HA & (P1 & P2 & P3)). unfold si_getKey. rewrite V. cbn [negb]. rewrite HA, HL.
  pose proof (leafl_height K HNE st Hst1 Hst2 i Hi) as LH. pose proof (leafl_le K i) as LE.
  destruct (term (leafl i) i) eqn:ET; unfold Trie.term in ET.
  - replace (S (leafl i) - st) with (S (leafl i - st)) at 1 by lia. cbn [pred_idx bind].
    replace (leafl i - st <=? length (si_key it)) with true by lia. f_equal.
    rewrite (path_key i (leafl i - st) (si_key it) st); [|intros m Hm; apply P3; lia|lia|lia].
    rewrite !firstn_all2 by (rewrite skipn_length; lia). reflexivity.
  - cbn [bind]. replace (S (leafl i) - st <=? length (si_key it)) with true by lia. f_equal.
    rewrite (path_key i (S (leafl i) - st) (si_key it) st); [reflexivity|intros m Hm; apply P3; lia|lia|lia].
Qed.

Lemma key_join : forall i, st <= leafl i ->
  firstn (Nat.min st (S (leafl i))) (kk i) ++ firstn (S (leafl i) - st) (skipn st (kk i)) = firstn (S (leafl i)) (kk i).
Proof.
  intros i L. replace (Nat.min st (S (leafl i))) with st by lia.
  rewrite <- (firstn_skipn st (firstn (S (leafl i)) (kk i))).
  rewrite firstn_firstn. replace (Nat.min st (S (leafl i))) with st by lia. f_equal.
  rewrite skipn_firstn_comm. reflexivity.
Qed.

Theorem it_key_ok : forall i it, i < n -> it_at i it -> it_getKey it = Ok (firstn (S (leafl i)) (kk i)).
Proof.
  intros i it Hi HA. unfold it_getKey. rewrite (it_at_valid K st i it HA). cbn [negb].
  destruct HA as (DA & SA). rewrite (dat_complete K st i _ DA). rewrite (di_key_ok i _ Hi DA).
  destruct (Nat.ltb_spec (leafl i) st) as [L|L].
  - f_equal. f_equal. lia.
  - cbn [bind]. rewrite (si_key_ok i _ Hi L SA). cbn [bind]. f_equal. apply key_join. auto.
Qed.

Hypothesis Hshift : strict_shift e = false.
Hypothesis Hlens : lens_ok (cf_type c) (cf_hlen c) (cf_rlen c).

Lemma di_suf_pos : forall i it, i < n -> leafl i < st -> dat i it ->
  exists pos, di_lastpos it = Ok pos /\
    d_getSuffixPos e (sf_dense f) pos (di_atprefix it) = Ok (wrap32 (N.of_nat (dsidx c K (leafl i) i))).
Proof.
  clear Hst2 HK Hmem Hshift. intros i it Hi L (V & H). replace (leafl i <? st) with true in H by lia.
  destruct H as (_ & _ & _ & HL & HA & (P1 & P2 & P3)). unfold di_lastpos. rewrite HL. cbn [pred_idx bind].
  rewrite (vget_ok _ _ (leafl i) 0) by lia. eexists. split; [reflexivity|].
  rewrite (proj1 (P3 (leafl i) ltac:(lia))), HA. pose proof (proj2 (anc_leaf K i Hi)) as LF.
  destruct (term (leafl i) i) eqn:ET.
  - destruct (term_leafl K HS HE i Hi ET) as (T1 & T2 & T3 & T4).
    rewrite (anc_self K (leafl i) (S i)) by lia.
    pose proof (next_item K i T1) as NI. pose proof (next_not_louds K i T1) as NL. pose proof (next_not_term K HS HE i T1) as NT.
    rewrite T2 in *.
    assert (SN : same_node (leafl i) i (S i)) by (intros x Hx; replace x with (S i) by lia; auto).
    assert (E : dpos (leafl i) (S i) = dp K (leafl i) i (lab (leafl i) (S i))).
    { unfold IterDMove.dpos, dp. rewrite (NN_same K (leafl i) i (S i)) by (auto; lia). reflexivity. }
    rewrite E. apply (d_suffix_term c K HS HB HE HNE HFF st (sf_dense f) e Hst1 HD); auto.
    + apply (lab_byte K HB HNE).
    + intros x X1 X2 X3 X4. destruct (lt_eq_lt_dec x (S i)) as [[Q|Q]|Q].
      * assert (x = i) by nlia. subst x. congruence.
      * subst. apply le_n.
      * apply Nat.lt_le_incl. apply (node_lab_lt K HS HE (leafl i) (S i) x Q X2); auto.
        apply (same_node_sub K _ i (S i) x X3); nlia.
  - rewrite (proj1 (anc_leaf K i Hi)).
    destruct (dpos_start K (leafl i) i (leaf_item K _ _ LF)) as (j & A & B & C & _ & ->).
    apply (d_suffix_leaf c K HS HB HE HNE HFF st (sf_dense f) e Hst1 HD); auto.
Qed.

Lemma si_suf_pos : forall i it, i < n -> st <= leafl i -> sat i it ->
  exists pos, si_lastpos it = Ok pos /\
    s_getSuffixPos e (sf_sparse f) pos = Ok (N.of_nat (ssidx c K st (leafl i) i)).
Proof.
  intros i it Hi L (V & HL & HA & P). unfold si_lastpos. rewrite HL.
  pose proof (pos_read K HNE st Hst1 Hst2 i (leafl i) it L (le_n _) Hi P) as PR.
  replace (S (leafl i) - st) with (S (leafl i - st)) by lia. cbn [pred_idx bind].
  eexists. split; [exact PR|]. rewrite (proj1 (anc_leaf K i Hi)).
  apply (s_suffix_pos c K HNE st (sf_sparse f) e Hst1 Hst2 HK Hmem); auto. apply anc_leaf. auto.
Qed.

Lemma kk_ok : forall i, i < n -> is_bytes (kk i).
Proof. intros i Hi. rewrite Forall_forall in HB. apply HB. apply nth_In. auto. Qed.

Lemma d_read : forall i, i < n -> leafl i < st -> has_real (cf_type c) = true ->
  sf_type (d_suf (sf_dense f)) = cf_type c /\ sf_rlen (d_suf (sf_dense f)) = cf_rlen c /\
  suf_readReal e (d_suf (sf_dense f)) (wrap32 (N.of_nat (dsidx c K (leafl i) i))) = Ok (real_read (kk i) (S (leafl i)) (cf_rlen c)).
Proof.
  intros i Hi L HR. destruct (leaf_idx c K HNE st Hst1 (leafl i) i L (proj2 (anc_leaf K i Hi))) as [A B].
  apply (readReal_spec c e (d_suf (sf_dense f)) _ _ (kk i) (S (leafl i)) Hshift Hlens (kk_ok i Hi) HR (dk_suf _ _ _ _ HD) A B).
Qed.

Lemma s_read : forall i, i < n -> st <= leafl i -> has_real (cf_type c) = true ->
  sf_type (s_suf (sf_sparse f)) = cf_type c /\ sf_rlen (s_suf (sf_sparse f)) = cf_rlen c /\
  suf_readReal e (s_suf (sf_sparse f)) (N.of_nat (ssidx c K st (leafl i) i)) = Ok (real_read (kk i) (S (leafl i)) (cf_rlen c)).
Proof.
  intros i Hi L HR.
  destruct (ssidx_nth c K HNE st e Hst1 Hst2 Hmem (leafl i) i L (proj2 (anc_leaf K i Hi))) as [A B].
  pose proof (sk_suf _ _ _ _ HK) as SR.
  pose proof (readReal_spec c e (s_suf (sf_sparse f)) _ _ (kk i) (S (leafl i)) Hshift Hlens (kk_ok i Hi) HR SR A B) as Q.
  assert (E : wrap32 (N.of_nat (ssidx c K st (leafl i) i)) = N.of_nat (ssidx c K st (leafl i) i)).
  { unfold suf_rel in SR. destruct (cf_type c) eqn:ET in SR.
    - rewrite ET in HR. discriminate.
    - eapply suf_idx_small; [apply SR|exact A].
    - eapply suf_idx_small; [apply SR|exact A].
    - eapply suf_idx_small; [apply SR|exact A]. }
  rewrite E in Q. exact Q.
Qed.

Lemma d_type : sf_type (d_suf (sf_dense f)) = cf_type c.
Proof.
  pose proof (dk_suf _ _ _ _ HD) as R. unfold suf_rel in R. destruct (cf_type c) eqn:ET in R; rewrite ET; try apply R.
  rewrite R. reflexivity.
Qed.
Lemma s_type : sf_type (s_suf (sf_sparse f)) = cf_type c.
Proof.
  pose proof (sk_suf _ _ _ _ HK) as R. unfold suf_rel in R. destruct (cf_type c) eqn:ET in R; rewrite ET; try apply R.
  rewrite R. reflexivity.
Qed.

Theorem it_suffix_ok : forall i it, i < n -> it_at i it ->
  it_getSuffix e f it = Ok (if has_real (cf_type c) then (cf_rlen c, Some (real_read (kk i) (S (leafl i)) (cf_rlen c)))
                            else (0, Some 0%N)).
Proof.
  intros i it Hi HA. unfold it_getSuffix. rewrite (it_at_valid K st i it HA). cbn [negb].
  destruct HA as (DA & SA). rewrite (dat_complete K st i _ DA).
  destruct (Nat.ltb_spec (leafl i) st) as [L|L].
  - unfold di_getSuffix. rewrite (dat_complete K st i _ DA). replace (leafl i <? st) with true by lia.
    rewrite d_type. cbn [andb]. destruct (has_real (cf_type c)) eqn:HR; [|reflexivity].
    destruct (di_suf_pos i _ Hi L DA) as (pos & E1 & E2). rewrite E1. cbn [bind]. rewrite E2. cbn [bind].
    destruct (d_read i Hi L HR) as (_ & R2 & ->). rewrite R2. reflexivity.
  - unfold si_getSuffix. rewrite s_type. destruct (has_real (cf_type c)) eqn:HR; [|reflexivity].
    destruct (si_suf_pos i _ Hi L SA) as (pos & E1 & E2). rewrite E1. cbn [bind]. rewrite E2. cbn [bind].
    destruct (s_read i Hi L HR) as (_ & R2 & ->). rewrite R2. reflexivity.
Qed.

Theorem it_keysuffix_ok : forall i it, i < n -> it_at i it ->
  it_getKeyWithSuffix e f it =
    if has_real (cf_type c) && (0 <? real_read (kk i) (S (leafl i)) (cf_rlen c))%N then
      b <- suffix_bytes e (real_read (kk i) (S (leafl i)) (cf_rlen c)) (cf_rlen c) ;;
      Ok (firstn (S (leafl i)) (kk i) ++ b, cf_rlen c mod 8)
    else Ok (firstn (S (leafl i)) (kk i), 0).
Proof.
  intros i it Hi HA. unfold it_getKeyWithSuffix. rewrite (it_at_valid K st i it HA). cbn [negb].
  pose proof (it_key_ok i it Hi HA) as GK. unfold it_getKey in GK. rewrite (it_at_valid K st i it HA) in GK. cbn [negb] in GK.
  destruct HA as (DA & SA). rewrite (dat_complete K st i _ DA) in *.
  destruct (Nat.ltb_spec (leafl i) st) as [L|L].
  - unfold di_getKeyWithSuffix. rewrite GK. cbn [bind]. rewrite (dat_complete K st i _ DA). replace (leafl i <? st) with true by lia.
    rewrite d_type. cbn [andb]. destruct (has_real (cf_type c)) eqn:HR; [|reflexivity]. cbn [andb].
    destruct (di_suf_pos i _ Hi L DA) as (pos & E1 & E2). rewrite E1. cbn [bind]. rewrite E2. cbn [bind].
    destruct (d_read i Hi L HR) as (_ & R2 & ->). rewrite R2. reflexivity.
  - unfold di_getKeyWithSuffix. rewrite (dat_complete K st i _ DA). replace (leafl i <? st) with false by lia. cbn [andb].
    clear GK. pose proof (key_join i L) as GK.
    rewrite (di_key_ok i _ Hi DA). cbn [bind]. unfold si_getKeyWithSuffix. rewrite (si_key_ok i _ Hi L SA). cbn [bind].
    rewrite s_type. destruct (has_real (cf_type c)) eqn:HR; cbn [andb].
    + destruct (si_suf_pos i _ Hi L SA) as (pos & E1 & E2). rewrite E1. cbn [bind]. rewrite E2. cbn [bind].
      destruct (s_read i Hi L HR) as (_ & R2 & ->). rewrite R2. cbn [bind].
      destruct (0 <? _)%N; [|cbn [bind]; rewrite GK; reflexivity].
      destruct (suffix_bytes _ _ _); cbn [bind]; [|reflexivity]. rewrite app_assoc, GK. reflexivity.
    + cbn [bind]. rewrite GK. reflexivity.
Qed.
End Key.
