(** A seek to a stored key, inclusive: where it ends and which flags it sets. *)
From Coq Require Import Arith List NArith ZArith Bool Lia ZifyN ZifyNat ZifyBool Sorting.Sorted.
From Verif Require Import Res Word Config BitFacts WordFacts Bitvector BitvectorFacts Rank Select
  RankSelectFacts LabelVector LabelFacts Suffix Spec SuffixFacts Builder KeyFacts Trie BuilderFacts
  DenseBuild StructFacts NodeFacts SparseFacts Dense Sparse DenseFacts LookupFacts
  Surf IterTrie IterDense IterDMove IterSparse IterFacts SeekOrder SuffixOrder SeekDense SeekSparse SeekFacts.
Import ListNotations.

Section LeftSeek.
Variables (c : config) (K : list bytes).
Notation kk := (kk K). Notation lo := (lo K). Notation hi := (hi K). Notation leafl := (leafl K).
Notation item := (item K). Notation child := (child K). Notation louds := (louds K).
Notation leaf := (leaf K). Notation lab := (lab K). Notation term := (term K). Notation anc := (anc K).
Notation height := (height K). Notation NN := (NN K). Notation same_node := (same_node K).
Notation range := (range K). Notation mt := (mt K).
Let n := length K.
Hypothesis HS : StronglySorted klt K.
Hypothesis HB : Forall is_bytes K.
Hypothesis HE : Forall (fun k => k <> []) K.
Hypothesis HNE : length K <> 0.
Hypothesis HFF : no_lone_ff K.
Variables (st : nat) (f : surf) (e : env).
Hypothesis Hst1 : 1 <= st.
Hypothesis Hst2 : S st <= height.
Hypothesis HD : dense_ok c K st (sf_dense f).
Hypothesis HK : sparse_ok c K st (sf_sparse f).
Hypothesis Hmem : strict_mem e = false.
Hypothesis Hshift : strict_shift e = false.
Hypothesis Hlens : lens_ok (cf_type c) (cf_hlen c) (cf_rlen c).
Notation spos := (spos K st). Notation slen := (slen K st).
Notation slpre := (slpre K st). Notation sat := (sat K st). Notation node_win := (node_win K st).
Notation lpre := (lpre K st). Notation dat := (dat K st). Notation dleft := (dleft K st).
Notation landed := (landed c K st). Notation it_at := (it_at K st). Notation sidle0 := (sidle0 K st).
Notation sidle := (sidle K st).
Notation dp := (dp K). Notation dpos := (dpos K).

Variables (s : nat).
Hypothesis Hs : s < n.
Notation q := (kk s).
Hypothesis Hend : forall l j, l < st -> louds l j = true -> firstn l q = firstn l (kk j) -> length q = l ->
  (asserts e = false \/ 1 <= l) /\ (term l j = true \/ leafl j < st).
Hypothesis Hclean : forall l j b N, st <= l -> louds l j = true -> firstn l q = firstn l (kk j) ->
  nth_error q l = Some b -> no_label K l j b -> node_win l j N ->
  spos l j + N <= slen /\
  (term l j = false \/ exists v w, j <= v /\ item l v = true /\ same_node l j v /\ term l v = false /\ b < lab l v /\
     v < w /\ item l w = true /\ same_node l j w).

Lemma mt_self : mt q s.
Proof. reflexivity. Qed.

Lemma key_bytes : is_bytes q.
Proof. rewrite Forall_forall in HB. apply HB, nth_In. exact Hs. Qed.

(** the place of the seek is the key itself *)
Lemma landed_self : forall i fp, landed q true i fp -> i = s.
Proof.
  intros i fp (A & B & C & _). fold n in A. destruct (lt_eq_lt_dec i s) as [[L|L]|L]; auto; exfalso.
  - specialize (C (Nat.lt_trans _ _ _ L Hs)).
    pose proof (sorted_nth K HS i s (conj L Hs)) as LT.
    destruct fp.
    + destruct C as [(M & _)|(_ & C & _)].
      * pose proof (mt_unique K HS HNE q i s (Nat.lt_trans _ _ _ L Hs) Hs M mt_self). clear - L H. lia.
      * exact (klt_irrefl _ (klt_trans _ _ _ LT C)).
    + destruct C as [C|(C & _)]; [exact (klt_irrefl _ (klt_trans _ _ _ LT C))|].
      rewrite C in LT. exact (klt_irrefl _ LT).
  - destruct (B s L) as [B1|[(_ & B1)|(_ & B1)]]; [exact (klt_irrefl _ B1)|discriminate|].
    rewrite cmp_refl in B1. discriminate.
Qed.

(** a key that goes on below the dense part is followed through it *)
Lemma d_gt_deep : st <= leafl s -> forall m l j it, l + m = st -> louds l j = true -> firstn l q = firstn l (kk j) ->
  lpre j l (di_key it) (di_pos it) -> di_len it = l ->
  exists it', d_gt_loop e (sf_dense f) q m l (NN l j) it = Ok (true, it') /\ di_search it' = false.
Proof.
  intros Hd. induction m as [|m IH]; intros l j it Hm HL HP P HLn; cbn [d_gt_loop].
  - eexists. split; [reflexivity|]. reflexivity.
  - assert (Hl : l < st) by (clear - Hm; lia).
    pose proof (leafl_le K s) as LQ. fold kk in LQ.
    assert (LQ' : l < length q) by (clear - LQ Hd Hl; lia).
    destruct (mt_find K HS HNE l j q s HL HP Hs mt_self) as (i & F1 & F2 & F3 & F4).
    pose proof (item_lt K l i F2) as Hi.
    assert (LI : l < length (kk i)).
    { apply (f_equal (@length nat)) in F4. rewrite !firstn_length in F4. clear - F4 LQ'. lia. }
    assert (TI : term l i = false) by (unfold Trie.term; apply Nat.leb_gt; exact LI).
    assert (NQ : nth_error q l = Some (lab l i)).
    { assert (E : nth_error (firstn (S l) (kk i)) l = nth_error (firstn (S l) q) l) by (rewrite F4; auto).
      rewrite !nth_error_firstn_lt in E by (clear; lia). rewrite <- E. unfold Trie.lab. apply nth_error_nth'. exact LI. }
    rewrite NQ.
    replace (NN l j * kNodeFanout + lab l i) with (dp l j (lab l i)) by (unfold DenseFacts.dp, kNodeFanout; clear; lia).
    assert (AS : anc l i = i) by (apply anc_self; apply item_spec in F2; clear - F2; lia).
    assert (ED : dp l j (lab l i) = dpos l (anc l i)).
    { rewrite AS. unfold IterDMove.dpos, DenseFacts.dp. rewrite (NN_same K l j i F1 F3). reflexivity. }
    destruct (di_append_ok K HB HNE st e Hst1 Hmem i l it) as (k & p & EA & PA); auto.
    { apply (lpre_item K HNE st l j i); auto. }
    rewrite <- ED in EA. rewrite EA. cbn [bind].
    rewrite (readLabel_true c K HS HB HE HNE HFF st (sf_dense f) e Hst1 HD l j i) by auto. cbn [bind negb].
    rewrite (readChild_spec c K HS HB HE HNE st (sf_dense f) e Hst1 HD l j i) by auto. cbn [bind].
    assert (CI : child l i = true).
    { destruct (child l i) eqn:EC; auto. exfalso.
      assert (HF : leaf l i = true).
      { unfold Trie.leaf. rewrite F2. unfold Trie.child in EC. rewrite F2 in EC. cbn [andb] in *. rewrite EC. reflexivity. }
      apply leaf_spec in HF. destruct HF as [_ HF].
      assert (i = s).
      { symmetry. apply (leafl_dist K HS HNE i s Hi Hs). rewrite <- HF. symmetry. exact F4. }
      subst i. clear - HF Hd Hl. lia. }
    rewrite CI. cbn [negb].
    rewrite (child_node c K HS HB HE HNE st (sf_dense f) e Hst1 HD l j i) by auto. cbn [bind].
    assert (EL : louds (S l) i = true) by (rewrite <- child_louds; auto).
    apply IH; auto. clear - Hm. lia.
Qed.

Lemma left_flags : exists it, moveToKeyGreaterThan e f q true = Ok it /\ it_at s it /\
  di_search (it_d it) = (leafl s <? st) /\ (leafl s < st -> si_len (it_s it) = 0).
Proof.
  unfold moveToKeyGreaterThan. destruct (fresh_new c K st f HD HK) as (F1 & F2 & F3 & F4 & F5).
  destruct (seek_d c K HS HB HE HNE HFF st f e Hst1 HD Hmem Hshift Hlens q true key_bytes Hend
    (it_d (iter_new f)) F1 F2 F3 F4) as (fp & d & E & R). cbn [iter_new it_d] in E |- *. rewrite E. cbn [bind].
  destruct R as [(V & LA)|[(i & Hi & DL & LO & LA)|(j & V & SE & LF & RI & LN & AP & SD & LJ & HP & HQ & P)]].
  - exfalso. apply landed_self in LA. clear - LA Hs. fold n in LA. lia.
  - apply landed_self in LA. subst i.
    pose proof DL as (DA & DL1 & DL2 & DL3).
    destruct (Nat.ltb_spec (leafl s) st) as [L|L].
    + rewrite (dat_valid K st _ _ DA). cbn [negb]. rewrite (dat_complete K st _ _ DA).
      replace (leafl s <? st) with true by (symmetry; apply Nat.ltb_lt; auto).
      eexists. split; [reflexivity|]. split; [|split; [exact DL3|intros _; apply F5]].
      split; [exact DA|].
      replace (leafl s <? st) with true by (symmetry; apply Nat.ltb_lt; auto).
      destruct F5 as (A & B & C & D & F). split; [exact A|]. split; [exact C|]. split; [exact D|]. split; [exact F|]. left. exact B.
    + exfalso.
      assert (N0 : NN 0 0 = 0).
      { unfold SparseFacts.NN. cbn [sm cn]. rewrite (louds_root K HNE). reflexivity. }
      destruct (d_gt_deep L st 0 0 (diter_new (sf_dense f))) as (it' & E' & G'); auto.
      { apply (louds_root K HNE). }
      { split; auto. split; auto. intros m Hm. inversion Hm. }
      rewrite N0 in E'. unfold d_moveToKeyGreaterThan in E. pose proof HD as [HH _ _ _ _ _]. rewrite HH in E.
      rewrite E' in E. inversion E; subst. congruence.
  - rewrite V. cbn [negb]. unfold di_complete. rewrite SE. cbn [andb negb].
    pose proof (louds_item K st j LJ) as HI. pose proof (item_lt K st j HI) as Hj.
    destruct (range_exists K HNE st j Hj) as (x & HR). pose proof HR as (R1 & R2 & R3 & R4).
    assert (HSJ : j <= s).
    { destruct (le_lt_dec j s) as [|G]; auto. exfalso. exact (range_before K HS HNE st j x s LJ HR G HP). }
    assert (HSX : s <= x).
    { destruct (le_lt_dec s x) as [|G]; auto. exfalso. exact (range_after K HS HNE st j x s HR G Hs HP). }
    assert (LI : st <= leafl s).
    { destruct (Nat.eq_dec s j) as [E1|NE].
      - rewrite E1. apply item_spec in HI. unfold Trie.leafl. clear - HI. lia.
      - pose proof (lo_le K s) as LO. specialize (R3 s ltac:(clear - HSJ HSX NE; lia)). clear - LO R3. lia. }
    assert (DAT : dat s d).
    { split; auto. replace (leafl s <? st) with false by (symmetry; apply Nat.ltb_ge; auto).
      unfold di_complete. rewrite SE. split; auto. split; auto. split; auto.
      apply (lpre_range K HNE st st j x s); auto. }
    pose proof F5 as (I1 & I2 & I3 & I4 & I5).
    set (it := it_setFp (it_setD (iter_new f) d) fp).
    destruct (s_gt_spec c K HS HB HE HNE st (sf_sparse f) e Hst1 Hst2 HK Hmem Hshift Hlens q true key_bytes Hclean j x HR
      (skipn st q) st j (it_s (passToSparse it))) as (fp' & s' & E1 & G); auto.
    { unfold passToSparse. cbn [it_s it]. scbn. rewrite Nat.sub_diag. split; auto. split; auto. intros m Hm. inversion Hm. }
    { unfold passToSparse. cbn [it_s it]. scbn. rewrite Nat.sub_diag. auto. }
    assert (EM : s_moveToKeyGreaterThan e (sf_sparse f) q true (it_s (passToSparse it)) = Ok (fp', s')).
    { unfold s_moveToKeyGreaterThan, passToSparse. cbn [it_s]. scbn. change (it_d it) with d. rewrite SD.
      rewrite (s_first_pos c K HNE st (sf_sparse f) e Hst1 Hst2 HK st j) by auto. cbn [bind].
      rewrite (sk_st _ _ _ _ HK). unfold passToSparse in E1. cbn [it_s] in E1. change (it_d it) with d in E1. revert E1. scbn. rewrite SD. auto. }
    cbv zeta. fold it. rewrite EM. cbn [bind].
    destruct G as [(i & Hi & SA & LA)|(ID & LA)].
    + apply landed_self in LA. subst i. rewrite (proj1 SA). cbn [negb]. eexists. split; [reflexivity|].
      cbn [it_setFp it_setS passToSparse it_d it_s it it_setD].
      replace (leafl s <? st) with false by (symmetry; apply Nat.ltb_ge; auto).
      split; [|split; [exact SE|intros X; clear - X LI; lia]].
      split; [exact DAT|].
      replace (leafl s <? st) with false by (symmetry; apply Nat.ltb_ge; auto). exact SA.
    + exfalso. apply landed_self in LA. clear - LA HSX. lia.
Qed.
End LeftSeek.
