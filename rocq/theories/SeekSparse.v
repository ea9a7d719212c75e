(** Seeks in the sparse part: moveToKeyGreaterThan of LoudsSparse. *)
From Coq Require Import Arith List NArith ZArith Bool Lia ZifyN ZifyNat ZifyBool Sorting.Sorted.
From Verif Require Import Res Word Config BitFacts WordFacts Bitvector BitvectorFacts Rank Select
  RankSelectFacts LabelVector LabelFacts Suffix Spec SuffixFacts Builder KeyFacts Trie BuilderFacts
  DenseBuild StructFacts NodeFacts SparseFacts Dense Sparse DenseFacts LookupFacts
  Surf IterTrie IterDense IterDMove IterSparse IterFacts SeekOrder SuffixOrder SeekDense.
Import ListNotations.

Section SearchTwo.
Variables (e : env) (lv : labelvec) (r : nat -> nat) (M : nat).
Hypothesis HR : forall i, i < M -> lv_read e lv i = Ok (r i).

(** the window is one label too long; with two labels above the target the
    extra one is never looked at *)
Lemma binary_gt_two : forall t p n v, p + n <= M -> p <= v -> v + 2 < p + n ->
  (forall y, p <= y < v -> r y < t) -> (forall y, v <= y < p + n - 1 -> t < r y) ->
  forall fuel l h, h < l + fuel -> p <= l -> l <= v -> v <= h -> h <= p + n ->
  binary_gt_loop e fuel lv t p n l h = Ok (true, v).
Proof.
  intros t p n v HM H1 H2 HA HB. induction fuel as [|f IH]; intros l h Hf L1 L2 L3 L4; cbn [binary_gt_loop].
  { lia. }
  destruct (Nat.ltb_spec l h) as [L|L].
  - assert (HMid : l <= (l + h) / 2 < h).
    { pose proof (Nat.div_mod (l + h) 2 ltac:(lia)). pose proof (Nat.mod_upper_bound (l + h) 2 ltac:(lia)). lia. }
    assert (HM2 : (l + h) / 2 < p + n - 1) by (apply Nat.div_lt_upper_bound; lia).
    set (m := (l + h) / 2) in *. rewrite HR by lia. cbn [bind].
    destruct (le_lt_dec v m) as [G|G].
    + specialize (HB m ltac:(lia)). replace (t <? r m) with true by lia. apply IH; lia.
    + specialize (HA m ltac:(lia)). replace (t <? r m) with false by lia. replace (t =? r m) with false by lia.
      apply IH; lia.
  - assert (l = v) by lia. subst l. replace (v <? p + n) with true by lia. reflexivity.
Qed.

Lemma search_gt_two : forall t p n v, p + n <= M -> p <= v -> v + 2 < p + n -> r p <> 255 ->
  (forall y, p <= y < v -> r y < t) -> (forall y, v <= y < p + n - 1 -> t < r y) ->
  lv_searchGreaterThan e lv t p n = Ok (true, v).
Proof.
  intros t p n v HM H1 H2 H3 HA HB. unfold lv_searchGreaterThan.
  replace (1 <? n) with true by lia. rewrite HR by lia. cbn [bind].
  change kTerminator with 255. replace (r p =? 255) with false by lia. cbv zeta.
  replace (n <? 3) with false by lia. unfold binarySearchGreaterThan. apply binary_gt_two; auto; lia.
Qed.
End SearchTwo.

Section SSeek.
Variables (c : config) (K : list bytes).
Notation kk := (kk K). Notation lo := (lo K). Notation hi := (hi K). Notation leafl := (leafl K).
Notation item := (item K). Notation child := (child K). Notation louds := (louds K).
Notation leaf := (leaf K). Notation lab := (lab K). Notation term := (term K). Notation anc := (anc K).
Notation height := (height K). Notation NN := (NN K). Notation same_node := (same_node K).
Notation range := (range K). Notation mt := (mt K).
Let n := length K.
Hypothesis HS : StronglySorted klt K.
Hypothesis HB : Forall is_bytes K.
Hypothesis HE : Forall (fun k => k <> []) K.
Hypothesis HNE : length K <> 0.
Variables (st : nat) (s : sparse) (e : env).
Context {lb : nat} {Hlb : wide K lb}.
Hypothesis Hst1 : lb <= st.
Hypothesis Hst2 : S st <= height.
Hypothesis HK : sparse_ok c K st s.
Hypothesis Hmem : strict_mem e = false.
Hypothesis Hshift : strict_shift e = false.
Hypothesis Hlens : lens_ok (cf_type c) (cf_hlen c) (cf_rlen c).
Notation spos := (spos K st). Notation slen := (slen K st).
Notation slpre := (slpre K st). Notation sat := (sat K st). Notation node_win := (node_win K st).
Notation landed := (landed c K st).

Lemma slpre_range : forall l j x y len k p, range l j x -> j <= y <= x -> st + len <= l -> slpre j len k p -> slpre y len k p.
Proof.
  intros l j x y len k p HR H HL (A & B & C). split; auto. split; auto. intros m Hm.
  rewrite (anc_range K HNE l j x y (st + m) HR H) by (clear - Hm HL; lia). auto.
Qed.

(** the last label of a node *)
Lemma last_item : forall l j x N, st <= l -> louds l j = true -> range l j x -> node_win l j N -> spos l j + N <= slen ->
  spos l (anc l x) = spos l j + N - 1 /\ j <= anc l x.
Proof.
  intros l j x N Hl HL HR HW HN. pose proof (louds_item K l j HL) as HI. pose proof (w_pos _ _ _ _ _ HW) as WP.
  destruct (w_in _ _ _ _ _ HW (spos l j + N - 1) ltac:(nlia) ltac:(nlia) ltac:(nlia)) as (i & A & B & C & D).
  assert (E : anc l x = i).
  { pose proof (node_in_range K HNE l j x i HR A B C) as IX. apply anc_unique; auto.
    - apply item_spec in B. clear - B. nlia.
    - intros y Hy. destruct HR as (R1 & R2 & R3 & R4). pose proof (R3 y ltac:(clear - A Hy; nlia)) as LY.
      destruct (Nat.eq_dec (lo y) l) as [EQ|NE]; [|clear - LY NE; nlia]. exfalso.
      assert (IY : item l y = true).
      { apply item_spec. pose proof (lo_le K y) as LL. unfold n in *. clear - EQ LL Hy R2. nlia. }
      assert (SN : same_node l j y).
      { intros z Hz. specialize (R3 z ltac:(clear - Hz Hy; nlia)). destruct (louds l z) eqn:EZ; auto.
        apply louds_spec in EZ. clear - EZ R3 Hz Hl Hst1. nlia. }
      pose proof (w_all _ _ _ _ _ HW y ltac:(clear - A Hy; nlia) IY SN) as WA.
      pose proof (spos_mono K HNE st Hst1 Hst2 l i y B ltac:(clear - Hy; nlia)) as SM. nlia. }
  rewrite E. split; auto.
Qed.

(** a node with a terminator, two labels above the byte *)
Lemma search_gt_term : forall l j N b U w, st <= l -> louds l j = true -> node_win l j N -> spos l j + N <= slen ->
  term l j = true -> no_label K l j b ->
  j <= U -> item l U = true -> same_node l j U -> term l U = false -> b < lab l U ->
  (forall i, j <= i -> item l i = true -> same_node l j i -> term l i = false -> b < lab l i -> lab l U <= lab l i) ->
  U < w -> item l w = true -> same_node l j w ->
  lv_searchGreaterThan e (s_labels s) b (S (spos l j)) N = Ok (true, spos l U).
Proof.
  intros l j N b U w Hl HL HW HN HT NO U1 U2 U3 U4 U5 U6 W1 W2 W3.
  pose proof (louds_item K l j HL) as HI.
  assert (JU : j < U) by (destruct (Nat.eq_dec j U) as [->|]; [congruence|nlia]).
  pose proof (spos_mono K HNE st Hst1 Hst2 l j U HI JU) as S1.
  pose proof (spos_mono K HNE st Hst1 Hst2 l U w U2 W1) as S2.
  pose proof (w_all _ _ _ _ _ HW w ltac:(clear - U1 W1; nlia) W2 W3) as S3.
  assert (WT : term l w = false).
  { apply (not_first_not_term K HS HE); auto. apply W3. clear - JU W1; nlia. }
  assert (G : forall y, S (spos l j) <= y < spos l j + N ->
     exists i, j <= i /\ item l i = true /\ same_node l j i /\ term l i = false /\ y = spos l i /\ rd s e y = lab l i).
  { intros y Hy. pose proof (win_item K HS HE HNE st e Hst1 Hst2 Hmem l j N Hl HL HW y) as WI. rewrite HT in WI.
    destruct (WI ltac:(nlia) ltac:(nlia) ltac:(nlia)) as (i & A1 & A2 & A3 & A4 & A5).
    exists i. repeat (split; auto). rewrite A5. apply (rd_item c K HNE st s e Hst1 Hst2 HK); auto. }
  assert (MO : forall i i', item l i' = true -> spos l i < spos l i' -> i < i').
  { intros i i' X Y. destruct (lt_dec i i') as [|Z]; auto. exfalso. destruct (Nat.eq_dec i i') as [->|NE]; [nlia|].
    pose proof (spos_mono K HNE st Hst1 Hst2 l i' i X ltac:(clear - Z NE; nlia)). nlia. }
  apply (search_gt_two e (s_labels s) (rd s e) (slen + 80)
     (rd_ok c K HNE st s e Hst1 Hst2 HK Hmem)); try nlia.
  - destruct (G (S (spos l j)) ltac:(nlia)) as (i & A1 & A2 & A3 & A4 & A5 & A6). rewrite A6.
    assert (IW : i < w) by (apply MO; auto; nlia).
    pose proof (node_lab_lt K HS HE l i w IW W2 (same_node_sub K l j i w W3 A1 ltac:(clear - IW; nlia)) A4) as LL.
    pose proof (lab_byte K HB HNE l w). nlia.
  - intros y Hy. destruct (G y ltac:(nlia)) as (i & A1 & A2 & A3 & A4 & A5 & A6). rewrite A6.
    assert (IU : i < U) by (apply MO; auto; nlia).
    pose proof (node_lab_lt K HS HE l i U IU U2 (same_node_sub K l j i U U3 A1 ltac:(clear - IU; nlia)) A4) as LL.
    destruct (lt_dec b (lab l i)) as [X|X]; [specialize (U6 i A1 A2 A3 A4 X); nlia|].
    specialize (NO i A1 A2 A3 A4). nlia.
  - intros y Hy. destruct (G y ltac:(nlia)) as (i & A1 & A2 & A3 & A4 & A5 & A6). rewrite A6.
    destruct (Nat.eq_dec i U) as [->|NE]; auto.
    assert (IU : U < i) by (destruct (lt_dec U i) as [|X]; auto; exfalso;
      pose proof (spos_mono K HNE st Hst1 Hst2 l i U A2 ltac:(clear - X NE; nlia)); nlia).
    pose proof (node_lab_lt K HS HE l U i IU A2 (same_node_sub K l j U i A3 U1 ltac:(clear - IU; nlia)) U4) as LL. nlia.
Qed.

Variables (q : bytes) (incl : bool).
Hypothesis Hq : is_bytes q.
(** where the query leaves the trie, the node's size is known, and the node has
    no terminator or two labels above the byte *)
Hypothesis Hclean : forall l j b N, st <= l -> louds l j = true -> firstn l q = firstn l (kk j) ->
  nth_error q l = Some b -> no_label K l j b -> node_win l j N ->
  spos l j + N <= slen /\
  (term l j = false \/ exists v w, j <= v /\ item l v = true /\ same_node l j v /\ term l v = false /\ b < lab l v /\
     v < w /\ item l w = true /\ same_node l j w).
(** the keys below the start node *)
Variables (j0 x0 : nat).
Hypothesis HR0 : range st j0 x0.

Definition sidle0 (it : siter) : Prop :=
  si_valid it = false /\ si_len it = 0 /\ si_atterm it = false /\
  length (si_key it) = height - st /\ length (si_pos it) = height - st.

Definition s_result (fp : bool) (it : siter) : Prop :=
  (exists i, j0 <= i <= x0 /\ sat i it /\ landed q incl i fp) \/
  (sidle0 it /\ landed q incl (S x0) fp).

Lemma next_in : forall x, j0 <= x <= x0 -> (S x <? n) && (st <=? lo (S x)) = (x <? x0).
Proof.
  intros x Hx. destruct HR0 as (A & B & C & D). fold n in B, D. destruct (Nat.ltb_spec x x0) as [L|L].
  - specialize (C (S x) ltac:(clear - Hx L; lia)). apply andb_true_intro. split; [apply Nat.ltb_lt|apply Nat.leb_le]; lia.
  - assert (x = x0) by (clear - Hx L; lia). subst x. apply andb_false_iff.
    destruct D as [D|D]; [left; apply Nat.ltb_ge; clear - D; lia|right; apply Nat.leb_gt; auto].
Qed.

Lemma sub_range : forall l j x, st <= l -> j0 <= j <= x0 -> range l j x -> x <= x0.
Proof.
  intros l j x Hl Hj (A & B & C & D). destruct HR0 as (A0 & B0 & C0 & D0).
  destruct (le_lt_dec x x0) as [|G]; auto. exfalso. specialize (C (S x0) ltac:(clear - Hj G; lia)).
  destruct D0 as [D0|D0]; clear - D0 B G C Hl; lia.
Qed.

(** the end of ++ from the last sparse position on the path of key [x] *)
Lemma after_next : forall x len it fp, j0 <= x <= x0 -> st + len <= S (leafl x) ->
  slpre x len (si_key it) (si_pos it) -> si_atterm it = false -> (S x < n -> lo (S x) < st + len) ->
  landed q incl (S x) fp ->
  exists it', si_next_loop e s it len = Ok it' /\ s_result fp it'.
Proof.
  intros x len it fp Hx HL P HA HN LA. assert (Hxn : x < n) by (destruct HR0 as (_ & B & _); fold n in B; clear - B Hx; lia).
  destruct (snext_loop_ok c K HS HB HE HNE st s e Hst1 Hst2 HK x Hxn len it HL P HA HN) as (it' & E & G).
  exists it'. split; auto. fold n in G. rewrite (next_in x Hx) in G.
  destruct (Nat.ltb_spec x x0) as [L|L].
  - left. exists (S x). split; [clear - Hx L; lia|]. auto.
  - right. assert (x = x0) by (clear - Hx L; lia). subst x. auto.
Qed.

(** the query reaches a leaf *)
Lemma s_leaf_cmp : forall l i, st <= l -> leaf l i = true ->
  (sp <- s_getSuffixPos e s (spos l i) ;; suf_compare e (s_suf s) sp q (l + 1)) =
    Ok (cmp_val c (kk i) q (S (leafl i))).
Proof.
  intros l i Hl HF.
  rewrite (s_suffix_pos c K HNE st s e Hst1 Hst2 HK Hmem l i Hl HF). cbn [bind].
  destruct (ssidx_nth c K HNE st e Hst1 Hst2 Hmem l i Hl HF) as [A B].
  apply leaf_spec in HF. destruct HF as [Hi ->]. rewrite Nat.add_1_r.
  assert (KB : is_bytes (kk i)) by (rewrite Forall_forall in HB; apply HB; apply nth_In; auto).
  pose proof (sk_suf _ _ _ _ HK) as SR.
  pose proof (suf_compare_spec c e (s_suf s) _ (ssidx c K st (leafl i) i) (kk i) q q (S (leafl i)) (S (leafl i)) Hshift Hlens
     KB Hq SR A B eq_refl) as Q.
  destruct (cf_type c) eqn:ET in |- *.
  - unfold suf_rel in SR. rewrite ET in SR. rewrite SR in *. rewrite <- Q.
    assert (G : forall x l, suf_compare e suf_empty x q l = Ok kCouldBePositive)
      by (intros; unfold suf_compare; destruct (_ <=? _)%N; reflexivity).
    rewrite !G. reflexivity.
  - rewrite <- Q. f_equal. symmetry. unfold suf_rel in SR. rewrite ET in SR. eapply suf_idx_small; [apply SR|exact A].
  - rewrite <- Q. f_equal. symmetry. unfold suf_rel in SR. rewrite ET in SR. eapply suf_idx_small; [apply SR|exact A].
  - rewrite <- Q. f_equal. symmetry. unfold suf_rel in SR. rewrite ET in SR. eapply suf_idx_small; [apply SR|exact A].
Qed.

Lemma s_leaf : forall l i it, st <= l -> j0 <= i <= x0 -> leaf l i = true -> term l i = false -> mt q i ->
  slpre i (S l - st) (si_key it) (si_pos it) -> si_len it = S l - st -> si_atterm it = false ->
  exists fp it', s_compareSuffixGreaterThan e s (spos l i) q (l + 1) it = Ok (fp, it') /\ s_result fp it'.
Proof.
  intros l i it Hl Hi HF HT M P HLn HA. unfold s_compareSuffixGreaterThan.
  pose proof (s_leaf_cmp l i Hl HF) as CM. apply leaf_spec in HF. destruct HF as [Hin EL]. fold n in Hin.
  destruct (s_getSuffixPos e s (spos l i)) as [sp|]; cbn [bind] in CM |- *; [|discriminate].
  rewrite CM. cbn [bind].
  destruct (Z.eq_dec (cmp_val c (kk i) q (S (leafl i))) (-1)) as [Z1|Z1].
  - rewrite Z1. change ((-1 =? kCouldBePositive)%Z) with false. change ((-1 <? 0)%Z) with true. cbn [negb andb].
    assert (EN : si_next e s it = si_next_loop e s (si_setTerm it false) (S l - st)).
    { unfold si_next. rewrite HLn. replace (S l - st) with (S (l - st)) by (clear - Hl; lia).
      rewrite massert_ok by reflexivity. cbn [bind pred_idx]. reflexivity. }
    rewrite EN.
    destruct (after_next i (S l - st) (si_setTerm it false) false Hi) as (it' & E & G); auto.
    { rewrite <- EL. clear - Hl. lia. }
    { intros HH. pose proof (leafl_next K i HH) as LN. clear - LN EL Hl. lia. }
    { apply to_landed_after; auto. }
    rewrite E. cbn [bind]. exists false, it'. auto.
  - replace (negb (cmp_val c (kk i) q (S (leafl i)) =? kCouldBePositive)%Z && (cmp_val c (kk i) q (S (leafl i)) <? 0)%Z) with false.
    2: { destruct (cmp_cases c (kk i) q (S (leafl i))) as [CC|[CC|CC]]; [rewrite CC; reflexivity|contradiction|rewrite CC; reflexivity]. }
    exists true. eexists. split; [reflexivity|]. left. exists i. split; auto. split.
    + scbn. rewrite HLn, HA. apply sat_intro; rewrite <- ?EL; auto.
    + apply to_landed_mt; auto. rewrite <- EL, HT. discriminate.
Qed.

(** the query ends at a node *)
Lemma s_end : forall l j it, st <= l -> j0 <= j <= x0 -> louds l j = true -> firstn l q = firstn l (kk j) -> length q = l ->
  slpre j (l - st) (si_key it) (si_pos it) -> si_len it = l - st -> si_atterm it = false ->
  (l = st -> si_start it = NN st j) ->
  exists it', s_gt_end e s incl (spos l j) it = Ok (false, it') /\ s_result false it'.
Proof.
  intros l j it Hl Hj HL HP LQ P HLn HA HSt. pose proof (louds_item K l j HL) as HI. pose proof (item_lt K l j HI) as Hjn.
  fold n in Hjn. unfold s_gt_end.
  assert (AS : anc l j = j) by (apply anc_self; apply item_spec in HI; clear - HI; lia).
  assert (LJ : l <= leafl j) by (apply item_spec in HI; unfold Trie.leafl; clear - HI; lia).
  rewrite (s_lab_read c K HNE st s e Hst1 Hst2 HK l j Hl HI). cbn [bind].
  rewrite (s_child_read c K HNE st s e Hst1 Hst2 HK l j Hl HI). cbn [bind]. change kTerminator with 255.
  destruct (term l j) eqn:ET.
  - destruct (end_mt K HS HE HNE l j q HL HP LQ ET) as [M E].
    rewrite (lab_term K l j ET). cbn [Nat.eqb].
    rewrite (term_not_child K HS HE l j HI ET). cbn [negb].
    assert (LE : s_isEndofNode e s (spos l j) = Ok (negb (term l j))).
    { rewrite <- E. apply (leaf_end c K HS HB HE HNE st s e Hst1 Hst2 HK j Hjn); rewrite E; auto. apply lab_term. auto. }
    rewrite LE, ET. cbn [bind negb].
    destruct (si_append_ok K HNE st e Hst1 Hst2 j l it) as (k & p & EA & PA); auto.
    rewrite AS, (lab_term K l j ET) in EA. rewrite EA. cbn [bind].
    assert (EQ : kk j = q).
    { symmetry. destruct (term_first K HS HE l j HI ET) as (_ & _ & X & _).
      rewrite firstn_all2 in HP by (clear - LQ; lia). rewrite firstn_all2 in HP by (clear - X; lia). auto. }
    destruct incl eqn:EI; cbn [negb bind].
    + eexists. split; [reflexivity|]. left. exists j. split; auto. split.
      * scbn. apply sat_intro; rewrite ?E; auto.
      * split; [fold n; clear - Hjn; lia|]. split; [|split; [|split]].
        -- intros x Hx. left. apply (ext_before K HS HNE l j); auto.
        -- intros _. right. auto.
        -- intros x Hx MX. exfalso. exact (end_no_mt K HS HNE q l j x HL HP LQ Hx MX).
        -- intros _. split; [intros _; rewrite E, LQ; auto|]. intros LL. exfalso. clear - LL LQ Hl. lia.
    + destruct (term_next K HS HE l j HI ET) as (A & B). pose proof (item_lt K l (S j) A) as Hjn'.
      assert (LO : lo (S j) = l).
      { apply item_spec in A. destruct A as (A1 & A2). destruct (Nat.eq_dec (lo (S j)) l) as [|NE]; auto. exfalso.
        assert (louds l (S j) = true); [|congruence]. apply louds_spec. clear - A1 A2 NE. lia. }
      assert (EN : si_next e s (si_setTerm (si_setLen (si_setKP it k p) (S l - st)) true) =
         si_next_loop e s (si_setTerm (si_setLen (si_setKP it k p) (S l - st)) false) (S l - st)).
      { unfold si_next. scbn. replace (S l - st) with (S (l - st)) by (clear - Hl; lia).
        rewrite massert_ok by reflexivity. cbn [bind pred_idx]. reflexivity. }
      rewrite EN.
      destruct (snext_loop_ok c K HS HB HE HNE st s e Hst1 Hst2 HK j Hjn (S l - st) (si_setTerm (si_setLen (si_setKP it k p) (S l - st)) false))
        as (it' & E' & G); auto.
      { rewrite E. clear - Hl. lia. }
      { intros _. rewrite LO. clear - Hl. lia. }
      rewrite E'. cbn [bind]. fold n in G, Hjn'.
      replace ((S j <? n) && (st <=? lo (S j))) with true in G
        by (symmetry; apply andb_true_intro; split; [apply Nat.ltb_lt|apply Nat.leb_le]; auto; rewrite LO; auto).
      eexists. split; [reflexivity|]. left. exists (S j). split.
      { pose proof (next_in j Hj) as NI.
        replace ((S j <? n) && (st <=? lo (S j))) with true in NI
          by (symmetry; apply andb_true_intro; split; [apply Nat.ltb_lt|apply Nat.leb_le]; auto; rewrite LO; auto).
        symmetry in NI. apply Nat.ltb_lt in NI. clear - NI Hj. lia. }
      split.
      * destruct G as (_ & G1 & G2 & G3). split; [reflexivity|]. split; [exact G1|]. split; [exact G2|exact G3].
      * split; [auto|]. split; [|split; [|split]].
        -- intros x Hx. destruct (Nat.eq_dec x j) as [->|NE]; [right; auto|].
           left. apply (ext_before K HS HNE l j); auto. clear - Hx NE. lia.
        -- intros _. left. rewrite <- EQ. apply (sorted_nth K HS); auto.
        -- intros x Hx MX. right. destruct (Nat.eq_dec x j) as [->|NE]; [rewrite E, LQ; auto|]. exfalso.
           assert (Hx' : x < j) by (clear - Hx NE; lia). exact (end_no_mt K HS HNE q l j x HL HP LQ Hx' MX).
        -- intros _. split; [intros MX; exfalso; assert (S j = j) by (apply (mt_unique K HS HNE q); auto); clear - H; lia|].
           intros LL. exfalso. clear - LL LQ Hl. lia.
  - assert (F : (if lab l j =? 255 then if negb (child l j) then b <- s_isEndofNode e s (spos l j) ;; Ok (negb b) else Ok false else Ok false)
       = Ok false).
    { destruct (Nat.eqb_spec (lab l j) 255) as [E|E]; [|reflexivity].
      destruct (child l j) eqn:EC; [reflexivity|]. exfalso.
      assert (HF : leaf l j = true).
      { unfold Trie.leaf. rewrite HI. unfold Trie.child in EC. rewrite HI in EC. cbn [andb] in *. rewrite EC. reflexivity. }
      destruct (node_two' K l j (wide_level K st l Hst1 Hl) HL HF) as [X1 X2].
      assert (term l j = true); [|congruence].
      apply (term_of_255 K HS HB) with (S j); auto.
      intros m Hm. replace m with (S j) by (clear - Hm; lia). auto. }
    rewrite F. cbn [bind].
    assert (G : exists it', si_moveToLeftMostKey e s it = Ok it' /\ sat j it').
    { pose proof P as (P1 & P2 & _). apply louds_spec in HL as HL'. destruct (Nat.eq_dec l st) as [E|E].
      - apply (sstart_left_node c K HS HB HE HNE st s e Hst1 Hst2 HK); auto; rewrite ?HLn; try (clear - HL' LJ Hst1 E; lia). rewrite <- E. exact HL.
      - apply (smove_left_ok c K HS HB HE HNE st s e Hst1 Hst2 HK j (l - 1)); auto; try (clear - HL' LJ Hl E; lia).
        + replace (S (l - 1) - st) with (l - st) by (clear - Hl E; lia). auto.
        + rewrite HLn. clear - Hl E. lia. }
    destruct G as (it' & E' & G). rewrite E'. cbn [bind]. exists it'. split; auto. left. exists j. split; auto. split; auto.
    split; [fold n; clear - Hjn; lia|]. split; [|split; [|split]].
    + intros x Hx. left. apply (ext_before K HS HNE l j); auto.
    + intros _. left. apply (ext_lt K HNE l j); auto.
    + intros x Hx MX. exfalso. exact (end_no_mt K HS HNE q l j x HL HP LQ Hx MX).
    + intros _. split; [intros MX; exfalso; exact (end_no_mt_self K HNE q l j HL HP LQ ET MX)|].
      intros LL. exfalso. clear - LL LQ Hl. lia.
Qed.

(** the query leaves the trie at a node *)
Lemma s_append_left : forall l j x U it, st <= l -> j0 <= j <= x0 -> louds l j = true -> range l j x -> j <= U <= x ->
  item l U = true -> slpre j (l - st) (si_key it) (si_pos it) -> si_len it = l - st -> si_atterm it = false ->
  landed q incl U false ->
  exists it', (it <- si_append e s it (spos l U) ;; si_moveToLeftMostKey e s it) = Ok it' /\ s_result false it'.
Proof.
  intros l j x U it Hl Hj HL HR HU UI P HLn HA LA. pose proof (item_lt K l U UI) as Hun.
  assert (UR : U <= x0) by (pose proof (sub_range l j x Hl Hj HR) as SR; clear - SR HU; lia).
  apply item_spec in UI as UI'.
  assert (AU : anc l U = U) by (apply anc_self; clear - UI'; lia).
  unfold si_append. rewrite (s_lab_read c K HNE st s e Hst1 Hst2 HK l U Hl UI). cbn [bind].
  destruct (si_append_ok K HNE st e Hst1 Hst2 U l it) as (k & p & EA & PA); auto.
  { unfold Trie.leafl. clear - UI'. lia. }
  { apply (slpre_range l j x U); auto. clear - Hl. lia. }
  rewrite AU in EA. rewrite EA. cbn [bind].
  destruct (smove_left_ok c K HS HB HE HNE st s e Hst1 Hst2 HK U l (si_setLen (si_setKP it k p) (S l - st))) as (it' & E & G); auto.
  { clear - UI'. lia. }
  { unfold Trie.leafl. clear - UI'. lia. }
  exists it'. split; auto. left. exists U. split; [clear - Hj HU UR; lia|]. auto.
Qed.

Lemma s_miss : forall l j b N it, st <= l -> j0 <= j <= x0 -> louds l j = true -> firstn l q = firstn l (kk j) ->
  nth_error q l = Some b -> no_label K l j b -> node_win l j N ->
  slpre j (l - st) (si_key it) (si_pos it) -> si_len it = l - st -> si_atterm it = false ->
  lv_search e (s_labels s) b (spos l j) N = Ok (false, if term l j then S (spos l j) else spos l j) /\
  exists it', s_moveToLeftInNextSubtrie e s (if term l j then S (spos l j) else spos l j) N b it = Ok it' /\ s_result false it'.
Proof.
  intros l j b N it Hl Hj HL HP NQ NO HW P HLn HA.
  destruct (Hclean l j b N Hl HL HP NQ NO HW) as (CN & CT).
  pose proof (louds_item K l j HL) as HI. pose proof (item_lt K l j HI) as Hjn.
  split.
  { destruct (search_none c K HS HB HE HNE st s e Hst1 Hst2 HK Hmem l j N Hl HL HW b NO) as [E|(E2 & x & E3 & E4 & E6 & E5)]; auto.
    exfalso. rewrite (search_ff c K HS HB HE HNE st s e Hst1 Hst2 HK Hmem l j N Hl HL HW b) in E5.
    match type of E5 with context [ff ?a ?b ?c] => destruct (ff a b c) as [y|] eqn:EF end; cbn [res_of] in E5; [|discriminate].
    injection E5 as E5. apply ff_some in EF. destruct EF as (F1 & _).
    pose proof (w_pos _ _ _ _ _ HW) as WP. clear - E5 E3 F1 CN WP. destruct (Trie.term K l j); lia. }
  destruct (range_exists K HNE l j Hjn) as (x & HR). destruct (first_above_exists K HNE q) as (U & HU).
  pose proof (step_none K HS HNE l j q b HL HP NQ NO) as NS.
  pose proof (to_landed_above c K st q incl U HU NS (miss_no_prefix K HS q l j b HL HP NQ NO)) as LU.
  unfold s_moveToLeftInNextSubtrie.
  destruct (miss_above K HS HNE l j x b q U HL HR HP NQ NO HU) as [(UX & LL)|(UR & UI & US & UT & UB & UM)].
  - destruct CT as [CT|(v & w & V1 & V2 & V3 & V4 & V5 & _)]; [|exfalso; specialize (LL v V1 V2 V3 V4); clear - LL V5; lia].
    rewrite CT.
    pose proof (search_gt_none c K HS HB HE HNE st s e Hst1 Hst2 HK Hmem l j N Hl HL HW b CN) as SG.
    rewrite CT in SG. rewrite SG; [cbn [bind negb]|intros i' A1 A2 A3 A4; specialize (LL i' A1 A2 A3 A4); clear - LL; lia].
    destruct (last_item l j x N Hl HL HR HW CN) as (L1 & L2).
    pose proof (w_pos _ _ _ _ _ HW) as WP.
    replace (pred_idx (spos l j + N)) with (Ok (A := nat) (spos l (anc l x))).
    2: { rewrite L1. replace (spos l j + N) with (S (spos l j + N - 1)) at 2 by (clear - WP; lia). reflexivity. }
    cbn [bind].
    pose proof HR as (R1 & R2 & R3 & R4).
    assert (LX : l <= leafl x).
    { destruct (Nat.eq_dec x j) as [->|NE].
      - apply item_spec in HI. unfold Trie.leafl. clear - HI. lia.
      - pose proof (lo_le K x) as LO. specialize (R3 x ltac:(clear - R1 NE; lia)). clear - LO R3. lia. }
    pose proof (anc_item K l x R2 LX) as AI.
    unfold si_append. rewrite (s_lab_read c K HNE st s e Hst1 Hst2 HK l _ Hl AI). cbn [bind].
    destruct (si_append_ok K HNE st e Hst1 Hst2 x l it) as (k & p & EA & PA); auto.
    { apply (slpre_range l j x x); auto. clear - Hl. lia. }
    rewrite EA. cbn [bind].
    assert (EN : si_next e s (si_setLen (si_setKP it k p) (S l - st)) =
         si_next_loop e s (si_setTerm (si_setLen (si_setKP it k p) (S l - st)) false) (S l - st)).
    { unfold si_next. scbn. replace (S l - st) with (S (l - st)) by (clear - Hl; lia).
      rewrite massert_ok by reflexivity. cbn [bind pred_idx]. reflexivity. }
    rewrite EN. apply (after_next x); auto.
    + pose proof (sub_range l j x Hl Hj HR) as SR. clear - SR R1 Hj. lia.
    + clear - LX Hl. lia.
    + intros HH. unfold n in *. clear - HH R4 Hl. lia.
    + rewrite <- UX. exact LU.
  - assert (SG : lv_searchGreaterThan e (s_labels s) b (if term l j then S (spos l j) else spos l j) N = Ok (true, spos l U)).
    { destruct (term l j) eqn:ET.
      - destruct CT as [CT|(v & w & V1 & V2 & V3 & V4 & V5 & V6 & V7 & V8)]; [congruence|].
        apply (search_gt_term l j N b U w); auto; try (clear - UR; lia).
        destruct (le_lt_dec U v) as [G|G]; [clear - G V6; lia|]. exfalso.
        pose proof (node_lab_lt K HS HE l v U G UI (same_node_sub K l j v U US V1 ltac:(clear - G; lia)) V4) as X.
        specialize (UM v V1 V2 V3 V4 V5). clear - X UM. lia.
      - apply (search_gt_found c K HS HB HE HNE st s e Hst1 Hst2 HK Hmem l j N Hl HL HW b U CN); auto; try (clear - UR; lia).
        intros i' A1 A2 A3 A4. destruct (le_lt_dec (lab l i') b) as [|G]; auto. exfalso.
        pose proof (same_node_sub K l j i' U US A1 ltac:(clear - A2; lia)) as SN.
        pose proof (node_lab_lt K HS HE l i' U A2 UI SN A4) as X.
        assert (SN' : same_node l j i') by (intros z Hz; apply US; clear - Hz A2; lia).
        specialize (UM i' A1 A3 SN' A4 G). clear - X UM. lia. }
    rewrite SG. cbn [bind negb]. apply (s_append_left l j x U); auto.
Qed.

Theorem s_gt_spec : forall rest l j it, st <= l -> j0 <= j <= x0 -> louds l j = true -> firstn l q = firstn l (kk j) ->
  rest = skipn l q -> l <= length q ->
  slpre j (l - st) (si_key it) (si_pos it) -> si_len it = l - st -> si_atterm it = false ->
  (l = st -> si_start it = NN st j) ->
  exists fp it', s_gt_loop e s q rest incl l (spos l j) it = Ok (fp, it') /\ s_result fp it'.
Proof.
  induction rest as [|b rest IH]; intros l j it Hl Hj HL HP HR HQ P HLn HA HSt;
    pose proof (louds_item K l j HL) as HI; cbn [s_gt_loop].
  - assert (LQ : length q = l).
    { apply (f_equal (@length nat)) in HR. rewrite skipn_length in HR. cbn [length] in HR. clear - HR HQ. lia. }
    destruct (s_end l j it Hl Hj HL HP LQ P HLn HA HSt) as (it' & E & G). exists false, it'. auto.
  - assert (NQ : nth_error q l = Some b).
    { pose proof (nth_error_skipn _ q l 0) as Q. rewrite <- HR in Q. rewrite Nat.add_0_r in Q. cbn in Q. congruence. }
    assert (LQ : l < length q) by (apply nth_error_Some; congruence).
    destruct (s_nodeSize_spec c K HNE st s e Hst1 Hst2 HK l j Hl HL) as (N & EN & HW). rewrite EN. cbn [bind].
    destruct (existsb (fun i => (j <=? i) && item l i && negb (term l i) && (lab l i =? b)
       && forallb (fun m => negb (louds l m)) (seq (S j) (i - j))) (seq 0 n)) eqn:EX.
    + apply existsb_seq in EX. destruct EX as (i & Hi & EX). apply andb_prop in EX. destruct EX as [EX E5].
      apply andb_prop in EX. destruct EX as [EX E4].
      apply andb_prop in EX. destruct EX as [EX E3]. apply andb_prop in EX. destruct EX as [E1 E2].
      apply Nat.leb_le in E1. apply negb_true_iff in E3. apply Nat.eqb_eq in E4.
      assert (SN : same_node l j i).
      { intros m Hm. rewrite forallb_forall in E5. specialize (E5 m). rewrite negb_true_iff in E5. apply E5.
        apply in_seq. clear - Hm. lia. }
      rewrite (search_found c K HS HB HE HNE st s e Hst1 Hst2 HK Hmem l j N Hl HL HW b i E1 E2 SN E3 E4).
      cbn [bind negb].
      destruct (in_range K HNE l j i HL E1 E2 SN) as (x & XR & XI).
      assert (Hi' : j0 <= i <= x0) by (pose proof (sub_range l j x Hl Hj XR) as SR; clear - SR XI Hj; lia).
      apply item_spec in E2 as E2'.
      assert (AS : anc l i = i) by (apply anc_self; clear - E2'; lia).
      destruct (si_append_ok K HNE st e Hst1 Hst2 i l it) as (k & p & EA & PA); auto.
      { unfold Trie.leafl. clear - E2'. lia. }
      { apply (slpre_range l j x i); auto. clear - Hl. lia. }
      rewrite AS, E4 in EA. rewrite EA. cbn [bind].
      rewrite (s_child_read c K HNE st s e Hst1 Hst2 HK l i Hl E2). cbn [bind].
      pose proof (step_some K l j q b i HL HP NQ E1 E2 SN E3 E4) as SS.
      destruct (child l i) eqn:EC; cbn [negb].
      * rewrite (s_child_node c K HNE st s e Hst1 Hst2 HK l i Hl EC). cbn [bind].
        assert (EL : louds (S l) i = true) by (rewrite <- child_louds; auto).
        rewrite (s_first_pos c K HNE st s e Hst1 Hst2 HK (S l) i (Nat.le_trans _ _ _ Hl (Nat.le_succ_diag_r l)) EL). cbn [bind].
        apply IH; auto.
        -- pose proof (skipn_S_tl _ q l) as Q. rewrite <- HR in Q. rewrite Q. reflexivity.
        -- intros X. clear - X Hl. lia.
      * assert (HF : leaf l i = true).
        { unfold Trie.leaf. rewrite E2. unfold Trie.child in EC. rewrite E2 in EC. cbn [andb] in *. rewrite EC. reflexivity. }
        apply s_leaf; auto.
        apply leaf_spec in HF. destruct HF as [_ HF]. unfold LookupFacts.mt. rewrite <- HF. exact SS.
    + assert (NO : no_label K l j b).
      { intros i A1 A2 A3 A4 A5.
        match type of EX with ?t = false => assert (X : t = true); [|congruence] end.
        apply existsb_seq. exists i. pose proof (item_lt K l i A2) as Hi. split; auto.
        rewrite A2, A4, A5, Nat.eqb_refl. replace (j <=? i) with true by (symmetry; apply Nat.leb_le; auto). cbn [andb negb].
        apply forallb_forall. intros m Hm. apply in_seq in Hm. rewrite A3 by (clear - Hm A1; lia). reflexivity. }
      destruct (s_miss l j b N it Hl Hj HL HP NQ NO HW P HLn HA) as (E1 & it' & E2 & G).
      rewrite E1. cbn [bind negb]. rewrite E2. cbn [bind]. exists false, it'. auto.
Qed.
End SSeek.
