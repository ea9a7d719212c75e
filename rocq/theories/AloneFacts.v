(** LoudsSparse alone: the sparse levels start at the root. *)
From Coq Require Import Arith List NArith ZArith Bool Lia ZifyN ZifyNat ZifyBool Sorting.Sorted.
From Verif Require Import Res Word Config BitFacts WordFacts Bitvector BitvectorFacts Rank Select
  RankSelectFacts LabelVector LabelFacts Suffix Spec SuffixFacts Builder KeyFacts Trie BuilderFacts
  DenseBuild StructFacts NodeFacts SparseFacts Dense Sparse DenseFacts LookupFacts Serialize SerialFacts FilterFacts
  Surf IterTrie IterDense IterDMove IterSparse IterFacts IterKey SeekOrder SuffixOrder SeekDense SeekSparse SeekFacts CompareFacts IterSim
  SpecApi SpecFilter SpecIter SpecRange SpecBare SpecAlone SpecTrie IterApi RangeApi PointFacts TrieApi SizeFacts BareFacts.
Import ListNotations.

Section Alone.
Variables (keys : list bytes) (e : env) (c : config) (s : sparse).
Hypothesis HG : good_keys keys.
Hypothesis HM : machine e.
Hypothesis Hlens : lens_ok (cf_type c) (cf_hlen c) (cf_rlen c).
Notation K := (uniq keys).
Notation n := (length K).
Notation kk := (kk K). Notation lo := (lo K). Notation leafl := (leafl K). Notation term := (term K). Notation anc := (anc K).
Notation height := (height K). Notation NN := (NN K). Notation louds := (louds K).
Notation sat := (sat K 0). Notation sidle0 := (sidle0 K 0). Notation spos := (spos K 0).
Hypothesis HK : sparse_ok c K 0 s.
Hypothesis H2 : 2 <= n.

Let HS : StronglySorted klt K := proj1 (good_uniq keys HG).
Let HB : Forall is_bytes K := proj1 (proj2 (good_uniq keys HG)).
Let HE : Forall (fun k => k <> []) K := proj1 (proj2 (proj2 (good_uniq keys HG))).
Let HN : length K <> 0 := proj2 (proj2 (proj2 (good_uniq keys HG))).
Let Hmem : strict_mem e = false := proj2 HM.
Let Hshift : strict_shift e = false := proj1 HM.

Local Instance wide_0 : wide K 0.
Proof. right. exact H2. Qed.

Let Hst2 : 1 <= height.
Proof. pose proof (height_ge2 K e HN Hshift Hmem). lia. Qed.
Let Z0 : 0 <= 0 := le_n 0.

Lemma root_louds : louds 0 0 = true. Proof. apply (louds_root K HN). Qed.
Lemma root_NN : NN 0 0 = 0.
Proof. unfold SparseFacts.NN. cbn [sm cn]. rewrite (louds_root K HN). reflexivity. Qed.
Lemma root_range : range K 0 0 (n - 1).
Proof. split; [lia|]. split; [lia|]. split; [lia|left; lia]. Qed.
Lemma lo_0 : lo 0 = 0. Proof. reflexivity. Qed.

(** ** steps *)
Lemma first_prev : forall it, sat 0 it -> exists it', si_prev e s it = Ok it' /\ si_valid it' = false.
Proof.
  intros it (V & L & T & P). unfold si_prev, si_lastpos. rewrite L. rewrite massert_ok by (rewrite Nat.sub_0_r; reflexivity). cbn [bind].
  pose proof (pos_read K HN 0 Z0 Hst2 0 (leafl 0) it ltac:(lia) (le_n _) ltac:(lia) P) as PR.
  rewrite !Nat.sub_0_r in *. cbn [pred_idx bind]. rewrite PR. cbn [bind].
  destruct (_ =? 0); [eexists; split; reflexivity|]. change (si_len (si_setTerm it false)) with (si_len it). rewrite L. clear PR.
  assert (G : forall len i', len <= S (leafl 0) -> slpre K 0 0 len (si_key i') (si_pos i') ->
    exists it', si_prev_loop e s i' len = Ok it' /\ si_valid it' = false).
  { induction len as [|m IH]; intros i' LE P'; cbn [si_prev_loop]; [eexists; split; reflexivity|].
    pose proof (pos_read K HN 0 Z0 Hst2 0 m i' ltac:(lia) ltac:(lia) ltac:(lia)) as PR. rewrite !Nat.sub_0_r in PR.
    rewrite (PR P'). cbn [bind].
    assert (AS : anc m 0 = 0) by (pose proof (anc_le K m 0); lia). rewrite AS.
    assert (LO : louds m 0 = true).
    { apply louds_spec. split; [lia|]. destruct m as [|m]; [right; auto|left].
      unfold Trie.leafl in LE. rewrite lo_0 in *. lia. }
    rewrite (s_louds_read c K HN 0 s e Z0 Hst2 HK m 0) by (auto using louds_item; lia). cbn [bind]. rewrite LO.
    apply IH; [lia|]. eapply slpre_le; [exact P'|lia]. }
  apply G; [lia|exact P].
Qed.

Lemma alone_next : forall i it, i < n -> sat i it ->
  exists it', si_next e s it = Ok it' /\ if S i <? n then sat (S i) it' else si_valid it' = false.
Proof.
  intros i it Hi SA. destruct (si_next_ok c K HS HB HE HN 0 s e Z0 Hst2 HK i it Hi ltac:(lia) SA) as (s' & E & G).
  exists s'. split; [exact E|]. cbn [Nat.leb] in G. rewrite andb_true_r in G. destruct (S i <? n); [exact G|apply G].
Qed.

Lemma alone_prev : forall i it, i < n -> sat i it ->
  exists it', si_prev e s it = Ok it' /\ match i with O => si_valid it' = false | S j => sat j it' end.
Proof.
  intros [|j] it Hi SA; [apply first_prev; exact SA|].
  destruct (si_prev_ok c K HS HB HE HN 0 s e Z0 Hst2 HK (S j) it ltac:(lia) Hi ltac:(lia) SA) as (s' & E & G).
  exists s'. split; [exact E|]. cbn [Nat.leb] in G. destruct G as (i' & EI & G). injection EI as <-. exact G.
Qed.

(** ** reading *)
Lemma alone_key : forall i it, i < n -> sat i it -> si_getKey it = Ok (firstn (S (leafl i)) (kk i)).
Proof.
  intros i it Hi (V & HL & HA & (P1 & P2 & P3)). unfold si_getKey. rewrite V. cbn [negb]. rewrite HA, HL. rewrite !Nat.sub_0_r in *.
  pose proof (leafl_height K HN 0 Z0 Hst2 i Hi) as LH. pose proof (leafl_le K i) as LE.
  destruct (term (leafl i) i) eqn:ET; unfold Trie.term in ET.
  - cbn [pred_idx bind].
    replace (leafl i <=? length (si_key it)) with true by lia. f_equal.
    rewrite (path_key K HN i (leafl i) (si_key it) 0); [|intros m Hm; apply P3; lia|lia|lia]. cbn [skipn].
    rewrite !firstn_all2 by lia. reflexivity.
  - cbn [bind]. replace (S (leafl i) <=? length (si_key it)) with true by lia. f_equal.
    rewrite (path_key K HN i (S (leafl i)) (si_key it) 0); [reflexivity|intros m Hm; apply P3; lia|lia|lia].
Qed.

Lemma alone_suf_pos : forall i it, i < n -> sat i it ->
  exists pos, si_lastpos it = Ok pos /\ s_getSuffixPos e s pos = Ok (N.of_nat (ssidx c K 0 (leafl i) i)).
Proof.
  intros i it Hi (V & HL & HA & P). unfold si_lastpos. rewrite HL.
  pose proof (pos_read K HN 0 Z0 Hst2 i (leafl i) it ltac:(lia) (le_n _) Hi P) as PR.
  rewrite Nat.sub_0_r in *. cbn [pred_idx bind].
  eexists. split; [exact PR|]. rewrite (proj1 (anc_leaf K i Hi)).
  apply (s_suffix_pos c K HN 0 s e Z0 Hst2 HK Hmem); auto; [lia|]. apply anc_leaf. auto.
Qed.

Lemma alone_bytes : forall i, i < n -> is_bytes (kk i).
Proof. intros i Hi. pose proof HB as B. rewrite Forall_forall in B. apply B. apply nth_In. exact Hi. Qed.

Lemma alone_idx : forall i, i < n -> has_real (cf_type c) = true \/ cf_type c = kHash ->
  wrap32 (N.of_nat (ssidx c K 0 (leafl i) i)) = N.of_nat (ssidx c K 0 (leafl i) i).
Proof.
  intros i Hi HR. destruct (ssidx_nth c K HN 0 e Z0 Hst2 Hmem (leafl i) i ltac:(lia) (proj2 (anc_leaf K i Hi))) as [A B].
  pose proof (sk_suf _ _ _ _ HK) as SR. unfold suf_rel in SR. destruct (cf_type c).
  - destruct HR; discriminate.
  - eapply suf_idx_small; [apply SR|exact A].
  - eapply suf_idx_small; [apply SR|exact A].
  - eapply suf_idx_small; [apply SR|exact A].
Qed.

Lemma alone_read : forall i, i < n -> has_real (cf_type c) = true ->
  sf_rlen (s_suf s) = cf_rlen c /\
  suf_readReal e (s_suf s) (N.of_nat (ssidx c K 0 (leafl i) i)) = Ok (real_read (kk i) (S (leafl i)) (cf_rlen c)).
Proof.
  intros i Hi HR. destruct (ssidx_nth c K HN 0 e Z0 Hst2 Hmem (leafl i) i ltac:(lia) (proj2 (anc_leaf K i Hi))) as [A B].
  destruct (readReal_spec c e (s_suf s) _ _ (kk i) (S (leafl i)) Hshift Hlens (alone_bytes i Hi) HR (sk_suf _ _ _ _ HK) A B) as (_ & Q1 & Q2).
  rewrite alone_idx in Q2 by auto. auto.
Qed.

Lemma alone_type : sf_type (s_suf s) = cf_type c.
Proof.
  pose proof (sk_suf _ _ _ _ HK) as R. unfold suf_rel in R. destruct (cf_type c) eqn:ET in R; rewrite ET; try apply R.
  rewrite R. reflexivity.
Qed.

(** what the suffix calls show of a key *)
Lemma keysuf_good : forall k d, is_bytes k -> exists ks,
  (if has_real (cf_type c) && (0 <? real_read k d (cf_rlen c))%N then
      b <- suffix_bytes e (real_read k d (cf_rlen c)) (cf_rlen c) ;; Ok (firstn d k ++ b, cf_rlen c mod 8) else Ok (firstn d k, 0)) = Ok ks /\
  (cf_rlen c <= 63 -> good_keysuf c k d ks).
Proof.
  clear H2 Hst2. intros k d Hk. pose proof (real_val_bound k d (cf_rlen c) Hk) as RB. unfold real_read.
  destruct (Nat.eqb_spec (cf_rlen c) 64) as [E64|N64].
  - rewrite andb_false_r. eexists. split; [reflexivity|]. lia.
  - pose proof (all_zero_val _ _ RB) as AZ. rewrite <- (next_bits0_val k d (cf_rlen c) Hk) in AZ.
    destruct (has_real (cf_type c)) eqn:ER; cbn [andb].
    + apply has_real_keeps in ER. destruct (N.ltb_spec 0 (real_val k d (cf_rlen c))) as [P|P].
      * assert (R0 : 1 <= cf_rlen c).
        { destruct (cf_rlen c); [cbn in RB; lia|lia]. }
        destruct Hlens as [SL1 SL2].
        destruct (suffix_bytes_spec e _ (cf_rlen c) ltac:(lia) RB) as (b & E1 & E2 & E3 & E4). rewrite E1. cbn [bind].
        eexists. split; [reflexivity|]. intros _. split.
        -- intros _ _. exists b, (8 * ((cf_rlen c + 7) / 8) - cf_rlen c). split; auto. split; auto.
           split; [|rewrite E4, next_bits0_val; auto].
           pose proof (Nat.div_mod (cf_rlen c + 7) 8 ltac:(lia)). pose proof (Nat.mod_upper_bound (cf_rlen c + 7) 8 ltac:(lia)). lia.
        -- intros [X|X]; [tauto|]. apply AZ in X. lia.
      * eexists. split; [reflexivity|]. intros _. split; [|auto]. intros _ X. exfalso. apply X, AZ. lia.
    + eexists. split; [reflexivity|]. intros _. split; [|auto]. intros X. apply has_real_keeps in X. congruence.
Qed.

Lemma alone_look : forall i it, i < n -> sat i it -> exists v, s_look e s it = Ok v /\ view_at c keys (Some i) v.
Proof.
  intros i it Hi SA. pose proof (alone_bytes i Hi) as Hk. destruct (keysuf_good (kk i) (S (leafl i)) Hk) as (ks & EK & GK).
  pose proof (real_val_bound (kk i) (S (leafl i)) (cf_rlen c) Hk) as RB.
  destruct (alone_suf_pos i it Hi SA) as (pos & P1 & P2).
  exists (mkView true (firstn (S (leafl i)) (kk i))
    (if has_real (cf_type c) then (cf_rlen c, Some (real_read (kk i) (S (leafl i)) (cf_rlen c))) else (0, Some 0%N)) ks). split.
  - unfold s_look. rewrite (proj1 SA), (alone_key i it Hi SA). cbn [bind].
    unfold si_getSuffix, si_getKeyWithSuffix. rewrite (alone_key i it Hi SA), alone_type. cbn [bind].
    destruct (has_real (cf_type c)) eqn:HR; cbn [andb] in EK.
    + rewrite P1. cbn [bind]. rewrite P2. cbn [bind]. destruct (alone_read i Hi HR) as (R1 & R2). rewrite R1, R2. cbn [bind].
      destruct (0 <? _)%N.
      * apply bind_ok in EK. destruct EK as (b & E1 & E2). rewrite E1. cbn [bind]. injection E2 as <-. reflexivity.
      * injection EK as <-. reflexivity.
    + injection EK as <-. reflexivity.
  - split; auto. exists (S (leafl i)). split; [apply (dist_at keys HG); auto|]. split; auto. split; auto. intros L63.
    split; [|auto]. cbn [vw_suffix]. unfold real_read. replace (cf_rlen c =? 64) with false by lia. split.
    + intros X. apply has_real_keeps in X. rewrite X. rewrite next_bits0_val by auto. unfold bits_value. rewrite bitsn_value; auto.
    + intros X. destruct (has_real (cf_type c)) eqn:ER; auto. exfalso. apply X, has_real_keeps. auto.
Qed.

(** ** comparisons *)
Lemma alone_cmp : forall q i, is_bytes q -> i < n ->
  suf_compare e (s_suf s) (N.of_nat (ssidx c K 0 (leafl i) i)) q (S (leafl i)) = Ok (cmp_val c (kk i) q (S (leafl i))).
Proof.
  intros q i Hq Hi.
  destruct (ssidx_nth c K HN 0 e Z0 Hst2 Hmem (leafl i) i ltac:(lia) (proj2 (anc_leaf K i Hi))) as [A B].
  pose proof (sk_suf _ _ _ _ HK) as SR.
  pose proof (suf_compare_spec c e (s_suf s) _ (ssidx c K 0 (leafl i) i) (kk i) q q (S (leafl i))
    (S (leafl i)) Hshift Hlens (alone_bytes i Hi) Hq SR A B eq_refl) as Q.
  destruct (cf_type c) eqn:ET in |- *.
  - unfold suf_rel in SR. rewrite ET in SR. rewrite SR in *. rewrite <- Q.
    assert (G : forall x q l, suf_compare e suf_empty x q l = Ok kCouldBePositive)
      by (intros; unfold suf_compare; destruct (_ <=? _)%N; reflexivity).
    rewrite !G. reflexivity.
  - rewrite <- Q. f_equal. symmetry. unfold suf_rel in SR. rewrite ET in SR. eapply suf_idx_small; [apply SR|exact A].
  - rewrite <- Q. f_equal. symmetry. unfold suf_rel in SR. rewrite ET in SR. eapply suf_idx_small; [apply SR|exact A].
  - rewrite <- Q. f_equal. symmetry. unfold suf_rel in SR. rewrite ET in SR. eapply suf_idx_small; [apply SR|exact A].
Qed.

Lemma alone_cmp_at : forall i it q, i < n -> is_bytes q -> sat i it ->
  exists z, si_compare e s it q = Ok z /\ cmp_at c K 0 i q z.
Proof.
  intros i it q Hi Hq SA.
  pose proof (alone_key i _ Hi SA) as KO. destruct (alone_suf_pos i it Hi SA) as (pos & P1 & P2).
  pose proof SA as (V & HL & HA & P). unfold si_compare. rewrite HA, HL, (sk_st _ _ _ _ HK), !Nat.sub_0_r.
  replace (S (leafl i) - 1) with (leafl i) by lia.
  change (0 <? S (leafl i)) with true. rewrite andb_true_r. change (length q <? 0) with false. rewrite orb_false_l.
  destruct (term (leafl i) i && (leafl i <? length q)) eqn:EC.
  { apply andb_true_iff in EC. destruct EC as [E1 E2]. eexists. split; [reflexivity|]. left.
    apply Nat.ltb_lt in E2. repeat split; auto. }
  rewrite KO. cbn [bind]. unfold substr_from. cbn [Nat.ltb Nat.leb bind skipn].
  rewrite P1. cbn [bind]. rewrite P2. cbn [bind]. rewrite (alone_cmp q i Hq Hi). fold (CompareFacts.shown K i).
  destruct (str_compare_pre (CompareFacts.shown K i) q) as [[A B]|[[A [B FA]]|[A B]]].
  - rewrite A. exists (-1)%Z. split; [reflexivity|]. right. left. auto.
  - replace (_ =? 0)%Z with false by (clear - A; lia). cbn [negb]. eexists. split; [reflexivity|]. right. right. left. split; auto. split; auto. split; auto.
    intros T LQ. exfalso. apply andb_false_iff in EC. destruct EC as [EC|EC]; [congruence|]. apply Nat.ltb_ge in EC. clear - EC LQ. lia.
  - rewrite A. eexists. split; [reflexivity|]. right. right. right. split; auto.
    apply (shown_eq K HN q i Hi); auto.
    apply andb_false_iff in EC. destruct EC as [EC|EC]; auto. apply Nat.ltb_ge in EC. auto.
Qed.

Lemma alone_compare : forall i it q, i < n -> is_bytes q -> sat i it ->
  exists z, si_compare e s it q = Ok z /\ cmp_sound c keys (kk i) q z.
Proof.
  intros i it q Hi Hq SA. destruct (alone_cmp_at i it q Hi Hq SA) as (z & E & CA).
  exists z. split; [exact E|]. apply (cmp_at_sound keys HG c 0 i q z Hi Hq CA).
Qed.

Lemma alone_stands : forall i it, i < n -> sat i it -> stands_alone e c s keys it i.
Proof.
  intros i it Hi SA ms. revert i it Hi SA. induction ms as [|m ms IH]; intros i it Hi SA j ST; cbn [steps] in ST; cbn [s_run].
  - injection ST as <-. destruct (alone_look i it Hi SA) as (v & A & B). exists it, v. split; auto. split; auto. split; auto.
    split; [intros q Hq; apply alone_compare; auto|]. intros [|] N0; cbn [step s_move] in *.
    + destruct (alone_next i it Hi SA) as (it' & E & G). destruct (S i <? n); [discriminate|]. eauto.
    + destruct (alone_prev i it Hi SA) as (it' & E & G). destruct i; [|discriminate]. eauto.
  - destruct m; cbn [step s_move] in *.
    + destruct (alone_next i it Hi SA) as (it' & E & G). destruct (Nat.ltb_spec (S i) n) as [L|L]; [|discriminate].
      rewrite E. cbn [bind]. eapply IH; eauto.
    + destruct (alone_prev i it Hi SA) as (it' & E & G). destruct i as [|i]; [discriminate|].
      rewrite E. cbn [bind]. exact (IH i it' (Nat.lt_succ_l _ _ Hi) G j ST).
Qed.

(** ** seeks *)
Lemma alone_seek : forall q, is_bytes q -> ~ stray e keys 0 q -> forall incl s0, sidle0 s0 -> si_start s0 = 0 -> exists fp s1 i,
  s_moveToKeyGreaterThan e s q incl s0 = Ok (fp, s1) /\ landed c K 0 q incl i fp /\
  if i <? n then sat i s1 else si_valid s1 = false.
Proof.
  intros q Hq HT incl s0 SI SS. pose proof SI as (I1 & I2 & I3 & I4 & I5).
  unfold stray in HT.
  pose proof (clean_seek keys HG 0 q Z0 Hst2 ltac:(tauto) ltac:(tauto)) as Hclean.
  destruct (s_gt_spec c K HS HB HE HN 0 s e Z0 Hst2 HK Hmem Hshift Hlens q incl Hq Hclean 0 (n - 1) root_range
    q 0 0 s0) as (fp & s1 & E & G); auto; try lia.
  { apply root_louds. }
  { split; auto. split; auto. intros m Hm. inversion Hm. }
  { intros _. rewrite root_NN. exact SS. }
  unfold s_moveToKeyGreaterThan. rewrite SS, (sk_st _ _ _ _ HK). cbn [skipn].
  pose proof (s_first_pos c K HN 0 s e Z0 Hst2 HK 0 0 Z0 root_louds) as FP. rewrite root_NN in FP. rewrite FP. cbn [bind].
  rewrite E. destruct G as [(i & Hi & SA & LA)|((SV & _) & LA)].
  - exists fp, s1, i. split; auto. split; auto. replace (i <? n) with true by lia. exact SA.
  - exists fp, s1, (S (n - 1)). split; auto. split; auto. replace (S (n - 1) <? n) with false by lia. exact SV.
Qed.

Lemma trap_stray0 : forall q, ~ trap e c keys 0 q -> ~ stray e keys 0 q.
Proof. intros q HT X. apply HT. unfold trap. unfold stray in X. tauto. Qed.

Lemma trap_whole : forall q, ~ trap e c keys 0 q -> ~ meets_short_key c keys q.
Proof. intros q HT X. apply HT. unfold trap. tauto. Qed.

Lemma alone_gt : forall q incl, is_bytes q -> ~ trap e c keys 0 q -> exists fp it p,
  s_moveToKeyGreaterThan e s q incl (siter_new s) = Ok (fp, it) /\ gt_place c keys 0 q incl fp p /\
  match p with Some i => stands_alone e c s keys it i | None => si_valid it = false end.
Proof.
  intros q incl Hq HT. destruct (alone_seek q Hq (trap_stray0 q HT) incl (siter_new s)) as (fp & it & i & E & LA & G).
  { unfold SeekSparse.sidle0. cbn [siter_new si_valid si_len si_atterm si_key si_pos].
    rewrite !repeat_length, (sk_h _ _ _ _ HK), (sk_st _ _ _ _ HK). auto. }
  { reflexivity. }
  exists fp, it, (opt keys i). split; [exact E|]. split; [apply (gt_landed keys HG c q Hq (cut_whole keys HG c q Hq (trap_whole q HT)) 0 incl i fp LA)|].
  unfold opt. destruct (Nat.ltb_spec i n) as [L|L]; [|exact G]. apply alone_stands; auto.
Qed.

(** ** the ends *)
Lemma root_right : forall it, length (si_key it) = height - 0 -> length (si_pos it) = height - 0 ->
  si_start it = 0 -> si_len it = 0 -> si_atterm it = false ->
  exists it', si_moveToRightMostKey e s it = Ok it' /\ sat (n - 1) it'.
Proof.
  intros it L1 L2 S0 HL HA. set (i := n - 1). assert (Hi : i < n) by (unfold i; lia).
  assert (HI : item K 0 (anc 0 i) = true) by (apply anc_item; auto; lia).
  pose proof (anc_le K 0 i) as AL.
  assert (NE : NN 0 (anc 0 i) = 0).
  { etransitivity; [|apply root_NN]. apply (NN_same K 0 0 (anc 0 i) ltac:(lia)). intros m Hm. apply louds_root_only; lia. }
  destruct (si_append_ok K HN 0 e Z0 Hst2 i 0 it) as (k & p & E & P); auto; try lia.
  { split; auto. split; auto. intros m Hm. lia. }
  assert (G : si_moveToRightMostKey e s it = si_moveToRightMostKey e s (si_setLen (si_setKP it k p) (1 - 0))).
  { unfold si_moveToRightMostKey at 1. rewrite HL. cbn [Nat.eqb]. rewrite S0.
    pose proof (s_first_pos c K HN 0 s e Z0 Hst2 HK 0 0 Z0 root_louds) as FP. rewrite root_NN in FP. rewrite FP. cbn [bind].
    pose proof (s_last_pos c K HN 0 s e Z0 Hst2 HK 0 (anc 0 i) Z0 HI) as LP. rewrite NE in LP. rewrite LP; [cbn [bind]|].
    2: { apply (anc_no_later K); auto. left. unfold i. lia. }
    rewrite (s_lab_read c K HN 0 s e Z0 Hst2 HK) by (auto; lia). cbn [bind]. rewrite E. cbn [bind].
    unfold si_moveToRightMostKey. reflexivity. }
  rewrite G. apply (smove_right_ok c K HS HB HE HN 0 s e Z0 Hst2 HK i 0); auto; try lia. left. unfold i. lia.
Qed.

Lemma alone_first : exists it, s_first e s = Ok it /\ sat 0 it.
Proof.
  unfold s_first, si_setToFirstLabelInRoot. rewrite (sk_st _ _ _ _ HK), massert_ok by reflexivity. cbn [bind].
  unfold siter_new. cbn [si_pos si_key]. rewrite (sk_st _ _ _ _ HK).
  rewrite vset_ok by (rewrite repeat_length, (sk_h _ _ _ _ HK); lia). cbn [bind].
  assert (I0 : item K 0 0 = true) by (apply louds_item, root_louds).
  pose proof (s_lab_read c K HN 0 s e Z0 Hst2 HK 0 0 Z0 I0) as LR.
  assert (P0 : spos 0 0 = 0) by reflexivity. rewrite P0 in LR. rewrite LR. cbn [bind].
  rewrite vset_ok by (rewrite repeat_length, (sk_h _ _ _ _ HK); lia). cbn [bind].
  match goal with |- context [si_moveToLeftMostKey e s ?x] => set (s0 := x) end.
  apply (sstart_left_node c K HS HB HE HN 0 s e Z0 Hst2 HK 0 s0); try reflexivity; try lia.
  { apply root_louds. }
  { unfold s0. scbn. rewrite lset_length, repeat_length, (sk_h _ _ _ _ HK). reflexivity. }
  { unfold s0. scbn. rewrite lset_length, repeat_length, (sk_h _ _ _ _ HK). reflexivity. }
  { unfold s0. scbn. symmetry. apply root_NN. }
Qed.

Lemma alone_last : exists it, s_last e s = Ok it /\ sat (n - 1) it.
Proof.
  unfold s_last, si_setToLastLabelInRoot. rewrite (sk_st _ _ _ _ HK), massert_ok by reflexivity. cbn [bind].
  unfold siter_new. cbn [si_pos si_key]. rewrite (sk_st _ _ _ _ HK).
  set (i := n - 1). assert (Hi : i < n) by (unfold i; lia).
  assert (HI : item K 0 (anc 0 i) = true) by (apply anc_item; auto; lia).
  pose proof (anc_le K 0 i) as AL.
  assert (NE : NN 0 (anc 0 i) = 0).
  { etransitivity; [|apply root_NN]. apply (NN_same K 0 0 (anc 0 i) ltac:(lia)). intros m Hm. apply louds_root_only; lia. }
  pose proof (s_last_pos c K HN 0 s e Z0 Hst2 HK 0 (anc 0 i) Z0 HI) as LP. rewrite NE in LP. rewrite LP.
  2: { apply (anc_no_later K); auto. left. unfold i. lia. }
  cbn [bind]. rewrite vset_ok by (rewrite repeat_length, (sk_h _ _ _ _ HK); lia). cbn [bind].
  rewrite (s_lab_read c K HN 0 s e Z0 Hst2 HK) by (auto; lia). cbn [bind].
  rewrite vset_ok by (rewrite repeat_length, (sk_h _ _ _ _ HK); lia). cbn [bind].
  match goal with |- context [si_moveToRightMostKey e s ?x] => set (s0 := x) end.
  apply root_right; try reflexivity.
  { unfold s0. scbn. rewrite lset_length, repeat_length, (sk_h _ _ _ _ HK). reflexivity. }
  { unfold s0. scbn. rewrite lset_length, repeat_length, (sk_h _ _ _ _ HK). reflexivity. }
Qed.

(** ** lookups *)
Lemma alone_ans : forall q, is_bytes q -> zero_end K 0 s e q -> exists b, s_lookupKey e s q 0 = Ok b /\ ans c K q b.
Proof.
  intros q Hq ZE. unfold s_lookupKey. pose proof (s_first_pos c K HN 0 s e Z0 Hst2 HK 0 0 Z0 root_louds) as FP. rewrite root_NN in FP.
  rewrite FP. cbn [bind]. rewrite (sk_st _ _ _ _ HK).
  apply (s_lookup_spec c K HS HB HE HN 0 s e Z0 Hst2 HK Hmem Hshift Hlens q 0 0 q); auto; try lia. apply root_louds.
Qed.

Lemma alone_admits : forall k q d, In k keys -> is_bytes q -> dist_len keys k d -> firstn d q = firstn d k ->
  exists b, s_lookupKey e s q 0 = Ok b /\ (b = true <-> admits c k q d).
Proof.
  intros k q d Hk Hq D F. destruct (in_kk keys k Hk) as (i & Hi & <-).
  pose proof (dist_kk keys HG i d Hi D) as ED. subst d.
  assert (M : mt K q i) by exact F.
  destruct (alone_ans q Hq) as (b & E & A & _).
  { right. exists i. auto. }
  exists b. split; [exact E|]. rewrite (A i Hi M). unfold acc.
  apply (accepts_admits (mkCfg true 16 (cf_type c) (cf_hlen c) (cf_rlen c)) (kk i) q (S (leafl i))); auto using alone_bytes.
  split; [reflexivity|]. split; [cbn; lia|]. exact Hlens.
Qed.
End Alone.

(** some dense part; it is never used *)
Definition no_dense : dense :=
  mkDense 0 [] (mkRank (mkBV 0 []) 0 []) (mkRank (mkBV 0 []) 0 []) (mkRank (mkBV 0 []) 0 []) suf_empty.

(** ** which key lists can be built *)
Section Size.
Variable keys : list bytes.
Hypothesis HG : good_keys keys.
Variables (e : env) (c : config).
Hypothesis HM : machine e.
Hypothesis HC : sparse_settings c.
Notation K := (uniq keys).
Let HS : StronglySorted klt K := proj1 (good_uniq keys HG).
Let HB : Forall is_bytes K := proj1 (proj2 (good_uniq keys HG)).
Let HE : Forall (fun k => k <> []) K := proj1 (proj2 (proj2 (good_uniq keys HG))).
Let HN : length K <> 0 := proj2 (proj2 (proj2 (good_uniq keys HG))).
Let Hmem : strict_mem e = false := proj2 HM.
Let Hshift : strict_shift e = false := proj1 HM.
Let Hd : cf_dense c = false := proj1 HC.
Let Hlens : lens_ok (cf_type c) (cf_hlen c) (cf_rlen c) := proj2 HC.

Lemma alone_make : forall b, build e c keys = Ok b ->
  okB (fits_at c K 0) (sparse_make e b) (fun s => sparse_ok c K 0 s /\ fresh_alloc K 0 s).
Proof.
  intros b EB. pose proof (build_bare c K e HS HB HE HN Hshift Hmem Hlens keys eq_refl Hd) as Q. rewrite EB in Q.
  cbn [okp] in Q. destruct Q as (st & -> & HR & HL). pose proof (height_ge2 K e HN Hshift Hmem) as H2.
  apply (sparse_make_ok c K e HB HN Hshift Hmem Hlens st HR HL 0); auto. lia.
Qed.

Lemma alone_parts : forall s, alone e c keys s -> sparse_ok c K 0 s /\ fresh_alloc K 0 s.
Proof.
  intros s E. unfold alone in E. apply bind_ok in E. destruct E as (b & EB & E). pose proof (alone_make b EB) as Q. rewrite E in Q. exact Q.
Qed.

Lemma alone_fit : forall N, told_apart keys N -> (N <= 8388607)%N ->
  (256 * N.of_nat (sm (nds K) (height K)) < 4294967296 /\
   N.of_nat (1 + sm (fun l => length (items K l)) (height K)) < 4294967296 /\
   N.of_nat (length K * cf_len c + 64) < 4294967296)%N.
Proof.
  intros N HT HN'. pose proof (told_total keys HS _ HT) as T. pose proof (items_total K) as T1. pose proof (total_keys K) as T2.
  assert (T3 : sm (nds K) (height K) <= total_bytes K).
  { eapply Nat.le_trans; [|exact T1]. apply sm_le. intros. apply nds_items. }
  assert (length K * cf_len c <= total_bytes K * 64) by (apply Nat.mul_le_mono; [exact T2|exact (proj1 Hlens)]). lia.
Qed.

Lemma alone_room : told_apart keys 8388607 -> (exists s, alone e c keys s) <-> room_at K 0.
Proof.
  intros HT. destruct (alone_fit _ HT ltac:(lia)) as (F1 & F2 & F3).
  assert (EB : exists b, build e c keys = Ok b).
  { pose proof (build_bare c K e HS HB HE HN Hshift Hmem Hlens keys eq_refl Hd) as Q.
    destruct (build e c keys) as [b|er]; [eauto|]. exfalso. cbn [okp] in Q. destruct er; try contradiction; exact (Q F3). }
  destruct EB as (b & EB). pose proof (alone_make b EB) as Q. split.
  - intros (s & E). destruct (alone_parts s E) as (S & F). unfold room_at, labels_from.
    pose proof (sk_room _ _ _ _ S) as R. unfold fresh_alloc in F. rewrite F in R. exact R.
  - intros R. unfold alone. rewrite EB. cbn [bind]. destruct (sparse_make e b) as [s|er]; [eauto|]. exfalso. apply Q. clear Q.
    split; [exact F1|]. split; [split; [exact F2|exact R]|exact F3].
Qed.

Lemma alone_exact : told_apart keys 8388607 -> forall nl nn nf, (forall l, level_shape keys l (nl l) (nn l) (nf l)) ->
  forall h, (forall k d, In k keys -> dist_len keys k d -> d < h) -> (exists k d, In k keys /\ dist_len keys k d /\ h = S d) ->
  let n := label_count nl 0 h in
  (exists s, alone e c keys s) <-> (n <= ((n + 1) * ((n + 1) / 64 + 1)) mod 2 ^ 32)%N.
Proof.
  intros HT nl nn nf SH h H1 H2 n.
  pose (cb := mkCfg false 0 kNone 0 0).
  assert (CB : bare_settings cb) by (repeat split; cbn; lia).
  pose proof (bare_exact keys HG e cb HM CB HT nl nn nf SH h H1 H2) as Q. cbv zeta in Q. unfold n. rewrite <- Q.
  rewrite (bare_room keys HG e cb HM CB HT). apply alone_room. exact HT.
Qed.

Lemma alone_zeros : forall s q, sparse_ok c K 0 s -> two_keys keys -> (small keys /\ fresh_alloc K 0 s) \/ quiet e -> zero_end K 0 s e q.
Proof.
  intros s q S' H2 HZ. left. intros L. apply two_uniq in H2.
  pose proof (height_ge2 K e HN Hshift Hmem) as HH.
  assert (G : forall x, slen K 0 <= x < slen K 0 + 64 -> rd s e x = 0).
  { intros x Hx. unfold rd, lv_read. pose proof (sk_lab _ _ _ _ S') as B.
    assert (T : length (cc (slabs K) 0 (height K)) = slen K 0).
    { apply (@slabs_total K HN 0 0); [exact (le_n 0)|exact (Nat.lt_le_incl 1 _ HH)]. }
    assert (Z0 : nth x (lv_bytes (s_labels s)) 0 = 0).
    { rewrite B. destruct (Nat.eq_dec x (slen K 0)) as [->|].
      - rewrite app_nth2, T, Nat.sub_diag by lia. reflexivity.
      - apply nth_overflow. rewrite app_length, T. cbn [length]. lia. }
    rewrite Z0. destruct HZ as [[HZ A]|HQ];
      [|rewrite HQ, Hmem; repeat (match goal with |- context [if ?b then _ else _] => destruct b end); reflexivity].
    unfold fresh_alloc in A. rewrite T in A. cbv zeta in A.
    assert (SF : sizes_fit c K).
    { apply total_fits; [apply (told_total keys HS); exact HZ|]. exact (proj1 Hlens). }
    destruct SF as (_ & Z & _). cbv zeta in Z.
    assert (LE : slen K 0 <= sm (fun l => length (items K l)) (height K)).
    { rewrite <- T. rewrite cc_length by lia. eapply Nat.le_trans; [apply Nat.le_sub_l|].
      apply sm_le. intros l _. unfold slabs. rewrite map_length. auto. }
    set (m := N.of_nat (1 + slen K 0)) in *. set (m' := N.of_nat (1 + sm (fun l => length (items K l)) (height K))) in *.
    assert (MM : (m <= m')%N) by (unfold m, m'; lia).
    assert (W : (m * (m / 64 + 1) < 4294967296)%N).
    { eapply N.le_lt_trans; [|exact Z]. apply N.mul_le_mono; auto. apply N.add_le_mono_r. apply N.div_le_mono; lia. }
    rewrite wrap32_small in A by exact W.
    assert (D : (1 <= m / 64)%N) by (apply N.div_le_lower_bound; unfold m; lia).
    assert (AA : (m * 2 <= lv_alloc (s_labels s))%N) by (rewrite A; apply N.mul_le_mono_l; lia).
    replace (N.of_nat x <? lv_alloc (s_labels s))%N with true by (symmetry; apply N.ltb_lt; unfold m in AA; lia).
    reflexivity. }
  split; [apply G; lia|exact G].
Qed.

(** ** written and read back *)
Let c1 : config := mkCfg true 16 (cf_type c) (cf_hlen c) (cf_rlen c).
Lemma c1_ok : any_settings c1.
Proof. left. split; [reflexivity|]. split; [cbn; lia|]. exact Hlens. Qed.
Lemma c1_sparse : forall s, sparse_ok c K 0 s -> sparse_ok c1 K 0 s.
Proof. intros s []. constructor; assumption. Qed.
Lemma one_level : 1 <= height K.
Proof. pose proof (height_ge2 K e HN Hshift Hmem). lia. Qed.

Lemma alone_wf : forall s, sparse_ok c K 0 s -> roomy keys 0 s -> storable e keys -> sparse_wf e s.
Proof.
  intros s S R T. apply (sparse_ok_wf e c1 K c1_ok (storable_total keys e HS HN T) HN 0); [exact one_level|exact (c1_sparse s S)|].
  exact (can_read keys e c HN HM 0 s one_level S R T).
Qed.

Lemma sparse_round : forall s, sparse_wf e s -> forall a a' mem rest, N.of_nat (length mem) = sparse_serializedSize s ->
  block a (length mem) -> block a' (length mem) -> exists buf,
  sparse_serialize e a s (mem, 0) = Ok (buf, length mem) /\ length buf = length mem /\
  sparse_deSerialize a' (buf ++ rest) 0 = Ok (trim_s s, length mem).
Proof.
  intros s W a a' mem rest L [A1 A2] [B1 B2]. change (2 ^ 64)%N with two64 in *.
  destruct (sparse_codec a a' (length mem) A1 B1 A2 B2 e s W) as (sz & (_ & C2) & E). specialize (E 0). cbn [Nat.mul Nat.add] in E.
  destruct (sparse_size_eq e (mkSurf no_dense s) W) as (SE & _).
  cbn [sf_sparse] in SE. rewrite SE in L. assert (L' : length mem = sparse_bytes s) by lia.
  destruct (C2 mem 0 (le_n _)) as (b & W1 & L1 & _ & R1); [rewrite E; lia|]. rewrite E, <- L' in *. exists b.
  split; [exact W1|]. split; [exact L1|]. apply R1.
  rewrite firstn_app. replace (length mem - length b) with 0 by lia. rewrite firstn_O, app_nil_r. reflexivity.
Qed.

Lemma s_restored_trim : forall s s', sparse_wf e s -> s_restored e s s' -> s' = trim_s s.
Proof.
  intros s s' W (a & a' & mem & buf & rest & m & m' & H1 & H2 & H3 & H4 & H5).
  destruct (sparse_round s W a a' mem rest H1 H2 H3) as (buf' & E & _ & E'). rewrite E in H4. injection H4 as <- <-.
  rewrite E' in H5. injection H5 as <- _. reflexivity.
Qed.

Lemma s_part_ok : forall s, s_part e c keys s -> sparse_ok c K 0 s /\ roomy keys 0 s.
Proof.
  intros s H. induction H as [s H|s s' H (S & R) T Q].
  - destruct (alone_parts s H) as (S & F). split; [exact S|]. exact (fresh_roomy keys c1 HS HN c1_ok 0 s one_level F).
  - rewrite (s_restored_trim s s' (alone_wf s S R T) Q). exact (trim_sparse keys c HN 0 s S).
Qed.
End Size.

(** ** in the words of the properties *)
Section Words.
Variables (e : env) (c : config) (keys : list bytes) (s : sparse).
Hypothesis HG : good_keys keys.
Hypothesis HM : machine e.
Hypothesis HC : sparse_settings c.
Hypothesis HT : two_keys keys.
Hypothesis HA : s_part e c keys s.
Let HK : sparse_ok c (uniq keys) 0 s := proj1 (s_part_ok keys HG e c HM HC s HA).
Let H2 : 2 <= length (uniq keys) := two_uniq keys HT.
Let Hlens : lens_ok (cf_type c) (cf_hlen c) (cf_rlen c) := proj2 HC.

Lemma w_admits : forall k q d, In k keys -> is_bytes q -> dist_len keys k d -> firstn d q = firstn d k ->
  exists b, s_lookupKey e s q 0 = Ok b /\ (b = true <-> admits c k q d).
Proof. apply (alone_admits keys e c s HG HM Hlens HK H2). Qed.

Lemma w_stored : forall k, In k keys -> s_lookupKey e s k 0 = Ok true.
Proof.
  intros k Hk. destruct (in_kk keys k Hk) as (i & Hi & <-). pose proof (alone_bytes keys HG i Hi) as Hb.
  destruct (alone_ans keys e c s HG HM Hlens HK H2 (kk (uniq keys) i) Hb) as (b & E & A & _).
  { right. exists i. split; [exact Hi|]. reflexivity. }
  rewrite E. rewrite (A i Hi eq_refl). unfold acc. rewrite accepts_refl. reflexivity.
Qed.

Lemma w_unfollowed : (small keys /\ alone e c keys s) \/ quiet e -> forall q, is_bytes q ->
  (forall k d, In k keys -> dist_len keys k d -> firstn d q <> firstn d k) ->
  exists b, s_lookupKey e s q 0 = Ok b /\ (b = true -> cf_type c = kNone /\ In 0 q).
Proof.
  intros HZ q Hq F. assert (HZ' : (small keys /\ fresh_alloc (uniq keys) 0 s) \/ quiet e).
  { destruct HZ as [(A & B)|B]; [left|right; exact B]. split; [exact A|]. exact (proj2 (alone_parts keys HG e c HM HC s B)). }
  destruct (alone_ans keys e c s HG HM Hlens HK H2 q Hq (alone_zeros keys HG e c HM HC s q HK HT HZ')) as (b & E & _ & A).
  exists b. split; [exact E|]. intros ->. destruct A as [A|A]; auto; [|discriminate].
  intros i Hi M. apply (F (kk (uniq keys) i) (S (leafl (uniq keys) i))); auto using kk_in. apply (dist_at keys HG). exact Hi.
Qed.

Lemma w_seek : forall q incl, is_bytes q -> ~ trap e c keys 0 q -> exists fp it p,
  s_moveToKeyGreaterThan e s q incl (siter_new s) = Ok (fp, it) /\ gt_place c keys 0 q incl fp p /\
  match p with Some i => stands_alone e c s keys it i | None => si_valid it = false end.
Proof. apply (alone_gt keys e c s HG HM Hlens HK H2). Qed.

Lemma w_ends :
  (exists it, s_first e s = Ok it /\ stands_alone e c s keys it 0) /\
  (exists it, s_last e s = Ok it /\ stands_alone e c s keys it (length (uniq keys) - 1)).
Proof.
  split.
  - destruct (alone_first keys e c s HG HM HK H2) as (it & E & SA). exists it. split; [exact E|].
    apply (alone_stands keys e c s HG HM Hlens HK H2); auto. lia.
  - destruct (alone_last keys e c s HG HM HK H2) as (it & E & SA). exists it. split; [exact E|].
    apply (alone_stands keys e c s HG HM Hlens HK H2); auto. lia.
Qed.

End Words.
