(** Filters without dense levels: the sparse levels start at the root. *)
From Coq Require Import Arith List NArith ZArith Bool Lia ZifyN ZifyNat ZifyBool Sorting.Sorted.
From Verif Require Import Res Word Config BitFacts WordFacts Bitvector BitvectorFacts Rank Select
  RankSelectFacts LabelVector LabelFacts Suffix Spec SuffixFacts Builder KeyFacts Trie BuilderFacts
  DenseBuild StructFacts NodeFacts SparseFacts Dense Sparse DenseFacts LookupFacts FilterFacts
  Surf IterTrie IterDense IterDMove IterSparse IterFacts IterKey SeekOrder SuffixOrder SeekDense SeekSparse SeekFacts CompareFacts IterSim
  SpecApi SpecFilter SpecIter SpecRange SpecBare SpecTrie IterApi RangeApi PointFacts TrieApi SizeFacts.
Import ListNotations.

Section Bare.
Variables (keys : list bytes) (e : env) (c : config) (f : surf).
Hypothesis HG : good_keys keys.
Hypothesis HM : machine e.
Hypothesis HC : bare_settings c.
Hypothesis HF : filter_of e c keys f.
Hypothesis H2 : 2 <= length (uniq keys).
Notation K := (uniq keys).
Notation n := (length K).
Notation kk := (kk K). Notation lo := (lo K). Notation leafl := (leafl K). Notation term := (term K). Notation anc := (anc K).
Notation height := (height K). Notation NN := (NN K). Notation louds := (louds K).
Notation sat := (sat K 0). Notation sidle0 := (sidle0 K 0). Notation spos := (spos K 0).

Let HS : StronglySorted klt K := proj1 (good_uniq keys HG).
Let HB : Forall is_bytes K := proj1 (proj2 (good_uniq keys HG)).
Let HE : Forall (fun k => k <> []) K := proj1 (proj2 (proj2 (good_uniq keys HG))).
Let HN : length K <> 0 := proj2 (proj2 (proj2 (good_uniq keys HG))).
Let Hmem : strict_mem e = false := proj2 HM.
Let Hshift : strict_shift e = false := proj1 HM.
Let Hd : cf_dense c = false := proj1 HC.
Let Ht : cf_type c = kNone := proj1 (proj2 HC).

Local Instance wide_0 : wide K 0.
Proof. right. exact H2. Qed.

Lemma bare_lens : lens_ok (cf_type c) (cf_hlen c) (cf_rlen c).
Proof. split; [apply HC|]. rewrite Ht. exact I. Qed.

Lemma bare_parts : d_height (sf_dense f) = 0 /\ sparse_ok c K 0 (sf_sparse f).
Proof.
  destruct (filter_any keys e c HS HB HE HN HM (or_intror HC) f HF) as (st & A & _ & D & S & _). rewrite Hd in A. subst st.
  split; [exact (dk_h _ _ _ _ D)|exact S].
Qed.
Let HD : d_height (sf_dense f) = 0 := proj1 bare_parts.
Let HK : sparse_ok c K 0 (sf_sparse f) := proj2 bare_parts.
Let Hst2 : 1 <= height.
Proof. pose proof (height_ge2 K e HN Hshift Hmem). lia. Qed.
Let Z0 : 0 <= 0 := le_n 0.

Lemma root_louds : louds 0 0 = true. Proof. apply (louds_root K HN). Qed.
Lemma root_NN : NN 0 0 = 0.
Proof. unfold SparseFacts.NN. cbn [sm cn]. rewrite (louds_root K HN). reflexivity. Qed.
Lemma root_range : range K 0 0 (n - 1).
Proof. split; [lia|]. split; [lia|]. split; [lia|left; lia]. Qed.

(** ** the dense part of an iterator *)
Definition dnone (d : diter) : Prop :=
  di_valid d = true /\ di_search d = false /\ di_len d = 0 /\ di_atprefix d = false.

Lemma dnone_next : forall it, dnone (it_d it) -> incrementDenseIter e f it = Fail (off_end e).
Proof.
  intros it (V & _ & L & A). unfold incrementDenseIter, di_next, off_end, massert. rewrite V, L, A. cbn [negb Nat.ltb Nat.leb andb].
  rewrite andb_true_r. destruct (asserts e); reflexivity.
Qed.
Lemma dnone_prev : forall it, dnone (it_d it) -> decrementDenseIter e f it = Fail (off_end e).
Proof.
  intros it (V & _ & L & A). unfold decrementDenseIter, di_prev, off_end, massert. rewrite V, L, A. cbn [negb Nat.ltb Nat.leb andb].
  rewrite andb_true_r. destruct (asserts e); reflexivity.
Qed.
Lemma dnone_incomplete : forall d, dnone d -> di_complete d = false.
Proof. intros d (_ & S & _). unfold di_complete. rewrite S. reflexivity. Qed.
Lemma dnone_key : forall d, dnone d -> di_getKey d = Ok [].
Proof. intros d (V & _ & L & A). unfold di_getKey. rewrite V, L, A. reflexivity. Qed.

Definition bat (i : nat) (it : iter) : Prop := dnone (it_d it) /\ sat i (it_s it).

Lemma bat_valid : forall i it, bat i it -> it_valid it = true.
Proof. intros i it ((V & S & _) & (SV & _)). unfold it_valid. rewrite V, SV. apply orb_true_r. Qed.

(** ** steps *)
Lemma bat_next : forall i it, i < n -> bat i it ->
  if S i <? n then exists it', it_next e f it = Ok (true, it') /\ bat (S i) it' else it_next e f it = Fail (off_end e).
Proof.
  intros i it Hi HA. unfold it_next. rewrite (bat_valid i it HA). destruct HA as (DA & SA). cbn [negb].
  unfold incrementSparseIter. rewrite (proj1 SA). cbn [negb].
  destruct (si_next_ok c K HS HB HE HN 0 (sf_sparse f) e Z0 Hst2 HK i (it_s it) Hi ltac:(lia) SA) as (s & E & G).
  rewrite E. cbn [bind]. cbn [Nat.leb] in G. rewrite andb_true_r in G.
  destruct (S i <? n).
  - pose proof (proj1 G) as SV. rewrite SV. eexists. split; [reflexivity|]. split; [exact DA|exact G].
  - assert (SV : si_valid s = false) by (apply G). rewrite SV. apply dnone_next. exact DA.
Qed.

Lemma lo_0 : lo 0 = 0. Proof. reflexivity. Qed.

Lemma first_prev : forall it, sat 0 it -> exists it', si_prev e (sf_sparse f) it = Ok it' /\ si_valid it' = false.
Proof.
  intros it (V & L & T & P). unfold si_prev, si_lastpos. rewrite L. rewrite massert_ok by (rewrite Nat.sub_0_r; reflexivity). cbn [bind].
  pose proof (pos_read K HN 0 Z0 Hst2 0 (leafl 0) it ltac:(lia) (le_n _) ltac:(lia) P) as PR.
  rewrite !Nat.sub_0_r in *. cbn [pred_idx bind]. rewrite PR. cbn [bind].
  destruct (_ =? 0); [eexists; split; reflexivity|]. change (si_len (si_setTerm it false)) with (si_len it). rewrite L. clear PR.
  assert (G : forall len i', len <= S (leafl 0) -> slpre K 0 0 len (si_key i') (si_pos i') ->
    exists it', si_prev_loop e (sf_sparse f) i' len = Ok it' /\ si_valid it' = false).
  { induction len as [|m IH]; intros i' LE P'; cbn [si_prev_loop]; [eexists; split; reflexivity|].
    pose proof (pos_read K HN 0 Z0 Hst2 0 m i' ltac:(lia) ltac:(lia) ltac:(lia)) as PR. rewrite !Nat.sub_0_r in PR.
    rewrite (PR P'). cbn [bind].
    assert (AS : anc m 0 = 0) by (pose proof (anc_le K m 0); lia). rewrite AS.
    assert (LO : louds m 0 = true).
    { apply louds_spec. split; [lia|]. destruct m as [|m]; [right; auto|left].
      unfold Trie.leafl in LE. rewrite lo_0 in *. lia. }
    rewrite (s_louds_read c K HN 0 (sf_sparse f) e Z0 Hst2 HK m 0) by (auto using louds_item; lia). cbn [bind]. rewrite LO.
    apply IH; [lia|]. eapply slpre_le; [exact P'|lia]. }
  apply G; [lia|exact P].
Qed.

Lemma bat_prev : forall i it, i < n -> bat i it ->
  match i with
  | O => it_prev e f it = Fail (off_end e)
  | S j => exists it', it_prev e f it = Ok (true, it') /\ bat j it'
  end.
Proof.
  intros i it Hi HA. unfold it_prev. rewrite (bat_valid i it HA). destruct HA as (DA & SA). cbn [negb].
  unfold decrementSparseIter. rewrite (proj1 SA). cbn [negb]. destruct i as [|j].
  - destruct (first_prev _ SA) as (s & E & G). rewrite E. cbn [bind]. rewrite G. apply dnone_prev. exact DA.
  - destruct (si_prev_ok c K HS HB HE HN 0 (sf_sparse f) e Z0 Hst2 HK (S j) (it_s it) ltac:(lia) Hi ltac:(lia) SA) as (s & E & G).
    rewrite E. cbn [bind]. cbn [Nat.leb] in G. destruct G as (i' & EI & G). injection EI as <-.
    rewrite (proj1 G). eexists. split; [reflexivity|]. split; [exact DA|exact G].
Qed.

(** ** reading *)
Lemma bare_suf : s_suf (sf_sparse f) = suf_empty.
Proof. pose proof (sk_suf _ _ _ _ HK) as R. unfold suf_rel in R. rewrite Ht in R. exact R. Qed.

Lemma bsi_key : forall i it, i < n -> sat i it -> si_getKey it = Ok (firstn (S (leafl i)) (kk i)).
Proof.
  intros i it Hi (V & HL & HA & (P1 & P2 & P3)). unfold si_getKey. rewrite V. cbn [negb]. rewrite HA, HL. rewrite !Nat.sub_0_r in *.
  pose proof (leafl_height K HN 0 Z0 Hst2 i Hi) as LH. pose proof (leafl_le K i) as LE.
  destruct (term (leafl i) i) eqn:ET; unfold Trie.term in ET.
  - cbn [pred_idx bind].
    replace (leafl i <=? length (si_key it)) with true by lia. f_equal.
    rewrite (path_key K HN i (leafl i) (si_key it) 0); [|intros m Hm; apply P3; lia|lia|lia]. cbn [skipn].
    rewrite !firstn_all2 by lia. reflexivity.
  - cbn [bind]. replace (S (leafl i) <=? length (si_key it)) with true by lia. f_equal.
    rewrite (path_key K HN i (S (leafl i)) (si_key it) 0); [reflexivity|intros m Hm; apply P3; lia|lia|lia].
Qed.

Lemma bat_look : forall i it, i < n -> bat i it ->
  exists v, look e f it = Ok v /\ view_at c keys (Some i) v.
Proof.
  intros i it Hi HA. pose proof (bat_valid i it HA) as V. destruct HA as (DA & SA).
  exists (mkView true (firstn (S (leafl i)) (kk i)) (0, Some 0%N) (firstn (S (leafl i)) (kk i), 0)).
  assert (NR : ~ keeps_real c) by (intros [X|X]; congruence).
  split.
  - unfold look, it_getKey, it_getSuffix, it_getKeyWithSuffix. rewrite V. cbn [negb]. rewrite (dnone_incomplete _ DA).
    unfold di_getKeyWithSuffix. rewrite (dnone_key _ DA). cbn [bind]. rewrite (dnone_incomplete _ DA). cbn [andb bind].
    rewrite (bsi_key i _ Hi SA). cbn [bind]. unfold si_getSuffix, si_getKeyWithSuffix. rewrite bare_suf. cbn [sf_type suf_empty has_real bind].
    rewrite (bsi_key i _ Hi SA). reflexivity.
  - split; auto. exists (S (leafl i)). split; [apply (dist_at keys HG); auto|]. split; auto. split; auto. intros _.
    split; split; cbn [vw_suffix vw_keysuf]; intros; tauto.
Qed.

Lemma bat_stands : forall i it, i < n -> bat i it -> stands_bare e c f keys it i.
Proof.
  intros i it Hi HA ms. revert i it Hi HA. induction ms as [|m ms IH]; intros i it Hi HA; cbn [steps run].
  - destruct (bat_look i it Hi HA) as (v & A & B). eauto.
  - destruct m; cbn [step do_move].
    + pose proof (bat_next i it Hi HA) as Q. destruct (Nat.ltb_spec (S i) n) as [L|L].
      * destruct Q as (it' & E & G). rewrite E. cbn [bind]. apply IH; auto.
      * rewrite Q. reflexivity.
    + pose proof (bat_prev i it Hi HA) as Q. destruct i as [|j].
      * rewrite Q. reflexivity.
      * destruct Q as (it' & E & G). rewrite E. cbn [bind]. apply IH; auto. lia.
Qed.

(** ** seeks *)
Section Query.
Variable q : bytes.
Hypothesis Hq : is_bytes q.
Hypothesis HT : ~ stray e keys 0 q.

Lemma bare_seek : forall incl s0, sidle0 s0 -> si_start s0 = 0 -> exists fp s i,
  s_moveToKeyGreaterThan e (sf_sparse f) q incl s0 = Ok (fp, s) /\ landed c K 0 q incl i fp /\
  if i <? n then sat i s else si_valid s = false.
Proof.
  intros incl s0 SI SS. pose proof SI as (I1 & I2 & I3 & I4 & I5).
  unfold stray in HT.
  pose proof (clean_seek keys HG 0 q Z0 Hst2 ltac:(tauto) ltac:(tauto)) as Hclean.
  destruct (s_gt_spec c K HS HB HE HN 0 (sf_sparse f) e Z0 Hst2 HK Hmem Hshift bare_lens q incl Hq Hclean 0 (n - 1) root_range
    q 0 0 s0) as (fp & s & E & G); auto; try lia.
  { apply root_louds. }
  { split; auto. split; auto. intros m Hm. inversion Hm. }
  { intros _. rewrite root_NN. exact SS. }
  unfold s_moveToKeyGreaterThan. rewrite SS, (sk_st _ _ _ _ HK). cbn [skipn].
  pose proof (s_first_pos c K HN 0 (sf_sparse f) e Z0 Hst2 HK 0 0 Z0 root_louds) as FP. rewrite root_NN in FP. rewrite FP. cbn [bind].
  rewrite E. destruct G as [(i & Hi & SA & LA)|((SV & _) & LA)].
  - exists fp, s, i. split; auto. split; auto. replace (i <? n) with true by lia. exact SA.
  - exists fp, s, (S (n - 1)). split; auto. split; auto. replace (S (n - 1) <? n) with false by lia. exact SV.
Qed.

Definition seeked (incl : bool) (r : res iter) : Prop :=
  exists fp i, landed c K 0 q incl i fp /\
    if i <? n then exists it, r = Ok it /\ it_fp it = fp /\ bat i it else r = Fail (off_end e).

Lemma bare_gt : forall incl, seeked incl (moveToKeyGreaterThan e f q incl).
Proof.
  intros incl. unfold moveToKeyGreaterThan, d_moveToKeyGreaterThan. rewrite HD. cbn [d_gt_loop bind].
  set (d := di_setFlags (di_setSend (it_d (iter_new f)) 0) true false true true).
  assert (DN : dnone d) by (repeat split). change (di_valid d) with true. rewrite (dnone_incomplete d DN). change (di_search d) with false. cbn [negb].
  destruct (bare_seek incl (it_s (passToSparse (it_setFp (it_setD (iter_new f) d) true)))) as (fp & s & i & E & LA & G).
  { unfold SeekSparse.sidle0. cbn [passToSparse it_s it_setFp it_setD iter_new siter_new si_setStart si_valid si_len si_atterm si_key si_pos].
    rewrite !repeat_length, (sk_h _ _ _ _ HK), (sk_st _ _ _ _ HK). auto. }
  { reflexivity. }
  rewrite E. cbn [bind]. exists fp, i. split; auto. destruct (i <? n).
  - pose proof (proj1 G) as SV. rewrite SV. cbn [negb]. eexists. split; [reflexivity|]. split; [reflexivity|]. split; [exact DN|exact G].
  - rewrite G. cbn [negb]. rewrite dnone_next by exact DN. reflexivity.
Qed.
End Query.

(** ** comparisons *)
Lemma bare_compare : forall i it q, i < n -> is_bytes q -> bat i it -> exists z, it_compare e f it q = Ok z /\ cmp_at c K 0 i q z.
Proof.
  intros i it q Hi Hq HA. unfold it_compare. rewrite (bat_valid i it HA). rewrite massert_ok by reflexivity. cbn [bind].
  destruct HA as (DA & SA). unfold di_compare. rewrite (proj2 (proj2 (proj2 DA))). cbn [andb]. rewrite (dnone_key _ DA). cbn [bind length].
  unfold substr. cbn [Nat.ltb Nat.leb bind skipn firstn]. change (str_compare [] []) with 0%Z. cbn [Z.eqb negb].
  rewrite (dnone_incomplete _ DA). cbn [bind orb Z.eqb negb].
  pose proof (bsi_key i _ Hi SA) as KO. pose proof SA as (V & HL & HA & P). unfold si_compare. rewrite HA, HL, (sk_st _ _ _ _ HK), !Nat.sub_0_r.
  replace (S (leafl i) - 1) with (leafl i) by lia.
  change (0 <? S (leafl i)) with true. rewrite andb_true_r. change (length q <? 0) with false. rewrite orb_false_l.
  destruct (term (leafl i) i && (leafl i <? length q)) eqn:EC.
  { apply andb_true_iff in EC. destruct EC as [E1 E2]. eexists. split; [reflexivity|]. left.
    apply Nat.ltb_lt in E2. repeat split; auto. }
  rewrite KO. cbn [bind]. unfold substr_from. cbn [Nat.ltb Nat.leb bind skipn].
  assert (SP : exists pos sp, si_lastpos (it_s it) = Ok pos /\ s_getSuffixPos e (sf_sparse f) pos = Ok sp).
  { unfold si_lastpos. rewrite HL, Nat.sub_0_r. cbn [pred_idx bind].
    pose proof (pos_read K HN 0 Z0 Hst2 i (leafl i) (it_s it) ltac:(lia) (le_n _) Hi P) as PR. rewrite Nat.sub_0_r in PR.
    eexists. eexists. split; [exact PR|]. rewrite (proj1 (anc_leaf K i Hi)).
    apply (s_suffix_pos c K HN 0 (sf_sparse f) e Z0 Hst2 HK Hmem); auto; [lia|]. apply anc_leaf. auto. }
  destruct SP as (pos & sp & E1 & E2). rewrite E1. cbn [bind]. rewrite E2. cbn [bind]. rewrite bare_suf.
  assert (CV : forall x l, suf_compare e suf_empty x q l = Ok kCouldBePositive)
    by (intros; unfold suf_compare; destruct (_ <=? _)%N; reflexivity).
  rewrite CV. set (t := firstn (S (leafl i)) (kk i)) in *.
  destruct (str_compare_pre t q) as [[A B]|[[A [B FA]]|[A B]]].
  - rewrite A. exists (-1)%Z. split; [reflexivity|]. right. left. split; auto.
  - replace (_ =? 0)%Z with false by lia. cbn [negb]. eexists. split; [reflexivity|]. right. right. left. split; auto. split; auto. split; auto.
    intros T LQ. exfalso. apply andb_false_iff in EC. destruct EC as [EC|EC]; [congruence|]. apply Nat.ltb_ge in EC. clear - EC LQ. lia.
  - rewrite A. eexists. split; [reflexivity|]. right. right. right. split.
    + assert (LT : length t = S (leafl i) \/ (length t = leafl i /\ length q <= leafl i)).
      { unfold t. rewrite firstn_length. pose proof (leafl_le K i) as LE. apply andb_false_iff in EC. unfold Trie.term in EC.
        destruct EC as [EC|EC]; destruct (le_lt_dec (S (leafl i)) (length (kk i))); lia. }
      unfold CompareFacts.shown. fold t. destruct LT as [LT|[LT LQ]]; [rewrite <- LT; exact B|].
      rewrite <- B, LT. rewrite !firstn_all2 by lia. reflexivity.
    + unfold cmp_val. rewrite Ht. reflexivity.
Qed.

(** ** ranges *)
Lemma bare_range : forall it0 l li r ri, member_iter e f it0 -> is_bytes l -> is_bytes r -> ~ stray e keys 0 l ->
  exists fp i, landed c K 0 l li i fp /\
    if i <? n then exists z, cmp_at c K 0 i r z /\ range_after e f it0 l li r ri = Ok ((z =? 2018) || (z <? 0))%Z
    else range_after e f it0 l li r ri = Fail (off_end e).
Proof.
  intros it0 l li r ri MI Hl Hr HT. pose proof (member_sized e f it0 MI) as (_ & _ & S3 & S4).
  unfold range_after, lookupRange_st, d_moveToKeyGreaterThan. rewrite HD. cbn [d_gt_loop bind].
  set (d := di_setFlags (di_setSend (it_d (it_clear it0)) 0) true false true true).
  assert (DN : dnone d) by (repeat split). change (di_valid d) with true. rewrite (dnone_incomplete d DN). change (di_search d) with false. cbn [negb].
  destruct (bare_seek l Hl HT li (it_s (passToSparse (it_setD (it_clear it0) d)))) as (fp & s & i & E & LA & G).
  { unfold SeekSparse.sidle0. cbn [passToSparse it_s it_setFp it_setD it_clear siter_clear si_setStart si_valid si_len si_atterm si_key si_pos].
    rewrite S3, S4, (sk_h _ _ _ _ HK), (sk_st _ _ _ _ HK). auto. }
  { reflexivity. }
  rewrite E. cbn [bind]. exists fp, i. split; auto. destruct (Nat.ltb_spec i n) as [L|L].
  - pose proof (proj1 G) as SV. rewrite SV. cbn [negb bind].
    assert (HA : bat i (it_setS (passToSparse (it_setD (it_clear it0) d)) s)) by (split; [exact DN|exact G]).
    rewrite (bat_valid i _ HA). cbn [negb]. destruct (bare_compare i _ r L Hr HA) as (z & EZ & CA). rewrite EZ. cbn [bind].
    exists z. split; auto. destruct (cmp_at_sound keys HG c 0 i r z L Hr CA) as (_ & _ & _ & NZ).
    change kCouldBePositive with 2018%Z. destruct (z =? 2018)%Z; [reflexivity|]. cbn [orb bind].
    destruct ri; cbn [bind]; f_equal. destruct (Z.ltb_spec z 0), (Z.leb_spec z 0); auto; lia.
  - rewrite G. cbn [negb]. rewrite dnone_next by exact DN. reflexivity.
Qed.
(** ** the ends: valid never becomes true *)
Lemma bare_first : exists it, moveToFirst e f = Ok it /\ it_d it = diter_new (sf_dense f).
Proof.
  unfold moveToFirst. rewrite HD. cbn [Nat.ltb Nat.leb].
  unfold si_setToFirstLabelInRoot. rewrite (sk_st _ _ _ _ HK), massert_ok by reflexivity. cbn [bind].
  unfold iter_new, siter_new. cbn [it_s si_pos si_key]. rewrite (sk_st _ _ _ _ HK).
  rewrite vset_ok by (rewrite repeat_length, (sk_h _ _ _ _ HK); lia). cbn [bind].
  assert (I0 : item K 0 0 = true) by (apply louds_item, root_louds).
  pose proof (s_lab_read c K HN 0 (sf_sparse f) e Z0 Hst2 HK 0 0 Z0 I0) as LR.
  assert (P0 : spos 0 0 = 0) by reflexivity. rewrite P0 in LR. rewrite LR. cbn [bind].
  rewrite vset_ok by (rewrite repeat_length, (sk_h _ _ _ _ HK); lia). cbn [bind].
  match goal with |- context [si_moveToLeftMostKey e (sf_sparse f) ?x] => set (s0 := x) end.
  destruct (sstart_left_node c K HS HB HE HN 0 (sf_sparse f) e Z0 Hst2 HK 0 s0) as (s & E & _); try reflexivity; try lia.
  { apply root_louds. }
  { unfold s0. scbn. rewrite lset_length, repeat_length, (sk_h _ _ _ _ HK). reflexivity. }
  { unfold s0. scbn. rewrite lset_length, repeat_length, (sk_h _ _ _ _ HK). reflexivity. }
  { unfold s0. scbn. symmetry. apply root_NN. }
  rewrite E. cbn [bind]. eexists. split; reflexivity.
Qed.

Lemma root_right : forall it, length (si_key it) = height - 0 -> length (si_pos it) = height - 0 ->
  si_start it = 0 -> si_len it = 0 -> si_atterm it = false ->
  exists it', si_moveToRightMostKey e (sf_sparse f) it = Ok it' /\ sat (n - 1) it'.
Proof.
  intros it L1 L2 S0 HL HA. set (i := n - 1). assert (Hi : i < n) by (unfold i; lia).
  assert (HI : item K 0 (anc 0 i) = true) by (apply anc_item; auto; lia).
  pose proof (anc_le K 0 i) as AL.
  assert (NE : NN 0 (anc 0 i) = 0).
  { etransitivity; [|apply root_NN]. apply (NN_same K 0 0 (anc 0 i) ltac:(lia)). intros m Hm. apply louds_root_only; lia. }
  destruct (si_append_ok K HN 0 e Z0 Hst2 i 0 it) as (k & p & E & P); auto; try lia.
  { split; auto. split; auto. intros m Hm. lia. }
  assert (G : si_moveToRightMostKey e (sf_sparse f) it = si_moveToRightMostKey e (sf_sparse f) (si_setLen (si_setKP it k p) (1 - 0))).
  { unfold si_moveToRightMostKey at 1. rewrite HL. cbn [Nat.eqb]. rewrite S0.
    pose proof (s_first_pos c K HN 0 (sf_sparse f) e Z0 Hst2 HK 0 0 Z0 root_louds) as FP. rewrite root_NN in FP. rewrite FP. cbn [bind].
    pose proof (s_last_pos c K HN 0 (sf_sparse f) e Z0 Hst2 HK 0 (anc 0 i) Z0 HI) as LP. rewrite NE in LP. rewrite LP; [cbn [bind]|].
    2: { apply (anc_no_later K); auto. left. unfold i. lia. }
    rewrite (s_lab_read c K HN 0 (sf_sparse f) e Z0 Hst2 HK) by (auto; lia). cbn [bind]. rewrite E. cbn [bind].
    unfold si_moveToRightMostKey. reflexivity. }
  rewrite G. apply (smove_right_ok c K HS HB HE HN 0 (sf_sparse f) e Z0 Hst2 HK i 0); auto; try lia. left. unfold i. lia.
Qed.

Lemma bare_last : exists it, moveToLast e f = Ok it /\ it_d it = diter_new (sf_dense f).
Proof.
  unfold moveToLast. rewrite HD. cbn [Nat.ltb Nat.leb].
  unfold si_setToLastLabelInRoot. rewrite (sk_st _ _ _ _ HK), massert_ok by reflexivity. cbn [bind].
  unfold iter_new, siter_new. cbn [it_s si_pos si_key]. rewrite (sk_st _ _ _ _ HK).
  set (i := n - 1). assert (Hi : i < n) by (unfold i; lia).
  assert (HI : item K 0 (anc 0 i) = true) by (apply anc_item; auto; lia).
  pose proof (anc_le K 0 i) as AL.
  assert (NE : NN 0 (anc 0 i) = 0).
  { etransitivity; [|apply root_NN]. apply (NN_same K 0 0 (anc 0 i) ltac:(lia)). intros m Hm. apply louds_root_only; lia. }
  pose proof (s_last_pos c K HN 0 (sf_sparse f) e Z0 Hst2 HK 0 (anc 0 i) Z0 HI) as LP. rewrite NE in LP. rewrite LP.
  2: { apply (anc_no_later K); auto. left. unfold i. lia. }
  cbn [bind]. rewrite vset_ok by (rewrite repeat_length, (sk_h _ _ _ _ HK); lia). cbn [bind].
  rewrite (s_lab_read c K HN 0 (sf_sparse f) e Z0 Hst2 HK) by (auto; lia). cbn [bind].
  rewrite vset_ok by (rewrite repeat_length, (sk_h _ _ _ _ HK); lia). cbn [bind].
  match goal with |- context [si_moveToRightMostKey e (sf_sparse f) ?x] => set (s0 := x) end.
  destruct (root_right s0) as (s & E & _); try reflexivity.
  { unfold s0. scbn. rewrite lset_length, repeat_length, (sk_h _ _ _ _ HK). reflexivity. }
  { unfold s0. scbn. rewrite lset_length, repeat_length, (sk_h _ _ _ _ HK). reflexivity. }
  rewrite E. cbn [bind]. eexists. split; reflexivity.
Qed.

(** ** in terms of the keys *)
Lemma bare_below : forall q st incl i fp, landed c K st q incl i fp -> forall x, x < i -> klt (kk x) q \/ (kk x = q /\ incl = false).
Proof.
  intros q st incl i fp. apply (landed_below keys HG c q). intros x _ _ X. unfold cmp_val in X. rewrite Ht in X. discriminate.
Qed.

Lemma bare_stray : forall q, ~ trap e c keys 0 q -> ~ stray e keys 0 q.
Proof. intros q HT X. apply HT. unfold trap. unfold stray in X. tauto. Qed.

Lemma bare_gt_place : forall q incl, is_bytes q -> ~ trap e c keys 0 q -> exists fp p,
  gt_place c keys 0 q incl fp p /\
  match p with
  | Some i => exists it, moveToKeyGreaterThan e f q incl = Ok it /\ it_fp it = fp /\ bat i it
  | None => moveToKeyGreaterThan e f q incl = Fail (off_end e)
  end.
Proof.
  intros q incl Hq HT. destruct (bare_gt q Hq (bare_stray q HT) incl) as (fp & i & LA & G). pose proof (bare_below q 0 incl i fp LA) as B. destruct LA as (A & _ & C & _). exists fp.
  unfold gt_place. destruct (Nat.ltb_spec i n) as [L|L].
  - exists (Some i). split; [|exact G]. split; [exact B|]. split; [exact L|]. specialize (C L). destruct fp; auto.
    destruct C as [(M & _)|C]; [left|right; auto]. exists (S (leafl i)). split; [apply (dist_at keys HG); auto|]. split; auto.
    intros [X|X]; congruence.
  - exists None. split; [|exact G]. split; auto. assert (i = n) by lia. subst i. exact B.
Qed.

Lemma bare_lookup : forall q, lookupKey e f q = Ok true.
Proof. intros q. unfold lookupKey, d_lookupKey. rewrite HD. reflexivity. Qed.

Lemma bare_lt : forall q incl, is_bytes q -> ~ trap e c keys 0 q -> exists fp p,
  gt_place c keys 0 q false fp p /\
  match p with
  | Some i =>
      if fp then exists it, moveToKeyLessThan e f q incl = Ok it /\ bat i it
      else match i with
           | S (S j) => exists it, moveToKeyLessThan e f q incl = Ok it /\ bat j it
           | _ => moveToKeyLessThan e f q incl = Fail (off_end e)
           end
  | None => moveToKeyLessThan e f q incl = Fail (off_end e)
  end.
Proof.
  intros q incl Hq HT. destruct (bare_gt_place q false Hq HT) as (fp & p & GP & G). exists fp, p. split; auto.
  unfold moveToKeyLessThan. destruct p as [i|]; [|rewrite G; reflexivity]. destruct G as (it & E & FP & HA). rewrite E. cbn [bind].
  rewrite (bat_valid i it HA), FP. cbn [negb]. assert (Hi : i < n) by (apply GP).
  destruct fp; cbn [negb]; [eauto|]. pose proof (bat_prev i it Hi HA) as P1. destruct i as [|i]; [rewrite P1; reflexivity|].
  destruct P1 as (it1 & E1 & A1). rewrite E1. cbn [bind]. rewrite bare_lookup. cbn [bind].
  pose proof (bat_prev i it1 ltac:(lia) A1) as P2. destruct i as [|i]; [rewrite P2; reflexivity|].
  destruct P2 as (it2 & E2 & A2). rewrite E2. cbn [bind]. eauto.
Qed.

Lemma bare_range_true : forall it l li r ri k, member_iter e f it -> is_bytes l -> is_bytes r -> ~ trap e c keys 0 l ->
  In k keys -> above li l k -> below ri k r -> range_after e f it l li r ri = Ok true.
Proof.
  intros it l li r ri k MI Hl Hr HT Hk HA HBe. destruct (bare_range it l li r ri MI Hl Hr (bare_stray l HT)) as (fp & i & LA & G).
  assert (NS : ~ short_bound c keys r).
  { intros (_ & x & d & _ & _ & _ & W & _). apply W. intros [X|X]; congruence. }
  destruct (Nat.ltb_spec i n) as [L|L].
  - destruct G as (z & CA & E). rewrite E. f_equal. apply (decided_true keys HG c 0 l li r ri k); auto.
    exists fp, i. split; auto. split; [apply (bare_below l 0 li i fp LA)|]. replace (i <? n) with true by lia. exists z. split; auto. split; auto.
    apply (cmp_at_sound keys HG c 0 i r z L Hr CA).
  - exfalso. pose proof (decided_true keys HG c 0 l li r ri k false Hl Hr) as Q. discriminate Q; auto.
    exists fp, i. split; auto. split; [apply (bare_below l 0 li i fp LA)|]. replace (i <? n) with false by lia. reflexivity.
Qed.

Lemma bare_range_cause : forall it l li r ri, member_iter e f it -> is_bytes l -> is_bytes r -> ~ trap e c keys 0 l ->
  range_after e f it l li r ri = Ok true ->
  exists k, In k keys /\ (forall x, In x keys -> klt x k -> kle x l) /\
    (klt l k \/ (exists d, dist_len keys k d /\ firstn d l = firstn d k)) /\
    (klt k r \/ (exists d, dist_len keys k d /\ firstn d r = firstn d k) \/
     (length k < length r /\ exists k', In k' keys /\ k' <> k /\ firstn (length k) k' = k) \/
     (firstn (length r) k = r /\ exists d, dist_len keys k d /\ length r + 2018 <= d)).
Proof.
  intros it l li r ri MI Hl Hr HT E. destruct (bare_range it l li r ri MI Hl Hr (bare_stray l HT)) as (fp & i & LA & G).
  apply (decided_cause keys HG c 0 l li r Hl Hr). exists fp, i. split; auto. split; [apply (bare_below l 0 li i fp LA)|]. destruct (Nat.ltb_spec i n) as [L|L].
  - destruct G as (z & CA & E'). exists z. split; auto. split; [apply (cmp_at_sound keys HG c 0 i r z L Hr CA)|]. congruence.
  - congruence.
Qed.

(** the seek runs off the end exactly when no key is above and none is met *)
Lemma bare_range_fault : forall it l li r ri, member_iter e f it -> is_bytes l -> is_bytes r -> ~ trap e c keys 0 l ->
  ((exists b, range_after e f it l li r ri = Ok b) \/ range_after e f it l li r ri = Fail (off_end e)) /\
  ((forall k, In k keys -> klt k l) -> (forall k d, In k keys -> dist_len keys k d -> firstn d l <> firstn d k) ->
   range_after e f it l li r ri = Fail (off_end e)).
Proof.
  intros it l li r ri MI Hl Hr HT. destruct (bare_range it l li r ri MI Hl Hr (bare_stray l HT)) as (fp & i & LA & G).
  destruct (Nat.ltb_spec i n) as [L|L].
  - destruct G as (z & CA & E). split; [left; eauto|]. intros A B. exfalso. destruct LA as (_ & _ & C & _). specialize (C L).
    pose proof (A _ (kk_in keys i L)) as LT. destruct fp.
    + destruct C as [(M & _)|(X & _)]; [|lia]. apply (B (kk i) (S (leafl i)) (kk_in keys i L)); [apply (dist_at keys HG); auto|exact M].
    + destruct C as [C|(C & _)]; [exact (klt_asym _ _ C LT)|rewrite C in LT; exact (klt_irrefl _ LT)].
  - split; auto.
Qed.
End Bare.

(** ** any filter without dense levels *)
Lemma bare_height : forall e c keys f, cf_dense c = false -> create e c keys = Ok f -> d_height (sf_dense f) = 0.
Proof.
  intros e c keys f HC HF. unfold create, build in HF. rewrite HC in HF.
  destruct (massert e _); cbn [bind] in HF; [|discriminate].
  destruct (buildSparse e c keys) as [st|]; cbn [bind] in HF; [|discriminate].
  destruct (dense_make e _) as [d|] eqn:ED; cbn [bind] in HF; [|discriminate].
  destruct (sparse_make e _) as [s|]; cbn [bind] in HF; [|discriminate]. injection HF as <-. cbn [sf_dense].
  unfold dense_make in ED. cbn [bd_start bd_cfg bd_levels bd_dense seq mapM bind] in ED.
  repeat match type of ED with bind ?m _ = _ => destruct m; cbn [bind] in ED; [|discriminate] end.
  injection ED as <-. reflexivity.
Qed.

Lemma bare_seek_any : forall e f q incl it, d_height (sf_dense f) = 0 -> moveToKeyGreaterThan e f q incl = Ok it ->
  dnone (it_d it) /\ si_valid (it_s it) = true.
Proof.
  intros e f q incl it H0 E. unfold moveToKeyGreaterThan, d_moveToKeyGreaterThan in E. rewrite H0 in E. cbn [d_gt_loop bind] in E.
  set (d := di_setFlags (di_setSend (it_d (iter_new f)) 0) true false true true) in *.
  assert (DN : dnone d) by (repeat split). change (di_valid d) with true in E. rewrite (dnone_incomplete d DN) in E.
  change (di_search d) with false in E. cbn [negb] in E.
  destruct (s_moveToKeyGreaterThan _ _ _ _ _) as [[fp s]|]; cbn [bind] in E; [|discriminate].
  destruct (si_valid s) eqn:SV; cbn [negb] in E.
  - injection E as <-. split; [exact DN|exact SV].
  - rewrite dnone_next in E by exact DN. discriminate.
Qed.

Lemma count_any : forall e f l r v, d_height (sf_dense f) = 0 -> approxCount e f l r <> Ok v.
Proof.
  intros e f l r v H0 E.
  unfold approxCount in E. destruct (moveToKeyGreaterThan e f l true) as [a|] eqn:EA; cbn [bind] in E; [|discriminate].
  destruct (bare_seek_any e f l true a H0 EA) as (DA & SA). assert (VA : it_valid a = true).
  { unfold it_valid. rewrite (proj1 DA), SA. apply orb_true_r. }
  rewrite VA in E. cbn [negb] in E. destruct (moveToKeyGreaterThan e f r true) as [b|] eqn:EB; cbn [bind] in E; [|discriminate].
  destruct (bare_seek_any e f r true b H0 EB) as (DB & SB). assert (VB : it_valid b = true).
  { unfold it_valid. rewrite (proj1 DB), SB. apply orb_true_r. }
  rewrite VB in E. cbn [negb bind] in E. unfold approxCount_it in E. rewrite VA, VB in E. cbn [negb orb] in E.
  unfold d_approxCount in E. rewrite (proj1 (proj2 (proj2 DA))) in E. cbn [seq mapM bind] in E. discriminate.
Qed.

Lemma bare_count : forall e c keys f l r v, cf_dense c = false -> create e c keys = Ok f -> approxCount e f l r <> Ok v.
Proof. intros e c keys f l r v HC HF. apply count_any. exact (bare_height e c keys f HC HF). Qed.
Lemma bare_count_restored : forall e c keys f, good_keys keys -> machine e -> bare_settings c -> filter_of e c keys f ->
  (forall q, lookupKey e f q = Ok true) /\ (forall l r v, approxCount e f l r <> Ok v) /\ getSparseStartLevel f = 0.
Proof.
  intros e c keys f HG HM HC HF. destruct (bare_parts keys e c f HG HM HC HF) as [H0 S]. split; [|split].
  - intros q. unfold lookupKey, d_lookupKey. rewrite H0. reflexivity.
  - intros l r v. apply count_any. exact H0.
  - exact (sk_st _ _ _ _ S).
Qed.

Lemma bare_ends_any : forall e f it, d_height (sf_dense f) = 0 ->
  moveToFirst e f = Ok it \/ moveToLast e f = Ok it -> it_valid it = false.
Proof.
  intros e f it H0 H. unfold moveToFirst, moveToLast in H. rewrite H0 in H.
  cbn [Nat.ltb Nat.leb] in H. destruct H as [H|H].
  - destruct (si_setToFirstLabelInRoot _ _ _); cbn [bind] in H; [|discriminate].
    destruct (si_moveToLeftMostKey _ _ _); cbn [bind] in H; [|discriminate]. injection H as <-. reflexivity.
  - destruct (si_setToLastLabelInRoot _ _ _); cbn [bind] in H; [|discriminate].
    destruct (si_moveToRightMostKey _ _ _); cbn [bind] in H; [|discriminate]. injection H as <-. reflexivity.
Qed.

(** ** which key lists can be built *)
Lemma two_uniq : forall keys, two_keys keys -> 2 <= length (uniq keys).
Proof.
  intros keys (k & k' & A & B & NE). apply uniq_in in A. apply uniq_in in B. destruct (uniq keys) as [|x [|y r]]; cbn [length]; [contradiction| |lia].
  exfalso. cbn in A, B. intuition congruence.
Qed.

Section Size.
Variable keys : list bytes.
Hypothesis HG : good_keys keys.
Variables (e : env) (c : config).
Hypothesis HM : machine e.
Hypothesis HC : bare_settings c.
Hypothesis HT : told_apart keys 8388607.
Notation K := (uniq keys).

Lemma bare_builds : exists b, build e c keys = Ok b.
Proof.
  destruct (good_uniq keys HG) as (HS & HB & HE & HN). pose proof HC as (C1 & C2 & C3). pose proof HM as [M1 M2].
  pose proof (build_bare c K e HS HB HE HN M1 M2 (bare_lens c HC) keys eq_refl C1) as Q.
  destruct (build e c keys) as [b|er]; [eauto|]. exfalso. cbn [okp] in Q. destruct er; try contradiction. apply Q. clear Q.
  pose proof (told_total keys HS _ HT). pose proof (total_keys K).
  assert (length K * cf_len c <= total_bytes K * 64) by (apply Nat.mul_le_mono; [auto|exact C3]). lia.
Qed.

Lemma bare_room : (exists f, create e c keys = Ok f) <-> room_at K 0.
Proof.
  destruct bare_builds as (b & EB). destruct (good_uniq keys HG) as (HS & HB & HE & HN). pose proof HM as [M1 M2]. pose proof HC as (C1 & C2 & C3).
  pose proof (create_bare c K e HS HB HE HN M1 M2 (bare_lens c HC) keys b eq_refl C1 C2 EB) as Q. split.
  - intros (f & E). rewrite E in Q. destruct Q as (_ & S & F). unfold room_at, labels_from.
    pose proof (sk_room _ _ _ _ S) as R. unfold fresh_alloc in F. rewrite F in R. exact R.
  - intros R. destruct (create e c keys) as [f|er]; [eauto|]. exfalso. apply Q. clear Q.
    pose proof (told_total keys HS _ HT) as T. pose proof (items_total K) as T1. pose proof (total_keys K) as T2.
    assert (T3 : sm (nds K) (height K) <= total_bytes K).
    { eapply Nat.le_trans; [|exact T1]. apply sm_le. intros. apply nds_items. }
    split; [lia|]. split; [split; [lia|exact R]|].
    assert (length K * cf_len c <= total_bytes K * 64) by (apply Nat.mul_le_mono; [exact T2|exact C3]). lia.
Qed.

Lemma bare_exact : forall nl nn nf, (forall l, level_shape keys l (nl l) (nn l) (nf l)) ->
  forall h, (forall k d, In k keys -> dist_len keys k d -> d < h) -> (exists k d, In k keys /\ dist_len keys k d /\ h = S d) ->
  let n := label_count nl 0 h in
  (exists f, create e c keys = Ok f) <-> (n <= ((n + 1) * ((n + 1) / 64 + 1)) mod 2 ^ 32)%N.
Proof.
  intros nl nn nf SH h H1 H2 n. destruct (good_uniq keys HG) as (HS & HB & HE & HN).
  assert (EH : h = height K).
  { destruct H2 as (k & d & A & B & ->). apply Nat.le_antisymm.
    - destruct (in_kk keys k A) as (i & Hi & <-). rewrite (dist_kk keys HG i d Hi B).
      pose proof (LEN_leafl K (length K) i Hi). unfold height. lia.
    - destruct (LEN_max K (length K)) as (m & A' & B'); [lia|].
      specialize (H1 (kk K m) (S (leafl K m)) (kk_in keys m A') ltac:(apply dist_uniq; apply dist_leafl; auto)).
      unfold height. rewrite B'. lia. }
  assert (EN : n = N.of_nat (labels_from K 0)).
  { unfold n, label_count, labels_from. rewrite (cn_sum keys nl 0 (h - 0)).
    - rewrite cc_length by lia. cbn [Nat.add]. rewrite EH. rewrite !Nat.sub_0_r. change (sm _ 0) with 0. f_equal. rewrite ?Nat.sub_0_r. apply sm_ext; intros; unfold slabs; rewrite map_length; reflexivity.
    - intros l. symmetry. apply (shape_fun keys l _ _ _ _ _ _ (SH l) (shape_items keys HG l)). }
  rewrite bare_room, EN. unfold room_at. cbv zeta. unfold wrap32, two32.
  replace (N.of_nat (1 + labels_from K 0)) with (N.of_nat (labels_from K 0) + 1)%N by lia. reflexivity.
Qed.
End Size.

(** ** in the words of the properties *)
Lemma bare_seek_stands : forall e c keys f, good_keys keys -> machine e -> bare_settings c -> two_keys keys -> filter_of e c keys f ->
  forall q incl, is_bytes q -> ~ trap e c keys 0 q -> exists fp p, gt_place c keys 0 q incl fp p /\
  match p with
  | Some i => exists it, moveToKeyGreaterThan e f q incl = Ok it /\ it_fp it = fp /\ stands_bare e c f keys it i
  | None => moveToKeyGreaterThan e f q incl = Fail (off_end e)
  end.
Proof.
  intros e c keys f HG HM HC H2 HF q incl Hq HT. apply two_uniq in H2.
  destruct (bare_gt_place keys e c f HG HM HC HF H2 q incl Hq HT) as (fp & p & G & R). exists fp, p. split; [exact G|].
  destruct p as [i|]; [|exact R]. destruct R as (it & A & B & C). exists it. split; [exact A|]. split; [exact B|].
  apply bat_stands; auto. apply G.
Qed.

Lemma bare_less_stands : forall e c keys f, good_keys keys -> machine e -> bare_settings c -> two_keys keys -> filter_of e c keys f ->
  forall q incl, is_bytes q -> ~ trap e c keys 0 q -> exists fp p, gt_place c keys 0 q false fp p /\
  match p with
  | Some i =>
      if fp then exists it, moveToKeyLessThan e f q incl = Ok it /\ stands_bare e c f keys it i
      else match i with
           | S (S j) => exists it, moveToKeyLessThan e f q incl = Ok it /\ stands_bare e c f keys it j
           | _ => moveToKeyLessThan e f q incl = Fail (off_end e)
           end
  | None => moveToKeyLessThan e f q incl = Fail (off_end e)
  end.
Proof.
  intros e c keys f HG HM HC H2 HF q incl Hq HT. apply two_uniq in H2.
  destruct (bare_lt keys e c f HG HM HC HF H2 q incl Hq HT) as (fp & p & G & R). exists fp, p. split; [exact G|].
  destruct p as [i|]; [|exact R]. destruct G as (_ & L & _). destruct fp.
  - destruct R as (it & A & B). exists it. split; [exact A|]. apply bat_stands; auto.
  - destruct i as [|[|j]]; [exact R|exact R|]. destruct R as (it & A & B). exists it. split; [exact A|]. apply bat_stands; auto. clear - L. lia.
Qed.

Lemma bare_ends : forall e c keys f, good_keys keys -> machine e -> bare_settings c -> two_keys keys -> filter_of e c keys f ->
  (exists it, moveToFirst e f = Ok it /\ it_valid it = false) /\ (exists it, moveToLast e f = Ok it /\ it_valid it = false).
Proof.
  intros e c keys f HG HM HC H2 HF. apply two_uniq in H2.
  destruct (bare_first keys e c f HG HM HC HF H2) as (a & A & _), (bare_last keys e c f HG HM HC HF H2) as (b & B & _). split.
  - exists a. split; [exact A|]. eapply bare_ends_any; [exact (proj1 (bare_parts keys e c f HG HM HC HF))|]. left. exact A.
  - exists b. split; [exact B|]. eapply bare_ends_any; [exact (proj1 (bare_parts keys e c f HG HM HC HF))|]. right. exact B.
Qed.

Lemma bare_ranges : forall e c keys f, good_keys keys -> machine e -> bare_settings c -> two_keys keys -> filter_of e c keys f ->
  forall it l li r ri, member_iter e f it -> is_bytes l -> is_bytes r -> ~ trap e c keys 0 l ->
  forall k, In k keys -> above li l k -> below ri k r -> range_after e f it l li r ri = Ok true.
Proof. intros e c keys f HG HM HC H2 HF it l li r ri MI Hl Hr HT k. apply two_uniq in H2. exact (bare_range_true keys e c f HG HM HC HF H2 it l li r ri k MI Hl Hr HT). Qed.

Lemma bare_causes : forall e c keys f, good_keys keys -> machine e -> bare_settings c -> two_keys keys -> filter_of e c keys f ->
  forall it l li r ri, member_iter e f it -> is_bytes l -> is_bytes r -> ~ trap e c keys 0 l ->
  range_after e f it l li r ri = Ok true ->
  exists k, In k keys /\ (forall x, In x keys -> klt x k -> kle x l) /\
    (klt l k \/ (exists d, dist_len keys k d /\ firstn d l = firstn d k)) /\
    (klt k r \/ (exists d, dist_len keys k d /\ firstn d r = firstn d k) \/
     (length k < length r /\ exists k', In k' keys /\ k' <> k /\ firstn (length k) k' = k) \/
     (firstn (length r) k = r /\ exists d, dist_len keys k d /\ length r + 2018 <= d)).
Proof. intros e c keys f HG HM HC H2 HF. apply two_uniq in H2. exact (bare_range_cause keys e c f HG HM HC HF H2). Qed.

Lemma bare_faults : forall e c keys f, good_keys keys -> machine e -> bare_settings c -> two_keys keys -> filter_of e c keys f ->
  forall it l li r ri, member_iter e f it -> is_bytes l -> is_bytes r -> ~ trap e c keys 0 l ->
  ((exists b, range_after e f it l li r ri = Ok b) \/ range_after e f it l li r ri = Fail (off_end e)) /\
  ((forall k, In k keys -> klt k l) -> (forall k d, In k keys -> dist_len keys k d -> firstn d l <> firstn d k) ->
   range_after e f it l li r ri = Fail (off_end e)).
Proof. intros e c keys f HG HM HC H2 HF. apply two_uniq in H2. exact (bare_range_fault keys e c f HG HM HC HF H2). Qed.

Lemma bare_suffixes : forall e c keys f, good_keys keys -> machine e -> cf_dense c = false -> with_suffix c -> create e c keys <> Ok f.
Proof.
  intros e c keys f HG [M1 M2] Hd [W1 W2]. destruct (good_uniq keys HG) as (HS & HB & HE & HN).
  assert (Ht : cf_type c <> kNone) by (intros E; rewrite E in W2; exact W2).
  assert (HL : lens_ok (cf_type c) (cf_hlen c) (cf_rlen c)) by (split; [exact W1|destruct (cf_type c); auto]).
  exact (create_bare_suffix c (uniq keys) e HS HB HE HN M1 M2 HL keys f eq_refl Hd Ht).
Qed.
