(** Filters of one distinct key that starts with byte 255. *)
From Coq Require Import Arith List NArith ZArith Bool Lia ZifyN ZifyNat ZifyBool Sorting.Sorted.
From Verif Require Import Res Word Config BitFacts WordFacts Bitvector BitvectorFacts Rank Select
  RankSelectFacts LabelVector LabelFacts Suffix Spec SuffixFacts Builder KeyFacts Trie BuilderFacts
  DenseBuild Cutoff StructFacts NodeFacts SparseFacts Dense Sparse DenseFacts LookupFacts FilterFacts
  Surf IterTrie IterDense SpecApi SpecFilter PointFacts.
Import ListNotations.

Section Lone.
Variables (e : env) (c : config) (keys : list bytes) (f : surf).
Hypothesis HG : good_keys keys.
Hypothesis HM : machine e.
Hypothesis HC : settings c.
Hypothesis HF : filter_of e c keys f.
Hypothesis HL : lone_ff keys.
Notation K := (uniq keys).
Let HS : StronglySorted klt K := proj1 (good_uniq keys HG).
Let HB : Forall is_bytes K := proj1 (proj2 (good_uniq keys HG)).
Let HE : Forall (fun k => k <> []) K := proj1 (proj2 (proj2 (good_uniq keys HG))).
Let HN : length K <> 0 := proj2 (proj2 (proj2 (good_uniq keys HG))).
Let Hmem : strict_mem e = false := proj2 HM.
Let Hshift : strict_shift e = false := proj1 HM.
Let Hlens : lens_ok (cf_type c) (cf_hlen c) (cf_rlen c) := settings_lens c HC.
Notation d := (sf_dense f).

Lemma l_one : length K = 1.
Proof.
  destruct HL as (k & _ & Hu). destruct (le_lt_dec 2 (length K)) as [L|L]; [|clear - L HN; lia]. exfalso.
  pose proof (Hu _ (kk_in keys 0 ltac:(lia))) as E0. pose proof (Hu _ (kk_in keys 1 ltac:(lia))) as E1.
  pose proof (sorted_nth K HS 0 1 ltac:(lia)) as Q. rewrite E0, E1 in Q. exact (klt_irrefl _ Q).
Qed.
Lemma l_n : @length (list nat) K = 1.
Proof. exact l_one. Qed.
Lemma l_key : exists t, kk K 0 = 255 :: t.
Proof. destruct HL as (k & _ & Hu). exists k. apply Hu, kk_in. rewrite l_one. auto. Qed.
Lemma l_leafl : leafl K 0 = 0.
Proof.
  pose proof (dist_leafl K HS 0 ltac:(rewrite l_one; auto)) as D. destruct (leafl K 0) as [|x]; [reflexivity|exfalso].
  destruct D as (_ & _ & D). destruct (D 1 ltac:(lia)) as (k' & I & N & _). apply N.
  destruct (In_nth _ _ [] I) as (j & Hj & <-). assert (Hj' : j < 1) by (rewrite <- l_one; exact Hj). replace j with 0 by lia. reflexivity.
Qed.
Lemma l_height : height K = 2.
Proof. unfold StructFacts.height. match goal with |- LEN _ ?n = _ => replace n with 1 by (symmetry; exact l_one) end. cbn [LEN]. rewrite l_leafl. reflexivity. Qed.
Lemma l_nds : nds K 0 = 1.
Proof. apply cn_louds_root; auto. Qed.
Lemma l_nn : nn K 0 0 = 0.
Proof. unfold nn. cbn [cn]. rewrite louds_root by auto. reflexivity. Qed.
Lemma l_tm : tm K 0 0 = true.
Proof.
  destruct l_key as (t & E). unfold tm. rewrite louds_root by auto. unfold lab. rewrite E. cbn [nth Nat.eqb andb].
  unfold child. rewrite hi_last by (rewrite l_one; auto). rewrite andb_false_r. reflexivity.
Qed.
Lemma l_child : child K 0 0 = false.
Proof. unfold child. rewrite hi_last by (rewrite l_one; auto). rewrite andb_false_r. reflexivity. Qed.

Lemma l_parts : dense_ok c K 1 d /\ sparse_ok c K 1 (sf_sparse f).
Proof.
  destruct (built keys HG e c f HM HC HF) as (st & A & B & C & D). rewrite l_height in B. replace st with 1 in * by lia. auto.
Qed.
Lemma cc_one : forall A (g : nat -> list A), cc g 0 1 = g 0.
Proof. intros A g. unfold cc. cbn. apply app_nil_r. Qed.

Lemma bm_none : forall P g xs len, (forall i, In i xs -> P i = false) -> bm P g xs len = repeat false len.
Proof.
  intros P g xs len H. unfold bm. generalize 0 as s. induction len as [|m IH]; intros s; [reflexivity|]. cbn [seq map repeat]. rewrite IH.
  f_equal. clear IH. induction xs as [|x xs IHx]; [reflexivity|]. cbn [existsb]. rewrite (H x) by (left; reflexivity).
  apply IHx. intros i I. apply H. right. exact I.
Qed.
Lemma l_only : forall i, In i (seq 0 (length K)) -> i = 0.
Proof. intros i I. apply in_seq in I. pose proof l_one as Q. rewrite Q in I. lia. Qed.
Lemma l_dlab : cc (dlab K) 0 1 = repeat false 256.
Proof.
  rewrite cc_one. unfold dlab. rewrite l_nds. apply bm_none. intros i I. apply l_only in I. subst i. rewrite l_tm, andb_false_r. reflexivity.
Qed.
Lemma l_dchl : cc (dchl K) 0 1 = repeat false 256.
Proof. rewrite cc_one. unfold dchl. rewrite l_nds. apply bm_none. intros i I. apply l_only in I. subst i. exact l_child. Qed.
Lemma l_seq : seq 0 (length K) = [0].
Proof. rewrite l_one. reflexivity. Qed.
Lemma l_dpre : cc (dpre K) 0 1 = [true].
Proof.
  rewrite cc_one. unfold dpre, bm. rewrite l_nds. change (seq 0 (length K)) with (seq 0 (length K)). rewrite l_seq. cbn [seq existsb map]. rewrite l_tm, l_nn. reflexivity.
Qed.
Lemma l_ssfx : cc (ssfx c K) 0 1 = [sv c K 0].
Proof.
  rewrite cc_one. unfold ssfx. rewrite l_seq. cbn [filter].
  replace (leaf K 0 0) with true; [reflexivity|]. symmetry. apply leaf_spec. rewrite l_leafl. split; [|reflexivity].
  pose proof l_one as Q. lia.
Qed.

Let R := l_parts.
Lemma l_labels : repr (rk_bv (d_labels d)) (repeat false 256).
Proof. destruct R as (D & _). pose proof (dk_lab _ _ _ _ D) as (Q & _). rewrite l_dlab in Q. exact Q. Qed.
Lemma l_childs : repr (rk_bv (d_child d)) (repeat false 256).
Proof. destruct R as (D & _). pose proof (dk_ch _ _ _ _ D) as (Q & _). rewrite l_dchl in Q. exact Q. Qed.
Lemma nth_no : forall x m, nth x (repeat false m) false = false.
Proof. intros x m. destruct (lt_dec x m) as [L|L]; [apply nth_repeat|apply nth_overflow; rewrite repeat_length; lia]. Qed.
Lemma len256 : length (repeat false 256) = 256.
Proof. apply repeat_length. Qed.

Lemma l_readLabel : forall p, p < 256 -> d_readLabel e d p = Ok false.
Proof. intros p Hp. unfold d_readLabel. rewrite (readBit_spec e _ _ p l_labels) by (rewrite len256; exact Hp). rewrite nth_no. reflexivity. Qed.
Lemma l_readChild : forall p, p < 256 -> d_readChild e d p = Ok false.
Proof. intros p Hp. unfold d_readChild. rewrite (readBit_spec e _ _ p l_childs) by (rewrite len256; exact Hp). rewrite nth_no. reflexivity. Qed.
Lemma l_next : forall p, p < 256 -> exists q, d_getNextPos e d p = Ok q /\ 256 <= q.
Proof.
  intros p Hp. unfold d_getNextPos, d_getNextPos1.
  destruct (next_none e _ _ (S p) 256 l_labels) as (m & E & M1 & M2); rewrite ?len256; auto; try lia.
  - intros x _ _. apply nth_no.
  - rewrite E. cbn [bind]. eexists. split; [reflexivity|]. lia.
Qed.
Lemma l_next0 : d_getNextPos e d 0 = Ok 256.
Proof.
  unfold d_getNextPos, d_getNextPos1. rewrite (dnext1_spec e _ _ 1 l_labels) by (rewrite ?len256; lia). reflexivity.
Qed.
Lemma l_prev : forall p, p <= 256 -> d_getPrevPos e d p = Ok None.
Proof.
  intros p Hp. unfold d_getPrevPos. destruct (prev_none e _ _ p l_labels) as (m & E & M); rewrite ?len256; auto.
  - intros x _. apply nth_no.
  - rewrite E. cbn [bind]. replace (p <=? m) with true by lia. reflexivity.
Qed.
Lemma l_dh : d_height d = 1.
Proof. destruct R as (D & _). exact (dk_h _ _ _ _ D). Qed.

(** the seek *)
Lemma l_seek : forall b q incl it, b < 256 -> di_len it = 0 -> length (di_key it) = 1 -> length (di_pos it) = 1 -> di_atprefix it = false ->
  exists fp it', d_moveToKeyGreaterThan e d (b :: q) incl it = Ok (fp, it') /\ di_valid it' = false.
Proof.
  intros b q incl [v s l r sn len k p ap] Hb L0 L1 L2 AP.
  cbn [di_len di_key di_pos di_atprefix] in *. subst len ap.
  destruct k as [|x [|y k]]; try discriminate L1. destruct p as [|x' [|y' p]]; try discriminate L2.
  unfold d_moveToKeyGreaterThan. rewrite l_dh. cbn [d_gt_loop nth_error].
  unfold di_append, di_set, massert. cbn [di_len di_key di_pos length Nat.ltb Nat.leb negb]. rewrite andb_false_r. cbn [bind].
  unfold vset. cbn [bind length Nat.ltb Nat.leb lset di_setKP di_setLen di_len di_key di_pos di_valid di_search di_left di_right di_send di_atprefix].
  change (0 * kNodeFanout + b) with b. rewrite l_readLabel by exact Hb. cbn [bind negb].
  unfold di_next, massert. cbn [di_len di_atprefix Nat.ltb Nat.leb negb]. rewrite andb_false_r. cbn [bind pred_idx di_next_loop di_pos].
  unfold vget. cbn [nth_error bind lset]. destruct (l_next b Hb) as (np & E & G). cbn [di_atprefix di_setLen di_setKP di_len di_pos di_next_loop pred_idx bind]. unfold vget. cbn [nth_error bind]. rewrite E. cbn [bind].
  rewrite (Nat.div_small b kNodeFanout) by (unfold kNodeFanout; exact Hb).
  replace (0 <? np / kNodeFanout) with true.
  2:{ symmetry. apply Nat.ltb_lt. apply Nat.div_str_pos. unfold kNodeFanout. lia. }
  cbn [bind]. eexists. eexists. split; reflexivity.
Qed.

Ltac sm_d := cbn [di_setLen di_setKP di_setFlags di_setSend di_setValid di_setPrefix di_len di_key di_pos di_valid di_search di_left di_right di_send di_atprefix pred_idx bind nth_error negb length Nat.ltb Nat.leb repeat lset].
Tactic Notation "sm_d" "in" hyp(H) := cbn [di_setLen di_setKP di_setFlags di_setSend di_setValid di_setPrefix di_len di_key di_pos di_valid di_search di_left di_right di_send di_atprefix pred_idx bind nth_error negb length Nat.ltb Nat.leb repeat lset] in H.

Let LEN1 : length (repeat 0 (d_height d)) = 1.
Proof. rewrite l_dh. reflexivity. Qed.

Lemma l_greater : forall b q incl, b < 256 -> exists it, moveToKeyGreaterThan e f (b :: q) incl = Ok it /\ it_valid it = false.
Proof.
  intros b q incl Hb. unfold moveToKeyGreaterThan.
  destruct (l_seek b q incl (it_d (iter_new f)) Hb) as (fp & it' & E & V); try reflexivity; try exact LEN1.
  rewrite E. cbn [bind]. rewrite V. cbn [negb]. eexists. split; [reflexivity|].
  unfold it_valid, it_setFp, it_setD. cbn [it_d it_s]. rewrite V. reflexivity.
Qed.

Lemma l_range : forall it0 b q li r ri, b < 256 -> length (di_key (it_d it0)) = 1 -> length (di_pos (it_d it0)) = 1 ->
  exists it, lookupRange_st e f it0 (b :: q) li r ri = Ok (false, it).
Proof.
  intros it0 b q li r ri Hb L1 L2. unfold lookupRange_st.
  destruct (l_seek b q li (it_d (it_clear it0)) Hb) as (fp & it' & E & V); try reflexivity; try assumption.
  rewrite E. cbn [bind]. rewrite V. cbn [negb]. eexists. reflexivity.
Qed.

Lemma l_count : forall b q r, b < 256 -> approxCount e f (b :: q) r = Ok 0%N.
Proof.
  intros b q r Hb. destruct (l_greater b q true Hb) as (it & E & V). unfold approxCount. rewrite E. cbn [bind]. rewrite V. reflexivity.
Qed.

(** the ends *)
Definition at_zero (it : iter) : Prop := it_d it = mkDIter true true true true 0 1 [0] [0] false /\ it_s it = it_s (iter_new f).

Lemma l_last : exists it, moveToLast e f = Ok it /\ at_zero it.
Proof.
  unfold moveToLast. rewrite l_dh. cbn [Nat.ltb Nat.leb]. unfold di_setToLastLabelInRoot, iter_new, diter_new.
  cbn [it_d]. rewrite l_dh. rewrite l_prev by (unfold kNodeFanout; lia). cbn [bind]. unfold vset.
  sm_d. change (0 mod 256) with 0.
  unfold di_moveToRightMostKey, massert. cbn [di_len Nat.ltb Nat.leb negb]. rewrite andb_false_r. cbn [bind pred_idx di_pos]. unfold vget. sm_d.
  rewrite l_readChild by lia. cbn [bind negb]. eexists. split; [reflexivity|]. split; reflexivity.
Qed.

Lemma at_zero_valid : forall it, at_zero it -> it_valid it = true /\ it_getKey it = Ok [0].
Proof. intros it (D & _). unfold it_getKey, it_valid. rewrite D. split; reflexivity. Qed.

Lemma at_zero_moves : forall it, at_zero it ->
  (exists it', it_next e f it = Ok (false, it') /\ it_valid it' = false) /\
  (exists it', it_prev e f it = Ok (false, it') /\ it_valid it' = false).
Proof.
  intros it ZZ. destruct (at_zero_valid it ZZ) as (V & _). destruct ZZ as (D & S). split.
  - unfold it_next. rewrite V. unfold incrementSparseIter. rewrite S. cbn [negb iter_new it_s siter_new si_valid bind].
    unfold incrementDenseIter. rewrite D. cbn [di_valid negb]. unfold di_next, massert. cbn [di_len di_atprefix Nat.ltb Nat.leb negb].
    rewrite andb_false_r. cbn [bind pred_idx di_next_loop di_pos]. unfold vget. sm_d. rewrite l_next0. cbn [bind].
    change (0 / kNodeFanout <? 256 / kNodeFanout) with true. cbn [bind]. eexists. split; reflexivity.
  - unfold it_prev. rewrite V. unfold decrementSparseIter. rewrite S. cbn [negb iter_new it_s siter_new si_valid bind].
    unfold decrementDenseIter. rewrite D. cbn [di_valid negb]. unfold di_prev, massert. cbn [di_len di_atprefix Nat.ltb Nat.leb negb].
    rewrite andb_false_r. cbn [bind pred_idx di_prev_loop di_pos]. unfold vget. sm_d. rewrite l_prev by lia. cbn [bind].
    eexists. split; reflexivity.
Qed.

Lemma l_less : forall b q incl, b < 256 -> exists it, moveToKeyLessThan e f (b :: q) incl = Ok it /\ at_zero it.
Proof.
  intros b q incl Hb. destruct (l_greater b q false Hb) as (it & E & V). unfold moveToKeyLessThan. rewrite E. cbn [bind]. rewrite V. exact l_last.
Qed.

Lemma l_first : forall it k, moveToFirst e f = Ok it -> it_valid it = true -> it_getKey it = Ok k -> exists t, k = 0 :: t.
Proof.
  intros it k E V G. unfold moveToFirst in E. rewrite l_dh in E. cbn [Nat.ltb Nat.leb] in E.
  unfold di_setToFirstLabelInRoot, iter_new, diter_new in E. cbn [it_d] in E. rewrite l_dh in E.
  rewrite l_readLabel in E by lia. cbn [bind] in E. rewrite l_next0 in E. cbn [bind] in E. unfold vset in E.
  sm_d in E.
  change (256 mod 256) with 0 in E.
  unfold di_moveToLeftMostKey, massert in E. cbn [di_len Nat.ltb Nat.leb negb] in E. rewrite andb_false_r in E.
  cbn [bind pred_idx di_pos] in E. unfold vget in E. sm_d in E.
  assert (Q : forall d', di_key d' = [0] -> di_len d' = 1 -> di_atprefix d' = false -> it_d it = d' -> exists t, k = 0 :: t).
  { intros d' Q1 Q2 Q3 Q4. unfold it_getKey in G. rewrite V in G. cbn [negb] in G. unfold di_getKey in G. rewrite Q4, Q1, Q2, Q3 in G.
    cbn [length Nat.leb firstn] in G. assert (VD : di_valid d' = true) by (rewrite <- Q4; unfold it_valid in V; apply andb_prop in V; tauto).
    rewrite VD in G. cbn [negb bind] in G. destruct (di_complete d'); [injection G as <-; eauto|]. cbn [bind] in G.
    destruct (si_getKey (it_s it)); cbn [bind] in G; [injection G as <-; cbn; eauto|discriminate]. }
  destruct (d_readChild e d 256) as [ch|]; cbn [bind] in E; [|discriminate]. destruct ch; cbn [negb] in E.
  - rewrite l_dh in E. cbn [Nat.sub di_left_loop] in E. destruct (d_getChildNodeNum e d 256) as [m|]; cbn [bind] in E; [|discriminate].
    cbn [di_setFlags di_setSend di_left] in E.
    destruct (si_moveToLeftMostKey _ _ _) as [s'|]; cbn [bind] in E; [|discriminate]. injection E as <-.
    eapply Q; [| | |reflexivity]; reflexivity.
  - cbn [bind di_setFlags di_left] in E. injection E as <-. eapply Q; [| | |reflexivity]; reflexivity.
Qed.

Lemma l_lookup : forall b q, b < 256 -> lookupKey e f (b :: q) = Ok false.
Proof. intros b q Hb. apply (lookup_lone_ff keys HG e c f HM HC HF HL b q Hb). Qed.

Lemma l_empty : exists x k, In k keys /\ lookupKey e f [] = Ok x /\ (x = true <-> admits c k [] 1).
Proof.
  destruct R as (D & _). exists (accepts c (kk K 0) [] 1), (kk K 0). split; [apply kk_in; rewrite l_one; auto|].
  assert (BK : is_bytes (kk K 0)) by (rewrite Forall_forall in HB; apply HB, nth_In; pose proof l_one; lia).
  split; [|apply accepts_admits; auto; constructor].
  unfold lookupKey, d_lookupKey. rewrite l_dh. cbn [d_lookup_loop nth_error].
  unfold d_readPrefix. pose proof (dk_pre _ _ _ _ D) as P. rewrite l_dpre in P. rewrite (readBit_spec e _ _ 0 (proj1 P)) by (cbn; lia).
  cbn [nth bind]. unfold d_getSuffixPos. change (0 * kNodeFanout) with 0. change (0 / kNodeFanout) with 0.
  pose proof (dk_lab _ _ _ _ D) as PL. pose proof (dk_ch _ _ _ _ D) as PC. rewrite l_dlab in PL. rewrite l_dchl in PC.
  rewrite (rank_spec e _ _ 0 PL) by (rewrite len256; lia). cbn [bind]. rewrite (rank_spec e _ _ 0 PC) by (rewrite len256; lia). cbn [bind].
  rewrite (rank_spec e _ _ 0 P) by (cbn; lia). cbn [bind]. rewrite l_readLabel by lia. cbn [bind].
  change (pos32 _) with (wrap32 (N.of_nat 0)).
  rewrite (checkEquality_spec c e (d_suf d) [sv c K 0] 0 (kk K 0) [] (0 + 1) Hshift Hlens BK); [cbn [bind]| | | |].
  - destruct (accepts _ _ _ _); reflexivity.
  - constructor.
  - rewrite <- l_ssfx. exact (dk_suf _ _ _ _ D).
  - cbn; lia.
  - cbn [nth]. unfold sv. rewrite l_leafl. reflexivity.
Qed.
End Lone.

(** ** in the words of the properties *)
Section LWords.
Variables (e : env) (c : config) (keys : list bytes) (f : surf).
Hypothesis HM : machine e.
Hypothesis HC : settings c.
Hypothesis HG : good_keys keys.
Hypothesis HL : lone_ff keys.
Hypothesis HF : filter_of e c keys f.

Lemma bytes_cons : forall q, is_bytes q -> q <> [] -> exists b t, q = b :: t /\ b < 256.
Proof. intros [|b t] H N; [congruence|]. inversion H; subst. eauto. Qed.

Lemma lw_lookup : forall q, is_bytes q -> q <> [] -> lookupKey e f q = Ok false.
Proof. intros q H N. destruct (bytes_cons q H N) as (b & t & -> & Hb). apply (l_lookup e c keys f HG HM HC HF HL b t Hb). Qed.
Lemma lw_empty : exists b k, In k keys /\ lookupKey e f [] = Ok b /\ (b = true <-> admits c k [] 1).
Proof. exact (l_empty e c keys f HG HM HC HF HL). Qed.
Lemma lw_greater : forall q incl, is_bytes q -> q <> [] -> exists it, moveToKeyGreaterThan e f q incl = Ok it /\ it_valid it = false.
Proof. intros q incl H N. destruct (bytes_cons q H N) as (b & t & -> & Hb). apply (l_greater e c keys f HG HM HC HF HL b t incl Hb). Qed.
Lemma lw_range : forall q li r ri, is_bytes q -> q <> [] -> lookupRange e f q li r ri = Ok false.
Proof.
  intros q li r ri H N. destruct (bytes_cons q H N) as (b & t & -> & Hb). unfold lookupRange.
  destruct (l_range e c keys f HG HM HC HF HL (iter_new f) b t li r ri Hb) as (it & E);
    try (unfold iter_new, diter_new; cbn [it_d di_key di_pos]; rewrite repeat_length; exact (l_dh e c keys f HG HM HC HF HL)).
  rewrite E. reflexivity.
Qed.
Lemma lw_count : forall q r, is_bytes q -> q <> [] -> approxCount e f q r = Ok 0%N.
Proof. intros q r H N. destruct (bytes_cons q H N) as (b & t & -> & Hb). apply (l_count e c keys f HG HM HC HF HL b t r Hb). Qed.

Lemma lw_zero : forall it, at_zero f it -> it_valid it = true /\ it_getKey it = Ok [0] /\
  (exists it', it_next e f it = Ok (false, it') /\ it_valid it' = false) /\
  (exists it', it_prev e f it = Ok (false, it') /\ it_valid it' = false).
Proof.
  intros it Z. destruct (at_zero_valid f it Z). split; [auto|]. split; [auto|].
  exact (at_zero_moves e c keys f HG HM HC HF HL it Z).
Qed.
Lemma lw_last : exists it, moveToLast e f = Ok it /\ it_valid it = true /\ it_getKey it = Ok [0] /\
  (exists it', it_next e f it = Ok (false, it') /\ it_valid it' = false) /\
  (exists it', it_prev e f it = Ok (false, it') /\ it_valid it' = false).
Proof. destruct (l_last e c keys f HG HM HC HF HL) as (it & E & Z). exists it. split; [exact E|]. apply lw_zero. exact Z. Qed.
Lemma lw_less : forall q incl, is_bytes q -> q <> [] -> exists it, moveToKeyLessThan e f q incl = Ok it /\ it_valid it = true /\ it_getKey it = Ok [0] /\
  (exists it', it_next e f it = Ok (false, it') /\ it_valid it' = false) /\
  (exists it', it_prev e f it = Ok (false, it') /\ it_valid it' = false).
Proof.
  intros q incl H N. destruct (bytes_cons q H N) as (b & t & -> & Hb).
  destruct (l_less e c keys f HG HM HC HF HL b t incl Hb) as (it & E & Z). exists it. split; [exact E|]. apply lw_zero. exact Z.
Qed.
Lemma lw_first : forall it k, moveToFirst e f = Ok it -> it_valid it = true -> it_getKey it = Ok k -> exists t, k = 0 :: t.
Proof. exact (l_first e c keys f HG HM HC HF HL). Qed.
Lemma lw_height : getHeight f = 2 /\ getSparseStartLevel f = 1.
Proof.
  destruct (l_parts e c keys f HG HM HC HF HL) as (_ & S). unfold getHeight, getSparseStartLevel.
  rewrite (sk_h _ _ _ _ S), (sk_st _ _ _ _ S). split; [|reflexivity].
  exact (l_height e keys HG HM HL).
Qed.
End LWords.
