(** The dense half of approxCount. *)
From Coq Require Import Arith List NArith ZArith Bool Lia ZifyN ZifyNat ZifyBool Sorting.Sorted.
From Verif Require LookupFacts.
From Verif Require Import Res Word Config BitFacts WordFacts Bitvector BitvectorFacts Rank Select
  RankSelectFacts LabelVector LabelFacts Suffix Spec SuffixFacts Builder KeyFacts Trie BuilderFacts
  DenseBuild StructFacts NodeFacts SparseFacts DenseFacts Dense Sparse Surf IterTrie IterDense IterDMove IterSparse CountBits CountTrie CountSparse CountDense.
Import ListNotations.

Section CL.
Variables (c : config) (K : list bytes).
Notation kk := (kk K). Notation lo := (lo K). Notation hi := (hi K). Notation leafl := (leafl K).
Notation item := (item K). Notation child := (child K). Notation louds := (louds K).
Notation leaf := (leaf K). Notation lab := (lab K). Notation term := (term K). Notation anc := (anc K).
Notation nds := (nds K). Notation height := (height K). Notation nn := (nn K). Notation dpl := (dpl K).
Notation nit := (nit K). Notation NN := (NN K). Notation same_node := (same_node K).
Notation nextit := (nextit K). Notation lvl := (lvl K). Notation nodeno := (nodeno K).
Notation dp := (dp K). Notation dpos := (dpos K).
Notation has := (has K). Notation DD := (DD K). Notation dstart := (dstart K). Notation base := (base K).
Notation above := (above K).
Let n := length K.
Hypothesis HS : StronglySorted klt K.
Hypothesis HB : Forall is_bytes K.
Hypothesis HE : Forall (fun k => k <> []) K.
Hypothesis HNE : length K <> 0.
Hypothesis HFF : no_lone_ff K.
Variables (st : nat) (d : dense) (e : env).
Notation orig := (orig K st). Notation pre := (pre K st).
Hypothesis Hst1 : 1 <= st.
Hypothesis Hst2 : S st <= height.
Hypothesis HD : dense_ok c K st d.
Hypothesis Hmem : strict_mem e = false.
Hypothesis Hlab : forall m x, m < st -> item m x = true -> term m x = false -> 0 < lab m x < 255.

Notation side_some := (CountDense.side_some c K HS HB HE HNE HFF st d e Hst1 Hst2 HD Hmem Hlab).
Notation side_right := (CountDense.side_right c K HS HB HE HNE HFF st d e Hst1 Hst2 HD Hmem Hlab).
Notation side_last := (CountDense.side_last c K HS HB HE HNE HFF st d e Hst1 Hst2 HD Hmem Hlab).
Notation base_left := (CountDense.base_left K HS HB HE HNE st e Hst1 Hst2 Hmem Hlab).
Notation base_right := (CountDense.base_right K HS HB HE HNE st e Hst1 Hst2 Hmem Hlab).
Notation base_end := (CountDense.base_end K HNE st e Hst1 Hst2 Hmem Hlab).
Notation lvl_leaf := (CountDense.lvl_leaf K HNE st e Hst1 Hst2 Hmem Hlab).
Notation item_bound := (CountDense.item_bound K HS HB HE HNE st e Hst1 Hst2 Hmem Hlab).
Notation round_ok := (CountDense.round_ok K HS HB HE HNE st e Hst1 Hst2 Hmem Hlab).
Notation read_first := (CountDense.read_first c K HS HB HE HNE st d e Hst1 Hst2 HD Hmem Hlab).
Notation has_next := (CountDense.has_next K HNE st e Hst1 Hst2 Hmem Hlab).
Notation has_none := (CountDense.has_none K HNE st e Hst1 Hst2 Hmem Hlab).
Notation base_next := (CountDense.base_next K HNE st e Hst1 Hst2 Hmem Hlab).

Lemma nds_pos : forall m, 1 <= sm nds (S m).
Proof.
  clear Hst2 Hlab Hmem Hst1 HD. intros m. pose proof (sm_mono nds 1 (S m) ltac:(lia)) as Q. cbn [sm] in *. pose proof (cn_louds_root K HNE) as R.
  change (cn (louds 0) (length K)) with (nds 0) in R. lia.
Qed.
Lemma nds_fits : (N.of_nat (256 * sm nds st) < 4294967296)%N.
Proof. clear Hst2 Hlab Hmem. pose proof (dk_fits c K st d HD) as F. rewrite (len_dlab K HNE st Hst1) in F. exact F. Qed.
Lemma d_cut : forall m, m < st -> cut_at (d_cuts d) m = Ok (N.of_nat (256 * sm nds (S m) - 1)).
Proof.
  clear Hst2 Hlab Hmem. intros m Hm. unfold cut_at, vget. rewrite (dk_cuts c K st d HD).
  rewrite level_cuts_nth by (rewrite map_length, seq_length; lia). rewrite sum_seq by lia. rewrite !sm_mul.
  pose proof (nds_pos m) as P. pose proof nds_fits as F. pose proof (sm_mono nds (S m) st ltac:(lia)) as M.
  rewrite sub32_1; [f_equal|]; cbn [sm Nat.add] in *; lia.
Qed.
Lemma h_idx : pred_idx (d_height d) = Ok (st - 1).
Proof. rewrite (dk_h c K st d HD). destruct st; [lia|]. cbn [pred_idx]. f_equal. lia. Qed.

Lemma mod_end : forall k, 1 <= k -> (256 * k - 1) mod 256 = 255.
Proof.
  intros k H. replace (256 * k - 1) with (255 + (k - 1) * 256) by lia. rewrite Nat.mod_add by lia. reflexivity.
Qed.
Lemma base_mod : forall m i, m < st -> i < n -> base m i mod 256 <> 255.
Proof.
  intros m i Hm Hi. unfold CountDense.base, posn. destruct (Nat.leb_spec m (leafl i)) as [G|G].
  - destruct (term m (anc m i)) eqn:T.
    + rewrite Nat.mul_comm, Nat.mod_mul; lia.
    + change 256 with kNodeFanout. rewrite (dpos_mod K HB HNE st Hst1). pose proof (Hlab m _ Hm (anc_item K m i Hi G) T). lia.
  - rewrite Nat.mul_comm, Nat.mod_mul; lia.
Qed.

Lemma lvl_fits : forall m s t, m < st -> t < n -> (N.of_nat (lvl s t m) < 4294967296)%N.
Proof.
  intros m s t Hm Ht. pose proof (lvl_le K HNE (Hh K HNE st e Hst1 Hst2 Hmem Hlab) s t m) as A. pose proof (cn_mono (leaf m) t n ltac:(lia)) as B.
  assert (C : cn (leaf m) n <= cn (item m) n).
  { clear. induction n as [|k IH]; [reflexivity|]. cbn [cn]. unfold Trie.leaf at 2. destruct (item m k); cbn [andb]; [destruct (negb _)|]; lia. }
  pose proof (item_bound m Hm) as D. pose proof nds_fits as F. fold n in D. lia.
Qed.

(** ** extending the positions of one key to all dense levels *)
Lemma d_step : forall m i, m < st -> i < n -> leafl i <= m -> has m i = true ->
  exists a b, d_getChildNodeNum e d (dstart m i) = Ok a /\ d_readChild e d (dstart m i) = Ok b /\
    (if b : bool then a else S a) = nodeno (S m) i.
Proof.
  intros m i Hm Hi G H. unfold d_getChildNodeNum.
  assert (NO : nodeno (S m) i = S (sm (fun l => cn (child l) n) m + cn (child m) (S i))).
  { unfold CountSparse.nodeno. rewrite <- cn_child_louds. rewrite <- (sm_child K m). pose proof (cn_louds_root K HNE) as R.
    change (cn (louds 0) (length K)) with (nds 0) in R. fold n. lia. }
  assert (AT : forall x, item m x = true -> term m x = false -> rank e (d_child d) (dpos m x) = Ok (sm (fun l => cn (child l) n) m + cn (child m) (S x))).
  { intros x HI HT. destruct (dpos_start K m x HI) as (j & A & B & C & _ & DP). rewrite DP.
    rewrite (rank_child c K HS HB HE HNE st d e Hst1 HD m j (lab m x) Hm B (lab_byte K HB HNE m x)). do 2 f_equal.
    pose proof (item_lt K m x HI) as Hx. fold n.
    assert (NT : nonterm K m x = true) by (apply (nonterm_spec K); auto).
    assert (EQ : dpl m x = 256 * nn m j + lab m x) by (apply (in_node K HB HNE st Hst1); auto; apply (lab_byte K HB HNE)).
    rewrite <- EQ. apply cn_eq_upto; [unfold n; lia| |].
    - intros y Hy. destruct (child m y) eqn:Q; [|reflexivity]. apply (child_nonterm K HS HE) in Q.
      rewrite (dpl_le_iff K HS HB HE HNE st Hst1) by auto. cbn [andb]. lia.
    - intros y Hy Hy2. destruct (child m y) eqn:Q; [|reflexivity]. apply (child_nonterm K HS HE) in Q.
      rewrite (dpl_le_iff K HS HB HE HNE st Hst1) by auto. cbn [andb]. lia. }
  unfold CountDense.dstart. replace (m <? leafl i) with false by lia. destruct (Nat.eqb_spec m (leafl i)) as [E|E].
  - subst m. destruct (leaf_self K i Hi) as [HI _]. rewrite NO. destruct (term (leafl i) i) eqn:T.
    + destruct (term_step K HS HE HNE st e Hst1 Hst2 Hmem Hlab i Hi T) as (I2 & T2 & _).
      rewrite (AT _ I2 T2), (d_child_read c K HS HB HE HNE st d e Hst1 HD _ _ Hm I2 T2).
      eexists _, _. split; [reflexivity|]. split; [reflexivity|]. cbn [cn]. destruct (child (leafl i) (S i)); lia.
    + rewrite (AT _ HI T), (d_child_read c K HS HB HE HNE st d e Hst1 HD _ _ Hm HI T).
      eexists _, _. split; [reflexivity|]. split; [reflexivity|].
      rewrite (not_child K HNE (Hh K HNE st e Hst1 Hst2 Hmem Hlab) (leafl i) i) by lia. reflexivity.
  - destruct (has_next m i H ltac:(lia)) as (x & NX). destruct (base_next m i x ltac:(lia) NX) as [BX LX].
    unfold CountDense.base in BX. replace (m <=? leafl i) with false in BX by lia. rewrite BX.
    replace (256 * NN m x) with (dp m x 0) by (unfold DenseFacts.dp; lia).
    rewrite (read_first m x Hm LX), (rank_child c K HS HB HE HNE st d e Hst1 HD m x 0 Hm LX) by lia.
    eexists _, _. split; [reflexivity|]. split; [reflexivity|]. rewrite NO. do 2 f_equal.
    pose proof (item_lt K m x (proj1 (proj2 NX))) as Hx. fold n.
    rewrite (cn_eq_upto _ (child m) n x).
    + destruct NX as (N1 & N2 & N3). symmetry. apply cn_none_eq; [lia|]. intros y Hy.
      destruct (child m y) eqn:C; auto. apply child_item in C. rewrite N3 in C by lia. discriminate.
    + unfold n; lia.
    + intros y Hy. destruct (child m y) eqn:Q; [|reflexivity]. apply (child_nonterm K HS HE) in Q.
      rewrite (before_node K HB HNE st e Hst1 Hst2 Hmem Hlab) by auto. cbn [andb]. lia.
    + intros y Hy Hy2. destruct (child m y) eqn:Q; [|reflexivity]. apply (child_nonterm K HS HE) in Q.
      rewrite (before_node K HB HNE st e Hst1 Hst2 Hmem Hlab) by auto. cbn [andb]. lia.
Qed.

Lemma has_deeper : forall m i, i < n -> has m i = false -> has (S m) i = false.
Proof.
  intros m i Hi H. apply has_none in H. destruct H as [G H]. unfold CountDense.has. apply orb_false_intro; [lia|].
  rewrite (none_next K HNE (Hh K HNE st e Hst1 Hst2 Hmem Hlab) (S m) i Hi); [apply Nat.ltb_irrefl|].
  apply (none_deeper K HNE (Hh K HNE st e Hst1 Hst2 Hmem Hlab)); auto. lia.
Qed.
Lemma has_none_le : forall m m' i, i < n -> m <= m' -> has m i = false -> has m' i = false.
Proof. intros m m' i Hi L H. induction L as [|m' L IH]; auto. apply has_deeper; auto. Qed.

Lemma map_none : forall i k m, i < n -> has m i = false -> map (DD i) (seq m k) = repeat None k.
Proof.
  intros i k. induction k as [|k IH]; intros m Hi H; [reflexivity|]. cbn [seq map repeat]. unfold CountDense.DD at 1. rewrite H.
  rewrite IH; auto. apply has_deeper; auto.
Qed.

Lemma d_ext_loop : forall i, i < n -> forall k m acc, S m + k = st -> leafl i <= m -> has m i = true ->
  d_extend_loop e d k (S m) (dstart m i) acc =
  Ok (acc ++ map (DD i) (seq (S m) k), if has (st - 1) i then Some (dstart (st - 1) i) else None).
Proof.
  intros i Hi. induction k as [|k IH]; intros m acc Hm G H; cbn [d_extend_loop].
  - cbn [seq map]. rewrite app_nil_r. replace (st - 1) with m by lia. rewrite H. reflexivity.
  - destruct (d_step m i ltac:(lia) Hi G H) as (a & b & -> & -> & NO). cbn [bind]. rewrite NO.
    rewrite (d_cut (S m)) by lia. cbn [bind].
    assert (ND : nds (S m) = cn (louds (S m)) n) by reflexivity.
    destruct (has (S m) i) eqn:H2.
    + destruct (has_next (S m) i H2 ltac:(lia)) as (x & NX). destruct (base_next (S m) i x ltac:(lia) NX) as [BX LX].
      unfold CountDense.base in BX. replace (S m <=? leafl i) with false in BX by lia.
      pose proof (nn_lt K HNE (S m) x (proj1 (proj2 NX))) as NL. rewrite NN_nn in BX.
      replace (N.of_nat (256 * sm nds (S (S m)) - 1) <? N.of_nat (nodeno (S m) i * kNodeFanout))%N with false.
      2: { symmetry. apply N.ltb_ge. unfold kNodeFanout. cbn [sm]. cbn [sm] in BX. lia. }
      replace (nodeno (S m) i * kNodeFanout) with (dstart (S m) i).
      2: { unfold CountDense.dstart. replace (S m <? leafl i) with false by lia. replace (S m =? leafl i) with false by lia. unfold kNodeFanout. lia. }
      rewrite IH by (auto; lia). f_equal. f_equal. cbn [seq map]. rewrite <- app_assoc. cbn [app]. unfold CountDense.DD at 2. rewrite H2. reflexivity.
    + rewrite (has_none_le (S m) (st - 1) i Hi ltac:(lia) H2).
      pose proof (has_none (S m) i H2) as [_ HN].
      pose proof (none_louds K HNE (Hh K HNE st e Hst1 Hst2 Hmem Hlab) (S m) i Hi HN) as LN. fold n in LN.
      replace (N.of_nat (256 * sm nds (S (S m)) - 1) <? N.of_nat (nodeno (S m) i * kNodeFanout))%N with true.
      2: { symmetry. apply N.ltb_lt. unfold kNodeFanout, CountSparse.nodeno. cbn [sm]. cbn [sm] in LN. rewrite LN, ND. pose proof (nds_pos m) as NP. cbn [sm] in NP. lia. }
      change (None :: repeat None k) with (repeat (@None nat) (S k)). rewrite (map_none i (S k) (S m)) by auto. reflexivity.
Qed.

Lemma d_ext : forall i, i < n -> exists out,
  d_extendPosList e d (map (fun m => dstart m i) (seq 0 (orig i))) = Ok (map (DD i) (seq 0 st), out) /\
  (out = None <-> has (st - 1) i = false) /\ (forall a, out = Some a -> leafl i < st -> a = nodeno st i).
Proof.
  intros i Hi. unfold d_extendPosList. rewrite map_length, seq_length. set (o := orig i).
  assert (O1 : 1 <= o <= st) by (unfold o, CountDense.orig; lia).
  replace (pred_idx o) with (Ok (o - 1)) by (destruct o; [lia|cbn [pred_idx]; f_equal; lia]). cbn [bind].
  unfold vget. rewrite nth_error_map. rewrite (nth_error_nth' _ 0) by (rewrite seq_length; lia). rewrite seq_nth by lia. cbn [option_map bind Nat.add].
  rewrite (dk_h c K st d HD). rewrite map_map.
  assert (PR : map (fun m => Some (dstart m i)) (seq 0 o) = map (DD i) (seq 0 o)).
  { apply map_ext_in. intros m Hm. apply in_seq in Hm. unfold CountDense.DD, CountDense.has, o, CountDense.orig in *.
    replace (m <=? leafl i) with true by lia. reflexivity. }
  rewrite PR. clear PR.
  assert (AP : map (DD i) (seq 0 o) ++ map (DD i) (seq o (st - o)) = map (DD i) (seq 0 st)).
  { rewrite <- map_app, <- seq_app. do 2 f_equal. lia. }
  destruct (Nat.lt_ge_cases (leafl i) st) as [G|G].
  - assert (EO : o = S (leafl i)) by (unfold o, CountDense.orig; lia). rewrite EO in *. cbn [Nat.sub] in *. rewrite Nat.sub_0_r.
    rewrite (d_ext_loop i Hi (st - S (leafl i)) (leafl i)); [|lia|lia|unfold CountDense.has; rewrite Nat.leb_refl; reflexivity].
    cbn [bind]. rewrite AP. destruct (has (st - 1) i) eqn:H.
    + destruct (d_step (st - 1) i ltac:(lia) Hi ltac:(lia) H) as (a & b & -> & -> & NO). cbn [bind]. rewrite NO.
      replace (S (st - 1)) with st by lia. eexists. split; [reflexivity|]. split; [split; intros Q; discriminate|]. intros ? [= <-] _. reflexivity.
    + eexists. split; [reflexivity|]. split; [tauto|]. intros ? [=].
  - assert (EO : o = st) by (unfold o, CountDense.orig; lia). rewrite EO in *. replace (st - st) with 0 in * by lia.
    cbn [d_extend_loop bind]. cbn [seq map] in AP. rewrite app_nil_r in AP.
    unfold CountDense.dstart. replace (st - 1 <? leafl i) with true by lia.
    pose proof (anc_child K (st - 1) i Hi ltac:(lia)) as AC.
    rewrite (d_child_num c K HS HB HE HNE st d e Hst1 HD (st - 1) (anc (st - 1) i)) by (auto; lia). cbn [bind].
    apply (child_nonterm K HS HE) in AC as AN. apply (nonterm_spec K) in AN.
    rewrite (d_child_read c K HS HB HE HNE st d e Hst1 HD (st - 1) (anc (st - 1) i)) by (try tauto; lia). cbn [bind].
    eexists. split; [reflexivity|]. split.
    + split; intros Q; [discriminate|]. unfold CountDense.has in Q. replace (st - 1 <=? leafl i) with true in Q by lia. discriminate.
    + intros a _ Q. lia.
Qed.

Lemma d_list : forall i it, i < n -> dat K st i it ->
  mapM (vget (di_pos it)) (seq 0 (di_len it)) = Ok (map (fun m => dstart m i) (seq 0 (orig i))) /\ di_atprefix it = pre i.
Proof.
  clear Hst1 Hst2 HNE Hlab Hmem. intros i it Hi (_ & H). destruct (Nat.ltb_spec (leafl i) st) as [G|G].
  - destruct H as (_ & _ & _ & H1 & H2 & (H3 & H4 & H5)).
    assert (EO : orig i = S (leafl i)) by (unfold CountDense.orig; lia). split; [|unfold CountDense.pre; replace (leafl i <? st) with true by lia; exact H2].
    rewrite H1, EO. rewrite mapM_vget by lia. f_equal. cbn [skipn].
    apply (nth_ext _ _ 0 (dstart 0 i)); [rewrite firstn_length, map_length, seq_length; lia|].
    rewrite firstn_length. intros m Hm. rewrite (map_nth (fun m => dstart m i)), seq_nth by lia. cbn [Nat.add].
    rewrite nth_firstn' by lia. destruct (H5 m ltac:(lia)) as [-> _].
    unfold CountDense.dstart. destruct (Nat.ltb_spec m (leafl i)) as [L|L].
    + destruct (term (leafl i) i) eqn:T; [|reflexivity]. destruct (term_leafl K HS HE i Hi T) as (_ & T2 & _).
      rewrite anc_keep by lia. reflexivity.
    + replace (m =? leafl i) with true by lia. replace m with (leafl i) by lia. destruct (term (leafl i) i) eqn:T.
      * destruct (term_leafl K HS HE i Hi T) as (_ & T2 & _). rewrite anc_self by lia. reflexivity.
      * rewrite (proj2 (leaf_self K i Hi)). reflexivity.
  - destruct H as (_ & H1 & H2 & (H3 & H4 & H5)).
    assert (EO : orig i = st) by (unfold CountDense.orig; lia). split; [|unfold CountDense.pre; replace (leafl i <? st) with false by lia; exact H2].
    rewrite H1, EO. rewrite mapM_vget by lia. f_equal. cbn [skipn].
    apply (nth_ext _ _ 0 (dstart 0 i)); [rewrite firstn_length, map_length, seq_length; lia|].
    rewrite firstn_length. intros m Hm. rewrite (map_nth (fun m => dstart m i)), seq_nth by lia. cbn [Nat.add].
    rewrite nth_firstn' by lia. destruct (H5 m ltac:(lia)) as [-> _].
    unfold CountDense.dstart. replace (m <? leafl i) with true by lia. reflexivity.
Qed.

Variables (itl itr : diter) (s t : nat).
Hypothesis Hst : s <= t.
Hypothesis Ht : t < n.
Hypothesis HLp : di_atprefix itl = pre s.
Hypothesis HRp : di_atprefix itr = pre t.
Hypothesis HLs : di_search itl = (leafl s <? st).
Hypothesis HP : has (st - 1) t = true \/ forall x, item (st - 1) x = true -> term (st - 1) x = false.

Ltac qlia := repeat match goal with H : _ mod _ <> _ |- _ => clear H | H : _ = Ok _ |- _ => clear H
  | H : forall _, _ |- _ => clear H | H : @eq Z _ _ |- _ => clear H | H : @eq bool _ _ |- _ => clear H | last := _ : N |- _ => clear last end; lia.

Lemma d_level : forall m, m < st -> has m s = true ->
  d_count_level e d itl itr (orig s) (orig t) m (dstart m s) (DD t m) = Ok (N.of_nat (lvl s t m)).
Proof.
  intros m Hm HL. assert (Hs : s < n) by qlia. unfold d_count_level. rewrite HLp, HRp, HLs.
  rewrite (round_ok m s Hm Hs). rewrite (d_cut m Hm). cbn [bind]. rewrite h_idx. cbn [bind].
  rewrite (d_cut (st - 1)) by qlia. replace (S (st - 1)) with st by qlia. cbn [bind].
  destruct (side_some m s Hm Hs HL) as (hpl & cl & ql & xl & yl & zl & (L1 & L2 & L3 & L4 & L5 & L6 & L7) & _).
  set (last := N.of_nat (256 * sm nds st - 1)).
  assert (FL : b2z ((leafl s <? st) && (m + 1 =? orig s)) = Z.of_nat (b2n (m =? leafl s))).
  { unfold CountDense.orig, b2z, b2n. destruct (Nat.ltb_spec (leafl s) st) as [G|G]; cbn [andb].
    - replace (m + 1 =? Nat.min (S (leafl s)) st) with (m =? leafl s) by (destruct (Nat.eqb_spec m (leafl s)); qlia).
      destruct (m =? leafl s); reflexivity.
    - replace (m =? leafl s) with false by qlia. reflexivity. }
  assert (FIN : forall z, s < t -> z = Z.of_nat (lvl s t m) -> Ok (pos32 z) = Ok (N.of_nat (lvl s t m))).
  { intros z _ ->. f_equal. rewrite (pos32_z _ (lvl s t m) eq_refl). unfold wrap32. apply N.mod_small. apply lvl_fits; auto. }
  assert (LE : s < t -> lvl s t m + b2n (m =? leafl s) + cn (leaf m) s = cn (leaf m) t).
  { intros G. apply (lvl_exact K HNE (Hh K HNE st e Hst1 Hst2 Hmem Hlab)); [exact G|fold n; qlia]. }
  unfold CountDense.DD. destruct (has m t) eqn:HR.
  - rewrite (round_ok m t Hm Ht).
    destruct (side_some m t Hm Ht HR) as (hpr & cr & qr & xr & yr & zr & (R1 & R2 & R3 & R4 & R5 & R6 & R7) & RM).
    destruct (Nat.ltb_spec (base m s) (base m t)) as [LT|GE].
    + assert (NE : s < t) by (destruct (Nat.eq_dec s t) as [E|]; [rewrite E in LT|]; qlia).
      rewrite L1. cbn [bind].
      replace ((N.of_nat (base m t) =? last)%N) with false.
      2: { symmetry. apply N.eqb_neq. intros Q. apply (base_mod m t Hm Ht). unfold last in Q. apply Nat2N.inj in Q. rewrite Q.
           pose proof (nds_pos (st - 1)) as P. replace (S (st - 1)) with st in P by qlia. apply mod_end; auto. }
      rewrite Bool.andb_true_r. rewrite R1. cbn [bind]. rewrite L2, R2, L3, R3. cbn [bind].
      rewrite L4, R4, L5, R5, R6, L6. cbn [bind].
      replace ((N.of_nat qr =? last)%N) with false.
      2: { symmetry. apply N.eqb_neq. intros Q. apply RM. unfold last in Q. apply Nat2N.inj in Q. rewrite Q.
           pose proof (nds_pos (st - 1)) as P. replace (S (st - 1)) with st in P by qlia. apply mod_end; auto. }
      apply FIN; auto. rewrite FL. specialize (LE NE). clear - LE L7 R7; lia.
    + f_equal. destruct (Nat.eq_dec (lvl s t m) 0) as [->|Z]; [reflexivity|]. exfalso.
      assert (NE : s < t) by (destruct (Nat.eq_dec s t) as [E|]; [exfalso; apply Z; rewrite E; unfold CountTrie.lvl; qlia|qlia]).
      destruct (lvl_leaf m s t NE Ht ltac:(qlia)) as (x & X1 & X2 & X3).
      pose proof (base_left m s x Hm Hs HL X1 X3). pose proof (base_right m t x Hm Ht HR X2 X3). qlia.
  - assert (G : leafl t < m) by (apply has_none in HR; tauto). rewrite Nat2N.id.
    assert (NE : s < t) by (destruct (Nat.eq_dec s t) as [E|]; [rewrite E in HL; congruence|qlia]).
    replace (m + 1 =? orig t) with false by (unfold CountDense.orig; qlia). cbn [andb].
    assert (OR : (orig t <=? m) = true) by (unfold CountDense.orig; qlia). rewrite OR. cbn [andb].
    destruct (Nat.ltb_spec (base m s) (256 * sm nds (S m) - 1)) as [LT|GE].
    + rewrite L1. cbn [bind]. destruct (Nat.eq_dec (S m) st) as [EM|NM].
      * rewrite EM. fold last. rewrite N.eqb_refl. cbn [negb bind]. fold last. rewrite N.eqb_refl.
        destruct HP as [P|P]; [replace (st - 1) with m in P by qlia; congruence|].
        destruct (side_last m t EM Ht HR) as (xr & yr & zr & R2 & R3 & R4 & R5 & R6 & R7).
        { replace m with (st - 1) by qlia. exact P. }
        rewrite L2, R2, L3, R3. cbn [bind]. rewrite L4, R4, L5, R5, R6, L6. cbn [bind].
        apply FIN; auto. rewrite FL. specialize (LE NE). cbn [b2z]. clear - LE L7 R7; lia.
      * destruct (side_right m t ltac:(qlia) Ht HR) as (hpr & cr & qr & xr & yr & zr & (R1 & R2 & R3 & R4 & R5 & R6 & R7) & RM).
        replace ((N.of_nat (256 * sm nds (S m) - 1) =? last)%N) with false.
        2: { symmetry. apply N.eqb_neq. intros Q. unfold last in Q. apply Nat2N.inj in Q.
             pose proof (sm_mono nds (S (S m)) st ltac:(qlia)) as M.
             pose proof (level_louds K HNE st e Hst1 Hst2 Hmem Hlab (S m) ltac:(qlia)) as LL. cbn [sm] in *.
             change (nds (S m)) with (cn (louds (S m)) (length K)) in M. pose proof (nds_pos m) as NP. cbn [sm] in NP. qlia. }
        cbn [negb]. rewrite R1. cbn [bind]. rewrite L2, R2, L3, R3. cbn [bind]. rewrite L4, R4, L5, R5, R6, L6. cbn [bind].
        replace ((N.of_nat qr =? last)%N) with false.
        2: { symmetry. apply N.eqb_neq. intros Q. apply RM. unfold last in Q. apply Nat2N.inj in Q. rewrite Q.
             pose proof (nds_pos (st - 1)) as P. replace (S (st - 1)) with st in P by qlia. apply mod_end; auto. }
        apply FIN; auto. rewrite FL. specialize (LE NE). cbn [andb] in R7. clear - LE L7 R7; lia.
    + f_equal. destruct (Nat.eq_dec (lvl s t m) 0) as [->|Z]; [reflexivity|]. exfalso.
      destruct (lvl_leaf m s t NE Ht ltac:(qlia)) as (x & X1 & X2 & X3).
      pose proof (base_left m s x Hm Hs HL X1 X3). pose proof (base_end m x Hm X3). qlia.
Qed.
Lemma sm_sub : forall f a b, a <= b -> sm f b = sm f a + (sm f b - sm f a).
Proof. intros f a b H. pose proof (sm_mono f a b H). lia. Qed.

Lemma d_loop : forall k m count, m + k = st -> (count + N.of_nat (sm (lvl s t) st - sm (lvl s t) m) < two64)%N ->
  d_count_loop e d itl itr (orig s) (orig t) m (map (DD s) (seq m k)) (map (DD t) (seq m k)) count =
  Ok (count + N.of_nat (sm (lvl s t) st - sm (lvl s t) m))%N.
Proof.
  induction k as [|k IH]; intros m count Hm HC.
  - cbn [seq map d_count_loop]. f_equal. replace m with st by lia. lia.
  - cbn [seq map d_count_loop]. unfold CountDense.DD at 1. destruct (has m s) eqn:H.
    + rewrite (d_level m ltac:(lia) H). cbn [bind]. pose proof (sm_mono (lvl s t) (S m) st ltac:(lia)) as M. cbn [sm] in M.
      unfold wrap64. rewrite N.mod_small by lia. rewrite IH by (try (cbn [sm]); lia). f_equal. cbn [sm]. lia.
    + f_equal. apply has_none in H. destruct H as [H1 H2].
      assert (Z : forall j, sm (lvl s t) (m + j) = sm (lvl s t) m).
      { induction j as [|j IHj]; [rewrite Nat.add_0_r; reflexivity|]. rewrite Nat.add_succ_r. cbn [sm]. rewrite IHj.
        rewrite (lvl_none K HNE (Hh K HNE st e Hst1 Hst2 Hmem Hlab) s t m H1 Ht) by (auto; lia). lia. }
      rewrite <- Hm, Z. lia.
Qed.

Lemma d_count_ok : dat K st s itl -> dat K st t itr -> (N.of_nat (sm (lvl s t) st) < two64)%N ->
  exists outl outr, d_approxCount e d itl itr = Ok (N.of_nat (sm (lvl s t) st), outl, outr) /\
    (outl = None <-> has (st - 1) s = false) /\ (forall a, outl = Some a -> leafl s < st -> a = nodeno st s) /\
    (outr = None <-> has (st - 1) t = false) /\ (forall a, outr = Some a -> leafl t < st -> a = nodeno st t).
Proof.
  intros DL DR HC. assert (Hs : s < n) by lia.
  destruct (d_ext s Hs) as (outl & EL & L1 & L2). destruct (d_ext t Ht) as (outr & ER & R1 & R2).
  exists outl, outr. split; auto. unfold d_approxCount.
  rewrite (proj1 (d_list s itl Hs DL)). cbn [bind]. rewrite EL. cbn [bind].
  rewrite (proj1 (d_list t itr Ht DR)). cbn [bind]. rewrite ER. cbn [bind].
  rewrite !map_length, !seq_length. rewrite (d_loop st 0 0%N) by (cbn [sm]; try rewrite Nat.sub_0_r; auto). cbn [bind sm].
  rewrite Nat.sub_0_r, N.add_0_l. reflexivity.
Qed.
End CL.
