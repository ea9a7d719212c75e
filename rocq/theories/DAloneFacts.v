(** LoudsDense alone: all levels are dense. *)
From Coq Require Import Arith List NArith ZArith Bool Lia ZifyN ZifyNat ZifyBool Sorting.Sorted.
From Verif Require Import Res Word Config BitFacts WordFacts Bitvector BitvectorFacts Rank Select
  RankSelectFacts LabelVector LabelFacts Suffix Spec SuffixFacts Builder KeyFacts Trie BuilderFacts
  DenseBuild Cutoff StructFacts NodeFacts SparseFacts Dense Sparse DenseFacts LookupFacts Serialize SerialFacts FilterFacts
  Surf IterTrie IterDense IterDMove IterSparse IterFacts IterKey SeekOrder SuffixOrder SeekDense SeekSparse SeekFacts CompareFacts IterSim
  SpecApi SpecFilter SpecIter SpecRange SpecBare SpecTrie SpecDAlone IterApi RangeApi PointFacts TrieApi SizeFacts BareFacts AloneFacts.
Import ListNotations.

(** some sparse part; it is never used *)
Definition no_sparse : sparse :=
  mkSparse 0 0 0 0 [] (mkLV [] 0) (mkRank (mkBV 0 []) 0 []) (mkSelect (mkBV 0 []) 0 0 []) suf_empty.

Section DAlone.
Variables (keys : list bytes) (e : env) (c : config) (d : dense).
Hypothesis HG : good_keys keys.
Hypothesis HM : machine e.
Hypothesis Hlens : lens_ok (cf_type c) (cf_hlen c) (cf_rlen c).
Hypothesis HL : ~ lone_ff keys.
Notation K := (uniq keys).
Notation n := (length K).
Notation kk := (kk K). Notation lo := (lo K). Notation leafl := (leafl K). Notation term := (term K). Notation anc := (anc K).
Notation lab := (lab K). Notation item := (item K). Notation same_node := (same_node K).
Notation height := (height K). Notation NN := (NN K). Notation louds := (louds K). Notation dpos := (dpos K).
Notation dat := (dat K height). Notation lpre := (lpre K height).
Hypothesis HD : dense_ok c K height d.

Let HS : StronglySorted klt K := proj1 (good_uniq keys HG).
Let HB : Forall is_bytes K := proj1 (proj2 (good_uniq keys HG)).
Let HE : Forall (fun k => k <> []) K := proj1 (proj2 (proj2 (good_uniq keys HG))).
Let HN : length K <> 0 := proj2 (proj2 (proj2 (good_uniq keys HG))).
Let Hmem : strict_mem e = false := proj2 HM.
Let Hshift : strict_shift e = false := proj1 HM.
Let HFF : no_lone_ff K := lone_ff_iff keys HG HL.
Let st := height.
Let f := mkSurf d no_sparse.

Let H2 : 2 <= height := height_ge2 K e HN Hshift Hmem.
Let H1 : 1 <= height.
Proof. lia. Qed.

Lemma leafl_top : forall i, i < n -> leafl i < height.
Proof. intros i Hi. pose proof (LEN_leafl K n i Hi) as Q. unfold StructFacts.height. lia. Qed.

Lemma no_bottom : forall j, louds height j = false.
Proof.
  intros j. destruct (louds height j) eqn:E; [|reflexivity]. exfalso. apply louds_item in E.
  pose proof (item_lt K _ _ E) as L. apply item_spec in E. pose proof (leafl_top j L) as Q. unfold Trie.leafl in Q. lia.
Qed.

(** ** reading *)
Lemma d_key : forall i it, i < n -> dat i it -> di_getKey it = Ok (firstn (S (leafl i)) (kk i)).
Proof.
  intros i it Hi DA. rewrite (di_key_ok K HS HE HN height H1 i it Hi DA). pose proof (leafl_top i Hi).
  replace (Nat.min height (S (leafl i))) with (S (leafl i)) by lia. reflexivity.
Qed.

Lemma d_complete : forall i it, i < n -> dat i it -> di_complete it = true.
Proof. intros i it Hi DA. rewrite (dat_complete K height i it DA). apply Nat.ltb_lt. apply leafl_top. exact Hi. Qed.

Lemma d_looks : forall i it, i < n -> dat i it -> exists v, d_look e d it = Ok v /\ view_at c keys (Some i) v.
Proof.
  intros i it Hi DA. pose proof (alone_bytes keys HG i Hi) as Hk. pose proof (leafl_top i Hi) as L.
  destruct (keysuf_good keys e c HG HM Hlens (kk i) (S (leafl i)) Hk) as (ks & EK & GK).
  pose proof (real_val_bound (kk i) (S (leafl i)) (cf_rlen c) Hk) as RB.
  destruct (di_suf_pos c K HS HB HE HN HFF height f e H1 HD i it Hi L DA) as (pos & P1 & P2). cbn [f sf_dense] in P2.
  exists (mkView true (firstn (S (leafl i)) (kk i))
    (if has_real (cf_type c) then (cf_rlen c, Some (real_read (kk i) (S (leafl i)) (cf_rlen c))) else (0, Some 0%N)) ks). split.
  - unfold d_look. rewrite (proj1 DA), (d_key i it Hi DA). cbn [bind].
    pose proof (d_type c K height f HD) as DT. cbn [f sf_dense] in DT.
    unfold di_getSuffix, di_getKeyWithSuffix. rewrite (d_key i it Hi DA), DT, (d_complete i it Hi DA). cbn [bind andb].
    destruct (has_real (cf_type c)) eqn:HR; cbn [andb] in EK.
    + rewrite P1. cbn [bind]. rewrite P2. cbn [bind].
      destruct (d_read c K HB HN height f e H1 HD Hshift Hlens i Hi L HR) as (_ & R1 & R2). cbn [f sf_dense] in R1, R2.
      rewrite R1, R2. cbn [bind].
      destruct (0 <? _)%N.
      * apply bind_ok in EK. destruct EK as (b & E1 & E2). rewrite E1. cbn [bind]. injection E2 as <-. reflexivity.
      * injection EK as <-. reflexivity.
    + injection EK as <-. reflexivity.
  - split; auto. exists (S (leafl i)). split; [apply (dist_at keys HG); auto|]. split; auto. split; auto. intros L63.
    split; [|auto]. cbn [vw_suffix]. unfold real_read. replace (cf_rlen c =? 64) with false by lia. split.
    + intros X. apply has_real_keeps in X. rewrite X. rewrite next_bits0_val by auto. unfold bits_value. rewrite bitsn_value; auto.
    + intros X. destruct (has_real (cf_type c)) eqn:ER; auto. exfalso. apply X, has_real_keeps. auto.
Qed.

Lemma d_cmp_at : forall i it q, i < n -> is_bytes q -> dat i it ->
  exists z, di_compare e d it q = Ok z /\ cmp_at c K height i q z.
Proof.
  intros i it q Hi Hq DA.
  exact (di_compare_leaf c K HS HB HE HN HFF height f e H1 HD Hshift Hlens q Hq i it Hi (leafl_top i Hi) DA).
Qed.

Lemma d_compares : forall i it q, i < n -> is_bytes q -> dat i it ->
  exists z, di_compare e d it q = Ok z /\ cmp_sound c keys (kk i) q z.
Proof.
  intros i it q Hi Hq DA. destruct (d_cmp_at i it q Hi Hq DA) as (z & E & CA).
  exists z. split; [exact E|]. apply (cmp_at_sound keys HG c height i q z Hi Hq CA).
Qed.

(** ** steps *)
Lemma d_height_eq : d_height d = height. Proof. apply HD. Qed.

Lemma d_step_next : forall i it, i < n -> dat i it ->
  exists it', di_next e d it = Ok it' /\ if S i <? n then dat (S i) it' else di_valid it' = false.
Proof.
  intros i it Hi DA. destruct (di_next_ok c K HS HB HE HN HFF height d e H1 HD Hmem i it Hi DA) as (it' & E & G).
  { right. left. apply leafl_top. exact Hi. }
  exists it'. split; [exact E|]. destruct G as [(EI & G & _)|(EI & G & _)].
  - replace (S i <? n) with false by lia. exact G.
  - replace (S i <? n) with true by lia. exact G.
Qed.

Lemma stuck_dec : forall h a b, stuck keys h a b \/ ~ stuck keys h a b.
Proof.
  intros h a b. unfold stuck. destruct (zero_start_dec a) as [Z1|Z1], (zero_start_dec b) as [Z2|Z2];
    destruct (list_eq_dec Nat.eq_dec a [0]) as [E|E]; destruct (le_lt_dec h 1) as [L|L];
    destruct (Forall_dec _ zero_start_dec keys) as [E3|E3]; rewrite Forall_forall in E3;
    first [left; tauto|right; intros [(X1 & X2)|(X1 & X2 & X3)]; first [tauto|lia]].
Qed.

Lemma d_step_prev : forall i it, i < n -> dat i it -> exists it', di_prev e d it = Ok it' /\
  match i with
  | O => di_valid it' = false
  | S j => (stuck keys height (kk j) (kk i) /\ di_valid it' = false) \/ (~ stuck keys height (kk j) (kk i) /\ dat j it')
  end.
Proof.
  intros i it Hi DA. destruct (di_prev_ok c K HS HB HE HN HFF height d e H1 HD Hmem i it Hi DA) as (it' & E & G).
  { left. apply leafl_top. exact Hi. }
  exists it'. split; [exact E|]. destruct i as [|j].
  - destruct G as [(_ & G)|((x & X & _) & _)]; [exact G|discriminate].
  - pose proof (back_stuck keys HG height j Hi) as BS. destruct G as [(NB & G)|(NB & G & _)].
    + left. split; [|exact G]. destruct (stuck_dec height (kk j) (kk (S j))) as [X|X]; [exact X|]. tauto.
    + right. split; [apply BS; exact NB|]. cbn [Nat.sub] in G. rewrite Nat.sub_0_r in G. exact G.
Qed.

Lemma d_standing : forall i it, i < n -> dat i it -> d_stands e c d keys it i.
Proof.
  intros i it Hi DA ms. revert i it Hi DA. induction ms as [|m ms IH]; intros i it Hi DA j PA; cbn [d_run].
  - inversion PA; subst. destruct (d_looks j it Hi DA) as (v & A & B). exists it, v. split; auto.
    split; [apply (d_complete j); auto|]. split; auto. split; auto.
    split; [intros q Hq; apply d_compares; auto|]. rewrite d_height_eq. intros [|] AH; cbn [ahead d_move] in *.
    + destruct (d_step_next j it Hi DA) as (it' & E & G). destruct (S j <? n); [discriminate|]. eauto.
    + destruct (d_step_prev j it Hi DA) as (it' & E & G). exists it'. split; [exact E|]. destruct j as [|j]; [exact G|].
      destruct G as [(_ & G)|(NS & _)]; [exact G|]. destruct AH as [(X & _)|(_ & X)]; [contradiction|discriminate].
  - inversion PA as [|m' ms' p p1 r AH PA']; subst. clear PA. rewrite d_height_eq in AH.
    assert (NP : p1 <> None).
    { intros ->. clear - PA'. remember (@None nat) as a eqn:EA. remember (Some j) as b eqn:EB. revert EA EB.
      induction PA' as [p|m ms p q r A P IH]; intros -> EB; [discriminate|]. cbn [ahead] in A. subst q. apply IH; auto. }
    destruct m; cbn [ahead d_move] in *.
    + destruct (d_step_next i it Hi DA) as (it' & E & G). destruct (Nat.ltb_spec (S i) n) as [L|L]; [|congruence].
      rewrite E. cbn [bind]. subst p1. eapply IH; eauto.
    + destruct (d_step_prev i it Hi DA) as (it' & E & G). rewrite E. cbn [bind]. destruct i as [|i]; [congruence|].
      destruct AH as [(_ & X)|(NS & ->)]; [congruence|]. destruct G as [(X & _)|(_ & G)]; [contradiction|].
      refine (IH i it' _ G j PA'). lia.
Qed.

(** ** seeks *)
Lemma d_seek_at : forall q incl, is_bytes q -> ~ (q = [] /\ asserts e = true) -> exists fp it i,
  d_moveToKeyGreaterThan e d q incl (diter_new d) = Ok (fp, it) /\ landed c K height q incl i fp /\
  if i <? n then dat i it else di_valid it = false.
Proof.
  intros q incl Hq HT.
  assert (Hend : forall l j, l < height -> louds l j = true -> firstn l q = firstn l (kk j) -> length q = l ->
    (asserts e = false \/ 1 <= l) /\ (term l j = true \/ leafl j < height)).
  { intros l j Hl LO _ LQ. split; [|right; apply leafl_top, (item_lt K l), louds_item, LO].
    destruct l; [left|right; lia]. destruct (asserts e) eqn:EA; [|reflexivity]. exfalso. apply HT. split; [|reflexivity].
    destruct q; [reflexivity|discriminate]. }
  unfold d_moveToKeyGreaterThan. rewrite d_height_eq.
  destruct (d_gt_spec c K HS HB HE HN HFF height d e H1 HD Hmem Hshift Hlens q incl Hq Hend height 0 0 (diter_new d)) as (fp & it & E & R);
    try reflexivity; try lia.
  { apply (louds_root K HN). }
  { unfold diter_new. cbn [di_key di_pos]. rewrite d_height_eq. split; [apply repeat_length|]. split; [apply repeat_length|]. intros m Hm. lia. }
  assert (N0 : NN 0 0 = 0).
  { unfold SparseFacts.NN. cbn [sm cn]. rewrite (louds_root K HN). reflexivity. }
  rewrite N0 in E. destruct R as [(V & LA)|[(i & Hi & (DA & _) & _ & LA)|(j & _ & _ & _ & _ & _ & _ & _ & X & _)]].
  - exists fp, it, n. split; [exact E|]. split; [exact LA|]. rewrite Nat.ltb_irrefl. exact V.
  - exists fp, it, i. split; [exact E|]. split; [exact LA|]. replace (i <? n) with true by lia. exact DA.
  - rewrite no_bottom in X. discriminate.
Qed.

Lemma d_seek : forall q incl, is_bytes q -> ~ d_trap e c keys q -> exists fp it p,
  d_moveToKeyGreaterThan e d q incl (diter_new d) = Ok (fp, it) /\ gt_place c keys (d_height d) q incl fp p /\
  match p with Some i => d_stands e c d keys it i | None => di_valid it = false end.
Proof.
  intros q incl Hq HT. unfold d_trap in HT. destruct (d_seek_at q incl Hq ltac:(tauto)) as (fp & it & i & E & LA & G). exists fp, it, (opt keys i).
  split; [exact E|]. split; [rewrite d_height_eq; apply (gt_landed keys HG c q Hq (cut_whole keys HG c q Hq ltac:(tauto)) height incl i fp LA)|].
  unfold opt. destruct (Nat.ltb_spec i n) as [L|L]; [apply d_standing; auto|exact G].
Qed.

(** ** the ends *)
Lemma d_at_first : exists it, d_first e d = Ok it /\ dat 0 it.
Proof.
  unfold d_first. pose proof HD as [HH _ _ _ _ _].
  assert (I0 : item 0 0 = true) by (apply (louds_item K), (louds_root K HN)).
  pose proof (term0 K HS HE HN height e H1 Hmem 0 I0) as T0. pose proof (louds_root K HN) as LR.
  assert (N0 : NN 0 0 = 0).
  { unfold SparseFacts.NN. cbn [sm cn]. rewrite LR. reflexivity. }
  assert (E : exists k p, di_setToFirstLabelInRoot e d (diter_new d) =
      Ok (di_setLen (di_setKP (diter_new d) k p) 1) /\ lpre 0 1 k p).
  { unfold di_setToFirstLabelInRoot.
    assert (B : exists b, d_readLabel e d 0 = Ok b /\
      (if b : bool then Ok 0 else d_getNextPos e d 0) = Ok (dpos 0 0)).
    { destruct (Nat.eq_dec (lab 0 0) 0) as [Z|Z].
      - exists true. split.
        + pose proof (readLabel_true c K HS HB HE HN HFF st d e H1 HD 0 0 0 ltac:(lia) LR ltac:(lia) I0
            ltac:(intros m Hm; lia) T0) as R. unfold dp in R. rewrite N0, Z in R. exact R.
        + unfold IterDMove.dpos. unfold dp. rewrite N0, Z. reflexivity.
      - exists false. split.
        + pose proof (readLabel_false c K HS HB HE HN HFF st d e H1 HD 0 0 0 ltac:(lia) LR ltac:(lia)) as R.
          unfold dp in R. rewrite N0 in R. apply R. intros x X1 X2 X3 X4 X5.
          destruct (Nat.eq_dec x 0) as [->|NX]; [lia|].
          pose proof (node_lab_lt K HS HE 0 0 x ltac:(lia) X2 X3 T0). lia.
        + pose proof (d_next_in c K HS HB HE HN HFF st d e H1 HD Hmem 0 0 1 0 ltac:(lia) LR ltac:(right; unfold dp; lia)) as R.
          unfold dp in R. rewrite N0 in R. cbn [Nat.mul Nat.add] in R. unfold d_getNextPos.
          unfold IterDMove.dpos, dp. rewrite N0. cbn [Nat.mul Nat.add]. apply R; auto; try lia.
          * intros m Hm. lia.
          * intros x X1 X2 X3 X4 X5. destruct (Nat.eq_dec x 0) as [->|NX]; [lia|].
            pose proof (node_lab_lt K HS HE 0 0 x ltac:(lia) X2 X3 T0). lia. }
    destruct B as (b & B1 & B2). rewrite B1. cbn [bind]. rewrite B2. cbn [bind].
    unfold diter_new. cbn [di_pos di_key di_len]. rewrite HH. rewrite !vset_ok by (rewrite repeat_length; lia). cbn [bind].
    eexists _, _. split; [reflexivity|].
    pose proof (lpre_set K height 0 0 (repeat 0 height) (repeat 0 st)) as Q.
    change 256 with kNodeFanout. rewrite (dpos_mod K HB HN st H1). apply Q; [|lia].
    split; [apply repeat_length|]. split; [apply repeat_length|]. intros m Hm. lia. }
  destruct E as (k & p & E & P). rewrite E. cbn [bind].
  destruct (move_left_ok c K HS HB HE HN HFF height d e H1 HD Hmem 0 0 (di_setLen (di_setKP (diter_new d) k p) 1))
    as (d' & E' & G); auto; try lia.
  rewrite E'. exists d'. split; [reflexivity|apply G].
Qed.

Lemma d_at_last : exists it, d_last e d = Ok it /\ dat (n - 1) it.
Proof.
  unfold d_last. pose proof HD as [HH _ _ _ _ _].
  set (i := n - 1). assert (Hi : i < n) by (unfold i; lia).
  assert (I0 : item 0 (anc 0 i) = true) by (apply anc_item; auto; lia).
  pose proof (term0 K HS HE HN height e H1 Hmem _ I0) as T0. pose proof (louds_root K HN) as LR.
  assert (SN : same_node 0 0 (anc 0 i)) by (intros x Hx; apply louds_root_only; lia).
  assert (N0 : NN 0 0 = 0).
  { unfold SparseFacts.NN. cbn [sm cn]. rewrite LR. reflexivity. }
  assert (N1 : NN 0 (anc 0 i) = 0) by (rewrite (NN_same K 0 0 (anc 0 i)) by (auto; lia); auto).
  assert (E : exists k p, di_setToLastLabelInRoot e d (diter_new d) =
      Ok (di_setLen (di_setKP (diter_new d) k p) 1) /\ lpre i 1 k p).
  { unfold di_setToLastLabelInRoot.
    assert (B : exists o, d_getPrevPos e d kNodeFanout = Ok o /\
      match o with Some p => p | None => 0 end = dpos 0 (anc 0 i)).
    { pose proof (lab_byte K HB HN 0 (anc 0 i)) as BY.
      pose proof (d_prev_in c K HS HB HE HN HFF height d e H1 HD Hmem 0 0 256 (anc 0 i) ltac:(lia) LR ltac:(lia) ltac:(lia) I0 SN T0 BY) as R.
      eexists. split.
      - unfold dp at 1 in R. rewrite N0 in R. change kNodeFanout with (256 * 0 + 256). apply R.
        intros x X1 X2 X3 X4 X5. destruct (lt_eq_lt_dec x (anc 0 i)) as [[L|L]|L]; [|subst; lia|].
        + pose proof (node_lab_lt K HS HE 0 x (anc 0 i) L I0 (same_node_sub K 0 0 x _ SN X1 ltac:(lia)) X4). lia.
        + exfalso. apply (no_later K 0 i x); auto; [left; unfold i; lia|].
          apply (same_node_sub K 0 0 (anc 0 i) x); auto; lia.
      - unfold IterDMove.dpos, dp. rewrite N0, N1. cbn [Nat.mul Nat.add]. destruct (Nat.eqb_spec (lab 0 (anc 0 i)) 0); auto. }
    destruct B as (o & B1 & B2). rewrite B1. cbn [bind]. cbv zeta. rewrite B2.
    unfold diter_new. cbn [di_pos di_key di_len]. rewrite HH. rewrite !vset_ok by (rewrite repeat_length; lia). cbn [bind].
    eexists _, _. split; [reflexivity|].
    pose proof (lpre_set K height i 0 (repeat 0 height) (repeat 0 height)) as Q.
    change 256 with kNodeFanout. rewrite (dpos_mod K HB HN height H1). apply Q; [|lia].
    split; [apply repeat_length|]. split; [apply repeat_length|]. intros m Hm. lia. }
  destruct E as (k & p & E & P). rewrite E. cbn [bind].
  destruct (move_right_ok c K HS HB HE HN HFF height d e H1 HD Hmem i 0 (di_setLen (di_setKP (diter_new d) k p) 1))
    as (d' & E' & G); auto; try lia.
  { left. unfold i. lia. }
  rewrite E'. exists d'. split; [reflexivity|apply G].
Qed.

(** ** lookups *)
Lemma d_answers : forall q, is_bytes q -> exists b, d_lookupKey e d q = Ok (b, 0) /\ xans c K q b.
Proof.
  intros q Hq. unfold d_lookupKey. rewrite d_height_eq.
  destruct (d_lookup_spec c K HS HB HE HN height d e H1 HD Hmem Hshift Hlens HFF height 0 0 q) as [(b & E & A)|(j & _ & X & _)]; auto; try lia.
  { apply (louds_root K HN). }
  - assert (N0 : NN 0 0 = 0).
    { unfold SparseFacts.NN. cbn [sm cn]. rewrite (louds_root K HN). reflexivity. }
    rewrite N0 in E. eauto.
  - rewrite no_bottom in X. discriminate.
Qed.
End DAlone.

(** ** what is built *)
Section DSize.
Variable keys : list bytes.
Hypothesis HG : good_keys keys.
Variables (e : env) (c : config).
Hypothesis HM : machine e.
Hypothesis HC : dense_settings c.
Notation K := (uniq keys). Notation height := (height K).
Let HS : StronglySorted klt K := proj1 (good_uniq keys HG).
Let HB : Forall is_bytes K := proj1 (proj2 (good_uniq keys HG)).
Let HE : Forall (fun k => k <> []) K := proj1 (proj2 (proj2 (good_uniq keys HG))).
Let HN : length K <> 0 := proj2 (proj2 (proj2 (good_uniq keys HG))).
Let Hmem : strict_mem e = false := proj2 HM.
Let Hshift : strict_shift e = false := proj1 HM.
Let Hd : cf_dense c = true := proj1 HC.
Let Hr : cf_ratio c = 0%N := proj1 (proj2 HC).
Let Hlens : lens_ok (cf_type c) (cf_hlen c) (cf_rlen c) := proj2 (proj2 HC).
Let H2 : 2 <= height := height_ge2 K e HN Hshift Hmem.

(** with ratio 0 the loop goes on to the last level *)
Lemma cutoff_all : forall st, st_rel (cf_len c) st (absl K (sv c K) (length K) 0) -> length st = height ->
  determineCutoffLevel e c st = Ok height.
Proof.
  intros st HR HL. destruct (determineCutoffLevel_spec e c st) as (s & A & B & _ & D). rewrite A. f_equal.
  destruct (Nat.eq_dec s (length st)) as [E|E]; [lia|]. exfalso. rewrite Hr, N.mul_0_r in D. specialize (D ltac:(lia)).
  assert (SL : lv_smem (cf_len c) st (length st - 1) = 1%N).
  { unfold lv_smem. assert (IT : items K (length st - 1) = []) by (apply (height_items K e HN Hshift Hmem); lia).
    destruct (st_level c K st HR (length st - 1)) as [R1 _ _ _ _ _ _ _ _]. rewrite R1. cbn [a_labs].
    unfold slabs. rewrite IT. rewrite (st_sufcount c K st HR).
    pose proof (leaf_items c K e HN Hshift Hmem st HL (length st - 1)) as Q. rewrite IT in Q. cbn [length] in Q.
    replace (length (ssfx c K (length st - 1))) with 0 by lia. reflexivity. }
  unfold sparse_mem in D. replace (length st - s) with (S (length st - 1 - s)) in D by lia.
  rewrite seq_snoc, map_app, fold_left_app in D. cbn [map fold_left] in D.
  replace (s + (length st - 1 - s)) with (length st - 1) in D by lia. rewrite SL in D. lia.
Qed.

Lemma build_all : okp (N.of_nat (length K * cf_len c + 64) < 4294967296)%N (build e c keys) (fun b => exists st ds,
  b = mkBuilder c st ds height /\ st_rel (cf_len c) st (absl K (sv c K) (length K) 0) /\ length st = height /\
  length ds = height /\ forall i d, i < height -> length (dr_labels (nth i ds d)) = nds K i * 4 /\
    lrepr (dr_labels (nth i ds d)) (dlab K i) /\ lrepr (dr_child (nth i ds d)) (dchl K i) /\
    lrepr (dr_prefix (nth i ds d)) (dpre K i)).
Proof.
  unfold build. assert (KN : keys <> []) by (intros E; apply HN; rewrite E; reflexivity).
  rewrite massert_true by (destruct keys; [congruence|cbn; lia]). cbn [bind]. rewrite Hd.
  pose proof (buildSparse_spec e c K HS HB HE Hshift Hlens keys eq_refl) as BS.
  unfold okp in *. destruct (buildSparse e c keys) as [st|[]]; cbn [bind]; try exact BS.
  destruct BS as [HL HR]. rewrite (cutoff_all st HR HL). cbn [bind].
  destruct (buildDense_ok c K e HB HN Hshift Hmem st HR HL height (le_n _)) as (ds & ED & L & G). rewrite ED. cbn [bind].
  exists st, ds. auto.
Qed.

Lemma d_alone_make : forall b, build e c keys = Ok b -> okB (fits_at c K height) (dense_make e b) (dense_ok c K height).
Proof.
  intros b EB. pose proof build_all as Q. rewrite EB in Q. cbn [okp] in Q. destruct Q as (st & ds & -> & HR & HL & LD & G).
  apply (dense_make_ok c K e HB HN Hshift Hmem Hlens st HR HL height height ds); auto. lia.
Qed.

Lemma d_alone_parts : forall d, d_alone e c keys d -> dense_ok c K height d.
Proof.
  intros d E. unfold d_alone in E. apply bind_ok in E. destruct E as (b & EB & E). pose proof (d_alone_make b EB) as Q.
  rewrite E in Q. exact Q.
Qed.

Lemma d_alone_create : told_apart keys 8388607 -> exists d, d_alone e c keys d.
Proof.
  intros HT. pose proof (told_total keys HS _ HT) as T. pose proof (items_total K) as T1. pose proof (total_keys K) as T2.
  assert (T3 : sm (nds K) height <= total_bytes K).
  { eapply Nat.le_trans; [|exact T1]. apply sm_le. intros. apply nds_items. }
  assert (T4 : length K * cf_len c <= total_bytes K * 64) by (apply Nat.mul_le_mono; [exact T2|exact (proj1 Hlens)]).
  pose proof build_all as Q. unfold d_alone. destruct (build e c keys) as [b|er] eqn:EB.
  - cbn [bind]. pose proof (d_alone_make b EB) as QB. destruct (dense_make e b) as [d|er]; [eauto|]. exfalso. apply QB. clear QB Q.
    split; [lia|]. split; [split; [lia|]|lia]. unfold room_at, labels_from, cc. rewrite Nat.sub_diag. vm_compute. discriminate.
  - exfalso. cbn [okp] in Q. destruct er; try contradiction; apply Q; lia.
Qed.

(** ** written and read back *)
Let c1 : config := mkCfg true 16 (cf_type c) (cf_hlen c) (cf_rlen c).
Lemma d_alone_wf : forall d, dense_ok c K height d -> storable e keys -> dense_wf d.
Proof.
  intros d D T. pose proof (storable_total keys e HS HN T) as TT. pose proof (height_total K TT HN) as HH.
  destruct D as [D1 D2 D3 D4 D5 D6 D7].
  assert (L : forall l, length (dlab K l) = 256 * nds K l) by (intros; unfold dlab; apply bm_length).
  assert (L2 : length (cc (dchl K) 0 height) = length (cc (dlab K) 0 height)).
  { rewrite !cc_length by lia. f_equal; apply sm_ext; intros; rewrite L; unfold dchl; apply bm_length. }
  assert (L3 : length (cc (dpre K) 0 height) <= length (cc (dlab K) 0 height)).
  { rewrite !cc_length by lia. cbn [sm]. rewrite !Nat.sub_0_r. apply sm_le. intros i _. rewrite L. unfold dpre. rewrite bm_length. lia. }
  split; [lia|]. split.
  - rewrite D6, D1. split; [rewrite level_cuts_len, map_length, seq_length; auto|apply level_cuts_fit].
  - split; [eapply rank_ok_wf; eauto|]. split; [eapply rank_ok_wf; eauto; lia|].
    split; [eapply rank_ok_wf; eauto; lia|]. apply (suf_rel_wf c1 _ (cc (ssfx c K) 0 height)); [|exact D5].
    left. split; [reflexivity|]. split; [cbn; lia|]. exact Hlens.
Qed.

Lemma dense_round : forall d, dense_wf d -> forall a a' mem rest, N.of_nat (length mem) = dense_serializedSize d ->
  block a (length mem) -> block a' (length mem) -> exists buf,
  dense_serialize a d (mem, 0) = Ok (buf, length mem) /\ length buf = length mem /\
  dense_deSerialize a' (buf ++ rest) 0 = Ok (d, length mem).
Proof.
  intros d W a a' mem rest L [A1 A2] [B1 B2]. change (2 ^ 64)%N with two64 in *.
  destruct (dense_codec a a' (length mem) A1 B1 A2 B2 d W) as (sz & (_ & C2) & E). specialize (E 0). cbn [Nat.mul Nat.add] in E.
  destruct (dense_size_eq (mkSurf d no_sparse) W) as (SE & _).
  cbn [sf_dense] in SE. rewrite SE in L. assert (L' : length mem = dense_bytes d) by lia.
  destruct (C2 mem 0 (le_n _)) as (b & W1 & L1 & _ & R1); [rewrite E; lia|]. rewrite E, <- L' in *. exists b.
  split; [exact W1|]. split; [exact L1|]. apply R1.
  rewrite firstn_app. replace (length mem - length b) with 0 by lia. rewrite firstn_O, app_nil_r. reflexivity.
Qed.

Lemma d_restored_same : forall d d', dense_wf d -> d_restored d d' -> d' = d.
Proof.
  intros d d' W (a & a' & mem & buf & rest & m & m' & A1 & A2 & A3 & A4 & A5).
  destruct (dense_round d W a a' mem rest A1 A2 A3) as (buf' & E & _ & E'). rewrite E in A4. injection A4 as <- <-.
  rewrite E' in A5. injection A5 as <- _. reflexivity.
Qed.

Lemma d_part_built : forall d, d_part e c keys d -> d_alone e c keys d.
Proof.
  intros d H. induction H as [d H|d d' H IH T Q]; [exact H|].
  rewrite (d_restored_same d d' (d_alone_wf d (d_alone_parts d IH) T) Q). exact IH.
Qed.

(** the number of levels *)
Lemma d_alone_height : forall d, d_part e c keys d ->
  (forall k x, In k keys -> dist_len keys k x -> x < d_height d) /\
  (exists k x, In k keys /\ dist_len keys k x /\ d_height d = S x).
Proof.
  intros d HA. pose proof (d_alone_parts d (d_part_built d HA)) as [-> _ _ _ _ _]. split.
  - intros k x Hk D. destruct (in_kk keys k Hk) as (i & Hi & <-). rewrite (dist_kk keys HG i x Hi D).
    pose proof (LEN_leafl K (length K) i Hi). unfold StructFacts.height. lia.
  - destruct (LEN_max K (length K)) as (m & A & B); [lia|]. exists (kk K m), (S (leafl K m)).
    split; [apply (kk_in keys m A)|]. split; [apply (dist_at keys HG m A)|]. unfold StructFacts.height. lia.
Qed.
End DSize.

(** ** in the words of the properties *)
Section DWords.
Variables (e : env) (c : config) (keys : list bytes) (d : dense).
Hypothesis HG : good_keys keys.
Hypothesis HM : machine e.
Hypothesis HC : dense_settings c.
Hypothesis HL : ~ lone_ff keys.
Hypothesis HA : d_part e c keys d.
Let HD : dense_ok c (uniq keys) (height (uniq keys)) d := d_alone_parts keys HG e c HM HC d (d_part_built keys HG e c HM HC d HA).
Let Hlens : lens_ok (cf_type c) (cf_hlen c) (cf_rlen c) := proj2 (proj2 HC).

Lemma dw_admits : forall k q x, In k keys -> is_bytes q -> dist_len keys k x -> firstn x q = firstn x k ->
  exists b, d_lookupKey e d q = Ok (b, 0) /\ (b = true <-> admits c k q x).
Proof.
  intros k q x Hk Hq D F. destruct (in_kk keys k Hk) as (i & Hi & <-).
  pose proof (dist_kk keys HG i x Hi D) as ED. subst x.
  assert (M : mt (uniq keys) q i) by exact F.
  destruct (d_answers keys e c d HG HM Hlens HL HD q Hq) as (b & E & (A & _) & _).
  exists b. split; [exact E|]. rewrite (A i Hi M). unfold acc.
  apply (accepts_admits (mkCfg true 16 (cf_type c) (cf_hlen c) (cf_rlen c)) (kk (uniq keys) i) q (S (leafl (uniq keys) i))); auto.
  - split; [reflexivity|]. split; [cbn; lia|]. exact Hlens.
  - apply (alone_bytes keys HG i Hi).
Qed.

Lemma dw_stored : forall k, In k keys -> d_lookupKey e d k = Ok (true, 0).
Proof.
  intros k Hk. destruct (in_kk keys k Hk) as (i & Hi & <-). pose proof (alone_bytes keys HG i Hi) as Hb.
  destruct (d_answers keys e c d HG HM Hlens HL HD (kk (uniq keys) i) Hb) as (b & E & (A & _) & _).
  rewrite E. rewrite (A i Hi eq_refl). unfold acc. rewrite accepts_refl. reflexivity.
Qed.

Lemma dw_rejects : forall q, is_bytes q -> (forall k x, In k keys -> dist_len keys k x -> firstn x q <> firstn x k) ->
  d_lookupKey e d q = Ok (false, 0).
Proof.
  intros q Hq NM. destruct (d_answers keys e c d HG HM Hlens HL HD q Hq) as (b & E & _ & A). rewrite E.
  rewrite A; [reflexivity|]. intros i Hi M. apply (NM (kk (uniq keys) i) (S (leafl (uniq keys) i))); auto using kk_in.
  apply (dist_at keys HG). exact Hi.
Qed.

Lemma dw_seek : forall q incl, is_bytes q -> ~ d_trap e c keys q -> exists fp it p,
  d_moveToKeyGreaterThan e d q incl (diter_new d) = Ok (fp, it) /\ gt_place c keys (d_height d) q incl fp p /\
  match p with Some i => d_stands e c d keys it i | None => di_valid it = false end.
Proof. exact (d_seek keys e c d HG HM Hlens HL HD). Qed.

Lemma dw_ends :
  (exists it, d_first e d = Ok it /\ d_stands e c d keys it 0) /\
  (exists it, d_last e d = Ok it /\ d_stands e c d keys it (length (uniq keys) - 1)).
Proof.
  pose proof (proj2 (proj2 (proj2 (good_uniq keys HG)))) as HN. split.
  - destruct (d_at_first keys e c d HG HM HL HD) as (it & E & G). exists it. split; [exact E|].
    apply (d_standing keys e c d HG HM Hlens HL HD); auto. lia.
  - destruct (d_at_last keys e c d HG HM HL HD) as (it & E & G). exists it. split; [exact E|].
    apply (d_standing keys e c d HG HM Hlens HL HD); auto. lia.
Qed.
End DWords.
