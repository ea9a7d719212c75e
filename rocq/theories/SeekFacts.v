(** Seeks of the filter: dense and sparse parts together. *)
From Coq Require Import Arith List NArith ZArith Bool Lia ZifyN ZifyNat ZifyBool Sorting.Sorted.
From Verif Require Import Res Word Config BitFacts WordFacts Bitvector BitvectorFacts Rank Select
  RankSelectFacts LabelVector LabelFacts Suffix Spec SuffixFacts Builder KeyFacts Trie BuilderFacts
  DenseBuild StructFacts NodeFacts SparseFacts Dense Sparse DenseFacts LookupFacts
  Surf IterTrie IterDense IterDMove IterSparse IterFacts SeekOrder SuffixOrder SeekDense SeekSparse.
Import ListNotations.

Section Seek.
Variables (c : config) (K : list bytes).
Notation kk := (kk K). Notation lo := (lo K). Notation hi := (hi K). Notation leafl := (leafl K).
Notation item := (item K). Notation child := (child K). Notation louds := (louds K).
Notation leaf := (leaf K). Notation lab := (lab K). Notation term := (term K). Notation anc := (anc K).
Notation height := (height K). Notation NN := (NN K). Notation same_node := (same_node K).
Notation range := (range K). Notation mt := (mt K).
Let n := length K.
Hypothesis HS : StronglySorted klt K.
Hypothesis HB : Forall is_bytes K.
Hypothesis HE : Forall (fun k => k <> []) K.
Hypothesis HNE : length K <> 0.
Hypothesis HFF : no_lone_ff K.
Variables (st : nat) (f : surf) (e : env).
Hypothesis Hst1 : 1 <= st.
Hypothesis Hst2 : S st <= height.
Hypothesis HD : dense_ok c K st (sf_dense f).
Hypothesis HK : sparse_ok c K st (sf_sparse f).
Hypothesis Hmem : strict_mem e = false.
Hypothesis Hshift : strict_shift e = false.
Hypothesis Hlens : lens_ok (cf_type c) (cf_hlen c) (cf_rlen c).
Notation spos := (spos K st). Notation slen := (slen K st).
Notation slpre := (slpre K st). Notation sat := (sat K st). Notation node_win := (node_win K st).
Notation lpre := (lpre K st). Notation dat := (dat K st). Notation dleft := (dleft K st).
Notation landed := (landed c K st). Notation it_at := (it_at K st). Notation sidle0 := (sidle0 K st).
Notation sidle := (sidle K st).

(** an iterator before a seek *)
Definition fresh (it : iter) : Prop :=
  di_len (it_d it) = 0 /\ di_atprefix (it_d it) = false /\
  length (di_key (it_d it)) = st /\ length (di_pos (it_d it)) = st /\ sidle0 (it_s it).

(** an iterator whose key buffers have the size of the filter *)
Definition sized (it : iter) : Prop :=
  length (di_key (it_d it)) = st /\ length (di_pos (it_d it)) = st /\
  length (si_key (it_s it)) = height - st /\ length (si_pos (it_s it)) = height - st.

Lemma sized_new : sized (iter_new f).
Proof.
  unfold sized, iter_new, diter_new, siter_new. cbn [it_d it_s di_key di_pos si_key si_pos].
  rewrite !repeat_length. destruct HD as [HH _ _ _ _ _]. destruct HK as [HH2 HT _ _ _ _ _ _ _ _ _ _ _].
  rewrite HH, HH2, HT. auto.
Qed.

Lemma fresh_clear : forall it, sized it -> fresh (it_clear it).
Proof.
  intros it (A & B & C & D). unfold fresh, it_clear, SeekSparse.sidle0, diter_clear, siter_clear.
  cbn [it_d it_s di_len di_atprefix di_key di_pos si_key si_pos si_len si_valid si_atterm]. auto 10.
Qed.

Lemma fresh_new : fresh (iter_new f).
Proof.
  destruct sized_new as (A & B & C & D). unfold fresh, SeekSparse.sidle0. repeat split; auto.
Qed.

(** ++ of the dense part *)
Lemma inc_dense : forall i it, i < n -> dat i (it_d it) -> sidle i (it_s it) -> S i = n \/ leafl i < st \/ lo (S i) < st ->
  exists it', incrementDenseIter e f it = Ok (S i <? n, it') /\
    if S i <? n then it_at (S i) it' else it_valid it' = false.
Proof.
  intros i it Hi DA SI HN. unfold incrementDenseIter. rewrite (dat_valid K st _ _ DA). cbn [negb].
  destruct (di_next_ok c K HS HB HE HNE HFF st (sf_dense f) e Hst1 HD Hmem i (it_d it) Hi DA HN) as (d' & E & G).
  rewrite E. cbn [bind]. destruct G as [(G1 & G2 & G3)|(G1 & G2)].
  - rewrite G2. cbn [negb]. exists (it_setD it d'). fold n in G1. replace (S i <? n) with false by (symmetry; apply Nat.ltb_ge; clear - G1; lia).
    split; auto. unfold it_valid, it_setD. cbn [it_d]. rewrite G2. reflexivity.
  - fold n in G1. replace (S i <? n) with true by (symmetry; apply Nat.ltb_lt; auto).
    rewrite (dat_valid K st _ _ (proj1 G2)). cbn [negb].
    destruct (pass_left c K HS HB HE HNE st f e Hst1 Hst2 HK Hmem (S i) (it_setD it d') G1 G2) as (it' & P1 & P2).
    + right. exists i. split; auto.
    + destruct HN as [HN|[HN|HN]]; [clear - HN G1; lia| |auto]. pose proof (leafl_next K i G1) as LN. clear - LN HN. lia.
    + intros X. discriminate.
    + exists it'. split; auto. unfold it_setD in *. cbn [it_d] in *. destruct (di_left d'); [inversion P1; subst; reflexivity|].
      cbv zeta in *. destruct (si_moveToLeftMostKey _ _ _); cbn [bind] in *; [inversion P1; reflexivity|discriminate].
Qed.

Variables (q : bytes) (incl : bool).
Hypothesis Hq : is_bytes q.
Hypothesis Hend : forall l j, l < st -> louds l j = true -> firstn l q = firstn l (kk j) -> length q = l ->
  (asserts e = false \/ 1 <= l) /\ (term l j = true \/ leafl j < st).
Hypothesis Hclean : forall l j b N, st <= l -> louds l j = true -> firstn l q = firstn l (kk j) ->
  nth_error q l = Some b -> no_label K l j b -> node_win l j N ->
  spos l j + N <= slen /\
  (term l j = false \/ exists v w, j <= v /\ item l v = true /\ same_node l j v /\ term l v = false /\ b < lab l v /\
     v < w /\ item l w = true /\ same_node l j w).

Definition placed (i : nat) (it : iter) : Prop := if i <? n then it_at i it else it_valid it = false.

Lemma seek_d : forall it, di_len it = 0 -> di_atprefix it = false -> length (di_key it) = st -> length (di_pos it) = st ->
  exists fp d, d_moveToKeyGreaterThan e (sf_dense f) q incl it = Ok (fp, d) /\ d_result c K st q incl fp d.
Proof.
  intros it A B C D. unfold d_moveToKeyGreaterThan. pose proof HD as [HH _ _ _ _ _]. rewrite HH.
  assert (N0 : NN 0 0 = 0).
  { unfold SparseFacts.NN. cbn [sm cn]. rewrite (louds_root K HNE). reflexivity. }
  replace (d_gt_loop e (sf_dense f) q st 0 0 it) with (d_gt_loop e (sf_dense f) q st 0 (NN 0 0) it) by (rewrite N0; reflexivity).
  apply (d_gt_spec c K HS HB HE HNE HFF st (sf_dense f) e Hst1 HD Hmem Hshift Hlens q incl Hq Hend); auto.
  - apply (louds_root K HNE).
  - apply Nat.le_0_l.
  - split; auto. split; auto. intros m Hm. inversion Hm.
Qed.

Lemma seek_left : forall i it, i < n -> dleft i (it_d it) -> sidle0 (it_s it) -> lo i < st -> st <= leafl i ->
  exists s, si_moveToLeftMostKey e (sf_sparse f) (it_s (passToSparse it)) = Ok s /\ it_at i (it_setS (passToSparse it) s).
Proof.
  intros i it Hi DL SI HL LL. pose proof (pass_left c K HS HB HE HNE st f e Hst1 Hst2 HK Hmem i it Hi DL) as PL.
  assert (S0 : forall i', sidle i' (it_s it)).
  { intros i'. destruct SI as (A & B & C & D & F). split; auto. }
  destruct PL as (it' & P1 & P2); auto.
  { destruct i as [|i']; [left; reflexivity|right; exists i'; auto]. }
  { intros _. split; auto. apply SI. }
  destruct DL as (_ & DL & _). replace (leafl i <? st) with false in DL by (symmetry; apply Nat.ltb_ge; auto).
  rewrite DL in P1. cbv zeta in P1.
  destruct (si_moveToLeftMostKey _ _ _) as [s|]; cbn [bind] in P1; [|discriminate].
  exists s. split; auto. inversion P1; subst. exact P2.
Qed.

Lemma seek_sparse : forall j it, di_valid (it_d it) = true -> di_search (it_d it) = false -> di_len (it_d it) = st ->
  di_atprefix (it_d it) = false -> di_send (it_d it) = NN st j -> louds st j = true -> firstn st q = firstn st (kk j) ->
  st <= length q -> lpre j st (di_key (it_d it)) (di_pos (it_d it)) -> sidle0 (it_s it) ->
  exists fp s i, s_moveToKeyGreaterThan e (sf_sparse f) q incl (it_s (passToSparse it)) = Ok (fp, s) /\
    landed q incl i fp /\
    if si_valid s then i < n /\ it_at i (it_setS (passToSparse it) s)
    else exists b it', incrementDenseIter e f (it_setS (passToSparse it) s) = Ok (b, it') /\ placed i it'.
Proof.
  intros j it V SE LN AP SD LJ HP HQ P SI.
  pose proof (louds_item K st j LJ) as HI. pose proof (item_lt K st j HI) as Hj.
  destruct (range_exists K HNE st j Hj) as (x & HR). pose proof HR as (R1 & R2 & R3 & R4). pose proof SI as (I1 & I2 & I3 & I4 & I5).
  assert (DAT : forall i, j <= i <= x -> i < n /\ dat i (it_d it) /\ st <= leafl i).
  { intros i Hi. assert (LI : st <= leafl i).
    { destruct (Nat.eq_dec i j) as [->|NE].
      - apply item_spec in HI. unfold Trie.leafl. clear - HI. lia.
      - pose proof (lo_le K i) as LO. specialize (R3 i ltac:(clear - Hi NE; lia)). clear - LO R3. lia. }
    split; [unfold n; clear - R2 Hi; lia|]. split; auto. split; auto.
    replace (leafl i <? st) with false by (symmetry; apply Nat.ltb_ge; auto).
    unfold di_complete. rewrite SE. split; auto. split; auto. split; auto.
    apply (lpre_range K HNE st st j x i); auto. }
  assert (AT : forall i s', j <= i <= x -> sat i s' -> it_at i (it_setS (passToSparse it) s')).
  { intros i s' Hi SA. destruct (DAT i Hi) as (_ & D2 & D3). split; [exact D2|].
    replace (leafl i <? st) with false by (symmetry; apply Nat.ltb_ge; auto). exact SA. }
  destruct (s_gt_spec c K HS HB HE HNE st (sf_sparse f) e Hst1 Hst2 HK Hmem Hshift Hlens q incl Hq Hclean j x HR
    (skipn st q) st j (it_s (passToSparse it))) as (fp & s & E & G); auto.
  { unfold passToSparse. cbn [it_s]. scbn. rewrite Nat.sub_diag. split; auto. split; auto. intros m Hm. inversion Hm. }
  { unfold passToSparse. cbn [it_s]. scbn. rewrite Nat.sub_diag. auto. }
  assert (EM : s_moveToKeyGreaterThan e (sf_sparse f) q incl (it_s (passToSparse it)) = Ok (fp, s)).
  { unfold s_moveToKeyGreaterThan, passToSparse. cbn [it_s]. scbn. rewrite SD.
    rewrite (s_first_pos c K HNE st (sf_sparse f) e Hst1 Hst2 HK st j) by auto. cbn [bind].
    rewrite (sk_st _ _ _ _ HK). unfold passToSparse in E. cbn [it_s] in E. revert E. scbn. rewrite SD. auto. }
  destruct G as [(i & Hi & SA & LA)|(ID & LA)].
  - exists fp, s, i. split; auto. split; auto. rewrite (proj1 SA). split; [apply DAT; auto|]. apply AT; auto.
  - exists fp, s, (S x). split; auto. split; auto. rewrite (proj1 ID).
    destruct (DAT x ltac:(clear - R1; lia)) as (D1 & D2 & D3).
    destruct (inc_dense x (it_setS (passToSparse it) s) D1) as (it' & E' & G'); auto.
    { cbn [it_setS it_s]. destruct ID as (A & B & C & D & F). split; auto. }
    { unfold n. clear - R4. lia. }
    exists (S x <? n), it'. split; auto.
Qed.

(** where moveToKeyGreaterThan ends *)
Theorem moveToKeyGreaterThan_ok : exists it i, moveToKeyGreaterThan e f q incl = Ok it /\ placed i it /\ landed q incl i (it_fp it).
Proof.
  unfold moveToKeyGreaterThan. destruct fresh_new as (F1 & F2 & F3 & F4 & F5).
  destruct (seek_d (it_d (iter_new f)) F1 F2 F3 F4) as (fp & d & E & R). cbn [iter_new it_d] in E |- *. rewrite E. cbn [bind].
  destruct R as [(V & LA)|[(i & Hi & DL & LO & LA)|(j & V & SE & LF & RI & LN & AP & SD & LJ & HP & HQ & P)]].
  - rewrite V. cbn [negb]. eexists _, n. split; [reflexivity|]. split.
    + unfold placed. rewrite Nat.ltb_irrefl. unfold it_valid. cbn [it_setFp it_setD it_d]. rewrite V. reflexivity.
    + exact LA.
  - pose proof DL as (DA & DL1 & DL2 & DL3). rewrite (dat_valid K st _ _ DA). cbn [negb]. rewrite (dat_complete K st _ _ DA).
    destruct (Nat.ltb_spec (leafl i) st) as [L|L].
    + eexists _, i. split; [reflexivity|]. split; [|exact LA]. unfold placed.
      replace (i <? n) with true by (symmetry; apply Nat.ltb_lt; auto). split; [exact DA|].
      replace (leafl i <? st) with true by (symmetry; apply Nat.ltb_lt; auto).
      destruct F5 as (A & B & C & D & F). split; [exact A|]. split; [exact C|]. split; [exact D|]. split; [exact F|]. left. exact B.
    + rewrite DL3, DL1. cbn [negb].
      destruct (seek_left i (it_setFp (it_setD (iter_new f) d) fp) Hi DL F5 LO L) as (s & E1 & E2).
      cbv zeta. rewrite E1. cbn [bind]. eexists _, i. split; [reflexivity|]. split; [|exact LA]. unfold placed.
      replace (i <? n) with true by (symmetry; apply Nat.ltb_lt; auto). exact E2.
  - rewrite V. cbn [negb]. unfold di_complete. rewrite SE. cbn [andb negb].
    destruct (seek_sparse j (it_setFp (it_setD (iter_new f) d) fp) V SE LN AP SD LJ HP HQ P F5) as (fp' & s & i & E1 & LA & G).
    cbv zeta. rewrite E1. cbn [bind]. destruct (si_valid s); cbn [negb].
    + eexists _, i. split; [reflexivity|]. split; [|exact LA]. unfold placed. destruct G as (Hi & G).
      replace (i <? n) with true by (symmetry; apply Nat.ltb_lt; auto). exact G.
    + destruct G as (b & it' & E2 & G).
      assert (FP : forall it0 bb b1 it1, incrementDenseIter e f it0 = Ok (b1, it1) ->
         incrementDenseIter e f (it_setFp it0 bb) = Ok (b1, it_setFp it1 bb)).
      { intros it0 bb b1 it1. unfold incrementDenseIter, it_setFp, it_setD, it_setS, passToSparse. cbn [it_d it_s it_fp].
        destruct (di_valid (it_d it0)); cbn [negb]; [|intros X; inversion X; reflexivity].
        destruct (di_next e (sf_dense f) (it_d it0)) as [d0|]; cbn [bind]; [|discriminate].
        destruct (di_valid d0); cbn [negb]; [|intros X; inversion X; reflexivity].
        destruct (di_left d0); [intros X; inversion X; reflexivity|].
        destruct (si_moveToLeftMostKey _ _ _); cbn [bind]; [intros X; inversion X; reflexivity|discriminate]. }
      pose proof (FP _ fp' _ _ E2) as E3.
      match goal with |- context [incrementDenseIter e f ?a] => change a with
        (it_setFp (it_setS (passToSparse (it_setFp (it_setD (iter_new f) d) fp)) s) fp') end.
      rewrite E3. cbn [bind]. eexists _, i. split; [reflexivity|]. split; [exact G|exact LA].
Qed.

(** where the search of lookupRange ends *)
Theorem lookupRange_ok : forall it0 r ri, sized it0 -> exists fp it i,
  lookupRange_st e f it0 q incl r ri =
    (if i <? n then
       c <- it_compare e f it r ;;
       if (c =? kCouldBePositive)%Z then Ok (true, it)
       else if ri : bool then Ok ((c <=? 0)%Z, it)
       else Ok ((c <? 0)%Z, it)
     else Ok (false, it)) /\ placed i it /\ landed q incl i fp.
Proof.
  intros it0 r ri SZ. unfold lookupRange_st. destruct (fresh_clear it0 SZ) as (F1 & F2 & F3 & F4 & F5).
  destruct (seek_d (it_d (it_clear it0)) F1 F2 F3 F4) as (fp & d & E & R). rewrite E. cbn [bind].
  destruct R as [(V & LA)|[(i & Hi & DL & LO & LA)|(j & V & SE & LF & RI & LN & AP & SD & LJ & HP & HQ & P)]].
  - rewrite V. cbn [negb]. eexists fp, _, n. rewrite Nat.ltb_irrefl. split; [reflexivity|]. split.
    + unfold placed. rewrite Nat.ltb_irrefl. unfold it_valid. cbn [it_setFp it_setD it_d]. rewrite V. reflexivity.
    + exact LA.
  - pose proof DL as (DA & DL1 & DL2 & DL3). rewrite (dat_valid K st _ _ DA). cbn [negb]. rewrite (dat_complete K st _ _ DA).
    destruct (Nat.ltb_spec (leafl i) st) as [L|L].
    + cbn [negb bind]. assert (AT : it_at i (it_setD (it_clear it0) d)).
      { split; [exact DA|]. replace (leafl i <? st) with true by (symmetry; apply Nat.ltb_lt; auto).
        destruct F5 as (A & B & C & D & F). split; [exact A|]. split; [exact C|]. split; [exact D|]. split; [exact F|]. left. exact B. }
      rewrite (it_at_valid K st _ _ AT). cbn [negb].
      eexists fp, _, i. replace (i <? n) with true by (symmetry; apply Nat.ltb_lt; auto). split; [reflexivity|].
      split; [|exact LA]. unfold placed. replace (i <? n) with true by (symmetry; apply Nat.ltb_lt; auto). exact AT.
    + rewrite DL3, DL1. cbn [negb].
      destruct (seek_left i (it_setD (it_clear it0) d) Hi DL F5 LO L) as (s & E1 & E2).
      cbv zeta. rewrite E1. cbn [bind]. rewrite (it_at_valid K st _ _ E2). cbn [negb].
      eexists fp, _, i. replace (i <? n) with true by (symmetry; apply Nat.ltb_lt; auto). split; [reflexivity|].
      split; [|exact LA]. unfold placed. replace (i <? n) with true by (symmetry; apply Nat.ltb_lt; auto). exact E2.
  - rewrite V. cbn [negb]. unfold di_complete. rewrite SE. cbn [andb negb].
    destruct (seek_sparse j (it_setD (it_clear it0) d) V SE LN AP SD LJ HP HQ P F5) as (fp' & s & i & E1 & LA & G).
    cbv zeta. rewrite E1. cbn [bind]. destruct (si_valid s); cbn [negb].
    + destruct G as (Hi & G). cbn [bind]. rewrite (it_at_valid K st _ _ G). cbn [negb].
      eexists fp', _, i. replace (i <? n) with true by (symmetry; apply Nat.ltb_lt; auto). split; [reflexivity|].
      split; [|exact LA]. unfold placed. replace (i <? n) with true by (symmetry; apply Nat.ltb_lt; auto). exact G.
    + destruct G as (b & it' & E2 & G). rewrite E2. cbn [bind]. exists fp', it', i. unfold placed in *.
      destruct (i <? n); [rewrite (it_at_valid K st _ _ G)|rewrite G]; cbn [negb]; auto.
Qed.
End Seek.
