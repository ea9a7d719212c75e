(** Seeks in the dense part: moveToKeyGreaterThan of LoudsDense. *)
From Coq Require Import Arith List NArith ZArith Bool Lia ZifyN ZifyNat ZifyBool Sorting.Sorted.
From Verif Require Import Res Word Config BitFacts WordFacts Bitvector BitvectorFacts Rank Select
  RankSelectFacts LabelVector LabelFacts Suffix Spec SuffixFacts Builder KeyFacts Trie BuilderFacts
  DenseBuild StructFacts NodeFacts SparseFacts Dense Sparse DenseFacts LookupFacts
  Surf IterTrie IterDense IterDMove IterSparse IterFacts SeekOrder SuffixOrder.
Import ListNotations.

Section Landed.
Variables (c : config) (K : list bytes) (st : nat).
Notation kk := (kk K). Notation leafl := (leafl K).
Let n := length K.

(** where a seek to [q] may end: at key [i], or past the last key if [i] is the
    number of keys *)
Definition landed (q : bytes) (incl : bool) (i : nat) (fp : bool) : Prop :=
  i <= n /\
  (forall x, x < i -> klt (kk x) q \/ (kk x = q /\ incl = false) \/
     (mt K q x /\ cmp_val c (kk x) q (S (leafl x)) = (-1)%Z)) /\
  (i < n -> if fp then (mt K q i /\ cmp_val c (kk i) q (S (leafl i)) <> (-1)%Z) \/
                        (length q < st /\ klt q (kk i) /\ firstn (length q) (kk i) = q)
            else klt q (kk i) \/ (kk i = q /\ incl = true)) /\
  (* a key that [q] follows is passed for its suffix only, or as a stored inner key *)
  (forall x, x < i -> mt K q x -> cmp_val c (kk x) q (S (leafl x)) = (-1)%Z \/
     (kk x = q /\ incl = false /\ term K (leafl x) x = true /\ st <= length q)) /\
  (i < n ->
     if fp then mt K q i -> cmp_val c (kk i) q (S (leafl i)) <> (-1)%Z /\ (term K (leafl i) i = true -> length q < st)
     else (mt K q i -> kk i = q /\ incl = true /\ term K (leafl i) i = true /\ st <= length q) /\
          (length q < st -> firstn (length q) (kk i) <> q)).

Hypothesis HS : StronglySorted klt K.
Hypothesis HNE : length K <> 0.

Lemma to_landed_mt : forall q incl i, i < n -> mt K q i -> cmp_val c (kk i) q (S (leafl i)) <> (-1)%Z ->
  (term K (leafl i) i = true -> length q < st) -> landed q incl i true.
Proof.
  intros q incl i Hi M HC HT. split; [clear - Hi; lia|]. split; [|split; [|split]].
  - intros x Hx. left. apply (mt_before K HS HNE q i); auto.
  - intros _. left. auto.
  - intros x Hx MX. exfalso. assert (x = i) by (apply (mt_unique K HS HNE q); auto; fold n; clear - Hx Hi; lia). clear - Hx H. lia.
  - auto.
Qed.

Lemma to_landed_after : forall q incl i, i < n -> mt K q i -> cmp_val c (kk i) q (S (leafl i)) = (-1)%Z ->
  landed q incl (S i) false.
Proof.
  intros q incl i Hi M HZ. split; [clear - Hi; lia|]. split; [|split; [|split]].
  - intros x Hx. destruct (Nat.eq_dec x i) as [->|N]; auto. left.
    apply (mt_before K HS HNE q i); auto. clear - Hx N. lia.
  - intros HH. left. apply (mt_after K HS HNE q i); auto.
  - intros x Hx MX. left. assert (x = i) by (apply (mt_unique K HS HNE q); auto; fold n; clear - Hx Hi; lia). subst x. exact HZ.
  - intros HH. split.
    + intros MX. exfalso. assert (S i = i) by (apply (mt_unique K HS HNE q); auto). clear - H. lia.
    + intros _ EX. destruct (le_lt_dec (S (leafl i)) (length q)) as [G|G].
      * assert (S i = i); [|clear - H; lia]. apply (leafl_dist K HS HNE i (S i)); auto.
        rewrite <- M, <- EX. rewrite firstn_firstn. f_equal. clear - G. lia.
      * unfold mt in M. rewrite firstn_all2 in M by (clear - G; lia).
        assert (E : kk i = q).
        { rewrite M. symmetry. apply firstn_all2. assert (L : length q = Nat.min (S (leafl i)) (length (kk i))) by (rewrite M; apply firstn_length).
          clear - L G. lia. }
        rewrite E, cmp_refl in HZ. discriminate.
Qed.

Lemma to_landed_above : forall q incl U, first_above K q U -> (forall i, i < n -> ~ mt K q i) ->
  (forall i, i < n -> firstn (length q) (kk i) <> q) -> landed q incl U false.
Proof.
  intros q incl U (A & B & C) H HP. fold n in A.
  assert (NI : forall x, x < U -> kk x <> q).
  { intros x Hx E. apply (H x); [clear - A Hx; lia|]. unfold mt. rewrite E. reflexivity. }
  split; [auto|]. split; [|split; [auto|split]].
  - intros x Hx. destruct (B x Hx) as [G|G]; [auto|]. exfalso. exact (NI x Hx G).
  - intros x Hx M. exfalso. apply (H x); auto. clear - A Hx. lia.
  - intros HU. split; [intros M; exfalso; exact (H U HU M)|auto].
Qed.

(** a query that leaves the trie at a byte is a prefix of no key *)
Lemma miss_no_prefix : forall q l j b, louds K l j = true -> firstn l q = firstn l (kk j) -> nth_error q l = Some b ->
  no_label K l j b -> forall i, i < n -> firstn (length q) (kk i) <> q.
Proof.
  intros q l j b HL HP HQ HNo i Hi E.
  assert (LQ : l < length q) by (apply nth_error_Some; congruence).
  assert (F : firstn (S l) (kk i) = firstn (S l) q).
  { rewrite <- E. rewrite firstn_firstn. f_equal. clear - LQ. lia. }
  assert (F0 : firstn l (kk i) = firstn l (kk j)).
  { rewrite <- HP. apply (f_equal (firstn l)) in F. rewrite !firstn_firstn in F. replace (Nat.min l (S l)) with l in F by (clear; lia). exact F. }
  destruct (firstn_S_inv _ _ _ F) as [_ O].
  destruct (node_find K HS l j (kk i) i HL F0 Hi eq_refl) as (x & A & B & C & D).
  destruct (firstn_S_inv _ _ _ D) as [_ O2].
  assert (OX : nth_error (kk x) l = Some b).
  { unfold olab in O, O2. rewrite HQ in O. destruct (nth_error (kk x) l), (nth_error (kk i) l); congruence. }
  assert (T : term K l x = false) by (unfold term; apply Nat.leb_gt; apply nth_error_Some; rewrite OX; discriminate).
  apply (HNo x (proj1 A) B C T). unfold lab. apply nth_error_nth. exact OX.
Qed.

(** a query that ends at an inner node matches no key before the node *)
Lemma end_no_mt : forall q l j x, louds K l j = true -> firstn l q = firstn l (kk j) -> length q = l -> x < j -> ~ mt K q x.
Proof.
  intros q l j x HL HP LQ Hx M. pose proof (louds_item K l j HL) as HI. pose proof (item_lt K l j HI) as Hj. fold n in Hj.
  pose proof (ext_before K HS HNE l j x HL q HP Hx) as LT. unfold mt in M.
  destruct (le_lt_dec (S (leafl x)) l) as [G|G].
  - assert (j = x); [|clear - H Hx; lia]. apply (leafl_dist K HS HNE x j); [fold n; clear - Hx Hj; lia|exact Hj|].
    rewrite <- M. apply (f_equal (firstn (S (leafl x)))) in HP. rewrite !firstn_firstn in HP.
    replace (Nat.min (S (leafl x)) l) with (S (leafl x)) in HP by (clear - G; lia). symmetry. exact HP.
  - rewrite firstn_all2 in M by (clear - LQ G; lia).
    assert (E : kk x = q).
    { rewrite M. symmetry. apply firstn_all2. assert (L : length q = Nat.min (S (leafl x)) (length (kk x))) by (rewrite M; apply firstn_length).
      clear - L LQ G. lia. }
    rewrite E in LT. exact (klt_irrefl _ LT).
Qed.

Lemma end_no_mt_self : forall q l j, louds K l j = true -> firstn l q = firstn l (kk j) -> length q = l -> term K l j = false -> ~ mt K q j.
Proof.
  intros q l j HL HP LQ HT M. pose proof (louds_item K l j HL) as HI. pose proof (ext_lt K HNE l j q HL HP LQ HT) as LT.
  assert (LJ : l <= leafl j) by (apply item_spec in HI; unfold Trie.leafl; clear - HI; lia). unfold mt in M.
  rewrite firstn_all2 in M by (clear - LQ LJ; lia).
  assert (E : kk j = q).
  { rewrite M. symmetry. apply firstn_all2. assert (L : length q = Nat.min (S (leafl j)) (length (kk j))) by (rewrite M; apply firstn_length).
    clear - L LQ LJ. lia. }
  rewrite E in LT. exact (klt_irrefl _ LT).
Qed.
End Landed.

Section DSeek.
Variables (c : config) (K : list bytes).
Notation kk := (kk K). Notation lo := (lo K). Notation hi := (hi K). Notation leafl := (leafl K).
Notation item := (item K). Notation child := (child K). Notation louds := (louds K).
Notation leaf := (leaf K). Notation lab := (lab K). Notation term := (term K). Notation anc := (anc K).
Notation height := (height K). Notation NN := (NN K). Notation same_node := (same_node K).
Notation dp := (dp K). Notation dpos := (dpos K). Notation range := (range K). Notation mt := (mt K).
Let n := length K.
Hypothesis HS : StronglySorted klt K.
Hypothesis HB : Forall is_bytes K.
Hypothesis HE : Forall (fun k => k <> []) K.
Hypothesis HNE : length K <> 0.
Hypothesis HFF : no_lone_ff K.
Variables (st : nat) (d : dense) (e : env).
Hypothesis Hst1 : 1 <= st.
Hypothesis HD : dense_ok c K st d.
Hypothesis Hmem : strict_mem e = false.
Hypothesis Hshift : strict_shift e = false.
Hypothesis Hlens : lens_ok (cf_type c) (cf_hlen c) (cf_rlen c).
Notation lpre := (lpre K st). Notation dat := (dat K st). Notation dleft := (dleft K st).
Notation landed := (landed c K st).

Variables (q : bytes) (incl : bool).
Hypothesis Hq : is_bytes q.
(** if the query ends in the dense part inside the trie, it is a stored key, or
    the first key that extends it ends in the dense part *)
Hypothesis Hend : forall l j, l < st -> louds l j = true -> firstn l q = firstn l (kk j) -> length q = l ->
  (asserts e = false \/ 1 <= l) /\ (term l j = true \/ leafl j < st).

Lemma landed_mt : forall i, i < n -> mt q i -> cmp_val c (kk i) q (S (leafl i)) <> (-1)%Z ->
  (term (leafl i) i = true -> length q < st) -> landed q incl i true.
Proof. intros i. apply to_landed_mt; auto. Qed.

Lemma landed_after : forall i, i < n -> mt q i -> cmp_val c (kk i) q (S (leafl i)) = (-1)%Z -> landed q incl (S i) false.
Proof. intros i Hi M HC. apply to_landed_after; auto. Qed.

Lemma landed_above : forall U, first_above K q U -> (forall i, i < n -> ~ mt q i) ->
  (forall i, i < n -> firstn (length q) (kk i) <> q) -> landed q incl U false.
Proof. intros U. apply to_landed_above; auto. Qed.

Lemma lpre_range : forall l j x y len k p, range l j x -> j <= y <= x -> len <= l -> lpre j len k p -> lpre y len k p.
Proof.
  intros l j x y len k p HR H HL (A & B & C). split; auto. split; auto. intros m Hm.
  rewrite (anc_range K HNE l j x y m HR H) by (clear - Hm HL; lia). auto.
Qed.

Lemma in_range : forall l j i, louds l j = true -> j <= i -> item l i = true -> same_node l j i ->
  exists x, range l j x /\ j <= i <= x.
Proof.
  intros l j i HL A B C. pose proof (item_lt K l j (louds_item K l j HL)) as Hj.
  destruct (range_exists K HNE l j Hj) as (x & HR). exists x. split; auto. split; auto.
  apply (node_in_range K HNE l j x i); auto.
Qed.

Lemma lpre_item : forall l j i k p, louds l j = true -> j <= i -> item l i = true -> same_node l j i ->
  lpre j l k p -> lpre i l k p.
Proof.
  intros l j i k p HL A B C P. destruct (in_range l j i HL A B C) as (x & HR & HX). apply (lpre_range l j x); auto.
Qed.

Lemma lpre_over : forall i m k p a b, lpre i m k p -> lpre i m (lset k m a) (lset p m b).
Proof.
  intros i m k p a b (A & B & C). split; [rewrite lset_length; auto|]. split; [rewrite lset_length; auto|].
  intros m' Hm. rewrite !lset_nth. replace (m' =? m) with false by lia. cbn [andb]. auto.
Qed.

Lemma not_stored : forall l j b, louds l j = true -> firstn l q = firstn l (kk j) -> nth_error q l = Some b ->
  no_label K l j b -> ~ In q K.
Proof.
  intros l j b HL HP HQ HN HI. apply (In_nth _ _ []) in HI. destruct HI as (i & Hi & E).
  assert (M : mt q i) by (assert (E1 : kk i = q) by exact E; unfold LookupFacts.mt; rewrite E1; reflexivity).
  apply (step_none K HS HNE l j q b HL HP HQ HN i Hi M).
Qed.

(** what the search returns *)
Definition d_result (fp : bool) (it : diter) : Prop :=
  (di_valid it = false /\ landed q incl n fp) \/
  (exists i, i < n /\ dleft i it /\ lo i < st /\ landed q incl i fp) \/
  (exists j, di_valid it = true /\ di_search it = false /\ di_left it = true /\ di_right it = true /\
     di_len it = st /\ di_atprefix it = false /\ di_send it = NN st j /\
     louds st j = true /\ firstn st q = firstn st (kk j) /\ st <= length q /\
     lpre j st (di_key it) (di_pos it)).

(** the query leaves the trie at a node *)
Lemma d_miss : forall l j b it, l < st -> louds l j = true -> firstn l q = firstn l (kk j) -> nth_error q l = Some b ->
  no_label K l j b -> lpre j l (di_key it) (di_pos it) -> di_len it = l -> di_atprefix it = false ->
  exists it1 it', di_append e it (dp l j b) = Ok it1 /\ di_next e d it1 = Ok it' /\ d_result false it'.
Proof.
  intros l j b it Hl HL HP HQ HN P HLn HA. pose proof (louds_item K l j HL) as HI. pose proof (item_lt K l j HI) as Hj.
  assert (Bb : b < 256) by (unfold is_bytes in Hq; rewrite Forall_forall in Hq; apply Hq; eapply nth_error_In; eauto).
  pose proof P as (P1 & P2 & P3).
  set (it1 := di_setLen (di_setKP it (lset (di_key it) l b) (lset (di_pos it) l (dp l j b))) (S l)).
  exists it1.
  assert (EA : di_append e it (dp l j b) = Ok it1).
  { unfold di_append, di_set. rewrite HLn. rewrite massert_ok by lia. cbn [bind].
    rewrite vset_ok by lia. cbn [bind]. rewrite vset_ok by lia. cbn [bind].
    rewrite (dp_mod K HNE st Hst1) by auto. reflexivity. }
  destruct (range_exists K HNE l j Hj) as (x & HR). destruct (first_above_exists K HNE q) as (U & HU).
  pose proof (step_none K HS HNE l j q b HL HP HQ HN) as NS.
  pose proof (landed_above U HU NS (miss_no_prefix K HS q l j b HL HP HQ HN)) as LU.
  assert (EN : di_next e d it1 =
    (next_pos <- d_getNextPos e d (dp l j b) ;;
      if NN l j <? next_pos / kNodeFanout then di_next_loop e d it1 l
      else it <- di_set e (di_setLen it1 (S l)) l next_pos ;; di_moveToLeftMostKey e d it)).
  { assert (F1 : di_len it1 = S l) by reflexivity. assert (F2 : di_atprefix it1 = false) by exact HA.
    assert (F3 : vget (di_pos it1) l = Ok (dp l j b)).
    { unfold it1. dcbn. rewrite (vget_ok _ _ l 0) by (rewrite lset_length; lia). rewrite lset_nth, Nat.eqb_refl.
      replace (l <? length (di_pos it)) with true by lia. reflexivity. }
    unfold di_next. rewrite F1, F2. rewrite massert_ok by reflexivity. cbn [bind pred_idx di_next_loop].
    rewrite F3. cbn [bind]. rewrite (dp_div K HNE st Hst1) by auto. reflexivity. }
  rewrite EN. unfold d_getNextPos. replace (S (dp l j b)) with (dp l j (S b)) by (unfold DenseFacts.dp; lia).
  destruct (miss_above K HS HNE l j x b q U HL HR HP HQ HN HU) as [(UX & LL)|(UR & UI & US & UT & UB & UM)].
  - destruct (d_next_out c K HS HB HE HNE HFF st d e Hst1 HD Hmem l j (S b) Hl HL) as (p & -> & G); try lia.
    { intros i A B C D. specialize (LL i A B C D). lia. }
    cbn [bind]. replace (NN l j <? p / kNodeFanout) with true by lia.
    pose proof HR as (R1 & R2 & R3 & R4).
    assert (LX : l <= leafl x).
    { destruct (Nat.eq_dec x j) as [->|].
      - apply item_spec in HI. unfold Trie.leafl. lia.
      - pose proof (lo_le K x). specialize (R3 x ltac:(lia)). lia. }
    destruct (next_loop_ok c K HS HB HE HNE HFF st d e Hst1 HD Hmem x R2 l it1) as (it' & E' & G'); auto; try lia.
    { intros m Hm. apply (above_not_term K HS HE HNE st e Hst1 Hmem x m); auto. lia. }
    { apply (lpre_range l j x); auto; try lia. unfold it1. dcbn. apply lpre_over. auto. }
    exists it'. split; auto. split; auto. destruct G' as [(G1 & G2 & G3)|(G1 & G2)].
    + left. split; auto. rewrite UX in LU. rewrite G1 in LU. exact LU.
    + right. left. exists (S x). rewrite UX in LU. split; auto. split; auto. split; auto. fold n in R4. lia.
  - rewrite (d_next_in c K HS HB HE HNE HFF st d e Hst1 HD Hmem l j (S b) U); auto; try lia.
    2: { right. unfold DenseFacts.dp. lia. }
    cbn [bind]. pose proof (lab_byte K HB HNE l U) as BU. rewrite (dp_div K HNE st Hst1) by auto.
    rewrite Nat.ltb_irrefl.
    assert (NU : NN l U = NN l j) by (apply NN_same; auto; lia).
    assert (AU : anc l U = U).
    { apply anc_self. apply item_spec in UI. lia. }
    replace (dp l j (lab l U)) with (dpos l (anc l U)) by (rewrite AU; unfold IterDMove.dpos, DenseFacts.dp; rewrite NU; reflexivity).
    destruct (di_set_ok K HB HNE st e Hst1 Hmem U l (di_setLen it1 (S l))) as (k & p & E' & P'); auto.
    { apply (lpre_range l j x); auto. unfold it1. dcbn. apply lpre_over. auto. }
    rewrite E'. cbn [bind].
    pose proof (item_lt K l U UI) as HUn.
    destruct (move_left_ok c K HS HB HE HNE HFF st d e Hst1 HD Hmem U l (di_setKP (di_setLen it1 (S l)) k p)) as (it' & E2 & G); auto.
    { apply item_spec in UI. lia. }
    { apply item_spec in UI. unfold Trie.leafl. lia. }
    exists it'. split; auto. split; auto. right. left. exists U. split; auto. split; auto. split; auto.
    apply item_spec in UI. lia.
Qed.

(** the query reaches a leaf *)
Lemma d_leaf_cmp : forall l j i, l < st -> louds l j = true -> j <= i -> same_node l j i -> leaf l i = true ->
  term l i = false ->
  (sp <- d_getSuffixPos e d (dp l j (lab l i)) false ;; suf_compare e (d_suf d) sp q (l + 1)) =
    Ok (cmp_val c (kk i) q (S (leafl i))).
Proof.
  intros l j i Hl HL A B C D.
  rewrite (d_suffix_leaf c K HS HB HE HNE HFF st d e Hst1 HD l j i) by auto. cbn [bind].
  destruct (leaf_idx c K HNE st Hst1 l i Hl C) as [X Y].
  apply leaf_spec in C. destruct C as [Hi ->]. rewrite Nat.add_1_r.
  assert (KB : is_bytes (kk i)) by (rewrite Forall_forall in HB; apply HB; apply nth_In; auto).
  apply (suf_compare_spec c e (d_suf d) _ (dsidx c K (leafl i) i) (kk i) q q (S (leafl i)) (S (leafl i)) Hshift Hlens
     KB Hq (dk_suf _ _ _ _ HD) X Y eq_refl).
Qed.

Lemma d_leaf : forall l i it, l < st -> item l i = true -> leaf l i = true -> term l i = false -> mt q i ->
  lpre i (S l) (di_key it) (di_pos it) -> di_len it = S l -> di_atprefix it = false ->
  exists fp it',
    (if negb (cmp_val c (kk i) q (S (leafl i)) =? kCouldBePositive)%Z && (cmp_val c (kk i) q (S (leafl i)) <? 0)%Z
     then it <- di_next e d it ;; Ok (false, it) else Ok (true, di_setFlags it true true true true)) = Ok (fp, it') /\
    d_result fp it'.
Proof.
  intros l i it Hl HI HF HT M P HLn HA. pose proof (proj1 (leaf_spec K l i) HF) as [Hi EL].
  assert (AS : anc l i = i) by (apply anc_self; pose proof (lo_le K i); lia).
  destruct (Z.eq_dec (cmp_val c (kk i) q (S (leafl i))) (-1)) as [Z1|Z1].
  - rewrite Z1. cbn [negb andb Z.eqb Z.ltb kCouldBePositive]. change ((-1 =? kCouldBePositive)%Z) with false. change ((-1 <? 0)%Z) with true.
    cbn [negb andb].
    destruct (next_loop_ok c K HS HB HE HNE HFF st d e Hst1 HD Hmem i Hi (S l) it) as (it' & E' & G'); auto; try lia.
    { intros m Hm. destruct (Nat.eq_dec m l) as [->|]; [rewrite AS; auto|].
      apply (above_not_term K HS HE HNE st e Hst1 Hmem i m); auto. lia. }
    { destruct (Nat.eq_dec (S i) (length K)); auto. right. pose proof (leafl_next K i ltac:(lia)). lia. }
    assert (EN : di_next e d it = di_next_loop e d it (S l)).
    { unfold di_next. rewrite HLn. rewrite massert_ok by lia. cbn [bind]. rewrite HA. cbn [pred_idx bind]. reflexivity. }
    rewrite EN, E'. cbn [bind]. exists false, it'. split; auto.
    pose proof (landed_after i Hi M Z1) as LA.
    destruct G' as [(G1 & G2 & G3)|(G1 & G2)].
    + left. split; auto. rewrite G1 in LA. exact LA.
    + right. left. exists (S i). split; auto. split; auto. split; auto. pose proof (leafl_next K i G1). lia.
  - replace (negb (cmp_val c (kk i) q (S (leafl i)) =? kCouldBePositive)%Z && (cmp_val c (kk i) q (S (leafl i)) <? 0)%Z) with false.
    2: { destruct (cmp_cases c (kk i) q (S (leafl i))) as [CC|[CC|CC]]; [rewrite CC; reflexivity|contradiction|rewrite CC; reflexivity]. }
    exists true. eexists. split; [reflexivity|]. right. left. exists i. split; auto. split.
    + dcbn. rewrite HLn, HA. apply (at_leaf K HNE st e Hst1 Hmem); try lia; [rewrite <- EL; auto|exact P].
    + split; [pose proof (lo_le K i); lia|]. apply landed_mt; auto. rewrite <- EL, HT. discriminate.
Qed.

(* the first label of a node that is not its terminator *)
Lemma first_item : forall l j, item l j = true -> exists j', j' = (if term l j then S j else j) /\
  item l j' = true /\ term l j' = false /\ same_node l j j' /\ j <= j' /\
  (forall x, j <= x -> item l x = true -> same_node l j x -> term l x = false -> j' <= x).
Proof.
  intros l j HI. eexists. split; [reflexivity|]. destruct (term l j) eqn:ET.
  - destruct (term_next K HS HE l j HI ET) as (A & B). split; auto. split; [apply (not_first_not_term K HS HE); auto|].
    split; [|split; [clear; lia|]].
    + intros x Hx. replace x with (S j) by (clear - Hx; lia). auto.
    + intros x X1 X2 X3 X4. destruct (Nat.eq_dec x j) as [->|N]; [congruence|]. clear - N X1. lia.
  - split; auto. split; auto. split; [intros x Hx; clear - Hx; lia|]. split; auto.
Qed.

Theorem d_gt_spec : forall m l j it, l + m = st -> louds l j = true -> firstn l q = firstn l (kk j) ->
  l <= length q -> lpre j l (di_key it) (di_pos it) -> di_len it = l -> di_atprefix it = false ->
  exists fp it', d_gt_loop e d q m l (NN l j) it = Ok (fp, it') /\ d_result fp it'.
Proof.
  induction m as [|m IH]; intros l j it Hm HL HP HQ P HLn HA; pose proof (louds_item K l j HL) as HI; cbn [d_gt_loop].
  - rewrite Nat.add_0_r in Hm. subst l. exists true. eexists. split; [reflexivity|]. right. right. exists j. dcbn.
    repeat (split; [auto; fail|]). exact P.
  - assert (Hl : l < st) by lia. destruct (nth_error q l) as [b|] eqn:NQ.
    + assert (LQ : l < length q) by (apply nth_error_Some; congruence).
      assert (Bb : b < 256) by (unfold is_bytes in Hq; rewrite Forall_forall in Hq; apply Hq; eapply nth_error_In; eauto).
      replace (NN l j * kNodeFanout + b) with (dp l j b) by (unfold DenseFacts.dp, kNodeFanout; lia).
      destruct (existsb (fun i => nonterm K l i && (dpl K l i =? 256 * nn K l j + b)) (seq 0 n)) eqn:EX.
      * apply existsb_seq in EX. destruct EX as (i & Hi & E). apply andb_prop in E. destruct E as [E1 E2].
        apply Nat.eqb_eq in E2. pose proof (proj1 (in_node K HB HNE st Hst1 l j b i HL Bb E1) E2) as (F1 & F2 & F3).
        apply nonterm_spec in E1 as E1'. destruct E1' as [I1 I2].
        rewrite <- F3.
        assert (AS : anc l i = i) by (apply anc_self; apply item_spec in I1; lia).
        assert (ED : dp l j (lab l i) = dpos l (anc l i)).
        { rewrite AS. unfold IterDMove.dpos, DenseFacts.dp. rewrite (NN_same K l j i F1 F2). reflexivity. }
        destruct (di_append_ok K HB HNE st e Hst1 Hmem i l it) as (k & p & EA & PA); auto.
        { apply (lpre_item l j i); auto. }
        rewrite <- ED in EA. rewrite EA. cbn [bind].
        rewrite (readLabel_true c K HS HB HE HNE HFF st d e Hst1 HD l j i) by auto. cbn [bind negb].
        rewrite (readChild_spec c K HS HB HE HNE st d e Hst1 HD l j i) by auto. cbn [bind].
        pose proof (step_some K l j q b i HL HP NQ F1 I1 F2 I2 F3) as SS.
        destruct (child l i) eqn:EC; cbn [negb].
        -- rewrite (child_node c K HS HB HE HNE st d e Hst1 HD l j i) by auto. cbn [bind].
           assert (EL : louds (S l) i = true) by (rewrite <- child_louds; auto).
           apply IH; auto. clear - Hm. lia.
        -- assert (HF : leaf l i = true).
           { unfold Trie.leaf. rewrite I1. unfold Trie.child in EC. rewrite I1 in EC. cbn [andb] in *. rewrite EC. reflexivity. }
           unfold d_compareSuffixGreaterThan.
           pose proof (d_leaf_cmp l j i Hl HL F1 F2 HF I2) as CM.
           destruct (d_getSuffixPos e d (dp l j (lab l i)) false) as [sp|]; cbn [bind] in CM |- *; [|discriminate].
           rewrite CM. cbn [bind].
           apply (d_leaf l i (di_setLen (di_setKP it k p) (S l))); auto.
           apply leaf_spec in HF. destruct HF as [_ HF]. unfold LookupFacts.mt. rewrite <- HF. exact SS.
      * assert (NO : no_label K l j b).
        { intros i A1 A2 A3 A4 A5.
          match type of EX with ?t = false => assert (X : t = true); [|congruence] end.
          apply existsb_seq. exists i. pose proof (item_lt K l i A2) as Hi. split; auto.
          assert (NT : nonterm K l i = true) by (apply nonterm_spec; auto). rewrite NT. cbn [andb].
          apply Nat.eqb_eq. eapply in_node; eauto. }
        destruct (d_miss l j b it Hl HL HP NQ NO P HLn HA) as (it1 & it' & E1 & E2 & R).
        rewrite E1. cbn [bind].
        rewrite (readLabel_false c K HS HB HE HNE HFF st d e Hst1 HD l j b) by auto. cbn [bind negb].
        rewrite E2. cbn [bind]. exists false, it'. auto.
    + assert (LQ : length q = l) by (apply nth_error_None in NQ; lia).
      destruct (Hend l j Hl HL HP LQ) as (H1 & H2).
      pose proof (item_lt K l j HI) as Hj.
      destruct (first_item l j HI) as (j' & Ej & G1 & G2 & G3 & G4 & G5).
      assert (AS : anc l j' = j') by (apply anc_self; apply item_spec in G1; clear - G1; lia).
      assert (ED : dp l j (lab l j') = dpos l (anc l j')).
      { rewrite AS. unfold IterDMove.dpos, DenseFacts.dp. rewrite (NN_same K l j j' G4 G3). reflexivity. }
      assert (FL : d_getNextPos1 e d (NN l j * kNodeFanout) = Ok (dpos l (anc l j'))).
      { replace (NN l j * kNodeFanout) with (dp l j 0) by (unfold DenseFacts.dp, kNodeFanout; clear; lia). rewrite <- ED.
        apply (d_next_in c K HS HB HE HNE HFF st d e Hst1 HD); auto.
        - destruct H1 as [H1|H1]; [left; auto|right]. pose proof (NN_pos K l j HNE HI H1) as NP. unfold DenseFacts.dp.
          clear - NP. lia.
        - clear. lia.
        - intros x X1 X2 X3 X4 _. pose proof (G5 x X1 X2 X3 X4) as GE.
          destruct (Nat.eq_dec x j') as [->|NE]; [clear; lia|].
          assert (L : j' < x) by (clear - GE NE; lia).
          pose proof (node_lab_lt K HS HE l j' x L X2 (same_node_sub K l j j' x X3 G4 GE) G2) as LL. clear - LL. lia. }
      rewrite FL. cbn [bind].
      destruct (di_append_ok K HB HNE st e Hst1 Hmem j' l it) as (k & p & EA & PA); auto.
      { apply (lpre_item l j j'); auto. }
      rewrite EA. cbn [bind].
      rewrite (readPrefix_spec c K HS HB HE HNE HFF st d e Hst1 HD l j) by auto. cbn [bind].
      exists true. destruct (term l j) eqn:ET.
      * destruct (end_mt K HS HE HNE l j q HL HP LQ ET) as [M E]. cbn [bind]. eexists. split; [reflexivity|].
        assert (EQ : kk j = q).
        { symmetry. destruct (term_first K HS HE l j HI ET) as (_ & _ & X & _).
          rewrite firstn_all2 in HP by (clear - LQ; lia). rewrite firstn_all2 in HP by (clear - X; lia). auto. }
        right. left. exists j. split; auto. split; [|split; [pose proof (lo_le K j) as LO; clear - LO E Hl; lia|]].
        -- dcbn. apply (at_leaf K HNE st e Hst1 Hmem); rewrite ?E, ?ET, <- ?Ej; auto.
        -- apply landed_mt; auto; [rewrite EQ, cmp_refl; discriminate|]. intros _. rewrite LQ. exact Hl.
      * destruct H2 as [H2|H2]; [discriminate|]. 
        rewrite Ej in *.
        destruct (move_left_ok c K HS HB HE HNE HFF st d e Hst1 HD Hmem j l (di_setLen (di_setKP it k p) (S l))) as (it' & E2 & (DA & DL & _)); auto.
        { apply item_spec in HI. lia. }
        { apply item_spec in HI. unfold Trie.leafl. lia. }
        rewrite E2. cbn [bind]. eexists. split; [reflexivity|]. right. left. exists j. split; auto.
        pose proof DA as (V & DB). replace (leafl j <? st) with true in DB by (clear - H2; lia).
        destruct DB as (D1 & D2 & D3 & D4 & D5 & D6). split.
        -- dcbn. rewrite D4, D5. apply (at_leaf K HNE st e Hst1 Hmem); auto.
        -- split; [apply item_spec in HI; clear - HI Hl; lia|]. split; [unfold n; clear - Hj; lia|]. split; [|split; [|split]].
           ++ intros x Hx. left. apply (ext_before K HS HNE l j); auto.
           ++ intros _. right. rewrite LQ, <- HP. split; auto. split; [apply (ext_lt K HNE l j); auto|].
              rewrite <- LQ. apply firstn_all.
           ++ intros x Hx MX. exfalso. exact (end_no_mt K HS HNE q l j x HL HP LQ Hx MX).
           ++ intros _ MX. exfalso. exact (end_no_mt_self K HNE q l j HL HP LQ ET MX).
Qed.
End DSeek.
