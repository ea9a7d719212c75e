(** Moves of the iterator of the filter between keys: dense and sparse parts
    together. *)
From Coq Require Import Arith List NArith ZArith Bool Lia ZifyN ZifyNat ZifyBool Sorting.Sorted.
From Verif Require Import Res Word Config BitFacts WordFacts Bitvector BitvectorFacts Rank Select
  RankSelectFacts LabelVector LabelFacts Suffix Spec SuffixFacts Builder KeyFacts Trie BuilderFacts
  DenseBuild StructFacts NodeFacts SparseFacts Dense Sparse DenseFacts Surf IterTrie IterDense IterDMove IterSparse.
Import ListNotations.

Section Iter.
Variables (c : config) (K : list bytes).
Notation kk := (kk K). Notation lo := (lo K). Notation hi := (hi K). Notation leafl := (leafl K).
Notation item := (item K). Notation child := (child K). Notation louds := (louds K).
Notation leaf := (leaf K). Notation lab := (lab K). Notation term := (term K). Notation anc := (anc K).
Notation nds := (nds K). Notation height := (height K). Notation NN := (NN K). Notation same_node := (same_node K).
Let n := length K.
Hypothesis HS : StronglySorted klt K.
Hypothesis HB : Forall is_bytes K.
Hypothesis HE : Forall (fun k => k <> []) K.
Hypothesis HNE : length K <> 0.
Hypothesis HFF : no_lone_ff K.
Variables (st : nat) (f : surf) (e : env).
Hypothesis Hst1 : 1 <= st.
Hypothesis Hst2 : S st <= height.
Hypothesis HD : dense_ok c K st (sf_dense f).
Hypothesis HK : sparse_ok c K st (sf_sparse f).
Hypothesis Hmem : strict_mem e = false.
Notation lpre := (lpre K st). Notation slpre := (slpre K st). Notation dat := (dat K st).
Notation sat := (sat K st). Notation back_ok := (back_ok K st). Notation spos := (spos K st).
Notation dleft := (dleft K st). Notation dright := (dright K st). Notation dpos := (dpos K).

(** the sparse part of an iterator whose key ends in the dense part; after a
    failed decrement it may still hold the first sparse label *)
Definition sidle (i : nat) (it : siter) : Prop :=
  si_valid it = false /\ si_atterm it = false /\ length (si_key it) = height - st /\ length (si_pos it) = height - st /\
  (si_len it = 0 \/
   (si_len it = 1 /\ exists x, i < x /\ item st x = true /\ cn (item st) x = 0 /\ slpre x 1 (si_key it) (si_pos it))).

(** the iterator is at key [i] *)
Definition it_at (i : nat) (it : iter) : Prop :=
  dat i (it_d it) /\ (if leafl i <? st then sidle i (it_s it) else sat i (it_s it)).

Lemma dat_valid : forall i d, dat i d -> di_valid d = true.
Proof. intros i d H. apply H. Qed.
Lemma dat_complete : forall i d, dat i d -> di_complete d = (leafl i <? st).
Proof.
  intros i d (V & H). destruct (leafl i <? st) eqn:E.
  - destruct H as (A & B & C & _). unfold di_complete. rewrite A, B, C. reflexivity.
  - destruct H as (A & _). exact A.
Qed.

Lemma it_at_valid : forall i it, it_at i it -> it_valid it = true.
Proof.
  intros i it (A & B). unfold it_valid. rewrite (dat_valid _ _ A), (dat_complete _ _ A).
  destruct (leafl i <? st); auto. destruct B as (B & _). rewrite B. reflexivity.
Qed.

(** from key [i] to the first key of the next subtree, through the sparse part *)
Lemma pass_left : forall i it, i < n -> dleft i (it_d it) -> (i = 0 \/ exists i', i = S i' /\ sidle i' (it_s it)) -> lo i < st ->
  (i = 0 -> sidle 0 (it_s it) /\ si_len (it_s it) = 0) ->
  exists it', (if di_left (it_d it) then Ok it else
     let it1 := passToSparse it in
     s <- si_moveToLeftMostKey e (sf_sparse f) (it_s it1) ;; Ok (it_setS it1 s)) = Ok it' /\ it_at i it'.
Proof.
  intros i it Hi (DA & DL & DS & _) HP HL H0. rewrite DL. destruct (Nat.ltb_spec (leafl i) st) as [L|L].
  - exists it. split; [reflexivity|]. split; auto. replace (leafl i <? st) with true by lia.
    destruct i as [|i0]; [destruct (H0 eq_refl); auto|].
    destruct HP as [HP|(i' & EI & HP)]; [lia|]. assert (i' = i0) by lia. subst i'.
    destruct HP as (A & B & C & D & F). split; auto. split; auto. split; auto. split; auto.
    destruct F as [F|(F1 & x & X1 & X2 & X3 & X4)]; [left; auto|right]. split; auto. exists x. split; auto.
    destruct (Nat.eq_dec x (S i0)) as [->|]; [|lia]. apply item_spec in X2. unfold Trie.leafl in L. lia.
  - specialize (DS L). rewrite (anc_self K (st - 1) i) in DS by lia.
    assert (G : exists s', si_moveToLeftMostKey e (sf_sparse f) (it_s (passToSparse it)) = Ok s' /\ sat i s').
    { unfold passToSparse. cbn [it_s]. rewrite DS.
      assert (SL : (si_len (it_s it) = 0 /\ length (si_key (it_s it)) = height - st /\ length (si_pos (it_s it)) = height - st /\ si_atterm (it_s it) = false) \/
        (si_len (it_s it) = 1 /\ si_atterm (it_s it) = false /\ slpre i 1 (si_key (it_s it)) (si_pos (it_s it)))).
      { destruct i as [|i0].
        - destruct (H0 eq_refl) as ((A & B & C & D & F) & G). left; auto.
        - destruct HP as [HP|(i' & EI & HP)]; [lia|]. assert (i' = i0) by lia. subst i'.
          destruct HP as (A & B & C & D & F). destruct F as [F|(F1 & x & X1 & X2 & X3 & X4)]; [left; auto|right].
          assert (EX : x = S i0).
          { destruct (Nat.eq_dec x (S i0)); auto. exfalso.
            assert (HI : item st (S i0) = true) by (apply (louds_item K), own_node; auto).
            pose proof (cn_lt (item st) (S i0) x HI ltac:(lia)). lia. }
          rewrite EX in X4. auto. }
      destruct SL as [(S1 & S2 & S3 & S4)|(S1 & S2 & S3)].
      - apply (sstart_left_ok c K HS HB HE HNE st (sf_sparse f) e Hst1 Hst2 HK); auto.
      - apply (smove_left_ok c K HS HB HE HNE st (sf_sparse f) e Hst1 Hst2 HK i st); scbn; auto; try lia;
          replace (S st - st) with 1 by lia; auto. }
    destruct G as (s' & E1 & E2). exists (it_setS (passToSparse it) s'). split.
    + cbv zeta. rewrite E1. reflexivity.
    + split; [exact DA|]. replace (leafl i <? st) with false by lia. exact E2.
Qed.

Theorem it_next_ok : forall i it, i < n -> it_at i it ->
  exists it', it_next e f it = Ok (S i <? n, it') /\
    if S i <? n then it_at (S i) it' else it_valid it' = false.
Proof.
  intros i it Hi HA. unfold it_next. rewrite (it_at_valid _ _ HA). cbn [negb].
  destruct HA as (DA & SA).
  (* the dense part of the step *)
  assert (DN : forall it1, it_d it1 = it_d it -> sidle i (it_s it1) -> (S i = n \/ leafl i < st \/ lo (S i) < st) ->
    exists it', incrementDenseIter e f it1 = Ok (S i <? n, it') /\
      if S i <? n then it_at (S i) it' else it_valid it' = false).
  { intros it1 ED SI HN. unfold incrementDenseIter. rewrite ED, (dat_valid _ _ DA). cbn [negb].
    destruct (di_next_ok c K HS HB HE HNE HFF st (sf_dense f) e Hst1 HD Hmem i (it_d it) Hi DA HN) as (d' & E & G).
    rewrite E. cbn [bind]. destruct G as [(G1 & G2 & G3)|(G1 & G2)].
    - rewrite G2. cbn [negb]. exists (it_setD it1 d'). fold n in G1. replace (S i <? n) with false by lia. split; auto.
      unfold it_valid, it_setD. cbn [it_d]. rewrite G2. reflexivity.
    - fold n in G1. replace (S i <? n) with true by lia. rewrite (dat_valid _ _ (proj1 G2)). cbn [negb].
      destruct (pass_left (S i) (it_setD it1 d') G1 G2) as (it' & P1 & P2).
      + right. exists i. split; auto.
      + destruct HN as [HN|[HN|HN]]; [lia| |auto]. pose proof (leafl_next K i G1). lia.
      + intros; lia.
      + exists it'. split; auto. unfold it_setD in *. cbn [it_d] in *. destruct (di_left d'); [inversion P1; subst; reflexivity|].
        cbv zeta in *. destruct (si_moveToLeftMostKey _ _ _); cbn [bind] in *; [inversion P1; reflexivity|discriminate]. }
  unfold incrementSparseIter. destruct (Nat.ltb_spec (leafl i) st) as [L|L].
  - destruct SA as (A & B). rewrite A. cbn [negb bind]. apply DN; auto. split; auto.
  - pose proof (proj1 SA) as V. rewrite V. cbn [negb].
    destruct (si_next_ok c K HS HB HE HNE st (sf_sparse f) e Hst1 Hst2 HK i (it_s it) Hi L SA) as (s' & E & G).
    rewrite E. cbn [bind]. fold n in G. destruct ((S i <? n) && (st <=? lo (S i))) eqn:EB.
    + rewrite (proj1 G). exists (it_setS it s'). replace (S i <? n) with true by lia. split; auto. split.
      * cbn [it_setS it_d]. destruct DA as (D1 & D2). replace (leafl i <? st) with false in D2 by lia.
        destruct D2 as (D2 & D3 & D4 & D5). split; auto. pose proof (lo_le K (S i)).
        replace (leafl (S i) <? st) with false by lia. split; auto. split; auto. split; auto. apply lpre_fwd; auto; lia.
      * cbn [it_setS it_s]. pose proof (lo_le K (S i)). replace (leafl (S i) <? st) with false by lia. auto.
    + destruct G as (G1 & G2 & G3 & G4 & G5). rewrite G1. apply DN; auto; [|lia].
      cbn [it_setS it_s]. unfold sidle. auto 10.
Qed.

Lemma pass_right : forall i it, i < n -> dright i (it_d it) -> S i = n \/ lo (S i) < st ->
  sidle i (it_s it) ->
  exists it', (if di_right (it_d it) then Ok it else
     let it1 := passToSparse it in
     s <- si_moveToRightMostKey e (sf_sparse f) (it_s it1) ;; Ok (it_setS it1 s)) = Ok it' /\ it_at i it'.
Proof.
  intros i it Hi (DA & DL & DS) HP HL. rewrite DL. destruct (Nat.ltb_spec (leafl i) st) as [L|L].
  - exists it. split; [reflexivity|]. split; auto. replace (leafl i <? st) with true by lia. auto.
  - specialize (DS L).
    assert (G : exists s', si_moveToRightMostKey e (sf_sparse f) (it_s (passToSparse it)) = Ok s' /\ sat i s').
    { unfold passToSparse. cbn [it_s]. rewrite DS. destruct HL as (A & B & C & D & F).
      destruct F as [F|(F1 & x & X1 & X2 & X3 & X4)].
      - apply (sstart_right_ok c K HS HB HE HNE st (sf_sparse f) e Hst1 Hst2 HK); auto.
      - exfalso. assert (HI : item st (anc st i) = true) by (apply anc_item; auto).
        pose proof (anc_le K st i). pose proof (cn_lt (item st) (anc st i) x HI ltac:(lia)). lia. }
    destruct G as (s' & E1 & E2). exists (it_setS (passToSparse it) s'). split.
    + cbv zeta. rewrite E1. reflexivity.
    + split; [exact DA|]. replace (leafl i <? st) with false by lia. exact E2.
Qed.

Theorem it_prev_ok : forall i it, i < n -> it_at i it ->
  exists b it', it_prev e f it = Ok (b, it') /\
    ((~ back_ok i /\ b = false /\ it_valid it' = false) \/ (back_ok i /\ b = true /\ it_at (i - 1) it')).
Proof.
  intros i it Hi HA. unfold it_prev. rewrite (it_at_valid _ _ HA). cbn [negb].
  destruct HA as (DA & SA).
  assert (DN : forall it1, it_d it1 = it_d it -> (forall i', i = S i' -> sidle i' (it_s it1)) -> (leafl i < st \/ lo i < st) ->
    exists b it', decrementDenseIter e f it1 = Ok (b, it') /\
    ((~ back_ok i /\ b = false /\ it_valid it' = false) \/ (back_ok i /\ b = true /\ it_at (i - 1) it'))).
  { intros it1 ED SI HN. unfold decrementDenseIter. rewrite ED, (dat_valid _ _ DA). cbn [negb].
    destruct (di_prev_ok c K HS HB HE HNE HFF st (sf_dense f) e Hst1 HD Hmem i (it_d it) Hi DA HN) as (d' & E & G).
    rewrite E. cbn [bind]. destruct G as [(G1 & G2)|(G1 & G2)].
    - rewrite G2. cbn [negb]. exists false, (it_setD it1 d'). split; auto. left. repeat split; auto.
      unfold it_valid, it_setD. cbn [it_d]. rewrite G2. reflexivity.
    - rewrite (dat_valid _ _ (proj1 G2)). cbn [negb]. pose proof G1 as (i' & EI & _).
      assert (EI' : i - 1 = i') by lia. rewrite EI' in *.
      destruct (pass_right i' (it_setD it1 d') ltac:(lia) G2) as (it' & P1 & P2).
      + right. rewrite <- EI. destruct HN as [HN|HN]; [|auto]. pose proof (lo_le K i). lia.
      + apply SI. auto.
      + exists true, it'. split; [|right; auto]. unfold it_setD in *. cbn [it_d] in *. destruct (di_right d'); [inversion P1; subst; reflexivity|].
        cbv zeta in *. destruct (si_moveToRightMostKey _ _ _); cbn [bind] in *; [inversion P1; reflexivity|discriminate]. }
  unfold decrementSparseIter. destruct (Nat.ltb_spec (leafl i) st) as [L|L].
  - destruct SA as (A & B & C & D & F). rewrite A. cbn [negb bind]. apply DN; auto.
    intros i' EI. split; auto. split; auto. split; auto. split; auto.
    destruct F as [F|(F1 & x & X1 & X2 & X3 & X4)]; [left; auto|right]. split; auto. exists x. repeat (split; auto). lia.
  - pose proof (proj1 SA) as V. rewrite V. cbn [negb].
    destruct (si_prev_ok c K HS HB HE HNE st (sf_sparse f) e Hst1 Hst2 HK i (it_s it) (or_introl Hst1) Hi L SA) as (s' & E & G).
    rewrite E. cbn [bind]. fold n in G. destruct (Nat.leb_spec st (lo i)) as [EB|EB].
    + destruct G as (i' & EI & G). rewrite (proj1 G). exists true, (it_setS it s'). split; auto. right.
      split; [exists i'; split; auto; split; [lia|intros (_ & X1 & X2 & _); lia]|]. split; auto. subst i.
      replace (S i' - 1) with i' by lia. pose proof (leafl_next K i' Hi) as LN.
      split.
      * cbn [it_setS it_d]. destruct DA as (D1 & D2). replace (leafl (S i') <? st) with false in D2 by lia.
        destruct D2 as (D2 & D3 & D4 & D5). split; auto.
        replace (leafl i' <? st) with false by lia. split; auto. split; auto. split; auto. apply lpre_bwd; auto.
      * cbn [it_setS it_s]. replace (leafl i' <? st) with false by lia. auto.
    + destruct G as (G1 & G2 & G3 & G4 & G5). rewrite G1. apply DN; auto.
      intros i' EI. split; auto. split; auto. split; auto. split; auto. cbn [it_setS it_s].
      destruct G5 as [G5|(F1 & F2 & F3 & F4)]; [left; auto|right]. split; auto. exists i. split; [lia|].
      split; auto. rewrite <- F2. rewrite <- (proj1 (anc_leaf K i Hi)) at 2. apply anc_item; auto.
Qed.

Lemma sidle_new : forall i, sidle i (siter_new (sf_sparse f)).
Proof.
  intros i. destruct HK as [HH HT _ _ _ _ _ _ _ _ _ _ _]. unfold siter_new. rewrite HH, HT.
  split; [reflexivity|]. split; [reflexivity|]. cbn [si_key si_pos si_len]. rewrite !repeat_length. auto.
Qed.

Theorem moveToFirst_ok : exists it, moveToFirst e f = Ok it /\ it_at 0 it.
Proof.
  unfold moveToFirst. pose proof HD as [HH _ _ _ _ _]. rewrite HH. replace (0 <? st) with true by lia.
  cbn [iter_new it_d]. assert (I0 : item 0 0 = true) by (apply (louds_item K), (louds_root K HNE)).
  pose proof (term0 K HS HE HNE st e Hst1 Hmem 0 I0) as T0. pose proof (louds_root K HNE) as LR.
  assert (N0 : NN 0 0 = 0).
  { unfold SparseFacts.NN. cbn [sm cn]. rewrite LR. reflexivity. }
  assert (E : exists k p, di_setToFirstLabelInRoot e (sf_dense f) (diter_new (sf_dense f)) =
      Ok (di_setLen (di_setKP (diter_new (sf_dense f)) k p) 1) /\ lpre 0 1 k p).
  { unfold di_setToFirstLabelInRoot.
    assert (B : exists b, d_readLabel e (sf_dense f) 0 = Ok b /\
      (if b : bool then Ok 0 else d_getNextPos e (sf_dense f) 0) = Ok (dpos 0 0)).
    { destruct (Nat.eq_dec (lab 0 0) 0) as [Z|Z].
      - exists true. split.
        + pose proof (readLabel_true c K HS HB HE HNE HFF st (sf_dense f) e Hst1 HD 0 0 0 ltac:(lia) LR ltac:(lia) I0
            ltac:(intros m Hm; lia) T0) as R. unfold dp in R. rewrite N0, Z in R. exact R.
        + unfold IterDMove.dpos. unfold dp. rewrite N0, Z. reflexivity.
      - exists false. split.
        + pose proof (readLabel_false c K HS HB HE HNE HFF st (sf_dense f) e Hst1 HD 0 0 0 ltac:(lia) LR ltac:(lia)) as R.
          unfold dp in R. rewrite N0 in R. apply R. intros x X1 X2 X3 X4 X5.
          destruct (Nat.eq_dec x 0) as [->|NX]; [lia|].
          pose proof (node_lab_lt K HS HE 0 0 x ltac:(lia) X2 X3 T0). lia.
        + pose proof (d_next_in c K HS HB HE HNE HFF st (sf_dense f) e Hst1 HD Hmem 0 0 1 0 ltac:(lia) LR ltac:(right; unfold dp; lia)) as R.
          unfold dp in R. rewrite N0 in R. cbn [Nat.mul Nat.add] in R. unfold d_getNextPos.
          unfold IterDMove.dpos, dp. rewrite N0. cbn [Nat.mul Nat.add]. apply R; auto; try lia.
          * intros m Hm. lia.
          * intros x X1 X2 X3 X4 X5. destruct (Nat.eq_dec x 0) as [->|NX]; [lia|].
            pose proof (node_lab_lt K HS HE 0 0 x ltac:(lia) X2 X3 T0). lia. }
    destruct B as (b & B1 & B2). rewrite B1. cbn [bind]. rewrite B2. cbn [bind].
    unfold diter_new. cbn [di_pos di_key di_len]. rewrite HH. rewrite !vset_ok by (rewrite repeat_length; lia). cbn [bind].
    eexists _, _. split; [reflexivity|].
    pose proof (lpre_set K st 0 0 (repeat 0 st) (repeat 0 st)) as Q.
    change 256 with kNodeFanout. rewrite (dpos_mod K HB HNE st Hst1). apply Q; [|lia].
    split; [apply repeat_length|]. split; [apply repeat_length|]. intros m Hm. lia. }
  destruct E as (k & p & E & P). rewrite E. cbn [bind].
  destruct (move_left_ok c K HS HB HE HNE HFF st (sf_dense f) e Hst1 HD Hmem 0 0 (di_setLen (di_setKP (diter_new (sf_dense f)) k p) 1))
    as (d' & E' & G); auto; try lia.
  rewrite E'. cbn [bind].
  destruct (pass_left 0 (it_setD (iter_new f) d') ltac:(lia) G) as (it' & P1 & P2); auto; try (cbn; lia).
  { intros _. split; [apply sidle_new|reflexivity]. }
  exists it'. split; auto.
Qed.

Theorem moveToLast_ok : exists it, moveToLast e f = Ok it /\ it_at (n - 1) it.
Proof.
  unfold moveToLast. pose proof HD as [HH _ _ _ _ _]. rewrite HH. replace (0 <? st) with true by lia.
  cbn [iter_new it_d]. set (i := n - 1). assert (Hi : i < n) by (unfold i, n in *; lia).
  assert (I0 : item 0 (anc 0 i) = true) by (apply anc_item; auto; lia).
  pose proof (term0 K HS HE HNE st e Hst1 Hmem _ I0) as T0. pose proof (louds_root K HNE) as LR.
  assert (SN : same_node 0 0 (anc 0 i)) by (intros x Hx; apply louds_root_only; lia).
  assert (N0 : NN 0 0 = 0).
  { unfold SparseFacts.NN. cbn [sm cn]. rewrite LR. reflexivity. }
  assert (N1 : NN 0 (anc 0 i) = 0) by (rewrite (NN_same K 0 0 (anc 0 i)) by (auto; lia); auto).
  assert (E : exists k p, di_setToLastLabelInRoot e (sf_dense f) (diter_new (sf_dense f)) =
      Ok (di_setLen (di_setKP (diter_new (sf_dense f)) k p) 1) /\ lpre i 1 k p).
  { unfold di_setToLastLabelInRoot.
    assert (B : exists o, d_getPrevPos e (sf_dense f) kNodeFanout = Ok o /\
      match o with Some p => p | None => 0 end = dpos 0 (anc 0 i)).
    { pose proof (lab_byte K HB HNE 0 (anc 0 i)) as BY.
      pose proof (d_prev_in c K HS HB HE HNE HFF st (sf_dense f) e Hst1 HD Hmem 0 0 256 (anc 0 i) ltac:(lia) LR ltac:(lia) ltac:(lia) I0 SN T0 BY) as R.
      eexists. split.
      - unfold dp at 1 in R. rewrite N0 in R. change kNodeFanout with (256 * 0 + 256). apply R.
        intros x X1 X2 X3 X4 X5. destruct (lt_eq_lt_dec x (anc 0 i)) as [[L|L]|L]; [|subst; lia|].
        + pose proof (node_lab_lt K HS HE 0 x (anc 0 i) L I0 (same_node_sub K 0 0 x _ SN X1 ltac:(lia)) X4). lia.
        + exfalso. apply (no_later K 0 i x); auto; [left; unfold i, n in *; lia|].
          apply (same_node_sub K 0 0 (anc 0 i) x); auto; lia.
      - unfold IterDMove.dpos, dp. rewrite N0, N1. cbn [Nat.mul Nat.add]. destruct (Nat.eqb_spec (lab 0 (anc 0 i)) 0); auto. }
    destruct B as (o & B1 & B2). rewrite B1. cbn [bind]. cbv zeta. rewrite B2.
    unfold diter_new. cbn [di_pos di_key di_len]. rewrite HH. rewrite !vset_ok by (rewrite repeat_length; lia). cbn [bind].
    eexists _, _. split; [reflexivity|].
    pose proof (lpre_set K st i 0 (repeat 0 st) (repeat 0 st)) as Q.
    change 256 with kNodeFanout. rewrite (dpos_mod K HB HNE st Hst1). apply Q; [|lia].
    split; [apply repeat_length|]. split; [apply repeat_length|]. intros m Hm. lia. }
  destruct E as (k & p & E & P). rewrite E. cbn [bind].
  destruct (move_right_ok c K HS HB HE HNE HFF st (sf_dense f) e Hst1 HD Hmem i 0 (di_setLen (di_setKP (diter_new (sf_dense f)) k p) 1))
    as (d' & E' & G); auto; try lia.
  { left. unfold i, n in *. lia. }
  rewrite E'. cbn [bind].
  destruct (pass_right i (it_setD (iter_new f) d') Hi G) as (it' & P1 & P2).
  { left. unfold i, n in *. lia. }
  { apply sidle_new. }
  exists it'. split; auto.
Qed.
End Iter.
