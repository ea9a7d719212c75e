(** Moves of the dense iterator between keys. *)
From Coq Require Import Arith List NArith ZArith Bool Lia ZifyN ZifyNat ZifyBool Sorting.Sorted.
From Verif Require Import Res Word Config BitFacts WordFacts Bitvector BitvectorFacts Rank Select
  RankSelectFacts LabelVector Suffix Spec SuffixFacts Builder KeyFacts Trie BuilderFacts
  DenseBuild StructFacts NodeFacts SparseFacts Dense Sparse DenseFacts IterTrie IterDense.
Import ListNotations.

Lemma vset_ok : forall (A : Type) (l : list A) i x, i < length l -> vset l i x = Ok (lset l i x).
Proof. intros. unfold vset. apply Nat.ltb_lt in H. rewrite H. reflexivity. Qed.

Lemma massert_ok : forall e b, b = true -> massert e b = Ok tt.
Proof. intros e b ->. unfold massert. rewrite andb_false_r. reflexivity. Qed.

Ltac dcbn := unfold di_setFlags, di_setSend, di_setPrefix, di_setLen, di_setKP, di_setValid; cbn [di_valid di_search di_left di_right
  di_send di_len di_key di_pos di_atprefix andb].

Section Path.
Variables (K : list bytes) (st : nat).
Notation anc := (anc K). Notation lab := (lab K). Notation NN := (NN K). Notation lo := (lo K).

(** position of item [x] of level [m] in the dense part *)
Definition dpos (m x : nat) : nat := dp K m x (lab m x).

(** key bytes and positions of the first [len] levels are those on the path to key [i] *)
Definition lpre (i len : nat) (k p : list nat) : Prop :=
  length k = st /\ length p = st /\
  forall m, m < len -> nth m p 0 = dpos m (anc m i) /\ nth m k 0 = lab m (anc m i).

Lemma lpre_le : forall i len len' k p, lpre i len k p -> len' <= len -> lpre i len' k p.
Proof. intros i len len' k p (A & B & C) H. repeat split; auto; apply C; lia. Qed.

Lemma lpre_next : forall i len k p, len <= lo (S i) -> (lpre i len k p <-> lpre (S i) len k p).
Proof.
  intros i len k p H. split; intros (A & B & C); (split; [auto|split; [auto|]]); intros m Hm;
    specialize (C m Hm); rewrite (anc_keep K m i) in * by lia; auto.
Qed.

Lemma lpre_fwd : forall i len k p, len <= lo (S i) -> lpre i len k p -> lpre (S i) len k p.
Proof. intros i len k p H. apply (proj1 (lpre_next i len k p H)). Qed.
Lemma lpre_bwd : forall i len k p, len <= lo (S i) -> lpre (S i) len k p -> lpre i len k p.
Proof. intros i len k p H. apply (proj2 (lpre_next i len k p H)). Qed.

Lemma lpre_set : forall i m k p, lpre i m k p -> m < st ->
  lpre i (S m) (lset k m (lab m (anc m i))) (lset p m (dpos m (anc m i))).
Proof.
  intros i m k p (A & B & C) H. split; [rewrite lset_length; auto|]. split; [rewrite lset_length; auto|].
  intros m' Hm. rewrite !lset_nth. destruct (Nat.eqb_spec m' m) as [->|NE].
  - rewrite A, B. replace (m <? st) with true by lia. auto.
  - cbn [andb]. apply C. lia.
Qed.
End Path.

Section DMove.
Variables (c : config) (K : list bytes).
Notation kk := (kk K). Notation lo := (lo K). Notation hi := (hi K). Notation leafl := (leafl K).
Notation item := (item K). Notation child := (child K). Notation louds := (louds K).
Notation leaf := (leaf K). Notation lab := (lab K). Notation term := (term K). Notation anc := (anc K).
Notation items := (items K). Notation nds := (nds K). Notation height := (height K).
Notation nit := (nit K). Notation NN := (NN K). Notation same_node := (same_node K).
Notation dp := (dp K). Notation dpos := (dpos K).
Let n := length K.
Hypothesis HS : StronglySorted klt K.
Hypothesis HB : Forall is_bytes K.
Hypothesis HE : Forall (fun k => k <> []) K.
Hypothesis HNE : length K <> 0.
Hypothesis HFF : no_lone_ff K.
Variables (st : nat) (d : dense) (e : env).
Hypothesis Hst1 : 1 <= st.
Hypothesis HD : dense_ok c K st d.
Hypothesis Hmem : strict_mem e = false.
Notation lpre := (lpre K st).

(** the dense iterator stands at key [i] *)
Definition dat (i : nat) (it : diter) : Prop :=
  di_valid it = true /\
  (if leafl i <? st then
     di_search it = true /\ di_left it = true /\ di_right it = true /\ di_len it = S (leafl i) /\
     di_atprefix it = term (leafl i) i /\
     lpre (if term (leafl i) i then S i else i) (S (leafl i)) (di_key it) (di_pos it)
   else
     di_complete it = false /\ di_len it = st /\ di_atprefix it = false /\
     lpre i st (di_key it) (di_pos it)).

Definition dleft (i : nat) (it : diter) : Prop :=
  dat i it /\ di_left it = (leafl i <? st) /\ (st <= leafl i -> di_send it = NN st (anc (st - 1) i)) /\ di_search it = true.
Definition dright (i : nat) (it : diter) : Prop :=
  dat i it /\ di_right it = (leafl i <? st) /\ (st <= leafl i -> di_send it = NN st (anc (st - 1) i)).

Lemma at_leaf : forall i send len k p t, leafl i < st -> len = S (leafl i) -> t = term (leafl i) i ->
  lpre (if t then S i else i) len k p ->
  dleft i (mkDIter true true true true send len k p t) /\ dright i (mkDIter true true true true send len k p t).
Proof.
  intros i send len k p t H -> -> HP. apply Nat.ltb_lt in H as H'.
  assert (D : dat i (mkDIter true true true true send (S (leafl i)) k p (term (leafl i) i))).
  { unfold dat. rewrite H'. dcbn. split; [reflexivity|]. repeat (split; [reflexivity|]). exact HP. }
  unfold dleft, dright. rewrite H'. dcbn. split; (split; [exact D|]); (split; [reflexivity|]); try (split; [|reflexivity]);
    intros X; exfalso; lia.
Qed.

Lemma at_edge : forall i l r send len k p, st <= leafl i -> len = st -> send = NN st (anc (st - 1) i) -> lpre i st k p ->
  (l = false -> dleft i (mkDIter true true l r send len k p false)) /\
  (r = false -> dright i (mkDIter true true l r send len k p false)).
Proof.
  intros i l r send len k p H -> -> HP. apply Nat.ltb_ge in H as H'.
  unfold dleft, dright, dat, di_complete. rewrite H'. dcbn. split; intros ->.
  - destruct r; repeat (split; [reflexivity|]); auto 10.
  - destruct l; repeat (split; [reflexivity|]); auto 10.
Qed.

Lemma dpos_start : forall m x, item m x = true -> exists j, j <= x /\ louds m j = true /\ same_node m j x /\
  NN m x = NN m j /\ dpos m x = dp m j (lab m x).
Proof.
  intros m x H. destruct (node_start K m x H) as (j & A & B & C). exists j. repeat split; auto.
  - apply NN_same; auto.
  - unfold IterDMove.dpos, DenseFacts.dp. rewrite (NN_same K m j x A C). reflexivity.
Qed.

Lemma dpos_mod : forall m x, dpos m x mod kNodeFanout = lab m x.
Proof. intros. apply (dp_mod K HNE st Hst1). apply (lab_byte K HB HNE). Qed.
Lemma dpos_div : forall m x, dpos m x / kNodeFanout = NN m x.
Proof. intros. apply (dp_div K HNE st Hst1). apply (lab_byte K HB HNE). Qed.

Lemma d_child_read : forall m x, m < st -> item m x = true -> term m x = false -> d_readChild e d (dpos m x) = Ok (child m x).
Proof.
  intros m x Hm HI HT. destruct (dpos_start m x HI) as (j & A & B & C & _ & ->).
  apply (readChild_spec c K HS HB HE HNE st d e Hst1 HD); auto.
Qed.

Lemma d_child_num : forall m x, m < st -> child m x = true -> d_getChildNodeNum e d (dpos m x) = Ok (NN (S m) x).
Proof.
  intros m x Hm HC. destruct (dpos_start m x (child_item K m x HC)) as (j & A & B & C & _ & ->).
  apply (child_node c K HS HB HE HNE st d e Hst1 HD); auto.
Qed.

Lemma d_prefix_read : forall m j, m < st -> louds m j = true -> d_readPrefix e d (NN m j) = Ok (term m j).
Proof. intros. apply (readPrefix_spec c K HS HB HE HNE HFF st d e Hst1 HD); auto. Qed.

Lemma di_set_ok : forall i m it, lpre i m (di_key it) (di_pos it) -> m < st ->
  exists k p, di_set e it m (dpos m (anc m i)) = Ok (di_setKP it k p) /\ lpre i (S m) k p.
Proof.
  intros i m it H Hm. pose proof (lpre_set K st i m _ _ H Hm) as Q. destruct H as (A & B & C).
  eexists _, _. split; [|exact Q]. unfold di_set. rewrite massert_ok by lia. cbn [bind].
  rewrite vset_ok by lia. cbn [bind]. rewrite vset_ok by lia. cbn [bind]. rewrite dpos_mod. reflexivity.
Qed.

Lemma di_append_ok : forall i m it, lpre i m (di_key it) (di_pos it) -> m < st -> di_len it = m ->
  exists k p, di_append e it (dpos m (anc m i)) = Ok (di_setLen (di_setKP it k p) (S m)) /\ lpre i (S m) k p.
Proof.
  intros i m it H Hm HL. destruct (di_set_ok i m it H Hm) as (k & p & E & P). exists k, p. split; auto.
  unfold di_append. rewrite HL, E. reflexivity.
Qed.

(** first label of the node that starts at [i] *)
Lemma first_label : forall m i, m < st -> louds m i = true -> 1 <= m ->
  let i' := if term m i then S i else i in
  d_getNextPos1 e d (NN m i * kNodeFanout) = Ok (dpos m i') /\ item m i' = true /\ term m i' = false /\
  same_node m i i'.
Proof.
  intros m i Hm HL H1 i'. pose proof (louds_item K m i HL) as HI.
  assert (G : item m i' = true /\ term m i' = false /\ same_node m i i' /\ i <= i').
  { unfold i'. destruct (term m i) eqn:ET.
    - destruct (term_next K HS HE m i HI ET) as (A & B). split; auto. split; [apply (not_first_not_term K HS HE); auto|].
      split; [|lia]. intros x Hx. replace x with (S i) by lia. auto.
    - split; auto. split; auto. split; [intros x Hx; lia|lia]. }
  destruct G as (G1 & G2 & G3 & G4). split; auto.
  replace (NN m i * kNodeFanout) with (dp m i 0) by (unfold DenseFacts.dp, kNodeFanout; lia).
  assert (E : dpos m i' = dp m i (lab m i')).
  { unfold IterDMove.dpos, DenseFacts.dp. rewrite (NN_same K m i i' G4 G3). reflexivity. }
  rewrite E. pose proof (NN_pos K m i HNE HI H1) as NP.
  apply (d_next_in c K HS HB HE HNE HFF st d e Hst1 HD); auto.
  - right. unfold DenseFacts.dp. lia.
  - lia.
  - intros x X1 X2 X3 X4 _. destruct (le_lt_dec x i') as [L|L].
    + assert (x = i'); [|subst; lia]. unfold i' in *. destruct (term m i) eqn:ET; [|lia].
      destruct (Nat.eq_dec x i) as [->|]; [congruence|lia].
    + pose proof (node_lab_lt K HS HE m i' x L X2 (same_node_sub K m i i' x X3 G4 ltac:(lia)) G2). lia.
Qed.

Lemma left_loop_ok : forall i, i < n -> forall nn m it, st = S (m + nn) -> child m i = true ->
  lpre i (S m) (di_key it) (di_pos it) -> di_len it = S m -> di_atprefix it = false ->
  exists it', di_left_loop e d nn it (dpos m i) = Ok it' /\ dleft i it'.
Proof.
  intros i Hi. induction nn as [|nn IH]; intros m it Hst HC HP HL HA; cbn [di_left_loop];
    rewrite d_child_num by (auto; lia); cbn [bind]; pose proof HC as HC'; apply child_spec in HC';
    pose proof (hi_le K i) as HH; assert (AS : anc m i = i) by (apply anc_self; lia).
  - eexists. split; [reflexivity|]. dcbn.
    rewrite HA. apply at_edge; auto; try lia.
    + replace (st - 1) with m by lia. rewrite AS. f_equal. lia.
    + eapply lpre_le; [exact HP|lia].
  - rewrite child_louds in HC. pose proof (louds_item K _ _ HC) as HI.
    rewrite d_prefix_read by (auto; lia). cbn [bind].
    pose proof (first_label (S m) i ltac:(lia) HC ltac:(lia)) as F. cbv zeta in F. destruct F as (F1 & F2 & F3 & F4).
    destruct (term (S m) i) eqn:ET; cbv iota in F1, F2, F3, F4; cbn [bind]; rewrite F1; cbn [bind].
    + destruct (term_first K HS HE _ i HI ET) as (_ & LF & _). apply leaf_spec in LF. destruct LF as [_ LF].
      rewrite LF in ET. destruct (term_leafl K HS HE i Hi ET) as (T1 & T2 & T3 & _). rewrite <- LF in T2, ET.
      assert (AS' : anc (S m) (S i) = S i) by (apply anc_self; lia).
      replace (dpos (S m) (S i)) with (dpos (S m) (anc (S m) (S i))) by (rewrite AS'; reflexivity).
      destruct (di_append_ok (S i) (S m) it) as (k & p & E & P); auto; [apply lpre_fwd; auto; lia|lia|].
      rewrite E. cbn [bind]. eexists. split; [reflexivity|]. dcbn.
      apply at_leaf; try lia; [rewrite <- LF; auto|exact P].
    + assert (AS' : anc (S m) i = i) by (apply anc_self; lia).
      replace (di_append e it (dpos (S m) i)) with (di_append e it (dpos (S m) (anc (S m) i))) by (rewrite AS'; reflexivity).
      destruct (di_append_ok i (S m) it) as (k & p & E & P); auto; [lia|].
      rewrite E. cbn [bind]. rewrite d_child_read by (auto; lia). cbn [bind].
      destruct (child (S m) i) eqn:EC; cbn [negb].
      * apply IH; auto. lia.
      * assert (LF : leafl i = S m).
        { pose proof (child_anc K (S m) i Hi) as Q. rewrite AS', EC in Q. specialize (Q ltac:(lia)).
          lia. }
        eexists. split; [reflexivity|]. dcbn. rewrite HA. apply at_leaf; try lia; [rewrite LF; auto|exact P].
Qed.

Lemma move_left_ok : forall i m it, i < n -> m < st -> lo i <= m -> m <= leafl i -> term m i = false ->
  lpre i (S m) (di_key it) (di_pos it) -> di_len it = S m -> di_atprefix it = false ->
  exists it', di_moveToLeftMostKey e d it = Ok it' /\ dleft i it'.
Proof.
  intros i m it Hi Hm H1 H2 HT HP HL HA. assert (AS : anc m i = i) by (apply anc_self; lia).
  unfold di_moveToLeftMostKey. rewrite massert_ok by lia. cbn [bind]. rewrite HL. cbn [pred_idx bind].
  pose proof HP as (P1 & P2 & P3). rewrite (vget_ok _ _ m 0) by lia. cbn [bind].
  rewrite (proj1 (P3 m ltac:(lia))), AS.
  assert (HI : item m i = true) by (apply item_spec; fold n; unfold Trie.leafl in *; lia).
  rewrite d_child_read by auto. cbn [bind]. destruct (child m i) eqn:EC; cbn [negb].
  - destruct HD as [HH _ _ _ _ _]. rewrite HH. apply left_loop_ok; auto. lia.
  - assert (LF : leafl i = m).
    { pose proof (child_anc K m i Hi) as Q. rewrite AS, EC in Q. specialize (Q ltac:(lia)). lia. }
    eexists. split; [reflexivity|]. dcbn. rewrite HL, HA. apply at_leaf; try lia; [rewrite LF; auto|exact HP].
Qed.

(** the subtree below level [m] ends with key [i] *)
Definition last_of (m i : nat) : Prop := S i = n \/ lo (S i) <= m.

Lemma last_label : forall m i, i < n -> m < st -> 1 <= m -> m <= leafl i -> S i = n \/ lo (S i) < m ->
  d_getPrevPos e d ((NN m (anc m i) + 1) * kNodeFanout) = Ok (Some (dpos m (anc m i))).
Proof.
  intros m i Hi Hm H1 H2 HL. pose proof (anc_item K m i Hi H2) as HI.
  destruct (dpos_start m _ HI) as (j & A & B & C & D & E). rewrite D, E.
  replace ((NN m j + 1) * kNodeFanout) with (dp m j 256) by (unfold DenseFacts.dp, kNodeFanout; lia).
  pose proof (NN_pos K m j HNE (louds_item K m j B) H1) as NP.
  rewrite (d_prev_in c K HS HB HE HNE HFF st d e Hst1 HD Hmem m j 256 (anc m i)); auto.
  - replace (dp m j (lab m (anc m i)) =? 0) with false by (unfold DenseFacts.dp; lia). reflexivity.
  - apply (last_not_term K HS HE); auto.
  - apply (lab_byte K HB HNE).
  - intros x X1 X2 X3 X4 _. destruct (le_lt_dec x (anc m i)) as [L|L].
    + destruct (Nat.eq_dec x (anc m i)) as [->|NE]; [lia|].
      pose proof (node_lab_lt K HS HE m x (anc m i) ltac:(lia) HI (same_node_sub K m j x _ C X1 ltac:(lia)) X4). lia.
    + exfalso. apply (no_later K m i x HL X2 L). apply (same_node_sub K m j (anc m i) x); auto; lia.
Qed.

Lemma right_loop_ok : forall i, i < n -> forall nn m it, st = S (m + nn) -> m < leafl i -> last_of m i ->
  lpre i (S m) (di_key it) (di_pos it) -> di_len it = S m -> di_atprefix it = false ->
  exists it', di_right_loop e d nn it (dpos m (anc m i)) = Ok it' /\ dright i it'.
Proof.
  intros i Hi. induction nn as [|nn IH]; intros m it Hst HC HO HP HL HA; cbn [di_right_loop];
    (rewrite d_child_num; [cbn [bind]|lia|rewrite child_anc by (auto; lia); lia]).
  - eexists. split; [reflexivity|]. dcbn.
    rewrite HA. apply at_edge; auto; try lia.
    + replace (st - 1) with m by lia. f_equal. lia.
    + eapply lpre_le; [exact HP|lia].
  - pose proof (anc_same_node K m i Hi ltac:(lia)) as SN. pose proof (anc_mono K m i) as AM.
    rewrite <- (NN_same K (S m) (anc m i) (anc (S m) i) AM SN).
    assert (HO' : S i = n \/ lo (S i) < S m) by (unfold last_of in HO; lia).
    rewrite last_label by (auto; lia). cbn [bind].
    destruct (di_append_ok i (S m) it) as (k & p & E & P); auto; [lia|].
    rewrite E. cbn [bind]. pose proof (last_not_term K HS HE (S m) i Hi ltac:(lia) HO') as NT.
    rewrite d_child_read by (auto; try apply anc_item; auto; lia). cbn [bind]. rewrite child_anc by (auto; lia).
    destruct (Nat.ltb_spec (S m) (leafl i)) as [EC|EC]; cbn [negb].
    + apply IH; auto. lia. unfold last_of. lia.
    + assert (LF : leafl i = S m) by lia. eexists. split; [reflexivity|]. dcbn. rewrite HA.
      rewrite (anc_self K (S m) i) in NT by (pose proof (lo_le K i); lia).
      apply at_leaf; try lia; [rewrite LF; auto|exact P].
Qed.

Lemma move_right_ok : forall i m it, i < n -> m < st -> m <= leafl i -> last_of m i -> term m (anc m i) = false ->
  lpre i (S m) (di_key it) (di_pos it) -> di_len it = S m -> di_atprefix it = false ->
  exists it', di_moveToRightMostKey e d it = Ok it' /\ dright i it'.
Proof.
  intros i m it Hi Hm H2 HO HT HP HL HA.
  unfold di_moveToRightMostKey. rewrite massert_ok by lia. cbn [bind]. rewrite HL. cbn [pred_idx bind].
  pose proof HP as (P1 & P2 & P3). rewrite (vget_ok _ _ m 0) by lia. cbn [bind].
  rewrite (proj1 (P3 m ltac:(lia))).
  rewrite d_child_read by (auto; apply anc_item; auto). cbn [bind]. rewrite child_anc by auto.
  destruct (Nat.ltb_spec m (leafl i)) as [EC|EC]; cbn [negb].
  - destruct HD as [HH _ _ _ _ _]. rewrite HH. apply right_loop_ok; auto. lia.
  - assert (LF : leafl i = m) by lia.
    rewrite (anc_self K m i) in HT by (pose proof (lo_le K i); lia).
    eexists. split; [reflexivity|]. dcbn. rewrite HL, HA. apply at_leaf; try lia; [rewrite LF; auto|exact HP].
Qed.

(** ** operator++ *)
Lemma next_pos_in : forall i, S i < n -> lo (S i) < st -> term (lo (S i)) (anc (lo (S i)) i) = false ->
  d_getNextPos e d (dpos (lo (S i)) (anc (lo (S i)) i)) = Ok (dpos (lo (S i)) (S i)) /\
  NN (lo (S i)) (S i) = NN (lo (S i)) (anc (lo (S i)) i).
Proof.
  intros i Hi Hl HT. set (m := lo (S i)) in *. pose proof (leafl_next K i Hi) as LN. fold m in LN.
  pose proof (anc_item K m i ltac:(fold n; lia) LN) as HI. pose proof (anc_le K m i) as AL.
  destruct (dpos_start m _ HI) as (j & A & B & C & D & E).
  pose proof (next_same K i Hi) as NS. pose proof (next_item K i Hi) as NI. fold m in NS, NI.
  assert (NE : NN m (S i) = NN m (anc m i)) by (apply NN_same; auto; lia). split; auto.
  assert (SJ : same_node m j (S i)).
  { intros x Hx. destruct (le_lt_dec x (anc m i)); [apply C; lia|apply NS; lia]. }
  assert (E' : dpos m (S i) = dp m j (lab m (S i))).
  { unfold IterDMove.dpos, DenseFacts.dp. rewrite NE, D. reflexivity. }
  assert (LL : lab m (anc m i) < lab m (S i)) by (apply (node_lab_lt K HS HE); auto; lia).
  unfold d_getNextPos. rewrite E, E'.
  replace (S (dp m j (lab m (anc m i)))) with (dp m j (S (lab m (anc m i)))) by (unfold DenseFacts.dp; lia).
  apply (d_next_in c K HS HB HE HNE HFF st d e Hst1 HD); auto; try lia.
  - right. unfold DenseFacts.dp. lia.
  - apply (next_not_term K HS HE); auto.
  - intros x X1 X2 X3 X4 X5. destruct (le_lt_dec x (anc m i)) as [L|L].
    + exfalso. destruct (Nat.eq_dec x (anc m i)) as [->|NE']; [lia|].
      pose proof (node_lab_lt K HS HE m x (anc m i) ltac:(lia) HI (same_node_sub K m j x _ C X1 ltac:(lia)) X4). lia.
    + destruct (le_lt_dec x i) as [L2|L2].
      * pose proof (next_between K i x L ltac:(lia)) as Q. fold m in Q. congruence.
      * destruct (Nat.eq_dec x (S i)) as [->|NE']; [lia|].
        pose proof (node_lab_lt K HS HE m (S i) x ltac:(lia) X2 (same_node_sub K m j (S i) x X3 ltac:(lia) ltac:(lia))
          (next_not_term K HS HE i Hi)). lia.
Qed.

Lemma next_pos_out : forall i m, i < n -> m < st -> m <= leafl i -> S i = n \/ lo (S i) < m ->
  exists p, d_getNextPos e d (dpos m (anc m i)) = Ok p /\ NN m (anc m i) < p / kNodeFanout.
Proof.
  intros i m Hi Hm H2 HL. pose proof (anc_item K m i Hi H2) as HI.
  destruct (dpos_start m _ HI) as (j & A & B & C & D & E). rewrite D, E. unfold d_getNextPos.
  replace (S (dp m j (lab m (anc m i)))) with (dp m j (S (lab m (anc m i)))) by (unfold DenseFacts.dp; lia).
  pose proof (lab_byte K HB HNE m (anc m i)) as BY.
  apply (d_next_out c K HS HB HE HNE HFF st d e Hst1 HD Hmem); auto; try lia.
  intros x X1 X2 X3 X4. destruct (le_lt_dec x (anc m i)) as [L|L].
  - destruct (Nat.eq_dec x (anc m i)) as [->|NE]; [lia|].
    pose proof (node_lab_lt K HS HE m x (anc m i) ltac:(lia) HI (same_node_sub K m j x _ C X1 ltac:(lia)) X4). lia.
  - exfalso. apply (no_later K m i x HL X2 L). apply (same_node_sub K m j (anc m i) x); auto; lia.
Qed.

Lemma next_loop_ok : forall i, i < n -> forall len it, len <= st -> len <= S (leafl i) ->
  (forall m, m < len -> term m (anc m i) = false) ->
  lpre i len (di_key it) (di_pos it) -> di_atprefix it = false ->
  (S i = n \/ lo (S i) < len) ->
  exists it', di_next_loop e d it len = Ok it' /\
    ((S i = n /\ di_valid it' = false /\ di_len it' = 0) \/ (S i < n /\ dleft (S i) it')).
Proof.
  intros i Hi. induction len as [|m IH]; intros it H1 H2 HT HP HA HN; cbn [di_next_loop].
  - eexists. split; [reflexivity|]. left. split; [lia|]. split; reflexivity.
  - pose proof HP as (P1 & P2 & P3). rewrite (vget_ok _ _ m 0) by lia. cbn [bind].
    rewrite (proj1 (P3 m ltac:(lia))). rewrite dpos_div.
    destruct (Nat.eq_dec (S i) n) as [EN|EN].
    + destruct (next_pos_out i m Hi ltac:(lia) ltac:(lia) ltac:(auto)) as (p & -> & G). cbn [bind].
      replace (_ <? _) with true by lia. apply IH; auto; try lia. eapply lpre_le; eauto.
    + assert (HO : lo (S i) < S m) by lia. destruct (Nat.eq_dec (lo (S i)) m) as [EM|NM].
      * subst m. destruct (next_pos_in i ltac:(lia) ltac:(lia) (HT (lo (S i)) ltac:(lia))) as (-> & NE). cbn [bind].
        rewrite dpos_div, NE, Nat.ltb_irrefl.
        replace (dpos (lo (S i)) (S i)) with (dpos (lo (S i)) (anc (lo (S i)) (S i))) by (rewrite anc_self by lia; reflexivity).
        destruct (di_set_ok (S i) (lo (S i)) (di_setLen it (S (lo (S i))))) as (k & p & E & P); [|lia|].
        { cbn [di_setLen di_key di_pos]. apply lpre_fwd; [lia|]. eapply lpre_le; eauto. }
        rewrite E. cbn [bind].
        destruct (move_left_ok (S i) (lo (S i)) (di_setKP (di_setLen it (S (lo (S i)))) k p)) as (it' & E' & G); auto; try lia.
        -- apply lo_le.
        -- apply (next_not_term K HS HE). lia.
        -- exists it'. split; auto. right. split; auto. lia.
      * destruct (next_pos_out i m Hi ltac:(lia) ltac:(lia) ltac:(lia)) as (p & -> & G). cbn [bind].
        replace (_ <? _) with true by lia. apply IH; auto; try lia. eapply lpre_le; eauto.
Qed.

(** all levels above the leaf hold no terminator *)
Lemma above_not_term : forall i m, i < n -> m < leafl i -> term m (anc m i) = false.
Proof. intros i m Hi Hm. apply (child_not_term K HS HE). rewrite child_anc by (auto; lia). lia. Qed.

Theorem di_next_ok : forall i it, i < n -> dat i it -> (S i = n \/ leafl i < st \/ lo (S i) < st) ->
  exists it', di_next e d it = Ok it' /\
    ((S i = n /\ di_valid it' = false /\ di_len it' = 0) \/ (S i < n /\ dleft (S i) it')).
Proof.
  intros i it Hi (V & H) HN. unfold di_next.
  destruct (Nat.ltb_spec (leafl i) st) as [L|L].
  - destruct H as (_ & _ & _ & HL & HA & HP). rewrite massert_ok by lia. cbn [bind]. rewrite HA.
    destruct (term (leafl i) i) eqn:ET.
    + destruct (term_leafl K HS HE i Hi ET) as (T1 & T2 & T3 & _).
      destruct (move_left_ok (S i) (leafl i) (di_setPrefix it false)) as (it' & E & G); auto; try lia.
      * rewrite <- T2. apply lo_le.
      * rewrite <- T2. apply (next_not_term K HS HE). auto.
      * exists it'. split; auto.
    + rewrite HL. cbn [pred_idx bind]. apply next_loop_ok; auto.
      * intros m Hm. destruct (Nat.eq_dec m (leafl i)) as [->|]; [|apply above_not_term; auto; lia].
        rewrite (proj1 (anc_leaf K i Hi)). auto.
      * destruct HN as [|HN]; auto. destruct (Nat.eq_dec (S i) n); auto. right.
        pose proof (leafl_next K i ltac:(fold n; lia)). lia.
  - destruct H as (_ & HL & HA & HP). rewrite massert_ok by lia. cbn [bind]. rewrite HA, HL.
    assert (PI : exists x, pred_idx st = Ok x) by (destruct st as [|x]; [lia|exists x; reflexivity]).
    destruct PI as (x & ->). cbn [bind]. apply next_loop_ok; auto; try lia.
    intros m Hm. apply above_not_term; auto. lia.
Qed.

(** ** operator-- *)
(** the previous label in the node of key [i], where it joins key [i - 1] *)
Lemma prev_pos_in : forall i, S i < n -> lo (S i) < st -> term (lo (S i)) (anc (lo (S i)) i) = false ->
  d_getPrevPos e d (dpos (lo (S i)) (S i)) =
    Ok (if dpos (lo (S i)) (anc (lo (S i)) i) =? 0 then None else Some (dpos (lo (S i)) (anc (lo (S i)) i))).
Proof.
  intros i Hi Hl HT. set (m := lo (S i)) in *. pose proof (leafl_next K i Hi) as LN. fold m in LN.
  pose proof (anc_item K m i ltac:(fold n; lia) LN) as HI. pose proof (anc_le K m i) as AL.
  destruct (dpos_start m _ HI) as (j & A & B & C & D & E).
  pose proof (next_same K i Hi) as NS. pose proof (next_item K i Hi) as NI. fold m in NS, NI.
  assert (NE : NN m (S i) = NN m (anc m i)) by (apply NN_same; auto; lia).
  assert (SJ : same_node m j (S i)).
  { intros x Hx. destruct (le_lt_dec x (anc m i)); [apply C; lia|apply NS; lia]. }
  assert (E' : dpos m (S i) = dp m j (lab m (S i))).
  { unfold IterDMove.dpos, DenseFacts.dp. rewrite NE, D. reflexivity. }
  assert (LL : lab m (anc m i) < lab m (S i)) by (apply (node_lab_lt K HS HE); auto; lia).
  pose proof (lab_byte K HB HNE m (S i)) as BY.
  rewrite E, E'.
  apply (d_prev_in c K HS HB HE HNE HFF st d e Hst1 HD Hmem); auto; try lia.
  intros x X1 X2 X3 X4 X5. destruct (le_lt_dec x (anc m i)) as [L|L].
  + destruct (Nat.eq_dec x (anc m i)) as [->|NE']; [lia|].
    pose proof (node_lab_lt K HS HE m x (anc m i) ltac:(lia) HI (same_node_sub K m j x _ C X1 ltac:(lia)) X4). lia.
  + exfalso. destruct (le_lt_dec x i) as [L2|L2].
    * pose proof (next_between K i x L ltac:(lia)) as Q. fold m in Q. congruence.
    * destruct (Nat.eq_dec x (S i)) as [->|NE']; [lia|].
      pose proof (node_lab_lt K HS HE m (S i) x ltac:(lia) X2 (same_node_sub K m j (S i) x X3 ltac:(lia) ltac:(lia))
        (next_not_term K HS HE i Hi)). lia.
Qed.

(** first label of a node below the root *)
Lemma prev_pos_out : forall m j i, m < st -> 1 <= m -> not_all_zero K \/ 2 <= m -> louds m j = true -> j <= i -> same_node m j i ->
  item m i = true -> term m i = false ->
  (forall x, j <= x -> x < i -> item m x = true -> term m x = true) ->
  exists p, d_getPrevPos e d (dpos m i) = Ok (Some p) /\ p / kNodeFanout < NN m i.
Proof.
  intros m j i Hm H1 HZ HL HJ SN HI HT HF.
  assert (NE : NN m i = NN m j) by (apply NN_same; auto).
  assert (E : dpos m i = dp m j (lab m i)) by (unfold IterDMove.dpos, DenseFacts.dp; rewrite NE; reflexivity).
  rewrite E, NE. pose proof (lab_byte K HB HNE m i) as BY.
  apply (d_prev_out c K HS HB HE HNE HFF st d e Hst1 HD Hmem); auto; try lia.
  intros x X1 X2 X3 X4 X5. destruct (lt_eq_lt_dec x i) as [[L|L]|L].
  - rewrite HF in X4; auto. discriminate.
  - subst. lia.
  - pose proof (node_lab_lt K HS HE m i x L X2 (same_node_sub K m j i x X3 HJ ltac:(lia)) HT). lia.
Qed.

Lemma prev_pos_z : forall j i, 1 < st -> all_zero K -> louds 1 j = true -> j <= i -> same_node 1 j i ->
  item 1 i = true -> term 1 i = false ->
  (forall x, j <= x -> x < i -> item 1 x = true -> term 1 x = true) ->
  d_getPrevPos e d (dpos 1 i) = Ok None.
Proof.
  intros j i Hm HZ HL HJ SN HI HT HF.
  assert (NE : NN 1 i = NN 1 j) by (apply NN_same; auto).
  assert (E : dpos 1 i = dp 1 j (lab 1 i)) by (unfold IterDMove.dpos, DenseFacts.dp; rewrite NE; reflexivity).
  rewrite E. pose proof (lab_byte K HB HNE 1 i) as BY.
  apply (d_prev_z c K HS HB HE HNE HFF st d e Hst1 HD Hmem); auto; try lia.
  intros x X1 X2 X3 X4 X5. destruct (lt_eq_lt_dec x i) as [[L|L]|L].
  - rewrite HF in X4; auto. discriminate.
  - subst. lia.
  - pose proof (node_lab_lt K HS HE 1 i x L X2 (same_node_sub K 1 j i x X3 HJ ltac:(lia)) HT). lia.
Qed.

Lemma zero_dec : all_zero K \/ not_all_zero K.
Proof.
  assert (G : forall m, (forall x, x < m -> item 0 x = true -> lab 0 x = 0) \/ not_all_zero K).
  { induction m as [|m [IH|IH]]; [left; lia| |right; auto].
    destruct (item 0 m) eqn:EI; [destruct (Nat.eq_dec (lab 0 m) 0) as [E0|E0]|].
    - left. intros x Hx HI. destruct (Nat.eq_dec x m) as [->|]; auto. apply IH; auto. lia.
    - right. exists m. auto.
    - left. intros x Hx HI. destruct (Nat.eq_dec x m) as [->|]; [congruence|]. apply IH; auto. lia. }
  destruct (G n) as [H|H]; [left|right; auto]. intros x HI. apply H; auto. apply (item_lt K 0 x HI).
Qed.

(** what -- does from key [i]: to key [i - 1], unless that is reached through the
    first position of the trie *)
Definition back_ok (i : nat) : Prop := exists i', i = S i' /\ (lo i = 0 -> lab 0 (anc 0 i') <> 0) /\
  ~ (all_zero K /\ 1 < st /\ lo i = 1 /\ term 1 (anc 1 i') = true).

Lemma prev_loop_ok : forall i, i < n -> forall len it, len <= st -> len <= S (leafl i) ->
  (forall m, m < len -> term m (anc m i) = false) ->
  lpre i len (di_key it) (di_pos it) -> di_atprefix it = false ->
  lo i < len ->
  exists it', di_prev_loop e d it len = Ok it' /\
    ((~ back_ok i /\ di_valid it' = false) \/ (back_ok i /\ dright (i - 1) it')).
Proof.
  intros i Hi. induction len as [|m IH]; intros it H1 H2 HT HP HA HN; cbn [di_prev_loop]; [lia|].
  pose proof HP as (P1 & P2 & P3). rewrite (vget_ok _ _ m 0) by lia. cbn [bind].
  rewrite (proj1 (P3 m ltac:(lia))). rewrite (anc_self K m i) by lia.
  assert (AS : anc m i = i) by (apply anc_self; lia).
  destruct (Nat.eq_dec (lo i) m) as [EM|NM].
  - subst m. destruct i as [|i'].
    + (* the first key *)
      change (lo 0) with 0 in *.
      assert (E0 : dpos 0 0 = dp 0 0 (lab 0 0)) by reflexivity. rewrite E0.
      pose proof (lab_byte K HB HNE 0 0) as BY.
      rewrite (d_prev_root c K HS HB HE HNE HFF st d e Hst1 HD Hmem); [|lia|].
      * cbn [bind]. eexists. split; [reflexivity|]. left. split; [intros (i' & X & _); discriminate|reflexivity].
      * intros x X1 X2 X3. destruct (Nat.eq_dec x 0) as [->|NX]; [lia|].
        assert (SN : same_node 0 0 x) by (intros y Hy; apply louds_root_only; lia).
        pose proof (node_lab_lt K HS HE 0 0 x ltac:(lia) X1 SN) as Q.
        pose proof (HT 0 ltac:(lia)) as T0. rewrite AS in T0. specialize (Q T0). lia.
    + pose proof (leafl_next K i' Hi) as LN. set (m := lo (S i')) in *.
      pose proof (anc_item K m i' ltac:(fold n; lia) LN) as HI. pose proof (anc_le K m i') as AL.
      pose proof (next_same K i' Hi) as NS. pose proof (next_item K i' Hi) as NI. fold m in NS, NI.
      destruct (term m (anc m i')) eqn:ET.
      * (* the previous key ends in this node *)
        destruct (term_first K HS HE m _ HI ET) as (T1 & T2 & _ & T4). apply leaf_spec in T2. destruct T2 as [_ T2].
        assert (EI : anc m i' = i').
        { destruct (le_lt_dec i' (anc m i')) as [G|G]; [lia|]. exfalso.
          destruct (term_next K HS HE m _ HI ET) as (A & B). apply item_spec in A.
          pose proof (anc_between K m i' (S (anc m i')) ltac:(lia)). lia. }
        rewrite EI in *.
        assert (ZM : (m = 1 /\ all_zero K) \/ ~ (m = 1 /\ all_zero K) /\ (not_all_zero K \/ 2 <= m)).
        { destruct zero_dec as [Z|Z]; [destruct (Nat.eq_dec m 1) as [M|M]; [left; auto|right; split; [tauto|lia]]|].
          right. split; auto. intros [_ Z']. destruct Z as (x & Z1 & Z2). apply Z2. auto. }
        destruct ZM as [[M1 Z]|[NZ ZM]].
        { rewrite M1 in *. rewrite (prev_pos_z i' (S i')); auto; try lia.
          - cbn [bind]. eexists. split; [reflexivity|]. left. split; [|reflexivity].
            intros (i2 & X1 & X2 & X3). apply X3. assert (i2 = i') by lia. subst i2. rewrite EI. auto.
          - rewrite <- M1. apply (next_not_term K HS HE). auto.
          - intros x X1 X2 _. replace x with i' by lia. auto. }
        destruct (prev_pos_out m i' (S i') ltac:(lia) T4 ZM T1 ltac:(lia) NS NI) as (p & -> & G).
        -- apply (next_not_term K HS HE). auto.
        -- intros x X1 X2 _. replace x with i' by lia. auto.
        -- cbn [bind]. rewrite dpos_div. replace (_ <? _) with true by lia.
           rewrite (NN_same K m i' (S i')) by (auto; lia). rewrite d_prefix_read by (auto; lia). cbn [bind]. rewrite ET.
           eexists. split; [reflexivity|]. right. split; [exists i'; split; [reflexivity|split; [fold m; lia|intros (Z1 & _ & Z2 & _); apply NZ; auto]]|].
           replace (S i' - 1) with i' by lia. dcbn.
           apply at_leaf; try lia; [rewrite <- T2; auto|exact HP].
      * pose proof (prev_pos_in i' Hi ltac:(fold m; lia) ltac:(fold m; auto)) as PP. fold m in PP. rewrite PP. cbn [bind].
        destruct (Nat.eqb_spec (dpos m (anc m i')) 0) as [Z|Z].
        -- eexists. split; [reflexivity|]. left. split; [|reflexivity]. intros (i2 & X1 & X2 & _).
           assert (i2 = i') by lia. subst i2.
           assert (Z1 : NN m (anc m i') = 0 /\ lab m (anc m i') = 0) by (unfold IterDMove.dpos, DenseFacts.dp in Z; lia).
           destruct Z1 as [Z1 Z2]. destruct (Nat.eq_dec m 0) as [M0|M0].
           ++ apply X2; [fold m; auto|]. rewrite M0 in Z2. auto.
           ++ pose proof (NN_pos K m _ HNE HI ltac:(lia)). lia.
        -- rewrite !dpos_div. rewrite (NN_same K m (anc m i') (S i')) by (auto; lia). rewrite Nat.ltb_irrefl.
           destruct (di_set_ok i' m (di_setLen it (S m))) as (k & p & E & P); [|lia|].
           { cbn [di_setLen di_key di_pos]. apply lpre_bwd; [fold m; lia|]. eapply lpre_le; eauto. }
           rewrite E. cbn [bind].
           destruct (move_right_ok i' m (di_setKP (di_setLen it (S m)) k p)) as (it' & E' & G); auto; try lia.
           { right. fold m. lia. }
           exists it'. split; auto. right. replace (S i' - 1) with i' by lia. split; auto.
           exists i'. split; auto. split; [|fold m; intros (_ & _ & Z1 & Z2); rewrite Z1 in ET; congruence]. intros M0. fold m in M0.
           intros X. apply Z. unfold IterDMove.dpos, DenseFacts.dp. rewrite M0, X. unfold SparseFacts.NN. cbn [sm].
           pose proof (cn_mono (louds 0) (S (anc 0 i')) n ltac:(pose proof (anc_le K 0 i'); lia)) as CM.
           pose proof (cn_louds_root K HNE) as CR. fold n in CR. lia.
  - pose proof (own_node K m i Hi ltac:(lia) ltac:(lia)) as HL. pose proof (louds_item K m i HL) as HI.
    assert (TI : term m i = false) by (specialize (HT m ltac:(lia)); rewrite AS in HT; auto).
    assert (ZM : (m = 1 /\ all_zero K) \/ (not_all_zero K \/ 2 <= m)).
    { destruct zero_dec as [Z|Z]; auto. destruct (Nat.eq_dec m 1) as [M|M]; [left; auto|right; lia]. }
    destruct ZM as [[M1 Z]|ZM].
    { rewrite M1 in *. rewrite (prev_pos_z i i); auto; try lia; [|intros x Hx; lia].
      cbn [bind]. eexists. split; [reflexivity|]. left. split; [|reflexivity].
      intros (i2 & X1 & X2 & X3). assert (L0 : lo i = 0) by lia. apply (X2 L0). apply Z.
      apply anc_item; [fold n; lia|lia]. }
    destruct (prev_pos_out m i i ltac:(lia) ltac:(lia) ZM HL ltac:(lia)) as (p & -> & G); auto.
    + intros x Hx. lia.
    + intros x X1 X2. lia.
    + cbn [bind]. rewrite dpos_div. replace (_ <? _) with true by lia.
      rewrite d_prefix_read by (auto; lia). cbn [bind]. rewrite TI. apply IH; auto; try lia. eapply lpre_le; eauto.
Qed.

Theorem di_prev_ok : forall i it, i < n -> dat i it -> (leafl i < st \/ lo i < st) ->
  exists it', di_prev e d it = Ok it' /\
    ((~ back_ok i /\ di_valid it' = false) \/ (back_ok i /\ dright (i - 1) it')).
Proof.
  intros i it Hi (V & H) HN. unfold di_prev.
  destruct (Nat.ltb_spec (leafl i) st) as [L|L].
  - destruct H as (_ & _ & _ & HL & HA & HP). rewrite massert_ok by lia. cbn [bind]. rewrite HA, HL.
    cbn [pred_idx bind]. destruct (term (leafl i) i) eqn:ET.
    + destruct (term_leafl K HS HE i Hi ET) as (T1 & T2 & T3 & _).
      assert (PI : exists x, pred_idx (leafl i) = Ok x) by (destruct (leafl i) as [|x]; [lia|exists x; reflexivity]).
      destruct PI as (x & ->). cbn [bind]. apply prev_loop_ok; auto; try lia.
      * intros m Hm. apply above_not_term; auto.
      * cbn [di_setPrefix di_key di_pos]. apply lpre_bwd; [lia|]. eapply lpre_le; eauto.
    + apply prev_loop_ok; auto; try lia.
      * intros m Hm. destruct (Nat.eq_dec m (leafl i)) as [->|]; [|apply above_not_term; auto; lia].
        rewrite (proj1 (anc_leaf K i Hi)). auto.
      * pose proof (lo_le K i). lia.
  - destruct H as (_ & HL & HA & HP). rewrite massert_ok by lia. cbn [bind]. rewrite HA, HL.
    assert (PI : exists x, pred_idx st = Ok x) by (destruct st as [|x]; [lia|exists x; reflexivity]).
    destruct PI as (x & ->). cbn [bind]. apply prev_loop_ok; auto; try lia.
    intros m Hm. apply above_not_term; auto. lia.
Qed.
End DMove.
