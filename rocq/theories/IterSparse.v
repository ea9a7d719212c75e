(** Moves of the sparse iterator between keys. *)
From Coq Require Import Arith List NArith ZArith Bool Lia ZifyN ZifyNat ZifyBool Sorting.Sorted.
From Verif Require Import Res Word Config BitFacts WordFacts Bitvector BitvectorFacts Rank Select
  RankSelectFacts LabelVector LabelFacts Suffix Spec SuffixFacts Builder KeyFacts Trie BuilderFacts
  DenseBuild StructFacts NodeFacts SparseFacts Dense Sparse IterTrie IterDMove.
Import ListNotations.

Ltac nlia := repeat match goal with H : @eq bool _ _ |- _ => clear H end; lia.

Ltac scbn := unfold si_setValid, si_setStart, si_setLen, si_setKP, si_setTerm; cbn [si_valid si_start si_len si_key si_pos si_atterm].

Section SPath.
Variables (K : list bytes) (st : nat).
Notation anc := (anc K). Notation lab := (lab K). Notation lo := (lo K).

(** key bytes and positions of the first [len] sparse levels are those on the path to key [i] *)
Definition slpre (i len : nat) (k p : list nat) : Prop :=
  length k = height K - st /\ length p = height K - st /\
  forall m, m < len -> nth m p 0 = spos K st (st + m) (anc (st + m) i) /\ nth m k 0 = lab (st + m) (anc (st + m) i).

Lemma slpre_le : forall i len len' k p, slpre i len k p -> len' <= len -> slpre i len' k p.
Proof. intros i len len' k p (A & B & C) H. repeat split; auto; apply C; lia. Qed.

Lemma slpre_fwd : forall i len k p, st + len <= lo (S i) -> slpre i len k p -> slpre (S i) len k p.
Proof.
  intros i len k p H (A & B & C). split; [auto|split; [auto|]]. intros m Hm.
  rewrite (anc_keep K (st + m) i) by lia. auto.
Qed.
Lemma slpre_bwd : forall i len k p, st + len <= lo (S i) -> slpre (S i) len k p -> slpre i len k p.
Proof.
  intros i len k p H (A & B & C). split; [auto|split; [auto|]]. intros m Hm.
  specialize (C m Hm). rewrite (anc_keep K (st + m) i) in C by lia. auto.
Qed.

Lemma slpre_set : forall i m k p, slpre i m k p -> m < height K - st ->
  slpre i (S m) (lset k m (lab (st + m) (anc (st + m) i))) (lset p m (spos K st (st + m) (anc (st + m) i))).
Proof.
  intros i m k p (A & B & C) H. split; [rewrite lset_length; auto|]. split; [rewrite lset_length; auto|].
  intros m' Hm. rewrite !lset_nth. destruct (Nat.eqb_spec m' m) as [->|NE].
  - rewrite A, B. replace (m <? height K - st) with true by lia. auto.
  - cbn [andb]. apply C. lia.
Qed.
End SPath.

Section SMove.
Variables (c : config) (K : list bytes).
Notation kk := (kk K). Notation lo := (lo K). Notation hi := (hi K). Notation leafl := (leafl K).
Notation item := (item K). Notation child := (child K). Notation louds := (louds K).
Notation leaf := (leaf K). Notation lab := (lab K). Notation term := (term K). Notation anc := (anc K).
Notation items := (items K). Notation nds := (nds K). Notation height := (height K).
Notation nit := (nit K). Notation NN := (NN K). Notation same_node := (same_node K).
Let n := length K.
Hypothesis HS : StronglySorted klt K.
Hypothesis HB : Forall is_bytes K.
Hypothesis HE : Forall (fun k => k <> []) K.
Hypothesis HNE : length K <> 0.
Variables (st : nat) (s : sparse) (e : env).
Context {lb : nat} {Hlb : wide K lb}.
Hypothesis Hst1 : lb <= st.
Hypothesis Hst2 : S st <= height.
Hypothesis HK : sparse_ok c K st s.
Notation spos := (spos K st). Notation slen := (slen K st). Notation soff := (soff K st).
Notation slpre := (slpre K st).
Notation LD := (cc (slouds K) st height).

Definition no_later_item (l x : nat) : Prop := forall x', x < x' -> item l x' = true -> same_node l x x' -> False.

Lemma anc_no_later : forall l i, S i = n \/ lo (S i) < l -> no_later_item l (anc l i).
Proof. intros l i H x' A B C. exact (no_later K l i x' H B A C). Qed.

Lemma succ_item : forall l x x', item l x = true -> x < x' -> (forall y, x < y -> y < x' -> item l y = false) ->
  S (spos l x) = spos l x'.
Proof.
  intros l x x' HI Hx HB'. rewrite (spos_S K HNE st Hst1 Hst2 l x HI). unfold SparseFacts.spos. f_equal.
  apply cn_none_eq; [lia|]. intros m Hm. apply HB'; lia.
Qed.

Lemma succ_end : forall l x, st <= l -> item l x = true -> no_later_item l x ->
  slen <= S (spos l x) \/ (S (spos l x) < slen /\ nth (S (spos l x)) LD false = true).
Proof.
  intros l x Hl HI HN. destruct (le_lt_dec slen (S (spos l x))) as [G|G]; [left; auto|right; split; auto].
  destruct (spos_inv K HNE st Hst1 Hst2 _ G) as (l' & i & A & B & C).
  rewrite C, (louds_bit K HNE st Hst1 Hst2) by auto.
  destruct (lt_eq_lt_dec l l') as [[L|L]|L].
  - assert (Z : cn (item l') i = 0); [|apply first_item_louds; auto].
    destruct (Nat.eq_dec (cn (item l') i) 0) as [|NZ]; auto. exfalso.
    pose proof (spos_level K HNE st Hst1 Hst2 l x l' Hl HI L) as Q. unfold SparseFacts.spos in C, Q. lia.
  - subst l'. destruct (louds l i) eqn:EL; auto. exfalso.
    assert (X : x < i).
    { destruct (le_lt_dec i x) as [Y|Y]; auto. exfalso. destruct (Nat.eq_dec i x) as [->|]; [lia|].
      pose proof (spos_mono K HNE st Hst1 Hst2 l i x B ltac:(lia)). lia. }
    apply (HN i X B). intros m Hm. destruct (louds l m) eqn:EM; auto. exfalso.
    pose proof (louds_item K l m EM) as IM.
    pose proof (spos_mono K HNE st Hst1 Hst2 l x m HI ltac:(lia)) as S1.
    destruct (Nat.eq_dec m i) as [->|NE]; [congruence|].
    pose proof (spos_mono K HNE st Hst1 Hst2 l m i IM ltac:(lia)) as S2. lia.
  - exfalso. pose proof (spos_level K HNE st Hst1 Hst2 l' i l A B L) as Q. unfold SparseFacts.spos in C, Q. lia.
Qed.

Lemma LD_len : length LD = slen.
Proof. apply cc_len; [lia|apply slouds_n]. Qed.

Lemma LD_read : forall p, p < slen -> s_readLouds e s p = Ok (nth p LD false).
Proof.
  intros p Hp. unfold s_readLouds. destruct HK as [_ _ _ _ _ _ _ _ _ [R _] _ _ _].
  rewrite (readBit_spec e _ _ _ R); [reflexivity|]. rewrite LD_len. auto.
Qed.

(** the test for the end of a node *)
Definition up_flag (p : nat) : res bool := if s_numBits s <=? S p then Ok true else s_readLouds e s (S p).

Lemma up_end : forall l x, st <= l -> item l x = true -> no_later_item l x -> up_flag (spos l x) = Ok true.
Proof.
  intros l x Hl HI HN. unfold up_flag. rewrite (s_numBits_eq c K HNE st s Hst1 Hst2 HK).
  destruct (succ_end l x Hl HI HN) as [G|[G1 G2]].
  - replace (slen <=? S (spos l x)) with true by lia. reflexivity.
  - replace (slen <=? S (spos l x)) with false by lia. rewrite LD_read, G2 by auto. reflexivity.
Qed.

Lemma up_next : forall l x x', st <= l -> item l x = true -> item l x' = true -> x < x' -> louds l x' = false ->
  (forall y, x < y -> y < x' -> item l y = false) -> up_flag (spos l x) = Ok false.
Proof.
  intros l x x' Hl HI HI' Hx HL HB'. unfold up_flag. rewrite (s_numBits_eq c K HNE st s Hst1 Hst2 HK).
  rewrite (succ_item l x x' HI Hx HB'). pose proof (spos_lt K HNE st Hst1 Hst2 l x' Hl HI') as G.
  replace (slen <=? spos l x') with false by lia.
  rewrite (s_louds_read c K HNE st s e Hst1 Hst2 HK) by auto. rewrite HL. reflexivity.
Qed.

Lemma end_of_node : forall p, p < slen -> s_isEndofNode e s p = up_flag p.
Proof.
  intros p Hp. unfold s_isEndofNode, up_flag. rewrite (s_numBits_eq c K HNE st s Hst1 Hst2 HK).
  replace (p + 1) with (S p) by lia. destruct (Nat.eqb_spec (S p) slen) as [E|E].
  - replace (slen <=? S p) with true by lia. reflexivity.
  - replace (slen <=? S p) with false by lia. reflexivity.
Qed.

(** the end of a node, as one test *)
Lemma leaf_end : forall i, i < n -> st <= leafl i -> lab (leafl i) i = 255 ->
  s_isEndofNode e s (spos (leafl i) i) = Ok (negb (term (leafl i) i)).
Proof.
  intros i Hi Hl HL. pose proof (proj2 (anc_leaf K i Hi)) as LF.
  assert (HI : item (leafl i) i = true) by (unfold Trie.leaf in LF; destruct (item (leafl i) i); auto).
  rewrite end_of_node by (eapply spos_lt; eauto). destruct (term (leafl i) i) eqn:ET; cbn [negb].
  - destruct (term_next K HS HE _ i HI ET) as (A & B). apply up_next with (S i); auto. intros y Y1 Y2. lia.
  - apply up_end; auto. intros x X1 X2 X3.
    pose proof (node_lab_lt K HS HE _ i x X1 X2 X3 ET) as Q. pose proof (lab_byte K HB HNE (leafl i) x). lia.
Qed.

Lemma s_last_pos : forall l x, st <= l -> item l x = true -> no_later_item l x ->
  s_getLastLabelPos e s (NN l x) = Ok (spos l x).
Proof.
  intros l x Hl HI HN. pose proof (item_height K HNE st Hst1 Hst2 l x HI) as HH. pose proof (item_lt K l x HI) as Hx.
  unfold s_getLastLabelPos. pose proof (NN_ge K HNE st Hst1 Hst2 l x Hl) as G.
  pose proof HK as [_ _ Hnc _ _ _ _ _ _ HSel _ _ _]. rewrite Hnc.
  replace (NN l x + 2 <? sm nds st) with false by nlia.
  pose proof (sm_mono nds st l Hl) as M.
  pose proof (s_louds_cnt K HNE st Hst1 Hst2 l (S x) Hl ltac:(lia) ltac:(lia)) as C.
  rewrite <- (spos_S K HNE st Hst1 Hst2 l x HI) in C.
  assert (L1 : 1 <= cn (louds l) (S x)) by (apply (louds_before K HNE l x HI)).
  assert (EQ : NN l x + 2 - sm nds st = S (cnt (firstn (S (spos l x)) LD))).
  { rewrite C. unfold SparseFacts.NN in *. nlia. }
  rewrite EQ. assert (ON : sl_ones (s_louds s) = cnt LD) by (destruct HSel as (_ & _ & Q & _); exact Q). rewrite ON.
  assert (NB : s_numBits s = slen) by (apply (s_numBits_eq c K HNE st s Hst1 Hst2 HK)). rewrite NB.
  pose proof (spos_lt K HNE st Hst1 Hst2 l x Hl HI) as SL. pose proof LD_len as LL.
  destruct (succ_end l x Hl HI HN) as [E|[E1 E2]].
  - assert (E' : slen = S (spos l x)) by lia. rewrite firstn_all2 by lia.
    replace (cnt LD <? S (cnt LD)) with true by lia. rewrite E'. reflexivity.
  - assert (TT : S (cnt (firstn (S (spos l x)) LD)) <= cnt LD).
    { rewrite <- (firstn_skipn (S (spos l x)) LD) at 2. rewrite cnt_app.
      destruct (Nat.eq_dec (cnt (skipn (S (spos l x)) LD)) 0) as [Z|]; [|lia].
      pose proof (proj1 (cnt_zero_nth _) Z 0) as Y. rewrite nth_skipn' in Y.
      replace (S (spos l x) + 0) with (S (spos l x)) in Y by lia. congruence. }
    replace (cnt LD <? S (cnt (firstn (S (spos l x)) LD))) with false by lia.
    rewrite (select_spec e _ _ _ HSel); auto; try lia.
    + rewrite (sel_unique _ _ (S (spos l x))); auto; lia.
    + apply (s_first_louds K HNE st Hst1 Hst2). lia.
Qed.

Lemma leafl_height : forall i, i < n -> S (leafl i) < height.
Proof.
  intros i Hi. pose proof (proj2 (anc_leaf K i Hi)) as LF.
  apply (item_height K HNE st Hst1 Hst2 (leafl i) i). unfold Trie.leaf in LF. destruct (item (leafl i) i); auto.
Qed.

(** the sparse iterator is at key [i] *)
Definition sat (i : nat) (it : siter) : Prop :=
  si_valid it = true /\ si_len it = S (leafl i) - st /\ si_atterm it = term (leafl i) i /\
  slpre i (S (leafl i) - st) (si_key it) (si_pos it).

Lemma sat_intro : forall i start len k p t, len = S (leafl i) - st -> t = term (leafl i) i ->
  slpre i (S (leafl i) - st) k p -> sat i (mkSIter true start len k p t).
Proof. intros i start len k p t -> -> H. split; [reflexivity|]. split; [reflexivity|]. split; [reflexivity|exact H]. Qed.

Lemma si_append_ok : forall i m it, st <= m -> m <= leafl i -> i < n -> si_len it = m - st ->
  slpre i (m - st) (si_key it) (si_pos it) ->
  exists k p, si_appendL e it (lab m (anc m i)) (spos m (anc m i)) = Ok (si_setLen (si_setKP it k p) (S m - st)) /\
    slpre i (S m - st) k p.
Proof.
  intros i m it H1 H2 Hi HL HP. pose proof (leafl_height i Hi) as LH. pose proof HP as (A & B & C).
  unfold si_appendL. rewrite HL. rewrite massert_ok by lia. cbn [bind].
  rewrite !vset_ok by lia. cbn [bind].
  exists (lset (si_key it) (m - st) (lab m (anc m i))), (lset (si_pos it) (m - st) (spos m (anc m i))).
  split; [f_equal; f_equal; lia|].
  pose proof (slpre_set K st i (m - st) _ _ HP ltac:(lia)) as Q.
  replace (st + (m - st)) with m in Q by lia. replace (S m - st) with (S (m - st)) by lia. exact Q.
Qed.

Lemma si_set_ok : forall i m it, st <= m -> m <= leafl i -> i < n ->
  slpre i (m - st) (si_key it) (si_pos it) ->
  exists k p, si_set e s it (m - st) (spos m (anc m i)) = Ok (si_setKP it k p) /\ slpre i (S m - st) k p.
Proof.
  intros i m it H1 H2 Hi HP. pose proof (leafl_height i Hi) as LH. pose proof HP as (A & B & C).
  unfold si_set. rewrite massert_ok by lia. cbn [bind].
  rewrite (s_lab_read c K HNE st s e Hst1 Hst2 HK) by (auto; apply anc_item; auto). cbn [bind].
  rewrite !vset_ok by lia. cbn [bind].
  exists (lset (si_key it) (m - st) (lab m (anc m i))), (lset (si_pos it) (m - st) (spos m (anc m i))).
  split; [reflexivity|].
  pose proof (slpre_set K st i (m - st) _ _ HP ltac:(lia)) as Q.
  replace (st + (m - st)) with m in Q by lia. replace (S m - st) with (S (m - st)) by lia. exact Q.
Qed.

Lemma at_leaf_ok : forall i it, i < n -> st <= leafl i -> si_len it = S (leafl i) - st -> si_atterm it = false ->
  slpre i (S (leafl i) - st) (si_key it) (si_pos it) ->
  exists it', si_at_leaf e s it (lab (leafl i) i) (spos (leafl i) i) = Ok it' /\ sat i it'.
Proof.
  intros i it Hi Hl HL HA HP. unfold si_at_leaf. change kTerminator with 255.
  destruct (Nat.eqb_spec (lab (leafl i) i) 255) as [E|E].
  - rewrite leaf_end by auto. cbn [bind]. eexists. split; [reflexivity|].
    destruct (term (leafl i) i) eqn:ET; cbn [negb]; scbn; apply sat_intro; auto. rewrite HA. auto.
  - cbn [bind]. eexists. split; [reflexivity|]. scbn. apply sat_intro; auto. rewrite HA.
    destruct (term (leafl i) i) eqn:ET; auto. exfalso. apply E. unfold Trie.term in ET.
    unfold Trie.lab. apply nth_overflow. lia.
Qed.

Lemma sleft_loop_ok : forall i, i < n -> forall nn m it, st <= m -> lo i <= m -> m < leafl i -> leafl i - m <= nn ->
  slpre i (S m - st) (si_key it) (si_pos it) -> si_len it = S m - st -> si_atterm it = false ->
  exists it', si_left_loop e s nn it (spos m i) = Ok it' /\ sat i it'.
Proof.
  intros i Hi. induction nn as [|nn IH]; intros m it H1 H2 H3 HN HP HL HA; [lia|]. cbn [si_left_loop].
  assert (AS : anc m i = i) by (apply anc_self; lia). assert (AS' : anc (S m) i = i) by (apply anc_self; lia).
  pose proof (child_anc K m i Hi ltac:(lia)) as HC. rewrite AS in HC. replace (m <? leafl i) with true in HC by lia.
  rewrite (s_child_node c K HNE st s e Hst1 Hst2 HK) by auto. cbn [bind].
  pose proof HC as HC'. rewrite child_louds in HC'. pose proof (louds_item K _ _ HC') as HI.
  rewrite (s_first_pos c K HNE st s e Hst1 Hst2 HK) by (auto; lia). cbn [bind].
  rewrite (s_lab_read c K HNE st s e Hst1 Hst2 HK) by (auto; lia). cbn [bind].
  rewrite (s_child_read c K HNE st s e Hst1 Hst2 HK) by (auto; lia). cbn [bind].
  destruct (si_append_ok i (S m) it) as (k & p & E & P); auto; try lia.
  rewrite AS' in E. rewrite E. cbn [bind].
  pose proof (child_anc K (S m) i Hi ltac:(lia)) as HC2. rewrite AS' in HC2. rewrite HC2.
  destruct (Nat.ltb_spec (S m) (leafl i)) as [EC|EC]; cbn [negb].
  - apply IH; auto; lia.
  - assert (LF : S m = leafl i) by lia. rewrite LF in *. apply at_leaf_ok; auto; lia.
Qed.

Lemma pos_read : forall i m it, st <= m -> m <= leafl i -> i < n ->
  slpre i (S m - st) (si_key it) (si_pos it) -> vget (si_pos it) (m - st) = Ok (spos m (anc m i)).
Proof.
  intros i m it H1 H2 Hi (A & B & C). pose proof (leafl_height i Hi) as LH.
  rewrite (vget_ok _ _ (m - st) 0) by lia. f_equal. rewrite (proj1 (C (m - st) ltac:(lia))).
  replace (st + (m - st)) with m by lia. reflexivity.
Qed.

(** moveToLeftMostKey, from a position on the path of the key *)
Lemma smove_left_ok : forall i m it, i < n -> st <= m -> lo i <= m -> m <= leafl i ->
  slpre i (S m - st) (si_key it) (si_pos it) -> si_len it = S m - st -> si_atterm it = false ->
  exists it', si_moveToLeftMostKey e s it = Ok it' /\ sat i it'.
Proof.
  intros i m it Hi H1 H2 H3 HP HL HA. assert (AS : anc m i = i) by (apply anc_self; lia).
  unfold si_moveToLeftMostKey. rewrite HL. replace (S m - st) with (S (m - st)) by lia. cbn [Nat.eqb bind].
  rewrite HL. replace (S m - st) with (S (m - st)) by lia. cbn [pred_idx bind].
  rewrite (pos_read i m) by auto. cbn [bind]. rewrite AS.
  assert (HI : item m i = true) by (rewrite <- AS; apply anc_item; auto).
  rewrite (s_lab_read c K HNE st s e Hst1 Hst2 HK) by auto. cbn [bind].
  rewrite (s_child_read c K HNE st s e Hst1 Hst2 HK) by auto. cbn [bind].
  pose proof (child_anc K m i Hi ltac:(lia)) as HC. rewrite AS in HC. rewrite HC.
  destruct (Nat.ltb_spec m (leafl i)) as [EC|EC]; cbn [negb].
  - apply sleft_loop_ok; auto. destruct HK as [HH _ _ _ _ _ _ _ _ _ _ _ _]. rewrite HH.
    pose proof (leafl_height i Hi). lia.
  - assert (LF : m = leafl i) by lia. rewrite LF in *. apply at_leaf_ok; auto; lia.
Qed.

(** moveToLeftMostKey, from the start node *)
Lemma sstart_left_node : forall i it, i < n -> louds st i = true -> st <= leafl i ->
  length (si_key it) = height - st -> length (si_pos it) = height - st ->
  si_start it = NN st i -> si_len it = 0 -> si_atterm it = false ->
  exists it', si_moveToLeftMostKey e s it = Ok it' /\ sat i it'.
Proof.
  intros i it Hi LO H2 L1 L2 HS' HL HA. pose proof (proj1 (item_spec K st i) (louds_item K _ _ LO)) as H1.
  assert (AS : anc st i = i) by (apply anc_self; lia).
  pose proof (louds_item K _ _ LO) as HI.
  destruct (si_append_ok i st it) as (k & p & E & P); auto; try lia.
  { split; auto. split; auto. intros m Hm. lia. }
  rewrite AS in E.
  assert (G : si_moveToLeftMostKey e s it = si_moveToLeftMostKey e s (si_setLen (si_setKP it k p) (S st - st))).
  { unfold si_moveToLeftMostKey at 1. rewrite HL. cbn [Nat.eqb]. rewrite HS'.
    rewrite (s_first_pos c K HNE st s e Hst1 Hst2 HK) by auto. cbn [bind].
    rewrite (s_lab_read c K HNE st s e Hst1 Hst2 HK) by auto. cbn [bind]. rewrite E. cbn [bind].
    unfold si_moveToLeftMostKey. replace (S st - st) with 1 by lia. reflexivity. }
  rewrite G. apply (smove_left_ok i st); auto; try lia.
Qed.

Lemma sstart_left_ok : forall i it, i < n -> lo i < st -> st <= leafl i ->
  length (si_key it) = height - st -> length (si_pos it) = height - st ->
  si_start it = NN st i -> si_len it = 0 -> si_atterm it = false ->
  exists it', si_moveToLeftMostKey e s it = Ok it' /\ sat i it'.
Proof. intros. apply sstart_left_node; auto. apply own_node; auto. Qed.

Lemma next_sp : forall i, S i < n -> st <= lo (S i) ->
  S (spos (lo (S i)) (anc (lo (S i)) i)) = spos (lo (S i)) (S i) /\
  up_flag (spos (lo (S i)) (anc (lo (S i)) i)) = Ok false.
Proof.
  intros i Hi Hl. assert (HI : item (lo (S i)) (anc (lo (S i)) i) = true).
  { apply anc_item; fold n; [lia|]. apply leafl_next. fold n. lia. }
  pose proof (anc_le K (lo (S i)) i) as AL.
  split.
  - apply succ_item; auto; [lia|]. intros y. apply next_between.
  - apply up_next with (S i); auto; try lia.
    + apply next_item. auto. + apply next_not_louds. auto. + intros y. apply next_between.
Qed.

(** ++ of the sparse part *)
Lemma snext_loop_ok : forall i, i < n -> forall len it, st + len <= S (leafl i) ->
  slpre i len (si_key it) (si_pos it) -> si_atterm it = false ->
  (S i < n -> lo (S i) < st + len) ->
  exists it', si_next_loop e s it len = Ok it' /\
    if (S i <? n) && (st <=? lo (S i)) then sat (S i) it'
    else si_valid it' = false /\ si_len it' = 0 /\ si_atterm it' = false /\
         length (si_key it') = height - st /\ length (si_pos it') = height - st.
Proof.
  intros i Hi. induction len as [|m IH]; intros it H1 HP HA HN; cbn [si_next_loop].
  - eexists. split; [reflexivity|]. pose proof HP as (A & B & _).
    replace ((S i <? n) && (st <=? lo (S i))) with false by lia. scbn. repeat split; auto.
  - pose proof (pos_read i (st + m) it ltac:(lia) ltac:(lia) Hi) as PR.
    replace (st + m - st) with m in PR by lia. replace (S (st + m) - st) with (S m) in PR by lia.
    rewrite (PR HP). cbn [bind].
    fold (up_flag (spos (st + m) (anc (st + m) i))).
    destruct (Nat.eq_dec (lo (S i)) (st + m)) as [EM|NM].
    + destruct (Nat.eq_dec (S i) n) as [EN|EN].
      * rewrite up_end; [cbn [bind]|lia|apply anc_item; auto; lia|apply anc_no_later; auto].
        apply IH; auto; try lia. eapply slpre_le; eauto.
      * destruct (next_sp i ltac:(lia) ltac:(lia)) as (E1 & E2). rewrite <- EM, E2. cbn [bind]. rewrite E1.
        destruct (si_set_ok (S i) (lo (S i)) (si_setLen it (S m))) as (k & p & E & P); auto; try lia.
        { apply lo_le. }
        { scbn. apply slpre_fwd; [lia|]. eapply slpre_le; [exact HP|lia]. }
        rewrite (anc_self K (lo (S i)) (S i)) in E by lia.
        replace (lo (S i) - st) with m in E by lia. rewrite E. cbn [bind].
        replace ((S i <? n) && (st <=? lo (S i))) with true by lia.
        apply (smove_left_ok (S i) (lo (S i))); auto; try lia.
        -- apply lo_le.
        -- scbn. lia.
    + rewrite up_end; [cbn [bind]|lia|apply anc_item; auto; lia|apply anc_no_later; fold n; lia].
      apply IH; auto; try lia. eapply slpre_le; eauto.
Qed.

Lemma si_next_ok : forall i it, i < n -> st <= leafl i -> sat i it ->
  exists it', si_next e s it = Ok it' /\
    if (S i <? n) && (st <=? lo (S i)) then sat (S i) it'
    else si_valid it' = false /\ si_len it' = 0 /\ si_atterm it' = false /\
         length (si_key it') = height - st /\ length (si_pos it') = height - st.
Proof.
  intros i it Hi Hl (V & L & T & P). unfold si_next. rewrite L. rewrite massert_ok by lia. cbn [bind].
  replace (S (leafl i) - st) with (S (leafl i - st)) in * by lia. cbn [pred_idx bind].
  apply snext_loop_ok; auto; try lia.
  intros H. pose proof (leafl_next K i H). lia.
Qed.

(** moveToRightMostKey *)
Definition lastk (m i : nat) : Prop := S i = n \/ lo (S i) <= m.

Lemma sright_loop_ok : forall i, i < n -> forall nn m it, st <= m -> lastk m i -> m < leafl i -> leafl i - m <= nn ->
  slpre i (S m - st) (si_key it) (si_pos it) -> si_len it = S m - st -> si_atterm it = false ->
  exists it', si_right_loop e s nn it (spos m (anc m i)) = Ok it' /\ sat i it'.
Proof.
  intros i Hi. induction nn as [|nn IH]; intros m it H1 H2 H3 HN HP HL HA; [lia|]. cbn [si_right_loop].
  pose proof (child_anc K m i Hi ltac:(lia)) as HC. replace (m <? leafl i) with true in HC by lia.
  rewrite (s_child_node c K HNE st s e Hst1 Hst2 HK) by auto. cbn [bind].
  pose proof (anc_same_node K m i Hi ltac:(lia)) as SN. pose proof (anc_mono K m i) as AM.
  rewrite <- (NN_same K (S m) (anc m i) (anc (S m) i) AM SN).
  assert (HI : item (S m) (anc (S m) i) = true) by (apply anc_item; auto; lia).
  rewrite s_last_pos; [cbn [bind]|lia|auto|apply anc_no_later; unfold lastk in H2; lia].
  rewrite (s_lab_read c K HNE st s e Hst1 Hst2 HK) by (auto; lia). cbn [bind].
  rewrite (s_child_read c K HNE st s e Hst1 Hst2 HK) by (auto; lia). cbn [bind].
  destruct (si_append_ok i (S m) it) as (k & p & E & P); auto; try lia.
  rewrite E. cbn [bind]. rewrite (child_anc K (S m) i Hi) by lia.
  destruct (Nat.ltb_spec (S m) (leafl i)) as [EC|EC]; cbn [negb].
  - apply IH; auto; try lia. unfold lastk in *. lia.
  - assert (LF : S m = leafl i) by lia. rewrite LF in *. rewrite (proj1 (anc_leaf K i Hi)) in *. apply at_leaf_ok; auto; lia.
Qed.

Lemma smove_right_ok : forall i m it, i < n -> st <= m -> lastk m i -> m <= leafl i ->
  slpre i (S m - st) (si_key it) (si_pos it) -> si_len it = S m - st -> si_atterm it = false ->
  exists it', si_moveToRightMostKey e s it = Ok it' /\ sat i it'.
Proof.
  intros i m it Hi H1 H2 H3 HP HL HA.
  unfold si_moveToRightMostKey. rewrite HL. replace (S m - st) with (S (m - st)) by lia. cbn [Nat.eqb bind].
  rewrite HL. replace (S m - st) with (S (m - st)) by lia. cbn [pred_idx bind].
  rewrite (pos_read i m) by auto. cbn [bind].
  assert (HI : item m (anc m i) = true) by (apply anc_item; auto).
  rewrite (s_lab_read c K HNE st s e Hst1 Hst2 HK) by auto. cbn [bind].
  rewrite (s_child_read c K HNE st s e Hst1 Hst2 HK) by auto. cbn [bind].
  rewrite (child_anc K m i Hi) by lia.
  destruct (Nat.ltb_spec m (leafl i)) as [EC|EC]; cbn [negb].
  - apply sright_loop_ok; auto. destruct HK as [HH _ _ _ _ _ _ _ _ _ _ _ _]. rewrite HH.
    pose proof (leafl_height i Hi). lia.
  - assert (LF : m = leafl i) by lia. rewrite LF in *. rewrite (proj1 (anc_leaf K i Hi)) in *. apply at_leaf_ok; auto; lia.
Qed.

Lemma sstart_right_ok : forall i it, 1 <= st -> i < n -> S i = n \/ lo (S i) < st -> st <= leafl i ->
  length (si_key it) = height - st -> length (si_pos it) = height - st ->
  si_start it = NN st (anc (st - 1) i) -> si_len it = 0 -> si_atterm it = false ->
  exists it', si_moveToRightMostKey e s it = Ok it' /\ sat i it'.
Proof.
  intros i it H0 Hi H1 H2 L1 L2 HS' HL HA.
  pose proof (child_anc K (st - 1) i Hi ltac:(lia)) as HC. replace (st - 1 <? leafl i) with true in HC by lia.
  pose proof (anc_same_node K (st - 1) i Hi ltac:(lia)) as SN. pose proof (anc_mono K (st - 1) i) as AM.
  rewrite child_louds in HC. replace (S (st - 1)) with st in * by lia.
  assert (HI : item st (anc st i) = true) by (apply anc_item; auto; lia).
  destruct (si_append_ok i st it) as (k & p & E & P); auto; try lia.
  { split; auto. split; auto. intros m Hm. lia. }
  assert (G : si_moveToRightMostKey e s it = si_moveToRightMostKey e s (si_setLen (si_setKP it k p) (S st - st))).
  { unfold si_moveToRightMostKey at 1. rewrite HL. cbn [Nat.eqb]. rewrite HS'.
    rewrite (s_first_pos c K HNE st s e Hst1 Hst2 HK) by auto. cbn [bind].
    rewrite <- (NN_same K st (anc (st - 1) i) (anc st i) AM SN).
    rewrite s_last_pos; [cbn [bind]|lia|auto|apply anc_no_later; auto].
    rewrite (s_lab_read c K HNE st s e Hst1 Hst2 HK) by auto. cbn [bind]. rewrite E. cbn [bind].
    unfold si_moveToRightMostKey. replace (S st - st) with 1 by lia. reflexivity. }
  rewrite G. apply (smove_right_ok i st); auto; try lia. unfold lastk. lia.
Qed.

(** -- of the sparse part *)
Lemma sprev_loop_ok : forall i, i < n -> forall len it, st + len <= S (leafl i) ->
  slpre i len (si_key it) (si_pos it) -> si_atterm it = false ->
  (st <= lo i -> lo i < st + len) -> (lo i = 0 -> i = 0 -> st <> 0) ->
  exists it', si_prev_loop e s it len = Ok it' /\
    if st <=? lo i then exists i', i = S i' /\ sat i' it'
    else si_valid it' = false /\ si_len it' = 0 /\ si_atterm it' = false /\
         length (si_key it') = height - st /\ length (si_pos it') = height - st.
Proof.
  intros i Hi. induction len as [|m IH]; intros it H1 HP HA HN H0; cbn [si_prev_loop].
  - eexists. split; [reflexivity|]. pose proof HP as (A & B & _).
    replace (st <=? lo i) with false by lia. scbn. repeat split; auto.
  - pose proof (pos_read i (st + m) it ltac:(lia) ltac:(lia) Hi) as PR.
    replace (st + m - st) with m in PR by lia. replace (S (st + m) - st) with (S m) in PR by lia.
    rewrite (PR HP). cbn [bind].
    assert (HI : item (st + m) (anc (st + m) i) = true) by (apply anc_item; auto; lia).
    rewrite (s_louds_read c K HNE st s e Hst1 Hst2 HK) by (auto; lia). cbn [bind].
    destruct (le_lt_dec (lo i) (st + m)) as [LE|LE].
    + rewrite (anc_self K (st + m) i) by auto. destruct (Nat.eq_dec (lo i) (st + m)) as [EM|NM].
      * destruct i as [|i'].
        { exfalso. cbn [Trie.lo] in EM. lia. }
        rewrite <- EM. rewrite next_not_louds by auto.
        destruct (next_sp i' ltac:(lia) ltac:(lia)) as (E1 & _). rewrite <- E1. cbn [pred_idx bind].
        destruct (si_set_ok i' (lo (S i')) (si_setLen it (S m))) as (k & p & E & P); auto; try lia.
        { apply leafl_next. auto. }
        { scbn. apply slpre_bwd; [lia|]. eapply slpre_le; [exact HP|lia]. }
        replace (lo (S i') - st) with m in E by lia. rewrite E. cbn [bind].
        replace (st <=? lo (S i')) with true by lia.
        destruct (smove_right_ok i' (lo (S i')) (si_setKP (si_setLen it (S m)) k p)) as (it' & G1 & G2); auto; try lia.
        -- unfold lastk. lia.
        -- apply leafl_next. auto.
        -- scbn. lia.
        -- exists it'. split; auto. exists i'. auto.
      * rewrite own_node by (auto; lia). apply IH; auto; try lia. eapply slpre_le; eauto.
    + exfalso. lia.
Qed.

Lemma si_prev_ok : forall i it, 1 <= st \/ i <> 0 -> i < n -> st <= leafl i -> sat i it ->
  exists it', si_prev e s it = Ok it' /\
    if st <=? lo i then exists i', i = S i' /\ sat i' it'
    else si_valid it' = false /\ si_atterm it' = false /\
         length (si_key it') = height - st /\ length (si_pos it') = height - st /\
         (si_len it' = 0 \/ (si_len it' = 1 /\ leafl i = st /\ cn (item st) i = 0 /\ slpre i 1 (si_key it') (si_pos it'))).
Proof.
  intros i it H0 Hi Hl (V & L & T & P). unfold si_prev, si_lastpos. rewrite L. rewrite massert_ok by lia. cbn [bind].
  pose proof (pos_read i (leafl i) it Hl (le_n _) Hi P) as PR. pose proof (proj1 (anc_leaf K i Hi)) as AS. rewrite AS in PR.
  assert (HI : item (leafl i) i = true) by (rewrite <- AS at 2; apply anc_item; auto).
  replace (S (leafl i) - st) with (S (leafl i - st)) in * by lia. cbn [pred_idx bind].
  rewrite PR. cbn [bind]. destruct (Nat.eqb_spec (spos (leafl i) i) 0) as [E0|E0].
  - eexists. split; [reflexivity|]. assert (LF : leafl i = st).
    { destruct (Nat.eq_dec (leafl i) st); auto. exfalso.
      pose proof (spos_level K HNE st Hst1 Hst2 st (anc st i) (leafl i) (le_n _) ltac:(apply anc_item; auto) ltac:(lia)) as Q.
      unfold SparseFacts.spos in E0. lia. }
    assert (C0 : cn (item st) i = 0) by (unfold SparseFacts.spos in E0; rewrite LF in E0; lia).
    rewrite LF in HI. pose proof (first_item_louds K HNE st i HI C0) as LO. apply louds_spec in LO.
    replace (st <=? lo i) with false by (destruct LO as (_ & LO); nlia).
    destruct P as (P1 & P2 & P3). scbn. repeat split; auto. right. rewrite L, LF, Nat.sub_diag in *.
    split; auto. split; auto. split; auto. split; auto.
  - destruct (sprev_loop_ok i Hi (S (leafl i - st)) (si_setTerm it false)) as (it' & G1 & G2); auto; try lia.
    + pose proof (lo_le K i). lia.
    + exists it'. cbn [si_len si_setTerm]. rewrite L. split; [exact G1|]. destruct (st <=? lo i); [exact G2|].
      destruct G2 as (A & B & C & D & F). repeat split; auto.
Qed.
End SMove.
