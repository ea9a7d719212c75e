(** The dense iterator: neighbouring label bits, and what the moves of
    LoudsDense::Iter do to an iterator that stands at a key. *)
From Coq Require Import Arith List NArith ZArith Bool Lia ZifyN ZifyNat ZifyBool Sorting.Sorted.
From Verif Require Import Res Word Config BitFacts WordFacts Bitvector BitvectorFacts Rank Select
  RankSelectFacts LabelVector Suffix Spec SuffixFacts Builder KeyFacts Trie BuilderFacts
  DenseBuild StructFacts NodeFacts SparseFacts Dense Sparse DenseFacts IterTrie.
Import ListNotations.

(** at the last bit of the vector the search starts one word past the array *)
Lemma dnext_past : forall e b l pos1, repr b l -> pos1 = length l -> 1 <= pos1 -> length l mod 64 = 0 ->
  strict_mem e = false -> exists m, distanceToNextSetBit1 e b pos1 = Ok m /\ 1 <= m.
Proof.
  intros e b l pos1 (Hn & _ & Hw & _) E H1 HM Hmem. unfold distanceToNextSetBit1.
  rewrite Hn in *. subst pos1.
  assert (A : massert e (match length l with 0 => false | S pos => pos <? length l end) = Ok tt).
  { unfold massert. destruct (length l) as [|p]; [lia|]. replace (p <? S p) with true by lia.
    rewrite andb_false_r. reflexivity. }
  rewrite A. cbn [bind]. unfold wread.
  assert (Q : num_words (length l) = length l / 64).
  { pose proof (num_words_bounds (length l)). pose proof (Nat.div_mod (length l) 64 ltac:(lia)). lia. }
  destruct (nth_error (bv_words b) (length l / 64)) as [w|] eqn:EN.
  { apply nth_error_Some_lt in EN || (assert (nth_error (bv_words b) (length l / 64) <> None) as EN' by congruence; apply nth_error_Some in EN'; lia). }
  rewrite Hmem. replace (length l / 64 =? length (bv_words b)) with true by lia. cbn [bind].
  destruct (0 <? _)%N; [eexists; split; [reflexivity|lia]|].
  pose proof (Nat.div_mod (length l) 64 ltac:(lia)) as DM.
  replace (num_words (length l) =? 0) with false by lia.
  replace (length l / 64 + 1 =? num_words (length l)) with false by lia.
  destruct (num_words (length l)) eqn:EW; cbn [next_loop]; rewrite ?Hn, EW;
    (replace (length l / 64 <? _) with false by lia); eexists; (split; [reflexivity|lia]).
Qed.

Lemma next_bit : forall e b l pos1 q, repr b l -> (asserts e = false \/ 1 <= pos1) -> pos1 <= q -> q < length l ->
  nth q l false = true -> (forall x, pos1 <= x -> x < q -> nth x l false = false) ->
  distanceToNextSetBit1 e b pos1 = Ok (1 + (q - pos1)).
Proof.
  intros e b l pos1 q R A H1 H2 H3 H4. rewrite (dnext1_spec e b l pos1 R ltac:(lia) A).
  assert (F : first_true (skipn pos1 l) = q - pos1).
  { apply first_true_unique.
    - rewrite skipn_length. lia.
    - rewrite nth_skipn'. replace (pos1 + (q - pos1)) with q by lia. auto.
    - intros i Hi. rewrite nth_skipn'. apply H4; lia. }
  destruct (Nat.eqb_spec (cnt (skipn pos1 l)) 0) as [Z|Z]; [|rewrite F; reflexivity].
  exfalso. pose proof (proj1 (cnt_zero_nth _) Z (q - pos1)) as Y. rewrite nth_skipn' in Y.
  replace (pos1 + (q - pos1)) with q in Y by lia. congruence.
Qed.

Lemma next_none : forall e b l pos1 q, repr b l -> (asserts e = false \/ 1 <= pos1) -> 1 <= pos1 -> pos1 <= length l ->
  length l mod 64 = 0 -> strict_mem e = false -> q <= length l ->
  (forall x, pos1 <= x -> x < q -> nth x l false = false) ->
  exists m, distanceToNextSetBit1 e b pos1 = Ok m /\ 1 <= m /\ q <= pos1 + m - 1.
Proof.
  intros e b l pos1 q R A H1 H2 HM Hmem H3 H4.
  destruct (Nat.eq_dec pos1 (length l)) as [E|NE].
  { destruct (dnext_past e b l pos1 R E H1 HM Hmem) as (m & EM & G). exists m. repeat split; auto. lia. }
  rewrite (dnext1_spec e b l pos1 R ltac:(lia) A). eexists. split; [reflexivity|].
  pose proof (num_words_bounds (length l)) as NB.
  destruct (Nat.eqb_spec (cnt (skipn pos1 l)) 0) as [Z|Z].
  - unfold next_end. destruct (_ =? _); lia.
  - destruct (first_true_spec _ Z) as (F1 & F2 & _). rewrite skipn_length in F1. rewrite nth_skipn' in F2.
    destruct (le_lt_dec q (pos1 + first_true (skipn pos1 l))) as [G|G]; [lia|].
    rewrite H4 in F2 by lia. discriminate.
Qed.

Lemma prev_bit : forall e b l pos q, repr b l -> pos <= length l -> q < pos -> nth q l false = true ->
  (forall x, q < x -> x < pos -> nth x l false = false) -> distanceToPrevSetBit e b pos = Ok (pos - q).
Proof.
  intros e b l pos q R H1 H2 H3 H4. rewrite (dprev_spec e b l pos R H1).
  replace (pos =? 0) with false by lia. f_equal.
  assert (LF : length (firstn pos l) = pos) by (rewrite firstn_length; lia).
  assert (F : first_true (rev (firstn pos l)) = pos - 1 - q); [|lia].
  apply first_true_unique.
  - rewrite rev_length. lia.
  - rewrite rev_nth by lia. rewrite LF, nth_firstn' by lia. replace (pos - S (pos - 1 - q)) with q by lia. auto.
  - intros i Hi. rewrite rev_nth by lia. rewrite LF, nth_firstn' by lia. apply H4; lia.
Qed.

Lemma prev_none : forall e b l pos, repr b l -> pos <= length l ->
  (forall x, x < pos -> nth x l false = false) -> exists m, distanceToPrevSetBit e b pos = Ok m /\ pos <= m.
Proof.
  intros e b l pos R H1 H4. rewrite (dprev_spec e b l pos R H1). eexists. split; [reflexivity|].
  destruct (Nat.eqb_spec pos 0); [lia|]. rewrite first_true_none.
  - rewrite rev_length, firstn_length. lia.
  - apply cnt_zero_nth. intros i. destruct (le_lt_dec pos i) as [G|G].
    + apply nth_overflow. rewrite rev_length, firstn_length. lia.
    + assert (LF : length (firstn pos l) = pos) by (rewrite firstn_length; lia).
      rewrite rev_nth by lia. rewrite LF, nth_firstn' by lia. apply H4. lia.
Qed.

(** a set bit below [q] is found below [q] *)
Lemma prev_some : forall e b l pos x0, repr b l -> pos <= length l -> x0 < pos -> nth x0 l false = true ->
  exists m, distanceToPrevSetBit e b pos = Ok m /\ 1 <= m /\ m <= pos - x0 /\ nth (pos - m) l false = true.
Proof.
  intros e b l pos x0 R H1 H2 H3. rewrite (dprev_spec e b l pos R H1). eexists. split; [reflexivity|].
  replace (pos =? 0) with false by lia.
  assert (LF : length (firstn pos l) = pos) by (rewrite firstn_length; lia).
  assert (Z : cnt (rev (firstn pos l)) <> 0).
  { intros Z. pose proof (proj1 (cnt_zero_nth _) Z (pos - 1 - x0)) as Y. rewrite rev_nth in Y by lia.
    rewrite LF, nth_firstn' in Y by lia. replace (pos - S (pos - 1 - x0)) with x0 in Y by lia. congruence. }
  destruct (first_true_spec _ Z) as (F1 & F2 & F3). rewrite rev_length, LF in F1.
  rewrite rev_nth in F2 by lia. rewrite LF, nth_firstn' in F2 by lia.
  assert (G : first_true (rev (firstn pos l)) <= pos - 1 - x0).
  { destruct (le_lt_dec (first_true (rev (firstn pos l))) (pos - 1 - x0)) as [G|G]; auto.
    specialize (F3 _ G). rewrite rev_nth in F3 by lia. rewrite LF, nth_firstn' in F3 by lia.
    replace (pos - S (pos - 1 - x0)) with x0 in F3 by lia. congruence. }
  split; [lia|]. split; [lia|]. rewrite <- F2; f_equal; lia.
Qed.

Section DenseIter.
Variables (c : config) (K : list bytes).
Notation kk := (kk K). Notation lo := (lo K). Notation hi := (hi K). Notation leafl := (leafl K).
Notation item := (item K). Notation child := (child K). Notation louds := (louds K).
Notation leaf := (leaf K). Notation lab := (lab K). Notation term := (term K). Notation anc := (anc K).
Notation items := (items K). Notation nds := (nds K). Notation height := (height K).
Notation nit := (nit K). Notation NN := (NN K). Notation same_node := (same_node K).
Notation dp := (dp K).
Let n := length K.
Hypothesis HS : StronglySorted klt K.
Hypothesis HB : Forall is_bytes K.
Hypothesis HE : Forall (fun k => k <> []) K.
Hypothesis HNE : length K <> 0.
Hypothesis HFF : no_lone_ff K.
Variables (st : nat) (d : dense) (e : env).
Hypothesis Hst1 : 1 <= st.
Hypothesis HD : dense_ok c K st d.
Hypothesis Hmem : strict_mem e = false.

Notation LB := (cc (dlab K) 0 st).

Lemma lab_repr : repr (rk_bv (d_labels d)) LB.
Proof. destruct HD as [_ [R _] _ _ _ _]. exact R. Qed.

Lemma LB_len : length LB = 256 * sm nds st.
Proof. apply len_dlab; auto. Qed.

Lemma LB_true : forall l j i, l < st -> louds l j = true -> j <= i -> item l i = true -> same_node l j i ->
  term l i = false -> nth (dp l j (lab l i)) LB false = true.
Proof.
  intros l j i Hl HL A B C D. pose proof (readLabel_true c K HS HB HE HNE HFF st d e Hst1 HD l j i Hl HL A B C D) as Q.
  unfold d_readLabel in Q. rewrite (readBit_spec e _ _ _ lab_repr) in Q; [congruence|].
  rewrite LB_len. apply dp_lt; auto. apply (lab_byte K HB HNE).
Qed.

Lemma LB_inv : forall l j b, l < st -> louds l j = true -> b < 256 -> nth (dp l j b) LB false = true ->
  exists i, j <= i /\ item l i = true /\ same_node l j i /\ term l i = false /\ lab l i = b.
Proof.
  intros l j b Hl HL Hb H. rewrite (dlab_nth K HS HB HE HNE HFF st Hst1) in H by auto.
  apply existsb_seq in H. destruct H as (i & Hi & E). apply andb_prop in E. destruct E as [E1 E2].
  apply Nat.eqb_eq in E2. apply (in_node K HB HNE st Hst1) in E2; auto. apply nonterm_spec in E1.
  destruct E2 as (A & B & C). destruct E1. exists i. auto.
Qed.

Lemma dp_div' : forall l j b p, dp l j b <= p -> p < dp l j 256 -> b < 256 -> exists b', b <= b' /\ b' < 256 /\ p = dp l j b'.
Proof. intros l j b p H1 H2 Hb. exists (p - dp l j 0). unfold DenseFacts.dp in *. lia. Qed.

Lemma mult64 : length LB mod 64 = 0.
Proof. rewrite LB_len. replace (256 * sm nds st) with (4 * sm nds st * 64) by lia. apply Nat.mod_mul. lia. Qed.

Lemma dp_256 : forall l j, l < st -> louds l j = true -> dp l j 256 <= length LB.
Proof.
  intros l j Hl HL. rewrite LB_len. pose proof (node_lt K HNE st Hst1 l j Hl HL) as Q. unfold DenseFacts.dp. lia.
Qed.

Lemma d_next_in : forall l j b1 i, l < st -> louds l j = true -> asserts e = false \/ 1 <= dp l j b1 ->
  j <= i -> item l i = true -> same_node l j i -> term l i = false -> b1 <= lab l i ->
  (forall x, j <= x -> item l x = true -> same_node l j x -> term l x = false -> b1 <= lab l x -> lab l i <= lab l x) ->
  d_getNextPos1 e d (dp l j b1) = Ok (dp l j (lab l i)).
Proof.
  intros l j b1 i Hl HL A H1 H2 H3 H4 H5 H6. pose proof (lab_byte K HB HNE l i) as BY.
  unfold d_getNextPos1. pose proof (dp_256 l j Hl HL) as E2.
  rewrite (next_bit e _ _ (dp l j b1) (dp l j (lab l i)) lab_repr); auto.
  - cbn [bind]. f_equal. unfold DenseFacts.dp. lia.
  - unfold DenseFacts.dp. lia.
  - unfold DenseFacts.dp in *. lia.
  - apply LB_true; auto.
  - intros x X1 X2. destruct (nth x LB false) eqn:EX; auto. exfalso.
    destruct (dp_div' l j b1 x X1 ltac:(unfold DenseFacts.dp in *; lia) ltac:(lia)) as (b' & B1 & B2 & ->).
    destruct (LB_inv l j b' Hl HL B2 EX) as (y & Y1 & Y2 & Y3 & Y4 & Y5).
    specialize (H6 y Y1 Y2 Y3 Y4 ltac:(lia)). unfold DenseFacts.dp in X2. lia.
Qed.

Lemma d_next_out : forall l j b1, l < st -> louds l j = true -> 1 <= b1 -> b1 <= 256 ->
  (forall x, j <= x -> item l x = true -> same_node l j x -> term l x = false -> lab l x < b1) ->
  exists p, d_getNextPos1 e d (dp l j b1) = Ok p /\ NN l j < p / kNodeFanout.
Proof.
  intros l j b1 Hl HL H1 H2 H3. unfold d_getNextPos1. pose proof (dp_256 l j Hl HL) as E2.
  destruct (next_none e _ _ (dp l j b1) (dp l j 256) lab_repr) as (m & EM & G1 & G2).
  - right. unfold DenseFacts.dp. lia.
  - unfold DenseFacts.dp. lia.
  - unfold DenseFacts.dp in *. lia.
  - apply mult64.
  - auto.
  - auto.
  - intros x X1 X2. destruct (nth x LB false) eqn:EX; auto. exfalso.
    destruct (Nat.eq_dec b1 256) as [->|NB]; [lia|].
    destruct (dp_div' l j b1 x X1 X2 ltac:(lia)) as (b' & B1 & B2 & ->).
    destruct (LB_inv l j b' Hl HL B2 EX) as (y & Y1 & Y2 & Y3 & Y4 & Y5).
    specialize (H3 y Y1 Y2 Y3 Y4). lia.
  - rewrite EM. cbn [bind]. eexists. split; [reflexivity|].
    apply Nat.div_le_lower_bound; unfold kNodeFanout, DenseFacts.dp in *; lia.
Qed.

Lemma d_prev_in : forall l j b i, l < st -> louds l j = true -> b <= 256 ->
  j <= i -> item l i = true -> same_node l j i -> term l i = false -> lab l i < b ->
  (forall x, j <= x -> item l x = true -> same_node l j x -> term l x = false -> lab l x < b -> lab l x <= lab l i) ->
  d_getPrevPos e d (dp l j b) = Ok (if dp l j (lab l i) =? 0 then None else Some (dp l j (lab l i))).
Proof.
  intros l j b i Hl HL Hb H1 H2 H3 H4 H5 H6. pose proof (lab_byte K HB HNE l i) as BY.
  unfold d_getPrevPos. pose proof (dp_256 l j Hl HL) as E2.
  rewrite (prev_bit e _ _ (dp l j b) (dp l j (lab l i)) lab_repr).
  - cbn [bind]. unfold DenseFacts.dp in *.
    destruct (Nat.eqb_spec (256 * NN l j + lab l i) 0) as [Z|Z].
    + replace (_ <=? _) with true by lia. reflexivity.
    + replace (_ <=? _) with false by lia. do 2 f_equal. lia.
  - unfold DenseFacts.dp in *. lia.
  - unfold DenseFacts.dp in *. lia.
  - apply LB_true; auto.
  - intros x X1 X2. destruct (nth x LB false) eqn:EX; auto. exfalso.
    destruct (dp_div' l j (S (lab l i)) x ltac:(unfold DenseFacts.dp in *; lia) ltac:(unfold DenseFacts.dp in *; lia)
      ltac:(unfold DenseFacts.dp in *; lia)) as (b' & B1 & B2 & ->).
    destruct (LB_inv l j b' Hl HL B2 EX) as (y & Y1 & Y2 & Y3 & Y4 & Y5).
    specialize (H6 y Y1 Y2 Y3 Y4 ltac:(unfold DenseFacts.dp in X2; lia)). lia.
Qed.

(** nothing before the root *)
Lemma d_prev_root : forall b, b <= 256 ->
  (forall x, item 0 x = true -> term 0 x = false -> lab 0 x < b -> False) ->
  d_getPrevPos e d (dp 0 0 b) = Ok None.
Proof.
  intros b Hb H. pose proof (louds_root K HNE) as HL. unfold d_getPrevPos. pose proof (dp_256 0 0 ltac:(lia) HL) as E2.
  assert (Z : dp 0 0 0 = 0).
  { unfold DenseFacts.dp, SparseFacts.NN. cbn [sm cn]. rewrite HL. reflexivity. }
  destruct (prev_none e _ _ (dp 0 0 b) lab_repr) as (m & EM & G).
  - unfold DenseFacts.dp in *. lia.
  - intros x Hx. destruct (nth x LB false) eqn:EX; auto. exfalso.
    destruct (dp_div' 0 0 0 x ltac:(lia) ltac:(unfold DenseFacts.dp in *; lia) ltac:(lia)) as (b' & B1 & B2 & ->).
    destruct (LB_inv 0 0 b' ltac:(lia) HL B2 EX) as (y & Y1 & Y2 & Y3 & Y4 & Y5).
    apply (H y Y2 Y4). unfold DenseFacts.dp in Hx. lia.
  - rewrite EM. cbn [bind]. replace (_ <=? _) with true by lia. reflexivity.
Qed.

(** some key does not start with byte 0 *)
Definition not_all_zero : Prop := exists x, item 0 x = true /\ lab 0 x <> 0.

Lemma term0 : forall x, item 0 x = true -> term 0 x = false.
Proof.
  intros x H. destruct (term 0 x) eqn:E; auto. destruct (term_first K HS HE 0 x H E) as (_ & _ & _ & A). lia.
Qed.

(** a set label bit other than the first one, before the nodes of level [l] *)
Lemma early_bit : forall l j, l < st -> louds l j = true -> 1 <= l -> not_all_zero \/ 2 <= l ->
  exists q, 0 < q /\ q < dp l j 0 /\ nth q LB false = true.
Proof.
  intros l j Hl HL H1 [(x0 & X1 & X2)|H2].
  - pose proof (louds_root K HNE) as HR. pose proof (lab_byte K HB HNE 0 x0) as BY.
    pose proof (NN_pos K l j HNE (louds_item K l j HL) H1) as NP.
    assert (SN : same_node 0 0 x0) by (intros m Hm; apply louds_root_only; lia).
    pose proof (LB_true 0 0 x0 ltac:(lia) HR ltac:(lia) X1 SN (term0 x0 X1)) as T0.
    assert (Z : dp 0 0 (lab 0 x0) = lab 0 x0).
    { unfold DenseFacts.dp, SparseFacts.NN. cbn [sm cn]. rewrite HR. reflexivity. }
    rewrite Z in T0. exists (lab 0 x0). unfold DenseFacts.dp. split; [lia|]. split; [lia|auto].
  - destruct l as [|l]; [lia|]. pose proof HL as HC. rewrite <- child_louds in HC.
    pose proof (child_item K l j HC) as HI. destruct (node_start K l j HI) as (j0 & A & B & C).
    pose proof (child_not_term K HS HE l j HC) as NT.
    pose proof (LB_true l j0 j ltac:(lia) B A HI C NT) as T0.
    pose proof (NN_pos K l j0 HNE (louds_item K l j0 B) ltac:(lia)) as NP.
    pose proof (lab_byte K HB HNE l j) as BY. pose proof (item_lt K l j HI) as HJ.
    assert (G : NN l j0 < NN (S l) j).
    { unfold SparseFacts.NN. cbn [sm]. pose proof (louds_before K HNE l j0 (louds_item K l j0 B)) as L1.
      pose proof (cn_mono (louds l) (S j0) (length K) ltac:(lia)) as M.
      assert (ND : nds l = cn (louds l) (length K)) by reflexivity. rewrite ND. generalize dependent (sm nds l). intros. lia. }
    exists (dp l j0 (lab l j)). unfold DenseFacts.dp in *. split; [lia|]. split; [lia|auto].
Qed.

Lemma d_prev_out : forall l j b, l < st -> louds l j = true -> 1 <= l -> b <= 256 -> not_all_zero \/ 2 <= l ->
  (forall x, j <= x -> item l x = true -> same_node l j x -> term l x = false -> lab l x < b -> False) ->
  exists p, d_getPrevPos e d (dp l j b) = Ok (Some p) /\ p / kNodeFanout < NN l j.
Proof.
  intros l j b Hl HL H1 Hb HZ H. unfold d_getPrevPos. pose proof (dp_256 l j Hl HL) as E2.
  destruct (early_bit l j Hl HL H1 HZ) as (q & Q1 & Q2 & Q3).
  destruct (prev_some e _ _ (dp l j b) q lab_repr) as (m & EM & G1 & G2 & G3); auto.
  - unfold DenseFacts.dp in *. lia.
  - unfold DenseFacts.dp in *. lia.
  - rewrite EM. cbn [bind]. replace (dp l j b <=? m) with false by (unfold DenseFacts.dp in *; lia). eexists. split; [reflexivity|].
    apply Nat.div_lt_upper_bound; [unfold kNodeFanout; lia|]. unfold kNodeFanout.
    destruct (le_lt_dec (dp l j 0) (dp l j b - m)) as [G|G]; [|unfold DenseFacts.dp in *; lia]. exfalso.
    destruct (dp_div' l j 0 (dp l j b - m) G ltac:(unfold DenseFacts.dp in *; lia) ltac:(lia)) as (b' & B1 & B2 & B3).
    rewrite B3 in G3. destruct (LB_inv l j b' Hl HL B2 G3) as (y & Y1 & Y2 & Y3 & Y4 & Y5).
    apply (H y Y1 Y2 Y3 Y4). unfold DenseFacts.dp in *. lia.
Qed.

(** every key starts with byte 0: the root has one label, at position 0 *)
Definition all_zero : Prop := forall x, item 0 x = true -> lab 0 x = 0.

Lemma all_zero_first : all_zero -> forall j, item 0 j = true -> j = 0.
Proof.
  intros HZ j HI. destruct (Nat.eq_dec j 0) as [|NE]; auto. exfalso.
  assert (I0 : item 0 0 = true) by (apply (louds_item K), (louds_root K HNE)).
  assert (SN : same_node 0 0 j) by (intros m Hm; apply louds_root_only; lia).
  pose proof (node_lab_lt K HS HE 0 0 j ltac:(lia) HI SN (term0 0 I0)) as Q. rewrite (HZ 0 I0), (HZ j HI) in Q. lia.
Qed.

Lemma d_prev_z : forall j b, 1 < st -> louds 1 j = true -> b <= 256 -> all_zero ->
  (forall x, j <= x -> item 1 x = true -> same_node 1 j x -> term 1 x = false -> lab 1 x < b -> False) ->
  d_getPrevPos e d (dp 1 j b) = Ok None.
Proof.
  intros j b Hl HL Hb HZ H. unfold d_getPrevPos. pose proof (dp_256 1 j Hl HL) as E2.
  assert (J0 : j = 0). { apply (all_zero_first HZ). apply (child_item K). rewrite child_louds. auto. }
  subst j. pose proof (louds_root K HNE) as HR.
  assert (Z : forall x, dp 0 0 x = x).
  { intros x. unfold DenseFacts.dp, SparseFacts.NN. cbn [sm cn]. rewrite HR. reflexivity. }
  assert (N1 : NN 1 0 = 1).
  { unfold SparseFacts.NN. cbn [sm cn]. rewrite HL. pose proof (cn_louds_root K HNE) as R.
    change (cn (louds 0) (length K)) with (nds 0) in R. cbn [Nat.b2n]. lia. }
  assert (I0 : item 0 0 = true) by (apply (louds_item K); auto).
  rewrite (prev_bit e _ _ (dp 1 0 b) 0 lab_repr).
  - cbn [bind]. replace (dp 1 0 b <=? dp 1 0 b - 0) with true by lia. reflexivity.
  - unfold DenseFacts.dp in *. lia.
  - unfold DenseFacts.dp. lia.
  - pose proof (LB_true 0 0 0 ltac:(lia) HR ltac:(lia) I0 ltac:(intros m Hm; lia) (term0 0 I0)) as T0.
    rewrite Z, (HZ 0 I0) in T0. exact T0.
  - intros x X1 X2. destruct (nth x LB false) eqn:EX; auto. exfalso.
    destruct (le_lt_dec 256 x) as [G|G].
    + assert (D1 : dp 1 0 0 = 256) by (unfold DenseFacts.dp; lia).
      destruct (dp_div' 1 0 0 x ltac:(lia) ltac:(unfold DenseFacts.dp in *; lia) ltac:(lia)) as (b' & B1 & B2 & B3).
      rewrite B3 in EX. destruct (LB_inv 1 0 b' Hl HL B2 EX) as (y & Y1 & Y2 & Y3 & Y4 & Y5).
      apply (H y Y1 Y2 Y3 Y4). unfold DenseFacts.dp in *. lia.
    + rewrite <- (Z x) in EX. destruct (LB_inv 0 0 x ltac:(lia) HR G EX) as (y & Y1 & Y2 & Y3 & Y4 & Y5).
      rewrite (HZ y Y2) in Y5. lia.
Qed.
End DenseIter.
