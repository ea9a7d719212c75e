(** Positions in the sparse part. *)
From Coq Require Import Arith List NArith ZArith Bool Lia ZifyN ZifyNat ZifyBool Sorting.Sorted.
From Verif Require Import Res Word Config BitFacts WordFacts Bitvector BitvectorFacts Rank Select
  RankSelectFacts LabelVector LabelFacts Suffix Spec SuffixFacts Builder KeyFacts Trie BuilderFacts
  DenseBuild StructFacts NodeFacts Dense Sparse.
Import ListNotations.

Lemma list_firstn_skipn_cnt : forall l p, cnt (skipn p l) = cnt l - cnt (firstn p l).
Proof. intros. rewrite <- (firstn_skipn p l) at 2. rewrite cnt_app. lia. Qed.

Lemma num_words_le : forall m, m <= 64 * num_words m < m + 64.
Proof. intros m. pose proof (num_words_bounds m). lia. Qed.

Lemma pos32_small : forall a b, b <= a -> (N.of_nat a < 4294967296)%N -> pos32 (Z.of_nat a - Z.of_nat b) = N.of_nat (a - b).
Proof.
  intros a b H1 H2. unfold pos32. rewrite Z.mod_small by lia. lia.
Qed.

Section Num.
Variable K : list bytes.
Notation item := (item K). Notation louds := (louds K). Notation child := (child K). Notation leaf := (leaf K).
Let n := length K.

Definition nit (l : nat) : nat := cn (item l) n.
(** number of the node of an item, counted over all levels *)
Definition NN (l i : nat) : nat := sm (nds K) l + (cn (louds l) (S i) - 1).

Lemma nit_items : forall l, length (items K l) = nit l.
Proof. intros. apply cn_filter. Qed.

Lemma cn_split_leaf : forall l m, cn (item l) m = cn (child l) m + cn (leaf l) m.
Proof.
  intros l. induction m as [|m IH]; cbn [cn]; [reflexivity|]. rewrite IH.
  unfold Trie.child, Trie.leaf. destruct (item l m); cbn [andb]; [|lia]. destruct (l <? hi K m); cbn [negb]; lia.
Qed.

Lemma nds_child : forall l, nds K (S l) = cn (child l) n.
Proof. intros l. unfold nds. apply cn_ext. intros x _. symmetry. apply child_louds. Qed.

Lemma cn_child_louds : forall l i, cn (child l) i = cn (louds (S l)) i.
Proof. intros l i. apply cn_ext. intros x _. apply child_louds. Qed.

Lemma sm_child : forall l, sm (fun l => cn (child l) n) l + nds K 0 = sm (nds K) (S l).
Proof.
  induction l as [|l IH]; cbn [sm]; [lia|]. cbn [sm] in IH. rewrite nds_child. lia.
Qed.
End Num.

Section Sparse.
(** The sparse levels start below the root, or the root has more than one key
    below it. *)
Class wide (K : list bytes) (lb : nat) : Prop := wide_or : 1 <= lb \/ 2 <= length K.
#[export] Instance wide_1 : forall K, wide K 1.
Proof. intros K. left. auto. Qed.
Lemma wide_level : forall K {lb} {H : wide K lb} st l, lb <= st -> st <= l -> 1 <= l \/ 2 <= length K.
Proof. intros K lb [H|H] st l A B; [left; lia|right; auto]. Qed.

Variables (c : config) (K : list bytes).
Notation kk := (kk K). Notation lo := (lo K). Notation hi := (hi K). Notation leafl := (leafl K).
Notation item := (item K). Notation child := (child K). Notation louds := (louds K).
Notation leaf := (leaf K). Notation lab := (lab K). Notation term := (term K). Notation anc := (anc K).
Notation items := (items K). Notation nds := (nds K). Notation height := (height K).
Notation nit := (nit K). Notation NN := (NN K). Notation same_node := (same_node K).
Let n := length K.
Hypothesis HS : StronglySorted klt K.
Hypothesis HB : Forall is_bytes K.
Hypothesis HE : Forall (fun k => k <> []) K.
Hypothesis HNE : length K <> 0.
Variables (st : nat) (s : sparse) (e : env).
Context {lb : nat} {Hlb : wide K lb}.
Hypothesis Hst1 : lb <= st.
Hypothesis Hst2 : S st <= height.
Hypothesis HK : sparse_ok c K st s.

Lemma item_lt : forall l i, item l i = true -> i < n.
Proof. intros l i H. apply item_spec in H. apply H. Qed.

Lemma item_height : forall l i, item l i = true -> S l < height.
Proof.
  intros l i H. pose proof (item_lt _ _ H) as Hi. pose proof (LEN_leafl K n i Hi) as Q.
  apply item_spec in H. unfold StructFacts.height. fold n. unfold Trie.leafl in Q. lia.
Qed.

Definition soff (l : nat) : nat := sm nit l - sm nit st.
Definition spos (l i : nat) : nat := soff l + cn (item l) i.
Definition slen : nat := soff height.

Lemma off_eq : forall (A : Type) (lev : nat -> list A) l, (forall l, length (lev l) = nit l) -> off lev st l = soff l.
Proof.
  intros A lev l H. unfold off, soff. rewrite !(sm_ext (fun l => length (lev l)) nit) by auto. reflexivity.
Qed.

Lemma slabs_n : forall l, length (slabs K l) = nit l.
Proof. intros. unfold slabs. rewrite map_length. apply nit_items. Qed.
Lemma schild_n : forall l, length (schild K l) = nit l.
Proof. intros. unfold schild. rewrite map_length. apply nit_items. Qed.
Lemma slouds_n : forall l, length (slouds K l) = nit l.
Proof. intros. unfold slouds. rewrite map_length. apply nit_items. Qed.

Lemma cc_len : forall (A : Type) (lev : nat -> list A), st <= height -> (forall l, length (lev l) = nit l) ->
  length (cc lev st height) = slen.
Proof.
  intros A lev Hh H. rewrite cc_length by auto. unfold slen, soff.
  rewrite !(sm_ext (fun l => length (lev l)) nit) by auto. reflexivity.
Qed.

Lemma cn_item_lt : forall l i, item l i = true -> cn (item l) i < nit l.
Proof. intros l i H. unfold SparseFacts.nit. apply cn_lt; auto. apply item_lt in H. auto. Qed.

Lemma nth_items : forall (A : Type) (f : nat -> A) l i d, item l i = true ->
  nth (cn (item l) i) (map f (items l)) d = f i.
Proof.
  intros A f l i d H. rewrite nth_indep with (d' := f 0).
  - rewrite map_nth. f_equal. apply nth_filter_seq; auto. apply item_lt in H. auto.
  - rewrite map_length, nit_items. apply cn_item_lt. auto.
Qed.

Lemma spos_lt : forall l i, st <= l -> item l i = true -> spos l i < slen.
Proof.
  intros l i Hl H. pose proof (item_height _ _ H). pose proof (cn_item_lt _ _ H).
  unfold spos, slen, soff. pose proof (sm_mono nit (S l) height ltac:(lia)) as Q. cbn [sm] in Q.
  pose proof (sm_mono nit st l Hl). lia.
Qed.

Lemma nth_cc_item : forall (A : Type) (f : nat -> nat -> A) l i d, st <= l -> item l i = true ->
  nth (spos l i) (cc (fun l => map (f l) (items l)) st height) d = f l i.
Proof.
  intros A f l i d Hl H. pose proof (item_height _ _ H).
  assert (LL : forall l, length (map (f l) (items l)) = nit l) by (intros; rewrite map_length; apply nit_items).
  unfold spos. rewrite <- (off_eq _ (fun l => map (f l) (items l))) by auto.
  rewrite (cc_nth (fun l => map (f l) (items l))); auto; try lia.
  - apply nth_items. auto.
  - rewrite LL. apply cn_item_lt. auto.
Qed.

Lemma cnt_cc_item : forall (f : nat -> nat -> bool) l i, st <= l -> l < height -> i <= n ->
  cnt (firstn (soff l + cn (item l) i) (cc (fun l => map (f l) (items l)) st height)) =
  sm (fun l => cn (fun x => item l x && f l x) n) l - sm (fun l => cn (fun x => item l x && f l x) n) st
  + cn (fun x => item l x && f l x) i.
Proof.
  intros f l i Hl Hh Hi.
  assert (LL : forall l, length (map (f l) (items l)) = nit l) by (intros; rewrite map_length; apply nit_items).
  rewrite <- (off_eq _ (fun l => map (f l) (items l))) by auto.
  rewrite (cc_cnt_firstn (fun l => map (f l) (items l))); auto; try lia.
  - assert (E : forall l, cnt (map (f l) (items l)) = cn (fun x => item l x && f l x) n).
    { intros l'. pose proof (cnt_filter_seq (item l') (f l') n n ltac:(lia)) as Q.
      rewrite firstn_all2 in Q by (rewrite map_length, cn_filter; lia). exact Q. }
    rewrite !(sm_ext (fun l => cnt (map (f l) (items l))) (fun l => cn (fun x => item l x && f l x) n)) by auto.
    f_equal. apply cnt_filter_seq. auto.
  - rewrite LL. apply cn_mono. auto.
Qed.

(** ** the elementary reads *)
Lemma spos_S : forall l i, item l i = true -> S (spos l i) = soff l + cn (item l) (S i).
Proof. intros l i H. unfold spos. cbn [cn]. rewrite H. lia. Qed.

Lemma spos_inv : forall p, p < slen -> exists l i, st <= l /\ item l i = true /\ p = spos l i.
Proof.
  intros p Hp. pose proof (cc_len _ (slabs K) ltac:(lia) slabs_n) as Q.
  destruct (cc_inv (slabs K) st height p ltac:(lia) ltac:(lia)) as (l & k & A & B & C).
  rewrite slabs_n in B. destruct (filter_seq_nth (item l) n k B) as (i & D & E & F).
  exists l, i. split; [lia|]. split; auto. rewrite C, (off_eq _ _ _ slabs_n). unfold spos. lia.
Qed.

(** positions are ordered by level, then by key *)
Lemma spos_level : forall l i l', st <= l -> item l i = true -> l < l' -> spos l i < soff l'.
Proof.
  intros l i l' Hl H HL. pose proof (cn_item_lt _ _ H). unfold spos, soff.
  pose proof (sm_mono nit (S l) l' HL) as Q. cbn [sm] in Q. pose proof (sm_mono nit st l Hl). lia.
Qed.

Lemma spos_mono : forall l i i', item l i = true -> i < i' -> spos l i < spos l i'.
Proof. intros l i i' H HI. unfold spos. pose proof (cn_lt (item l) i i' H HI). lia. Qed.

Lemma spos_inj : forall l i l' i', st <= l -> st <= l' -> item l i = true -> item l' i' = true ->
  spos l i = spos l' i' -> l = l' /\ i = i'.
Proof.
  intros l i l' i' H1 H2 A B E.
  destruct (lt_eq_lt_dec l l') as [[L|L]|L].
  - pose proof (spos_level l i l' H1 A L). unfold spos in *. lia.
  - subst l'. split; auto. destruct (lt_eq_lt_dec i i') as [[G|G]|G]; auto.
    + pose proof (spos_mono l i i' A G). lia.
    + pose proof (spos_mono l i' i B G). lia.
  - pose proof (spos_level l' i' l H2 B L). unfold spos in *. lia.
Qed.

Lemma s_lab_read : forall l i, st <= l -> item l i = true -> lv_read e (s_labels s) (spos l i) = Ok (lab l i).
Proof.
  intros l i Hl H. pose proof (spos_lt l i Hl H) as HP. unfold lv_read.
  pose proof (cc_len _ (slabs K) ltac:(lia) slabs_n) as Q.
  destruct HK as [_ _ _ _ HL _ HR _ _ _ _ _ _]. rewrite Q in HR.
  replace (N.of_nat (spos l i) <? lv_alloc (s_labels s))%N with true by lia.
  rewrite HL, app_nth1 by lia. f_equal. apply (nth_cc_item _ (fun l => lab l)); auto.
Qed.

Lemma s_child_read : forall l i, st <= l -> item l i = true -> s_readChild e s (spos l i) = Ok (child l i).
Proof.
  intros l i Hl H. unfold s_readChild. destruct HK as [_ _ _ _ _ _ _ _ [R _] _ _ _ _].
  rewrite (readBit_spec e _ _ _ R).
  - f_equal. apply (nth_cc_item _ (fun l => child l)); auto.
  - rewrite (cc_len _ (schild K)) by (auto using schild_n; lia). apply spos_lt; auto.
Qed.

Lemma s_louds_read : forall l i, st <= l -> item l i = true -> s_readLouds e s (spos l i) = Ok (louds l i).
Proof.
  intros l i Hl H. unfold s_readLouds. destruct HK as [_ _ _ _ _ _ _ _ _ [R _] _ _ _].
  rewrite (readBit_spec e _ _ _ R).
  - f_equal. apply (nth_cc_item _ (fun l => louds l)); auto.
  - rewrite (cc_len _ (slouds K)) by (auto using slouds_n; lia). apply spos_lt; auto.
Qed.

Lemma s_numBits_eq : s_numBits s = slen.
Proof.
  unfold s_numBits. destruct HK as [_ _ _ _ _ _ _ _ _ [[R _] _] _ _ _]. rewrite R.
  apply cc_len; [lia|apply slouds_n].
Qed.

Lemma ic : forall l x, item l x && child l x = child l x.
Proof. intros l x. destruct (child l x) eqn:E; [rewrite (child_item K l x E); reflexivity|apply andb_false_r]. Qed.
Lemma il : forall l x, item l x && louds l x = louds l x.
Proof. intros l x. destruct (louds l x) eqn:E; [rewrite (louds_item K l x E); reflexivity|apply andb_false_r]. Qed.

Lemma s_child_rank : forall l i, st <= l -> item l i = true ->
  rank e (s_child s) (spos l i) =
  Ok (sm nds (S l) - sm nds (S st) + cn (child l) (S i)).
Proof.
  intros l i Hl H. pose proof (item_height _ _ H) as HH. pose proof (item_lt _ _ H) as Hi.
  destruct HK as [_ _ _ _ _ _ _ _ R _ _ _ _]. rewrite (rank_spec e _ _ _ R).
  2:{ rewrite (cc_len _ (schild K)) by (auto using schild_n; lia). apply spos_lt; auto. }
  f_equal. rewrite spos_S by auto. unfold schild.
  rewrite (cnt_cc_item (fun l => child l)) by (auto; lia).
  rewrite !(sm_ext (fun l => cn (fun x => item l x && child l x) n) (fun l => cn (child l) n))
    by (intros; apply cn_ext; intros; apply ic).
  rewrite (cn_ext (fun x => item l x && child l x) (child l)) by (intros; apply ic).
  pose proof (sm_child K l) as A. pose proof (sm_child K st) as B. fold n in A, B. lia.
Qed.

Lemma nds_root : nds 0 = 1.
Proof. apply cn_louds_root. auto. Qed.

Lemma sm_nds_pos : forall l, 1 <= sm nds (S l).
Proof. intros l. pose proof (sm_mono nds 1 (S l) ltac:(lia)) as Q. cbn [sm] in *. pose proof nds_root. lia. Qed.

Lemma s_child_node : forall l i, st <= l -> child l i = true ->
  s_getChildNodeNum e s (spos l i) = Ok (NN (S l) i).
Proof.
  intros l i Hl H. unfold s_getChildNodeNum. rewrite s_child_rank by (auto using child_item). cbn [bind].
  destruct HK as [_ _ _ Hcc _ _ _ _ _ _ _ _ _]. rewrite Hcc. f_equal. unfold SparseFacts.NN.
  pose proof (sm_mono nds (S st) (S l) ltac:(lia)). pose proof (sm_nds_pos st).
  rewrite (cn_child_louds K l (S i)).
  assert (1 <= cn (louds (S l)) (S i)) by (cbn [cn]; rewrite <- child_louds, H; lia). lia.
Qed.

Lemma s_louds_cnt : forall l i, st <= l -> l < height -> i <= n ->
  cnt (firstn (soff l + cn (item l) i) (cc (slouds K) st height)) = sm nds l - sm nds st + cn (louds l) i.
Proof.
  intros l i Hl HH Hi. unfold slouds. rewrite (cnt_cc_item (fun l => louds l)) by auto.
  rewrite !(sm_ext (fun l => cn (fun x => item l x && louds l x) n) nds)
    by (intros; unfold DenseBuild.nds; fold n; apply cn_ext; intros; apply il).
  rewrite (cn_ext (fun x => item l x && louds l x) (louds l)) by (intros; apply il). reflexivity.
Qed.

Lemma s_louds_total : cnt (cc (slouds K) st height) = sm nds height - sm nds st.
Proof.
  rewrite cc_cnt by lia. rewrite !(sm_ext (fun l => cnt (slouds K l)) nds) by (intros; apply nds_eq). reflexivity.
Qed.

Lemma s_first_louds : 0 < slen -> nth 0 (cc (slouds K) st height) false = true.
Proof.
  intros H. destruct (spos_inv 0 H) as (l & i & Hl & Hi & E). rewrite E. unfold slouds.
  rewrite (nth_cc_item _ (fun l => louds l)) by auto.
  apply first_item_louds; auto. unfold spos in E. lia.
Qed.

Lemma NN_ge : forall l j, st <= l -> sm nds st <= NN l j.
Proof. intros l j Hl. unfold SparseFacts.NN. pose proof (sm_mono nds st l Hl). lia. Qed.

Lemma s_first_pos : forall l j, st <= l -> louds l j = true ->
  s_getFirstLabelPos e s (NN l j) = Ok (spos l j).
Proof.
  intros l j Hl H. pose proof (louds_item K l j H) as HI. pose proof (item_height _ _ HI) as HH.
  pose proof (item_lt _ _ HI) as Hj. pose proof (spos_lt l j Hl HI) as HP.
  unfold s_getFirstLabelPos. pose proof (NN_ge l j Hl) as G.
  destruct HK as [_ _ Hnc _ _ _ _ _ _ HSel _ _ _]. rewrite Hnc.
  replace (NN l j + 1 <? sm nds st) with false by lia.
  assert (C1 : cn (louds l) (S j) = cn (louds l) j + 1) by (cbn [cn]; rewrite H; lia).
  pose proof (sm_mono nds st l Hl) as M.
  assert (EQ : NN l j + 1 - sm nds st = sm nds l - sm nds st + cn (louds l) (S j)) by (unfold SparseFacts.NN in *; lia).
  rewrite EQ. pose proof (s_louds_cnt l j Hl ltac:(lia) ltac:(lia)) as C.
  assert (N1 : nth (spos l j) (cc (slouds K) st height) false = true)
    by (unfold slouds; rewrite (nth_cc_item _ (fun l => louds l)) by auto; auto).
  assert (LL : length (cc (slouds K) st height) = slen) by (apply cc_len; [lia|apply slouds_n]).
  rewrite (select_spec e _ _ _ HSel).
  - f_equal. apply sel_unique; [lia|exact N1|]. unfold spos. rewrite C. lia.
  - apply s_first_louds. lia.
  - lia.
  - rewrite s_louds_total. pose proof (sm_mono nds (S l) height ltac:(lia)) as Q. cbn [sm] in Q.
    assert (cn (louds l) (S j) <= nds l) by (unfold DenseBuild.nds; apply cn_mono; fold n; lia). lia.
Qed.

(** ** node windows *)
Lemma node_not_last : forall l j, st <= l -> louds l j = true -> S (spos l j) < slen.
Proof.
  intros l j Hl H. pose proof (louds_item K l j H) as HI.
  destruct (child l j) eqn:EC.
  - pose proof EC as EL. rewrite child_louds in EL. apply louds_item in EL.
    pose proof (spos_lt (S l) j ltac:(lia) EL) as Q.
    pose proof (spos_level l j (S l) Hl HI ltac:(lia)) as Q2.
    assert (soff (S l) <= spos (S l) j) by (unfold spos; lia). lia.
  - assert (HF : leaf l j = true).
    { apply item_spec in HI. destruct (leaf l j) eqn:EF; auto. exfalso.
      unfold Trie.leaf in EF. unfold Trie.child in EC. destruct (item l j) eqn:EI; cbn [andb] in *.
      - destruct (l <? hi j); discriminate.
      - apply louds_item in H. congruence. }
    destruct (node_two' K l j (wide_level K st l Hst1 Hl) H HF) as [A _].
    pose proof (spos_lt l (S j) Hl A) as Q. unfold spos in *. cbn [cn] in Q. rewrite HI in Q. lia.
Qed.

Record node_win (l j N : nat) : Prop := mkWin {
  w_pos : 1 <= N;
  w_in : forall x, spos l j <= x -> x < spos l j + N -> x < slen ->
    exists i, j <= i /\ item l i = true /\ same_node l j i /\ x = spos l i;
  w_all : forall i, j <= i -> item l i = true -> same_node l j i -> spos l i < spos l j + N;
  w_end : spos l j + N <= slen \/
    (66 <= N /\ spos l j + N = 64 * num_words slen /\ 64 * (S (spos l j) / 64 + 1) < slen) }.

(** the positions strictly between two items of one level hold items of that level *)
Lemma between_level : forall l j i x, st <= l -> item l i = true -> spos l j <= x -> x <= spos l i -> j <= i ->
  exists m, j <= m <= i /\ item l m = true /\ x = spos l m.
Proof.
  intros l j i x Hl HI H1 H2 Hji. pose proof (item_lt _ _ HI) as Hi.
  assert (G : x - soff l < cn (item l) (S i)) by (unfold spos in *; cbn [cn]; rewrite HI; lia).
  destruct (filter_seq_nth (item l) (S i) (x - soff l) G) as (m & A & B & C).
  exists m. assert (E : x = spos l m) by (unfold spos in *; lia).
  split; [|auto]. split; [|lia]. destruct (le_lt_dec j m) as [|L]; auto.
  pose proof (spos_mono l m j B L). lia.
Qed.

Lemma louds_bit : forall l i, st <= l -> item l i = true -> nth (spos l i) (cc (slouds K) st height) false = louds l i.
Proof. intros l i Hl H. unfold slouds. rewrite (nth_cc_item _ (fun l => louds l)) by auto. reflexivity. Qed.

Lemma win_of_bits : forall l j N, st <= l -> louds l j = true -> 1 <= N ->
  (forall x, spos l j < x -> x < spos l j + N -> x < slen -> nth x (cc (slouds K) st height) false = false) ->
  ((spos l j + N < slen /\ nth (spos l j + N) (cc (slouds K) st height) false = true) \/
   spos l j + N = slen \/ (66 <= N /\ slen <= spos l j + N /\ spos l j + N = 64 * num_words slen /\ 64 * (S (spos l j) / 64 + 1) < slen)) ->
  node_win l j N.
Proof.
  intros l j N Hl HL HN Hz Hend. pose proof (louds_item K l j HL) as HI. constructor; auto.
  - intros x H1 H2 H3. destruct (Nat.eq_dec x (spos l j)) as [->|NE].
    + exists j. split; auto. split; auto. split; auto. intros m Hm. lia.
    + destruct (spos_inv x H3) as (l' & i & A & B & C).
      assert (EL : l' = l).
      { destruct (lt_eq_lt_dec l l') as [[G|G]|G]; auto; exfalso.
        - (* the first item of level l' starts a node *)
          pose proof (spos_level l j l' Hl HI G) as Q.
          assert (P0 : 0 < cn (item l') (S i)) by (cbn [cn]; rewrite B; lia).
          destruct (filter_seq_nth (item l') (S i) 0 P0) as (f & F1 & F2 & F3).
          assert (F4 : louds l' f = true) by (apply first_item_louds; auto).
          assert (F5 : spos l' f <= spos l' i) by (unfold spos; rewrite F3; lia).
          assert (F6 : soff l' <= spos l' f) by (unfold spos; lia).
          pose proof (Hz (spos l' f) ltac:(lia) ltac:(lia) ltac:(lia)) as Z.
          rewrite louds_bit in Z by auto. congruence.
        - pose proof (spos_level l' i l A B G) as Q. unfold spos in H1. unfold spos in NE. lia. }
      subst l'. assert (J : j < i).
      { destruct (le_lt_dec i j) as [G|G]; auto. exfalso. destruct (Nat.eq_dec i j) as [->|]; [lia|].
        pose proof (spos_mono l i j B ltac:(lia)). lia. }
      exists i. split; [lia|]. split; auto. split; auto.
      intros m Hm. destruct (louds l m) eqn:EM; auto. exfalso.
      pose proof (louds_item K l m EM) as IM.
      assert (spos l j < spos l m) by (apply spos_mono; auto; lia).
      assert (spos l m <= spos l i) by (unfold spos; pose proof (cn_mono (item l) m i ltac:(lia)); lia).
      pose proof (Hz (spos l m) ltac:(lia) ltac:(lia) ltac:(lia)) as Z. rewrite louds_bit in Z by auto. congruence.
  - intros i H1 H2 H3. destruct (lt_dec (spos l i) (spos l j + N)) as [|G]; auto. exfalso.
    pose proof (spos_lt l i Hl H2) as Q.
    destruct Hend as [[E1 E2]|E]; [|lia].
    destruct (between_level l j i (spos l j + N) Hl H2 ltac:(lia) ltac:(lia) H1) as (m & M1 & M2 & M3).
    rewrite M3, louds_bit in E2 by auto.
    destruct (Nat.eq_dec m j) as [->|NE]; [lia|]. rewrite H3 in E2 by lia. discriminate.
  - lia.
Qed.


Lemma s_nodeSize_spec : forall l j, st <= l -> louds l j = true ->
  exists N, s_nodeSize e s (spos l j) = Ok N /\ node_win l j N.
Proof.
  intros l j Hl HL. pose proof (louds_item K l j HL) as HI. pose proof (node_not_last l j Hl HL) as HN.
  unfold s_nodeSize. rewrite s_louds_read by auto. rewrite HL. cbn [bind].
  replace (if asserts e then massert e true else Ok tt) with (Ok tt)
    by (destruct (asserts e); [rewrite massert_true by auto|]; reflexivity).
  cbn [bind].
  assert (LL : length (cc (slouds K) st height) = slen) by (apply cc_len; [lia|apply slouds_n]).
  destruct HK as [_ _ _ _ _ _ _ _ _ [R _] _ _ _].
  rewrite (dnext_spec e _ _ _ R) by lia. rewrite LL. set (bits := cc (slouds K) st height) in *.
  eexists. split; [reflexivity|].
  destruct (Nat.eqb_spec (cnt (skipn (S (spos l j)) bits)) 0) as [Z|Z].
  - assert (ZB : forall x, spos l j < x -> nth x bits false = false).
    { intros x Hx. rewrite cnt_zero_nth in Z. specialize (Z (x - S (spos l j))). rewrite nth_skipn' in Z.
      replace (S (spos l j) + (x - S (spos l j))) with x in Z by lia. auto. }
    unfold next_end. pose proof (num_words_le slen) as NW. pose proof (Nat.div_mod (S (spos l j)) 64 ltac:(lia)) as DM.
    pose proof (Nat.mod_upper_bound (S (spos l j)) 64 ltac:(lia)) as DB.
    assert (DL : S (spos l j) / 64 + 1 <= num_words slen) by lia.
    destruct (Nat.eqb_spec (S (spos l j) / 64 + 1) (num_words slen)) as [E|E].
    + apply win_of_bits; auto; try lia. 
    + apply win_of_bits; auto; try lia.
  - destruct (first_true_spec _ Z) as (A & B & C). rewrite skipn_length in A. rewrite nth_skipn' in B.
    apply win_of_bits; auto; try lia.
    + intros x H1 H2 H3. specialize (C (x - S (spos l j)) ltac:(lia)). rewrite nth_skipn' in C.
      replace (S (spos l j) + (x - S (spos l j))) with x in C by lia. auto.
    + left. split; [lia|]. rewrite <- B. f_equal. lia.
Qed.

(** ** label searches *)
Definition rd (i : nat) : nat := match lv_read e (s_labels s) i with Ok v => v | Fail _ => 0 end.

Lemma rd_item : forall l i, st <= l -> item l i = true -> rd (spos l i) = lab l i.
Proof. intros l i Hl H. unfold rd. rewrite s_lab_read by auto. reflexivity. Qed.

Lemma slabs_total : length (cc (slabs K) st height) = slen.
Proof. apply cc_len; [lia|apply slabs_n]. Qed.

(** reads up to 80 bytes past the last label *)
Hypothesis Hmem : strict_mem e = false.
Lemma rd_ok : forall i, i < slen + 80 -> lv_read e (s_labels s) i = Ok (rd i).
Proof.
  intros i Hi. unfold rd, lv_read. rewrite Hmem. pose proof slabs_total as Q.
  destruct HK as [_ _ _ _ _ _ HR _ _ _ _ _ _]. rewrite Q in HR.
  destruct (N.of_nat i <? lv_alloc (s_labels s))%N; auto.
  replace (N.of_nat i <? lv_alloc (s_labels s) + 80)%N with true by lia. reflexivity.
Qed.

Lemma skips_term : forall l j N, st <= l -> louds l j = true -> node_win l j N ->
  skips rd (spos l j) N = term l j.
Proof.
  intros l j N Hl HL HW. pose proof (louds_item K l j HL) as HI. unfold skips. rewrite rd_item by auto.
  pose proof (node_not_last l j Hl HL) as HNL.
  destruct (term l j) eqn:ET.
  - destruct (term_next K HS HE l j HI ET) as [A B].
    assert (SN : same_node l j (S j)) by (intros m Hm; replace m with (S j) by lia; auto).
    pose proof (w_all _ _ _ HW (S j) ltac:(lia) A SN) as Q. pose proof (spos_mono l j (S j) HI ltac:(lia)).
    rewrite (lab_term K l j ET). lia.
  - destruct (Nat.ltb_spec 1 N) as [G|G]; [|reflexivity]. cbn [andb].
    destruct (Nat.eqb_spec (lab l j) 255) as [E|E]; auto. exfalso.
    destruct (w_in _ _ _ HW (S (spos l j)) ltac:(lia) ltac:(lia) HNL) as (i & A & B & C & D).
    assert (j < i) by (destruct (Nat.eq_dec i j) as [->|]; lia).
    pose proof (term_of_255 K HS HB l j i ltac:(auto) B C E). congruence.
Qed.

Section Win.
Variables (l j N : nat).
Hypothesis Hl : st <= l.
Hypothesis HL : louds l j = true.
Hypothesis HW : node_win l j N.
Let p := if term l j then S (spos l j) else spos l j.
Let m := if term l j then N - 1 else N.

Lemma win_sum : p + m = spos l j + N.
Proof. unfold p, m. pose proof (w_pos _ _ _ HW). destruct (term l j); lia. Qed.

(** the positions searched hold the labels of the node other than the terminator *)
Lemma win_item : forall x, p <= x -> x < p + m -> x < slen ->
  exists i, j <= i /\ item l i = true /\ same_node l j i /\ term l i = false /\ x = spos l i.
Proof.
  intros x H1 H2 H3. pose proof win_sum as WS.
  assert (spos l j <= p) by (unfold p; destruct (term l j); lia).
  destruct (w_in _ _ _ HW x ltac:(lia) ltac:(lia) H3) as (i & A & B & C & D).
  exists i. repeat (split; auto). destruct (Nat.eq_dec i j) as [->|NE].
  - destruct (term l j) eqn:ET; auto. unfold p in H1. lia.
  - apply (not_first_not_term K HS HE); auto. apply C. lia.
Qed.

Lemma win_pos : forall i, j <= i -> item l i = true -> same_node l j i -> term l i = false -> p <= spos l i < p + m.
Proof.
  intros i A B C D. rewrite win_sum. pose proof (w_all _ _ _ HW i A B C). split; [|lia].
  destruct (Nat.eq_dec i j) as [->|NE].
  - unfold p. rewrite D. lia.
  - pose proof (spos_mono l j i (louds_item K l j HL) ltac:(lia)). unfold p. destruct (term l j); lia.
Qed.

Lemma win_incr : p + m <= slen -> incr rd p m.
Proof.
  intros H x y H1 H2 H3.
  destruct (win_item x ltac:(lia) ltac:(lia) ltac:(lia)) as (i & A1 & A2 & A3 & A4 & ->).
  destruct (win_item y ltac:(lia) ltac:(lia) ltac:(lia)) as (i' & B1 & B2 & B3 & B4 & ->).
  rewrite !rd_item by auto.
  assert (i < i').
  { destruct (lt_dec i i') as [|G]; auto. exfalso.
    pose proof (cn_mono (item l) i' i ltac:(lia)). unfold spos in H2. lia. }
  apply (node_lab_lt K HS HE); auto. apply (same_node_sub K l j); auto. lia.
Qed.

Lemma search_ff : forall b, lv_search e (s_labels s) b (spos l j) N = Ok (res_of (ff (fun x => b =? rd x) p m) p).
Proof.
  intros b. pose proof (lv_search_spec e (s_labels s) rd (slen + 80) rd_ok b (spos l j) N) as Q.
  cbv zeta in Q. rewrite (skips_term l j N Hl HL HW) in Q. apply Q.
  - pose proof (w_end _ _ _ HW). pose proof (node_not_last l j Hl HL). pose proof (num_words_le slen). lia.
  - intros H12. apply win_incr. rewrite win_sum. pose proof (w_end _ _ _ HW) as [G|G]; auto.
    fold m in H12. unfold m in H12. destruct (term l j); lia.
Qed.

Lemma search_found : forall b i, j <= i -> item l i = true -> same_node l j i -> term l i = false -> lab l i = b ->
  lv_search e (s_labels s) b (spos l j) N = Ok (true, spos l i).
Proof.
  intros b i A B C D E. rewrite search_ff. pose proof (win_pos i A B C D) as WP.
  replace (ff (fun x => b =? rd x) p m) with (Some (spos l i)); [reflexivity|]. symmetry. apply ff_some.
  split; auto. split; [rewrite rd_item by auto; lia|].
  intros y Hy. pose proof (spos_lt l i Hl B) as SL.
  destruct (win_item y ltac:(lia) ltac:(lia) ltac:(lia)) as (i' & A1 & A2 & A3 & A4 & ->).
  rewrite rd_item by auto. destruct (Nat.eqb_spec b (lab l i')) as [EQ|]; auto. exfalso.
  assert (i' = i) by (apply (node_lab_inj K HS HE l j); auto; congruence). subst i'. lia.
Qed.

(** the byte is in no label of the node: either the search fails, or it runs
    past the last label of the trie *)
Lemma search_none : forall b, (forall i, j <= i -> item l i = true -> same_node l j i -> term l i = false -> lab l i <> b) ->
  lv_search e (s_labels s) b (spos l j) N = Ok (false, p) \/
  (64 < slen /\ exists x, slen <= x < 64 * num_words slen /\ rd x = b /\
     (forall y, slen <= y < x -> rd y <> b) /\
     lv_search e (s_labels s) b (spos l j) N = Ok (true, x)).
Proof.
  intros b H. rewrite search_ff. destruct (ff (fun x => b =? rd x) p m) as [x|] eqn:EF; [|left; reflexivity].
  apply ff_some in EF. destruct EF as (A & B & C). right. pose proof win_sum as WS.
  assert (G : slen <= x).
  { destruct (le_lt_dec slen x) as [|G]; auto. exfalso.
    destruct (win_item x ltac:(lia) ltac:(lia) G) as (i & A1 & A2 & A3 & A4 & ->).
    rewrite rd_item in B by auto. apply (H i A1 A2 A3 A4). lia. }
  pose proof (w_end _ _ _ HW) as WE.
  split; [lia|]. exists x. split; [lia|]. split; [lia|]. split; [|reflexivity].
  intros y Hy. specialize (C y). pose proof (spos_lt l j Hl (louds_item K l j HL)).
  assert (p <= slen) by (unfold p; pose proof (node_not_last l j Hl HL); destruct (term l j); lia).
  intros E. assert (C' := C ltac:(lia)). cbn beta in C'. lia.
Qed.

Lemma search_gt_ff : forall b, spos l j + N <= slen ->
  lv_searchGreaterThan e (s_labels s) b (spos l j) N = Ok (res_of (ff (fun x => b <? rd x) p m) p).
Proof.
  intros b H. pose proof (lv_searchGreaterThan_spec e (s_labels s) rd (slen + 80) rd_ok b (spos l j) N) as Q.
  cbv zeta in Q. rewrite (skips_term l j N Hl HL HW) in Q. apply Q; [lia|].
  apply win_incr. rewrite win_sum. auto.
Qed.

Lemma search_gt_found : forall b i, spos l j + N <= slen ->
  j <= i -> item l i = true -> same_node l j i -> term l i = false -> b < lab l i ->
  (forall i', j <= i' -> i' < i -> item l i' = true -> term l i' = false -> lab l i' <= b) ->
  lv_searchGreaterThan e (s_labels s) b (spos l j) N = Ok (true, spos l i).
Proof.
  intros b i HN A B C D E F. rewrite search_gt_ff by auto. pose proof (win_pos i A B C D) as WP.
  replace (ff (fun x => b <? rd x) p m) with (Some (spos l i)); [reflexivity|]. symmetry. apply ff_some.
  split; auto. split; [rewrite rd_item by auto; lia|].
  intros y Hy. pose proof (spos_lt l i Hl B) as SL.
  destruct (win_item y ltac:(lia) ltac:(lia) ltac:(lia)) as (i' & A1 & A2 & A3 & A4 & ->).
  rewrite rd_item by auto. assert (i' < i).
  { destruct (lt_dec i' i) as [|G]; auto. exfalso.
    pose proof (cn_mono (item l) i i' ltac:(lia)). unfold spos in Hy. lia. }
  specialize (F i' A1 ltac:(auto) A2 A4). lia.
Qed.

Lemma search_gt_none : forall b, spos l j + N <= slen ->
  (forall i', j <= i' -> item l i' = true -> same_node l j i' -> term l i' = false -> lab l i' <= b) ->
  lv_searchGreaterThan e (s_labels s) b (spos l j) N = Ok (false, p).
Proof.
  intros b HN F. rewrite search_gt_ff by auto. pose proof win_sum as WS.
  replace (ff (fun x => b <? rd x) p m) with (@None nat); [reflexivity|]. symmetry. apply ff_none.
  intros y Hy. destruct (win_item y ltac:(lia) ltac:(lia) ltac:(lia)) as (i' & A1 & A2 & A3 & A4 & ->).
  rewrite rd_item by auto. specialize (F i' A1 A2 A3 A4). lia.
Qed.
End Win.

(** ** suffixes *)
Lemma ssfx_n : forall l, length (ssfx c K l) = cn (leaf l) n.
Proof. intros. unfold ssfx. rewrite map_length. apply cn_filter. Qed.

Definition ssidx (l i : nat) : nat := off (ssfx c K) st l + cn (leaf l) i.

Lemma leaf_item : forall l i, leaf l i = true -> item l i = true.
Proof. intros l i H. unfold Trie.leaf in H. destruct (item l i); auto. Qed.

Lemma leaf_not_child : forall l i, leaf l i = true -> child l i = false.
Proof.
  intros l i H. apply leaf_spec in H. destruct (child l i) eqn:E; auto. apply child_spec in E.
  unfold Trie.leafl in H. lia.
Qed.

Lemma soff_split : forall l, st <= l -> soff l = (sm (fun l => cn (child l) n) l - sm (fun l => cn (child l) n) st)
   + off (ssfx c K) st l.
Proof.
  intros l H. unfold soff, off. rewrite !(sm_ext (fun l => length (ssfx c K l)) (fun l => cn (leaf l) n)) by (intros; apply ssfx_n).
  induction H as [|l H IH]; [lia|]. cbn [sm].
  pose proof (sm_mono nit st l H). pose proof (sm_mono (fun l => cn (child l) n) st l H).
  pose proof (sm_mono (fun l => cn (leaf l) n) st l H).
  assert (nit l = cn (child l) n + cn (leaf l) n) by apply cn_split_leaf. lia.
Qed.

Lemma s_suffix_pos : forall l i, st <= l -> leaf l i = true ->
  s_getSuffixPos e s (spos l i) = Ok (N.of_nat (ssidx l i)).
Proof.
  intros l i Hl H. pose proof (leaf_item l i H) as HI. unfold s_getSuffixPos.
  rewrite s_child_rank by auto. cbn [bind].
  pose proof (spos_lt l i Hl HI) as SL. pose proof slabs_total as ST.
  destruct HK as [_ _ _ _ _ _ _ HF _ _ _ _ _]. rewrite ST in HF.
  pose proof (soff_split l Hl) as SS. pose proof (sm_child K l) as A. pose proof (sm_child K st) as B. fold n in A, B.
  pose proof (sm_mono nds (S st) (S l) ltac:(lia)).
  assert (C : cn (child l) (S i) = cn (child l) i) by (cbn [cn]; rewrite (leaf_not_child l i H); lia).
  assert (D : cn (item l) i = cn (child l) i + cn (leaf l) i) by apply cn_split_leaf.
  assert (E : spos l i - (sm nds (S l) - sm nds (S st) + cn (child l) (S i)) = ssidx l i)
    by (unfold ssidx, spos; lia).
  rewrite pos32_small.
  - rewrite E. reflexivity.
  - unfold spos. lia.
  - lia.
Qed.

Lemma ssidx_nth : forall l i, st <= l -> leaf l i = true ->
  ssidx l i < length (cc (ssfx c K) st height) /\ nth (ssidx l i) (cc (ssfx c K) st height) 0%N = sv c K i.
Proof.
  intros l i Hl H. pose proof (leaf_item l i H) as HI. pose proof (item_height l i HI) as HH.
  pose proof (item_lt l i HI) as Hi.
  assert (L : cn (leaf l) i < length (ssfx c K l)) by (rewrite ssfx_n; apply cn_lt; auto).
  unfold ssidx. split.
  - apply cc_lt; auto; lia.
  - rewrite cc_nth by (auto; lia). unfold ssfx. rewrite nth_indep with (d' := sv c K 0) by (unfold ssfx in L; auto).
    rewrite map_nth. f_equal. apply nth_filter_seq; auto.
Qed.
End Sparse.
