(** Nodes of the trie: terminators, labels and sizes. *)
From Coq Require Import Arith List Bool Lia ZifyNat ZifyBool Sorting.Sorted.
From Verif Require Import BitFacts Spec KeyFacts Trie BuilderFacts DenseBuild.
Import ListNotations.

Section Node.
Variable K : list bytes.
Notation kk := (kk K). Notation lo := (lo K). Notation hi := (hi K). Notation leafl := (leafl K).
Notation item := (item K). Notation child := (child K). Notation louds := (louds K).
Notation leaf := (leaf K). Notation lab := (lab K). Notation term := (term K). Notation anc := (anc K).
Notation same_node := (same_node K).
Let n := length K.
Hypothesis HS : StronglySorted klt K.
Hypothesis HB : Forall is_bytes K.
Hypothesis HE : Forall (fun k => k <> []) K.

Lemma olab_lab : forall l i, term l i = false -> olab l (kk i) = S (lab l i).
Proof.
  intros l i H. unfold Trie.term in H. apply Nat.leb_gt in H. unfold olab, Trie.lab.
  rewrite (nth_error_nth' _ 255) by auto. reflexivity.
Qed.

Lemma olab_term : forall l i, term l i = true -> olab l (kk i) = 0.
Proof. intros l i H. apply olab_zero. unfold Trie.term in H. lia. Qed.

Lemma lab_term : forall l i, term l i = true -> lab l i = 255.
Proof. intros l i H. unfold Trie.term in H. unfold Trie.lab. apply nth_overflow. lia. Qed.

Lemma node_two : forall l j, 1 <= l -> louds l j = true -> leaf l j = true ->
  item l (S j) = true /\ louds l (S j) = false.
Proof.
  intros l j Hl H1 H2. apply louds_spec in H1. apply leaf_spec in H2. unfold Trie.leafl in H2.
  assert (hi j = l) as E by lia.
  assert (S j < n) as Hj.
  { destruct (le_lt_dec n (S j)) as [G|G]; auto. rewrite (hi_last K j G) in E. lia. }
  assert (L : lo (S j) = l) by (rewrite <- hi_lo; auto).
  split.
  - apply item_spec. fold n. lia.
  - destruct (louds l (S j)) eqn:E2; auto. apply louds_spec in E2. lia.
Qed.

Lemma node_two' : forall l j, 1 <= l \/ 2 <= n -> louds l j = true -> leaf l j = true ->
  item l (S j) = true /\ louds l (S j) = false.
Proof.
  intros l j Hn H1 H2. destruct (Nat.eq_dec l 0) as [->|N0]; [|apply node_two; auto; lia].
  apply louds_spec in H1. apply leaf_spec in H2. unfold Trie.leafl in H2. assert (j = 0) as -> by lia.
  assert (hi 0 = 0) as E by lia. assert (S 0 < n) as Hj by lia.
  assert (L : lo 1 = 0) by (rewrite <- hi_lo; auto). split.
  - apply item_spec. fold n. lia.
  - destruct (louds 0 1) eqn:E2; auto. apply louds_spec in E2. lia.
Qed.

Lemma term_first : forall l j, item l j = true -> term l j = true ->
  louds l j = true /\ leaf l j = true /\ l = length (kk j) /\ 1 <= l.
Proof.
  intros l j H HT. apply item_spec in H. destruct H as (Hj & H1 & H2).
  pose proof (keys_lo_lt K HE HS j Hj) as Q.
  unfold Trie.term in HT. apply Nat.leb_le in HT.
  pose proof (lcp_le_l (kk j) (kk (S j))) as HL. unfold Trie.hi in *.
  assert (E : lcp (kk j) (kk (S j)) = l) by lia.
  split; [apply louds_spec; unfold Trie.hi; lia|]. split; [apply leaf_spec; unfold Trie.leafl, Trie.hi; lia|]. lia.
Qed.

Lemma term_next : forall l j, item l j = true -> term l j = true ->
  item l (S j) = true /\ louds l (S j) = false.
Proof. intros l j H HT. destruct (term_first l j H HT) as (A & B & _ & C). apply node_two; auto. Qed.

Lemma not_first_not_term : forall l i, item l i = true -> louds l i = false -> term l i = false.
Proof.
  intros l i H HL. destruct (term l i) eqn:E; auto. destruct (term_first l i H E) as (A & _). congruence.
Qed.

Lemma term_not_child : forall l j, item l j = true -> term l j = true -> child l j = false.
Proof.
  intros l j H HT. destruct (term_first l j H HT) as (_ & B & _). apply leaf_spec in B.
  destruct (child l j) eqn:E; auto. apply child_spec in E. unfold Trie.leafl in B. lia.
Qed.

Lemma same_node_sub : forall l j i i', same_node l j i' -> j <= i -> i <= i' -> same_node l i i'.
Proof. intros l j i i' H A B m Hm. apply H. lia. Qed.

Lemma same_node_sub' : forall l j i i', same_node l j i' -> i <= i' -> same_node l j i.
Proof. intros l j i i' H A m Hm. apply H. lia. Qed.

Lemma same_node_louds : forall l j i, same_node l j i -> j < i -> louds l i = false.
Proof. intros l j i H A. apply H. lia. Qed.

Lemma node_lab_lt : forall l i i', i < i' -> item l i' = true -> same_node l i i' -> term l i = false ->
  lab l i < lab l i'.
Proof.
  intros l i i' H HI HN HT. pose proof (same_node_label K HS l i i' H HI HN) as Q.
  rewrite (olab_lab l i HT) in Q.
  rewrite (olab_lab l i') in Q; [lia|]. apply not_first_not_term; auto.
Qed.

Lemma key_bytes : forall i, is_bytes (kk i).
Proof.
  intros i. destruct (lt_dec i n) as [L|L].
  - rewrite Forall_forall in HB. apply HB. apply nth_In. auto.
  - unfold Trie.kk. rewrite nth_overflow by (fold n; lia). constructor.
Qed.

(** a first label 255 that is not alone is the terminator *)
Lemma term_of_255 : forall l j i, j < i -> item l i = true -> same_node l j i -> lab l j = 255 -> term l j = true.
Proof.
  intros l j i H HI HN HL. destruct (term l j) eqn:E; auto.
  pose proof (same_node_label K HS l j i H HI HN) as Q. rewrite (olab_lab l j E) in Q.
  pose proof (olab_byte l (kk i) (key_bytes i)). lia.
Qed.

(** two items of one node with the same label are the same *)
Lemma node_lab_inj : forall l j i i', louds l j = true -> j <= i -> j <= i' ->
  item l i = true -> item l i' = true -> same_node l j i -> same_node l j i' ->
  term l i = false -> term l i' = false -> lab l i = lab l i' -> i = i'.
Proof.
  intros l j i i' HL A B C D E F G H EQ.
  destruct (lt_eq_lt_dec i i') as [[L|]|L]; auto; exfalso.
  - pose proof (node_lab_lt l i i' L D (same_node_sub l j i i' F A ltac:(lia)) G). lia.
  - pose proof (node_lab_lt l i' i L C (same_node_sub l j i' i E B ltac:(lia)) H). lia.
Qed.
End Node.
