(** Neighbouring keys in the trie: the next and the previous item of a node. *)
From Coq Require Import Arith List NArith Bool Lia ZifyN ZifyNat ZifyBool Sorting.Sorted.
From Verif Require Import Res Config Builder Spec KeyFacts Trie BuilderFacts DenseBuild StructFacts NodeFacts SparseFacts.
Import ListNotations.

Section Sib.
Variable K : list bytes.
Notation kk := (kk K). Notation lo := (lo K). Notation hi := (hi K). Notation leafl := (leafl K).
Notation item := (item K). Notation child := (child K). Notation louds := (louds K).
Notation leaf := (leaf K). Notation lab := (lab K). Notation term := (term K). Notation anc := (anc K).
Notation same_node := (same_node K). Notation NN := (NN K).
Let n := length K.

Lemma anc_self : forall m i, lo i <= m -> anc m i = i.
Proof. intros. apply anc_unique; auto. intros; lia. Qed.

Lemma child_anc : forall m i, i < n -> m <= leafl i -> child m (anc m i) = (m <? leafl i).
Proof.
  intros m i Hi Hm. destruct (Nat.ltb_spec m (leafl i)) as [L|L].
  - apply anc_child; auto.
  - assert (m = leafl i) by lia. subst m. rewrite (proj1 (anc_leaf K i Hi)).
    destruct (child (leafl i) i) eqn:E; auto. apply child_spec in E. unfold Trie.leafl in E. lia.
Qed.

Lemma hi_le : forall i, hi i <= leafl i.
Proof. intros. unfold Trie.leafl. lia. Qed.
Lemma lo_le : forall i, lo i <= leafl i.
Proof. intros. unfold Trie.leafl. lia. Qed.

(** the subtree of item [anc m i] ends with key [i]: no later item in the node *)
Lemma no_later : forall m i i', S i = n \/ lo (S i) < m ->
  item m i' = true -> anc m i < i' -> same_node m (anc m i) i' -> False.
Proof.
  intros m i i' H HI HL HN. pose proof HI as HI'. apply item_spec in HI'.
  destruct (le_lt_dec i' i) as [G|G].
  - pose proof (anc_between K m i i' ltac:(lia)). lia.
  - pose proof (anc_le K m i).
    pose proof (same_node_lo K m (anc m i) i' HI HN (S i) ltac:(lia)). fold n in HI'. lia.
Qed.

(** the next item of the node is the next key *)
Lemma next_item : forall i, S i < n -> item (lo (S i)) (S i) = true.
Proof. intros i H. apply item_spec. fold n. lia. Qed.
Lemma next_same : forall i, S i < n -> same_node (lo (S i)) (anc (lo (S i)) i) (S i).
Proof.
  intros i H. apply lo_same_node. intros m Hm. destruct (Nat.eq_dec m (S i)) as [->|]; [lia|].
  pose proof (anc_between K (lo (S i)) i m ltac:(lia)). lia.
Qed.
Lemma next_not_louds : forall i, S i < n -> louds (lo (S i)) (S i) = false.
Proof. intros i H. destruct (louds (lo (S i)) (S i)) eqn:E; auto. apply louds_spec in E. lia. Qed.
Lemma next_between : forall i x, anc (lo (S i)) i < x -> x < S i -> item (lo (S i)) x = false.
Proof.
  intros i x H1 H2. destruct (item (lo (S i)) x) eqn:E; auto. apply item_spec in E.
  pose proof (anc_between K (lo (S i)) i x ltac:(lia)). lia.
Qed.

(** from [S (lo i)] on, the key starts its own nodes *)
Lemma own_node : forall m i, i < n -> lo i < m -> m <= leafl i -> louds m i = true.
Proof. intros m i Hi H1 H2. apply louds_spec. unfold Trie.leafl in H2. fold n. lia. Qed.

Lemma anc_keep : forall m i, m < lo (S i) -> anc m (S i) = anc m i.
Proof. intros m i H. cbn [Trie.anc]. replace (lo (S i) <=? m) with false by lia. reflexivity. Qed.

Lemma leafl_next : forall i, S i < n -> lo (S i) <= leafl i.
Proof. intros i H. rewrite <- hi_lo. apply hi_le. Qed.

Lemma NN_same : forall l j i, j <= i -> same_node l j i -> NN l i = NN l j.
Proof.
  intros l j i H HN. unfold SparseFacts.NN.
  rewrite (cn_none_eq (louds l) (S j) (S i)); [reflexivity|lia|]. intros m Hm. apply HN. lia.
Qed.

Lemma NN_pos : forall l i, length K <> 0 -> item l i = true -> 1 <= l -> 0 < NN l i.
Proof.
  intros l i HN HI Hl. unfold SparseFacts.NN. destruct l as [|l]; [lia|]. pose proof (sm_mono (nds K) 1 (S l) ltac:(lia)) as Q. cbn [sm] in *. pose proof (cn_louds_root K HN) as R. change (cn (louds 0) (length K)) with (nds K 0) in R. lia.
Qed.

Hypothesis HS : StronglySorted klt K.
Hypothesis HB : Forall is_bytes K.
Hypothesis HE : Forall (fun k => k <> []) K.

Lemma next_not_term : forall i, S i < n -> term (lo (S i)) (S i) = false.
Proof. intros i H. apply (not_first_not_term K HS HE); [apply next_item|apply next_not_louds]; auto. Qed.

(** an item that is the last one of its node is not the terminator *)
Lemma last_not_term : forall m i, i < n -> m <= leafl i -> S i = n \/ lo (S i) < m -> term m (anc m i) = false.
Proof.
  intros m i Hi Hm H. destruct (term m (anc m i)) eqn:E; auto. exfalso.
  pose proof (anc_item K m i Hi Hm) as HI. destruct (term_next K HS HE m _ HI E) as (A & B).
  apply (no_later m i (S (anc m i))); auto. intros x Hx. replace x with (S (anc m i)) by lia. auto.
Qed.

Lemma child_not_term : forall m i, child m i = true -> term m i = false.
Proof.
  intros m i H. destruct (term m i) eqn:E; auto.
  rewrite (term_not_child K HS HE m i (child_item K m i H) E) in H. discriminate.
Qed.

(** a key that ends inside the trie: the next key extends it *)
Lemma term_leafl : forall i, i < n -> term (leafl i) i = true ->
  S i < n /\ lo (S i) = leafl i /\ lo i < leafl i /\ louds (leafl i) i = true.
Proof.
  intros i Hi HT. pose proof (proj2 (anc_leaf K i Hi)) as HF. assert (HI : item (leafl i) i = true) by (unfold Trie.leaf in HF; destruct (item (leafl i) i); auto).
  destruct (term_first K HS HE _ i HI HT) as (A & _ & _ & D).
  destruct (term_next K HS HE _ i HI HT) as (B & C). apply louds_spec in A as A'.
  apply item_spec in B. fold n in B. assert (louds (leafl i) (S i) = false) as C' by auto.
  assert (lo (S i) = hi i) by reflexivity. split; [lia|]. split; [|split; auto; lia].
  unfold Trie.leafl in *. lia.
Qed.
End Sib.
