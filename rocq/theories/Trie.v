(** The trie of a strictly sorted list of keys, as predicates on (level, key
    index).  Key [j] owns the label at level [l] if it is the first key with
    its prefix of length [l+1] and the prefix of length [l] is shared (or
    [l = 0]).  Every per-level structure of the program is the restriction of
    one of these predicates to the owners, in key order. *)
From Coq Require Import Arith List Bool Lia ZifyBool Sorting.Sorted.
From Verif Require Import BitFacts WordFacts BitvectorFacts Spec KeyFacts.
Import ListNotations.

(** number of [i < j] with [p i] *)
Fixpoint cn (p : nat -> bool) (j : nat) : nat :=
  match j with O => 0 | S i => cn p i + (if p i then 1 else 0) end.

Lemma cn_filter : forall p j, length (filter p (seq 0 j)) = cn p j.
Proof.
  induction j as [|j IH]; [reflexivity|]. rewrite seq_snoc, filter_app, app_length, IH.
  simpl. destruct (p j); reflexivity.
Qed.

Lemma cn_ext : forall p q j, (forall i, i < j -> p i = q i) -> cn p j = cn q j.
Proof.
  induction j as [|j IH]; intros H; [reflexivity|]. simpl. rewrite IH, (H j); auto.
Qed.

Lemma cn_mono : forall p i j, i <= j -> cn p i <= cn p j.
Proof. intros p i j H. induction H; simpl; lia. Qed.

Lemma cn_eq_none : forall p i j, i <= j -> cn p i = cn p j -> forall m, i <= m < j -> p m = false.
Proof.
  intros p i j H. induction H as [|j H IH]; intros E m Hm; [lia|].
  simpl in E. pose proof (cn_mono p i j H). destruct (p j) eqn:Ej; [lia|].
  destruct (Nat.eq_dec m j) as [->|]; auto. apply IH; lia.
Qed.

Lemma cn_none_eq : forall p i j, i <= j -> (forall m, i <= m < j -> p m = false) -> cn p i = cn p j.
Proof.
  intros p i j H. induction H as [|j H IH]; intros E; [reflexivity|].
  simpl. rewrite (E j) by lia. rewrite IH; [lia|]. intros. apply E. lia.
Qed.

Lemma cn_lt : forall p i j, p i = true -> i < j -> cn p i < cn p j.
Proof.
  intros p i j Hp H. assert (cn p (S i) <= cn p j) by (apply cn_mono; lia).
  simpl in H0. rewrite Hp in H0. lia.
Qed.

Lemma StronglySorted_nth : forall K i j, StronglySorted klt K -> i < j < length K ->
  klt (nth i K []) (nth j K []).
Proof.
  intros K i j HS. revert i j. induction HS as [|k K' HK IH HF]; intros i j H; simpl in H; [lia|].
  destruct j; [lia|]. destruct i.
  - simpl. rewrite Forall_forall in HF. apply HF. apply nth_In. lia.
  - simpl. apply IH. lia.
Qed.

Section Trie.
Variable K : list bytes.
Let n := length K.

Definition kk (j : nat) : bytes := nth j K [].

(** common prefix with the previous and the next key *)
Definition lo (j : nat) : nat := match j with O => 0 | S i => lcp (kk i) (kk j) end.
Definition hi (j : nat) : nat := lcp (kk j) (kk (S j)).

(** level of the leaf of key [j] *)
Definition leafl (j : nat) : nat := Nat.max (lo j) (hi j).

Definition item (l j : nat) : bool := (j <? n) && (lo j <=? l) && (l <=? leafl j).
Definition child (l j : nat) : bool := item l j && (l <? hi j).
Definition louds (l j : nat) : bool := item l j && ((lo j <? l) || ((j =? 0) && (l =? 0))).
Definition leaf (l j : nat) : bool := item l j && negb (l <? hi j).

(** label byte; the end of the key is the terminator 255 *)
Definition lab (l j : nat) : nat := nth l (kk j) 255.
Definition term (l j : nat) : bool := length (kk j) <=? l.

Lemma hi_lo : forall j, hi j = lo (S j).
Proof. reflexivity. Qed.

Lemma hi_last : forall j, n <= S j -> hi j = 0.
Proof. intros. unfold hi. unfold kk at 2. rewrite nth_overflow by (subst n; lia). apply lcp_nil_r. Qed.

Lemma item_spec : forall l j, item l j = true <-> j < n /\ lo j <= l /\ (l <= lo j \/ l <= hi j).
Proof. intros. unfold item, leafl. lia. Qed.

Lemma child_spec : forall l j, child l j = true <-> j < n /\ lo j <= l /\ l < hi j.
Proof. intros. unfold child, item, leafl. lia. Qed.

Lemma louds_spec : forall l j, louds l j = true <->
  j < n /\ ((lo j < l /\ l <= hi j) \/ (j = 0 /\ l = 0)).
Proof.
  intros. unfold louds, item, leafl. destruct j as [|j]; [simpl lo; lia|]. lia.
Qed.

Lemma child_louds : forall l j, child l j = louds (S l) j.
Proof.
  intros. apply eq_true_iff_eq. rewrite child_spec, louds_spec. lia.
Qed.

Lemma child_item : forall l j, child l j = true -> item l j = true.
Proof. unfold child. intros. lia. Qed.
Lemma louds_item : forall l j, louds l j = true -> item l j = true.
Proof. unfold louds. intros. lia. Qed.

Lemma leaf_spec : forall l j, leaf l j = true <-> j < n /\ l = leafl j.
Proof. intros. unfold leaf, item, leafl. lia. Qed.

(** no node starts in (i,i'] at level l *)
Definition same_node (l i i' : nat) : Prop := forall m, i < m <= i' -> louds l m = false.

Lemma same_node_lo : forall l i i', item l i' = true -> same_node l i i' ->
  forall m, i < m <= i' -> l <= lo m.
Proof.
  intros l i i' Hi HN m Hm.
  destruct (le_lt_dec l (lo m)) as [|G]; auto. exfalso.
  assert (X : forall d x, x + d = i' -> i < x -> lo x < l -> False); [|apply (X (i' - m) m); lia].
  induction d as [|d IH]; intros x Hx Hix Hlo.
  - assert (x = i') by lia. subst x. assert (louds l i' = true).
    { apply item_spec in Hi. apply louds_spec. lia. }
    rewrite HN in H by lia. discriminate.
  - destruct (le_lt_dec l (lo (S x))) as [G2|G2].
    + assert (louds l x = true).
      { apply item_spec in Hi. apply louds_spec. rewrite hi_lo. lia. }
      rewrite HN in H by lia. discriminate.
    + apply (IH (S x)); lia.
Qed.

Lemma lo_same_node : forall l i i', (forall m, i < m <= i' -> l <= lo m) -> same_node l i i'.
Proof.
  intros l i i' H m Hm. specialize (H m Hm). destruct (louds l m) eqn:E; auto.
  apply louds_spec in E. lia.
Qed.

Lemma share_prefix : forall l i i', i <= i' -> (forall m, i < m <= i' -> l <= lo m) ->
  firstn l (kk i) = firstn l (kk i').
Proof.
  intros l i i' H. induction H as [|i' H IH]; intros HL; [reflexivity|].
  rewrite IH by (intros; apply HL; lia). apply lcp_firstn. apply (HL (S i')). lia.
Qed.

(** start of the node of an item *)
Lemma node_start : forall l i, item l i = true -> exists j, j <= i /\ louds l j = true /\ same_node l j i.
Proof.
  intros l i Hi. destruct (Nat.eq_dec l 0) as [->|Hl].
  - exists 0. apply item_spec in Hi. split; [lia|]. split; [apply louds_spec; lia|].
    intros m Hm. destruct (louds 0 m) eqn:E; auto. apply louds_spec in E. lia.
  - assert (X : forall d x, x + d = i -> (forall m, x < m <= i -> l <= lo m) ->
       exists j, j <= i /\ louds l j = true /\ same_node l j i); [|].
    { intros d x. revert d. induction x as [|x IH]; intros d Hx HL.
      - exists 0. split; [lia|]. split; [|apply lo_same_node; auto].
        apply louds_spec. apply item_spec in Hi. split; [lia|]. left. split; [simpl; lia|].
        destruct d; [assert (E0 : i = 0) by lia; rewrite E0 in Hi; change (lo 0) with 0 in Hi; lia|].
        rewrite hi_lo. apply HL. lia.
      - destruct (le_lt_dec l (lo (S x))) as [G|G].
        + apply (IH (S d)); [lia|]. intros m Hm. destruct (Nat.eq_dec m (S x)) as [->|]; auto.
          apply HL. lia.
        + exists (S x). split; [lia|]. split; [|apply lo_same_node; auto].
          apply louds_spec. apply item_spec in Hi. split; [lia|]. left. split; [lia|].
          destruct d; [assert (E0 : i = S x) by lia; rewrite E0 in Hi; lia|].
          rewrite hi_lo. apply HL. lia. }
    apply (X 0 i); [lia|]. intros. lia.
Qed.

(** ** ancestors *)
Fixpoint anc (m i : nat) : nat :=
  if lo i <=? m then i else match i with O => 0 | S i' => anc m i' end.

Lemma anc_le : forall m i, anc m i <= i.
Proof.
  induction i as [|i IH]; cbn [anc].
  - destruct (lo 0 <=? m); lia.
  - destruct (lo (S i) <=? m); lia.
Qed.

Lemma anc_lo : forall m i, lo (anc m i) <= m.
Proof.
  induction i as [|i IH]; cbn [anc].
  - simpl lo. simpl. lia.
  - destruct (Nat.leb_spec (lo (S i)) m); auto.
Qed.

Lemma anc_between : forall m i x, anc m i < x <= i -> m < lo x.
Proof.
  induction i as [|i IH]; cbn [anc]; intros x Hx.
  - destruct (lo 0 <=? m); lia.
  - destruct (Nat.leb_spec (lo (S i)) m); [lia|].
    destruct (Nat.eq_dec x (S i)) as [->|]; auto. apply IH. lia.
Qed.

Lemma anc_unique : forall m i j, j <= i -> lo j <= m -> (forall x, j < x <= i -> m < lo x) -> anc m i = j.
Proof.
  intros m i j H1 H2 H3. pose proof (anc_le m i). pose proof (anc_lo m i).
  destruct (lt_eq_lt_dec (anc m i) j) as [[L|E]|L]; auto; exfalso.
  - pose proof (anc_between m i j ltac:(lia)). lia.
  - specialize (H3 (anc m i) ltac:(lia)). lia.
Qed.

Lemma anc_item : forall m i, i < n -> m <= leafl i -> item m (anc m i) = true.
Proof.
  intros m i Hi Hm. pose proof (anc_le m i). pose proof (anc_lo m i).
  apply item_spec. split; [lia|]. split; auto.
  destruct (Nat.eq_dec (anc m i) i) as [E|N].
  - rewrite E in *. unfold leafl in Hm. lia.
  - pose proof (anc_between m i (S (anc m i)) ltac:(lia)). rewrite hi_lo. lia.
Qed.

Lemma anc_child : forall m i, i < n -> m < leafl i -> child m (anc m i) = true.
Proof.
  intros m i Hi Hm. pose proof (anc_le m i). pose proof (anc_lo m i).
  apply child_spec. split; [lia|]. split; auto.
  destruct (Nat.eq_dec (anc m i) i) as [E|N].
  - rewrite E in *. unfold leafl in Hm. lia.
  - pose proof (anc_between m i (S (anc m i)) ltac:(lia)). rewrite hi_lo. lia.
Qed.

Lemma anc_leaf : forall i, i < n -> anc (leafl i) i = i /\ leaf (leafl i) i = true.
Proof.
  intros i Hi. split.
  - apply anc_unique; [lia|unfold leafl; lia|intros; lia].
  - apply leaf_spec. auto.
Qed.

Lemma anc_prefix : forall m i, firstn (S m) (kk (anc m i)) = firstn (S m) (kk i).
Proof.
  intros. apply share_prefix; [apply anc_le|]. intros x Hx. apply anc_between in Hx. lia.
Qed.

(** the child node of an ancestor starts with it *)
Lemma anc_same_node : forall m i, i < n -> S m <= leafl i -> same_node (S m) (anc m i) (anc (S m) i).
Proof.
  intros m i Hi Hm. apply lo_same_node. intros x Hx. pose proof (anc_le (S m) i).
  pose proof (anc_between m i x ltac:(lia)). lia.
Qed.

Lemma anc_mono : forall m i, anc m i <= anc (S m) i.
Proof.
  intros. destruct (le_lt_dec (anc m i) (anc (S m) i)) as [|G]; auto.
  pose proof (anc_between (S m) i (anc m i)). pose proof (anc_le m i). pose proof (anc_lo m i). lia.
Qed.

(** ** consequences of the order *)
Hypothesis HS : StronglySorted klt K.

Lemma sorted_nth : forall i j, i < j < n -> klt (kk i) (kk j).
Proof. intros. apply StronglySorted_nth; auto. Qed.

Lemma kk_inj : forall i j, i < n -> j < n -> kk i = kk j -> i = j.
Proof.
  intros i j Hi Hj E. destruct (lt_eq_lt_dec i j) as [[L|]|L]; auto; exfalso.
  - apply (klt_neq (kk i) (kk j)); auto. apply sorted_nth; lia.
  - apply (klt_neq (kk j) (kk i)); auto. apply sorted_nth; lia.
Qed.

Lemma lo_of_prefix : forall l i i', i < i' -> i' < n -> firstn l (kk i) = firstn l (kk i') ->
  forall m, i < m <= i' -> l <= lo m.
Proof.
  intros l i i' Hi Hn HP m Hm.
  assert (X : forall x, i <= x <= i' -> firstn l (kk x) = firstn l (kk i)).
  { intros x Hx. destruct (Nat.eq_dec x i) as [->|]; auto.
    destruct (Nat.eq_dec x i') as [->|]; auto.
    apply sandwich_prefix with (kk i'); auto; apply sorted_nth; lia. }
  destruct m as [|m]; [lia|]. simpl lo.
  assert (Hne : kk m <> kk (S m)) by (apply klt_neq, sorted_nth; lia).
  assert (E : firstn l (kk m) = firstn l (kk (S m))) by (rewrite (X m), (X (S m)) by lia; reflexivity).
  destruct (firstn_neq_len _ _ _ E Hne). apply lcp_ge; auto.
Qed.

Lemma same_node_prefix : forall l i i', i <= i' -> item l i' = true -> same_node l i i' ->
  firstn l (kk i) = firstn l (kk i').
Proof.
  intros. apply share_prefix; auto. apply same_node_lo; auto.
Qed.

Lemma same_node_label : forall l i i', i < i' -> item l i' = true -> same_node l i i' ->
  olab l (kk i) < olab l (kk i').
Proof.
  intros l i i' Hlt Hi HN. pose proof (same_node_lo l i i' Hi HN) as HL.
  assert (Hn : i' < n) by (apply item_spec in Hi; lia).
  destruct i' as [|p]; [lia|].
  assert (E : lo (S p) = l) by (specialize (HL (S p) ltac:(lia)); apply item_spec in Hi; lia).
  assert (H1 : olab l (kk p) < olab l (kk (S p))).
  { rewrite <- E. simpl lo. apply klt_lcp. apply sorted_nth. lia. }
  destruct (Nat.eq_dec i p) as [->|N]; auto.
  assert (H2 : olab l (kk i) <= olab l (kk p)); [|lia].
  apply klt_olab_le; [|apply sorted_nth; lia].
  apply share_prefix; [lia|]. intros. apply HL. lia.
Qed.

(** the item that carries the next byte of a prefix *)
Lemma node_find : forall l j q i0, louds l j = true -> firstn l q = firstn l (kk j) ->
  i0 < n -> firstn (S l) (kk i0) = firstn (S l) q ->
  exists i, j <= i <= i0 /\ item l i = true /\ same_node l j i /\ firstn (S l) (kk i) = firstn (S l) q.
Proof.
  intros l j q i0 Hj HP Hi0 E0.
  assert (X : exists i, i <= i0 /\ firstn (S l) (kk i) = firstn (S l) q /\
     (i = 0 \/ firstn (S l) (kk (i - 1)) <> firstn (S l) q)).
  { clear Hi0. induction i0 as [|i0 IH].
    - exists 0. auto.
    - destruct (list_eq_dec Nat.eq_dec (firstn (S l) (kk i0)) (firstn (S l) q)) as [E|N].
      + destruct (IH E) as (i & A & B & C). exists i. split; [lia|]. auto.
      + exists (S i0). split; [lia|]. split; auto. right. replace (S i0 - 1) with i0 by lia. auto. }
  destruct X as (i & A & B & C). exists i.
  assert (Hl : firstn l (kk i) = firstn l (kk j)).
  { rewrite <- HP. apply firstn_le_eq with (S l); auto. }
  assert (Hjn : j < n) by (apply louds_spec in Hj; lia).
  assert (Hji : j <= i).
  { destruct (le_lt_dec j i) as [|G]; auto. exfalso.
    pose proof (lo_of_prefix l i j G Hjn Hl j ltac:(lia)). apply louds_spec in Hj. lia. }
  assert (Hloi : lo i <= l).
  { destruct i as [|i]; [simpl; lia|]. destruct C as [C|C]; [lia|].
    replace (S i - 1) with i in C by lia.
    destruct (le_lt_dec (lo (S i)) l) as [|G]; auto. exfalso. apply C. rewrite <- B.
    apply lcp_firstn. simpl lo in G. lia. }
  split; [lia|]. destruct (Nat.eq_dec i j) as [->|Nij].
  - split; [apply louds_item; auto|]. split; auto. intros m Hm. lia.
  - assert (HL : forall m, j < m <= i -> l <= lo m) by (apply lo_of_prefix; auto; lia).
    split; [|split; auto].
    + apply item_spec. specialize (HL i). lia.
    + apply lo_same_node. auto.
Qed.

(** ** shape *)
Hypothesis HNE : n <> 0.

Lemma louds_root : louds 0 0 = true.
Proof. apply louds_spec. lia. Qed.

Lemma louds_root_only : forall j, 0 < j -> louds 0 j = false.
Proof. intros. destruct (louds 0 j) eqn:E; auto. apply louds_spec in E. lia. Qed.

Lemma cn_louds_root : cn (louds 0) n = 1.
Proof.
  assert (G : cn (louds 0) (S 0) = 1) by (simpl; rewrite louds_root; reflexivity).
  rewrite <- G. symmetry. apply cn_none_eq; [lia|]. intros. apply louds_root_only. lia.
Qed.

(** the first item of a level starts a node *)
Lemma first_item_louds : forall l j, item l j = true -> cn (item l) j = 0 -> louds l j = true.
Proof.
  intros l j Hi Hc. destruct (node_start l j Hi) as (s & A & B & C).
  destruct (Nat.eq_dec s j) as [->|N]; auto. exfalso.
  pose proof (cn_lt (item l) s j (louds_item _ _ B)). lia.
Qed.

End Trie.
