(** Where a query stands among the stored keys. *)
From Coq Require Import Arith List NArith ZArith Bool Lia ZifyN ZifyNat ZifyBool Sorting.Sorted.
From Verif Require Import Res Spec KeyFacts Trie NodeFacts SuffixFacts SparseFacts LookupFacts IterTrie.
Import ListNotations.

(** the first [l] bytes decide *)
Lemma klt_cut_l : forall l a b q, klt a b -> firstn l a <> firstn l b -> firstn l q = firstn l b -> klt a q.
Proof.
  intros l a b q H HN HP. pose proof (klt_lcp a b H) as L.
  assert (M : lcp a b < l).
  { destruct (le_lt_dec l (lcp a b)) as [G|]; auto. exfalso. apply HN. apply lcp_firstn. auto. }
  assert (E : firstn (S (lcp a b)) q = firstn (S (lcp a b)) b) by (apply firstn_le_eq with l; auto; lia).
  destruct (firstn_S_inv _ _ _ E) as [E1 E2]. apply (klt_of_olab (lcp a b)).
  - rewrite E1. apply lcp_firstn. lia.
  - lia.
Qed.
Lemma klt_cut_r : forall l a b q, klt b a -> firstn l a <> firstn l b -> firstn l q = firstn l b -> klt q a.
Proof.
  intros l a b q H HN HP. pose proof (klt_lcp b a H) as L.
  assert (M : lcp b a < l).
  { destruct (le_lt_dec l (lcp b a)) as [G|]; auto. exfalso. apply HN. symmetry. apply lcp_firstn. auto. }
  assert (E : firstn (S (lcp b a)) q = firstn (S (lcp b a)) b) by (apply firstn_le_eq with l; auto; lia).
  destruct (firstn_S_inv _ _ _ E) as [E1 E2]. apply (klt_of_olab (lcp b a)).
  - rewrite E1. apply lcp_firstn. lia.
  - lia.
Qed.

Section Order.
Variables (K : list bytes).
Notation kk := (kk K). Notation lo := (lo K). Notation hi := (hi K). Notation leafl := (leafl K).
Notation item := (item K). Notation child := (child K). Notation louds := (louds K).
Notation leaf := (leaf K). Notation lab := (lab K). Notation term := (term K). Notation anc := (anc K).
Notation same_node := (same_node K).
Let n := length K.
Hypothesis HS : StronglySorted klt K.
Hypothesis HB : Forall is_bytes K.
Hypothesis HE : Forall (fun k => k <> []) K.
Hypothesis HNE : length K <> 0.

(** the keys below the node of level [l] that starts at [j] are [j .. x] *)
Definition range (l j x : nat) : Prop :=
  j <= x /\ x < n /\ (forall y, j < y <= x -> l <= lo y) /\ (S x = n \/ lo (S x) < l).

Lemma range_exists : forall l j, j < n -> exists x, range l j x.
Proof.
  intros l j Hj.
  assert (G : forall d x, x + d = n - 1 -> j <= x -> (forall y, j < y <= x -> l <= lo y) -> exists x, range l j x).
  { induction d as [|d IH]; intros x Hx Hjx HL.
    - exists x. split; auto. split; [lia|]. split; auto. left. lia.
    - destruct (le_lt_dec l (lo (S x))) as [G|G].
      + apply (IH (S x)); [lia|lia|]. intros y Hy. destruct (Nat.eq_dec y (S x)) as [->|]; auto. apply HL. lia.
      + exists x. split; auto. split; [lia|]. split; auto. }
  apply (G (n - 1 - j) j); [lia|lia|]. intros; lia.
Qed.

Lemma range_prefix : forall l j x y, range l j x -> j <= y <= x -> firstn l (kk y) = firstn l (kk j).
Proof.
  intros l j x y (A & B & C & D) H. symmetry. apply share_prefix; [lia|]. intros m Hm. apply C. lia.
Qed.

Lemma range_before : forall l j x y, louds l j = true -> range l j x -> y < j -> firstn l (kk y) <> firstn l (kk j).
Proof.
  intros l j x y HL HR H E. pose proof (item_lt K l j (louds_item K l j HL)) as Hj.
  pose proof (lo_of_prefix K HS l y j H Hj E j ltac:(lia)) as Q. apply louds_spec in HL. lia.
Qed.

Lemma range_after : forall l j x y, range l j x -> x < y -> y < n -> firstn l (kk y) <> firstn l (kk j).
Proof.
  intros l j x y (A & B & C & D) H Hy E.
  pose proof (lo_of_prefix K HS l j y ltac:(lia) Hy (eq_sym E) (S x) ltac:(lia)) as Q. lia.
Qed.

Lemma before_lt : forall l j x y q, louds l j = true -> range l j x -> y < j -> firstn l q = firstn l (kk j) -> klt (kk y) q.
Proof.
  intros l j x y q HL HR H HP. pose proof (item_lt K l j (louds_item K l j HL)) as Hj.
  apply (klt_cut_l l (kk y) (kk j)); auto.
  - apply (sorted_nth K HS). lia.
  - apply (range_before l j x); auto.
Qed.
Lemma after_lt : forall l j x y q, range l j x -> x < y -> y < n -> firstn l q = firstn l (kk j) -> klt q (kk y).
Proof.
  intros l j x y q HR H Hy HP. pose proof HR as (A & B & _).
  apply (klt_cut_r l (kk y) (kk j)); auto.
  - apply (sorted_nth K HS). fold n. lia.
  - apply (range_after l j x); auto.
Qed.

(** [i] is the index of the first key after [q], or the number of keys *)
Definition first_above (q : bytes) (i : nat) : Prop :=
  i <= n /\ (forall y, y < i -> kle (kk y) q) /\ (i < n -> klt q (kk i)).

Lemma first_above_exists : forall q, exists i, first_above q i.
Proof.
  intros q.
  assert (G : forall d i, i + d = n -> (forall y, y < i -> kle (kk y) q) -> exists i, first_above q i).
  { induction d as [|d IH]; intros i Hi HL.
    - exists i. split; [lia|]. split; auto. lia.
    - destruct (klt_total q (kk i)) as [H|H].
      + exists i. split; [lia|]. split; auto.
      + apply (IH (S i)); [lia|]. intros y Hy. destruct (Nat.eq_dec y i) as [->|]; [|apply HL; lia].
        destruct H as [H|H]; [right; auto|left; auto]. }
  apply (G n 0); [lia|]. intros; lia.
Qed.

Lemma not_both : forall a b, kle a b -> klt b a -> False.
Proof. intros a b [H|H] H'; [exact (klt_asym _ _ H H')|subst; exact (klt_irrefl _ H')]. Qed.

Lemma first_above_unique : forall q i i', first_above q i -> first_above q i' -> i = i'.
Proof.
  assert (G : forall q i i', first_above q i -> first_above q i' -> i' <= i).
  { intros q i i' (A & B & C) (A' & B' & C'). destruct (le_lt_dec i' i) as [|G]; auto. exfalso.
    apply (not_both (kk i) q); [apply B'; auto|apply C; lia]. }
  intros q i i' H H'. pose proof (G q i i' H H'). pose proof (G q i' i H' H). lia.
Qed.

(** inside a node: comparison with the byte at its level *)
Lemma in_lt : forall l j x y q b, range l j x -> j <= y <= x -> firstn l q = firstn l (kk j) -> nth_error q l = Some b ->
  olab l (kk y) < S b -> klt (kk y) q.
Proof.
  intros l j x y q b HR H HP HQ HO. apply (klt_of_olab l).
  - rewrite HP. apply (range_prefix l j x); auto.
  - unfold olab at 2. rewrite HQ. auto.
Qed.
Lemma in_gt : forall l j x y q b, range l j x -> j <= y <= x -> firstn l q = firstn l (kk j) -> nth_error q l = Some b ->
  S b < olab l (kk y) -> klt q (kk y).
Proof.
  intros l j x y q b HR H HP HQ HO. apply (klt_of_olab l).
  - rewrite HP. symmetry. apply (range_prefix l j x); auto.
  - unfold olab at 1. rewrite HQ. auto.
Qed.

Lemma in_olab_mono : forall l j x y y', range l j x -> j <= y -> y <= y' -> y' <= x -> olab l (kk y) <= olab l (kk y').
Proof.
  intros l j x y y' HR H1 H2 H3. destruct (Nat.eq_dec y y') as [->|]; [lia|].
  apply klt_olab_le; [|apply (sorted_nth K HS); destruct HR as (_ & ? & _); fold n; lia].
  rewrite (range_prefix l j x y), (range_prefix l j x y'); auto; lia.
Qed.

(** the item of the node that carries key [y] *)
Lemma range_item : forall l j x y, louds l j = true -> range l j x -> j <= y <= x ->
  exists i, j <= i <= y /\ item l i = true /\ same_node l j i /\ firstn (S l) (kk i) = firstn (S l) (kk y).
Proof.
  intros l j x y HL HR H. pose proof HR as (A & B & _).
  apply (node_find K HS l j (kk y) y); auto; [|fold n; lia].
  apply (range_prefix l j x); auto.
Qed.

Lemma range_same : forall l j x i, range l j x -> j <= i <= x -> same_node l j i.
Proof. intros l j x i (A & B & C & D) H. apply lo_same_node. intros m Hm. apply C. lia. Qed.

Lemma node_in_range : forall l j x i, range l j x -> j <= i -> item l i = true -> same_node l j i -> i <= x.
Proof.
  intros l j x i (A & B & C & D) H HI HN. destruct (le_lt_dec i x) as [|G]; auto. exfalso.
  pose proof (same_node_lo K l j i HI HN (S x) ltac:(lia)) as Q. pose proof (item_lt K l i HI). unfold n in *; lia.
Qed.

(** no label of the node is the next byte of [q] *)
Definition no_label (l j b : nat) : Prop :=
  forall i, j <= i -> item l i = true -> same_node l j i -> term l i = false -> lab l i <> b.

Lemma no_label_olab : forall l j x b y, louds l j = true -> range l j x -> no_label l j b -> j <= y <= x -> olab l (kk y) <> S b.
Proof.
  intros l j x b y HL HR HN H E. destruct (range_item l j x y HL HR H) as (i & A & B & C & D).
  destruct (firstn_S_inv _ _ _ D) as [_ D2]. assert (T : term l i = false).
  { destruct (term l i) eqn:ET; auto. rewrite (olab_term K l i ET) in D2. congruence. }
  apply (HN i ltac:(lia) B C T). rewrite (olab_lab K l i T) in D2. congruence.
Qed.

(** the first key after [q] lies in the node, or is the first one after the node *)
Lemma miss_above : forall l j x b q U, louds l j = true -> range l j x -> firstn l q = firstn l (kk j) ->
  nth_error q l = Some b -> no_label l j b -> first_above q U ->
  (U = S x /\ (forall i, j <= i -> item l i = true -> same_node l j i -> term l i = false -> lab l i < b)) \/
  (j <= U <= x /\ item l U = true /\ same_node l j U /\ term l U = false /\ b < lab l U /\
    forall i, j <= i -> item l i = true -> same_node l j i -> term l i = false -> b < lab l i -> lab l U <= lab l i).
Proof.
  intros l j x b q U HL HR HP HQ HN (U1 & U2 & U3). pose proof HR as (R1 & R2 & R3 & R4).
  pose proof (louds_item K l j HL) as HI.
  assert (UJ : j <= U).
  { destruct (le_lt_dec j U) as [|G]; auto. exfalso.
    apply (klt_asym q (kk U)); [apply U3; lia|]. apply (before_lt l j x); auto. }
  destruct (le_lt_dec U x) as [UX|UX].
  - right. split; [lia|].
    assert (OU : S b < olab l (kk U)).
    { pose proof (no_label_olab l j x b U HL HR HN ltac:(lia)) as Q.
      destruct (lt_eq_lt_dec (olab l (kk U)) (S b)) as [[G|G]|G]; auto; [|congruence]. exfalso.
      apply (klt_asym q (kk U)); [apply U3; lia|]. apply (in_lt l j x U q b); auto. }
    assert (SN : same_node l j U) by (apply (range_same l j x); auto; lia).
    assert (TU : term l U = false).
    { destruct (term l U) eqn:ET; auto. rewrite (olab_term K l U ET) in OU. lia. }
    assert (IU : item l U = true).
    { destruct (range_item l j x U HL HR ltac:(lia)) as (i & A & B & C & D).
      destruct (Nat.eq_dec i U) as [->|NE]; auto. exfalso.
      destruct (firstn_S_inv _ _ _ D) as [_ D2].
      apply (not_both (kk i) q); [apply U2; lia|]. apply (in_gt l j x i q b); auto; lia. }
    rewrite (olab_lab K l U TU) in OU. split; auto. split; auto. split; auto. split; [lia|].
    intros i I1 I2 I3 I4 I5. pose proof (node_in_range l j x i HR I1 I2 I3) as IX.
    assert (U <= i).
    { destruct (le_lt_dec U i) as [|G]; auto. exfalso.
      apply (not_both (kk i) q); [apply U2; lia|]. apply (in_gt l j x i q b); auto.
      rewrite (olab_lab K l i I4). lia. }
    pose proof (in_olab_mono l j x U i HR ltac:(lia) ltac:(lia) ltac:(lia)) as Q.
    rewrite (olab_lab K l U TU), (olab_lab K l i I4) in Q. lia.
  - left. split.
    + destruct (le_lt_dec U (S x)) as [|G]; [lia|]. exfalso.
      apply (not_both (kk (S x)) q); [apply U2; auto|]. apply (after_lt l j x); auto; lia.
    + intros i I1 I2 I3 I4. pose proof (node_in_range l j x i HR I1 I2 I3) as IX.
      pose proof (HN i I1 I2 I3 I4) as NE. destruct (lt_eq_lt_dec (lab l i) b) as [[G|G]|G]; auto; [congruence|]. exfalso.
      apply (not_both (kk i) q); [apply U2; lia|]. apply (in_gt l j x i q b); try lia; auto.
      rewrite (olab_lab K l i I4). lia.
Qed.

Lemma anc_range : forall l j x y m, range l j x -> j <= y <= x -> m < l -> anc m y = anc m j.
Proof.
  intros l j x y m (A & B & C & D) H Hm. apply anc_unique.
  - pose proof (anc_le K m j). lia.
  - apply anc_lo.
  - intros z Hz. destruct (le_lt_dec z j) as [G|G].
    + apply (anc_between K m j). lia.
    + specialize (C z ltac:(lia)). lia.
Qed.

(** the query follows key [i] to its leaf *)
Lemma mt_before : forall q i y, i < n -> mt K q i -> y < i -> klt (kk y) q.
Proof.
  intros q i y Hi M H. apply (klt_cut_l (S (leafl i)) (kk y) (kk i)); auto.
  - apply (sorted_nth K HS). fold n. lia.
  - intros E. pose proof (leafl_dist K HS HNE i y Hi ltac:(fold n; lia) E). lia.
Qed.
Lemma mt_after : forall q i y, i < n -> mt K q i -> i < y -> y < n -> klt q (kk y).
Proof.
  intros q i y Hi M H Hy. apply (klt_cut_r (S (leafl i)) (kk y) (kk i)); auto.
  - apply (sorted_nth K HS). fold n. lia.
  - intros E. pose proof (leafl_dist K HS HNE i y Hi Hy E). lia.
Qed.

(** a key that extends the query *)
Lemma ext_before : forall l j y, louds l j = true -> forall q, firstn l q = firstn l (kk j) -> y < j -> klt (kk y) q.
Proof.
  intros l j y HL q HP H. pose proof (item_lt K l j (louds_item K l j HL)) as Hj.
  destruct (range_exists l j Hj) as (x & HR). apply (before_lt l j x); auto.
Qed.
Lemma ext_lt : forall l j q, louds l j = true -> firstn l q = firstn l (kk j) -> length q = l -> term l j = false -> klt q (kk j).
Proof.
  intros l j q HL HP HQ HT. apply (klt_of_olab l); auto. rewrite (olab_lab K l j HT).
  unfold olab. replace (nth_error q l) with (@None nat); [lia|]. symmetry. apply nth_error_None. lia.
Qed.
End Order.
