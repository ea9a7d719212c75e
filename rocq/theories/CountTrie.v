(** Leaves and items of the trie level by level: the counts behind approxCount. *)
From Coq Require Import Arith List NArith ZArith Bool Lia ZifyN ZifyNat ZifyBool Sorting.Sorted.
From Verif Require Import Res Config Spec KeyFacts Builder Trie BuilderFacts StructFacts DenseBuild NodeFacts SparseFacts DenseFacts IterTrie IterSparse CountBits.
Import ListNotations.

Section CT.
Variable K : list bytes.
Notation kk := (kk K). Notation lo := (lo K). Notation hi := (hi K). Notation leafl := (leafl K).
Notation item := (item K). Notation child := (child K). Notation louds := (louds K).
Notation leaf := (leaf K). Notation anc := (anc K). Notation height := (height K).
Notation nit := (nit K). Notation nds := (nds K).
Let n := length K.
Hypothesis HNE : length K <> 0.

Lemma leaf_anc : forall m i, i < n -> cn (leaf m) (anc m i) = cn (leaf m) i.
Proof.
  intros m i Hi. apply cn_none_eq; [apply anc_le|]. intros j [J1 J2].
  destruct (leaf m j) eqn:L; auto. exfalso. apply leaf_spec in L. destruct L as [L1 L2].
  pose proof (anc_between K m i (S j) ltac:(lia)) as B. rewrite <- hi_lo in B. pose proof (hi_le K j). lia.
Qed.

Lemma leaf_after : forall m i, m <> leafl i -> cn (leaf m) (S i) = cn (leaf m) i.
Proof.
  intros m i H. cbn [cn]. destruct (leaf m i) eqn:L; [|lia]. apply leaf_spec in L. lia.
Qed.

Lemma leaf_at : forall i, i < n -> cn (leaf (leafl i)) (S i) = S (cn (leaf (leafl i)) i).
Proof. intros i H. cbn [cn]. rewrite (proj2 (anc_leaf K i H)). lia. Qed.

Lemma cn_one : forall a h, a < h -> cn (fun l => l =? a) h = 1.
Proof.
  intros a h. induction h as [|h IH]; intros H; [lia|]. cbn [cn]. destruct (Nat.eqb_spec h a) as [->|N].
  - assert (X : cn (fun l => l =? a) a = 0); [|lia]. change 0 with (cn (fun l => l =? a) 0). symmetry. apply cn_none_eq; [lia|].
    intros. lia.
  - rewrite IH by lia. lia.
Qed.

Hypothesis Hh : forall i, i < n -> leafl i < height.
Lemma leaf_sum : forall t, t <= n -> sm (fun l => cn (leaf l) t) height = t.
Proof.
  intros t Ht. rewrite (sm_swap K). induction t as [|t IH]; [reflexivity|]. cbn [sm]. rewrite IH by lia.
  assert (X : cn (fun l => leaf l t) height = cn (fun l => l =? leafl t) height).
  2: { rewrite X, cn_one by (apply Hh; lia). lia. }
  apply cn_ext. intros l _. destruct (leaf l t) eqn:L.
  - apply leaf_spec in L. destruct L as [_ L]. symmetry. apply Nat.eqb_eq. exact L.
  - destruct (Nat.eqb_spec l (leafl t)) as [->|]; auto. rewrite (proj2 (anc_leaf K t Ht)) in L. discriminate.
Qed.

(** [x] is the first item of level [m] to the right of key [i] *)
Definition nextit (m i x : nat) : Prop := i < x /\ item m x = true /\ forall y, i < y -> y < x -> item m y = false.

Lemma next_cn : forall m i x, nextit m i x -> cn (item m) x = cn (item m) (S i).
Proof. intros m i x (A & B & C). symmetry. apply cn_none_eq; [lia|]. intros y Hy. apply C; lia. Qed.

Lemma next_find : forall m i, cn (item m) (S i) < nit m -> exists x, nextit m i x.
Proof.
  intros m i. unfold SparseFacts.nit. clear HNE Hh n. induction (length K) as [|h IH]; intros H; [cbn in H; lia|].
  destruct (Nat.le_gt_cases h i) as [L|L].
  - exfalso. assert (cn (item m) (S h) <= cn (item m) (S i)) by (apply cn_mono; lia). lia.
  - destruct (Nat.lt_ge_cases (cn (item m) (S i)) (cn (item m) h)) as [L2|L2]; [auto|].
    assert (X : cn (item m) (S i) = cn (item m) h).
    { pose proof (cn_mono (item m) (S i) h ltac:(lia)) as M. apply Nat.le_antisymm; assumption. }
    exists h. split; [auto|]. split.
    + destruct (item m h) eqn:I; auto. assert (Y : cn (item m) (S h) = cn (item m) h + 0) by (cbn [cn]; rewrite I; reflexivity). lia.
    + intros y Y1 Y2. apply (cn_eq_none (item m) (S i) h); auto; lia.
Qed.

Lemma next_none : forall m i, nit m <= cn (item m) (S i) -> forall x, i < x -> item m x = false.
Proof.
  intros m i H x Hx. destruct (item m x) eqn:I; auto. exfalso. pose proof (item_lt K m x I) as L.
  pose proof (cn_lt (item m) x (length K) I L) as Q. unfold SparseFacts.nit in H.
  pose proof (cn_mono (item m) (S i) x ltac:(lia)). lia.
Qed.
Lemma none_next : forall m i, i < n -> (forall x, i < x -> item m x = false) -> cn (item m) (S i) = nit m.
Proof. intros m i Hi H. unfold SparseFacts.nit. apply cn_none_eq; [unfold n in *; lia|]. intros y Hy. apply H. lia. Qed.

(** what lies right of [i] below level [m] hangs below something right of [i] *)
Lemma up_right : forall m i x, leafl i <= m -> i < x -> item (S m) x = true -> i < anc m x /\ item m (anc m x) = true.
Proof.
  intros m i x L Hx I. pose proof (item_lt K _ _ I) as Hn. apply item_spec in I.
  assert (Q : m <= leafl x) by (unfold Trie.leafl; lia). split; [|apply anc_item; auto].
  destruct (Nat.le_gt_cases (anc m x) i) as [G|G]; auto. exfalso.
  pose proof (anc_between K m x (S i) ltac:(lia)) as B. rewrite <- hi_lo in B. pose proof (hi_le K i). lia.
Qed.

Lemma none_deeper : forall m i, leafl i <= m -> (forall x, i < x -> item m x = false) -> forall x, i < x -> item (S m) x = false.
Proof.
  intros m i L H x Hx. destruct (item (S m) x) eqn:I; auto. exfalso.
  destruct (up_right m i x L Hx I) as [A B]. rewrite (H _ A) in B. discriminate.
Qed.
Lemma between_deeper : forall m s t, leafl s <= m -> (forall x, s < x -> x <= t -> item m x = false) ->
  forall m', m <= m' -> forall x, s < x -> x <= t -> item m' x = false.
Proof.
  intros m s t L H m' Hm. induction Hm as [|m' Hm IH]; auto. intros x X1 X2.
  destruct (item (S m') x) eqn:I; auto. exfalso.
  destruct (up_right m' s x ltac:(lia) X1 I) as [A B]. rewrite IH in B; auto; [discriminate|]. pose proof (anc_le K m' x). lia.
Qed.

(** below its leaf, the next item right of [i] starts a node *)
Lemma next_louds : forall m i x, leafl i < m -> nextit m i x -> louds m x = true.
Proof.
  intros m i x L (A & B & C). pose proof (item_lt K _ _ B) as Hn. apply item_spec in B as B'. destruct B' as (_ & B1 & B2).
  destruct (Nat.eq_dec (lo x) m) as [E|E].
  - exfalso. destruct x as [|x]; [lia|]. destruct (Nat.eq_dec x i) as [->|NE].
    + rewrite <- hi_lo in E. pose proof (hi_le K i). lia.
    + assert (Q : m <= leafl x) by (rewrite <- hi_lo in E; pose proof (hi_le K x); lia).
      pose proof (anc_item K m x ltac:(lia) Q) as I. pose proof (anc_le K m x) as LE.
      destruct (Nat.le_gt_cases (anc m x) i) as [G|G].
      * pose proof (anc_between K m x (S i) ltac:(lia)) as W. rewrite <- hi_lo in W. pose proof (hi_le K i). lia.
      * rewrite C in I by lia. discriminate.
  - apply louds_spec. split; auto. left. lia.
Qed.
Lemma next_louds_cn : forall m i x, leafl i < m -> nextit m i x -> cn (louds m) x = cn (louds m) (S i).
Proof.
  intros m i x L (A & B & C). symmetry. apply cn_none_eq; [lia|]. intros y Hy.
  destruct (louds m y) eqn:E; auto. apply louds_item in E. rewrite C in E by lia. discriminate.
Qed.
Lemma none_louds : forall m i, i < n -> (forall x, i < x -> item m x = false) -> cn (louds m) (S i) = cn (louds m) n.
Proof.
  intros m i Hi H. apply cn_none_eq; [lia|]. intros y Hy. destruct (louds m y) eqn:E; auto.
  apply louds_item in E. rewrite H in E by lia. discriminate.
Qed.
Lemma not_child : forall m i, leafl i <= m -> child m i = false.
Proof. intros m i H. destruct (child m i) eqn:E; auto. apply child_spec in E. pose proof (hi_le K i). lia. Qed.

(** ** keys between [s] and [t] whose leaf is at level [m], [s] itself not counted *)
Definition lvl (s t m : nat) : nat := cn (leaf m) t - cn (leaf m) s - b2n (m =? leafl s).

Lemma lvl_le : forall s t m, lvl s t m <= cn (leaf m) t.
Proof. intros. unfold lvl. lia. Qed.

Lemma lvl_exact : forall s t m, s < t -> t <= n -> lvl s t m + b2n (m =? leafl s) + cn (leaf m) s = cn (leaf m) t.
Proof.
  intros s t m H Ht. unfold lvl. pose proof (cn_mono (leaf m) (S s) t ltac:(lia)) as M.
  destruct (Nat.eqb_spec m (leafl s)) as [->|N]; unfold b2n.
  - rewrite leaf_at in M by lia. lia.
  - rewrite leaf_after in M by auto. lia.
Qed.
Lemma sm_one : forall a h, sm (fun m => b2n (m =? a)) h = if a <? h then 1 else 0.
Proof.
  intros a. induction h as [|h IH]; [reflexivity|]. cbn [sm]. rewrite IH. unfold b2n.
  destruct (Nat.eqb_spec h a); destruct (Nat.ltb_spec a h); destruct (Nat.ltb_spec a (S h)); lia.
Qed.
Lemma lvl_sum : forall s t, s <= t -> t <= n -> sm (lvl s t) height = t - s - 1.
Proof.
  intros s t H Ht. destruct (Nat.eq_dec s t) as [->|NE].
  - replace (t - t - 1) with 0 by lia. clear. induction height as [|h IH]; [reflexivity|]. cbn [sm]. rewrite IH. unfold lvl. lia.
  - pose proof (leaf_sum t Ht) as A. pose proof (leaf_sum s ltac:(lia)) as B.
    assert (C : sm (fun m => (lvl s t m + b2n (m =? leafl s)) + cn (leaf m) s) height = sm (fun l => cn (leaf l) t) height).
    { apply sm_ext. intros m _. apply lvl_exact; auto. lia. }
    rewrite (DenseFacts.sm_add (fun m => lvl s t m + b2n (m =? leafl s)) (fun m => cn (leaf m) s)) in C.
    rewrite (DenseFacts.sm_add (lvl s t) (fun m => b2n (m =? leafl s))) in C.
    rewrite sm_one in C. pose proof (Hh s ltac:(lia)) as Q. apply Nat.ltb_lt in Q. rewrite Q in C. lia.
Qed.

(** nothing at level [m] or below between [s] and [t]: the levels add nothing *)
Lemma lvl_none : forall s t m, leafl s < m -> t < n -> (forall x, s < x -> x <= t -> item m x = false) ->
  forall m', m <= m' -> lvl s t m' = 0.
Proof.
  intros s t m L Ht H m' Hm. unfold lvl. destruct (Nat.le_gt_cases t s) as [G|G].
  - pose proof (cn_mono (leaf m') t s G). lia.
  - rewrite <- (leaf_after m' s) by lia.
    rewrite (cn_none_eq (leaf m') (S s) t); [lia|lia|]. intros y Hy. unfold Trie.leaf.
    rewrite (between_deeper m s t ltac:(lia) H m' Hm y) by lia. reflexivity.
Qed.
End CT.
