(** Strings: common prefixes and order. *)
From Coq Require Import Arith List Bool Lia Sorting.Sorted.
From Verif Require Import BitFacts Spec.
Import ListNotations.

(** length of the longest common prefix *)
Fixpoint lcp (a b : bytes) : nat :=
  match a, b with
  | x :: a', y :: b' => if x =? y then S (lcp a' b') else 0
  | _, _ => 0
  end.

(** byte at a level as a number; the end of the string comes first *)
Definition olab (l : nat) (k : bytes) : nat :=
  match nth_error k l with None => 0 | Some c => S c end.

Lemma lcp_nil_r : forall a, lcp a [] = 0.
Proof. destruct a; reflexivity. Qed.

Lemma lcp_firstn : forall a b n, n <= lcp a b -> firstn n a = firstn n b.
Proof.
  induction a as [|x a IH]; intros [|y b] n H; simpl in H; try (assert (n = 0) by lia; subst; reflexivity).
  destruct (Nat.eqb_spec x y) as [->|N]; [|assert (n = 0) by lia; subst; reflexivity].
  destruct n; [reflexivity|]. simpl. f_equal. apply IH. lia.
Qed.

Lemma lcp_le_l : forall a b, lcp a b <= length a.
Proof.
  induction a as [|x a IH]; intros [|y b]; simpl; try lia.
  destruct (x =? y); [|lia]. specialize (IH b). lia.
Qed.

Lemma lcp_comm : forall a b, lcp a b = lcp b a.
Proof.
  induction a as [|x a IH]; intros [|y b]; simpl; auto.
  rewrite (Nat.eqb_sym y x). destruct (x =? y); auto.
Qed.

Lemma lcp_le_r : forall a b, lcp a b <= length b.
Proof. intros. rewrite lcp_comm. apply lcp_le_l. Qed.

Lemma lcp_ge : forall a b n, n <= length a -> n <= length b -> firstn n a = firstn n b -> n <= lcp a b.
Proof.
  induction a as [|x a IH]; intros [|y b] n Ha Hb H; simpl in *; try lia.
  destruct n; [lia|]. simpl in H. inv H. rewrite Nat.eqb_refl.
  assert (n <= lcp a b) by (apply IH; auto; lia). lia.
Qed.

Lemma lcp_olab : forall a b, a <> b -> olab (lcp a b) a <> olab (lcp a b) b.
Proof.
  induction a as [|x a IH]; intros [|y b] H; simpl; try congruence.
  - unfold olab. simpl. lia.
  - unfold olab. simpl. lia.
  - destruct (Nat.eqb_spec x y) as [->|N].
    + unfold olab in *. simpl. apply IH. congruence.
    + unfold olab. simpl. lia.
Qed.

Lemma klt_lcp : forall a b, klt a b -> olab (lcp a b) a < olab (lcp a b) b.
Proof.
  induction a as [|x a IH]; intros [|y b] H; simpl in *; try tauto.
  - unfold olab. simpl. lia.
  - destruct (Nat.eqb_spec x y) as [->|N].
    + destruct H as [H|[_ H]]; [lia|]. apply IH in H. unfold olab in *. simpl. exact H.
    + destruct H as [H|[? _]]; [|congruence]. unfold olab. simpl. lia.
Qed.

Lemma klt_of_olab : forall l a b, firstn l a = firstn l b -> olab l a < olab l b -> klt a b.
Proof.
  induction l as [|l IH]; intros a b Hp H.
  - unfold olab in H. destruct a as [|x a], b as [|y b]; simpl in *; try lia; auto.
  - destruct a as [|x a], b as [|y b]; simpl in Hp; try discriminate.
    + unfold olab in H. simpl in H. lia.
    + inv Hp. simpl. right. split; auto.
Qed.

Lemma klt_irrefl : forall a, ~ klt a a.
Proof. induction a; simpl; try tauto. intros [H|[_ H]]; [lia|auto]. Qed.

Lemma klt_trans : forall a b c, klt a b -> klt b c -> klt a c.
Proof.
  induction a as [|x a IH]; intros [|y b] [|z c] H1 H2; simpl in *; try tauto.
  destruct H1 as [H1|[-> H1]], H2 as [H2|[-> H2]]; [left; lia|left; lia|left; lia|].
  right. split; auto. eapply IH; eauto.
Qed.

Lemma klt_total : forall a b, klt a b \/ a = b \/ klt b a.
Proof.
  induction a as [|x a IH]; intros [|y b]; simpl; auto.
  destruct (lt_eq_lt_dec x y) as [[L| ->]|L]; auto.
  destruct (IH b) as [H|[->|H]]; auto.
Qed.

Lemma klt_neq : forall a b, klt a b -> a <> b.
Proof. intros a b H ->. exact (klt_irrefl _ H). Qed.

Lemma klt_asym : forall a b, klt a b -> ~ klt b a.
Proof. intros a b H1 H2. apply (klt_irrefl a). eapply klt_trans; eauto. Qed.

Lemma olab_byte : forall l k, is_bytes k -> olab l k <= 256.
Proof.
  intros l k H. unfold olab. destruct (nth_error k l) eqn:E; [|lia].
  apply nth_error_In in E. unfold is_bytes in H. rewrite Forall_forall in H. specialize (H _ E). simpl in H. lia.
Qed.

Lemma olab_zero : forall l k, olab l k = 0 <-> length k <= l.
Proof.
  intros. unfold olab. destruct (nth_error k l) eqn:E.
  - assert (l < length k) by (apply nth_error_Some; congruence). split; lia.
  - apply nth_error_None in E. split; auto.
Qed.

(** strings agreeing on [l] positions and at position [l] agree on [S l] *)
Lemma firstn_S_olab : forall l a b, firstn l a = firstn l b -> olab l a = olab l b ->
  firstn (S l) a = firstn (S l) b.
Proof.
  induction l as [|l IH]; intros a b H1 H2.
  - unfold olab in H2. destruct a, b; simpl in *; try lia; auto. f_equal. congruence.
  - destruct a as [|x a], b as [|y b]; simpl in H1; try discriminate; auto.
    inv H1. change (firstn (S (S l)) (y :: a)) with (y :: firstn (S l) a).
    change (firstn (S (S l)) (y :: b)) with (y :: firstn (S l) b). f_equal. apply IH; auto.
Qed.

Lemma firstn_S_inv : forall l (a b : bytes), firstn (S l) a = firstn (S l) b ->
  firstn l a = firstn l b /\ olab l a = olab l b.
Proof.
  induction l as [|l IH]; intros a b H.
  - split; auto. unfold olab. destruct a, b; simpl in *; try discriminate; auto. inv H. auto.
  - destruct a as [|x a], b as [|y b]; simpl in H; try discriminate; auto.
    change (firstn (S (S l)) (x :: a)) with (x :: firstn (S l) a) in H.
    inv H. destruct (IH a b) as [A B]; [simpl; auto|]. split; [simpl; f_equal; auto|exact B].
Qed.

Lemma firstn_le_eq : forall (a b : bytes) m n, m <= n -> firstn n a = firstn n b -> firstn m a = firstn m b.
Proof.
  intros a b m n H E. replace m with (Nat.min m n) by lia.
  rewrite <- !firstn_firstn, E. reflexivity.
Qed.

(** order of strings that agree up to [l] *)
Lemma klt_olab_le : forall l a b, firstn l a = firstn l b -> klt a b -> olab l a <= olab l b.
Proof.
  intros l a b H1 H2. destruct (le_lt_dec (olab l a) (olab l b)) as [|G]; auto.
  exfalso. apply (klt_asym a b H2). apply (klt_of_olab l); auto.
Qed.

(** if two strings agree up to [l] and are different, both reach [l] *)
Lemma firstn_neq_len : forall l (a b : bytes), firstn l a = firstn l b -> a <> b -> l <= length a /\ l <= length b.
Proof.
  intros l a b H N. assert (L : length (firstn l a) = length (firstn l b)) by congruence.
  rewrite !firstn_length in L.
  destruct (le_lt_dec l (length a)), (le_lt_dec l (length b)); auto; exfalso; apply N.
  - lia.
  - lia.
  - rewrite !firstn_all2 in H by lia. exact H.
Qed.

Lemma sandwich_prefix : forall l a b c, klt a b -> klt b c -> firstn l a = firstn l c ->
  firstn l b = firstn l a.
Proof.
  induction l as [|l IH]; intros a b c Hab Hbc H; [reflexivity|].
  destruct a as [|x a], b as [|y b], c as [|z c]; simpl in *; try tauto; try discriminate.
  inv H. destruct Hab as [?|[E1 Hab]], Hbc as [?|[E2 Hbc]]; try lia. subst. f_equal. eapply IH; eauto.
Qed.
