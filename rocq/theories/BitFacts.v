(** Lists of booleans: counting and selecting. *)
From Coq Require Import Arith List NArith ZArith Bool Lia.
Import ListNotations.

Ltac inv H := inversion H; subst; clear H.

Fixpoint cnt (l : list bool) : nat :=
  match l with [] => 0 | b :: t => (if b then 1 else 0) + cnt t end.

Lemma cnt_app : forall a b, cnt (a ++ b) = cnt a + cnt b.
Proof. induction a as [|x a IH]; intros; simpl; [reflexivity|rewrite IH; lia]. Qed.

Lemma cnt_repeat_false : forall n, cnt (repeat false n) = 0.
Proof. induction n; simpl; auto. Qed.

Lemma cnt_le_length : forall l, cnt l <= length l.
Proof. induction l as [|[] l IH]; simpl; lia. Qed.

Lemma cnt_firstn_le : forall l n, cnt (firstn n l) <= cnt l.
Proof.
  intros. rewrite <- (firstn_skipn n l) at 2. rewrite cnt_app. lia.
Qed.

Lemma cnt_firstn_S : forall l n, n < length l ->
  cnt (firstn (S n) l) = cnt (firstn n l) + (if nth n l false then 1 else 0).
Proof.
  induction l as [|b l IH]; intros n H; simpl in H; [lia|].
  destruct n as [|n]; [simpl; lia|].
  change (firstn (S (S n)) (b :: l)) with (b :: firstn (S n) l).
  change (firstn (S n) (b :: l)) with (b :: firstn n l).
  cbn [cnt nth]. rewrite IH by lia. lia.
Qed.

Lemma cnt_firstn_mono : forall l m n, m <= n -> cnt (firstn m l) <= cnt (firstn n l).
Proof.
  intros l m n H. rewrite <- (firstn_firstn l m n) || idtac.
  replace (firstn m l) with (firstn m (firstn n l))
    by (rewrite firstn_firstn; f_equal; lia).
  apply cnt_firstn_le.
Qed.

(** position of the k-th (one-based) true *)
Fixpoint sel (k : nat) (l : list bool) : nat :=
  match l with
  | [] => 0
  | true :: t => match k with
                 | 0 | 1 => 0
                 | S k' => S (sel k' t)
                 end
  | false :: t => S (sel k t)
  end.

Lemma sel_app_l : forall a b k, 1 <= k -> k <= cnt a -> sel k (a ++ b) = sel k a.
Proof.
  induction a as [|x a IH]; intros b k H1 H; simpl in H; [lia|].
  destruct x; simpl.
  - destruct k as [|[|k]]; auto. rewrite IH; auto; lia.
  - rewrite IH; auto.
Qed.

Lemma sel_app_r : forall a b k, cnt a < k -> sel k (a ++ b) = length a + sel (k - cnt a) b.
Proof.
  induction a as [|x a IH]; intros b k H; simpl in *.
  - f_equal; lia.
  - destruct x; simpl.
    + destruct k as [|[|k]]; try lia. rewrite IH by lia. simpl. reflexivity.
    + rewrite IH by lia. reflexivity.
Qed.

(** characterisation: p is the k-th true iff bit p is set and k-1 before it *)
Lemma sel_spec : forall l k, 1 <= k -> k <= cnt l ->
  sel k l < length l /\ nth (sel k l) l false = true /\ cnt (firstn (sel k l) l) = k - 1.
Proof.
  induction l as [|x l IH]; intros k H1 H; simpl in H; [lia|].
  destruct x; simpl.
  - destruct k as [|[|k]]; try lia.
    + simpl. repeat split; lia.
    + destruct (IH (S k)) as (A & B & C); try lia.
      repeat split; try lia; auto. simpl. rewrite C. lia.
  - destruct (IH k) as (A & B & C); try lia.
    repeat split; try lia; auto.
Qed.

Lemma sel_unique : forall l k p, p < length l -> nth p l false = true ->
  cnt (firstn p l) + 1 = k -> sel k l = p.
Proof.
  induction l as [|x l IH]; intros k p Hp Hb Hc; simpl in Hp; [lia|].
  destruct p as [|p].
  - simpl in *. subst x. subst k. reflexivity.
  - simpl in Hb, Hc. destruct x; simpl.
    + destruct k as [|[|k]]; try lia. f_equal. apply IH; auto; lia.
    + f_equal. apply IH; auto; lia.
Qed.

(** index of the first true, or the length *)
Fixpoint first_true (l : list bool) : nat :=
  match l with
  | [] => 0
  | true :: _ => 0
  | false :: t => S (first_true t)
  end.

Lemma first_true_le : forall l, first_true l <= length l.
Proof. induction l as [|[] l IH]; simpl; lia. Qed.

Lemma first_true_app_false : forall a b, cnt a = 0 -> first_true (a ++ b) = length a + first_true b.
Proof.
  induction a as [|[] a IH]; intros b H; simpl in *; try lia. rewrite IH by lia. reflexivity.
Qed.

Lemma first_true_app_true : forall a b, cnt a <> 0 -> first_true (a ++ b) = first_true a.
Proof.
  induction a as [|[] a IH]; intros b H; simpl in *; try lia. rewrite IH by lia. reflexivity.
Qed.

Lemma first_true_none : forall l, cnt l = 0 -> first_true l = length l.
Proof. induction l as [|[] l IH]; simpl; intros; lia. Qed.

Lemma first_true_spec : forall l, cnt l <> 0 ->
  first_true l < length l /\ nth (first_true l) l false = true /\
  (forall i, i < first_true l -> nth i l false = false).
Proof.
  induction l as [|[] l IH]; simpl; intros H; try lia.
  - repeat split; auto; try lia.
  - destruct IH as (A & B & C); [lia|]. repeat split; try lia; auto.
    intros [|i] Hi; auto. apply C; lia.
Qed.

Lemma cnt_zero_nth : forall l, cnt l = 0 <-> forall i, nth i l false = false.
Proof.
  induction l as [|x l IH]; simpl; split; intros H.
  - intros []; reflexivity.
  - reflexivity.
  - destruct x; [lia|]. intros [|i]; auto. apply IH; lia.
  - pose proof (H 0) as H0. simpl in H0. subst x. apply IH. intros i. apply (H (S i)).
Qed.

Lemma first_true_unique : forall l p, p < length l -> nth p l false = true ->
  (forall i, i < p -> nth i l false = false) -> first_true l = p.
Proof.
  induction l as [|x l IH]; intros p Hp Hb Hf; simpl in Hp; [lia|].
  destruct p as [|p].
  - simpl in Hb. subst x. reflexivity.
  - pose proof (Hf 0 ltac:(lia)) as H0. simpl in H0. subst x. simpl. f_equal.
    apply IH; auto; try lia. intros i Hi. apply (Hf (S i)). lia.
Qed.

Lemma nth_firstn' : forall (A : Type) (l : list A) i n d, i < n -> nth i (firstn n l) d = nth i l d.
Proof.
  induction l as [|x l IH]; intros i n d H; destruct n, i; simpl; try lia; auto.
  apply IH. lia.
Qed.

Lemma nth_skipn' : forall (A : Type) (l : list A) i n d, nth i (skipn n l) d = nth (n + i) l d.
Proof.
  induction l as [|x l IH]; intros i n d; destruct n; simpl; auto.
  destruct i; reflexivity.
Qed.

Lemma list_ext : forall (A : Type) (d : A) l1 l2, length l1 = length l2 ->
  (forall i, i < length l1 -> nth i l1 d = nth i l2 d) -> l1 = l2.
Proof.
  intros A d l1 l2 HL H. eapply nth_ext; eauto.
Qed.

Lemma cnt_rev : forall l, cnt (rev l) = cnt l.
Proof. induction l as [|x l IH]; simpl; auto. rewrite cnt_app, IH. simpl. lia. Qed.
