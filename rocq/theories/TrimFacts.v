(** A filter whose label array is cut to the bytes in use gives the answers of
    the original, as long as it gives one. *)
From Coq Require Import Arith List NArith ZArith Bool Lia.
From Verif Require Import Res Word Config Bitvector Rank Select LabelVector Suffix Builder Dense Sparse Surf
  SpecIter.
Import ListNotations.

Definition le {A} (m m' : res A) : Prop := forall x, m = Ok x -> m' = Ok x.

Lemma le_refl : forall A (m : res A), le m m.
Proof. intros A m x H. exact H. Qed.
Lemma le_bind : forall A B (m m' : res A) (k k' : A -> res B), le m m' -> (forall x, le (k x) (k' x)) -> le (bind m k) (bind m' k').
Proof. intros A B m m' k k' H K y E. destruct m as [x|]; [|discriminate]. rewrite (H x eq_refl). apply K. exact E. Qed.

Ltac mono0 :=
  match goal with
  | |- le ?x ?x => apply le_refl
  | |- le (bind ?m _) (bind ?m _) => apply (le_bind _ _ m m _ _ (le_refl _ m)); intros
  | |- le (bind _ _) (bind _ _) => apply le_bind; [|intros]
  | |- le (if ?b then _ else _) (if ?b then _ else _) => destruct b
  | |- le (if ?b then _ else _) (if ?c then _ else _) => change c with b; destruct b
  | |- le (match ?x with _ => _ end) (match ?x with _ => _ end) => destruct x
  end.

Section Trim.
Variable e : env.
Variables (h st nc cc : nat) (cuts : list N) (ch : bvrank) (ld : bvselect) (sf : bvsuffix).
Variables lv lv' : labelvec.
Hypothesis RD : forall i, le (lv_read e lv' i) (lv_read e lv i).
Let s := mkSparse h st nc cc cuts lv ch ld sf.
Let s' := mkSparse h st nc cc cuts lv' ch ld sf.

(** ** label searches *)
Lemma simd_cmp_le : forall t p, le (simd_cmp e lv' t p) (simd_cmp e lv t p).
Proof.
  intros t p. unfold simd_cmp. apply le_bind; [|intros; apply le_refl]. generalize (seq p 16). intros l.
  induction l as [|x l IH]; cbn [mapM]; [apply le_refl|]. apply le_bind; [apply RD|]. intros y. apply le_bind; [exact IH|intros; apply le_refl].
Qed.

Ltac mono := cbv zeta; repeat first [mono0 | apply RD | apply simd_cmp_le].

Lemma linear_le : forall t n p i, le (linear_loop e lv' t p i n) (linear_loop e lv t p i n).
Proof. intros t. induction n as [|n IH]; intros p i; cbn [linear_loop]; mono. apply IH. Qed.
Lemma binary_le : forall t n p l r, le (binary_loop e n lv' t p l r) (binary_loop e n lv t p l r).
Proof. intros t. induction n as [|n IH]; intros p l r; cbn [binary_loop]; mono; apply IH. Qed.
Lemma simd_le : forall t n p a l, le (simd_loop e n lv' t p a l) (simd_loop e n lv t p a l).
Proof. intros t. induction n as [|n IH]; intros p a l; cbn [simd_loop]; mono; apply IH. Qed.
Lemma search_le : forall t p n, le (lv_search e lv' t p n) (lv_search e lv t p n).
Proof.
  intros t p n. unfold lv_search, linearSearch, binarySearch, simdSearch. mono;
  first [apply linear_le | apply binary_le | apply simd_le].
Qed.
Lemma linear_gt_le : forall t n p i, le (linear_gt_loop e lv' t p i n) (linear_gt_loop e lv t p i n).
Proof. intros t. induction n as [|n IH]; intros p i; cbn [linear_gt_loop]; mono. apply IH. Qed.
Lemma binary_gt_le : forall t n p m l r, le (binary_gt_loop e n lv' t p m l r) (binary_gt_loop e n lv t p m l r).
Proof. intros t. induction n as [|n IH]; intros p m l r; cbn [binary_gt_loop]; mono; apply IH. Qed.
Lemma search_gt_le : forall t p n, le (lv_searchGreaterThan e lv' t p n) (lv_searchGreaterThan e lv t p n).
Proof.
  intros t p n. unfold lv_searchGreaterThan, linearSearchGreaterThan, binarySearchGreaterThan. mono;
  first [apply linear_gt_le | apply binary_gt_le].
Qed.

(** ** the sparse part *)
Ltac monos := cbv zeta; repeat first [mono0 | apply RD | apply search_le | apply search_gt_le | exact (le_refl _ _)].

Lemma lookup_le : forall k r l p, le (s_lookup_loop e s' k r l p) (s_lookup_loop e s k r l p).
Proof. intros k. induction r as [|b r IH]; intros l p; cbn [s_lookup_loop]; monos. apply IH. Qed.
Lemma append_le : forall it p, le (si_append e s' it p) (si_append e s it p).
Proof. intros. unfold si_append. monos. Qed.
Lemma set_le : forall it l p, le (si_set e s' it l p) (si_set e s it l p).
Proof. intros. unfold si_set. monos. Qed.
Lemma left_loop_le : forall n it p, le (si_left_loop e s' n it p) (si_left_loop e s n it p).
Proof. induction n as [|n IH]; intros it p; cbn [si_left_loop]; monos. apply IH. Qed.
Lemma right_loop_le : forall n it p, le (si_right_loop e s' n it p) (si_right_loop e s n it p).
Proof. induction n as [|n IH]; intros it p; cbn [si_right_loop]; monos. apply IH. Qed.
Lemma left_le : forall it, le (si_moveToLeftMostKey e s' it) (si_moveToLeftMostKey e s it).
Proof. intros it. unfold si_moveToLeftMostKey. monos. apply left_loop_le. Qed.
Lemma right_le : forall it, le (si_moveToRightMostKey e s' it) (si_moveToRightMostKey e s it).
Proof. intros it. unfold si_moveToRightMostKey. monos. apply right_loop_le. Qed.
Lemma next_loop_le : forall n it, le (si_next_loop e s' it n) (si_next_loop e s it n).
Proof. induction n as [|n IH]; intros it; cbn [si_next_loop]; monos; first [apply IH | apply set_le | apply left_le]. Qed.
Lemma prev_loop_le : forall n it, le (si_prev_loop e s' it n) (si_prev_loop e s it n).
Proof. induction n as [|n IH]; intros it; cbn [si_prev_loop]; monos; first [apply IH | apply set_le | apply right_le]. Qed.
Lemma s_next_le : forall it, le (si_next e s' it) (si_next e s it).
Proof. intros it. unfold si_next. monos. apply next_loop_le. Qed.
Lemma s_prev_le : forall it, le (si_prev e s' it) (si_prev e s it).
Proof. intros it. unfold si_prev. monos. apply prev_loop_le. Qed.
Lemma subtrie_le : forall p n l it, le (s_moveToLeftInNextSubtrie e s' p n l it) (s_moveToLeftInNextSubtrie e s p n l it).
Proof. intros. unfold s_moveToLeftInNextSubtrie. monos; first [apply append_le | apply s_next_le | apply left_le]. Qed.
Lemma cmp_gt_le : forall p k l it, le (s_compareSuffixGreaterThan e s' p k l it) (s_compareSuffixGreaterThan e s p k l it).
Proof. intros. unfold s_compareSuffixGreaterThan. monos; apply s_next_le. Qed.
Lemma gt_end_le : forall b p it, le (s_gt_end e s' b p it) (s_gt_end e s b p it).
Proof. intros. unfold s_gt_end. monos; first [apply s_next_le | apply left_le]. Qed.
Lemma gt_loop_le : forall k b r l p it, le (s_gt_loop e s' k r b l p it) (s_gt_loop e s k r b l p it).
Proof.
  intros k b. induction r as [|x r IH]; intros l p it; cbn [s_gt_loop]; [apply gt_end_le|]. monos;
  first [apply IH | apply subtrie_le | apply cmp_gt_le].
Qed.
Lemma s_gt_le : forall k b it, le (s_moveToKeyGreaterThan e s' k b it) (s_moveToKeyGreaterThan e s k b it).
Proof. intros. unfold s_moveToKeyGreaterThan. monos. apply gt_loop_le. Qed.

(** ** the filter *)
Variable d : dense.
Let f := mkSurf d s.
Let f' := mkSurf d s'.
Ltac monof := cbv zeta; repeat first [mono0 | apply s_next_le | apply s_prev_le | apply left_le | apply right_le | apply s_gt_le | exact (le_refl _ _)].

Lemma lookupKey_le : forall k, le (lookupKey e f' k) (lookupKey e f k).
Proof. intros k. unfold lookupKey, s_lookupKey. monof. apply lookup_le. Qed.
Lemma incD_le : forall it, le (incrementDenseIter e f' it) (incrementDenseIter e f it).
Proof. intros it. unfold incrementDenseIter. monof. Qed.
Lemma decD_le : forall it, le (decrementDenseIter e f' it) (decrementDenseIter e f it).
Proof. intros it. unfold decrementDenseIter. monof. Qed.
Lemma it_next_le : forall it, le (it_next e f' it) (it_next e f it).
Proof. intros it. unfold it_next, incrementSparseIter. monof. apply incD_le. Qed.
Lemma it_prev_le : forall it, le (it_prev e f' it) (it_prev e f it).
Proof. intros it. unfold it_prev, decrementSparseIter. monof. apply decD_le. Qed.
Lemma move_le : forall m it, le (do_move e f' m it) (do_move e f m it).
Proof. intros [|] it; [apply it_next_le|apply it_prev_le]. Qed.
Lemma seek_gt_le : forall k b, le (moveToKeyGreaterThan e f' k b) (moveToKeyGreaterThan e f k b).
Proof. intros k b. unfold moveToKeyGreaterThan. monof. apply incD_le. Qed.
Lemma first_le : le (moveToFirst e f') (moveToFirst e f).
Proof. unfold moveToFirst, si_setToFirstLabelInRoot. change (iter_new f') with (iter_new f). monof; apply RD. Qed.
Lemma last_le : le (moveToLast e f') (moveToLast e f).
Proof. unfold moveToLast, si_setToLastLabelInRoot. change (iter_new f') with (iter_new f). monof; apply RD. Qed.
Lemma seek_lt_le : forall k b, le (moveToKeyLessThan e f' k b) (moveToKeyLessThan e f k b).
Proof.
  intros k b. unfold moveToKeyLessThan. apply le_bind; [apply seek_gt_le|]. intros it. monof;
  first [apply last_le | apply it_prev_le | apply lookupKey_le].
Qed.
Lemma range_le : forall it l li r ri, le (lookupRange_st e f' it l li r ri) (lookupRange_st e f it l li r ri).
Proof. intros. unfold lookupRange_st. monof; apply incD_le. Qed.
Lemma extend_le : forall n i ll rl lp rp ld' rd, le (s_extend_loop e s' n i ll rl lp rp ld' rd) (s_extend_loop e s n i ll rl lp rp ld' rd).
Proof. induction n as [|n IH]; intros; cbn [s_extend_loop]; monof. apply IH. Qed.
Lemma count_loop_le : forall o ls i rs c, le (s_count_loop e s' o i ls rs c) (s_count_loop e s o i ls rs c).
Proof. intros o. induction ls as [|x ls IH]; intros; cbn [s_count_loop]; monof. apply IH. Qed.
Lemma count_it_le : forall a b, le (approxCount_it e f' a b) (approxCount_it e f a b).
Proof. intros. unfold approxCount_it, s_approxCount, s_extendPosList. monof; first [apply extend_le | apply count_loop_le]. Qed.
Lemma count_le : forall l r, le (approxCount e f' l r) (approxCount e f l r).
Proof.
  intros l r. unfold approxCount. apply le_bind; [apply seek_gt_le|]. intros a. destruct (negb (it_valid a)); [apply le_refl|].
  apply le_bind; [apply seek_gt_le|]. intros b. apply le_bind; [destruct (negb (it_valid b)); [apply last_le|apply le_refl]|].
  intros b'. apply count_it_le.
Qed.
Lemma same_reads : forall it, (forall k, it_compare e f' it k = it_compare e f it k) /\
  it_getSuffix e f' it = it_getSuffix e f it /\ it_getKeyWithSuffix e f' it = it_getKeyWithSuffix e f it /\
  iter_new f' = iter_new f.
Proof. intros it. repeat split. Qed.
End Trim.
