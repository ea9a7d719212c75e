(** What ++ and -- report, and iterators that are not valid. *)
From Coq Require Import Arith List NArith ZArith Bool Lia.
From Verif Require Import Res Config Builder Dense Sparse Surf Spec SpecApi SpecFilter SpecIter SpecRange SpecExact SpecDepend
  KeyFacts BuilderFacts StructFacts PointFacts IterApi RangeApi.
Import ListNotations.

Lemma dense_next_fp : forall e f it b it', incrementDenseIter e f it = Ok (b, it') -> it_fp it' = it_fp it.
Proof.
  intros e f it b it' H. unfold incrementDenseIter in H. destruct (negb (di_valid (it_d it))); [congruence|].
  destruct (di_next e (sf_dense f) (it_d it)) as [d|]; [|discriminate H]. cbn [bind] in H.
  destruct (negb (di_valid d)); [injection H as _ <-; reflexivity|]. destruct (di_left d); [injection H as _ <-; reflexivity|].
  destruct (si_moveToLeftMostKey _ _ _) as [s|]; [|discriminate H]. cbn [bind] in H. injection H as _ <-. reflexivity.
Qed.
Lemma dense_prev_fp : forall e f it b it', decrementDenseIter e f it = Ok (b, it') -> it_fp it' = it_fp it.
Proof.
  intros e f it b it' H. unfold decrementDenseIter in H. destruct (negb (di_valid (it_d it))); [congruence|].
  destruct (di_prev e (sf_dense f) (it_d it)) as [d|]; [|discriminate H]. cbn [bind] in H.
  destruct (negb (di_valid d)); [injection H as _ <-; reflexivity|]. destruct (di_right d); [injection H as _ <-; reflexivity|].
  destruct (si_moveToRightMostKey _ _ _) as [s|]; [|discriminate H]. cbn [bind] in H. injection H as _ <-. reflexivity.
Qed.

Theorem move_flag : forall e f m it b it', do_move e f m it = Ok (b, it') -> it_fp it' = it_fp it.
Proof.
  intros e f m it b it' H. destruct m; cbn [do_move] in H; unfold it_next, it_prev in H; (destruct (negb (it_valid it)); [congruence|]).
  - unfold incrementSparseIter in H. destruct (negb (si_valid (it_s it))); cbn [bind] in H; [exact (dense_next_fp _ _ _ _ _ H)|].
    destruct (si_next e (sf_sparse f) (it_s it)) as [s|]; [|discriminate H]. cbn [bind] in H.
    destruct (si_valid s); [injection H as _ <-; reflexivity|exact (dense_next_fp _ _ _ _ _ H)].
  - unfold decrementSparseIter in H. destruct (negb (si_valid (it_s it))); cbn [bind] in H; [exact (dense_prev_fp _ _ _ _ _ H)|].
    destruct (si_prev e (sf_sparse f) (it_s it)) as [s|]; [|discriminate H]. cbn [bind] in H.
    destruct (si_valid s); [injection H as _ <-; reflexivity|exact (dense_prev_fp _ _ _ _ _ H)].
Qed.

Theorem first_flag : forall e f it, moveToFirst e f = Ok it -> it_fp it = false.
Proof.
  intros e f it H. unfold moveToFirst in H. destruct (0 <? d_height (sf_dense f)).
  - destruct (di_setToFirstLabelInRoot _ _ _) as [d|]; [|discriminate H]. cbn [bind] in H.
    destruct (di_moveToLeftMostKey _ _ _) as [d'|]; [|discriminate H]. cbn [bind] in H.
    destruct (di_left d'); [injection H as <-; reflexivity|].
    destruct (si_moveToLeftMostKey _ _ _) as [s|]; [|discriminate H]. cbn [bind] in H. injection H as <-. reflexivity.
  - destruct (si_setToFirstLabelInRoot _ _ _) as [d|]; [|discriminate H]. cbn [bind] in H.
    destruct (si_moveToLeftMostKey _ _ _) as [d'|]; [|discriminate H]. cbn [bind] in H. injection H as <-. reflexivity.
Qed.
Theorem last_flag : forall e f it, moveToLast e f = Ok it -> it_fp it = false.
Proof.
  intros e f it H. unfold moveToLast in H. destruct (0 <? d_height (sf_dense f)).
  - destruct (di_setToLastLabelInRoot _ _ _) as [d|]; [|discriminate H]. cbn [bind] in H.
    destruct (di_moveToRightMostKey _ _ _) as [d'|]; [|discriminate H]. cbn [bind] in H.
    destruct (di_right d'); [injection H as <-; reflexivity|].
    destruct (si_moveToRightMostKey _ _ _) as [s|]; [|discriminate H]. cbn [bind] in H. injection H as <-. reflexivity.
  - destruct (si_setToLastLabelInRoot _ _ _) as [d|]; [|discriminate H]. cbn [bind] in H.
    destruct (si_moveToRightMostKey _ _ _) as [d'|]; [|discriminate H]. cbn [bind] in H. injection H as <-. reflexivity.
Qed.
Theorem less_flag : forall e f q incl it, moveToKeyLessThan e f q incl = Ok it ->
  exists it0, moveToKeyGreaterThan e f q false = Ok it0 /\ it_fp it = it_valid it0 && it_fp it0.
Proof.
  intros e f q incl it H. unfold moveToKeyLessThan in H. destruct (moveToKeyGreaterThan e f q false) as [it0|]; [|discriminate H].
  exists it0. split; [reflexivity|]. cbn [bind] in H. destruct (it_valid it0); cbn [negb andb] in *; [|exact (last_flag _ _ _ H)].
  destruct (it_fp it0) eqn:F; cbn [negb] in H; [injection H as <-; exact F|].
  destruct (it_prev e f it0) as [[b1 it1]|] eqn:E1; [|discriminate H]. cbn [bind] in H.
  assert (F1 : it_fp it1 = false) by (rewrite <- F; exact (move_flag e f Bwd _ _ _ E1)).
  destruct (lookupKey e f q) as [[|]|]; [| |discriminate H]; cbn [bind] in H; [|injection H as <-; exact F1].
  destruct (it_prev e f it1) as [[b2 it2]|] eqn:E2; [|discriminate H]. cbn [bind] in H. injection H as <-.
  rewrite <- F1. exact (move_flag e f Bwd _ _ _ E2).
Qed.

Theorem invalid_calls : forall e f it, it_valid it = false ->
  (forall m, do_move e f m it = Ok (false, it)) /\ it_getKey it = Ok [] /\
  it_getSuffix e f it = Ok (0, None) /\ it_getKeyWithSuffix e f it = Ok ([], 0) /\
  (asserts e = true -> forall q, it_compare e f it q = Fail AssertFail).
Proof.
  intros e f it V. unfold it_getKey, it_getSuffix, it_getKeyWithSuffix, it_compare, massert. rewrite V. cbn [negb].
  split; [intros [|]; cbn [do_move]; unfold it_next, it_prev; rewrite V; reflexivity|]. repeat (split; [reflexivity|]).
  intros A q. rewrite A. reflexivity.
Qed.
Theorem clear_calls : forall it, it_valid (it_clear it) = false /\ it_fp (it_clear it) = it_fp it.
Proof. intros [d s b]. split; reflexivity. Qed.
Theorem new_calls : forall f, it_valid (iter_new f) = false /\ it_fp (iter_new f) = false.
Proof. intros f. split; reflexivity. Qed.

Theorem move_report : forall e c keys f,
  machine e -> settings c -> good_keys keys -> ~ lone_ff keys -> filter_of e c keys f ->
  forall m it, gotten e f keys it -> exists b it' p p',
    do_move e f m it = Ok (b, it') /\ stands e c f keys it p /\ stands e c f keys it' p' /\
    ahead keys m (getSparseStartLevel f) p p' /\ it_valid it = present p /\ it_valid it' = present p' /\ b = present p'.
Proof.
  intros e c keys f HM HC HG HL HF m it Go.
  destruct (gotten_placed keys HG e c f HM HC HF HL it Go) as (p & P).
  destruct (move_placed keys HG e c f HM HC HF HL m it p P) as (b & it' & p' & E & A & P' & B).
  assert (V : forall x y, placed keys f x y -> it_valid x = present y).
  { intros x [i|] X; cbn [placed present] in *; [|exact X]. destruct X as [_ X]. apply (IterFacts.it_at_valid _ _ _ _ X). }
  exists b, it', p, p'. split; [exact E|].
  split; [apply (placed_stands keys HG); auto|]. split; [apply (placed_stands keys HG); auto|]. split; [exact A|].
  split; [apply V; exact P|]. split; [apply V; exact P'|]. rewrite B. apply V. exact P'.
Qed.
