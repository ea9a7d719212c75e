(** Programs of several threads for the examples and counterexamples. *)
From Coq Require Import List NArith ZArith Bool Arith Lia.
From Verif Require Import Res Config Builder Dense Sparse Surf Spec SpecApi SpecIter SpecSession Threads Samples SamplesSafe.
Import ListNotations.

(** the answers each thread has after the schedule *)
Definition race (e : env) (c : config) (keys : list bytes) (ps : list (list call)) (sched : list nat) : res (list (list SpecSession.answer)) :=
  f <- create e c keys ;; '(_, ts) <- run_programs e f ps sched ;; Ok (map th_out ts).

Definition programs3 : list (list call) :=
  [[CLookup [97]; CFirst; CMove 0 Fwd]; [CRange [97] true [98] true]; [CLast; CMove 0 Bwd; CLook 0]].
Lemma programs3_one : forall i j p q, nth_error programs3 i = Some p -> nth_error programs3 j = Some q ->
  existsb uses_member p = true -> existsb uses_member q = true -> i = j.
Proof.
  assert (U : forall i p, nth_error programs3 i = Some p -> existsb uses_member p = true -> i = 1).
  { intros [|[|[|i]]] p A B; cbn in A; try (injection A as <-; cbn in B); try discriminate; [reflexivity|]. destruct i; discriminate. }
  intros i j p q A B C D. rewrite (U i p A C), (U j q B D). reflexivity.
Qed.
