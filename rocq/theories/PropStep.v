(** What ++ and -- report, the flag, and iterators that are not valid: C61.
    Only property theorems and examples. *)
From Coq Require Import Arith List NArith ZArith Bool Lia.
From Verif Require Import Res Config Builder Dense Sparse Surf Spec SpecApi SpecFilter SpecIter SpecRange SpecExact SpecDepend
  StepFacts Samples SamplesIter SamplesRange SamplesCount.
Import ListNotations.

(** * C61 *)
(** ++ and -- return whether the iterator is valid afterwards, and it is valid
    exactly if there is a key at the place it stands. *)
Theorem C61_report : forall e c keys f,
  machine e -> settings c -> good_keys keys -> ~ lone_ff keys -> filter_of e c keys f ->
  forall m it, gotten e f keys it -> exists b it' p p',
    do_move e f m it = Ok (b, it') /\ stands e c f keys it p /\ stands e c f keys it' p' /\
    ahead keys m (getSparseStartLevel f) p p' /\ it_valid it = present p /\ it_valid it' = present p' /\ b = present p'.
Proof. exact move_report. Qed.
Print Assumptions C61_report.

(** An iterator that is not valid. *)
Theorem C61_invalid : forall e f it, it_valid it = false ->
  (forall m, do_move e f m it = Ok (false, it)) /\ it_getKey it = Ok [] /\
  it_getSuffix e f it = Ok (0, None) /\ it_getKeyWithSuffix e f it = Ok ([], 0) /\
  (asserts e = true -> forall q, it_compare e f it q = Fail AssertFail).
Proof. exact invalid_calls. Qed.
Print Assumptions C61_invalid.

Theorem C61_clear : forall it, it_valid (it_clear it) = false /\ it_fp (it_clear it) = it_fp it.
Proof. exact clear_calls. Qed.
Print Assumptions C61_clear.

Theorem C61_new : forall f, it_valid (iter_new f) = false /\ it_fp (iter_new f) = false.
Proof. exact new_calls. Qed.
Print Assumptions C61_new.

(** The flag: moves keep it, moveToFirst and moveToLast give it lowered,
    moveToKeyLessThan gives that of the exclusive seek above, if that is valid. *)
Theorem C61_flag_move : forall e f m it b it', do_move e f m it = Ok (b, it') -> it_fp it' = it_fp it.
Proof. exact move_flag. Qed.
Print Assumptions C61_flag_move.

Theorem C61_flag_first : forall e f it, moveToFirst e f = Ok it -> it_fp it = false.
Proof. exact first_flag. Qed.
Print Assumptions C61_flag_first.

Theorem C61_flag_last : forall e f it, moveToLast e f = Ok it -> it_fp it = false.
Proof. exact last_flag. Qed.
Print Assumptions C61_flag_last.

Theorem C61_flag_less : forall e f q incl it, moveToKeyLessThan e f q incl = Ok it ->
  exists it0, moveToKeyGreaterThan e f q false = Ok it0 /\ it_fp it = it_valid it0 && it_fp it0.
Proof. exact less_flag. Qed.
Print Assumptions C61_flag_less.

(** Keys "a", "ab", "b1", "b2", "cat": -- from "cat" reports true, ++ reports
    false and leaves an iterator that is not valid.  From "b1", found with the
    flag, ++ keeps the flag. *)
Definition report (m : move) (it : iter) (e : env) (f : surf) : res (bool * bool * bool) :=
  '(b, it') <- do_move e f m it ;; Ok (b, it_valid it', it_fp it').
Example C61_ex :
  (f <- create e0 c_real keys1 ;; it <- moveToLast e0 f ;; report Bwd it e0 f) = Ok (true, true, false) /\
  (f <- create e0 c_real keys1 ;; it <- moveToLast e0 f ;; report Fwd it e0 f) = Ok (false, false, false) /\
  (f <- create e0 c_real keys1 ;; it <- moveToKeyGreaterThan e0 f [98; 49] true ;; report Fwd it e0 f) = Ok (true, true, true) /\
  at_lt e0 c_real keys1 [98; 49] true = Ok (true, true, [98; 49]) /\ at_lt e0 c_real keys1 [122] true = Ok (true, false, [99]).
Proof. repeat split; vm_compute; reflexivity. Qed.
