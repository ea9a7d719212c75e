(** Several threads using one filter.  The only memory that a call writes and
    that other threads can see are the members iter_ and iter2_ of SuRF
    (surf.hpp:125-126); lookupRange (surf.hpp:223-248) and approxCount on keys
    (surf.hpp:264-274) use them.  Every other call is a const member function or
    works on an iterator of the calling thread.

    A call is a sequence of atomic steps, one for each statement or condition
    that touches iter_ or iter2_.  Simplified: a step such as
    LoudsDense::moveToKeyGreaterThan is itself atomic here, and threads see each
    other's writes in program order; C++ allows more. *)
From Coq Require Import Arith List NArith ZArith Bool.
From Verif Require Import Res Word Config Builder Dense Sparse Surf Spec SpecIter SpecSession.
Import ListNotations.

(** iter_ and iter2_ *)
Definition shared : Type := iter * iter.

Inductive proc :=
| Done (a : answer)
| Step (k : shared -> res (shared * proc)).

(** a step that only reads iter_ *)
Definition Ask (t : iter -> bool) (y n : proc) : proc :=
  Step (fun sh => Ok (sh, if t (fst sh) then y else n)).
(** a step that changes iter_ *)
Definition Change (g : iter -> res iter) (p : proc) : proc :=
  Step (fun sh => it <- g (fst sh) ;; Ok ((it, snd sh), p)).

(** surf.hpp:143-150 *)
Definition lookup_proc (e : env) (f : surf) (q : bytes) : proc :=
  Step (fun sh => '(found, n) <- d_lookupKey e (sf_dense f) q ;;
    Ok (sh, if negb found then Done (ABool false)
            else if negb (n =? 0) then Step (fun sh => b <- s_lookupKey e (sf_sparse f) q n ;; Ok (sh, Done (ABool b)))
            else Done (ABool true))).

(** surf.hpp:239-247 *)
Definition range_end (e : env) (f : surf) (r : bytes) (ri : bool) : proc :=
  Ask it_valid
    (Step (fun sh =>
       c <- it_compare e f (fst sh) r ;;
       Ok (sh, Done (ABool (if (c =? kCouldBePositive)%Z then true else if ri then (c <=? 0)%Z else (c <? 0)%Z)))))
    (Done (ABool false)).

(** surf.hpp:223-248 *)
Definition range_proc (e : env) (f : surf) (l : bytes) (li : bool) (r : bytes) (ri : bool) : proc :=
  Change (fun it => Ok (it_clear it))
  (Change (fun it => '(_, d) <- d_moveToKeyGreaterThan e (sf_dense f) l li (it_d it) ;; Ok (it_setD it d))
  (Ask (fun it => di_valid (it_d it))
    (Ask (fun it => di_complete (it_d it))
      (range_end e f r ri)
      (Ask (fun it => di_search (it_d it))
        (Ask (fun it => di_left (it_d it))
          (range_end e f r ri)
          (Change (fun it => Ok (passToSparse it))
          (Change (fun it => s <- si_moveToLeftMostKey e (sf_sparse f) (it_s it) ;; Ok (it_setS it s))
          (range_end e f r ri))))
        (Change (fun it => Ok (passToSparse it))
        (Change (fun it => '(_, s) <- s_moveToKeyGreaterThan e (sf_sparse f) l li (it_s it) ;; Ok (it_setS it s))
        (Ask (fun it => si_valid (it_s it))
          (range_end e f r ri)
          (Change (fun it => '(_, it) <- incrementDenseIter e f it ;; Ok it)
          (range_end e f r ri)))))))
    (Done (ABool false)))).

(** surf.hpp:264-274; the result of a seek is built in a temporary *)
Definition count_proc (e : env) (f : surf) (l r : bytes) : proc :=
  Change (fun it => Ok (it_clear it))
  (Step (fun sh => Ok ((fst sh, it_clear (snd sh)),
  Change (fun _ => moveToKeyGreaterThan e f l true)
  (Ask it_valid
    (Step (fun sh => b <- moveToKeyGreaterThan e f r true ;; Ok ((fst sh, b),
     Step (fun sh => Ok (sh,
       let count := Step (fun sh => n <- approxCount_it e f (fst sh) (snd sh) ;; Ok (sh, Done (ANum n))) in
       if it_valid (snd sh) then count
       else Step (fun sh => b <- moveToLast e f ;; Ok ((fst sh, b), count)))))))
    (Done (ANum 0)))))).

(** A call of a thread with iterators [its]: what it does to them, and its
    steps. *)
Definition begin (e : env) (f : surf) (its : list iter) (cl : call) : res (list iter * proc) :=
  match cl with
  | CLookup q => Ok (its, lookup_proc e f q)
  | CRange l li r ri => Ok (its, range_proc e f l li r ri)
  | CCount l r => Ok (its, count_proc e f l r)
  | _ => '(a, se) <- step e f (mkSession (iter_new f) its) cl ;; Ok (se_its se, Done a)
  end.

(** the call in progress, the thread's iterators, the calls to come, the answers
    so far *)
Record thread := mkThread { th_now : option proc; th_its : list iter; th_todo : list call; th_out : list answer }.

Definition thread_step (e : env) (f : surf) (sh : shared) (t : thread) : res (shared * thread) :=
  match th_now t with
  | Some (Done a) => Ok (sh, mkThread None (th_its t) (th_todo t) (th_out t ++ [a]))
  | Some (Step k) => '(sh, p) <- k sh ;; Ok (sh, mkThread (Some p) (th_its t) (th_todo t) (th_out t))
  | None =>
      match th_todo t with
      | [] => Ok (sh, t)
      | cl :: r => '(its, p) <- begin e f (th_its t) cl ;; Ok (sh, mkThread (Some p) its r (th_out t))
      end
  end.

(** A schedule names the thread that takes the next step. *)
Fixpoint run_threads (e : env) (f : surf) (sh : shared) (ts : list thread) (sched : list nat) : res (shared * list thread) :=
  match sched with
  | [] => Ok (sh, ts)
  | i :: r =>
      match nth_error ts i with
      | None => run_threads e f sh ts r
      | Some t => '(sh, t) <- thread_step e f sh t ;; run_threads e f sh (lset ts i t) r
      end
  end.

Definition run_programs (e : env) (f : surf) (ps : list (list call)) (sched : list nat) : res (shared * list thread) :=
  run_threads e f (iter_new f, iter_new f) (map (fun p => mkThread None [] p []) ps) sched.

(** Calls that use iter_. *)
Definition uses_member (cl : call) : bool :=
  match cl with CRange _ _ _ _ | CCount _ _ => true | _ => false end.
