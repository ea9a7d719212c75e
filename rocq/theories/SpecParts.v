(** Programs that use a LoudsSparse alone: any sequence of its public calls,
    holding any number of iterators. *)
From Coq Require Import Arith List NArith ZArith Bool.
From Verif Require Import Res Config Builder Dense Sparse Surf Spec SpecApi SpecIter SpecAlone SpecSession.
Import ListNotations.

Inductive s_call :=
| SLookup (q : bytes)
| SFirst | SLast                       (* a new iterator at either end *)
| SGreater (q : bytes) (incl : bool)   (* a new iterator by moveToKeyGreaterThan *)
| SMove (i : nat) (m : move)
| SLook (i : nat)                      (* getKey, getSuffix, getKeyWithSuffix *)
| SCompare (i : nat) (q : bytes)
| SCount (i j : nat).                  (* approxCount *)

Definition s_step (e : env) (s : sparse) (its : list siter) (c : s_call) : res (answer * list siter) :=
  match c with
  | SLookup q => b <- s_lookupKey e s q 0 ;; Ok (ABool b, its)
  | SFirst => it <- s_first e s ;; Ok (AIter (si_valid it) false, its ++ [it])
  | SLast => it <- s_last e s ;; Ok (AIter (si_valid it) false, its ++ [it])
  | SGreater q b => '(fp, it) <- s_moveToKeyGreaterThan e s q b (siter_new s) ;; Ok (AIter (si_valid it) fp, its ++ [it])
  | SMove i m =>
      match nth_error its i with
      | None => Ok (ANone, its)
      | Some it => it' <- s_move e s m it ;; Ok (ABool (si_valid it'), lset its i it')
      end
  | SLook i =>
      match nth_error its i with
      | None => Ok (ANone, its)
      | Some it => v <- s_look e s it ;; Ok (AView v, its)
      end
  | SCompare i q =>
      match nth_error its i with
      | None => Ok (ANone, its)
      | Some it => if si_valid it then z <- si_compare e s it q ;; Ok (AOrder z, its) else Ok (ANone, its)
      end
  | SCount i j =>
      match nth_error its i, nth_error its j with
      | Some a, Some b => n <- s_approxCount e s a b (Some 0) (Some 0) ;; Ok (ANum n, its)
      | _, _ => Ok (ANone, its)
      end
  end.

Fixpoint s_play (e : env) (s : sparse) (its : list siter) (cs : list s_call) : res (list answer) :=
  match cs with
  | [] => Ok []
  | c :: r => '(a, its') <- s_step e s its c ;; l <- s_play e s its' r ;; Ok (a :: l)
  end.

Definition s_answers (e : env) (s : sparse) (cs : list s_call) : res (list answer) := s_play e s [] cs.
