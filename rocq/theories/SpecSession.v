(** Programs that use a filter: any sequence of calls of the public interface,
    holding any number of iterators. *)
From Coq Require Import Arith List NArith ZArith Bool.
From Verif Require Import Res Config Builder Dense Sparse Surf Spec SpecApi SpecIter.
Import ListNotations.

Inductive call :=
| CLookup (q : bytes)                                   (* lookupKey *)
| CRange (l : bytes) (li : bool) (r : bytes) (ri : bool) (* lookupRange *)
| CCount (l r : bytes)                                  (* approxCount on keys *)
| CFirst | CLast                                        (* a new iterator: moveToFirst, moveToLast *)
| CGreater (q : bytes) (incl : bool)                    (* moveToKeyGreaterThan *)
| CLess (q : bytes) (incl : bool)                       (* moveToKeyLessThan *)
| CMove (i : nat) (m : move)                            (* ++ or -- on iterator i *)
| CLook (i : nat)                                       (* getKey, getSuffix, getKeyWithSuffix *)
| CCompare (i : nat) (q : bytes)                        (* compare, of a valid iterator *)
| CCountIters (i j : nat).                              (* approxCount on iterators *)

Inductive answer :=
| ABool (b : bool) | ANum (n : N) | AIter (valid fp : bool) | AView (v : view) | AOrder (z : Z) | ANone.

(** The filter's own iterator, and the caller's. *)
Record session := mkSession { se_member : iter; se_its : list iter }.

Definition add_iter (st : session) (it : iter) : answer * session :=
  (AIter (it_valid it) (it_fp it), mkSession (se_member st) (se_its st ++ [it])).

Definition step (e : env) (f : surf) (st : session) (c : call) : res (answer * session) :=
  match c with
  | CLookup q => b <- lookupKey e f q ;; Ok (ABool b, st)
  | CRange l li r ri =>
      '(b, it) <- lookupRange_st e f (se_member st) l li r ri ;;
      Ok (ABool b, mkSession it (se_its st))
  | CCount l r =>
      it <- moveToKeyGreaterThan e f l true ;;
      n <- approxCount e f l r ;;
      Ok (ANum n, mkSession it (se_its st))
  | CFirst => it <- moveToFirst e f ;; Ok (add_iter st it)
  | CLast => it <- moveToLast e f ;; Ok (add_iter st it)
  | CGreater q b => it <- moveToKeyGreaterThan e f q b ;; Ok (add_iter st it)
  | CLess q b => it <- moveToKeyLessThan e f q b ;; Ok (add_iter st it)
  | CMove i m =>
      match nth_error (se_its st) i with
      | None => Ok (ANone, st)
      | Some it => '(b, it) <- do_move e f m it ;; Ok (ABool b, mkSession (se_member st) (lset (se_its st) i it))
      end
  | CLook i =>
      match nth_error (se_its st) i with
      | None => Ok (ANone, st)
      | Some it => v <- look e f it ;; Ok (AView v, st)
      end
  | CCompare i q =>
      match nth_error (se_its st) i with
      | None => Ok (ANone, st)
      | Some it => if it_valid it then z <- it_compare e f it q ;; Ok (AOrder z, st) else Ok (ANone, st)
      end
  | CCountIters i j =>
      match nth_error (se_its st) i, nth_error (se_its st) j with
      | Some a, Some b => n <- approxCount_it e f a b ;; Ok (ANum n, st)
      | _, _ => Ok (ANone, st)
      end
  end.

Fixpoint play (e : env) (f : surf) (st : session) (cs : list call) : res (list answer) :=
  match cs with
  | [] => Ok []
  | c :: r => '(a, st') <- step e f st c ;; l <- play e f st' r ;; Ok (a :: l)
  end.

(** The answers of a program that starts with filter [f]. *)
Definition answers (e : env) (f : surf) (cs : list call) : res (list answer) :=
  play e f (mkSession (iter_new f) []) cs.

(** The calls a program may make: arguments are byte strings, the key of a seek
    is not empty if assertions are on, and approxCount is not called. *)
Definition sound_call (e : env) (cl : call) : Prop :=
  match cl with
  | CLookup q | CCompare _ q => is_bytes q
  | CRange l _ r _ => is_bytes l /\ (l <> [] \/ asserts e = false) /\ is_bytes r
  | CGreater q _ | CLess q _ => is_bytes q /\ (q <> [] \/ asserts e = false)
  | CFirst | CLast | CMove _ _ | CLook _ => True
  | CCount _ _ | CCountIters _ _ => False
  end.
