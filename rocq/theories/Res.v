(** Outcomes, machine environment and checked memory accesses.

    Every model function returns [res A]: either a value or the first fault the
    C++ program would meet.  Undefined behaviour is an outcome here, not an
    assumption. *)
From Coq Require Import List NArith ZArith Bool.
Import ListNotations.

Inductive fault : Type :=
| OutOfBounds   (* access outside an array, or [] / back() outside a vector *)
| WideShift     (* shift count >= 64 *)
| AssertFail    (* assert(...) evaluated to false *)
| NoFuel        (* a loop did not finish within the model's bound *)
| PosOverflow   (* a size does not fit position_t (uint32_t, config.hpp:10) *)
| Thrown        (* std::out_of_range from std::string::substr *)
| BadValue.     (* division by zero, or a number outside its enum, in data read back *)

Inductive res (A : Type) : Type :=
| Ok (a : A)
| Fail (f : fault).
Arguments Ok {A} a.
Arguments Fail {A} f.

Definition bind {A B} (m : res A) (k : A -> res B) : res B :=
  match m with Ok a => k a | Fail f => Fail f end.

Notation "x <- m ;; k" := (bind m (fun x => k))
  (at level 61, m at next level, right associativity).
Notation "' p <- m ;; k" := (bind m (fun x => match x with p => k end))
  (at level 61, p pattern, m at next level, right associativity).
Notation "m ;;; k" := (bind m (fun _ => k))
  (at level 61, right associativity).

(** What the C++ standard leaves open, as data.
    - [asserts]: assert() is active (no NDEBUG; CMakeLists.txt sets NDEBUG).
    - [strict_shift]: a shift by 64 or more is a fault; otherwise the count is
      taken modulo 64, as x86-64 does.
    - [strict_mem]: every access outside an array is a fault; otherwise a read
      of the one word after a word array, or of a byte up to 80 past a label
      array, yields junk.  All other stray accesses are faults in both modes.
    - [junk]: the word that follows a word array in memory.
    - [junkb]: the bytes that follow a label array in memory. *)
Record env : Type := mkEnv {
  asserts : bool;
  strict_shift : bool;
  strict_mem : bool;
  junk : list N -> N;
  junkb : list nat -> nat -> nat
}.

Definition massert (e : env) (b : bool) : res unit :=
  if asserts e && negb b then Fail AssertFail else Ok tt.

(** std::vector / array element access that is always checked. *)
Definition vget {A} (l : list A) (i : nat) : res A :=
  match nth_error l i with Some x => Ok x | None => Fail OutOfBounds end.

Fixpoint lset {A} (l : list A) (i : nat) (x : A) : list A :=
  match l, i with
  | [], _ => []
  | _ :: t, O => x :: t
  | h :: t, S i' => h :: lset t i' x
  end.

Definition vset {A} (l : list A) (i : nat) (x : A) : res (list A) :=
  if i <? length l then Ok (lset l i x) else Fail OutOfBounds.

(** [i - 1] on an unsigned index that is then used as an index: 0 - 1 wraps to
    2^32-1, which is out of bounds of every vector. *)
Definition pred_idx (i : nat) : res nat :=
  match i with O => Fail OutOfBounds | S j => Ok j end.

Fixpoint mapM {A B} (f : A -> res B) (l : list A) : res (list B) :=
  match l with
  | [] => Ok []
  | x :: t => y <- f x ;; ys <- mapM f t ;; Ok (y :: ys)
  end.

Fixpoint foldM {A B} (f : B -> A -> res B) (l : list A) (b : B) : res B :=
  match l with
  | [] => Ok b
  | x :: t => b' <- f b x ;; foldM f t b'
  end.
