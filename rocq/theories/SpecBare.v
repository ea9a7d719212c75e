(** Vocabulary for filters built with include_dense = false.  Of the model it
    uses only the public calls. *)
From Coq Require Import Arith List NArith ZArith Bool.
From Verif Require Import Res Config Builder Dense Sparse Surf Spec SpecApi SpecIter SpecRange.
Import ListNotations.

(** Two different keys are stored. *)
Definition two_keys (keys : list bytes) : Prop := exists k k', In k keys /\ In k' keys /\ k <> k'.

(** The step from key number [i]; [None] off either end. *)
Definition step (keys : list bytes) (m : move) (i : nat) : option nat :=
  match m with
  | Fwd => if S i <? length (uniq keys) then Some (S i) else None
  | Bwd => match i with O => None | S j => Some j end
  end.

Fixpoint steps (keys : list bytes) (ms : list move) (i : nat) : option nat :=
  match ms with
  | [] => Some i
  | m :: r => match step keys m i with Some j => steps keys r j | None => None end
  end.

(** Stepping off either end of the keys uses element -1 of an empty array; the
    assertion before it catches that if assertions are on. *)
Definition off_end (e : env) : fault := if asserts e then AssertFail else OutOfBounds.

(** An iterator at key number [i]: any moves that stay on the keys lead where
    they should, the first one that does not is a fault. *)
Definition stands_bare (e : env) (c : config) (f : surf) (keys : list bytes) (it : iter) (i : nat) : Prop :=
  forall ms, match steps keys ms i with
             | Some j => exists it' v, run e f ms it = Ok it' /\ look e f it' = Ok v /\ view_at c keys (Some j) v
             | None => run e f ms it = Fail (off_end e)
             end.

(** A suffix type other than none, with lengths it can be built with. *)
Definition with_suffix (c : config) : Prop :=
  cf_hlen c + cf_rlen c <= 64 /\
  match cf_type c with
  | kNone => False
  | kHash => 1 <= cf_hlen c
  | kReal => 1 <= cf_rlen c
  | kMixed => 1 <= cf_hlen c
  end.
