(** Vocabulary for workload_arf. *)
From Coq Require Import Arith List NArith Bool String Sorting.Sorted Permutation.
From Verif Require Import Config Spec Bench.
Import ListNotations.
Open Scope nat_scope.

Definition arf_accepted (percent : nat) (query dist : bytes) : Prop :=
  percent <= 100 /\ In query (map str ["point"; "range"]%string) /\ In dist (map str ["uniform"; "zipfian"; "latest"]%string).

(** [keys] is the given percentage of the shuffled integers, in order. *)
Definition picked (shuffled : list N) (percent : nat) (keys : list N) : Prop :=
  StronglySorted N.le keys /\ Permutation keys (firstn (List.length shuffled * percent / 100) shuffled).

(** The bounds of the query made from [w]. *)
Definition asks (query : bytes) (w : N) (lr : N * N) : Prop :=
  (query = str "point" /\ lr = (w, w)) \/
  (query = str "range" /\ lr = ((w + 1) mod 2 ^ 64, (w + 1 + 922336973116) mod 2 ^ 64)%N).

(** Some key is within the bounds, both included. *)
Definition hit (keys : list N) (lr : N * N) : Prop := exists v, In v keys /\ (fst lr <= v <= snd lr)%N.

(** The database of the ARF library answers range queries correctly. *)
Definition honest (db : list N -> N -> N -> bool) : Prop := forall keys l r, db keys l r = true <-> hit keys (l, r).

(** What training does to a filter, and its answers one after the other. *)
Section Filter.
Variables (state : Type) (handle : state -> N -> N -> bool -> bool -> state * bool).
Fixpoint train (truth : N -> N -> bool) (st : state) (qs : list (N * N)) : state :=
  match qs with
  | [] => st
  | (l, r) :: t => train truth (fst (handle st l r (truth l r) true)) t
  end.
Fixpoint answers (st : state) (qs : list (N * N)) : list bool :=
  match qs with
  | [] => []
  | (l, r) :: t => let (st', b) := handle st l r true false in b :: answers st' t
  end.
End Filter.
