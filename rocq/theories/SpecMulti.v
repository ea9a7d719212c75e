(** Vocabulary for the benchmark with several threads. *)
From Coq Require Import Arith List NArith Bool String.
From Verif Require Import Res Config Builder Surf Spec SpecApi Bench SpecBench.
Import ListNotations.
Open Scope nat_scope.

(** Some key is above [q] and below the upper end. *)
Definition above (key_type : bytes) (keys : list bytes) (q : bytes) : Prop :=
  exists u k, upper key_type q u /\ In k keys /\ klt q k /\ klt k u.

(** The arguments the program runs with. *)
Definition accepted_multi (a : args) : Prop :=
  accepted a /\ a_filter a <> str "SuRFMixed" /\ (a_query a = str "point" \/ a_query a = str "range").

(** Every thread gets [n] steps. *)
Definition gives (sched : list nat) (threads n : nat) : Prop := forall i, i < threads -> n <= count_occ Nat.eq_dec sched i.
