(** Vocabulary for key files. *)
From Coq Require Import Arith List NArith Bool String.
From Verif Require Import Config Spec.
Import ListNotations.
Open Scope nat_scope.

Definition space (b : nat) : Prop := In b [9; 10; 11; 12; 13; 32].
Definition word (w : list nat) : Prop := w <> [] /\ Forall (fun b => ~ space b) w.

(** [words ends ws f]: [ws] are the words of the file [f], which ends with the
    last of them if [ends] and with a space (or is empty) otherwise. *)
Inductive words : bool -> list bytes -> list nat -> Prop :=
| words_none : forall f, Forall space f -> words false [] f
| words_last : forall s w, Forall space s -> word w -> words true [w] (s ++ w)
| words_more : forall s w b f ends ws, Forall space s -> word w -> space b -> words ends ws (b :: f) -> words ends (w :: ws) (s ++ w ++ b :: f).

(** [w] is a decimal number of value [v]; leading zeros are allowed. *)
Inductive decimal : list nat -> N -> Prop :=
| decimal_one : forall d, d <= 9 -> decimal [48 + d] (N.of_nat d)
| decimal_more : forall w v d, decimal w v -> d <= 9 -> decimal (w ++ [48 + d]) (10 * v + N.of_nat d).

(** How many keys are read at most. *)
Definition max_emails : nat := N.to_nat 25000000.
Definition max_ints : nat := N.to_nat 100000000.

(** An optional sign and what it does to a number. *)
Inductive sign : list nat -> (N -> N) -> Prop :=
| sign_none : sign [] (fun n => n)
| sign_plus : sign [43] (fun n => n)
| sign_minus : sign [45] (fun n => ((2 ^ 64 - n) mod 2 ^ 64)%N).

Definition digit (b : nat) : Prop := 48 <= b <= 57.
Definition no_digit (f : list nat) : Prop := match f with [] => True | b :: _ => ~ digit b end.

(** [numbers x f vs]: reading integers from any file [f] gives [vs]; [x] is what
    an uninitialised variable holds. *)
Inductive numbers (x : N) : list nat -> list N -> Prop :=
| numbers_end : forall f, Forall space f -> numbers x f [x]
| numbers_last : forall s g h w n, Forall space s -> sign g h -> decimal w n -> (n < 2 ^ 64)%N -> numbers x (s ++ g ++ w) [h n]
| numbers_more : forall s g h w n b f vs, Forall space s -> sign g h -> decimal w n -> (n < 2 ^ 64)%N -> ~ digit b ->
    numbers x (b :: f) vs -> numbers x (s ++ g ++ w ++ b :: f) (h n :: vs)
| numbers_large : forall s g h w n f, Forall space s -> sign g h -> decimal w n -> (2 ^ 64 <= n)%N -> no_digit f ->
    numbers x (s ++ g ++ w ++ f) [(2 ^ 64 - 1)%N]
| numbers_lone_sign : forall s g h f, Forall space s -> sign g h -> g <> [] -> no_digit f -> numbers x (s ++ g ++ f) [0%N]
| numbers_junk : forall s b f, Forall space s -> ~ space b -> ~ digit b -> b <> 43 -> b <> 45 -> numbers x (s ++ b :: f) [0%N].
