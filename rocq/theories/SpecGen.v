(** Vocabulary for the workload generators. *)
From Coq Require Import Arith List NArith ZArith Bool String.
From Verif Require Import Config Spec Bench SpecLoad.
Import ListNotations.
Open Scope nat_scope.

(** A file of these lines. *)
Definition text (ls : list bytes) : list nat := List.concat (map (fun l => l ++ [10]) ls).
Definition one_line (l : bytes) : Prop := ~ In 10 l.

(** A line of the log that names a key: its first word is [verb], the third one
    is the key after four characters.  Any other line names none. *)
Definition names (verb line k : bytes) : Prop :=
  exists ends w1 w2 ws, words ends (verb :: w1 :: w2 :: ws) line /\ k = skipn 4 w2.
Definition silent (verb line : bytes) : Prop :=
  exists ends ws, words ends ws line /\ (List.length ws <= 2 \/ hd_error ws <> Some verb).
Inductive logged (verb : bytes) : list bytes -> list bytes -> Prop :=
| logged_nil : logged verb [] []
| logged_key : forall line k ls ks, names verb line k -> logged verb ls ks -> logged verb (line :: ls) (k :: ks)
| logged_skip : forall line ls ks, silent verb line -> logged verb ls ks -> logged verb (line :: ls) ks.

(** An address and its parts: name@part.part.part *)
Fixpoint dotted (parts : list bytes) : bytes :=
  match parts with
  | [] => []
  | [p] => p
  | p :: t => p ++ 46 :: dotted t
  end.
Definition address (line name : bytes) (parts : list bytes) : Prop :=
  line = name ++ 64 :: dotted parts /\ ~ In 64 name /\ parts <> [] /\ Forall (fun p => ~ In 46 p) parts /\ Forall (fun b => ~ space b) line.
(** The key made of it: part.part.part.@name, the parts in reverse. *)
Definition email_key (line k : bytes) : Prop :=
  exists name parts, address line name parts /\ k = flat_map (fun p => p ++ [46]) (rev parts) ++ 64 :: name.

Definition gen_accepted (key_type dist : bytes) : Prop :=
  In key_type (map str ["randint"; "timestamp"; "email"]%string) /\ In dist (map str ["uniform"; "zipfian"; "latest"]%string).

(** The items that the keys stand for: every [gap]-th one. *)
Definition every (gap : nat) (items out : list bytes) : Prop :=
  forall i, i < List.length out -> nth_error items (i * gap) = nth_error out i.

(** A number as int() reads it: digits, perhaps after a sign. *)
Inductive numeral : bytes -> Z -> Prop :=
| numeral_plain : forall w n, decimal w n -> numeral w (Z.of_N n)
| numeral_minus : forall w n, decimal w n -> numeral (45 :: w) (- Z.of_N n)%Z
| numeral_plus : forall w n, decimal w n -> numeral (43 :: w) (Z.of_N n).

(** What a query for the number [v] is replaced by: the item of the last key of
    that number. *)
Definition stands (kv : list Z) (out : list bytes) (v : Z) (q : bytes) : Prop :=
  exists i, nth_error kv i = Some v /\ nth_error out i = Some q /\ forall j, i < j -> nth_error kv j <> Some v.
