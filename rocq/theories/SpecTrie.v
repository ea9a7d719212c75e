(** Vocabulary for the encoding of the trie.  Nothing here refers to the model
    of the program. *)
From Coq Require Import Arith List NArith Bool Sorting.Sorted.
From Verif Require Import Spec.
Import ListNotations.

(** A key with its end marked: every byte plus one, then 0. *)
Definition tkey (k : bytes) : list nat := map S k ++ [0].

(** Two or more keys start with [p]. *)
Definition shared (keys : list bytes) (p : list nat) : Prop :=
  exists k k', k <> k' /\ In k keys /\ In k' keys /\
    firstn (length p) (tkey k) = p /\ firstn (length p) (tkey k') = p.

(** [p], of length [l + 1], is needed at level [l]: it starts some key and one
    symbol less is not enough to tell that key from the others. *)
Definition branch (keys : list bytes) (l : nat) (p : list nat) : Prop :=
  exists k, In k keys /\ p = firstn (S l) (tkey k) /\ (l = 0 \/ shared keys (firstn l p)).

(** The branches of a level in key order. *)
Definition branches (keys : list bytes) (l : nat) (ps : list (list nat)) : Prop :=
  StronglySorted klt ps /\ forall p, In p ps <-> branch keys l p.

(** The label of a branch: its last byte, 255 for the end of a key. *)
Definition branch_label (p : list nat) : nat := match last p 0 with O => 255 | S b => b end.

(** [p] is the first branch of its node. *)
Definition node_first (ps : list (list nat)) (l : nat) (p : list nat) : Prop :=
  forall p', In p' ps -> firstn l p' = firstn l p -> p' = p \/ klt p p'.

(** Labels, child bits and start-of-node bits of level [l]. *)
Definition encodes (keys : list bytes) (l : nat) (labels : list nat) (child start : list bool) : Prop :=
  exists ps, branches keys l ps /\ labels = map branch_label ps /\
    Forall2 (fun p b => b = true <-> shared keys p) ps child /\
    Forall2 (fun p b => b = true <-> node_first ps l p) ps start.

(** [n] things satisfy [P]. *)
Definition card {A : Type} (P : A -> Prop) (n : nat) : Prop :=
  exists xs, NoDup xs /\ (forall x, In x xs <-> P x) /\ length xs = n.

(** Labels, nodes and leaves of a level. *)
Definition level_shape (keys : list bytes) (l labels nodes leaves : nat) : Prop :=
  card (branch keys l) labels /\
  card (fun x => exists p, branch keys l p /\ x = firstn l p) nodes /\
  card (fun p => branch keys l p /\ ~ shared keys p) leaves.

(** The sizes that the cut-off rule compares: [nl], [nn], [nf] are the numbers
    of labels, nodes and leaves by level, [slen] the suffix length in bits. *)
Fixpoint sum_to (f : nat -> N) (n : nat) : N :=
  match n with O => 0%N | S m => (sum_to f m + f m)%N end.
Definition dense_cost (nn nf : nat -> nat) (slen s : nat) : N :=
  sum_to (fun l => (512 * N.of_nat (nn l) +
    (match l with O => 0 | S p => N.of_nat (nn p) / 8 + 1 end) +
    N.of_nat (nf l) * N.of_nat slen / 8)%N) s.
Definition sparse_cost (nl nf : nat -> nat) (slen s h : nat) : N :=
  sum_to (fun i => let l := s + i in
    (N.of_nat (nl l) + 2 * N.of_nat (nl l) / 8 + 1 + N.of_nat (nf l) * N.of_nat slen / 8)%N) (h - s).

(** Labels of the levels from [s] up to [h]. *)
Definition label_count (nl : nat -> nat) (s h : nat) : N := sum_to (fun i => N.of_nat (nl (s + i))) (h - s).
