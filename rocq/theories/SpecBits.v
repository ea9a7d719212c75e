(** Vocabulary for the bit-vector, label and suffix properties.  Nothing here
    refers to the model of the program. *)
From Coq Require Import Arith List NArith Bool.
Import ListNotations.

(** Bits of a 64-bit word and of an array of words, most significant first. *)
Definition word_bits (w : N) : list bool := map (fun i => N.testbit w (N.of_nat (63 - i))) (seq 0 64).
Definition vec_bits (ws : list N) : list bool := flat_map word_bits ws.

(** [ws] holds [n] bits: enough words, and nothing but zeros after them. *)
Definition holds (ws : list N) (n : nat) : Prop :=
  Forall (fun w => (w < 2 ^ 64)%N) ws /\ n <= 64 * length ws /\
  forall i, n <= i -> nth i (vec_bits ws) false = false.

(** Levels [s] .. [en - 1] of a list of per-level arrays, [nbits] bits each. *)
Definition levels_hold (per_level : list (list N)) (nbits : list nat) (s en : nat) : Prop :=
  forall l, s <= l < en -> exists ws n,
    nth_error per_level l = Some ws /\ nth_error nbits l = Some n /\ holds ws n.
Definition level_bits (per_level : list (list N)) (nbits : list nat) (l : nat) : list bool :=
  firstn (nth l nbits 0) (vec_bits (nth l per_level [])).
Definition all_bits (per_level : list (list N)) (nbits : list nat) (s en : nat) : list bool :=
  concat (map (level_bits per_level nbits) (seq s (en - s))).

(** The constructors take end level 0 to mean: up to the last level. *)
Definition end_level (per_level : list (list N)) (en : nat) : nat := if en =? 0 then length per_level else en.

Definition ones (l : list bool) : nat := count_occ bool_dec l true.

(** A 32-bit position can hold [n]. *)
Definition fits (n : nat) : Prop := (N.of_nat n < 2 ^ 32)%N.

(** Labels of a node at [pos .. pos + n - 1].  In a node with two or more
    labels a leading byte 255 is the terminator; the labels after it ascend. *)
Definition has_term (labels : list nat) (pos n : nat) : bool := (1 <? n) && (nth pos labels 0 =? 255).
Definition first_label (labels : list nat) (pos n : nat) : nat := if has_term labels pos n then S pos else pos.
Definition node_sorted (labels : list nat) (pos n : nat) : Prop :=
  pos + n <= length labels /\
  forall x y, first_label labels pos n <= x -> x < y -> y < pos + n -> nth x labels 0 < nth y labels 0.
Definition in_node (labels : list nat) (pos n x : nat) : Prop := first_label labels pos n <= x < pos + n.

(** Suffix values stored for level [l] by a sequence of stores, and for the
    levels [s] .. [en - 1] in order. *)
Definition stored_at (ops : list (nat * N)) (l : nat) : list N :=
  map snd (filter (fun o => fst o =? S l) ops).
Definition stored_in (ops : list (nat * N)) (s en : nat) : list N :=
  concat (map (stored_at ops) (seq s (en - s))).
