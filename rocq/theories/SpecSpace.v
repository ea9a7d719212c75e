(** Vocabulary for the size of a filter.  Nothing here refers to the model of
    the program except the type of suffixes. *)
From Coq Require Import NArith.
From Verif Require Import Config Builder SpecTrie.
Local Open Scope N_scope.

(** Bytes rounded up to a multiple of 8, and the bytes of 64-bit words that hold
    [bits] bits. *)
Definition round8 (n : N) : N := 8 * ((n + 7) / 8).
Definition words (bits : N) : N := 8 * ((bits + 63) / 64).

(** A bit vector with its table for rank (4 bytes per 512 bits) or for select (4
    bytes per 64 ones). *)
Definition ranked (bits : N) : N := words bits + 4 * (bits / 512 + 1).
Definition picked (bits ones : N) : N := words bits + 4 * (ones / 64 + 1).

(** Stored bits per key. *)
Definition suffix_bits (c : config) : N :=
  match cf_type c with kNone => 0 | _ => N.of_nat (cf_hlen c + cf_rlen c) end.

(** Sum of [g] over the levels from [s] up to [h]. *)
Definition over (g : nat -> nat) (s h : nat) : N := sum_to (fun i => N.of_nat (g (s + i)%nat)) (h - s).

(** Bytes written for a filter with [s] dense levels out of [h], [dn] dense
    nodes, [sl] sparse labels, [sn] sparse nodes, and [dx], [sx] suffix bits in the
    dense and sparse levels: every part has a header and is rounded up. *)
Definition written (s h dn sl sn dx sx : N) : N :=
  round8 (4 + 4 * s) + 2 * round8 (8 + ranked (256 * dn)) + round8 (8 + ranked dn) + round8 (16 + words dx) +
  round8 (16 + 4 * h) + round8 (5 + sl) + round8 (8 + ranked sl) + round8 (12 + picked sl sn) + round8 (16 + words sx).

(** The same parts without headers. *)
Definition contents (dn sl sn dx sx : N) : N :=
  2 * ranked (256 * dn) + ranked dn + words dx + (1 + sl) + ranked sl + picked sl sn + words sx.
