(** Vocabulary for the property statements.  Nothing here refers to the model
    of the program. *)
From Coq Require Import Arith List NArith Bool Sorting.Sorted.
Import ListNotations.

(** A key is a string: a list of byte values. *)
Definition bytes := list nat.
Definition is_bytes (k : bytes) : Prop := Forall (fun b => b < 256) k.

(** Lexicographic order on strings, bytes compared as unsigned. *)
Fixpoint klt (a b : bytes) : Prop :=
  match a, b with
  | _, [] => False
  | [], _ :: _ => True
  | x :: a', y :: b' => x < y \/ (x = y /\ klt a' b')
  end.
Definition kle (a b : bytes) : Prop := klt a b \/ a = b.

(** What a caller has to hand to the constructor: at least one key, no empty
    key, in ascending order (duplicates allowed). *)
Definition good_keys (keys : list bytes) : Prop :=
  keys <> [] /\ Forall is_bytes keys /\ Forall (fun k => k <> []) keys /\
  StronglySorted kle keys.

(** Adjacent equal keys removed. *)
Fixpoint uniq (keys : list bytes) : list bytes :=
  match keys with
  | [] => []
  | k :: rest =>
      match uniq rest with
      | [] => [k]
      | k' :: r => if list_eq_dec Nat.eq_dec k k' then k' :: r else k :: k' :: r
      end
  end.

(** The only distinct key is a string starting with byte 255. *)
Definition lone_ff (keys : list bytes) : Prop :=
  exists k, In (255 :: k) keys /\ forall k', In k' keys -> k' = 255 :: k.

(** [d] is the length of the shortest prefix, of length at least one, that
    tells [k] from all other keys.  A key that is a prefix of another one is
    told apart only by its end, which counts as one more position. *)
Definition dist_len (keys : list bytes) (k : bytes) (d : nat) : Prop :=
  1 <= d /\
  (forall k', In k' keys -> k' <> k -> firstn d k' <> firstn d k) /\
  (forall d', 1 <= d' < d -> exists k', In k' keys /\ k' <> k /\ firstn d' k' = firstn d' k).

(** The prefixes that tell the keys apart have at most [n] bytes together, a
    repeated key counting once. *)
Definition told_apart (keys : list bytes) (n : N) : Prop :=
  exists ks ds, (forall k, In k keys -> In k ks) /\ Forall2 (dist_len keys) ks ds /\ (N.of_nat (list_sum ds) <= n)%N.

(** Total length of the keys, each with a terminator. *)
Definition total_len (keys : list bytes) : nat := list_sum (map (fun k => S (length k)) keys).

(** The bits of a string, most significant bit of each byte first. *)
Definition byte_bits (b : nat) : list bool := map (fun i => N.testbit (N.of_nat b) (N.of_nat (7 - i))) (seq 0 8).
Definition key_bits (k : bytes) : list bool := flat_map byte_bits k.

(** The [n] bits that follow byte [d], if there are that many. *)
Definition next_bits (k : bytes) (d n : nat) : option (list bool) :=
  let b := key_bits (skipn d k) in if n <=? length b then Some (firstn n b) else None.

Definition all_zero (b : list bool) : Prop := forall x, In x b -> x = false.

(** [n] bits that follow byte [d], or zeros. *)
Definition next_bits0 (k : bytes) (d n : nat) : list bool :=
  match next_bits k d n with Some b => b | None => repeat false n end.
