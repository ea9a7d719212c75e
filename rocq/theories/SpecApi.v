(** Vocabulary that mentions the library's configuration: which settings are
    covered and which strings a stored suffix admits. *)
From Coq Require Import Arith List NArith Bool.
From Verif Require Import Res Config Hash Spec Builder.
Import ListNotations.

(** The machine: a shift by 64 or more takes the count modulo 64 and a read
    just past an array yields some value (see Res.v).  Everything else that is
    undefined is a fault. *)
Definition machine (e : env) : Prop := strict_shift e = false /\ strict_mem e = false.

(** Settings: dense levels on, a positive ratio, suffix lengths that fit one
    word. *)
Definition settings (c : config) : Prop :=
  cf_dense c = true /\ (1 <= cf_ratio c)%N /\ cf_hlen c + cf_rlen c <= 64 /\
  match cf_type c with
  | kNone => True
  | kHash => 1 <= cf_hlen c
  | kReal => 1 <= cf_rlen c
  | kMixed => 1 <= cf_hlen c
  end.

(** Settings: no dense levels, no suffix, lengths that fit one word (they are
    not used). *)
Definition bare_settings (c : config) : Prop :=
  cf_dense c = false /\ cf_type c = kNone /\ cf_hlen c + cf_rlen c <= 64.
Definition any_settings (c : config) : Prop := settings c \/ bare_settings c.

(** Small enough for 32-bit positions whatever the shape of the trie.  With
    524,287 labels the label array loses the room behind its last label. *)
Definition small (keys : list bytes) : Prop := told_apart keys 524286.

(** What a hash suffix of [n] bits keeps of the hash of a string: bits 7, 8, ...,
    7+n-1, but only the lowest n-57 bits if n is 58 or more. *)
Definition hash_bits (k : bytes) (n : nat) : list bool :=
  if n <=? 57 then map (fun i => N.testbit (suffixHash k) (N.of_nat (7 + i))) (seq 0 n)
  else map (fun i => N.testbit (suffixHash k) (N.of_nat i)) (seq 0 (n - 57)).

(** The suffix kept for key [k] after its first [d] bytes admits [q]. *)
Definition admits (c : config) (k q : bytes) (d : nat) : Prop :=
  match cf_type c with
  | kNone => True
  | kHash => hash_bits k (cf_hlen c) = hash_bits q (cf_hlen c)
  | kReal =>
      match next_bits k d (cf_rlen c) with
      | None => True
      | Some b => all_zero b \/ next_bits q d (cf_rlen c) = Some b
      end
  | kMixed => hash_bits k (cf_hlen c) = hash_bits q (cf_hlen c) /\
              next_bits0 k d (cf_rlen c) = next_bits0 q d (cf_rlen c)
  end.

(** The memory just after a label array reads as zero. *)
Definition quiet (e : env) : Prop := forall l i, junkb e l i = 0.

(** [q] agrees with [k] on the part that tells [k] from the other keys, and the
    suffix kept for [k] admits [q]. *)
Definition matches (c : config) (keys : list bytes) (k q : bytes) : Prop :=
  exists d, dist_len keys k d /\ firstn d q = firstn d k /\ admits c k q d.
