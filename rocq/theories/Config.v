(** include/config.hpp: alignment and integer keys. *)
From Coq Require Import List NArith ZArith Bool.
From Verif Require Import Res Word.
Import ListNotations.

(** A key is a std::string: a list of byte values below 256. *)
Definition key := list nat.

(** config.hpp:30-35 *)
Inductive suffix_type := kNone | kHash | kReal | kMixed.

(** config.hpp:37-39 align: on addresses (uint64_t) *)
Definition align_addr (p : N) : N := wrap64 (N.land (wrap64 (p + 7)) (wrap64 (two64 - 8)))%N.

(** config.hpp:41-43 sizeAlign(position_t&) *)
Definition sizeAlign32 (size : N) : N := N.land (wrap32 (size + 7)) (two32 - 8)%N.

(** config.hpp:45-47 sizeAlign(uint64_t&) *)
Definition sizeAlign64 (size : N) : N := N.land (wrap64 (size + 7)) (two64 - 8)%N.

(** Little-endian byte image of an n-byte unsigned integer (x86-64 memory). *)
Fixpoint le_bytes (n : nat) (w : N) : list nat :=
  match n with
  | O => []
  | S m => N.to_nat (w mod 256)%N :: le_bytes m (w / 256)%N
  end.

Fixpoint of_le_bytes (l : list nat) : N :=
  match l with
  | [] => 0%N
  | b :: t => (N.of_nat b + 256 * of_le_bytes t)%N
  end.

(** __builtin_bswap64 *)
Definition bswap64 (w : N) : N := of_le_bytes (rev (le_bytes 8 w)).

(** config.hpp:49-52 *)
Definition uint64ToString (w : N) : key := le_bytes 8 (bswap64 w).

(** config.hpp:54-58: memcpy reads exactly 8 bytes of the string's buffer.
    std::string keeps a terminating NUL, so 8 bytes are readable if the string
    has at least 7; a shorter one is an out-of-bounds read. *)
Definition stringToUint64 (s : key) : res N :=
  if 7 <=? length s then Ok (bswap64 (of_le_bytes (firstn 8 (s ++ [0])))) else Fail OutOfBounds.

(** std::string::operator[] for reading: index size() is the NUL character. *)
Definition char_at (s : key) (i : nat) : res nat :=
  match nth_error s i with
  | Some c => Ok c
  | None => if i =? length s then Ok 0 else Fail OutOfBounds
  end.

(** std::string equality (compare() == 0) *)
Fixpoint key_eqb (a b : key) : bool :=
  match a, b with
  | [], [] => true
  | x :: a', y :: b' => (x =? y) && key_eqb a' b'
  | _, _ => false
  end.

(** std::string::compare (libstdc++): sign of memcmp on the common length, then
    the length difference.  memcmp's magnitude is unspecified; +-1 here. *)
Fixpoint str_compare (a b : key) : Z :=
  match a, b with
  | x :: a', y :: b' =>
      if x <? y then (-1)%Z else if y <? x then 1%Z else str_compare a' b'
  | _, _ => (Z.of_nat (length a) - Z.of_nat (length b))%Z
  end.

(** std::string::substr(pos, n) *)
Definition substr (s : key) (pos n : nat) : res key :=
  if length s <? pos then Fail Thrown else Ok (firstn n (skipn pos s)).
Definition substr_from (s : key) (pos : nat) : res key :=
  if length s <? pos then Fail Thrown else Ok (skipn pos s).
