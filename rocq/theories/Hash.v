(** include/hash.hpp *)
From Coq Require Import List NArith Bool.
From Verif Require Import Res Word Config.
Import ListNotations.

(** hash.hpp:11-15 DecodeFixed32 (little endian) *)
Definition DecodeFixed32 (a b c d : nat) : N := of_le_bytes [a; b; c; d].

(** hash.hpp:19 *)
Definition hash_m : N := 0xc6a4a793%N.

(** hash.hpp:34-43: [static_cast<unsigned char>(x) << k] is an int, added to
    the uint32_t h. *)
Definition hash_tail (h : N) (l : list nat) : N :=
  match l with
  | [] => h
  | b0 :: t =>
      let h2 := match t with
                | [b1; b2] => wrap32 (wrap32 (h + N.shiftl (N.of_nat b2) 16) + N.shiftl (N.of_nat b1) 8)
                | [b1] => wrap32 (h + N.shiftl (N.of_nat b1) 8)
                | _ => h
                end in
      let h3 := wrap32 (wrap32 (h2 + N.of_nat b0) * hash_m)%N in
      N.lxor h3 (N.shiftr h3 24)
  end.

(** hash.hpp:24-31: four bytes at a time *)
Fixpoint hash_body (h : N) (l : list nat) : N :=
  match l with
  | a :: b :: c :: d :: t =>
      let h1 := wrap32 (h + DecodeFixed32 a b c d)%N in
      let h2 := wrap32 (h1 * hash_m)%N in
      hash_body (N.lxor h2 (N.shiftr h2 16)) t
  | _ => hash_tail h l
  end.

(** hash.hpp:17-46 Hash; [n * m] is size_t, truncated by the uint32_t h *)
Definition Hash (l : list nat) (seed : N) : N :=
  hash_body (wrap32 (N.lxor seed (wrap64 (N.of_nat (length l) * hash_m)))) l.

(** hash.hpp:48-50 suffixHash *)
Definition suffixHash (k : key) : N := Hash k 0xbc9f1d34%N.
