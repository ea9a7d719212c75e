(** bench/MurmurHash3.h: MurmurHash3_x86_128, the hash of the Bloom filter.
    The other three hash functions of that file are never called. *)
From Coq Require Import Arith List NArith Bool.
From Verif Require Import Res Word Config.
Import ListNotations.

(** MurmurHash3.h:26-29 rotl32, for 0 < r < 32 *)
Definition rotl32 (x r : N) : N := N.lor (wrap32 (N.shiftl x r)) (N.shiftr x (32 - r)).

Definition mul32 (a b : N) : N := wrap32 (a * b).
Definition add32 (a b : N) : N := wrap32 (a + b).

(** MurmurHash3.h:58-67 fmix32 *)
Definition fmix32 (h : N) : N :=
  let h := N.lxor h (N.shiftr h 16) in
  let h := mul32 h 0x85ebca6b in
  let h := N.lxor h (N.shiftr h 13) in
  let h := mul32 h 0xc2b2ae35 in
  N.lxor h (N.shiftr h 16).

(** MurmurHash3.h:45-48 getblock32: block [i] of the data, little endian *)
Definition getblock32 (data : list nat) (i : nat) : res N :=
  b0 <- vget data (4 * i) ;; b1 <- vget data (4 * i + 1) ;;
  b2 <- vget data (4 * i + 2) ;; b3 <- vget data (4 * i + 3) ;;
  Ok (of_le_bytes [b0; b1; b2; b3]).

(** MurmurHash3.h:151-154 *)
Definition mc1 : N := 0x239b961b.
Definition mc2 : N := 0xab0e9789.
Definition mc3 : N := 0x38b34ae5.
Definition mc4 : N := 0xa1e38b93.

(** k *= c; k = ROTL32(k, r); k *= c' *)
Definition scramble (k c r c' : N) : N := mul32 (rotl32 (mul32 k c) r) c'.

(** h ^= k; h = ROTL32(h, r); h += g; h = h * 5 + d *)
Definition stir (h k r g d : N) : N := add32 (mul32 (add32 (rotl32 (N.lxor h k) r) g) 5) d.

Definition mstate : Type := N * N * N * N.

(** MurmurHash3.h:161-184 one round; the blocks are counted from the front *)
Definition mur_round (data : list nat) (st : mstate) (i : nat) : res mstate :=
  let '(h1, h2, h3, h4) := st in
  k1 <- getblock32 data (4 * i) ;; k2 <- getblock32 data (4 * i + 1) ;;
  k3 <- getblock32 data (4 * i + 2) ;; k4 <- getblock32 data (4 * i + 3) ;;
  let h1 := stir h1 (scramble k1 mc1 15 mc2) 19 h2 0x561ccd1b in
  let h2 := stir h2 (scramble k2 mc2 16 mc3) 17 h3 0x0bcaa747 in
  let h3 := stir h3 (scramble k3 mc3 17 mc4) 15 h4 0x96cd1c35 in
  let h4 := stir h4 (scramble k4 mc4 18 mc1) 13 h1 0x32ac3b17 in
  Ok (h1, h2, h3, h4).

(** One word of the tail: bytes [a], ..., [a + m - 1] of it, the last one first
    in the code, xored together; [m] is at most 4. *)
Definition mur_word (tail : list nat) (a m : nat) : res N :=
  foldM (fun k i => b <- vget tail (a + i) ;; Ok (N.lxor k (N.shiftl (N.of_nat b) (8 * N.of_nat i)))) (rev (seq 0 m)) 0%N.

(** MurmurHash3.h:195-219 the switch: [n] is len & 15, cases fall through.
    [tail[i] << 24] overflows an int for bytes above 127; compilers keep the bits *)
Definition mur_tail (tail : list nat) (n : nat) (st : mstate) : res mstate :=
  let '(h1, h2, h3, h4) := st in
  h4 <- (if 12 <? n then k4 <- mur_word tail 12 (n - 12) ;; Ok (N.lxor h4 (scramble k4 mc4 18 mc1)) else Ok h4) ;;
  h3 <- (if 8 <? n then k3 <- mur_word tail 8 (Nat.min 4 (n - 8)) ;; Ok (N.lxor h3 (scramble k3 mc3 17 mc4)) else Ok h3) ;;
  h2 <- (if 4 <? n then k2 <- mur_word tail 4 (Nat.min 4 (n - 4)) ;; Ok (N.lxor h2 (scramble k2 mc2 16 mc3)) else Ok h2) ;;
  h1 <- (if 0 <? n then k1 <- mur_word tail 0 (Nat.min 4 n) ;; Ok (N.lxor h1 (scramble k1 mc1 15 mc2)) else Ok h1) ;;
  Ok (h1, h2, h3, h4).

(** h1 += h2; h1 += h3; h1 += h4; h2 += h1; h3 += h1; h4 += h1 *)
Definition mur_mix (st : mstate) : mstate :=
  let '(h1, h2, h3, h4) := st in
  let h1 := add32 (add32 (add32 h1 h2) h3) h4 in (h1, add32 h2 h1, add32 h3 h1, add32 h4 h1).

(** MurmurHash3.h:140-241.  The length is an int; strings of 2^31 bytes or more
    are not modelled. *)
Definition MurmurHash3_x86_128 (data : list nat) (seed : N) : res mstate :=
  let len := length data in
  let nblocks := len / 16 in
  st <- foldM (mur_round data) (seq 0 nblocks) (seed, seed, seed, seed) ;;
  st <- mur_tail (skipn (16 * nblocks) data) (len mod 16) st ;;
  let '(h1, h2, h3, h4) := st in
  let l := wrap32 (N.of_nat len) in
  let '(h1, h2, h3, h4) := mur_mix (N.lxor h1 l, N.lxor h2 l, N.lxor h3 l, N.lxor h4 l) in
  Ok (mur_mix (fmix32 h1, fmix32 h2, fmix32 h3, fmix32 h4)).

(** bloom.hpp:58-60 BloomHash of a string: the first two words are used. *)
Definition BloomHash (k : key) : res (N * N) :=
  '(h1, h2, _, _) <- MurmurHash3_x86_128 k 0xbc9f1d34 ;; Ok (h1, h2).

(** bloom.hpp:62-64 BloomHash of an integer: its 8 bytes in memory *)
Definition BloomHash64 (w : N) : res (N * N) := BloomHash (le_bytes 8 w).
