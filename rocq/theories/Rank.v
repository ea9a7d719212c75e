(** include/rank.hpp *)
From Coq Require Import Arith List NArith Bool.
From Verif Require Import Res Word Bitvector.
Import ListNotations.

(** rank.hpp:116-117; the look-up table has num_bits_/block + 1 entries *)
Record bvrank := mkRank { rk_bv : bitvec; rk_block : nat; rk_lut : list nat }.

(** rank.hpp:103-114 initRankLut *)
Definition initRankLut (e : env) (b : bitvec) (block : nat) : res (list nat) :=
  let word_per_basic_block := block / 64 in
  let num_blocks := bv_nbits b / block + 1 in
  '(lut, cumu) <-
    foldM (fun st i =>
             let '(lut, cumu) := st in
             p <- popcountLinear e (bv_words b) (i * word_per_basic_block) block ;;
             Ok (lut ++ [cumu], cumu + p))
      (seq 0 (num_blocks - 1)) ([], 0) ;;
  Ok (lut ++ [cumu]).

(** rank.hpp:18-26 constructor *)
Definition rank_make (e : env) (block : nat) (per_level : list (list N))
  (num_bits_per_level : list nat) (start_level end_level : nat) : res bvrank :=
  b <- bv_make e per_level num_bits_per_level start_level end_level ;;
  lut <- initRankLut e b block ;;
  Ok (mkRank b block lut).

(** rank.hpp:33-40 rank.  [pos & (basic_block_size_ - 1)] is [pos mod block]
    because the only block size used, 512, is a power of two. *)
Definition rank (e : env) (r : bvrank) (pos : nat) : res nat :=
  massert e (pos <=? bv_nbits (rk_bv r)) ;;;
  let word_per_basic_block := rk_block r / 64 in
  let block_id := pos / rk_block r in
  let offset := pos mod rk_block r in
  l <- vget (rk_lut r) block_id ;;
  p <- popcountLinear e (bv_words (rk_bv r)) (block_id * word_per_basic_block) (offset + 1) ;;
  Ok (l + p).
