(** include/bitvector.hpp *)
From Coq Require Import Arith List NArith Bool.
From Verif Require Import Res Word.
Import ListNotations.

(** bitvector.hpp:65-67: num_bits_ and bits_ (an array of numWords() words) *)
Record bitvec := mkBV { bv_nbits : nat; bv_words : list N }.

(** bitvector.hpp:14 *)
Definition bv_empty : bitvec := mkBV 0 [].

(** bitvector.hpp:34-39 numWords *)
Definition num_words (nbits : nat) : nat :=
  if nbits mod 64 =? 0 then nbits / 64 else nbits / 64 + 1.

(** bitvector.hpp:132-139 totalNumBits.  The model adds up without wrapping and
    reports [PosOverflow] if the sum does not fit position_t. *)
Definition totalNumBits (num_bits_per_level : list nat) (start_level end_level : nat) : res nat :=
  n <- foldM (fun acc level => n <- vget num_bits_per_level level ;; Ok (acc + n))
         (seq start_level (end_level - start_level)) 0 ;;
  if fits32 (N.of_nat n) then Ok n else Fail PosOverflow.

(** [bits_[i] |= v]: one word past the end is tolerated outside strict mode
    only if it does not change memory (v = 0). *)
Definition or_word (e : env) (ws : list N) (i : nat) (v : N) : res (list N) :=
  match nth_error ws i with
  | Some w => Ok (lset ws i (N.lor w v))
  | None =>
      if negb (strict_mem e) && (i =? length ws) && (v =? 0)%N
      then Ok ws else Fail OutOfBounds
  end.

(** bitvector.hpp:150-155: the complete words of one level *)
Definition concat_word (e : env) (bit_shift : nat) (st : list N * nat) (w : N)
  : res (list N * nat) :=
  let '(bits, word_id) := st in
  v <- shr64 e w (N.of_nat bit_shift) ;;
  bits <- or_word e bits word_id v ;;
  if 0 <? bit_shift then
    v2 <- shl64 e w (N.of_nat (64 - bit_shift)) ;;
    bits <- or_word e bits (S word_id) v2 ;;
    Ok (bits, S word_id)
  else Ok (bits, S word_id).

(** bitvector.hpp:148-168: one level; state is (bits_, bit_shift, word_id) *)
Definition concat_level (e : env) (st : list N * nat * nat) (lvl : list N) (nbits : nat)
  : res (list N * nat * nat) :=
  let '(bits, bit_shift, word_id) := st in
  if nbits =? 0 then Ok st
  else
    let num_complete_words := nbits / 64 in
    '(bits, word_id) <-
      foldM (fun st' word => w <- vget lvl word ;; concat_word e bit_shift st' w)
        (seq 0 num_complete_words) (bits, word_id) ;;
    let bits_remain := nbits - num_complete_words * 64 in
    if 0 <? bits_remain then
      last_word <- vget lvl num_complete_words ;;
      v <- shr64 e last_word (N.of_nat bit_shift) ;;
      bits <- or_word e bits word_id v ;;
      if bit_shift + bits_remain <? 64 then Ok (bits, bit_shift + bits_remain, word_id)
      else
        v2 <- shl64 e last_word (N.of_nat (64 - bit_shift)) ;;
        bits <- or_word e bits (S word_id) v2 ;;
        Ok (bits, bit_shift + bits_remain - 64, S word_id)
    else Ok (bits, bit_shift, word_id).

(** bitvector.hpp:141-170 concatenateBitvectors *)
Definition concatenateBitvectors (e : env) (bits : list N) (per_level : list (list N))
  (num_bits_per_level : list nat) (start_level end_level : nat) : res (list N) :=
  '(bits, _, _) <-
    foldM (fun st level =>
             nbits <- vget num_bits_per_level level ;;
             if nbits =? 0 then Ok st
             else lvl <- vget per_level level ;; concat_level e st lvl nbits)
      (seq start_level (end_level - start_level)) (bits, 0, 0) ;;
  Ok bits.

(** bitvector.hpp:16-26 Bitvector(per_level, num_bits, start, end) *)
Definition bv_make (e : env) (per_level : list (list N)) (num_bits_per_level : list nat)
  (start_level end_level0 : nat) : res bitvec :=
  let end_level := if end_level0 =? 0 then length per_level else end_level0 in
  n <- totalNumBits num_bits_per_level start_level end_level ;;
  bits <- concatenateBitvectors e (repeat 0%N (num_words n)) per_level
            num_bits_per_level start_level end_level ;;
  Ok (mkBV n bits).

(** bitvector.hpp:70-75 readBit *)
Definition readBit (e : env) (b : bitvec) (pos : nat) : res bool :=
  massert e (pos <=? bv_nbits b) ;;;
  w <- wread e (bv_words b) (pos / 64) ;;
  Ok (negb (N.land w (N.shiftr kMsbMask (N.of_nat (pos mod 64))) =? 0)%N).

(** bitvector.hpp:94-101: while loop over the following words *)
Fixpoint next_loop (e : env) (fuel : nat) (b : bitvec) (word_id distance : nat) : res nat :=
  if word_id <? num_words (bv_nbits b) - 1 then
    match fuel with
    | O => Fail NoFuel
    | S f =>
        w <- wread e (bv_words b) (S word_id) ;;
        if (0 <? w)%N then Ok (distance + clz64 w)
        else next_loop e f b (S word_id) (distance + 64)
    end
  else Ok distance.

(** bitvector.hpp:77-102 distanceToNextSetBit.  The argument is pos + 1 (in
    position_t), so that the call with pos = 2^32-1 (louds_dense.hpp:240,
    where pos is [node_num * 256 - 1] for node 0) is [pos1 = 0].  The assert
    compares pos itself.  Without any words numWords() - 1 wraps to 2^32-1
    and the loop runs off the array. *)
Definition distanceToNextSetBit1 (e : env) (b : bitvec) (pos1 : nat) : res nat :=
  massert e (match pos1 with O => false | S pos => pos <? bv_nbits b end) ;;;
  let word_id := pos1 / 64 in
  let offset := pos1 mod 64 in
  w <- wread e (bv_words b) word_id ;;
  let test_bits := wrap64 (N.shiftl w (N.of_nat offset)) in
  if (0 <? test_bits)%N then Ok (1 + clz64 test_bits)
  else if num_words (bv_nbits b) =? 0 then Fail OutOfBounds
  else if word_id + 1 =? num_words (bv_nbits b) then Ok (bv_nbits b + 1 - pos1)
  else next_loop e (num_words (bv_nbits b)) b word_id (1 + (64 - offset)).

Definition distanceToNextSetBit (e : env) (b : bitvec) (pos : nat) : res nat :=
  distanceToNextSetBit1 e b (S pos).

(** bitvector.hpp:122-129 *)
Fixpoint prev_loop (e : env) (b : bitvec) (word_id distance : nat) : res nat :=
  match word_id with
  | O => Ok distance
  | S w1 =>
      w <- wread e (bv_words b) w1 ;;
      if (0 <? w)%N then Ok (distance + ctz w)
      else prev_loop e b w1 (distance + 64)
  end.

(** bitvector.hpp:104-130 distanceToPrevSetBit *)
Definition distanceToPrevSetBit (e : env) (b : bitvec) (pos : nat) : res nat :=
  massert e (pos <=? bv_nbits b) ;;;
  match pos with
  | O => Ok 0
  | S p =>
      let word_id := p / 64 in
      let offset := p mod 64 in
      w <- wread e (bv_words b) word_id ;;
      let test_bits := N.shiftr w (N.of_nat (63 - offset)) in
      if (0 <? test_bits)%N then Ok (1 + ctz test_bits)
      else prev_loop e b word_id (1 + (offset + 1))
  end.
