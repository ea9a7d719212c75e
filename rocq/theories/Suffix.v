(** include/suffix.hpp *)
From Coq Require Import Arith List NArith ZArith Bool.
From Verif Require Import Res Word Config Hash Bitvector.
Import ListNotations.

(** suffix.hpp:181-184 *)
Record bvsuffix := mkSuf {
  sf_bv : bitvec; sf_type : suffix_type; sf_hlen : nat; sf_rlen : nat }.

(** suffix.hpp:21 *)
Definition suf_empty : bvsuffix := mkSuf bv_empty kNone 0 0.

(** suffix.hpp:107-109 *)
Definition sf_len (s : bvsuffix) : nat := sf_hlen s + sf_rlen s.

(** suffix.hpp:36-41 constructHashSuffix; shift counts in 32-bit arithmetic *)
Definition constructHashSuffix (e : env) (k : key) (len : nat) : res N :=
  let suffix := suffixHash k in
  suffix <- shl64 e suffix (sub32 (sub32 64 (N.of_nat len)) (N.of_nat kHashShift)) ;;
  shr64 e suffix (sub32 64 (N.of_nat len)).

(** suffix.hpp:43-65 constructRealSuffix *)
Definition constructRealSuffix (k : key) (level len : nat) : res N :=
  if (length k <? level) || ((length k - level) * 8 <? len) then Ok 0%N
  else
    let num_complete_bytes := len / 8 in
    suffix <- (if 0 <? num_complete_bytes then
                 c <- char_at k level ;;
                 foldM (fun s i => c <- char_at k (level + i) ;;
                                   Ok (wrap64 (wrap64 (N.shiftl s 8) + N.of_nat c)))
                   (seq 1 (num_complete_bytes - 1)) (N.of_nat c)
               else Ok 0%N) ;;
    let offset := len mod 8 in
    if 0 <? offset then
      c <- char_at k (level + num_complete_bytes) ;;
      Ok (wrap64 (wrap64 (N.shiftl suffix (N.of_nat offset))
                  + N.shiftr (N.of_nat c) (N.of_nat (8 - offset))))
    else Ok suffix.

(** suffix.hpp:67-75 constructMixedSuffix *)
Definition constructMixedSuffix (e : env) (k : key) (hash_len real_level real_len : nat) : res N :=
  h <- constructHashSuffix e k hash_len ;;
  r <- constructRealSuffix k real_level real_len ;;
  h <- shl64 e h (N.of_nat real_len) ;;
  Ok (N.lor h r).

(** suffix.hpp:77-90 constructSuffix *)
Definition constructSuffix (e : env) (t : suffix_type) (k : key)
  (hash_len real_level real_len : nat) : res N :=
  match t with
  | kHash => constructHashSuffix e k hash_len
  | kReal => constructRealSuffix k real_level real_len
  | kMixed => constructMixedSuffix e k hash_len real_level real_len
  | kNone => Ok 0%N
  end.

(** suffix.hpp:92-94 extractHashSuffix *)
Definition extractHashSuffix (e : env) (suffix : N) (real_len : nat) : res N :=
  shr64 e suffix (N.of_nat real_len).

(** suffix.hpp:96-101 extractRealSuffix *)
Definition extractRealSuffix (e : env) (suffix : N) (real_len : nat) : res N :=
  mask <- shl64 e 1 (N.of_nat real_len) ;;
  Ok (N.land suffix (wrap64 (mask + two64 - 1))).

(** suffix.hpp:23-34 constructor *)
Definition suf_make (e : env) (t : suffix_type) (hash_len real_len : nat)
  (per_level : list (list N)) (num_bits_per_level : list nat) (start_level end_level : nat)
  : res bvsuffix :=
  b <- bv_make e per_level num_bits_per_level start_level end_level ;;
  massert e (hash_len + real_len <=? 64) ;;;
  Ok (mkSuf b t hash_len real_len).

(** idx * suffix_len in 32-bit arithmetic (suffix.hpp:192,195) *)
Definition suf_bitpos (s : bvsuffix) (idx : N) : N := wrap32 (idx * N.of_nat (sf_len s)).

(** suffix.hpp:187-202 read *)
Definition suf_read (e : env) (s : bvsuffix) (idx : N) : res N :=
  match sf_type s with
  | kNone => Ok 0%N
  | _ =>
      let suffix_len := N.of_nat (sf_len s) in
      let bit_pos := suf_bitpos s idx in
      if (N.of_nat (bv_nbits (sf_bv s)) <=? bit_pos)%N then Ok 0%N
      else
        let word_id := N.to_nat (bit_pos / 64) in
        let offset := (bit_pos mod 64)%N in
        w <- wread e (bv_words (sf_bv s)) word_id ;;
        ret_word <- shr64 e (wrap64 (N.shiftl w offset)) (sub32 64 suffix_len) ;;
        if (64 <? offset + suffix_len)%N then
          w2 <- wread e (bv_words (sf_bv s)) (word_id + 1) ;;
          r2 <- shr64 e w2 (sub32 (sub32 64 offset) suffix_len) ;;
          Ok (wrap64 (ret_word + r2))
        else Ok ret_word
  end.

(** suffix.hpp:204-206 readReal *)
Definition suf_readReal (e : env) (s : bvsuffix) (idx : N) : res N :=
  w <- suf_read e s idx ;; extractRealSuffix e w (sf_rlen s).

(** suffix.hpp:208-227 checkEquality *)
Definition checkEquality (e : env) (s : bvsuffix) (idx : N) (k : key) (level : nat) : res bool :=
  match sf_type s with
  | kNone => Ok true
  | t =>
      if (N.of_nat (bv_nbits (sf_bv s)) <=? suf_bitpos s idx)%N then Ok false
      else
        stored <- suf_read e s idx ;;
        let is_real := match t with kReal => true | _ => false end in
        if is_real && (stored =? 0)%N then Ok true
        else if is_real && ((length k <? level) || ((length k - level) * 8 <? sf_rlen s))
        then Ok false
        else
          q <- constructSuffix e t k (sf_hlen s) level (sf_rlen s) ;;
          Ok (stored =? q)%N
  end.

(** suffix.hpp:249-267 compare *)
Definition suf_compare (e : env) (s : bvsuffix) (idx : N) (k : key) (level : nat) : res Z :=
  if (N.of_nat (bv_nbits (sf_bv s)) <=? suf_bitpos s idx)%N then Ok kCouldBePositive
  else match sf_type s with
  | kNone | kHash => Ok kCouldBePositive
  | t =>
      stored <- suf_read e s idx ;;
      q <- constructRealSuffix k level (sf_rlen s) ;;
      stored <- (match t with kMixed => extractRealSuffix e stored (sf_rlen s)
                         | _ => Ok stored end) ;;
      if (stored =? 0)%N && (q =? 0)%N then Ok kCouldBePositive
      else if (stored =? 0)%N || (stored <? q)%N then Ok (-1)%Z
      else if (stored =? q)%N then Ok kCouldBePositive
      else Ok 1%Z
  end.
