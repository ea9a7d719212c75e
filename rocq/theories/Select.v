(** include/select.hpp *)
From Coq Require Import Arith List NArith ZArith Bool.
From Verif Require Import Res Word Bitvector.
Import ListNotations.

(** select.hpp:161-163 *)
Record bvselect := mkSelect {
  sl_bv : bitvec; sl_interval : nat; sl_ones : nat; sl_lut : list nat }.

(** select.hpp:144-149: while loop inside one word *)
Fixpoint sample_loop (fuel : nat) (w : N) (i interval ones_in_word cumu : nat)
  (st : list nat * nat) : res (list nat * nat) :=
  let '(lut, sampling) := st in
  if sampling <=? cumu + ones_in_word then
    match fuel with
    | O => Fail NoFuel
    | S f =>
        let diff := (Z.of_nat sampling - Z.of_nat cumu)%Z in
        let result_pos := Z.to_nat (Z.of_nat (i * 64) + select64_popcount_search w diff) in
        sample_loop f w i interval ones_in_word cumu (lut ++ [result_pos], sampling + interval)
    end
  else Ok st.

(** select.hpp:133-158 initSelectLut; returns (select_lut_, num_ones_) *)
Definition initSelectLut (e : env) (b : bitvec) (interval : nat) : res (list nat * nat) :=
  '(lut, _, cumu) <-
    foldM (fun st i =>
             let '(lut, sampling, cumu) := st in
             w <- wread e (bv_words b) i ;;
             let ones := popcnt w in
             '(lut, sampling) <- sample_loop 65 w i interval ones cumu (lut, sampling) ;;
             Ok (lut, sampling, cumu + ones))
      (seq 0 (num_words (bv_nbits b))) ([0], interval, 0) ;;
  Ok (lut, cumu).

(** select.hpp:19-27 constructor *)
Definition select_make (e : env) (interval : nat) (per_level : list (list N))
  (num_bits_per_level : list nat) (start_level end_level : nat) : res bvselect :=
  b <- bv_make e per_level num_bits_per_level start_level end_level ;;
  '(lut, ones) <- initSelectLut e b interval ;;
  Ok (mkSelect b interval ones lut).

(** select.hpp:59-64: while loop over the following words *)
Fixpoint select_loop (e : env) (fuel : nat) (ws : list N) (word_id : nat) (word : N)
  (ones rank_left : nat) : res (nat * N * nat) :=
  if ones <? rank_left then
    match fuel with
    | O => Fail NoFuel
    | S f =>
        w <- wread e ws (S word_id) ;;
        select_loop e f ws (S word_id) w (popcnt w) (rank_left - ones)
    end
  else Ok (word_id, word, rank_left).

(** select.hpp:34-66 select.  [rank_left--] at rank 0 is excluded by the
    first assert; without asserts it would wrap, which the model reports as
    out of bounds. *)
Definition select (e : env) (s : bvselect) (rnk : nat) : res nat :=
  massert e (0 <? rnk) ;;;
  massert e (rnk <=? sl_ones s + 1) ;;;
  let lut_idx := rnk / sl_interval s in
  let rank_left0 := rnk mod sl_interval s in
  rank_left <- (if lut_idx =? 0 then pred_idx rank_left0 else Ok rank_left0) ;;
  pos <- vget (sl_lut s) lut_idx ;;
  if rank_left =? 0 then Ok pos
  else
    let word_id0 := pos / 64 in
    let offset0 := pos mod 64 in
    let word_id := if offset0 =? 63 then S word_id0 else word_id0 in
    let offset := if offset0 =? 63 then 0 else S offset0 in
    w <- wread e (bv_words (sl_bv s)) word_id ;;
    let word := N.shiftr (wrap64 (N.shiftl w (N.of_nat offset))) (N.of_nat offset) in
    '(word_id, word, rank_left) <-
      select_loop e (S (length (bv_words (sl_bv s)))) (bv_words (sl_bv s)) word_id word
        (popcnt word) rank_left ;;
    Ok (Z.to_nat (Z.of_nat (word_id * 64)
                  + select64_popcount_search word (Z.of_nat rank_left))).
