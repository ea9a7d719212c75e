(** select64_broadword of include/popcount.h.  Nothing in the library calls it. *)
From Coq Require Import List NArith ZArith Bool.
From Verif Require Import Res Word.
Import ListNotations.
Local Open Scope N_scope.

(** conversions between int and uint64_t *)
Definition int_to_u64 (z : Z) : N := Z.to_N (z mod 18446744073709551616).
Definition u64_to_int (n : N) : Z :=
  let m := Z.of_N (wrap32 n) in if (m <? 2147483648)%Z then m else (m - 4294967296)%Z.
(** a - b on uint64_t *)
Definition sub64 (a b : N) : N := wrap64 (a + two64 - b).

(** popcount.h:22-29 ONES_STEP_8 (the same as L8), MSBS_STEP_8 and its
    complement, INCR_STEP_8 *)
Definition MSBS_STEP_8 : N := 0x8080808080808080.
Definition NOT_MSBS_STEP_8 : N := 0x7F7F7F7F7F7F7F7F.
Definition INCR_STEP_8 : N := 0x8040201008040201.

(** popcount.h:35 LEQ_STEP_8(x,y) *)
Definition LEQ_STEP_8 (x y : N) : N :=
  N.shiftr (N.land (N.lxor (N.lxor (sub64 (N.lor y MSBS_STEP_8) (N.land x NOT_MSBS_STEP_8)) x) y) MSBS_STEP_8) 7.
(** popcount.h:41 ZCOMPARE_STEP_8(x) *)
Definition ZCOMPARE_STEP_8 (x : N) : N :=
  N.shiftr (N.land (N.lor x (sub64 (N.lor x MSBS_STEP_8) L8)) MSBS_STEP_8) 7.

(** popcount.h:126-129: the population count of each byte and all below it *)
Definition byte_sums (word : N) : N :=
  let s1 := sub64 word (N.shiftr (N.land word G2) 1) in
  let s2 := wrap64 (N.land s1 G4 + N.land (N.shiftr s1 2) G4) in
  let s3 := N.land (wrap64 (s2 + N.shiftr s2 4)) G8 in
  wrap64 (s3 * L8).

(** popcount.h:138-144: the place of a one in the byte [b] *)
Definition in_byte (b : N) (byte_rank : Z) : N :=
  let spread_bits := N.land (wrap64 (b * L8)) INCR_STEP_8 in
  let bit_sums := wrap64 (ZCOMPARE_STEP_8 spread_bits * L8) in
  let byte_rank_step_8 := wrap64 (int_to_u64 byte_rank * L8) in
  N.shiftr (wrap64 (LEQ_STEP_8 bit_sums byte_rank_step_8 * L8)) 56.

(** popcount.h:121-145 select64_broadword; the shifts by [place] are undefined
    if it is 64 *)
Definition select64_broadword (e : env) (x : N) (k : Z) : res Z :=
  let sums := byte_sums x in
  let residual_step_8 := wrap64 (int_to_u64 k * L8) in
  let place := N.land (N.shiftr (wrap64 (LEQ_STEP_8 sums residual_step_8 * L8)) 53) (two64 - 8) in
  below <- shr64 e (wrap64 (N.shiftl sums 8)) place ;;
  let byte_rank := u64_to_int (sub64 (int_to_u64 k) (N.land below 0xFF)) in
  w <- shr64 e x place ;;
  Ok (u64_to_int (wrap64 (place + in_byte (N.land w 0xFF) byte_rank))).
