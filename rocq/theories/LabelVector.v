(** include/label_vector.hpp *)
From Coq Require Import Arith List NArith Bool.
From Verif Require Import Res Word.
Import ListNotations.

(** label_vector.hpp:103-104.  [lv_bytes] holds num_bytes_ labels; the
    allocation has [lv_alloc] bytes and is zero past num_bytes_. *)
Record labelvec := mkLV { lv_bytes : list nat; lv_alloc : N }.

Definition lv_num_bytes (lv : labelvec) : nat := length (lv_bytes lv).

(** label_vector.hpp:16-39 constructor.  alloc_bytes is a 32-bit product, so it
    can be smaller than num_bytes_; the copy loop writes num_bytes_ - 1 labels
    into it. *)
Definition lv_make (labels_per_level : list (list nat)) (start_level end_level0 : nat)
  : res labelvec :=
  let end_level := if end_level0 =? 0 then length labels_per_level else end_level0 in
  ls <- mapM (vget labels_per_level) (seq start_level (end_level - start_level)) ;;
  let data := concat ls in
  let num_bytes := N.of_nat (1 + length data) in
  if fits32 num_bytes then
    let alloc_bytes := wrap32 (num_bytes * (num_bytes / 64 + 1))%N in
    if (N.of_nat (length data) <=? alloc_bytes)%N
    then Ok (mkLV (data ++ [0]) alloc_bytes)
    else Fail OutOfBounds
  else Fail PosOverflow.

(** label_vector.hpp:57-63 read, operator[]: labels_[pos] *)
Definition lv_read (e : env) (lv : labelvec) (pos : nat) : res nat :=
  if (N.of_nat pos <? lv_alloc lv)%N then Ok (nth pos (lv_bytes lv) 0)
  else if strict_mem e then Fail OutOfBounds
  else if (N.of_nat pos <? lv_alloc lv + 80)%N then Ok (junkb e (lv_bytes lv) pos mod 256)
  else Fail OutOfBounds.

(** label_vector.hpp:183-191 linearSearch *)
Fixpoint linear_loop (e : env) (lv : labelvec) (target pos i n : nat) : res (bool * nat) :=
  match n with
  | O => Ok (false, pos)
  | S m =>
      l <- lv_read e lv (pos + i) ;;
      if target =? l then Ok (true, pos + i) else linear_loop e lv target pos (S i) m
  end.
Definition linearSearch e lv target pos search_len := linear_loop e lv target pos 0 search_len.

(** label_vector.hpp:135-150 binarySearch *)
Fixpoint binary_loop (e : env) (fuel : nat) (lv : labelvec) (target pos l r : nat)
  : res (bool * nat) :=
  if l <? r then
    match fuel with
    | O => Fail NoFuel
    | S f =>
        let m := (l + r) / 2 in
        lab <- lv_read e lv m ;;
        if target <? lab then binary_loop e f lv target pos l m
        else if target =? lab then Ok (true, m)
        else binary_loop e f lv target pos (S m) r
    end
  else Ok (false, pos).
Definition binarySearch e lv target pos search_len :=
  binary_loop e (S search_len) lv target pos pos (pos + search_len).

(** _mm_loadu_si128, _mm_cmpeq_epi8, _mm_movemask_epi8: bit j of the result is
    set iff byte j of the 16 bytes at [start] equals [target]. *)
Fixpoint simd_mask (bytes : list nat) (target : nat) : N :=
  match bytes with
  | [] => 0%N
  | b :: t => ((if (b =? target)%nat then 1 else 0) + 2 * simd_mask t target)%N
  end.
Definition simd_cmp (e : env) (lv : labelvec) (target start : nat) : res N :=
  bytes <- mapM (lv_read e lv) (seq start 16) ;;
  Ok (simd_mask bytes target).

(** label_vector.hpp:152-181 simdSearch *)
Fixpoint simd_loop (e : env) (fuel : nat) (lv : labelvec) (target pos searched left : nat)
  : res (bool * nat) :=
  if 0 <? left / 16 then
    match fuel with
    | O => Fail NoFuel
    | S f =>
        check_bits <- simd_cmp e lv target (pos + searched) ;;
        if (check_bits =? 0)%N
        then simd_loop e f lv target pos (searched + 16) (left - 16)
        else Ok (true, pos + (searched + ctz check_bits))
    end
  else if 0 <? left then
    m <- simd_cmp e lv target (pos + searched) ;;
    let check_bits := N.land m (N.shiftl 1 (N.of_nat left) - 1) in
    if (check_bits =? 0)%N then Ok (false, pos)
    else Ok (true, pos + (searched + ctz check_bits))
  else Ok (false, pos).
Definition simdSearch e lv target pos search_len :=
  simd_loop e (S search_len) lv target pos 0 search_len.

(** label_vector.hpp:107-120 search; returns the flag and the final [pos] *)
Definition lv_search (e : env) (lv : labelvec) (target pos search_len : nat)
  : res (bool * nat) :=
  first <- (if 1 <? search_len then l <- lv_read e lv pos ;; Ok (l =? kTerminator) else Ok false) ;;
  let pos := if first then S pos else pos in
  let search_len := if first then search_len - 1 else search_len in
  if search_len <? 3 then linearSearch e lv target pos search_len
  else if search_len <? 12 then binarySearch e lv target pos search_len
  else simdSearch e lv target pos search_len.

(** label_vector.hpp:218-226 linearSearchGreaterThan *)
Fixpoint linear_gt_loop (e : env) (lv : labelvec) (target pos i n : nat) : res (bool * nat) :=
  match n with
  | O => Ok (false, pos)
  | S m =>
      l <- lv_read e lv (pos + i) ;;
      if target <? l then Ok (true, pos + i) else linear_gt_loop e lv target pos (S i) m
  end.
Definition linearSearchGreaterThan e lv target pos search_len :=
  linear_gt_loop e lv target pos 0 search_len.

(** label_vector.hpp:193-216 binarySearchGreaterThan *)
Fixpoint binary_gt_loop (e : env) (fuel : nat) (lv : labelvec) (target pos search_len l r : nat)
  : res (bool * nat) :=
  if l <? r then
    match fuel with
    | O => Fail NoFuel
    | S f =>
        let m := (l + r) / 2 in
        lab <- lv_read e lv m ;;
        if target <? lab then binary_gt_loop e f lv target pos search_len l m
        else if target =? lab then
          if m <? pos + search_len - 1 then Ok (true, S m) else Ok (false, pos)
        else binary_gt_loop e f lv target pos search_len (S m) r
    end
  else if l <? pos + search_len then Ok (true, l) else Ok (false, pos).
Definition binarySearchGreaterThan e lv target pos search_len :=
  binary_gt_loop e (S search_len) lv target pos search_len pos (pos + search_len).

(** label_vector.hpp:122-133 searchGreaterThan *)
Definition lv_searchGreaterThan (e : env) (lv : labelvec) (target pos search_len : nat)
  : res (bool * nat) :=
  first <- (if 1 <? search_len then l <- lv_read e lv pos ;; Ok (l =? kTerminator) else Ok false) ;;
  let pos := if first then S pos else pos in
  let search_len := if first then search_len - 1 else search_len in
  if search_len <? 3 then linearSearchGreaterThan e lv target pos search_len
  else binarySearchGreaterThan e lv target pos search_len.
