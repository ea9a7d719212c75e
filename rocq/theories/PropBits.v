(** Bit vectors, rank, select, label search, suffix storage, integer keys and
    word helpers: C16 to C21, C27 and C35.  Proofs are in BitsApi.v,
    SuffixApi.v, IntKeys.v and Swar.v. *)
From Coq Require Import Arith List NArith ZArith Bool Lia.
From Verif Require Import Res Word Config Bitvector Rank Select LabelVector Suffix Builder Spec SpecBits
  BitsApi SuffixApi IntKeys WordApi Samples.
Import ListNotations.

(** Sample levels: 3, 130 and 64 bits. *)
Definition lev1 : list (list N) :=
  [[0xA000000000000000]; [0x8000000000000001; 0; 0x4000000000000000]; [0xFFFFFFFFFFFFFFFF]]%N.
Definition nb1 : list nat := [3; 130; 64].

Example lev1_hold : levels_hold lev1 nb1 0 3.
Proof.
  intros l Hl. assert (C : l = 0 \/ l = 1 \/ l = 2) by lia.
  destruct C as [-> | [-> | ->]]; eexists; eexists; (split; [reflexivity|]); (split; [reflexivity|]);
    apply holds_check; vm_compute; reflexivity.
Qed.
Example lev1_fits : fits (length (all_bits lev1 nb1 0 3)).
Proof. vm_compute. reflexivity. Qed.

(** * C19 *)
Theorem C19_concatenation : forall e per_level nbits s en,
  strict_mem e = false -> levels_hold per_level nbits s (end_level per_level en) ->
  let l := all_bits per_level nbits s (end_level per_level en) in fits (length l) ->
  exists b, bv_make e per_level nbits s en = Ok b /\ bv_nbits b = length l /\
    forall pos, pos < length l -> readBit e b pos = Ok (nth pos l false).
Proof. exact api_concat. Qed.
Print Assumptions C19_concatenation.

Example C19_concatenation_ex : strict_mem e0 = false /\ levels_hold lev1 nb1 0 (end_level lev1 0) /\
  fits (length (all_bits lev1 nb1 0 3)) /\ length (all_bits lev1 nb1 0 3) = 197 /\
  nth 132 (all_bits lev1 nb1 0 3) false = true.
Proof. split; [reflexivity|]. split; [exact lev1_hold|]. split; [exact lev1_fits|]. split; vm_compute; reflexivity. Qed.

(** Stray one bits after the end of a level spill into the next level. *)
Theorem C19_dirty_tail_refuted : exists per_level nbits b pos,
  bv_make e0 per_level nbits 0 0 = Ok b /\ pos < length (all_bits per_level nbits 0 2) /\
  readBit e0 b pos <> Ok (nth pos (all_bits per_level nbits 0 2) false).
Proof.
  exists [[0xFFFFFFFFFFFFFFFF%N]; [0%N]], [4; 4]. eexists. exists 5. split; [vm_compute; reflexivity|].
  split; [vm_compute; lia|vm_compute; discriminate].
Qed.
Print Assumptions C19_dirty_tail_refuted.

(** With every access checked, levels that fill the last word exactly make the
    constructor touch the word after the array. *)
Theorem C19_word_after_end_refuted : exists per_level nbits, levels_hold per_level nbits 0 2 /\
  bv_make e_strict per_level nbits 0 0 = Fail OutOfBounds.
Proof.
  exists [[0xFFFFFFFF00000000%N]; [0x8000000000000000%N]], [32; 32]. split; [|vm_compute; reflexivity].
  intros l Hl. assert (C : l = 0 \/ l = 1) by lia. destruct C as [-> | ->]; eexists; eexists;
    (split; [reflexivity|]); (split; [reflexivity|]); apply holds_check; vm_compute; reflexivity.
Qed.
Print Assumptions C19_word_after_end_refuted.

(** * C16 *)
Theorem C16_rank : forall e per_level nbits s en,
  strict_mem e = false -> levels_hold per_level nbits s (end_level per_level en) ->
  let l := all_bits per_level nbits s (end_level per_level en) in fits (length l) ->
  exists r, rank_make e 512 per_level nbits s en = Ok r /\
    forall pos, pos < length l -> rank e r pos = Ok (ones (firstn (S pos) l)).
Proof. exact api_rank. Qed.
Print Assumptions C16_rank.

Example C16_rank_ex : levels_hold lev1 nb1 0 (end_level lev1 0) /\ fits (length (all_bits lev1 nb1 0 3)) /\
  ones (firstn 133 (all_bits lev1 nb1 0 3)) = 5 /\
  (r <- rank_make e0 512 lev1 nb1 0 0 ;; rank e0 r 132) = Ok 5.
Proof. split; [exact lev1_hold|]. split; [exact lev1_fits|]. split; vm_compute; reflexivity. Qed.

(** * C17 *)
Theorem C17_select : forall e interval per_level nbits s en,
  strict_mem e = false -> 1 <= interval -> levels_hold per_level nbits s (end_level per_level en) ->
  let l := all_bits per_level nbits s (end_level per_level en) in fits (length l) -> nth 0 l false = true ->
  exists r, select_make e interval per_level nbits s en = Ok r /\
    forall k, 1 <= k <= ones l -> exists p, select e r k = Ok p /\
      p < length l /\ nth p l false = true /\ ones (firstn p l) = k - 1.
Proof. exact api_select. Qed.
Print Assumptions C17_select.

Example C17_select_ex : levels_hold lev1 nb1 0 (end_level lev1 0) /\ fits (length (all_bits lev1 nb1 0 3)) /\
  nth 0 (all_bits lev1 nb1 0 3) false = true /\ ones (all_bits lev1 nb1 0 3) = 69 /\
  (r <- select_make e0 64 lev1 nb1 0 0 ;; select e0 r 69) = Ok 196.
Proof. split; [exact lev1_hold|]. split; [exact lev1_fits|]. repeat split; vm_compute; reflexivity. Qed.

(** The first entry of the sampling table is position 0 whether or not the first
    bit is set, so a vector that starts with 0 is off. *)
Theorem C17_leading_zero_refuted : exists per_level nbits, levels_hold per_level nbits 0 1 /\
  ones (all_bits per_level nbits 0 1) = 1 /\ nth 3 (all_bits per_level nbits 0 1) false = true /\
  (r <- select_make e0 64 per_level nbits 0 0 ;; select e0 r 1) = Ok 0.
Proof.
  exists [[0x1000000000000000%N]], [8]. split.
  - intros l Hl. assert (l = 0) by lia. subst l. eexists. eexists. split; [reflexivity|]. split; [reflexivity|].
    apply holds_check. vm_compute. reflexivity.
  - repeat split; vm_compute; reflexivity.
Qed.
Print Assumptions C17_leading_zero_refuted.

(** * C18 *)
Theorem C18_next_set_bit : forall e per_level nbits s en b,
  strict_mem e = false -> levels_hold per_level nbits s (end_level per_level en) ->
  bv_make e per_level nbits s en = Ok b ->
  let l := all_bits per_level nbits s (end_level per_level en) in
  forall pos, S pos < length l -> exists d, distanceToNextSetBit e b pos = Ok d /\ 1 <= d /\
    (forall i, pos < i < pos + d -> nth i l false = false) /\
    (nth (pos + d) l false = true \/
     ((forall i, pos < i -> nth i l false = false) /\
      pos + d = if S pos / 64 =? (length l - 1) / 64 then length l else 64 * ((length l + 63) / 64))).
Proof. exact api_next. Qed.
Print Assumptions C18_next_set_bit.

Example C18_next_set_bit_ex : levels_hold lev1 nb1 0 (end_level lev1 0) /\ 67 < length (all_bits lev1 nb1 0 3) /\
  (b <- bv_make e0 lev1 nb1 0 0 ;; distanceToNextSetBit e0 b 66) = Ok 66.
Proof. split; [exact lev1_hold|]. split; [vm_compute; lia|vm_compute; reflexivity]. Qed.

(** Without a following 1 the distance can overshoot the end of the vector. *)
Theorem C18_end_overshoot_refuted : exists per_level nbits b pos, levels_hold per_level nbits 0 1 /\
  bv_make e0 per_level nbits 0 0 = Ok b /\ S pos < length (all_bits per_level nbits 0 1) /\
  exists d, distanceToNextSetBit e0 b pos = Ok d /\ length (all_bits per_level nbits 0 1) < pos + d.
Proof.
  exists [[0x8000000000000000; 0]%N], [70]. eexists. exists 3. split.
  - intros l Hl. assert (l = 0) by lia. subst l. eexists. eexists. split; [reflexivity|]. split; [reflexivity|].
    apply holds_check. vm_compute. reflexivity.
  - split; [vm_compute; reflexivity|]. split; [vm_compute; lia|].
    eexists. split; [vm_compute; reflexivity|vm_compute; lia].
Qed.
Print Assumptions C18_end_overshoot_refuted.

Theorem C18_prev_set_bit : forall e per_level nbits s en b,
  strict_mem e = false -> levels_hold per_level nbits s (end_level per_level en) ->
  bv_make e per_level nbits s en = Ok b ->
  let l := all_bits per_level nbits s (end_level per_level en) in
  forall pos, pos <= length l -> exists d, distanceToPrevSetBit e b pos = Ok d /\
    match pos with
    | O => d = 0
    | S _ => 1 <= d <= pos /\ nth (pos - d) l false = true /\ (forall i, pos - d < i < pos -> nth i l false = false)
             \/ d = S pos /\ (forall i, i < pos -> nth i l false = false)
    end.
Proof. exact api_prev. Qed.
Print Assumptions C18_prev_set_bit.

Example C18_prev_set_bit_ex : levels_hold lev1 nb1 0 (end_level lev1 0) /\ 132 <= length (all_bits lev1 nb1 0 3) /\
  (b <- bv_make e0 lev1 nb1 0 0 ;; distanceToPrevSetBit e0 b 132) = Ok 66.
Proof. split; [exact lev1_hold|]. split; [vm_compute; lia|vm_compute; reflexivity]. Qed.

(** * C20 *)
Theorem C20_search : forall e levels s en lv,
  lv_make levels s en = Ok lv ->
  let labels := concat (map (fun l => nth l levels []) (seq s ((if en =? 0 then length levels else en) - s))) in
  strict_mem e = false \/ 63 <= length labels /\ fits (S (length labels) * (S (length labels) / 64 + 1)) ->
  forall pos n t, node_sorted labels pos n -> exists p,
  (exists x, lv_search e lv t pos n = Ok (true, x) /\ in_node labels pos n x /\ nth x labels 0 = t) \/
  (lv_search e lv t pos n = Ok (false, p) /\ forall x, in_node labels pos n x -> nth x labels 0 <> t).
Proof. exact api_search_gen. Qed.
Print Assumptions C20_search.

Definition labs1 : list (list nat) := [[1; 7]; 255 :: map (fun i => 2 * i) (seq 5 60)].
Example C20_search_ex : exists lv, lv_make labs1 0 0 = Ok lv /\ 63 <= length (concat labs1) /\
  fits (S (length (concat labs1)) * (S (length (concat labs1)) / 64 + 1)) /\ node_sorted (concat labs1) 2 61 /\
  lv_search e_strict lv 100 2 61 = Ok (true, 48).
Proof.
  eexists. split; [vm_compute; reflexivity|]. split; [vm_compute; lia|]. split; [vm_compute; reflexivity|]. split.
  - apply node_sorted_check. vm_compute. reflexivity.
  - vm_compute. reflexivity.
Qed.

Theorem C20_search_greater : forall e levels s en lv,
  lv_make levels s en = Ok lv ->
  let labels := concat (map (fun l => nth l levels []) (seq s ((if en =? 0 then length levels else en) - s))) in
  forall pos n t, node_sorted labels pos n -> exists p,
  (exists x, lv_searchGreaterThan e lv t pos n = Ok (true, x) /\ in_node labels pos n x /\ t < nth x labels 0 /\
    forall y, in_node labels pos n y -> y < x -> nth y labels 0 <= t) \/
  (lv_searchGreaterThan e lv t pos n = Ok (false, p) /\ forall x, in_node labels pos n x -> nth x labels 0 <= t).
Proof. exact api_searchgt_gen. Qed.
Print Assumptions C20_search_greater.

Example C20_search_greater_ex : exists lv, lv_make labs1 0 0 = Ok lv /\ node_sorted (concat labs1) 2 61 /\
  lv_searchGreaterThan e_strict lv 101 2 61 = Ok (true, 49).
Proof.
  eexists. split; [vm_compute; reflexivity|]. split; [apply node_sorted_check; vm_compute; reflexivity|vm_compute; reflexivity].
Qed.

Theorem C20_variants_agree : forall e levels s en lv,
  lv_make levels s en = Ok lv ->
  let labels := concat (map (fun l => nth l levels []) (seq s ((if en =? 0 then length levels else en) - s))) in
  strict_mem e = false \/ 63 <= length labels /\ fits (S (length labels) * (S (length labels) / 64 + 1)) ->
  forall pos n t, pos + n <= length labels ->
  (forall x y, pos <= x -> x < y -> y < pos + n -> nth x labels 0 < nth y labels 0) ->
  binarySearch e lv t pos n = linearSearch e lv t pos n /\
  simdSearch e lv t pos n = linearSearch e lv t pos n.
Proof. exact api_agree_gen. Qed.
Print Assumptions C20_variants_agree.

Theorem C20_greater_variants_agree : forall e levels s en lv,
  lv_make levels s en = Ok lv ->
  let labels := concat (map (fun l => nth l levels []) (seq s ((if en =? 0 then length levels else en) - s))) in
  forall pos n t, pos + n <= length labels -> 1 <= n ->
  (forall x y, pos <= x -> x < y -> y < pos + n -> nth x labels 0 < nth y labels 0) ->
  binarySearchGreaterThan e lv t pos n = linearSearchGreaterThan e lv t pos n.
Proof. exact api_agree_gt_gen. Qed.
Print Assumptions C20_greater_variants_agree.

Example C20_variants_agree_ex : exists lv, lv_make [map (fun i => 2 * i) (seq 5 60)] 0 0 = Ok lv /\ 0 + 60 <= 60 /\
  simdSearch e0 lv 100 0 60 = Ok (true, 45) /\ binarySearchGreaterThan e0 lv 101 0 60 = Ok (true, 46).
Proof. eexists. split; [vm_compute; reflexivity|]. split; [lia|]. split; vm_compute; reflexivity. Qed.

(** The 16-byte loads leave a short label array. *)
Theorem C20_simd_overread_refuted : exists levels lv, lv_make levels 0 0 = Ok lv /\
  node_sorted (concat levels) 0 12 /\ lv_search e_strict lv 200 0 12 = Fail OutOfBounds.
Proof.
  exists [seq 1 12]. eexists. split; [vm_compute; reflexivity|].
  split; [apply node_sorted_check; vm_compute; reflexivity|vm_compute; reflexivity].
Qed.
Print Assumptions C20_simd_overread_refuted.

(** * C21 *)
Theorem C21_suffixes_read_back : forall e t hlen rlen h ops s en,
  strict_shift e = false -> strict_mem e = false -> t <> kNone -> 1 <= hlen + rlen <= 64 ->
  Forall (fun o => 1 <= fst o <= h /\ (snd o < 2 ^ N.of_nat (hlen + rlen))%N) ops ->
  fits ((hlen + rlen) * length ops + 64) ->
  let en' := if en =? 0 then h else en in en' <= h ->
  exists st, store_all e (hlen + rlen) ops (fresh h) = Ok st /\ exists sv,
    suf_make e t hlen rlen (map lv_suf st) (map (fun l => lv_sufcount l * (hlen + rlen)) st) s en = Ok sv /\
    forall i, i < length (stored_in ops s en') -> suf_read e sv (N.of_nat i) = Ok (nth i (stored_in ops s en') 0%N).
Proof. exact api_suffixes. Qed.
Print Assumptions C21_suffixes_read_back.

Example C21_suffixes_read_back_ex :
  let ops := [(2, 5); (1, 1); (2, 0x1ABCDEF); (3, 7); (2, 3)]%N in
  let ops := map (fun o => (N.to_nat (fst o), snd o)) ops in
  Forall (fun o => 1 <= fst o <= 3 /\ (snd o < 2 ^ N.of_nat (12 + 25))%N) ops /\
  stored_in ops 0 3 = [1; 5; 0x1ABCDEF; 3; 7]%N.
Proof. split; [repeat constructor|vm_compute; reflexivity]. Qed.

(** Suffixes that straddle two words are read with a shift count above 63,
    which C++ leaves undefined. *)
Theorem C21_wide_shift_refuted : exists ops st sv,
  store_all e_strict 37 ops (fresh 1) = Ok st /\
  suf_make (mkEnv true true false (fun _ => 0%N) (fun _ _ => 0)) kReal 0 37 (map lv_suf st) (map (fun l => lv_sufcount l * 37) st) 0 0 = Ok sv /\
  suf_read (mkEnv true true false (fun _ => 0%N) (fun _ _ => 0)) sv 1 = Fail WideShift.
Proof.
  exists [(1, 5%N); (1, 6%N)]. eexists. eexists. split; [vm_compute; reflexivity|]. split; vm_compute; reflexivity.
Qed.
Print Assumptions C21_wide_shift_refuted.

(** * C27 *)
Theorem C27_order : forall a b, (a < 2 ^ 64)%N -> (b < 2 ^ 64)%N ->
  (klt (uint64ToString a) (uint64ToString b) <-> (a < b)%N).
Proof. exact u64_order. Qed.
Theorem C27_roundtrip : forall w, (w < 2 ^ 64)%N -> stringToUint64 (uint64ToString w) = Ok w.
Proof. exact u64_roundtrip. Qed.
Theorem C27_string_roundtrip : forall s, is_bytes s -> length s = 8 ->
  exists w, (w < 2 ^ 64)%N /\ stringToUint64 s = Ok w /\ uint64ToString w = s.
Proof. exact u64_string_roundtrip. Qed.
Theorem C27_shape : forall w, length (uint64ToString w) = 8 /\ is_bytes (uint64ToString w).
Proof. exact u64_shape. Qed.
Print Assumptions C27_order.
Print Assumptions C27_roundtrip.
Print Assumptions C27_string_roundtrip.
Print Assumptions C27_shape.
Example C27_ex : (258 < 2 ^ 64)%N /\ (255 < 2 ^ 64)%N /\ uint64ToString 258 = [0; 0; 0; 0; 0; 0; 1; 2].
Proof. repeat split; vm_compute; reflexivity. Qed.
(** stringToUint64 of any string. *)
Theorem C27_any : forall s, is_bytes s ->
  (length s < 7 -> stringToUint64 s = Fail OutOfBounds) /\
  (7 <= length s -> stringToUint64 s = Ok (fold_left (fun v b => (256 * v + N.of_nat b)%N) (firstn 8 (s ++ [0])) 0%N)).
Proof. exact u64_any. Qed.
Print Assumptions C27_any.
Example C27_any_ex : stringToUint64 [0; 0; 0; 0; 0; 1; 2] = Ok 66048%N /\ stringToUint64 [0; 0; 0; 0; 0; 0; 1; 2; 9] = Ok 258%N.
Proof. split; vm_compute; reflexivity. Qed.
(** A string shorter than seven bytes is read past its end. *)
Theorem C27_short_string_refuted : exists s, is_bytes s /\ stringToUint64 s = Fail OutOfBounds.
Proof. exists [1; 2; 3]. split; [repeat constructor|reflexivity]. Qed.
Print Assumptions C27_short_string_refuted.

(** * C35 *)
Theorem C35_suxpopcount : forall x, (x < 2 ^ 64)%N -> suxpopcount x = N.of_nat (ones (word_bits x)).
Proof. exact api_suxpopcount. Qed.
Theorem C35_popcountLinear : forall e ws x n, Forall (fun w => (w < 2 ^ 64)%N) ws -> 64 * x + n <= 64 * length ws ->
  popcountLinear e ws x n = Ok (ones (firstn n (skipn (64 * x) (vec_bits ws)))).
Proof. exact api_popcountLinear. Qed.
Theorem C35_select64 : forall x k, (x < 2 ^ 64)%N -> 1 <= k <= ones (word_bits x) -> exists p,
  select64_naive x (Z.of_nat k) = Z.of_nat p /\ select64_popcount_search x (Z.of_nat k) = Z.of_nat p /\
  select64 x (Z.of_nat k) = Z.of_nat p /\
  p < 64 /\ nth p (word_bits x) false = true /\ ones (firstn p (word_bits x)) = k - 1.
Proof. exact api_select64. Qed.
Theorem C35_select512 : forall e ws x k, Forall (fun w => (w < 2 ^ 64)%N) ws -> x + 8 <= length ws -> 1 <= k ->
  let block := firstn 512 (skipn (64 * x) (vec_bits ws)) in
  if k <=? ones block
  then exists p, select512 e ws x (Z.of_nat k) = Ok (Z.of_nat p) /\
    p < 512 /\ nth p block false = true /\ ones (firstn p block) = k - 1
  else select512 e ws x (Z.of_nat k) = Ok (-1)%Z.
Proof. exact api_select512. Qed.
Theorem C35_selectLinear : forall e ws x k, Forall (fun w => (w < 2 ^ 64)%N) ws -> x < length ws ->
  let rest := skipn (64 * x) (vec_bits ws) in 1 <= k <= ones rest ->
  exists p, selectLinear e ws (length ws) x (Z.of_nat k) = Ok (Some (Z.of_nat p)) /\
    p < length rest /\ nth p rest false = true /\ ones (firstn p rest) = k - 1.
Proof. exact api_selectLinear. Qed.
(** Fewer ones than asked for. *)
Theorem C35_select64_naive_none : forall x k, (x < 2 ^ 64)%N -> ones (word_bits x) < k -> select64_naive x (Z.of_nat k) = (-1)%Z.
Proof. exact api_naive_none. Qed.
Theorem C35_selectLinear_none : forall e ws k, Forall (fun w => (w < 2 ^ 64)%N) ws -> ws <> [] -> ones (vec_bits ws) < k ->
  selectLinear e ws (length ws) 0 (Z.of_nat k) = Ok None.
Proof. exact api_selectLinear_none. Qed.
Print Assumptions C35_select64_naive_none.
Print Assumptions C35_selectLinear_none.
Example C35_none_ex : ones (word_bits 0xF0F) < 9 /\ select64_naive 0xF0F 9 = (-1)%Z /\
  ones (vec_bits [0; 0xF0F]%N) < 9 /\ selectLinear e_strict [0; 0xF0F]%N 2 0 9 = Ok None.
Proof. split; [apply Nat.leb_le; vm_compute; reflexivity|]. split; [reflexivity|]. split; [apply Nat.leb_le; vm_compute; reflexivity|reflexivity]. Qed.
Print Assumptions C35_suxpopcount.
Print Assumptions C35_popcountLinear.
Print Assumptions C35_select64.
Print Assumptions C35_select512.
Print Assumptions C35_selectLinear.
Example C35_ex : (0xF0F < 2 ^ 64)%N /\ ones (word_bits 0xF0F) = 8 /\ select64 0xF0F 5 = 60%Z /\ suxpopcount 0xF0F = 8%N /\
  select512 e_strict [0; 0; 0; 0; 0; 0; 0; 0xF0F]%N 0 5 = Ok 508%Z /\ selectLinear e_strict [0; 0xF0F]%N 2 1 5 = Ok (Some 60%Z).
Proof. repeat split; vm_compute; reflexivity. Qed.
(** selectLinear from a word other than the first runs past the array if there
    are too few ones left. *)
Theorem C35_selectLinear_overread_refuted : exists ws x k, x < length ws /\
  selectLinear e_strict ws (length ws) x k = Fail OutOfBounds.
Proof. exists [0; 0]%N, 1, 1%Z. split; [cbn; lia|vm_compute; reflexivity]. Qed.
Print Assumptions C35_selectLinear_overread_refuted.
