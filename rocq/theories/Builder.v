(** include/surf_builder.hpp *)
From Coq Require Import Arith List NArith ZArith Bool.
From Verif Require Import Res Word Config Hash Bitvector Suffix.
Import ListNotations.

(** Configuration: surf_builder.hpp:18-22 *)
Record config := mkCfg {
  cf_dense : bool;         (* include_dense_ *)
  cf_ratio : N;            (* sparse_dense_ratio_, uint32_t *)
  cf_type : suffix_type;
  cf_hlen : nat;           (* hash_suffix_len_ *)
  cf_rlen : nat            (* real_suffix_len_ *)
}.
Definition cf_len (c : config) : nat := cf_hlen c + cf_rlen c.

(** One level of the parallel per-level vectors of surf_builder.hpp:155-173.
    The C++ keeps seven vectors of equal length (addLevel pushes to all); the
    model keeps one vector of records. *)
Record level_rec := mkLevel {
  lv_labels : list nat;    (* labels_[level] *)
  lv_child : list N;       (* child_indicator_bits_[level] *)
  lv_louds : list N;       (* louds_bits_[level] *)
  lv_suf : list N;         (* suffixes_[level] *)
  lv_sufcount : nat;       (* suffix_counts_[level] *)
  lv_nodes : nat;          (* node_counts_[level] *)
  lv_lastterm : bool       (* is_last_item_terminator_[level] *)
}.

Definition levels := list level_rec.

Definition set_labels (l : level_rec) v := mkLevel v (lv_child l) (lv_louds l) (lv_suf l) (lv_sufcount l) (lv_nodes l) (lv_lastterm l).
Definition set_child (l : level_rec) v := mkLevel (lv_labels l) v (lv_louds l) (lv_suf l) (lv_sufcount l) (lv_nodes l) (lv_lastterm l).
Definition set_louds (l : level_rec) v := mkLevel (lv_labels l) (lv_child l) v (lv_suf l) (lv_sufcount l) (lv_nodes l) (lv_lastterm l).
Definition set_suf (l : level_rec) v c := mkLevel (lv_labels l) (lv_child l) (lv_louds l) v c (lv_nodes l) (lv_lastterm l).
Definition set_nodes (l : level_rec) v := mkLevel (lv_labels l) (lv_child l) (lv_louds l) (lv_suf l) (lv_sufcount l) v (lv_lastterm l).
Definition set_lastterm (l : level_rec) v := mkLevel (lv_labels l) (lv_child l) (lv_louds l) (lv_suf l) (lv_sufcount l) (lv_nodes l) v.

(** surf_builder.hpp:32-37 readBit *)
Definition b_readBit (e : env) (bits : list N) (pos : nat) : res bool :=
  massert e (pos <? length bits * 64) ;;;
  w <- vget bits (pos / 64) ;;
  Ok (negb (N.land w (N.shiftr kMsbMask (N.of_nat (pos mod 64))) =? 0)%N).

(** surf_builder.hpp:39-44 setBit *)
Definition b_setBit (e : env) (bits : list N) (pos : nat) : res (list N) :=
  massert e (pos <? length bits * 64) ;;;
  w <- vget bits (pos / 64) ;;
  vset bits (pos / 64) (N.lor w (N.shiftr kMsbMask (N.of_nat (pos mod 64)))).

(** surf_builder.hpp:95-97 isSameKey *)
Definition isSameKey (a b : key) : bool := (str_compare a b =? 0)%Z.

(** surf_builder.hpp:399-411 addLevel *)
Definition addLevel (st : levels) : levels :=
  st ++ [mkLevel [] [0%N] [0%N] [] 0 0 false].

(** surf_builder.hpp:413-415 getNumItems *)
Definition getNumItems (st : levels) (level : nat) : res nat :=
  l <- vget st level ;; Ok (length (lv_labels l)).

(** surf_builder.hpp:255-259 isCharCommonPrefix; back() of an empty vector is
    out of bounds *)
Definition isCharCommonPrefix (st : levels) (c level : nat) : res bool :=
  match nth_error st level with
  | None => Ok false
  | Some l =>
      if lv_lastterm l then Ok false
      else match rev (lv_labels l) with
           | [] => Fail OutOfBounds
           | b :: _ => Ok (c =? b)
           end
  end.

(** [setBit(child_indicator_bits_[level], getNumItems(level) - 1)]
    (surf_builder.hpp:202,283) *)
Definition set_last_child (e : env) (st : levels) (level : nat) : res levels :=
  l <- vget st level ;;
  i <- pred_idx (length (lv_labels l)) ;;
  c <- b_setBit e (lv_child l) i ;;
  vset st level (set_child l c).

(** surf_builder.hpp:199-206 skipCommonPrefix; [rest] is the key from byte
    [level] on *)
Fixpoint skip_loop (e : env) (st : levels) (rest : key) (level : nat) : res (levels * nat) :=
  match rest with
  | [] => Ok (st, level)
  | c :: rest' =>
      b <- isCharCommonPrefix st c level ;;
      if b : bool then
        st <- set_last_child e st level ;;
        skip_loop e st rest' (S level)
      else Ok (st, level)
  end.
Definition skipCommonPrefix (e : env) (st : levels) (k : key) : res (levels * nat) :=
  skip_loop e st k 0.

(** surf_builder.hpp:261-263 isLevelEmpty *)
Definition isLevelEmpty (st : levels) (level : nat) : bool :=
  match nth_error st level with
  | None => true
  | Some l => length (lv_labels l) =? 0
  end.

(** surf_builder.hpp:274-293 insertKeyByte and 265-272 moveToNextItemSlot *)
Definition insertKeyByte (e : env) (st : levels) (c level : nat)
  (is_start_of_node is_term : bool) : res levels :=
  let st := if length st <=? level then addLevel st else st in
  massert e (level <? length st) ;;;
  st <- (if 0 <? level then set_last_child e st (level - 1) else Ok st) ;;
  l <- vget st level ;;
  let l := set_labels l (lv_labels l ++ [c]) in
  l <- (if is_start_of_node then
          i <- pred_idx (length (lv_labels l)) ;;
          w <- b_setBit e (lv_louds l) i ;;
          Ok (set_nodes (set_louds l w) (S (lv_nodes l)))
        else Ok l) ;;
  let l := set_lastterm l is_term in
  let l := if length (lv_labels l) mod 64 =? 0
           then set_louds (set_child l (lv_child l ++ [0%N])) (lv_louds l ++ [0%N])
           else l in
  vset st level l.

(** surf_builder.hpp:229-232: bytes shared with the next key *)
Fixpoint insert_common (e : env) (fuel : nat) (st : levels) (k next : key) (level : nat)
  : res (levels * nat) :=
  match nth_error k level, nth_error next level with
  | Some a, Some b =>
      if a =? b then
        match fuel with
        | O => Fail NoFuel
        | S f =>
            st <- insertKeyByte e st a level true false ;;
            insert_common e f st k next (S level)
        end
      else Ok (st, level)
  | _, _ => Ok (st, level)
  end.

(** surf_builder.hpp:208-244 insertKeyBytesToTrieUntilUnique *)
Definition insertKeyBytesToTrieUntilUnique (e : env) (st : levels) (k next : key)
  (start_level : nat) : res (levels * nat) :=
  massert e (start_level <? length k) ;;;
  let level := start_level in
  let is_start := isLevelEmpty st level in
  c <- char_at k level ;;
  st <- insertKeyByte e st c level is_start false ;;
  let level := S level in
  if (length next <? level) || negb (isSameKey (firstn level k) (firstn level next))
  then Ok (st, level)
  else
    '(st, level) <- insert_common e (length k) st k next level ;;
    st <- (if level <? length k then
             c <- char_at k level ;; insertKeyByte e st c level true false
           else insertKeyByte e st kTerminator level true true) ;;
    Ok (st, S level).

(** surf_builder.hpp:296-317 storeSuffix.  [pos] is a 32-bit product; the model
    reports [PosOverflow] if it does not fit. *)
Definition storeSuffix (e : env) (st : levels) (slen level : nat) (suffix : N) : res levels :=
  lv <- pred_idx level ;;
  l <- vget st lv ;;
  let pos := lv_sufcount l * slen in
  if negb (fits32 (N.of_nat (pos + 64))) then Fail PosOverflow else
  massert e (pos <=? length (lv_suf l) * 64) ;;;
  let words := if pos =? length (lv_suf l) * 64 then lv_suf l ++ [0%N] else lv_suf l in
  let word_id := pos / 64 in
  let offset := pos mod 64 in
  let word_remaining_len := 64 - offset in
  words <-
    (if slen <=? word_remaining_len then
       sh <- shl64 e suffix (N.of_nat (word_remaining_len - slen)) ;;
       w <- vget words word_id ;;
       vset words word_id (wrap64 (w + sh))
     else
       left <- shr64 e suffix (N.of_nat (slen - word_remaining_len)) ;;
       w <- vget words word_id ;;
       words <- vset words word_id (wrap64 (w + left)) ;;
       let words := words ++ [0%N] in
       right <- shl64 e suffix (sub32 64 (N.of_nat (slen - word_remaining_len))) ;;
       w <- vget words (S word_id) ;;
       vset words (S word_id) (wrap64 (w + right))) ;;
  vset st lv (set_suf l words (S (lv_sufcount l))).

(** surf_builder.hpp:246-253 insertSuffix *)
Definition insertSuffix (e : env) (c : config) (st : levels) (k : key) (level : nat) : res levels :=
  let st := if length st <=? level then addLevel st else st in
  massert e (level - 1 <? length st) ;;;
  w <- constructSuffix e (cf_type c) k (cf_hlen c) level (cf_rlen c) ;;
  storeSuffix e st (cf_len c) level w.

(** surf_builder.hpp:189-190: skip duplicates of [k] *)
Fixpoint drop_same (k : key) (keys : list key) : list key :=
  match keys with
  | k' :: rest => if isSameKey k k' then drop_same k rest else keys
  | [] => []
  end.

(** surf_builder.hpp:185-197 buildSparse; for the last key the successor is
    the empty string *)
Fixpoint build_loop (e : env) (c : config) (fuel : nat) (st : levels) (keys : list key)
  : res levels :=
  match keys with
  | [] => Ok st
  | k :: rest =>
      match fuel with
      | O => Fail NoFuel
      | S f =>
          '(st, level) <- skipCommonPrefix e st k ;;
          let rest' := drop_same k rest in
          let next := match rest' with n :: _ => n | [] => [] end in
          '(st, level) <- insertKeyBytesToTrieUntilUnique e st k next level ;;
          st <- insertSuffix e c st k level ;;
          build_loop e c f st rest'
      end
  end.
Definition buildSparse (e : env) (c : config) (keys : list key) : res levels :=
  build_loop e c (length keys) [] keys.

(** surf_builder.hpp:331-341 computeDenseMem: terms in 32-bit arithmetic, the
    sum in uint64_t (not wrapped here) *)
Definition level_dense_mem (slen : nat) (st : levels) (level : nat) : res N :=
  l <- vget st level ;;
  let m1 := wrap32 (512 * N.of_nat (lv_nodes l)) in
  m2 <- (match level with
         | O => Ok 0%N
         | S p => lp <- vget st p ;; Ok (N.of_nat (lv_nodes lp) / 8 + 1)%N
         end) ;;
  let m3 := (wrap32 (N.of_nat (lv_sufcount l) * N.of_nat slen) / 8)%N in
  Ok (m1 + m2 + m3)%N.
Definition computeDenseMem (e : env) (slen : nat) (st : levels) (downto : nat) : res N :=
  massert e (downto <=? length st) ;;;
  foldM (fun acc level => m <- level_dense_mem slen st level ;; Ok (acc + m)%N)
    (seq 0 downto) 0%N.

(** surf_builder.hpp:343-351 computeSparseMem *)
Definition level_sparse_mem (slen : nat) (st : levels) (level : nat) : res N :=
  l <- vget st level ;;
  let n := N.of_nat (length (lv_labels l)) in
  Ok (wrap32 (n + wrap32 (2 * n) / 8 + 1)
      + wrap32 (N.of_nat (lv_sufcount l) * N.of_nat slen) / 8)%N.
Definition computeSparseMem (slen : nat) (st : levels) (start_level : nat) : res N :=
  foldM (fun acc level => m <- level_sparse_mem slen st level ;; Ok (acc + m)%N)
    (seq start_level (length st - start_level)) 0%N.

(** surf_builder.hpp:319-329 determineCutoffLevel.  [sparse_start_level_ =
    cutoff_level--] stores the value before the decrement. *)
Fixpoint cutoff_loop (e : env) (fuel : nat) (slen : nat) (ratio : N) (st : levels)
  (cutoff : nat) (dense_mem sparse_mem : N) : res nat :=
  if (cutoff <? length st) && (dense_mem * ratio <? sparse_mem)%N then
    match fuel with
    | O => Fail NoFuel
    | S f =>
        d <- computeDenseMem e slen st (S cutoff) ;;
        s <- computeSparseMem slen st (S cutoff) ;;
        cutoff_loop e f slen ratio st (S cutoff) d s
    end
  else Ok cutoff.
Definition determineCutoffLevel (e : env) (c : config) (st : levels) : res nat :=
  d <- computeDenseMem e (cf_len c) st 0 ;;
  s <- computeSparseMem (cf_len c) st 0 ;;
  cutoff_loop e (length st) (cf_len c) (cf_ratio c) st 0 d s.

(** surf_builder.hpp:160-163: the dense vectors of one level *)
Record dense_rec := mkDenseRec {
  dr_labels : list N;      (* bitmap_labels_[level] *)
  dr_child : list N;       (* bitmap_child_indicator_bits_[level] *)
  dr_prefix : list N       (* prefixkey_indicator_bits_[level] *)
}.

(** surf_builder.hpp:376-389 initDenseVectors: four words per node in each
    bitmap, one prefix word per 64 nodes *)
Definition initDenseVectors (nodes : nat) : dense_rec :=
  mkDenseRec (repeat 0%N (nodes * 4)) (repeat 0%N (nodes * 4)) (repeat 0%N (num_words nodes)).

(** surf_builder.hpp:421-424 isTerminator *)
Definition isTerminator (e : env) (l : level_rec) (pos : nat) : res bool :=
  label <- vget (lv_labels l) pos ;;
  if label =? kTerminator then b <- b_readBit e (lv_child l) pos ;; Ok (negb b) else Ok false.

(** surf_builder.hpp:391-397 setLabelAndChildIndicatorBitmap *)
Definition setLabelAndChild (e : env) (l : level_rec) (d : dense_rec) (node_num pos : nat)
  : res dense_rec :=
  label <- vget (lv_labels l) pos ;;
  lb <- b_setBit e (dr_labels d) (node_num * kFanout + label) ;;
  c <- b_readBit e (lv_child l) pos ;;
  cb <- (if c : bool then b_setBit e (dr_child d) (node_num * kFanout + label) else Ok (dr_child d)) ;;
  Ok (mkDenseRec lb cb (dr_prefix d)).

(** surf_builder.hpp:363-372: one item *)
Definition dense_item (e : env) (l : level_rec) (st : dense_rec * nat) (pos : nat)
  : res (dense_rec * nat) :=
  let '(d, node_num) := st in
  s <- b_readBit e (lv_louds l) pos ;;
  if s : bool then
    let node_num := S node_num in
    t <- isTerminator e l pos ;;
    if t : bool then
      p <- b_setBit e (dr_prefix d) node_num ;;
      Ok (mkDenseRec (dr_labels d) (dr_child d) p, node_num)
    else d <- setLabelAndChild e l d node_num pos ;; Ok (d, node_num)
  else d <- setLabelAndChild e l d node_num pos ;; Ok (d, node_num).

(** surf_builder.hpp:355-372: one level *)
Definition build_dense_level (e : env) (l : level_rec) : res dense_rec :=
  let d := initDenseVectors (lv_nodes l) in
  let n := length (lv_labels l) in
  if n =? 0 then Ok d
  else
    t <- isTerminator e l 0 ;;
    d <- (if t : bool then
            p <- b_setBit e (dr_prefix d) 0 ;;
            Ok (mkDenseRec (dr_labels d) (dr_child d) p)
          else setLabelAndChild e l d 0 0) ;;
    '(d, _) <- foldM (dense_item e l) (seq 1 (n - 1)) (d, 0) ;;
    Ok d.

(** surf_builder.hpp:353-374 buildDense *)
Definition buildDense (e : env) (st : levels) (start : nat) : res (list dense_rec) :=
  mapM (fun level => l <- vget st level ;; build_dense_level e l) (seq 0 start).

(** The finished builder object *)
Record builder := mkBuilder {
  bd_cfg : config; bd_levels : levels; bd_dense : list dense_rec; bd_start : nat }.

(** surf_builder.hpp:176-183 build *)
Definition build (e : env) (c : config) (keys : list key) : res builder :=
  massert e (0 <? length keys) ;;;
  st <- buildSparse e c keys ;;
  if cf_dense c then
    start <- determineCutoffLevel e c st ;;
    ds <- buildDense e st start ;;
    Ok (mkBuilder c st ds start)
  else Ok (mkBuilder c st [] 0).
