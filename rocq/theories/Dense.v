(** include/louds_dense.hpp *)
From Coq Require Import Arith List NArith ZArith Bool.
From Verif Require Import Res Word Config Bitvector Rank Suffix Builder.
Import ListNotations.

(** louds_dense.hpp:153-154 *)
Definition kNodeFanout : nat := 256.
Definition kRankBasicBlockSize : nat := 512.

(** louds_dense.hpp:156-162 *)
Record dense := mkDense {
  d_height : nat;
  d_cuts : list N;
  d_labels : bvrank;
  d_child : bvrank;
  d_prefix : bvrank;
  d_suf : bvsuffix
}.

(** running sums minus one, in position_t arithmetic
    (louds_dense.hpp:173-177, louds_sparse.hpp:202-206) *)
Fixpoint level_cuts_from (bit_count : N) (num_bits : list nat) : list N :=
  match num_bits with
  | [] => []
  | n :: t => let b := (bit_count + N.of_nat n)%N in sub32 b 1 :: level_cuts_from b t
  end.

(** louds_dense.hpp:166-202 constructor *)
Definition dense_make (e : env) (b : builder) : res dense :=
  let height := bd_start b in
  let st := bd_levels b in
  let slen := cf_len (bd_cfg b) in
  num_bits_per_level <-
    mapM (fun level => d <- vget (bd_dense b) level ;; Ok (length (dr_labels d) * 64))
      (seq 0 height) ;;
  let cuts := level_cuts_from 0 num_bits_per_level in
  labels <- rank_make e kRankBasicBlockSize (map dr_labels (bd_dense b)) num_bits_per_level 0 height ;;
  child <- rank_make e kRankBasicBlockSize (map dr_child (bd_dense b)) num_bits_per_level 0 height ;;
  prefix <- rank_make e kRankBasicBlockSize (map dr_prefix (bd_dense b)) (map lv_nodes st) 0 height ;;
  suf <- (match cf_type (bd_cfg b) with
          | kNone => Ok suf_empty
          | t =>
              nb <- mapM (fun level => l <- vget st level ;; Ok (lv_sufcount l * slen)) (seq 0 height) ;;
              suf_make e t (cf_hlen (bd_cfg b)) (cf_rlen (bd_cfg b)) (map lv_suf st) nb 0 height
          end) ;;
  Ok (mkDense height cuts labels child prefix suf).

(** louds_dense.hpp:385-387 getChildNodeNum *)
Definition d_getChildNodeNum (e : env) (d : dense) (pos : nat) : res nat := rank e (d_child d) pos.

Definition d_readLabel (e : env) (d : dense) (pos : nat) : res bool := readBit e (rk_bv (d_labels d)) pos.
Definition d_readChild (e : env) (d : dense) (pos : nat) : res bool := readBit e (rk_bv (d_child d)) pos.
Definition d_readPrefix (e : env) (d : dense) (n : nat) : res bool := readBit e (rk_bv (d_prefix d)) n.

(** a position_t computed from possibly negative differences *)
Definition pos32 (z : Z) : N := Z.to_N (z mod 4294967296)%Z.

(** louds_dense.hpp:389-398 getSuffixPos *)
Definition d_getSuffixPos (e : env) (d : dense) (pos : nat) (is_prefix_key : bool) : res N :=
  let node_num := pos / kNodeFanout in
  rl <- rank e (d_labels d) pos ;;
  rc <- rank e (d_child d) pos ;;
  rp <- rank e (d_prefix d) node_num ;;
  let suffix_pos := (Z.of_nat rl - Z.of_nat rc + Z.of_nat rp - 1)%Z in
  dec <- (if is_prefix_key then
            l <- d_readLabel e d pos ;;
            if l : bool then c <- d_readChild e d pos ;; Ok (negb c) else Ok false
          else Ok false) ;;
  Ok (pos32 (if dec : bool then suffix_pos - 1 else suffix_pos)%Z).

(** louds_dense.hpp:400-402 getNextPos, with the argument given as pos + 1 *)
Definition d_getNextPos1 (e : env) (d : dense) (pos1 : nat) : res nat :=
  n <- distanceToNextSetBit1 e (rk_bv (d_labels d)) pos1 ;; Ok (pos1 + n - 1).
Definition d_getNextPos (e : env) (d : dense) (pos : nat) : res nat := d_getNextPos1 e d (S pos).

(** louds_dense.hpp:404-412 getPrevPos; [None] is is_out_of_bound *)
Definition d_getPrevPos (e : env) (d : dense) (pos : nat) : res (option nat) :=
  distance <- distanceToPrevSetBit e (rk_bv (d_labels d)) pos ;;
  if pos <=? distance then Ok None else Ok (Some (pos - distance)).

(** louds_dense.hpp:204-230 lookupKey; [out] is out_node_num, 0 unless set.
    [rest] is the key from byte [level] on; [n] counts the levels left. *)
Fixpoint d_lookup_loop (e : env) (d : dense) (k : key) (n level node_num : nat)
  : res (bool * nat) :=
  match n with
  | O => Ok (true, node_num)
  | S n' =>
      let pos := node_num * kNodeFanout in
      match nth_error k level with
      | None =>
          p <- d_readPrefix e d node_num ;;
          if p : bool then
            sp <- d_getSuffixPos e d pos true ;;
            r <- checkEquality e (d_suf d) sp k (level + 1) ;; Ok (r, 0)
          else Ok (false, 0)
      | Some c =>
          let pos := pos + c in
          l <- d_readLabel e d pos ;;
          if negb l then Ok (false, 0)
          else
            ch <- d_readChild e d pos ;;
            if negb ch then
              sp <- d_getSuffixPos e d pos false ;;
              r <- checkEquality e (d_suf d) sp k (level + 1) ;; Ok (r, 0)
            else
              node_num <- d_getChildNodeNum e d pos ;;
              d_lookup_loop e d k n' (S level) node_num
      end
  end.
Definition d_lookupKey (e : env) (d : dense) (k : key) : res (bool * nat) :=
  d_lookup_loop e d k (d_height d) 0 0.

(** louds_dense.hpp:61-77 iterator state *)
Record diter := mkDIter {
  di_valid : bool;
  di_search : bool;        (* is_search_complete_ *)
  di_left : bool;          (* is_move_left_complete_ *)
  di_right : bool;         (* is_move_right_complete_ *)
  di_send : nat;           (* send_out_node_num_ *)
  di_len : nat;            (* key_len_ *)
  di_key : list nat;       (* key_ *)
  di_pos : list nat;       (* pos_in_trie_ *)
  di_atprefix : bool       (* is_at_prefix_key_ *)
}.

(** louds_dense.hpp:18-28 *)
Definition diter_new (d : dense) : diter :=
  mkDIter false false false false 0 0 (repeat 0 (d_height d)) (repeat 0 (d_height d)) false.

(** louds_dense.hpp:430-434 clear *)
Definition diter_clear (it : diter) : diter :=
  mkDIter false (di_search it) (di_left it) (di_right it) (di_send it) 0 (di_key it) (di_pos it) false.

(** louds_dense.hpp:35-38 isComplete *)
Definition di_complete (it : diter) : bool := di_search it && (di_left it && di_right it).

Definition di_setFlags (it : diter) (v s l r : bool) : diter :=
  mkDIter v s l r (di_send it) (di_len it) (di_key it) (di_pos it) (di_atprefix it).
Definition di_setValid (it : diter) (v : bool) : diter :=
  mkDIter v (di_search it) (di_left it) (di_right it) (di_send it) (di_len it) (di_key it) (di_pos it) (di_atprefix it).
Definition di_setSend (it : diter) (n : nat) : diter :=
  mkDIter (di_valid it) (di_search it) (di_left it) (di_right it) n (di_len it) (di_key it) (di_pos it) (di_atprefix it).
Definition di_setLen (it : diter) (n : nat) : diter :=
  mkDIter (di_valid it) (di_search it) (di_left it) (di_right it) (di_send it) n (di_key it) (di_pos it) (di_atprefix it).
Definition di_setPrefix (it : diter) (b : bool) : diter :=
  mkDIter (di_valid it) (di_search it) (di_left it) (di_right it) (di_send it) (di_len it) (di_key it) (di_pos it) b.
Definition di_setKP (it : diter) (k p : list nat) : diter :=
  mkDIter (di_valid it) (di_search it) (di_left it) (di_right it) (di_send it) (di_len it) k p (di_atprefix it).

(** louds_dense.hpp:500-504 set *)
Definition di_set (e : env) (it : diter) (level pos : nat) : res diter :=
  massert e (level <? length (di_key it)) ;;;
  k <- vset (di_key it) level (pos mod kNodeFanout) ;;
  p <- vset (di_pos it) level pos ;;
  Ok (di_setKP it k p).

(** louds_dense.hpp:493-498 append *)
Definition di_append (e : env) (it : diter) (pos : nat) : res diter :=
  it' <- di_set e it (di_len it) pos ;;
  Ok (di_setLen it' (S (di_len it))).

(** louds_dense.hpp:450-457 getKey *)
Definition di_getKey (it : diter) : res key :=
  if negb (di_valid it) then Ok []
  else
    len <- (if di_atprefix it then pred_idx (di_len it) else Ok (di_len it)) ;;
    if len <=? length (di_key it) then Ok (firstn len (di_key it)) else Fail OutOfBounds.

(** pos_in_trie_[key_len_ - 1] *)
Definition di_lastpos (it : diter) : res nat :=
  i <- pred_idx (di_len it) ;; vget (di_pos it) i.

(** louds_dense.hpp:436-448 compare *)
Definition di_compare (e : env) (d : dense) (it : diter) (k : key) : res Z :=
  if di_atprefix it && (0 <? di_len it) && (di_len it - 1 <? length k) then Ok (-1)%Z
  else
    iter_key <- di_getKey it ;;
    key_dense <- substr k 0 (length iter_key) ;;
    let c := str_compare iter_key key_dense in
    if negb (c =? 0)%Z then Ok c
    else if di_complete it then
      pos <- di_lastpos it ;;
      sp <- d_getSuffixPos e d pos (di_atprefix it) ;;
      suf_compare e (d_suf d) sp k (di_len it)
    else Ok c.

Definition has_real (t : suffix_type) : bool :=
  match t with kReal | kMixed => true | _ => false end.

(** louds_dense.hpp:459-468 getSuffix; returns (length, *suffix) *)
Definition di_getSuffix (e : env) (d : dense) (it : diter) : res (nat * N) :=
  if di_complete it && has_real (sf_type (d_suf d)) then
    pos <- di_lastpos it ;;
    sp <- d_getSuffixPos e d pos (di_atprefix it) ;;
    w <- suf_readReal e (d_suf d) sp ;;
    Ok (sf_rlen (d_suf d), w)
  else Ok (0, 0%N).

(** Bytes 7, 6, ... of the shifted suffix word, ceil(suffix_len / 8) of them
    (louds_dense.hpp:479-487, louds_sparse.hpp:523-531) *)
Definition suffix_bytes (e : env) (w : N) (suffix_len : nat) : res key :=
  sh <- shl64 e w (sub32 64 (N.of_nat suffix_len)) ;;
  Ok (firstn ((suffix_len + 7) / 8) (rev (le_bytes 8 sh))).

(** louds_dense.hpp:470-491 getKeyWithSuffix; returns the string and *bitlen
    ([bitlen] on entry) *)
Definition di_getKeyWithSuffix (e : env) (d : dense) (it : diter) (bitlen : nat) : res (key * nat) :=
  iter_key <- di_getKey it ;;
  if di_complete it && has_real (sf_type (d_suf d)) then
    pos <- di_lastpos it ;;
    sp <- d_getSuffixPos e d pos (di_atprefix it) ;;
    w <- suf_readReal e (d_suf d) sp ;;
    if (0 <? w)%N then
      s <- suffix_bytes e w (sf_rlen (d_suf d)) ;;
      Ok (iter_key ++ s, sf_rlen (d_suf d) mod 8)
    else Ok (iter_key, bitlen)
  else Ok (iter_key, bitlen).

(** louds_dense.hpp:516-525 setToFirstLabelInRoot *)
Definition di_setToFirstLabelInRoot (e : env) (d : dense) (it : diter) : res diter :=
  b <- d_readLabel e d 0 ;;
  pos <- (if b : bool then Ok 0 else d_getNextPos e d 0) ;;
  p <- vset (di_pos it) 0 pos ;;
  k <- vset (di_key it) 0 (pos mod 256) ;;
  Ok (di_setLen (di_setKP it k p) (S (di_len it))).

(** louds_dense.hpp:527-532 setToLastLabelInRoot; out of bound returns 0 *)
Definition di_setToLastLabelInRoot (e : env) (d : dense) (it : diter) : res diter :=
  o <- d_getPrevPos e d kNodeFanout ;;
  let pos := match o with Some p => p | None => 0 end in
  p <- vset (di_pos it) 0 pos ;;
  k <- vset (di_key it) 0 (pos mod 256) ;;
  Ok (di_setLen (di_setKP it k p) (S (di_len it))).

(** louds_dense.hpp:542-564: loop of moveToLeftMostKey.  [n] is
    height - 1 - level. *)
Fixpoint di_left_loop (e : env) (d : dense) (n : nat) (it : diter) (pos : nat) : res diter :=
  match n with
  | O =>
      c <- d_getChildNodeNum e d pos ;;
      Ok (di_setFlags (di_setSend it c) true true false true)
  | S n' =>
      node_num <- d_getChildNodeNum e d pos ;;
      p <- d_readPrefix e d node_num ;;
      if p : bool then
        np <- d_getNextPos1 e d (node_num * kNodeFanout) ;;
        it <- di_append e it np ;;
        Ok (di_setFlags (di_setPrefix it true) true true true true)
      else
        pos <- d_getNextPos1 e d (node_num * kNodeFanout) ;;
        it <- di_append e it pos ;;
        c <- d_readChild e d pos ;;
        if negb c then Ok (di_setFlags it true true true true)
        else di_left_loop e d n' it pos
  end.

(** louds_dense.hpp:534-565 moveToLeftMostKey.  [getHeight() - 1] is computed
    in uint64_t; the height is positive whenever an iterator has a label. *)
Definition di_moveToLeftMostKey (e : env) (d : dense) (it : diter) : res diter :=
  massert e (0 <? di_len it) ;;;
  level <- pred_idx (di_len it) ;;
  pos <- vget (di_pos it) level ;;
  c <- d_readChild e d pos ;;
  if negb c then Ok (di_setFlags it true true true true)
  else di_left_loop e d (d_height d - 1 - level) it pos.

(** louds_dense.hpp:575-594: loop of moveToRightMostKey *)
Fixpoint di_right_loop (e : env) (d : dense) (n : nat) (it : diter) (pos : nat) : res diter :=
  match n with
  | O =>
      c <- d_getChildNodeNum e d pos ;;
      Ok (di_setFlags (di_setSend it c) true true true false)
  | S n' =>
      node_num <- d_getChildNodeNum e d pos ;;
      o <- d_getPrevPos e d ((node_num + 1) * kNodeFanout) ;;
      match o with
      | None => Ok (di_setValid it false)
      | Some pos =>
          it <- di_append e it pos ;;
          c <- d_readChild e d pos ;;
          if negb c then Ok (di_setFlags it true true true true)
          else di_right_loop e d n' it pos
      end
  end.

(** louds_dense.hpp:567-595 moveToRightMostKey *)
Definition di_moveToRightMostKey (e : env) (d : dense) (it : diter) : res diter :=
  massert e (0 <? di_len it) ;;;
  level <- pred_idx (di_len it) ;;
  pos <- vget (di_pos it) level ;;
  c <- d_readChild e d pos ;;
  if negb c then Ok (di_setFlags it true true true true)
  else di_right_loop e d (d_height d - 1 - level) it pos.

(** louds_dense.hpp:606-616: climb until the next label is in the same node;
    [len] is key_len_ *)
Fixpoint di_next_loop (e : env) (d : dense) (it : diter) (len : nat) : res diter :=
  match len with
  | O => Ok (di_setValid (di_setLen it 0) false)
  | S l =>
      pos <- vget (di_pos it) l ;;
      next_pos <- d_getNextPos e d pos ;;
      if pos / kNodeFanout <? next_pos / kNodeFanout then di_next_loop e d it l
      else
        it <- di_set e (di_setLen it len) l next_pos ;;
        di_moveToLeftMostKey e d it
  end.

(** louds_dense.hpp:597-617 operator++ *)
Definition di_next (e : env) (d : dense) (it : diter) : res diter :=
  massert e (0 <? di_len it) ;;;
  if di_atprefix it then di_moveToLeftMostKey e d (di_setPrefix it false)
  else
    _ <- pred_idx (di_len it) ;;
    di_next_loop e d it (di_len it).

(** louds_dense.hpp:625-656: climb until the previous label is in the same node *)
Fixpoint di_prev_loop (e : env) (d : dense) (it : diter) (len : nat) : res diter :=
  match len with
  | O => Ok (di_setValid (di_setLen it 0) false)
  | S l =>
      pos <- vget (di_pos it) l ;;
      o <- d_getPrevPos e d pos ;;
      match o with
      | None => Ok (di_setValid (di_setLen it len) false)
      | Some prev_pos =>
          if prev_pos / kNodeFanout <? pos / kNodeFanout then
            p <- d_readPrefix e d (pos / kNodeFanout) ;;
            if p : bool then
              Ok (di_setFlags (di_setPrefix (di_setLen it len) true) true true true true)
            else di_prev_loop e d it l
          else
            it <- di_set e (di_setLen it len) l prev_pos ;;
            di_moveToRightMostKey e d it
      end
  end.

(** louds_dense.hpp:619-657 operator-- *)
Definition di_prev (e : env) (d : dense) (it : diter) : res diter :=
  massert e (0 <? di_len it) ;;;
  if di_atprefix it then
    l <- pred_idx (di_len it) ;;
    _ <- pred_idx l ;;
    di_prev_loop e d (di_setPrefix it false) l
  else
    _ <- pred_idx (di_len it) ;;
    di_prev_loop e d it (di_len it).

(** louds_dense.hpp:414-426 compareSuffixGreaterThan; returns the flag and the
    iterator *)
Definition d_compareSuffixGreaterThan (e : env) (d : dense) (pos : nat) (k : key) (level : nat)
  (it : diter) : res (bool * diter) :=
  sp <- d_getSuffixPos e d pos false ;;
  c <- suf_compare e (d_suf d) sp k level ;;
  if negb (c =? kCouldBePositive)%Z && (c <? 0)%Z then
    it <- di_next e d it ;; Ok (false, it)
  else Ok (true, di_setFlags it true true true true).

(** louds_dense.hpp:232-269 moveToKeyGreaterThan *)
Fixpoint d_gt_loop (e : env) (d : dense) (k : key) (n level node_num : nat) (it : diter)
  : res (bool * diter) :=
  match n with
  | O => Ok (true, di_setFlags (di_setSend it node_num) true false true true)
  | S n' =>
      let pos := node_num * kNodeFanout in
      match nth_error k level with
      | None =>
          np <- d_getNextPos1 e d pos ;;
          it <- di_append e it np ;;
          p <- d_readPrefix e d node_num ;;
          it <- (if p : bool then Ok (di_setPrefix it true) else di_moveToLeftMostKey e d it) ;;
          Ok (true, di_setFlags it true true true true)
      | Some c =>
          let pos := pos + c in
          it <- di_append e it pos ;;
          l <- d_readLabel e d pos ;;
          if negb l then it <- di_next e d it ;; Ok (false, it)
          else
            ch <- d_readChild e d pos ;;
            if negb ch then d_compareSuffixGreaterThan e d pos k (level + 1) it
            else
              node_num <- d_getChildNodeNum e d pos ;;
              d_gt_loop e d k n' (S level) node_num it
      end
  end.
Definition d_moveToKeyGreaterThan (e : env) (d : dense) (k : key) (inclusive : bool) (it : diter)
  : res (bool * diter) :=
  d_gt_loop e d k (d_height d) 0 0 it.
