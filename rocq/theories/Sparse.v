(** include/louds_sparse.hpp *)
From Coq Require Import Arith List NArith ZArith Bool.
From Verif Require Import Res Word Config Bitvector Rank Select LabelVector Suffix Builder Dense.
Import ListNotations.

(** louds_sparse.hpp:161-162 *)
Definition kSelectSampleInterval : nat := 64.

(** louds_sparse.hpp:164-175 *)
Record sparse := mkSparse {
  s_height : nat;
  s_start : nat;
  s_ncount : nat;          (* node_count_dense_ *)
  s_ccount : nat;          (* child_count_dense_ *)
  s_cuts : list N;
  s_labels : labelvec;
  s_child : bvrank;
  s_louds : bvselect;
  s_suf : bvsuffix
}.

(** louds_sparse.hpp:179-227 constructor *)
Definition sparse_make (e : env) (b : builder) : res sparse :=
  let st := bd_levels b in
  let height := length st in
  let start := bd_start b in
  let slen := cf_len (bd_cfg b) in
  ncount <- foldM (fun acc level => l <- vget st level ;; Ok (acc + lv_nodes l)) (seq 0 start) 0 ;;
  ccount <- (if start =? 0 then Ok 0
             else l <- vget st start ;; Ok (ncount + lv_nodes l - 1)) ;;
  labels <- lv_make (map lv_labels st) start height ;;
  let num_items := map (fun l => length (lv_labels l)) st in
  let cuts := repeat 0%N start ++ level_cuts_from 0 (skipn start num_items) in
  child <- rank_make e kRankBasicBlockSize (map lv_child st) num_items start height ;;
  louds <- select_make e kSelectSampleInterval (map lv_louds st) num_items start height ;;
  suf <- (match cf_type (bd_cfg b) with
          | kNone => Ok suf_empty
          | t =>
              suf_make e t (cf_hlen (bd_cfg b)) (cf_rlen (bd_cfg b)) (map lv_suf st)
                (map (fun l => lv_sufcount l * slen) st) start height
          end) ;;
  Ok (mkSparse height start ncount ccount cuts labels child louds suf).

Definition s_readChild (e : env) (s : sparse) (pos : nat) : res bool := readBit e (rk_bv (s_child s)) pos.
Definition s_readLouds (e : env) (s : sparse) (pos : nat) : res bool := readBit e (sl_bv (s_louds s)) pos.
Definition s_numBits (s : sparse) : nat := bv_nbits (sl_bv (s_louds s)).

(** louds_sparse.hpp:421-423 getChildNodeNum *)
Definition s_getChildNodeNum (e : env) (s : sparse) (pos : nat) : res nat :=
  r <- rank e (s_child s) pos ;; Ok (r + s_ccount s).

(** louds_sparse.hpp:425-427 getFirstLabelPos; a wrapped argument of select is
    out of bounds of its table *)
Definition s_getFirstLabelPos (e : env) (s : sparse) (node_num : nat) : res nat :=
  if node_num + 1 <? s_ncount s then Fail OutOfBounds
  else select e (s_louds s) (node_num + 1 - s_ncount s).

(** louds_sparse.hpp:429-434 getLastLabelPos; [numBits() - 1] and
    [select(...) - 1] are positions of existing labels *)
Definition s_getLastLabelPos (e : env) (s : sparse) (node_num : nat) : res nat :=
  if node_num + 2 <? s_ncount s then Fail OutOfBounds
  else
    let next_rank := node_num + 2 - s_ncount s in
    if sl_ones (s_louds s) <? next_rank then pred_idx (s_numBits s)
    else p <- select e (s_louds s) next_rank ;; pred_idx p.

(** louds_sparse.hpp:436-438 getSuffixPos *)
Definition s_getSuffixPos (e : env) (s : sparse) (pos : nat) : res N :=
  r <- rank e (s_child s) pos ;; Ok (pos32 (Z.of_nat pos - Z.of_nat r)).

(** louds_sparse.hpp:440-443 nodeSize *)
Definition s_nodeSize (e : env) (s : sparse) (pos : nat) : res nat :=
  (if asserts e then b <- s_readLouds e s pos ;; massert e b else Ok tt) ;;;
  distanceToNextSetBit e (sl_bv (s_louds s)) pos.

(** louds_sparse.hpp:445-448 isEndofNode; with numBits() = 0 the difference
    wraps and the comparison is false *)
Definition s_isEndofNode (e : env) (s : sparse) (pos : nat) : res bool :=
  if pos + 1 =? s_numBits s then Ok true else s_readLouds e s (pos + 1).

(** louds_sparse.hpp:229-249 lookupKey; [rest] is the key from byte [level] on *)
Fixpoint s_lookup_loop (e : env) (s : sparse) (k rest : key) (level pos : nat) : res bool :=
  match rest with
  | [] =>
      l <- lv_read e (s_labels s) pos ;;
      if l =? kTerminator then
        c <- s_readChild e s pos ;;
        if negb c then
          sp <- s_getSuffixPos e s pos ;;
          checkEquality e (s_suf s) sp k (level + 1)
        else Ok false
      else Ok false
  | b :: rest' =>
      n <- s_nodeSize e s pos ;;
      '(found, pos) <- lv_search e (s_labels s) b pos n ;;
      if negb found then Ok false
      else
        c <- s_readChild e s pos ;;
        if negb c then
          sp <- s_getSuffixPos e s pos ;;
          checkEquality e (s_suf s) sp k (level + 1)
        else
          node_num <- s_getChildNodeNum e s pos ;;
          pos <- s_getFirstLabelPos e s node_num ;;
          s_lookup_loop e s k rest' (S level) pos
  end.
(** If the key is shorter than start_level_, the for loop body does not run
    and level stays at start_level_. *)
Definition s_lookupKey (e : env) (s : sparse) (k : key) (in_node_num : nat) : res bool :=
  pos <- s_getFirstLabelPos e s in_node_num ;;
  s_lookup_loop e s k (skipn (s_start s) k) (s_start s) pos.

(** louds_sparse.hpp:52-60 iterator state (trie_ and start_level_ are the
    sparse trie's) *)
Record siter := mkSIter {
  si_valid : bool;
  si_start : nat;          (* start_node_num_ *)
  si_len : nat;            (* key_len_ *)
  si_key : list nat;
  si_pos : list nat;
  si_atterm : bool         (* is_at_terminator_ *)
}.

(** louds_sparse.hpp:20-27 *)
Definition siter_new (s : sparse) : siter :=
  mkSIter false 0 0 (repeat 0 (s_height s - s_start s)) (repeat 0 (s_height s - s_start s)) false.

(** louds_sparse.hpp:477-481 clear *)
Definition siter_clear (it : siter) : siter :=
  mkSIter false (si_start it) 0 (si_key it) (si_pos it) false.

Definition si_setValid (it : siter) (v : bool) := mkSIter v (si_start it) (si_len it) (si_key it) (si_pos it) (si_atterm it).
Definition si_setStart (it : siter) (n : nat) := mkSIter (si_valid it) n (si_len it) (si_key it) (si_pos it) (si_atterm it).
Definition si_setLen (it : siter) (n : nat) := mkSIter (si_valid it) (si_start it) n (si_key it) (si_pos it) (si_atterm it).
Definition si_setKP (it : siter) (k p : list nat) := mkSIter (si_valid it) (si_start it) (si_len it) k p (si_atterm it).
Definition si_setTerm (it : siter) (b : bool) := mkSIter (si_valid it) (si_start it) (si_len it) (si_key it) (si_pos it) b.

(** louds_sparse.hpp:544-549 append(label, pos) *)
Definition si_appendL (e : env) (it : siter) (label pos : nat) : res siter :=
  massert e (si_len it <? length (si_key it)) ;;;
  k <- vset (si_key it) (si_len it) label ;;
  p <- vset (si_pos it) (si_len it) pos ;;
  Ok (si_setLen (si_setKP it k p) (S (si_len it))).

(** louds_sparse.hpp:537-542 append(pos) *)
Definition si_append (e : env) (s : sparse) (it : siter) (pos : nat) : res siter :=
  l <- lv_read e (s_labels s) pos ;; si_appendL e it l pos.

(** louds_sparse.hpp:551-555 set *)
Definition si_set (e : env) (s : sparse) (it : siter) (level pos : nat) : res siter :=
  massert e (level <? length (si_key it)) ;;;
  l <- lv_read e (s_labels s) pos ;;
  k <- vset (si_key it) level l ;;
  p <- vset (si_pos it) level pos ;;
  Ok (si_setKP it k p).

(** louds_sparse.hpp:496-503 getKey *)
Definition si_getKey (it : siter) : res key :=
  if negb (si_valid it) then Ok []
  else
    len <- (if si_atterm it then pred_idx (si_len it) else Ok (si_len it)) ;;
    if len <=? length (si_key it) then Ok (firstn len (si_key it)) else Fail OutOfBounds.

Definition si_lastpos (it : siter) : res nat :=
  i <- pred_idx (si_len it) ;; vget (si_pos it) i.

(** louds_sparse.hpp:483-494 compare.  [key.length() - start_level_] is a
    size_t difference: if the key is shorter it wraps to a huge number. *)
Definition si_compare (e : env) (s : sparse) (it : siter) (k : key) : res Z :=
  if si_atterm it && (0 <? si_len it)
     && ((length k <? s_start s) || (si_len it - 1 <? length k - s_start s))
  then Ok (-1)%Z
  else
    iter_key <- si_getKey it ;;
    key_sparse <- substr_from k (s_start s) ;;
    let same := firstn (length iter_key) key_sparse in
    let c := str_compare iter_key same in
    if negb (c =? 0)%Z then Ok c
    else
      pos <- si_lastpos it ;;
      sp <- s_getSuffixPos e s pos ;;
      suf_compare e (s_suf s) sp key_sparse (si_len it).

(** louds_sparse.hpp:505-513 getSuffix *)
Definition si_getSuffix (e : env) (s : sparse) (it : siter) : res (nat * N) :=
  if has_real (sf_type (s_suf s)) then
    pos <- si_lastpos it ;;
    sp <- s_getSuffixPos e s pos ;;
    w <- suf_readReal e (s_suf s) sp ;;
    Ok (sf_rlen (s_suf s), w)
  else Ok (0, 0%N).

(** louds_sparse.hpp:515-535 getKeyWithSuffix *)
Definition si_getKeyWithSuffix (e : env) (s : sparse) (it : siter) (bitlen : nat) : res (key * nat) :=
  iter_key <- si_getKey it ;;
  if has_real (sf_type (s_suf s)) then
    pos <- si_lastpos it ;;
    sp <- s_getSuffixPos e s pos ;;
    w <- suf_readReal e (s_suf s) sp ;;
    if (0 <? w)%N then
      b <- suffix_bytes e w (sf_rlen (s_suf s)) ;;
      Ok (iter_key ++ b, sf_rlen (s_suf s) mod 8)
    else Ok (iter_key, bitlen)
  else Ok (iter_key, bitlen).

(** louds_sparse.hpp:557-561 setToFirstLabelInRoot (does not set key_len_) *)
Definition si_setToFirstLabelInRoot (e : env) (s : sparse) (it : siter) : res siter :=
  massert e (s_start s =? 0) ;;;
  p <- vset (si_pos it) 0 0 ;;
  l <- lv_read e (s_labels s) 0 ;;
  k <- vset (si_key it) 0 l ;;
  Ok (si_setKP it k p).

(** louds_sparse.hpp:563-567 setToLastLabelInRoot *)
Definition si_setToLastLabelInRoot (e : env) (s : sparse) (it : siter) : res siter :=
  massert e (s_start s =? 0) ;;;
  pos <- s_getLastLabelPos e s 0 ;;
  p <- vset (si_pos it) 0 pos ;;
  l <- lv_read e (s_labels s) pos ;;
  k <- vset (si_key it) 0 l ;;
  Ok (si_setKP it k p).

(** leaf reached at [pos] (louds_sparse.hpp:580-586, 593-600) *)
Definition si_at_leaf (e : env) (s : sparse) (it : siter) (label pos : nat) : res siter :=
  t <- (if label =? kTerminator then b <- s_isEndofNode e s pos ;; Ok (negb b) else Ok false) ;;
  Ok (si_setValid (if t : bool then si_setTerm it true else it) true).

(** louds_sparse.hpp:588-604: loop of moveToLeftMostKey; [n] is
    getHeight() - level.  Leaving the loop is assert(false); without asserts
    the function returns with the iterator as it is. *)
Fixpoint si_left_loop (e : env) (s : sparse) (n : nat) (it : siter) (pos : nat) : res siter :=
  match n with
  | O => massert e false ;;; Ok it
  | S n' =>
      node_num <- s_getChildNodeNum e s pos ;;
      pos <- s_getFirstLabelPos e s node_num ;;
      label <- lv_read e (s_labels s) pos ;;
      c <- s_readChild e s pos ;;
      it <- si_appendL e it label pos ;;
      if negb c then si_at_leaf e s it label pos
      else si_left_loop e s n' it pos
  end.

(** louds_sparse.hpp:569-605 moveToLeftMostKey *)
Definition si_moveToLeftMostKey (e : env) (s : sparse) (it : siter) : res siter :=
  it <- (if si_len it =? 0 then
           pos <- s_getFirstLabelPos e s (si_start it) ;;
           label <- lv_read e (s_labels s) pos ;;
           si_appendL e it label pos
         else Ok it) ;;
  level <- pred_idx (si_len it) ;;
  pos <- vget (si_pos it) level ;;
  label <- lv_read e (s_labels s) pos ;;
  c <- s_readChild e s pos ;;
  if negb c then si_at_leaf e s it label pos
  else si_left_loop e s (s_height s - level) it pos.

(** louds_sparse.hpp:627-643: loop of moveToRightMostKey *)
Fixpoint si_right_loop (e : env) (s : sparse) (n : nat) (it : siter) (pos : nat) : res siter :=
  match n with
  | O => massert e false ;;; Ok it
  | S n' =>
      node_num <- s_getChildNodeNum e s pos ;;
      pos <- s_getLastLabelPos e s node_num ;;
      label <- lv_read e (s_labels s) pos ;;
      c <- s_readChild e s pos ;;
      it <- si_appendL e it label pos ;;
      if negb c then si_at_leaf e s it label pos
      else si_right_loop e s n' it pos
  end.

(** louds_sparse.hpp:607-644 moveToRightMostKey (the unused result of
    getFirstLabelPos on line 609 is still computed) *)
Definition si_moveToRightMostKey (e : env) (s : sparse) (it : siter) : res siter :=
  it <- (if si_len it =? 0 then
           _ <- s_getFirstLabelPos e s (si_start it) ;;
           pos <- s_getLastLabelPos e s (si_start it) ;;
           label <- lv_read e (s_labels s) pos ;;
           si_appendL e it label pos
         else Ok it) ;;
  level <- pred_idx (si_len it) ;;
  pos <- vget (si_pos it) level ;;
  label <- lv_read e (s_labels s) pos ;;
  c <- s_readChild e s pos ;;
  if negb c then si_at_leaf e s it label pos
  else si_right_loop e s (s_height s - level) it pos.

(** louds_sparse.hpp:649-661: climb *)
Fixpoint si_next_loop (e : env) (s : sparse) (it : siter) (len : nat) : res siter :=
  match len with
  | O => Ok (si_setValid (si_setLen it 0) false)
  | S l =>
      p <- vget (si_pos it) l ;;
      let pos := S p in
      up <- (if s_numBits s <=? pos then Ok true else s_readLouds e s pos) ;;
      if up : bool then si_next_loop e s it l
      else
        it <- si_set e s (si_setLen it len) l pos ;;
        si_moveToLeftMostKey e s it
  end.

(** louds_sparse.hpp:646-662 operator++ *)
Definition si_next (e : env) (s : sparse) (it : siter) : res siter :=
  massert e (0 <? si_len it) ;;;
  _ <- pred_idx (si_len it) ;;
  si_next_loop e s (si_setTerm it false) (si_len it).

(** louds_sparse.hpp:672-682: climb *)
Fixpoint si_prev_loop (e : env) (s : sparse) (it : siter) (len : nat) : res siter :=
  match len with
  | O => Ok (si_setValid (si_setLen it 0) false)
  | S l =>
      pos <- vget (si_pos it) l ;;
      up <- s_readLouds e s pos ;;
      if up : bool then si_prev_loop e s it l
      else
        p <- pred_idx pos ;;
        it <- si_set e s (si_setLen it len) l p ;;
        si_moveToRightMostKey e s it
  end.

(** louds_sparse.hpp:664-683 operator-- *)
Definition si_prev (e : env) (s : sparse) (it : siter) : res siter :=
  massert e (0 <? si_len it) ;;;
  pos <- si_lastpos it ;;
  let it := si_setTerm it false in
  if pos =? 0 then Ok (si_setValid it false)
  else si_prev_loop e s it (si_len it).

(** louds_sparse.hpp:450-460 moveToLeftInNextSubtrie *)
Definition s_moveToLeftInNextSubtrie (e : env) (s : sparse) (pos node_size label : nat) (it : siter)
  : res siter :=
  '(found, pos) <- lv_searchGreaterThan e (s_labels s) label pos node_size ;;
  if negb found then
    p <- pred_idx (pos + node_size) ;;
    it <- si_append e s it p ;;
    si_next e s it
  else
    it <- si_append e s it pos ;;
    si_moveToLeftMostKey e s it.

(** louds_sparse.hpp:462-473 compareSuffixGreaterThan *)
Definition s_compareSuffixGreaterThan (e : env) (s : sparse) (pos : nat) (k : key) (level : nat)
  (it : siter) : res (bool * siter) :=
  sp <- s_getSuffixPos e s pos ;;
  c <- suf_compare e (s_suf s) sp k level ;;
  if negb (c =? kCouldBePositive)%Z && (c <? 0)%Z then
    it <- si_next e s it ;; Ok (false, it)
  else Ok (true, si_setValid it true).

(** louds_sparse.hpp:276-293: the key has run out.  [key.length() <= level]
    always holds here, so the last two lines are dead. *)
Definition s_gt_end (e : env) (s : sparse) (inclusive : bool) (pos : nat) (it : siter)
  : res (bool * siter) :=
  l <- lv_read e (s_labels s) pos ;;
  t <- (if l =? kTerminator then
          c <- s_readChild e s pos ;;
          if negb c then b <- s_isEndofNode e s pos ;; Ok (negb b) else Ok false
        else Ok false) ;;
  if t : bool then
    it <- si_appendL e it kTerminator pos ;;
    let it := si_setTerm it true in
    it <- (if negb inclusive then si_next e s it else Ok it) ;;
    Ok (false, si_setValid it true)
  else
    it <- si_moveToLeftMostKey e s it ;;
    Ok (false, it).

(** louds_sparse.hpp:251-294 moveToKeyGreaterThan *)
Fixpoint s_gt_loop (e : env) (s : sparse) (k rest : key) (inclusive : bool) (level pos : nat)
  (it : siter) : res (bool * siter) :=
  match rest with
  | [] => s_gt_end e s inclusive pos it
  | b :: rest' =>
      node_size <- s_nodeSize e s pos ;;
      '(found, pos) <- lv_search e (s_labels s) b pos node_size ;;
      if negb found then
        it <- s_moveToLeftInNextSubtrie e s pos node_size b it ;; Ok (false, it)
      else
        it <- si_appendL e it b pos ;;
        c <- s_readChild e s pos ;;
        if negb c then s_compareSuffixGreaterThan e s pos k (level + 1) it
        else
          node_num <- s_getChildNodeNum e s pos ;;
          pos <- s_getFirstLabelPos e s node_num ;;
          s_gt_loop e s k rest' inclusive (S level) pos it
  end.
Definition s_moveToKeyGreaterThan (e : env) (s : sparse) (k : key) (inclusive : bool) (it : siter)
  : res (bool * siter) :=
  pos <- s_getFirstLabelPos e s (si_start it) ;;
  s_gt_loop e s k (skipn (s_start s) k) inclusive (s_start s) pos it.
