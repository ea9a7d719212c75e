(** include/surf.hpp, and the approxCount functions of louds_dense.hpp and
    louds_sparse.hpp *)
From Coq Require Import Arith List NArith ZArith Bool.
From Verif Require Import Res Word Config Bitvector Rank Select LabelVector Suffix Builder Dense Sparse.
Import ListNotations.

(** surf.hpp:122-127 without the two member iterators *)
Record surf := mkSurf { sf_dense : dense; sf_sparse : sparse }.

(** surf.hpp:16-51 *)
Record iter := mkIter { it_d : diter; it_s : siter; it_fp : bool }.

(** surf.hpp:19-23 *)
Definition iter_new (f : surf) : iter :=
  mkIter (diter_new (sf_dense f)) (siter_new (sf_sparse f)) false.

(** surf.hpp:130-141 create *)
Definition create (e : env) (c : config) (keys : list key) : res surf :=
  b <- build e c keys ;;
  d <- dense_make e b ;;
  s <- sparse_make e b ;;
  Ok (mkSurf d s).

(** surf.hpp:143-150 lookupKey *)
Definition lookupKey (e : env) (f : surf) (k : key) : res bool :=
  '(found, connect_node_num) <- d_lookupKey e (sf_dense f) k ;;
  if negb found then Ok false
  else if negb (connect_node_num =? 0) then s_lookupKey e (sf_sparse f) k connect_node_num
  else Ok true.

(** surf.hpp:304-307 isValid *)
Definition it_valid (it : iter) : bool :=
  di_valid (it_d it) && (di_complete (it_d it) || si_valid (it_s it)).

(** surf.hpp:295-298 clear *)
Definition it_clear (it : iter) : iter :=
  mkIter (diter_clear (it_d it)) (siter_clear (it_s it)) (it_fp it).

(** surf.hpp:342-344 passToSparse *)
Definition passToSparse (it : iter) : iter :=
  mkIter (it_d it) (si_setStart (it_s it) (di_send (it_d it))) (it_fp it).

Definition it_setS (it : iter) (s : siter) : iter := mkIter (it_d it) s (it_fp it).
Definition it_setD (it : iter) (d : diter) : iter := mkIter d (it_s it) (it_fp it).
Definition it_setFp (it : iter) (b : bool) : iter := mkIter (it_d it) (it_s it) b.

(** surf.hpp:346-359 incrementDenseIter *)
Definition incrementDenseIter (e : env) (f : surf) (it : iter) : res (bool * iter) :=
  if negb (di_valid (it_d it)) then Ok (false, it)
  else
    d <- di_next e (sf_dense f) (it_d it) ;;
    let it := it_setD it d in
    if negb (di_valid d) then Ok (false, it)
    else if di_left d then Ok (true, it)
    else
      let it := passToSparse it in
      s <- si_moveToLeftMostKey e (sf_sparse f) (it_s it) ;;
      Ok (true, it_setS it s).

(** surf.hpp:361-366 incrementSparseIter *)
Definition incrementSparseIter (e : env) (f : surf) (it : iter) : res (bool * iter) :=
  if negb (si_valid (it_s it)) then Ok (false, it)
  else
    s <- si_next e (sf_sparse f) (it_s it) ;;
    Ok (si_valid s, it_setS it s).

(** surf.hpp:368-374 operator++ *)
Definition it_next (e : env) (f : surf) (it : iter) : res (bool * iter) :=
  if negb (it_valid it) then Ok (false, it)
  else
    '(ok, it) <- incrementSparseIter e f it ;;
    if ok : bool then Ok (true, it) else incrementDenseIter e f it.

(** surf.hpp:376-389 decrementDenseIter *)
Definition decrementDenseIter (e : env) (f : surf) (it : iter) : res (bool * iter) :=
  if negb (di_valid (it_d it)) then Ok (false, it)
  else
    d <- di_prev e (sf_dense f) (it_d it) ;;
    let it := it_setD it d in
    if negb (di_valid d) then Ok (false, it)
    else if di_right d then Ok (true, it)
    else
      let it := passToSparse it in
      s <- si_moveToRightMostKey e (sf_sparse f) (it_s it) ;;
      Ok (true, it_setS it s).

(** surf.hpp:391-396 decrementSparseIter *)
Definition decrementSparseIter (e : env) (f : surf) (it : iter) : res (bool * iter) :=
  if negb (si_valid (it_s it)) then Ok (false, it)
  else
    s <- si_prev e (sf_sparse f) (it_s it) ;;
    Ok (si_valid s, it_setS it s).

(** surf.hpp:398-404 operator-- *)
Definition it_prev (e : env) (f : surf) (it : iter) : res (bool * iter) :=
  if negb (it_valid it) then Ok (false, it)
  else
    '(ok, it) <- decrementSparseIter e f it ;;
    if ok : bool then Ok (true, it) else decrementDenseIter e f it.

(** surf.hpp:152-175 moveToKeyGreaterThan *)
Definition moveToKeyGreaterThan (e : env) (f : surf) (k : key) (inclusive : bool) : res iter :=
  let it := iter_new f in
  '(fp, d) <- d_moveToKeyGreaterThan e (sf_dense f) k inclusive (it_d it) ;;
  let it := it_setFp (it_setD it d) fp in
  if negb (di_valid d) then Ok it
  else if di_complete d then Ok it
  else if negb (di_search d) then
    let it := passToSparse it in
    '(fp, s) <- s_moveToKeyGreaterThan e (sf_sparse f) k inclusive (it_s it) ;;
    let it := it_setFp (it_setS it s) fp in
    if negb (si_valid s) then '(_, it) <- incrementDenseIter e f it ;; Ok it
    else Ok it
  else if negb (di_left d) then
    let it := passToSparse it in
    s <- si_moveToLeftMostKey e (sf_sparse f) (it_s it) ;;
    Ok (it_setS it s)
  else massert e false ;;; Ok it.

(** surf.hpp:191-205 moveToFirst *)
Definition moveToFirst (e : env) (f : surf) : res iter :=
  let it := iter_new f in
  if 0 <? d_height (sf_dense f) then
    d <- di_setToFirstLabelInRoot e (sf_dense f) (it_d it) ;;
    d <- di_moveToLeftMostKey e (sf_dense f) d ;;
    let it := it_setD it d in
    if di_left d then Ok it
    else
      let it := passToSparse it in
      s <- si_moveToLeftMostKey e (sf_sparse f) (it_s it) ;;
      Ok (it_setS it s)
  else
    s <- si_setToFirstLabelInRoot e (sf_sparse f) (it_s it) ;;
    s <- si_moveToLeftMostKey e (sf_sparse f) s ;;
    Ok (it_setS it s).

(** surf.hpp:207-221 moveToLast *)
Definition moveToLast (e : env) (f : surf) : res iter :=
  let it := iter_new f in
  if 0 <? d_height (sf_dense f) then
    d <- di_setToLastLabelInRoot e (sf_dense f) (it_d it) ;;
    d <- di_moveToRightMostKey e (sf_dense f) d ;;
    let it := it_setD it d in
    if di_right d then Ok it
    else
      let it := passToSparse it in
      s <- si_moveToRightMostKey e (sf_sparse f) (it_s it) ;;
      Ok (it_setS it s)
  else
    s <- si_setToLastLabelInRoot e (sf_sparse f) (it_s it) ;;
    s <- si_moveToRightMostKey e (sf_sparse f) s ;;
    Ok (it_setS it s).

(** surf.hpp:177-189 moveToKeyLessThan; the result of -- is ignored *)
Definition moveToKeyLessThan (e : env) (f : surf) (k : key) (inclusive : bool) : res iter :=
  it <- moveToKeyGreaterThan e f k false ;;
  if negb (it_valid it) then moveToLast e f
  else if negb (it_fp it) then
    '(_, it) <- it_prev e f it ;;
    b <- lookupKey e f k ;;
    if b : bool then '(_, it) <- it_prev e f it ;; Ok it else Ok it
  else Ok it.

(** surf.hpp:309-315 compare *)
Definition it_compare (e : env) (f : surf) (it : iter) (k : key) : res Z :=
  massert e (it_valid it) ;;;
  c <- di_compare e (sf_dense f) (it_d it) k ;;
  if di_complete (it_d it) || negb (c =? 0)%Z then Ok c
  else si_compare e (sf_sparse f) (it_s it) k.

(** surf.hpp:317-323 getKey *)
Definition it_getKey (it : iter) : res key :=
  if negb (it_valid it) then Ok []
  else if di_complete (it_d it) then di_getKey (it_d it)
  else a <- di_getKey (it_d it) ;; b <- si_getKey (it_s it) ;; Ok (a ++ b).

(** surf.hpp:325-331 getSuffix; returns (length, value written to *suffix).
    For an invalid iterator nothing is written ([None]). *)
Definition it_getSuffix (e : env) (f : surf) (it : iter) : res (nat * option N) :=
  if negb (it_valid it) then Ok (0, None)
  else if di_complete (it_d it) then '(n, w) <- di_getSuffix e (sf_dense f) (it_d it) ;; Ok (n, Some w)
  else '(n, w) <- si_getSuffix e (sf_sparse f) (it_s it) ;; Ok (n, Some w).

(** surf.hpp:333-340 getKeyWithSuffix *)
Definition it_getKeyWithSuffix (e : env) (f : surf) (it : iter) : res (key * nat) :=
  if negb (it_valid it) then Ok ([], 0)
  else if di_complete (it_d it) then di_getKeyWithSuffix e (sf_dense f) (it_d it) 0
  else
    '(a, n) <- di_getKeyWithSuffix e (sf_dense f) (it_d it) 0 ;;
    '(b, n) <- si_getKeyWithSuffix e (sf_sparse f) (it_s it) n ;;
    Ok (a ++ b, n).

(** surf.hpp:223-248 lookupRange.  The member iter_ is an explicit state. *)
Definition lookupRange_st (e : env) (f : surf) (it0 : iter)
  (left_key : key) (left_inclusive : bool) (right_key : key) (right_inclusive : bool)
  : res (bool * iter) :=
  let it := it_clear it0 in
  '(_, d) <- d_moveToKeyGreaterThan e (sf_dense f) left_key left_inclusive (it_d it) ;;
  let it := it_setD it d in
  if negb (di_valid d) then Ok (false, it)
  else
    it <- (if negb (di_complete d) then
             if negb (di_search d) then
               let it := passToSparse it in
               '(_, s) <- s_moveToKeyGreaterThan e (sf_sparse f) left_key left_inclusive (it_s it) ;;
               let it := it_setS it s in
               if negb (si_valid s) then '(_, it) <- incrementDenseIter e f it ;; Ok it
               else Ok it
             else if negb (di_left d) then
               let it := passToSparse it in
               s <- si_moveToLeftMostKey e (sf_sparse f) (it_s it) ;;
               Ok (it_setS it s)
             else Ok it
           else Ok it) ;;
    if negb (it_valid it) then Ok (false, it)
    else
      c <- it_compare e f it right_key ;;
      if (c =? kCouldBePositive)%Z then Ok (true, it)
      else if right_inclusive : bool then Ok ((c <=? 0)%Z, it)
      else Ok ((c <? 0)%Z, it).

(** lookupRange on a freshly created filter *)
Definition lookupRange (e : env) (f : surf) l li r ri : res bool :=
  '(b, _) <- lookupRange_st e f (iter_new f) l li r ri ;; Ok b.

(** ** approxCount.  A position_t that may be kMaxPos (config.hpp:11) is an
    [option nat]; [None] is kMaxPos. *)

Definition cut_at (cuts : list N) (i : nat) : res N := vget cuts i.

(** louds_dense.hpp:275-286: loop of extendPosList; [n] levels left *)
Fixpoint d_extend_loop (e : env) (d : dense) (n i pos : nat) (acc : list (option nat))
  : res (list (option nat) * option nat) :=
  match n with
  | O => Ok (acc, Some pos)
  | S n' =>
      node_num <- d_getChildNodeNum e d pos ;;
      c <- d_readChild e d pos ;;
      let node_num := if c : bool then node_num else S node_num in
      let pos := node_num * kNodeFanout in
      cut <- cut_at (d_cuts d) i ;;
      if (cut <? N.of_nat pos)%N
      then Ok (acc ++ repeat None n, None)
      else d_extend_loop e d n' (S i) pos (acc ++ [Some pos])
  end.

(** louds_dense.hpp:271-296 extendPosList; returns the list and out_node_num *)
Definition d_extendPosList (e : env) (d : dense) (l : list nat)
  : res (list (option nat) * option nat) :=
  i <- pred_idx (length l) ;;
  pos <- vget l i ;;
  '(lst, last) <- d_extend_loop e d (d_height d - length l) (length l) pos (map Some l) ;;
  match last with
  | None => Ok (lst, None)
  | Some pos =>
      out <- d_getChildNodeNum e d pos ;;
      c <- d_readChild e d pos ;;
      Ok (lst, Some (if c : bool then out else S out))
  end.

Definition b2z (b : bool) : Z := if b then 1%Z else 0%Z.

(** louds_dense.hpp:315-360: one level *)
Definition d_count_level (e : env) (d : dense) (itl itr : diter)
  (ori_left ori_right i : nat) (left_pos : nat) (right : option nat) : res N :=
  let left_pos := if (i + 1 =? ori_left) && di_atprefix itl
                  then left_pos / kNodeFanout * kNodeFanout else left_pos in
  cut <- cut_at (d_cuts d) i ;;
  let right_pos := match right with Some p => p | None => N.to_nat cut end in
  let right_pos := if (i + 1 =? ori_right) && di_atprefix itr
                   then right_pos / kNodeFanout * kNodeFanout else right_pos in
  if left_pos <? right_pos then
    left_pos <- (if ori_left <=? i then d_getNextPos e d left_pos else Ok left_pos) ;;
    h <- pred_idx (d_height d) ;;
    lastcut <- cut_at (d_cuts d) h ;;
    right_pos <- (if (ori_right <=? i) && negb (N.of_nat right_pos =? lastcut)%N
                  then d_getNextPos e d right_pos else Ok right_pos) ;;
    hpl <- d_readPrefix e d (left_pos / kNodeFanout) ;;
    hpr <- d_readPrefix e d (right_pos / kNodeFanout) ;;
    rll <- rank e (d_labels d) left_pos ;;
    rrl <- rank e (d_labels d) right_pos ;;
    let rrl := if (N.of_nat right_pos =? lastcut)%N then S rrl else rrl in
    rlc <- rank e (d_child d) left_pos ;;
    rrc <- rank e (d_child d) right_pos ;;
    rlp <- rank e (d_prefix d) (left_pos / kNodeFanout) ;;
    rrp <- rank e (d_prefix d) (right_pos / kNodeFanout) ;;
    cr <- d_readChild e d right_pos ;;
    cl <- d_readChild e d left_pos ;;
    let z := ((Z.of_nat rrl - Z.of_nat rll) - (Z.of_nat rrc - Z.of_nat rlc)
              + (Z.of_nat rrp - Z.of_nat rlp)
              + b2z cr - b2z cl
              - b2z ((ori_right <=? i)%nat && hpr)
              + b2z ((ori_left <=? i)%nat && hpl)
              - b2z (di_search itl && (i + 1 =? ori_left)%nat))%Z in
    Ok (pos32 z)
  else Ok 0%N.

(** louds_dense.hpp:314-361 *)
Fixpoint d_count_loop (e : env) (d : dense) (itl itr : diter) (ori_left ori_right : nat)
  (i : nat) (ls rs : list (option nat)) (count : N) : res N :=
  match ls, rs with
  | [], _ => Ok count
  | None :: _, _ => Ok count
  | Some l :: ls', r :: rs' =>
      m <- d_count_level e d itl itr ori_left ori_right i l r ;;
      d_count_loop e d itl itr ori_left ori_right (S i) ls' rs' (wrap64 (count + m))
  | _, [] => Fail OutOfBounds
  end.

(** louds_dense.hpp:298-363 approxCount; returns the count and the two
    out_node_nums *)
Definition d_approxCount (e : env) (d : dense) (itl itr : diter)
  : res (N * option nat * option nat) :=
  l <- mapM (vget (di_pos itl)) (seq 0 (di_len itl)) ;;
  '(ls, outl) <- d_extendPosList e d l ;;
  r <- mapM (vget (di_pos itr)) (seq 0 (di_len itr)) ;;
  '(rs, outr) <- d_extendPosList e d r ;;
  count <- d_count_loop e d itl itr (length l) (length r) 0 ls rs 0%N ;;
  Ok (count, outl, outr).

(** louds_sparse.hpp:296-313 appendToPosList; returns (list, pos, done) *)
Definition s_appendToPosList (e : env) (s : sparse) (l : list (option nat)) (node_num level : nat)
  (isLeft done : bool) : res (list (option nat) * option nat * bool) :=
  pos <- s_getFirstLabelPos e s node_num ;;
  cut <- cut_at (s_cuts s) (s_start s + level) ;;
  if (cut <? N.of_nat pos)%N then
    let extra := if isLeft then 1 else s_height s - level - 1 in
    Ok (l ++ repeat None extra ++ [None], None, true)
  else Ok (l ++ [Some pos], Some pos, done).

Definition last_pos (l : list (option nat)) : res (option nat) :=
  i <- pred_idx (length l) ;; vget l i.

Definition optnat_eqb (a b : option nat) : bool :=
  match a, b with
  | None, None => true
  | Some x, Some y => x =? y
  | _, _ => false
  end.

(** louds_sparse.hpp:338-344 / 345-351: extend one side by one level.  A done
    side is not extended; kMaxPos otherwise would be out of bounds. *)
Definition s_extend_one (e : env) (s : sparse) (l : list (option nat)) (pos : option nat) (i : nat)
  (isLeft done : bool) : res (list (option nat) * option nat * bool) :=
  if negb done && (length l <=? i) then
    match pos with
    | None => Fail OutOfBounds
    | Some p =>
        n <- s_getChildNodeNum e s p ;;
        c <- s_readChild e s p ;;
        s_appendToPosList e s l (if c : bool then n else S n) i isLeft done
    end
  else Ok (l, pos, done).

(** louds_sparse.hpp:336-352 *)
Fixpoint s_extend_loop (e : env) (s : sparse) (n i : nat) (ll rl : list (option nat))
  (lp rp : option nat) (ld rd : bool) : res (list (option nat) * list (option nat)) :=
  match n with
  | O => Ok (ll, rl)
  | S n' =>
      if optnat_eqb lp rp then Ok (ll, rl)
      else
        '(ll, lp, ld) <- s_extend_one e s ll lp i true ld ;;
        '(rl, rp, rd) <- s_extend_one e s rl rp i false rd ;;
        s_extend_loop e s n' (S i) ll rl lp rp ld rd
  end.

(** louds_sparse.hpp:315-353 extendPosList; the in_node_num of a side with an
    empty list is never kMaxPos *)
Definition s_extendPosList (e : env) (s : sparse) (ll rl : list (option nat))
  (inl inr : option nat) : res (list (option nat) * list (option nat)) :=
  let start_depth := Nat.min (length ll) (length rl) in
  '(ll, ld, rl, rd, start_depth) <-
    (if start_depth =? 0 then
       '(ll, ld) <- (match ll, inl with
                     | [], Some n => '(l, _, dn) <- s_appendToPosList e s [] n 0 true false ;; Ok (l, dn)
                     | [], None => Fail OutOfBounds
                     | _, _ => Ok (ll, false)
                     end) ;;
       '(rl, rd) <- (match rl, inr with
                     | [], Some n => '(l, _, dn) <- s_appendToPosList e s [] n 0 false false ;; Ok (l, dn)
                     | [], None => Fail OutOfBounds
                     | _, _ => Ok (rl, false)
                     end) ;;
       Ok (ll, ld, rl, rd, 1)
     else Ok (ll, false, rl, false, start_depth)) ;;
  lp <- last_pos ll ;;
  rp <- last_pos rl ;;
  s_extend_loop e s (s_height s - s_start s - start_depth) start_depth ll rl lp rp ld rd.

(** louds_sparse.hpp:377-396 *)
Fixpoint s_count_loop (e : env) (s : sparse) (ori_left i : nat) (ls rs : list (option nat)) (count : N)
  : res N :=
  match ls, rs with
  | [], _ | _, [] => Ok count
  | None :: _, _ => Ok count
  | Some left_pos :: ls', r :: rs' =>
      cut <- cut_at (s_cuts s) (s_start s + i) ;;
      let right_pos := match r with Some p => p | None => N.to_nat (wrap32 (cut + 1)) end in
      m <- (if left_pos <? right_pos then
              rl <- rank e (s_child s) left_pos ;;
              rr <- rank e (s_child s) right_pos ;;
              cr <- s_readChild e s right_pos ;;
              cl <- s_readChild e s left_pos ;;
              Ok (pos32 ((Z.of_nat right_pos - Z.of_nat left_pos) - (Z.of_nat rr - Z.of_nat rl)
                         + b2z cr - b2z cl - b2z (i + 1 =? ori_left)%nat))
            else Ok 0%N) ;;
      s_count_loop e s ori_left (S i) ls' rs' (wrap64 (count + m))
  end.

(** louds_sparse.hpp:355-398 approxCount.  The cut of level start_level_ + i is
    only read when the right position is kMaxPos; the level always exists. *)
Definition s_approxCount (e : env) (s : sparse) (itl itr : siter) (inl inr : option nat) : res N :=
  match inl with
  | None => Ok 0%N
  | Some _ =>
      l <- mapM (vget (si_pos itl)) (seq 0 (si_len itl)) ;;
      r <- (match inr with
            | None => Ok (repeat None (s_height s - s_start s))
            | Some _ => p <- mapM (vget (si_pos itr)) (seq 0 (si_len itr)) ;; Ok (map Some p)
            end) ;;
      '(ls, rs) <- s_extendPosList e s (map Some l) r inl inr ;;
      s_count_loop e s (length l) 0 ls rs 0%N
  end.

(** surf.hpp:250-262 approxCount(iter, iter2) *)
Definition approxCount_it (e : env) (f : surf) (a b : iter) : res N :=
  if negb (it_valid a) || negb (it_valid b) then Ok 0%N
  else
    '(c, outl, outr) <- d_approxCount e (sf_dense f) (it_d a) (it_d b) ;;
    c2 <- s_approxCount e (sf_sparse f) (it_s a) (it_s b) outl outr ;;
    Ok (wrap64 (c + c2)).

(** surf.hpp:264-274 approxCount(left_key, right_key).  The member iterators
    are overwritten by fresh ones before use. *)
Definition approxCount (e : env) (f : surf) (l r : key) : res N :=
  a <- moveToKeyGreaterThan e f l true ;;
  if negb (it_valid a) then Ok 0%N
  else
    b <- moveToKeyGreaterThan e f r true ;;
    b <- (if negb (it_valid b) then moveToLast e f else Ok b) ;;
    approxCount_it e f a b.

(** surf.hpp:285-291 *)
Definition getHeight (f : surf) : nat := s_height (sf_sparse f).
Definition getSparseStartLevel (f : surf) : nat := s_start (sf_sparse f).
