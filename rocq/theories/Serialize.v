(** Serialization: serialize, deSerialize and serializedSize of every class.

    A buffer is a list of bytes at an address.  A writer moves a cursor through
    it; a reader moves one through a buffer it does not change.  align() rounds
    the cursor's absolute address, so both take the address of the buffer.
    uint32_t and uint64_t are stored as on little-endian machines, whose byte
    order memcpy keeps.  Running out of memory is not modelled. *)
From Coq Require Import Arith List NArith Bool.
From Verif Require Import Res Word Config Bitvector Rank Select LabelVector Suffix Builder Dense Sparse Surf.
Import ListNotations.

(** ** bytes *)
Fixpoint unles (w n : nat) (bs : list nat) : list N :=
  match n with O => [] | S m => of_le_bytes (firstn w bs) :: unles w m (skipn w bs) end.

(** the first [n] elements of an array, [w] bytes each, as memcpy's source *)
Definition array_bytes (w : nat) (n : N) (l : list N) : res (list nat) :=
  if (n <=? N.of_nat (length l))%N then Ok (flat_map (le_bytes w) (firstn (N.to_nat n) l)) else Fail OutOfBounds.

(** ** cursors *)
Definition wst : Type := (list nat * nat)%type.
Definition writer : Type := wst -> res wst.
Definition reader (A : Type) : Type := list nat -> nat -> res (A * nat).

(** memcpy(dst, ...); dst += ... *)
Definition put (bs : list nat) : writer := fun st =>
  let '(buf, off) := st in
  if off + length bs <=? length buf
  then Ok (firstn off buf ++ bs ++ skipn (off + length bs) buf, off + length bs)
  else Fail OutOfBounds.
Definition put32 (v : nat) : writer := put (le_bytes 4 (N.of_nat v)).
Definition wseq (a b : writer) : writer := fun st => st' <- a st ;; b st'.
Definition wdo (m : res (list nat)) : writer := fun st => bs <- m ;; put bs st.
Infix ">>" := wseq (at level 62, right associativity).

(** memcpy(..., src, n); src += n *)
Definition get (n : N) : reader (list nat) := fun buf off =>
  if (N.of_nat off + n <=? N.of_nat (length buf))%N
  then Ok (firstn (N.to_nat n) (skipn off buf), off + N.to_nat n)
  else Fail OutOfBounds.
Definition rbind {A B} (m : reader A) (k : A -> reader B) : reader B := fun buf off =>
  '(x, off') <- m buf off ;; k x buf off'.
Definition rret {A} (x : A) : reader A := fun _ off => Ok (x, off).
Definition rlift {A} (m : res A) : reader A := fun _ off => x <- m ;; Ok (x, off).
Definition get32 : reader nat := rbind (get 4) (fun bs => rret (N.to_nat (of_le_bytes bs))).
Notation "x <~ m ;; k" := (rbind m (fun x => k)) (at level 63, m at next level, right associativity).

(** config.hpp:37-39 align on the cursor of a buffer at address [a] *)
Definition align_off (a : N) (off : nat) : nat := N.to_nat (align_addr (a + N.of_nat off) - a)%N.
Definition walign (a : N) : writer := fun st => let '(buf, off) := st in Ok (buf, align_off a off).
Definition ralign (a : N) : reader unit := fun _ off => Ok (tt, align_off a off).

(** ** bit vectors *)
(** bitvector.hpp:41-43 bitsSize, in position_t *)
Definition bitsSize (nbits : nat) : N := wrap32 (N.of_nat (num_words nbits) * 8).

(** rank.hpp:42-44 rankLutSize *)
Definition rankLutSize (nbits block : nat) : N := wrap32 ((N.of_nat (nbits / block) + 1) * 4).
(** rank.hpp:46-51 serializedSize *)
Definition rank_serializedSize (r : bvrank) : N :=
  let nb := bv_nbits (rk_bv r) in
  sizeAlign32 (wrap32 (4 + 4 + bitsSize nb + rankLutSize nb (rk_block r))).
(** rank.hpp:62-72 serialize *)
Definition rank_serialize (a : N) (r : bvrank) : writer :=
  let nb := bv_nbits (rk_bv r) in
  put32 nb >> put32 (rk_block r) >>
  wdo (array_bytes 8 (bitsSize nb / 8) (bv_words (rk_bv r))) >>
  wdo (array_bytes 4 (rankLutSize nb (rk_block r) / 4) (map N.of_nat (rk_lut r))) >>
  walign a.
(** rank.hpp:74-95 deSerialize *)
Definition nonzero (n : nat) : reader unit := rlift (if n =? 0 then Fail BadValue else Ok tt).
Definition rank_deSerialize (a : N) : reader bvrank :=
  nb <~ get32 ;; block <~ get32 ;;
  ws <~ get (bitsSize nb) ;;
  _ <~ nonzero block ;;
  lut <~ get (rankLutSize nb block) ;;
  _ <~ ralign a ;;
  rret (mkRank (mkBV nb (unles 8 (num_words nb) ws)) block
         (map N.to_nat (unles 4 (N.to_nat (rankLutSize nb block / 4)) lut))).

(** select.hpp:68-70 selectLutSize *)
Definition selectLutSize (ones interval : nat) : N := wrap32 ((N.of_nat (ones / interval) + 1) * 4).
(** select.hpp:72-77 serializedSize *)
Definition select_serializedSize (s : bvselect) : N :=
  sizeAlign32 (wrap32 (4 + 4 + 4 + bitsSize (bv_nbits (sl_bv s)) + selectLutSize (sl_ones s) (sl_interval s))).
(** select.hpp:87-99 serialize *)
Definition select_serialize (a : N) (s : bvselect) : writer :=
  let nb := bv_nbits (sl_bv s) in
  put32 nb >> put32 (sl_interval s) >> put32 (sl_ones s) >>
  wdo (array_bytes 8 (bitsSize nb / 8) (bv_words (sl_bv s))) >>
  wdo (array_bytes 4 (selectLutSize (sl_ones s) (sl_interval s) / 4) (map N.of_nat (sl_lut s))) >>
  walign a.
(** select.hpp:101-123 deSerialize *)
Definition select_deSerialize (a : N) : reader bvselect :=
  nb <~ get32 ;; interval <~ get32 ;; ones <~ get32 ;;
  ws <~ get (bitsSize nb) ;;
  _ <~ nonzero interval ;;
  lut <~ get (selectLutSize ones interval) ;;
  _ <~ ralign a ;;
  rret (mkSelect (mkBV nb (unles 8 (num_words nb) ws)) interval ones
         (map N.to_nat (unles 4 (N.to_nat (selectLutSize ones interval / 4)) lut))).

(** ** labels *)
(** label_vector.hpp:47-51 serializedSize *)
Definition lv_serializedSize (lv : labelvec) : N := sizeAlign32 (wrap32 (4 + N.of_nat (lv_num_bytes lv))).
(** label_vector.hpp:75-81 serialize *)
Definition lv_serialize (e : env) (a : N) (lv : labelvec) : writer :=
  put32 (lv_num_bytes lv) >> wdo (mapM (lv_read e lv) (seq 0 (lv_num_bytes lv))) >> walign a.
(** label_vector.hpp:83-96 deSerialize: the new array has num_bytes_ bytes,
    without the constructor's spare room *)
Definition lv_deSerialize (a : N) : reader labelvec :=
  n <~ get32 ;;
  bs <~ get (N.of_nat n) ;;
  _ <~ ralign a ;;
  rret (mkLV bs (N.of_nat n)).

(** ** suffixes *)
Definition type_code (t : suffix_type) : nat := match t with kNone => 0 | kHash => 1 | kReal => 2 | kMixed => 3 end.
Definition code_type (n : nat) : res suffix_type :=
  match n with 0 => Ok kNone | 1 => Ok kHash | 2 => Ok kReal | 3 => Ok kMixed | _ => Fail BadValue end.
Definition is_none (t : suffix_type) : bool := match t with kNone => true | _ => false end.
(** suffix.hpp:119-124 serializedSize *)
Definition suf_serializedSize (s : bvsuffix) : N :=
  sizeAlign32 (wrap32 (4 + 4 + 4 + 4 + bitsSize (bv_nbits (sf_bv s)))).
(** suffix.hpp:138-152 serialize *)
Definition suf_serialize (a : N) (s : bvsuffix) : writer :=
  let nb := bv_nbits (sf_bv s) in
  put32 nb >> put32 (type_code (sf_type s)) >> put32 (sf_hlen s) >> put32 (sf_rlen s) >>
  (if is_none (sf_type s) then (fun st => Ok st) else wdo (array_bytes 8 (bitsSize nb / 8) (bv_words (sf_bv s)))) >>
  walign a.
(** suffix.hpp:154-174 deSerialize; bits_ stays null for kNone *)
Definition suf_deSerialize (a : N) : reader bvsuffix :=
  nb <~ get32 ;; t0 <~ get32 ;; hlen <~ get32 ;; rlen <~ get32 ;;
  t <~ rlift (code_type t0) ;;
  ws <~ (if is_none t then rret [] else get (bitsSize nb)) ;;
  _ <~ ralign a ;;
  rret (mkSuf (mkBV nb (if is_none t then [] else unles 8 (num_words nb) ws)) t hlen rlen).

(** ** the two tries *)
(** louds_dense.hpp:365-375 serializedSize *)
Definition dense_serializedSize (d : dense) : N :=
  let size := sizeAlign64 (4 + 4 * N.of_nat (d_height d)) in
  sizeAlign64 (wrap64 (size + (rank_serializedSize (d_labels d) + rank_serializedSize (d_child d)
                               + rank_serializedSize (d_prefix d) + suf_serializedSize (d_suf d)))).
(** louds_dense.hpp:103-114 serialize *)
Definition dense_serialize (a : N) (d : dense) : writer :=
  put32 (d_height d) >> wdo (array_bytes 4 (N.of_nat (d_height d)) (d_cuts d)) >> walign a >>
  rank_serialize a (d_labels d) >> rank_serialize a (d_child d) >> rank_serialize a (d_prefix d) >>
  suf_serialize a (d_suf d) >> walign a.
(** louds_dense.hpp:116-131 deSerialize *)
Definition dense_deSerialize (a : N) : reader dense :=
  h <~ get32 ;; cuts <~ get (4 * N.of_nat h) ;; _ <~ ralign a ;;
  labels <~ rank_deSerialize a ;; child <~ rank_deSerialize a ;; prefix <~ rank_deSerialize a ;;
  suf <~ suf_deSerialize a ;; _ <~ ralign a ;;
  rret (mkDense h (unles 4 h cuts) labels child prefix suf).

(** louds_sparse.hpp:400-411 serializedSize *)
Definition sparse_serializedSize (s : sparse) : N :=
  let size := sizeAlign64 (4 + 4 + 4 + 4 + 4 * N.of_nat (s_height s)) in
  sizeAlign64 (wrap64 (size + (lv_serializedSize (s_labels s) + rank_serializedSize (s_child s)
                               + select_serializedSize (s_louds s) + suf_serializedSize (s_suf s)))).
(** louds_sparse.hpp:87-104 serialize *)
Definition sparse_serialize (e : env) (a : N) (s : sparse) : writer :=
  put32 (s_height s) >> put32 (s_start s) >> put32 (s_ncount s) >> put32 (s_ccount s) >>
  wdo (array_bytes 4 (N.of_nat (s_height s)) (s_cuts s)) >> walign a >>
  lv_serialize e a (s_labels s) >> rank_serialize a (s_child s) >> select_serialize a (s_louds s) >>
  suf_serialize a (s_suf s) >> walign a.
(** louds_sparse.hpp:106-127 deSerialize *)
Definition sparse_deSerialize (a : N) : reader sparse :=
  h <~ get32 ;; st <~ get32 ;; nc <~ get32 ;; ch <~ get32 ;;
  cuts <~ get (4 * N.of_nat h) ;; _ <~ ralign a ;;
  labels <~ lv_deSerialize a ;; child <~ rank_deSerialize a ;; louds <~ select_deSerialize a ;;
  suf <~ suf_deSerialize a ;; _ <~ ralign a ;;
  rret (mkSparse h st nc ch (unles 4 h cuts) labels child louds suf).

(** ** the filter *)
(** surf.hpp:276-279 serializedSize *)
Definition serializedSize (f : surf) : N :=
  wrap64 (dense_serializedSize (sf_dense f) + sparse_serializedSize (sf_sparse f)).

(** surf.hpp:99-107 serialize into the memory [mem] of serializedSize() bytes
    that new returned, at address [a]; the result is the buffer and the final
    cursor. *)
Definition serialize_into (e : env) (a : N) (mem : list nat) (f : surf) : res (list nat * nat) :=
  st <- dense_serialize a (sf_dense f) (mem, 0) ;;
  '(buf, cur) <- sparse_serialize e a (sf_sparse f) st ;;
  massert e (N.of_nat cur =? serializedSize f)%N ;;;
  Ok (buf, cur).

(** surf.hpp:109-115 deSerialize from a buffer at address [a]; the filter and
    the number of bytes used *)
Definition deSerialize (a : N) (buf : list nat) : res (surf * nat) :=
  '(d, off) <- dense_deSerialize a buf 0 ;;
  '(s, off) <- sparse_deSerialize a buf off ;;
  Ok (mkSurf d s, off).

(** ** sizes *)
(** rank.hpp:53-55, select.hpp:79-81, suffix.hpp:126-128, label_vector.hpp:53-55
    size(); sizeof on x86-64: 32, 32, 32, 16 *)
Definition rank_size (r : bvrank) : N :=
  wrap32 (32 + bitsSize (bv_nbits (rk_bv r)) + rankLutSize (bv_nbits (rk_bv r)) (rk_block r)).
Definition select_size (s : bvselect) : N :=
  wrap32 (32 + bitsSize (bv_nbits (sl_bv s)) + selectLutSize (sl_ones s) (sl_interval s)).
Definition suf_size (s : bvsuffix) : N := wrap32 (32 + bitsSize (bv_nbits (sf_bv s))).
Definition lv_size (lv : labelvec) : N := wrap32 (16 + N.of_nat (lv_num_bytes lv)).
(** louds_dense.hpp:377-383 getMemoryUsage; sizeof(LoudsDense) = 48 *)
Definition dense_getMemoryUsage (d : dense) : N :=
  wrap64 (48 + rank_size (d_labels d) + rank_size (d_child d) + rank_size (d_prefix d) + suf_size (d_suf d)).
(** louds_sparse.hpp:413-419 getMemoryUsage; sizeof(this) is a pointer *)
Definition sparse_getMemoryUsage (s : sparse) : N :=
  wrap64 (8 + lv_size (s_labels s) + rank_size (s_child s) + select_size (s_louds s) + suf_size (s_suf s)).
(** surf.hpp:281-283 getMemoryUsage; [sz] is sizeof(SuRF) *)
Definition getMemoryUsage (sz : N) (f : surf) : N :=
  wrap64 (sz + dense_getMemoryUsage (sf_dense f) + sparse_getMemoryUsage (sf_sparse f)).
