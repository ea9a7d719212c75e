(** The arrays a filter allocates with new[] and what destroy() deletes.

    A heap is the next unused pointer and the live arrays with their sizes in
    bytes.  Only arrays are modelled: the objects that own them (made by plain
    new) are never deleted by the library. *)
From Coq Require Import Arith List NArith Bool.
From Verif Require Import Res Word Config Bitvector Rank Select LabelVector Suffix Builder Dense Sparse Surf.
Import ListNotations.

Record heap := mkHeap { hp_next : nat; hp_live : list (nat * N) }.

(** new T[n]: [bytes] in all *)
Definition new_array (bytes : N) (h : heap) : nat * heap :=
  (hp_next h, mkHeap (S (hp_next h)) ((hp_next h, bytes) :: hp_live h)).
(** delete[] p: [None] if [p] is not a live array *)
Definition delete_array (p : nat) (h : heap) : option heap :=
  if existsb (fun x => fst x =? p) (hp_live h)
  then Some (mkHeap (hp_next h) (filter (fun x => negb (fst x =? p)) (hp_live h))) else None.

Definition words_bytes (b : bitvec) : N := (8 * N.of_nat (length (bv_words b)))%N.
Definition lut_bytes (l : list nat) : N := (4 * N.of_nat (length l))%N.

(** bits_ (bitvector.hpp:23, rank.hpp:81) and rank_lut_ (rank.hpp:84, 106) *)
Definition rank_arrays (r : bvrank) (h : heap) : (nat * nat) * heap :=
  let (p, h) := new_array (words_bytes (rk_bv r)) h in
  let (q, h) := new_array (lut_bytes (rk_lut r)) h in ((p, q), h).
(** bits_ (bitvector.hpp:23, select.hpp:110) and select_lut_ (select.hpp:113, 155) *)
Definition select_arrays (s : bvselect) (h : heap) : (nat * nat) * heap :=
  let (p, h) := new_array (words_bytes (sl_bv s)) h in
  let (q, h) := new_array (lut_bytes (sl_lut s)) h in ((p, q), h).
(** bits_ (bitvector.hpp:23, suffix.hpp:165); null for kNone *)
Definition suffix_arrays (s : bvsuffix) (h : heap) : option nat * heap :=
  match sf_type s with
  | kNone => (None, h)
  | _ => let (p, h) := new_array (words_bytes (sf_bv s)) h in (Some p, h)
  end.

(** pointers of a LoudsDense: level_cuts_, label_bitmaps_,
    child_indicator_bitmaps_, prefixkey_indicator_bits_, suffixes_ *)
Record dense_ptrs := mkDP { dp_cuts : nat; dp_labels : nat * nat; dp_child : nat * nat; dp_prefix : nat * nat; dp_suf : option nat }.
(** louds_dense.hpp:165-201 constructor, 116-131 deSerialize *)
Definition dense_arrays (d : dense) (h : heap) : dense_ptrs * heap :=
  let (c, h) := new_array (4 * N.of_nat (length (d_cuts d))) h in
  let (l, h) := rank_arrays (d_labels d) h in
  let (i, h) := rank_arrays (d_child d) h in
  let (p, h) := rank_arrays (d_prefix d) h in
  let (s, h) := suffix_arrays (d_suf d) h in
  (mkDP c l i p s, h).

(** pointers of a LoudsSparse: labels_, level_cuts_, child_indicator_bits_,
    louds_bits_, suffixes_ *)
Record sparse_ptrs := mkSP { sp_labels : nat; sp_cuts : nat; sp_child : nat * nat; sp_louds : nat * nat; sp_suf : option nat }.
(** louds_sparse.hpp:179-227 constructor, 106-127 deSerialize (which allocates
    level_cuts_ before labels_); label_vector.hpp:27-28, 88 *)
Definition sparse_arrays (s : sparse) (h : heap) : sparse_ptrs * heap :=
  let (l, h) := new_array (lv_alloc (s_labels s)) h in
  let (c, h) := new_array (4 * N.of_nat (length (s_cuts s))) h in
  let (i, h) := rank_arrays (s_child s) h in
  let (b, h) := select_arrays (s_louds s) h in
  let (x, h) := suffix_arrays (s_suf s) h in
  (mkSP l c i b x, h).

(** surf.hpp:130-141 create, 109-115 deSerialize *)
Definition surf_arrays (f : surf) (h : heap) : (dense_ptrs * sparse_ptrs) * heap :=
  let (d, h) := dense_arrays (sf_dense f) h in
  let (s, h) := sparse_arrays (sf_sparse f) h in ((d, s), h).

Definition obind {A B} (m : option A) (k : A -> option B) : option B := match m with Some x => k x | None => None end.
(** rank.hpp:97-100, select.hpp:125-128 destroy *)
Definition pair_destroy (p : nat * nat) (h : heap) : option heap :=
  obind (delete_array (fst p) h) (delete_array (snd p)).
(** suffix.hpp:176-179 destroy *)
Definition suffix_destroy (p : option nat) (h : heap) : option heap :=
  match p with None => Some h | Some p => delete_array p h end.
(** louds_dense.hpp:133-138 destroy: level_cuts_ is not deleted *)
Definition dense_destroy (p : dense_ptrs) (h : heap) : option heap :=
  obind (pair_destroy (dp_labels p) h) (fun h =>
  obind (pair_destroy (dp_child p) h) (fun h =>
  obind (pair_destroy (dp_prefix p) h) (suffix_destroy (dp_suf p)))).
(** louds_sparse.hpp:129-135 destroy; label_vector.hpp:98-100 *)
Definition sparse_destroy (p : sparse_ptrs) (h : heap) : option heap :=
  obind (delete_array (sp_cuts p) h) (fun h =>
  obind (delete_array (sp_labels p) h) (fun h =>
  obind (pair_destroy (sp_child p) h) (fun h =>
  obind (pair_destroy (sp_louds p) h) (suffix_destroy (sp_suf p))))).
(** surf.hpp:117-120 destroy *)
Definition surf_destroy (p : dense_ptrs * sparse_ptrs) (h : heap) : option heap :=
  obind (dense_destroy (fst p) h) (sparse_destroy (snd p)).

(** ** what the properties talk about *)
(** No live array has a pointer that new will hand out later. *)
Definition fresh_heap (h : heap) : Prop := forall p n, In (p, n) (hp_live h) -> p < hp_next h.
Definition live_bytes (h : heap) : N := fold_right N.add 0%N (map snd (hp_live h)).
(** bytes in the arrays of [f] *)
Definition held (f : surf) : N := live_bytes (snd (surf_arrays f (mkHeap 0 []))).
