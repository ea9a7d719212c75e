(** bench/bloom.hpp, bench/filter_bloom.hpp: the baseline Bloom filter.

    A filter is the string [dst]: the bit array followed by one byte with the
    number of probes.  BloomHash (MurmurHash3_x86_128, bloom.hpp:58-64) is not
    modelled: [hash] stands for its first two 32-bit words and is arbitrary.  The
    string and uint64_t overloads are the same code; [K] is the key type. *)
From Coq Require Import Arith List NArith Bool.
From Verif Require Import Res Word.
Import ListNotations.

Section Bloom.
Variable K : Type.
Variable hash : K -> N * N.

(** bloom.hpp:72-78 constructor.  [x] is static_cast<size_t>(bits_per_key *
    0.69); the floating point product is left open. *)
Definition bloom_k (x : nat) : nat := let k := if x <? 1 then 1 else x in if 30 <? k then 30 else k.

(** bloom.hpp:82-89 sizes.  n and bits_per_key are non-negative ints, so the
    product fits 64 bits. *)
Definition bloom_bytes (bits_per_key n : N) : N :=
  let bits := (n * bits_per_key)%N in
  let bits := if (bits <? 64)%N then 64%N else bits in
  ((bits + 7) / 8)%N.

(** bloom.hpp:103-107 one key: k probes from [h] with step [delta] *)
Fixpoint bloom_set (bits : N) (k : nat) (h delta : N) (array : list N) : res (list N) :=
  match k with
  | O => Ok array
  | S k' =>
      let bitpos := (h mod bits)%N in
      let i := N.to_nat (bitpos / 8) in
      b <- vget array i ;;
      array' <- vset array i (N.lor b (N.shiftl 1 (bitpos mod 8))) ;;
      bloom_set bits k' (wrap32 (h + delta)) delta array'
  end.

(** bloom.hpp:80-109, 111-140 CreateFilter; keys[i] is checked *)
Definition CreateFilter (bits_per_key x : nat) (keys : list K) (n : nat) (dst : list N) : res (list N) :=
  let k := bloom_k x in
  let bytes := bloom_bytes (N.of_nat bits_per_key) (N.of_nat n) in
  let bits := (bytes * 8)%N in
  array <- foldM (fun a i => key <- vget keys i ;; let '(h, delta) := hash key in bloom_set bits k h delta a)
             (seq 0 n) (repeat 0%N (N.to_nat bytes)) ;;
  Ok (dst ++ array ++ [N.of_nat k]).

(** bloom.hpp:159-164 the probe loop *)
Fixpoint bloom_test (bits : N) (k : nat) (h delta : N) (array : list N) : res bool :=
  match k with
  | O => Ok true
  | S k' =>
      let bitpos := (h mod bits)%N in
      b <- vget array (N.to_nat (bitpos / 8)) ;;
      if (N.land b (N.shiftl 1 (bitpos mod 8)) =? 0)%N then Ok false
      else bloom_test bits k' (wrap32 (h + delta)) delta array
  end.

(** bloom.hpp:142-166, 168-192 KeyMayMatch.  array[len-1] is a signed char: 128
    and more become huge as a size_t, which is above 30 either way. *)
Definition KeyMayMatch (key : K) (filter : list N) : res bool :=
  let len := length filter in
  if len <? 2 then Ok false
  else
    let bits := (N.of_nat (len - 1) * 8)%N in
    k <- vget filter (len - 1) ;;
    if (30 <? k)%N then Ok true
    else let '(h, delta) := hash key in bloom_test bits (N.to_nat k) h delta filter.

(** filter_bloom.hpp:13-25 FilterBloom: 10 bits per key, all keys *)
Definition FilterBloom (x : nat) (keys : list K) : res (list N) := CreateFilter 10 x keys (length keys) [].
End Bloom.
