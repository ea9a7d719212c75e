(** bench: filter.hpp, filter_surf.hpp, filter_bloom.hpp, filter_factory.hpp,
    bench.hpp and workload.cpp.

    Not modelled: timing, printing and reading of files (the loaded keys are
    arguments), atoi, and the floating point false positive rate. *)
From Coq Require Import Arith List NArith ZArith Bool Ascii String.
From Verif Require Import Res Word Config Builder Dense Sparse Surf Serialize Bloom Murmur.
Import ListNotations.
Open Scope nat_scope.

(** ** Strings *)

Definition str (s : string) : key := map nat_of_ascii (list_ascii_of_string s).

(** std::string::compare, on unsigned bytes: less, and equal *)
Fixpoint str_lt (a b : key) : bool :=
  match a, b with
  | _, [] => false
  | [], _ :: _ => true
  | x :: a', y :: b' => (x <? y) || ((x =? y) && str_lt a' b')
  end.
Fixpoint str_eq (a b : key) : bool :=
  match a, b with
  | [], [] => true
  | x :: a', y :: b' => (x =? y) && str_eq a' b'
  | _, _ => false
  end.
Definition is (a : key) (s : string) : bool := str_eq a (str s).

(** ** Filters *)

(** filter.hpp: a SuRF with its member iterator, or the string of a Bloom filter *)
Inductive filter := FSurf (f : surf) (it : iter) | FBloom (data : list N).

(** bloom.hpp:58-60; the hash never faults (see C36_hash). *)
Definition bloom_hash (k : key) : N * N := match BloomHash k with Ok h => h | Fail _ => (0, 0)%N end.

(** filter_surf.hpp:14-20, config.hpp:21-23 *)
Definition newFilterSuRF (e : env) (keys : list key) (t : suffix_type) (hlen rlen : nat) : res filter :=
  f <- create e (mkCfg true 16 t hlen rlen) keys ;; Ok (FSurf f (iter_new f)).

(** filter_bloom.hpp:13-17; (size_t)(10 * 0.69) is 6 *)
Definition newFilterBloom (keys : list key) : res filter :=
  d <- FilterBloom key bloom_hash 6 keys ;; Ok (FBloom d).

(** filter_factory.hpp:12-27 *)
Definition createFilter (e : env) (filter_type : key) (suffix_len : nat) (keys : list key) : res filter :=
  if is filter_type "SuRF" then newFilterSuRF e keys kNone 0 0
  else if is filter_type "SuRFHash" then newFilterSuRF e keys kHash suffix_len 0
  else if is filter_type "SuRFReal" then newFilterSuRF e keys kReal 0 suffix_len
  else if is filter_type "SuRFMixed" then newFilterSuRF e keys kMixed suffix_len suffix_len
  else if is filter_type "Bloom" then newFilterBloom keys
  else newFilterSuRF e keys kReal 0 suffix_len.

(** filter_surf.hpp:27-29, filter_bloom.hpp:23-25 *)
Definition lookup (e : env) (flt : filter) (k : key) : res bool :=
  match flt with
  | FSurf f _ => lookupKey e f k
  | FBloom d => KeyMayMatch key bloom_hash k d
  end.

(** filter_surf.hpp:31-34, filter_bloom.hpp:27-30 *)
Definition lookupRange (e : env) (flt : filter) (l r : key) : res (bool * filter) :=
  match flt with
  | FSurf f it => '(b, it) <- lookupRange_st e f it l true r true ;; Ok (b, FSurf f it)
  | FBloom _ => Ok (false, flt)
  end.

(** filter_surf.hpp:36-38 (the count is converted to bool),
    filter_bloom.hpp:32-35 *)
Definition approxCount (e : env) (flt : filter) (l r : key) : res (bool * filter) :=
  match flt with
  | FSurf f _ =>
      it <- moveToKeyGreaterThan e f l true ;;
      n <- Surf.approxCount e f l r ;;
      Ok (negb (n =? 0)%N, FSurf f it)
  | FBloom _ => Ok (false, flt)
  end.

(** filter_surf.hpp:40-42, filter_bloom.hpp:37-39; [sz] is sizeof(SuRF) *)
Definition memory (sz : N) (flt : filter) : N :=
  match flt with
  | FSurf f _ => getMemoryUsage sz f
  | FBloom d => N.of_nat (List.length d)
  end.

(** ** bench.hpp *)

(** bench.hpp:25-26 *)
Definition kIntRangeSize : N := 92233697311.
Definition kEmailRangeSize : nat := 128.

(** std::sort on strings; equal strings cannot be told apart *)
Fixpoint insert (k : key) (l : list key) : list key :=
  match l with
  | [] => [k]
  | x :: t => if str_lt x k then x :: insert k t else k :: l
  end.
Definition sort (l : list key) : list key := fold_right insert [] l.

(** bench.hpp:88-99; random_shuffle is the argument [shuffle] *)
Definition selectKeysToInsert (shuffle : list key -> list key) (percent : nat) (keys : list key) : list key :=
  sort (firstn (List.length keys * percent / 100) (shuffle keys)).

(** bench.hpp:114-123; a position of 2^31 or more is a negative int, which
    indexes behind the string *)
Definition modifyKeyByte (pos : nat) (k : key) : res key :=
  if pos <? List.length k then vset k (List.length k - 1 - pos) 43 else vset k 0 43.

(** bench.hpp:125-135 getUpperBoundKey; workload.cpp repeats it inline.  The
    last char of an empty string does not exist. *)
Definition getUpperBoundKey (key_type k : key) : res key :=
  if is key_type "email" then
    i <- pred_idx (List.length k) ;; b <- vget k i ;; vset k i ((b + kEmailRangeSize) mod 256)
  else
    w <- stringToUint64 k ;; Ok (uint64ToString (wrap64 (w + kIntRangeSize))).

(** ** workload.cpp *)

Record args := mkArgs {
  a_filter : key; a_len : nat; a_workload : key; a_percent : nat; a_pos : nat;
  a_key : key; a_query : key; a_dist : key }.

(** workload.cpp:27-75; false: the program returns -1.  The third test is
    "not mixed and alterByte". *)
Definition check_args (a : args) : bool :=
  (is (a_filter a) "SuRF" || is (a_filter a) "SuRFHash" || is (a_filter a) "SuRFReal" || is (a_filter a) "SuRFMixed"
     || is (a_filter a) "Bloom" || is (a_filter a) "ARF") &&
  negb ((a_len a =? 0) || (64 <? a_len a)) &&
  negb (negb (is (a_workload a) "mixed") && is (a_workload a) "alterByte") &&
  negb (100 <? a_percent a) &&
  (is (a_key a) "randint" || is (a_key a) "timestamp" || is (a_key a) "email") &&
  (is (a_query a) "point" || is (a_query a) "range" || is (a_query a) "mix" || is (a_query a) "count-long"
     || is (a_query a) "count-short") &&
  (is (a_dist a) "uniform" || is (a_dist a) "zipfian" || is (a_dist a) "latest").

(** workload.cpp:102-114 the pairs for count-long *)
Fixpoint long_pairs (txn : list key) : list (key * key) :=
  match txn with
  | a :: t => match t with
              | b :: _ => (if str_lt a b then (a, b) else (b, a)) :: long_pairs t
              | [] => []
              end
  | [] => []
  end.

Definition b2n (b : bool) : nat := if b then 1 else 0.

(** workload.cpp:127-129, 130-138, 139-152 the queries; the state is the filter
    and the number of positives *)
Definition do_point (e : env) (st : filter * nat) (q : key) : res (filter * nat) :=
  let '(flt, n) := st in b <- lookup e flt q ;; Ok (flt, n + b2n b).
Definition do_range (e : env) (key_type : key) (st : filter * nat) (q : key) : res (filter * nat) :=
  let '(flt, n) := st in
  u <- getUpperBoundKey key_type q ;; '(b, flt) <- lookupRange e flt q u ;; Ok (flt, n + b2n b).
Definition do_mix (e : env) (key_type : key) (st : filter * nat) (iq : nat * key) : res (filter * nat) :=
  let '(i, q) := iq in if i mod 2 =? 0 then do_point e st q else do_range e key_type st q.
(** workload.cpp:153-165 *)
Definition do_count (e : env) (st : filter * nat) (lr : key * key) : res (filter * nat) :=
  let '(flt, n) := st in '(b, flt) <- approxCount e flt (fst lr) (snd lr) ;; Ok (flt, n + b2n b).
Definition do_short (e : env) (key_type : key) (st : filter * nat) (q : key) : res (filter * nat) :=
  u <- getUpperBoundKey key_type q ;; do_count e st (q, u).

(** workload.cpp:169-172: [ht] has the keys of [ins], which is sorted.
    std::map::find and lower_bound *)
Definition ht_find (ins : list key) (q : key) : bool := existsb (str_eq q) ins.
Definition ht_lower_bound (ins : list key) (q : key) : option key := find (fun k => negb (str_lt k q)) ins.

(** workload.cpp:174-213 true positives *)
Definition true_point (ins : list key) (q : key) : res nat := Ok (b2n (ht_find ins q)).
Definition true_range (key_type : key) (ins : list key) (q : key) : res nat :=
  match ht_lower_bound ins q with
  | None => Ok 0
  | Some k => u <- getUpperBoundKey key_type q ;; Ok (b2n (str_lt k u))
  end.
Definition true_mix (key_type : key) (ins : list key) (iq : nat * key) : res nat :=
  let '(i, q) := iq in if i mod 2 =? 0 then true_point ins q else true_range key_type ins q.
Definition total {A} (f : A -> res nat) (l : list A) : res nat := foldM (fun n x => m <- f x ;; Ok (n + m)) l 0.

Record report := mkReport {
  r_positives : nat; r_true_positives : nat; r_false_positives : Z; r_true_negatives : Z; r_count : nat; r_memory : N }.

(** workload.cpp:4-237 main; [load] and [txn] are the keys in the files, None
    is an exit with -1 *)
Definition main (e : env) (sz : N) (shuffle : list key -> list key) (a : args) (load txn : list key) : res (option report) :=
  if negb (check_args a) then Ok None
  else
    let ins := selectKeysToInsert shuffle (a_percent a) load in
    txn <- (if is (a_workload a) "alterByte" then mapM (modifyKeyByte (a_pos a)) txn else Ok txn) ;;
    let qs := combine (seq 0 (List.length txn)) txn in
    flt <- createFilter e (a_filter a) (a_len a) ins ;;
    '(flt, n) <- (if is (a_query a) "point" then foldM (do_point e) txn (flt, 0)
                  else if is (a_query a) "range" then foldM (do_range e (a_key a)) txn (flt, 0)
                  else if is (a_query a) "mix" then foldM (do_mix e (a_key a)) qs (flt, 0)
                  else if is (a_query a) "count-long" then foldM (do_count e) (long_pairs txn) (flt, 0)
                  else foldM (do_short e (a_key a)) txn (flt, 0)) ;;
    let counting := is (a_query a) "count-long" || is (a_query a) "count-short" in
    let positives := if counting then 0 else n in
    tp <- (if is (a_query a) "point" then total (true_point ins) txn
           else if is (a_query a) "range" then total (true_range (a_key a) ins) txn
           else if is (a_query a) "mix" then total (true_mix (a_key a) ins) qs
           else Ok 0) ;;
    let fp := (Z.of_nat positives - Z.of_nat tp)%Z in
    massert e (0 <=? fp)%Z ;;;
    Ok (Some (mkReport positives tp fp (Z.of_nat (List.length txn) - Z.of_nat positives)
                (if counting then n else 0) (memory sz flt))).
