(** bench/workload_arf.cpp, with loadKeysFromFile and selectIntKeysToInsert of
    bench.hpp.

    The ARF library is not part of the repository: arf::Database::rangeQuery is
    the parameter [db], arf::ARF is a type of states with the parameters
    [perfect] (constructor and perfect()), [handle] (handle_query) and [trained]
    (reset_training_phase, truncate, end_training_phase).  They are taken to
    return.  The three sizes are parameters too.  Not modelled: timing,
    printing, atoi; the printed rate is its numerator and denominator. *)
From Coq Require Import Arith List NArith ZArith Bool String.
From Verif Require Import Res Word Config Bench Load.
Import ListNotations.
Open Scope nat_scope.

(** bench.hpp:76-86; [stale] is what key holds in a round that does not set it *)
Fixpoint load_uints (fuel : nat) (num_records count : N) (s : stream) (stale : N) : res (list N) :=
  match fuel with
  | O => Fail NoFuel
  | S fuel =>
      if (count <? num_records)%N && st_good s then
        let '(s, v) := read_uint64 s stale in
        l <- load_uints fuel num_records (count + 1) s stale ;; Ok (v :: l)
      else Ok []
  end.
Definition loadUints (file : option (list nat)) (num_records stale : N) : res (list N) :=
  let s := match file with None => mkStream [] false | Some l => mkStream l true end in
  load_uints (2 + List.length (st_rest s)) num_records 0 s stale.

(** std::sort on uint64_t *)
Fixpoint insertN (k : N) (l : list N) : list N :=
  match l with
  | [] => [k]
  | x :: t => if (x <? k)%N then x :: insertN k t else k :: l
  end.
Definition sortN (l : list N) : list N := fold_right insertN [] l.

(** bench.hpp:102-112 *)
Definition selectIntKeysToInsert (shuffle : list N -> list N) (percent : nat) (keys : list N) : list N :=
  sortN (firstn (List.length keys * percent / 100) (shuffle keys)).

(** workload_arf.cpp:11 *)
Definition kRangeSize : N := 922336973116.

Record arf_report := mkArfReport {
  ar_positives : nat; ar_true_positives : nat; ar_true_negatives : nat; ar_false_positives : Z; ar_rate : option (Z * Z) }.

Section Arf.
Variables (db : list N -> N -> N -> bool) (state : Type) (perfect : list N -> state)
  (handle : state -> N -> N -> bool -> bool -> state * bool) (trained : state -> state).
(** kInputSize is only the divisor of a gap that is printed *)
Variables (input_size txn_size training_size : N).

(** workload_arf.cpp:27-43 *)
Definition arf_args (percent : nat) (query dist : key) : bool :=
  negb (100 <? percent) && (is query "point" || is query "range") &&
  (is dist "uniform" || is dist "zipfian" || is dist "latest").

(** workload_arf.cpp:69-81 *)
Definition arf_bounds (query : key) (txn : list N) : list (N * N) :=
  if is query "range" then map (fun w => let l := wrap64 (w + 1) in (l, wrap64 (l + kRangeSize))) txn
  else map (fun w => (w, w)) txn.

(** workload_arf.cpp:96-101: one round of training *)
Definition arf_train (ins : list N) (qs : list (N * N)) (st : state) (i : nat) : res state :=
  '(l, r) <- vget qs i ;; Ok (fst (handle st l r (db ins l r) true)).
(** workload_arf.cpp:114-116 *)
Definition arf_ask (qs : list (N * N)) (stp : state * nat) (i : nat) : res (state * nat) :=
  let '(st, p) := stp in '(l, r) <- vget qs i ;; let '(st, b) := handle st l r true false in Ok (st, p + b2n b).
(** workload_arf.cpp:126-132 *)
Definition arf_truth (ins : list N) (qs : list (N * N)) (c : nat * nat) (i : nat) : res (nat * nat) :=
  let '(tps, tns) := c in '(l, r) <- vget qs i ;; Ok (if db ins l r then (S tps, tns) else (tps, S tns)).

(** workload_arf.cpp:13-148 main; None is an exit with -1 *)
Definition arf_main (shuffle : list N -> list N) (percent : nat) (query dist : key)
  (load_file txn_file : option (list nat)) (stale1 stale2 : N) : res (option arf_report) :=
  if negb (arf_args percent query dist) then Ok None
  else
    load <- loadUints load_file input_size stale1 ;;
    let load := sortN load in
    i <- pred_idx (List.length load) ;;
    max_key <- vget load i ;;
    min_key <- vget load 0 ;;
    txn <- loadUints txn_file txn_size stale2 ;;
    let ins := selectIntKeysToInsert shuffle percent load in
    let qs := arf_bounds query txn in
    st <- foldM (arf_train ins qs) (seq 0 (N.to_nat training_size)) (perfect ins) ;;
    let rest := seq (N.to_nat training_size) (N.to_nat txn_size - N.to_nat training_size) in
    '(_, positives) <- foldM (arf_ask qs) rest (trained st, 0) ;;
    '(tps, tns) <- foldM (arf_truth ins qs) rest (0, 0) ;;
    let fps := (Z.of_nat positives - Z.of_nat tps)%Z in
    let rate := if (0 <=? fps)%Z then Some (fps, Z.of_nat tns + fps)%Z else None in
    Ok (Some (mkArfReport positives tps tns fps rate)).
End Arf.

(** workload_arf.cpp:6-9: the sizes in the program *)
Definition workload_arf (db : list N -> N -> N -> bool) (state : Type) (perfect : list N -> state)
  (handle : state -> N -> N -> bool -> bool -> state * bool) (trained : state -> state) :=
  arf_main db state perfect handle trained 10000000 10000000 2000000.
