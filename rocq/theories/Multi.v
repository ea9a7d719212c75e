(** bench/workload_multi_thread.cpp, compiled with VERBOSE.

    Simplified: threads are interleaved as in Threads.v (a schedule names the
    thread that takes the next step); the throughput is left out. *)
From Coq Require Import Arith List NArith ZArith Bool String.
From Verif Require Import Res Word Config Builder Dense Sparse Surf Serialize Bloom Murmur Spec SpecIter SpecSession Threads Bench.
Import ListNotations.
Open Scope nat_scope.

(** workload_multi_thread.cpp:72-116 *)
Definition check_multi (a : args) : bool :=
  (is (a_filter a) "SuRF" || is (a_filter a) "SuRFHash" || is (a_filter a) "SuRFReal" || is (a_filter a) "Bloom" || is (a_filter a) "ARF") &&
  negb ((a_len a =? 0) || (64 <? a_len a)) &&
  negb (negb (is (a_workload a) "mixed") && is (a_workload a) "alterByte") &&
  negb (100 <? a_percent a) &&
  (is (a_key a) "randint" || is (a_key a) "timestamp" || is (a_key a) "email") &&
  (is (a_query a) "point" || is (a_query a) "range") &&
  (is (a_dist a) "uniform" || is (a_dist a) "zipfian" || is (a_dist a) "latest").

(** workload_multi_thread.cpp:144-147 and the loop bodies in 23-30: the calls
    for all queries *)
Definition all_calls (a : args) (txn : list key) : res (list call) :=
  if is (a_query a) "range" then mapM (fun q => u <- getUpperBoundKey (a_key a) q ;; Ok (CRange q true u true)) txn
  else Ok (map CLookup txn).

(** workload_multi_thread.cpp:165-170: thread [i] makes calls [per * i] to
    [per * (i + 1)] *)
Definition shares (threads per : nat) (cs : list call) : list (list call) :=
  map (fun i => firstn per (skipn (per * i) cs)) (seq 0 threads).

Definition yes_of (a : answer) : nat := match a with ABool true => 1 | _ => 0 end.
Definition sum (l : list nat) : nat := fold_right Nat.add 0 l.

(** filter_bloom.hpp:23-30; nothing is shared *)
Definition bloom_call (d : list N) (cl : call) : res nat :=
  match cl with CLookup q => b <- KeyMayMatch key bloom_hash q d ;; Ok (b2n b) | _ => Ok 0 end.

(** workload_multi_thread.cpp:19-45, 179-196: the positives of each thread, once
    all are through.  NoFuel: the schedule is too short for that. *)
Definition execute (e : env) (flt : filter) (progs : list (list call)) (sched : list nat) : res (list nat) :=
  match flt with
  | FSurf f _ =>
      '(_, ts) <- run_programs e f progs sched ;;
      if forallb (fun '(t, p) => List.length (th_out t) =? List.length p) (combine ts progs)
      then Ok (map (fun t => sum (map yes_of (th_out t))) ts)
      else Fail NoFuel
  | FBloom d => mapM (total (bloom_call d)) progs
  end.

(** workload_multi_thread.cpp:223-230: std::map::upper_bound *)
Definition ht_upper_bound (ins : list key) (q : key) : option key := find (fun k => str_lt q k) ins.
Definition true_above (key_type : key) (ins : list key) (q : key) : res nat :=
  match ht_upper_bound ins q with
  | None => Ok 0
  | Some k => u <- getUpperBoundKey key_type q ;; Ok (b2n (str_lt k u))
  end.

(** workload_multi_thread.cpp:47-254; BadValue: division by zero in line 165 *)
Definition main_multi (e : env) (sz : N) (shuffle : list key -> list key) (a : args) (threads : nat) (load txn : list key) (sched : list nat)
  : res (option report) :=
  if negb (check_multi a) then Ok None
  else
    let ins := selectKeysToInsert shuffle (a_percent a) load in
    txn <- (if is (a_workload a) "alterByte" then mapM (modifyKeyByte (a_pos a)) txn else Ok txn) ;;
    cs <- all_calls a txn ;;
    flt <- createFilter e (a_filter a) (a_len a) ins ;;
    if threads =? 0 then Fail BadValue
    else
      ns <- execute e flt (shares threads (List.length txn / threads) cs) sched ;;
      tp <- (if is (a_query a) "point" then total (true_point ins) txn else total (true_above (a_key a) ins) txn) ;;
      let fp := (Z.of_nat (sum ns) - Z.of_nat tp)%Z in
      massert e (0 <=? fp)%Z ;;;
      Ok (Some (mkReport (sum ns) tp fp (Z.of_nat (List.length txn) - Z.of_nat tp) 0 (memory sz flt))).
