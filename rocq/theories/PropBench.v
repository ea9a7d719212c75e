(** The benchmark program: C39, C40, C41, and the hash of the Bloom filter in C36.
    Only property theorems, examples and counterexamples. *)
From Coq Require Import Arith List NArith ZArith Bool String Lia Sorting.Sorted Permutation.
From Verif Require Import Res Word Config Builder Dense Sparse Surf Serialize Bloom Murmur Bench Spec SpecApi SpecFilter SpecIter SpecRange SpecBloom SpecFixed
  SpecBench MurmurFacts BenchFacts BenchApi Samples SamplesIter SamplesRange SamplesCount SamplesFixed.
Import ListNotations.
Open Scope nat_scope.

(** * C36, the hash *)
Theorem C36_hash : forall k seed, exists h1 h2 h3 h4, MurmurHash3_x86_128 k seed = Ok (h1, h2, h3, h4) /\
  (h1 < 2 ^ 32 /\ h2 < 2 ^ 32 /\ h3 < 2 ^ 32 /\ h4 < 2 ^ 32)%N.
Proof. exact mur_total. Qed.
Print Assumptions C36_hash.

(** FilterBloom with this hash *)
Theorem C36_murmur : forall keys, exists d bits, newFilterBloom keys = Ok (FBloom d) /\ bloom_size 10 (List.length keys) bits /\
  (forall sz, 8 * memory sz (FBloom d) = bits + 8)%N /\ (forall k, BloomHash k = Ok (bloom_hash k)) /\
  forall e q, exists r, lookup e (FBloom d) q = Ok r /\ (r = true <-> all_hit bloom_hash bits 6 keys q) /\ (In q keys -> r = true).
Proof. exact bloom_murmur. Qed.
(** Integers are hashed as the 8 bytes of uint64ToString backwards. *)
Theorem C36_integers : forall ws, exists (h : N -> N * N) d, (forall w, BloomHash64 w = Ok (h w) /\ BloomHash (rev (uint64ToString w)) = Ok (h w)) /\
  CreateFilter N h 10 6 ws (List.length ws) [] = Ok d /\ forall w, In w ws -> KeyMayMatch N h w d = Ok true.
Proof. exact bloom_ints. Qed.
Print Assumptions C36_murmur.
Print Assumptions C36_integers.

(** The verification value of SMHasher for this hash function: the keys 0, 1,
    ..., i-1 are hashed with seed 256-i, then all the results with seed 0. *)
Definition smhasher : res N :=
  let out := fun st : mstate => let '(a, b, c, d) := st in le_bytes 4 a ++ le_bytes 4 b ++ le_bytes 4 c ++ le_bytes 4 d in
  l <- mapM (fun i => st <- MurmurHash3_x86_128 (seq 0 i) (256 - N.of_nat i) ;; Ok (out st)) (seq 0 256) ;;
  '(h, _, _, _) <- MurmurHash3_x86_128 (List.concat l) 0 ;; Ok h.
Example C36_smhasher : smhasher = Ok 0xB3ECE62A%N.
Proof. vm_compute. reflexivity. Qed.
Example C36_murmur_ex : (f <- newFilterBloom keys1 ;; a <- lookup e0 f [98; 49] ;; b <- lookup e0 f [98; 48] ;; Ok (a, b)) = Ok (true, false).
Proof. vm_compute. reflexivity. Qed.

(** * C39 *)
Theorem C39_selection : forall shuffle p keys, Permutation (shuffle keys) keys ->
  taken (shuffle keys) p (selectKeysToInsert shuffle p keys) /\
  (p <= 100 -> List.length (selectKeysToInsert shuffle p keys) = List.length keys * p / 100) /\
  forall k, In k (selectKeysToInsert shuffle p keys) -> In k keys.
Proof. exact selection. Qed.
Print Assumptions C39_selection.

Example C39_selection_ex : Permutation (rev keys1) keys1 /\ selectKeysToInsert (@rev key) 60 keys1 = [[98; 50]; [98; 50]; [99; 97; 116]].
Proof. split; [symmetry; apply Permutation_rev|reflexivity]. Qed.

Theorem C39_point : forall e sz shuffle a load txn keys,
  machine e -> check_args a = true -> a_query a = str "point" -> (a_filter a = str "SuRFMixed" -> a_len a <= 32) ->
  Permutation (shuffle load) load -> Forall is_bytes load -> Forall (fun k => k <> []) load -> Forall is_bytes txn ->
  taken (shuffle load) (a_percent a) keys ->
  a_filter a = str "Bloom" \/ (keys <> [] /\ ~ lone_ff keys /\ small keys) ->
  exists flt r fp tn, createFilter e (a_filter a) (a_len a) keys = Ok flt /\ main e sz shuffle a load txn = Ok (Some r) /\
    (forall q, In q keys -> lookup e flt q = Ok true) /\
    tally (fun q => In q keys) txn (r_true_positives r) /\
    tally (fun q => lookup e flt q = Ok true) txn (r_positives r) /\
    tally (fun q => lookup e flt q = Ok true /\ ~ In q keys) txn fp /\ r_false_positives r = Z.of_nat fp /\
    tally (fun q => ~ lookup e flt q = Ok true) txn tn /\ r_true_negatives r = Z.of_nat tn /\
    r_count r = 0 /\ r_memory r = memory sz flt.
Proof. exact point_run. Qed.
Print Assumptions C39_point.

Definition args_for (name : string) (len percent : nat) (kt query : string) : args :=
  mkArgs (str name) len (str "mixed") percent 0 (str kt) (str query) (str "uniform").
Definition kept (l : list key) : list key := l.

(** Keys "a", "ab", "b1", "b2" (twice), "cat", queries for all of them, "b11" and "x". *)
Definition txn1 : list bytes := keys1 ++ [[98; 49; 49]; [120]].
Example C39_point_ex : let a := args_for "SuRFReal" 8 100 "email" "point" in
  check_args a = true /\ Permutation (kept keys1) keys1 /\ Forall is_bytes keys1 /\ Forall (fun k => k <> []) keys1 /\ Forall is_bytes txn1 /\
  taken (kept keys1) 100 keys1 /\ keys1 <> [] /\ ~ lone_ff keys1 /\ small keys1 /\
  main e0 80 kept a keys1 txn1 = Ok (Some (mkReport 7 6 1 1 0 505)).
Proof.
  cbv zeta. split; [reflexivity|]. split; [reflexivity|]. split; [apply keys1_good|]. split; [apply keys1_good|].
  split; [repeat (constructor; [repeat constructor; lia|]); constructor|]. split; [split; [apply keys1_good|reflexivity]|].
  split; [discriminate|]. split; [exact keys1_not_ff|]. split; [exact keys1_small|vm_compute; reflexivity].
Qed.

(** The only key starts with byte 255: the assertion on the false positives fails. *)
Theorem C39_lone_ff_refuted : exists load txn, good_keys load /\ Forall is_bytes txn /\
  main e0 80 kept (args_for "SuRF" 8 100 "email" "point") load txn = Fail AssertFail.
Proof. exists keys_ff, [[255; 1]]. split; [exact keys_ff_good|]. split; [repeat constructor|vm_compute; reflexivity]. Qed.
(** SuRFMixed with suffix length 40, which the argument check accepts. *)
Theorem C39_mixed_refuted : exists a, check_args a = true /\ a_len a = 40 /\ main e0 80 kept a keys1 keys1 = Fail AssertFail.
Proof. exists (args_for "SuRFMixed" 40 100 "email" "point"). split; [reflexivity|]. split; [reflexivity|vm_compute; reflexivity]. Qed.
(** 0 percent, which the argument check accepts. *)
Theorem C39_zero_percent_refuted : exists a, check_args a = true /\ a_percent a = 0 /\ main e0 80 kept a keys1 [] = Fail AssertFail.
Proof. exists (args_for "SuRFReal" 8 0 "email" "point"). split; [reflexivity|]. split; [reflexivity|vm_compute; reflexivity]. Qed.
Print Assumptions C39_lone_ff_refuted.
Print Assumptions C39_mixed_refuted.
Print Assumptions C39_zero_percent_refuted.

(** * C40 *)
Theorem C40_upper : forall kt q u, is_bytes q -> (kt = str "email" \/ List.length q = 8) ->
  (getUpperBoundKey kt q = Ok u <-> upper kt q u).
Proof. exact upper_made. Qed.
Print Assumptions C40_upper.

Example C40_upper_ex : upper (str "email") [98; 49] [98; 177] /\ upper (str "email") [98; 200] [98; 72] /\
  upper (str "randint") (uint64ToString 5) (uint64ToString 92233697316).
Proof.
  split; [left; split; [reflexivity|]; exists [98], 49; split; reflexivity|]. split; [left; split; [reflexivity|]; exists [98], 200; split; reflexivity|].
  right. split; [discriminate|]. exists 5%N. repeat split; reflexivity.
Qed.

Theorem C40_run : forall e sz shuffle a load txn keys o flt qs,
  machine e -> check_args a = true -> (a_filter a = str "SuRFMixed" -> a_len a <= 32) ->
  Permutation (shuffle load) load -> Forall is_bytes load -> Forall (fun k => k <> []) load ->
  taken (shuffle load) (a_percent a) keys -> names (a_filter a) (a_len a) o ->
  o = None \/ (keys <> [] /\ ~ lone_ff keys /\ (small keys \/ quiet e)) ->
  createFilter e (a_filter a) (a_len a) keys = Ok flt ->
  queries (a_query a) txn qs -> Forall (proper (a_key a)) qs -> Forall (fair e (a_key a) keys o flt) qs ->
  exists r fp tn, main e sz shuffle a load txn = Ok (Some r) /\
    tally (right (a_key a) keys) qs (r_true_positives r) /\
    tally (yes e (a_key a) flt) qs (r_positives r) /\
    tally (fun x => yes e (a_key a) flt x /\ ~ right (a_key a) keys x) qs fp /\ r_false_positives r = Z.of_nat fp /\
    tally (fun x => ~ yes e (a_key a) flt x) qs tn /\ r_true_negatives r = Z.of_nat tn /\
    r_count r = 0 /\ r_memory r = memory sz flt /\
    forall x, In x qs -> right (a_key a) keys x -> yes e (a_key a) flt x.
Proof. exact run_sound. Qed.
Print Assumptions C40_run.

(** Whatever the range queries are, the run ends with a report or at the
    assertion that there are no less positives than true positives. *)
Theorem C40_outcome : forall e sz shuffle a load txn keys o flt qs,
  machine e -> check_args a = true -> (a_filter a = str "SuRFMixed" -> a_len a <= 32) ->
  Permutation (shuffle load) load -> Forall is_bytes load -> Forall (fun k => k <> []) load ->
  taken (shuffle load) (a_percent a) keys -> names (a_filter a) (a_len a) o ->
  o = None \/ (keys <> [] /\ ~ lone_ff keys /\ (small keys \/ quiet e)) ->
  createFilter e (a_filter a) (a_len a) keys = Ok flt ->
  queries (a_query a) txn qs -> Forall (proper (a_key a)) qs ->
  exists p tp, tally (yes e (a_key a) flt) qs p /\ tally (right (a_key a) keys) qs tp /\
    (asserts e = true -> p < tp -> main e sz shuffle a load txn = Fail AssertFail) /\
    (asserts e = false \/ tp <= p -> exists r, main e sz shuffle a load txn = Ok (Some r) /\ r_positives r = p /\ r_true_positives r = tp).
Proof. exact run_outcome. Qed.
Print Assumptions C40_outcome.

(** "mix" on keys "a", "ab", "b1", "b2", "cat": is "ab" there, is there a key
    in ["b1", "b\177"), is "b11" there, is there a key in ["x", "\248")? *)
Definition txn2 : list bytes := [[97; 98]; [98; 49]; [98; 49; 49]; [120]].
Example C40_run_ex : let a := args_for "SuRFReal" 8 100 "email" "mix" in exists f, let flt := FSurf f (iter_new f) in
  check_args a = true /\ taken (kept keys1) 100 keys1 /\ names (a_filter a) (a_len a) (Some c_real) /\
  createFilter e0 (a_filter a) (a_len a) keys1 = Ok flt /\
  queries (a_query a) txn2 [Point [97; 98]; Range [98; 49]; Point [98; 49; 49]; Range [120]] /\
  Forall (proper (a_key a)) [Point [97; 98]; Range [98; 49]; Point [98; 49; 49]; Range [120]] /\
  right (a_key a) keys1 (Range [98; 49]) /\ ~ right (a_key a) keys1 (Range [120]) /\
  Forall (fair e0 (a_key a) keys1 (Some c_real) flt) [Point [97; 98]; Range [98; 49]; Point [98; 49; 49]; Range [120]] /\
  main e0 80 kept a keys1 txn2 = Ok (Some (mkReport 3 2 1 1 0 505)).
Proof.
  cbv zeta.
  assert (U1 : upper (str "email") [98; 49] [98; 177]) by (left; split; [reflexivity|]; exists [98], 49; split; reflexivity).
  assert (U2 : upper (str "email") [120] [248]) by (left; split; [reflexivity|]; exists [], 120; split; reflexivity).
  assert (N2 : ~ right (str "email") keys1 (Range [120])).
  { intros (u & k & U & K1 & K2 & K3). cbn in K1. destruct K2 as [K2|K2];
    repeat (destruct K1 as [<-|K1]; [cbn in K2; (discriminate || lia)|]); destruct K1. }
  destruct (made e0 c_real keys1 1 ltac:(vm_compute; reflexivity)) as (f & E & H). exists f.
  split; [reflexivity|]. split; [split; [apply keys1_good|reflexivity]|]. split; [right; right; left; split; reflexivity|].
  split; [rewrite (create_named e0 _ _ (Some c_real)); [rewrite E; reflexivity|right; right; left; split; reflexivity]|].
  split; [right; right; split; reflexivity|].
  split. { constructor; [repeat constructor; lia|]. constructor; [split; [repeat constructor; lia|eauto]|]. constructor; [repeat constructor; lia|].
    constructor; [split; [repeat constructor; lia|eauto]|constructor]. }
  split. { exists [98; 177], [98; 49]. split; [exact U1|]. split; [apply inb_in; reflexivity|]. split; [right; reflexivity|]. apply kltb_ok; reflexivity. }
  split; [exact N2|]. split; [|vm_compute; reflexivity].
  constructor; [exact I|]. constructor; [|constructor; [exact I|constructor; [|constructor]]].
  - intros _. exists c_real, f, (iter_new f). split; [reflexivity|]. split; [reflexivity|]. rewrite H. split; [apply no_trap_check; reflexivity|].
    intros u U. rewrite (upper_fun _ _ _ _ U U1). apply short_bound_check. cbn; lia.
  - intros X. destruct (N2 X).
Qed.

Theorem C40_integer_range : forall e sz shuffle a ld tx sh ks f it,
  machine e -> check_args a = true -> a_query a = str "range" -> a_key a <> str "email" ->
  a_filter a <> str "Bloom" -> (a_filter a = str "SuRFMixed" -> a_len a <= 32) ->
  Forall (fun w => (w < 2 ^ 64)%N) ld -> Forall (fun w => (w < 2 ^ 64)%N) tx ->
  shuffle (int_keys ld) = int_keys sh -> Permutation sh ld -> StronglySorted N.le ks ->
  Permutation ks (firstn (List.length sh * a_percent a / 100) sh) ->
  ks <> [] -> ~ lone_big ks -> small (int_keys ks) \/ quiet e ->
  createFilter e (a_filter a) (a_len a) (int_keys ks) = Ok (FSurf f it) ->
  let in_range w := exists v, In v ks /\ (w <= v < (w + 92233697311) mod 2 ^ 64)%N in
  let said_yes w := Surf.lookupRange e f (uint64ToString w) true (uint64ToString ((w + 92233697311) mod 2 ^ 64)) true = Ok true in
  (forall w, In w tx -> in_range w -> ~ at_last_node (int_keys ks) (getSparseStartLevel f) (uint64ToString w)) ->
  exists r fp, main e sz shuffle a (int_keys ld) (int_keys tx) = Ok (Some r) /\
    tally in_range tx (r_true_positives r) /\ tally said_yes tx (r_positives r) /\
    tally (fun w => said_yes w /\ ~ in_range w) tx fp /\ r_false_positives r = Z.of_nat fp.
Proof. exact int_range_run. Qed.
Print Assumptions C40_integer_range.

(** The integers 5, 300, 70000, 70001, 2^40; the queries 6 and 800000. *)
Example C40_integer_range_ex : let a := args_for "SuRFReal" 8 100 "randint" "range" in exists f,
  check_args a = true /\ good_ints ints1 /\ ~ lone_big ints1 /\ small (int_keys ints1) /\ kept (int_keys ints1) = int_keys ints1 /\
  createFilter e0 (a_filter a) (a_len a) (int_keys ints1) = Ok (FSurf f (iter_new f)) /\
  ~ at_last_node (int_keys ints1) (getSparseStartLevel f) (uint64ToString 6) /\
  main e0 80 kept a (int_keys ints1) (int_keys [6; 800000; 2000000000000]%N) = Ok (Some (mkReport 1 1 0 2 0 505)).
Proof.
  cbv zeta. destruct (made e0 c_real (int_keys ints1) 1 ltac:(vm_compute; reflexivity)) as (f & E & H). exists f.
  split; [reflexivity|]. split; [exact ints1_good|]. split; [exact ints1_lone|].
  split; [apply PointFacts.small_len; [apply good_keysb_ok; reflexivity|vm_compute; discriminate]|]. split; [reflexivity|].
  split; [rewrite (create_named e0 _ _ (Some c_real)); [rewrite E; reflexivity|right; right; left; split; reflexivity]|].
  split; [|vm_compute; reflexivity]. rewrite H.
  intros X. apply (no_trap_check e0 c_real (int_keys ints1) 1 (uint64ToString 6)); [vm_compute; reflexivity|]. right; right; left; exact X.
Qed.

(** The keys 2, 4, ..., 200 and the query 199: 200 is in its range. *)
Definition evens : list N := map (fun i => (2 * N.of_nat i)%N) (seq 1 100).
Theorem C40_last_node_refuted : exists w v, In v evens /\ (w <= v < w + 92233697311)%N /\
  main e0 80 kept (args_for "SuRFReal" 8 100 "randint" "range") (int_keys evens) (int_keys [w]) = Fail AssertFail.
Proof. exists 199%N, 200%N. split; [apply in_map_iff; exists 100; split; [reflexivity|apply in_seq; lia]|]. split; [lia|vm_compute; reflexivity]. Qed.
(** A Bloom filter answers no range query. *)
Theorem C40_bloom_refuted : exists w, In w evens /\
  main e0 80 kept (args_for "Bloom" 8 100 "randint" "range") (int_keys evens) (int_keys [w]) = Fail AssertFail.
Proof. exists 200%N. split; [apply in_map_iff; exists 100; split; [reflexivity|apply in_seq; lia]|vm_compute; reflexivity]. Qed.
(** The range of "b\200" wraps: its upper end is below it, and no key is in it. *)
Theorem C40_wrap_refuted : exists load q, good_keys load /\ In q load /\ ~ right (str "email") load (Range q) /\
  main e0 80 kept (args_for "SuRFReal" 8 100 "email" "range") load [q] = Ok (Some (mkReport 0 0 0 1 0 477)).
Proof.
  exists [[97]; [98; 200]], [98; 200]. split; [apply good_keysb_ok; reflexivity|]. split; [right; left; reflexivity|]. split; [|vm_compute; reflexivity].
  assert (U2 : upper (str "email") [98; 200] [98; 72]) by (left; split; [reflexivity|]; exists [98], 200; split; reflexivity).
  intros (u & k & U & K1 & K2 & K3). rewrite (upper_fun _ _ _ _ U U2) in K3. destruct K1 as [<-|[<-|[]]]; cbn in K3, K2; [|lia].
  destruct K2 as [K2|K2]; [cbn in K2; lia|discriminate].
Qed.
Print Assumptions C40_last_node_refuted.
Print Assumptions C40_bloom_refuted.
Print Assumptions C40_wrap_refuted.

(** * C41 *)
Theorem C41_arguments : forall e sz shuffle a load txn, main e sz shuffle a load txn = Ok None <-> ~ accepted a.
Proof. exact args_exit. Qed.
(** Workload type, byte position and distribution have no effect (the distribution chooses the file). *)
Theorem C41_ignored : forall e sz shuffle a a' load txn, accepted a -> accepted a' ->
  a_filter a' = a_filter a -> a_len a' = a_len a -> a_percent a' = a_percent a -> a_key a' = a_key a -> a_query a' = a_query a ->
  main e sz shuffle a' load txn = main e sz shuffle a load txn.
Proof. exact workload_ignored. Qed.
Theorem C41_arf : forall e sz shuffle len w p pos k q d load txn,
  main e sz shuffle (mkArgs (str "ARF") len w p pos k q d) load txn = main e sz shuffle (mkArgs (str "SuRFReal") len w p pos k q d) load txn.
Proof. exact arf_is_real. Qed.
Theorem C41_count : forall e sz shuffle a load txn keys flt r,
  Permutation (shuffle load) load -> taken (shuffle load) (a_percent a) keys ->
  a_query a = str "count-long" \/ a_query a = str "count-short" ->
  a_key a = str "email" \/ (forall q, In q txn -> List.length q = 8) -> Forall is_bytes txn ->
  createFilter e (a_filter a) (a_len a) keys = Ok flt -> main e sz shuffle a load txn = Ok (Some r) ->
  exists ps, intervals (a_query a) (a_key a) txn ps /\ tally (SpecBench.counted e flt) ps (r_count r) /\
    r_positives r = 0 /\ r_true_positives r = 0 /\ r_false_positives r = 0%Z /\ r_true_negatives r = Z.of_nat (List.length txn).
Proof. exact count_run. Qed.
(** What alterByte would do: the byte at the given position from the end, or
    the first byte of a shorter key, becomes '+'. *)
Theorem C41_modify : forall pos k k', modifyKeyByte pos k = Ok k' <->
  exists l b r, k = l ++ b :: r /\ k' = l ++ 43 :: r /\ (List.length r = pos \/ (List.length k <= pos /\ l = [])).
Proof. exact modify_byte. Qed.
Print Assumptions C41_arguments.
Print Assumptions C41_ignored.
Print Assumptions C41_arf.
Print Assumptions C41_count.
Print Assumptions C41_modify.

Example C41_modify_ex : modifyKeyByte 1 [97; 98; 99] = Ok [97; 43; 99] /\ modifyKeyByte 3 [97; 98; 99] = Ok [43; 98; 99].
Proof. split; reflexivity. Qed.
Example C41_arguments_ex : accepted (args_for "SuRFReal" 8 100 "email" "count-long") /\ ~ accepted (args_for "SuRFReal" 65 100 "email" "point").
Proof.
  split; [apply check_accepted; reflexivity|]. intros X. apply check_accepted in X. discriminate.
Qed.

(** Keys "a", "ab", "b1", "b2", "b3", "cat", "dxa", "dxb".  Between "a" and "c"
    there are four keys, but two of the three intervals are not empty, which
    gives a count of 2. *)
Example C41_count_ex : let a := args_for "SuRFReal" 8 100 "email" "count-long" in let txn := [[97]; [99]; [98]; [97; 98]] in
  taken (kept keys_c) 100 keys_c /\ Forall is_bytes txn /\
  SamplesCount.counted e0 c_real keys_c [97] [99] = Ok 4%N /\
  main e0 80 kept a keys_c txn = Ok (Some (mkReport 0 0 0 4 2 509)).
Proof.
  cbv zeta. split; [split; [apply keys_c_good|reflexivity]|]. split; [repeat (constructor; [repeat constructor; lia|]); constructor|].
  split; vm_compute; reflexivity.
Qed.

(** The usage text offers alterByte; it ends the program.  An unknown workload
    type is accepted. *)
Theorem C41_alter_byte_refuted : exists a a', a_workload a = str "alterByte" /\ ~ accepted a /\ a_workload a' = str "x" /\ accepted a' /\
  a_filter a' = a_filter a /\ a_len a' = a_len a /\ a_percent a' = a_percent a /\ a_key a' = a_key a /\ a_query a' = a_query a /\ a_dist a' = a_dist a.
Proof.
  exists (mkArgs (str "SuRF") 8 (str "alterByte") 50 1 (str "email") (str "point") (str "uniform")),
    (mkArgs (str "SuRF") 8 (str "x") 50 1 (str "email") (str "point") (str "uniform")).
  split; [reflexivity|]. split; [intros X; apply check_accepted in X; discriminate|]. split; [reflexivity|]. split; [apply check_accepted; reflexivity|].
  repeat split; reflexivity.
Qed.
Print Assumptions C41_alter_byte_refuted.
(** "count-short" on integers reads past the end of an array. *)
Theorem C41_count_refuted : exists ws, good_ints ws /\
  main e0 80 kept (args_for "SuRFReal" 8 100 "randint" "count-short") (int_keys ws) (int_keys ws) = Fail OutOfBounds.
Proof. exists ints1. split; [exact ints1_good|vm_compute; reflexivity]. Qed.
Print Assumptions C41_count_refuted.
