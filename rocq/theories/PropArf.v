(** workload_arf: C62.
    Only property theorems, examples and counterexamples. *)
From Coq Require Import Arith List NArith ZArith Bool String Lia Sorting.Sorted Permutation.
From Verif Require Import Res Config Spec Bench SpecBench Load SpecLoad Arf SpecArf ArfFacts.
Import ListNotations.
Open Scope nat_scope.

(** * C62 *)
(** The integers a file is read as; the limit is respected. *)
Theorem C62_load : forall f x vs limit, numbers x f vs -> loadUints (Some f) limit x = Ok (firstn (N.to_nat limit) vs).
Proof. exact uints_file. Qed.
Theorem C62_load_missing : forall limit x, loadUints None limit x = Ok [].
Proof. exact uints_none. Qed.

(** The program ends with -1 exactly if it does not accept its arguments. *)
Theorem C62_exit : forall db state perfect handle trained input txn_size training shuffle percent query dist lf tf s1 s2,
  arf_main db state perfect handle trained input txn_size training shuffle percent query dist lf tf s1 s2 = Ok None <->
  ~ arf_accepted percent query dist.
Proof. exact arf_exit. Qed.

(** Without a file of keys, without a file of queries, or with too few queries it
    reads beyond the end of a vector. *)
Theorem C62_no_load : forall db state perfect handle trained input txn_size training shuffle percent query dist tf s1 s2,
  arf_accepted percent query dist ->
  arf_main db state perfect handle trained input txn_size training shuffle percent query dist None tf s1 s2 = Fail OutOfBounds.
Proof. exact arf_no_load. Qed.
Theorem C62_no_txn : forall db state perfect handle trained input txn_size training shuffle percent query dist,
  arf_accepted percent query dist -> (0 < input)%N -> (training <= txn_size)%N -> forall lf s1 s2, (0 < txn_size)%N ->
  arf_main db state perfect handle trained input txn_size training shuffle percent query dist (Some lf) None s1 s2 = Fail OutOfBounds.
Proof. exact arf_no_txn. Qed.
Theorem C62_short : forall db state perfect handle trained input txn_size training shuffle percent query dist,
  arf_accepted percent query dist -> (0 < input)%N -> (training <= txn_size)%N -> forall lf tf s1 s2 lv tv,
  numbers s1 lf lv -> numbers s2 tf tv -> List.length tv < N.to_nat txn_size ->
  arf_main db state perfect handle trained input txn_size training shuffle percent query dist (Some lf) (Some tf) s1 s2 = Fail OutOfBounds.
Proof. exact arf_short. Qed.

(** What it reports otherwise: the answers after the training, the queries with
    and without a key in range.  If the filter has no false negatives, the false
    positives are what they are called. *)
Theorem C62_report : forall db state perfect handle trained input txn_size training shuffle percent query dist,
  arf_accepted percent query dist -> (0 < input)%N -> (training <= txn_size)%N -> forall lf tf s1 s2 lv tv,
  honest db -> (forall l, Permutation (shuffle l) l) ->
  numbers s1 lf lv -> numbers s2 tf tv -> N.to_nat txn_size <= List.length tv ->
  exists ordered keys qs r, let T := N.to_nat training in
    let bs := answers state handle (trained (train state handle (db keys) (perfect keys) (firstn T qs))) (skipn T qs) in
    StronglySorted N.le ordered /\ Permutation ordered (firstn (N.to_nat input) lv) /\ picked (shuffle ordered) percent keys /\
    Forall2 (asks query) (firstn (N.to_nat txn_size) tv) qs /\
    arf_main db state perfect handle trained input txn_size training shuffle percent query dist (Some lf) (Some tf) s1 s2 = Ok (Some r) /\
    tally (fun b => b = true) bs (ar_positives r) /\
    tally (hit keys) (skipn T qs) (ar_true_positives r) /\ tally (fun q => ~ hit keys q) (skipn T qs) (ar_true_negatives r) /\
    ar_false_positives r = (Z.of_nat (ar_positives r) - Z.of_nat (ar_true_positives r))%Z /\
    ((ar_false_positives r < 0)%Z -> ar_rate r = None) /\
    ((0 <= ar_false_positives r)%Z -> ar_rate r = Some (ar_false_positives r, Z.of_nat (ar_true_negatives r) + ar_false_positives r)%Z) /\
    (Forall2 (fun q b => hit keys q -> b = true) (skipn T qs) bs ->
       exists n, tally (fun qb => snd qb = true /\ ~ hit keys (fst qb)) (combine (skipn T qs) bs) n /\ ar_false_positives r = Z.of_nat n).
Proof. exact arf_reports. Qed.
(** The same with the sizes of the program. *)
Theorem C62_program : forall db state perfect handle trained shuffle percent query dist lf tf s1 s2 lv tv,
  arf_accepted percent query dist -> numbers s1 lf lv -> numbers s2 tf tv ->
  ((N.of_nat (List.length tv) < 10000000)%N ->
     workload_arf db state perfect handle trained shuffle percent query dist (Some lf) (Some tf) s1 s2 = Fail OutOfBounds) /\
  ((10000000 <= N.of_nat (List.length tv))%N -> honest db -> (forall l, Permutation (shuffle l) l) ->
     exists ordered keys trials qs r,
       let bs := answers state handle (trained (train state handle (db keys) (perfect keys) trials)) qs in
       StronglySorted N.le ordered /\ Permutation ordered (firstn (N.to_nat 10000000) lv) /\ picked (shuffle ordered) percent keys /\
       Forall2 (asks query) (firstn (N.to_nat 10000000) tv) (trials ++ qs) /\
       N.of_nat (List.length trials) = 2000000%N /\ N.of_nat (List.length qs) = 8000000%N /\
       workload_arf db state perfect handle trained shuffle percent query dist (Some lf) (Some tf) s1 s2 = Ok (Some r) /\
       tally (fun b => b = true) bs (ar_positives r) /\ tally (hit keys) qs (ar_true_positives r) /\
       tally (fun q => ~ hit keys q) qs (ar_true_negatives r) /\
       N.of_nat (ar_true_positives r + ar_true_negatives r) = 8000000%N).
Proof. exact arf_program. Qed.
Print Assumptions C62_load.
Print Assumptions C62_load_missing.
Print Assumptions C62_exit.
Print Assumptions C62_no_load.
Print Assumptions C62_no_txn.
Print Assumptions C62_short.
Print Assumptions C62_report.
Print Assumptions C62_program.

(** Keys 5 and 9, queries 9, 5, 7, 4; a database that looks at every key; a filter
    that always answers "yes" and counts the queries it is trained with. *)
Definition db1 (keys : list N) (l r : N) : bool := existsb (fun v => (l <=? v)%N && (v <=? r)%N) keys.
Definition handle1 (st : nat) (l r : N) (truth training : bool) : nat * bool := (if training && truth then S st else st, true).
Definition load1 : list nat := str "9 5".
Definition txn1 : list nat := str "9 5 7 4".
Definition run1 := arf_main db1 nat (fun _ => 0) handle1 (fun st => st) 10 4 1 (@rev N) 100.

Example C62_ex : honest db1 /\ (forall l : list N, Permutation (rev l) l) /\
  numbers 0 load1 [9%N; 5%N] /\ numbers 0 txn1 [9%N; 5%N; 7%N; 4%N] /\
  arf_accepted 100 (str "point") (str "uniform") /\ ~ arf_accepted 101 (str "point") (str "uniform") /\
  run1 (str "point") (str "uniform") (Some load1) (Some txn1) 0%N 0%N = Ok (Some (mkArfReport 3 1 2 2 (Some (2, 4))%Z)) /\
  run1 (str "range") (str "latest") (Some load1) (Some txn1) 0%N 0%N = Ok (Some (mkArfReport 3 3 0 0 (Some (0, 0))%Z)) /\
  run1 (str "point") (str "uniform") (Some load1) (Some (str "9 5 7")) 0%N 0%N = Fail OutOfBounds /\
  run1 (str "mix") (str "uniform") (Some load1) (Some txn1) 0%N 0%N = Ok None.
Proof.
  assert (D : forall x, x <= 9 -> decimal [48 + x] (N.of_nat x)) by exact decimal_one.
  assert (SP : space 32) by (unfold space; cbn [In]; tauto). assert (ND : ~ digit 32) by (unfold digit; lia).
  split; [|split; [intros l; symmetry; apply Permutation_rev|]].
  { intros keys l r. unfold db1, hit. rewrite existsb_exists. cbn [fst snd]. setoid_rewrite andb_true_iff. setoid_rewrite N.leb_le. reflexivity. }
  split; [|split; [|split; [|split; [|repeat split; vm_compute; reflexivity]]]].
  - apply (numbers_more 0 [] [] (fun n => n) [57] 9 32 [53]); [constructor|constructor|apply (D 9); lia|reflexivity|exact ND|].
    apply (numbers_last 0 [32] [] (fun n => n) [53] 5); [constructor; [exact SP|constructor]|constructor|apply (D 5); lia|reflexivity].
  - apply (numbers_more 0 [] [] (fun n => n) [57] 9 32 [53; 32; 55; 32; 52]); [constructor|constructor|apply (D 9); lia|reflexivity|exact ND|].
    apply (numbers_more 0 [32] [] (fun n => n) [53] 5 32 [55; 32; 52]); [constructor; [exact SP|constructor]|constructor|apply (D 5); lia|reflexivity|exact ND|].
    apply (numbers_more 0 [32] [] (fun n => n) [55] 7 32 [52]); [constructor; [exact SP|constructor]|constructor|apply (D 7); lia|reflexivity|exact ND|].
    apply (numbers_last 0 [32] [] (fun n => n) [52] 4); [constructor; [exact SP|constructor]|constructor|apply (D 4); lia|reflexivity].
  - unfold arf_accepted. cbn [In map]. split; [lia|]. tauto.
  - intros (X & _). lia.
Qed.

(** There are files with any number of integers. *)
Example C62_program_ex : forall n, exists f, numbers 0 (32 :: f) (repeat 5%N (S n)).
Proof.
  assert (SP : Forall space [32]) by (constructor; [unfold space; cbn [In]; tauto|constructor]). assert (ND : ~ digit 32) by (unfold digit; lia).
  induction n as [|n (f & IH)].
  - exists [53]. apply (numbers_last 0 [32] [] (fun n => n) [53] 5); [exact SP|constructor|apply (decimal_one 5); lia|reflexivity].
  - exists (53 :: 32 :: f). apply (numbers_more 0 [32] [] (fun n => n) [53] 5 32 f); [exact SP|constructor|apply (decimal_one 5); lia|reflexivity|exact ND|exact IH].
Qed.

(** The rate is not the share of false positives among the queries without a key:
    those are counted again in the divisor.  A filter that answers "yes" to every
    one of two such queries is reported with 2 / 4. *)
Theorem C62_rate_refuted : exists r, run1 (str "point") (str "uniform") (Some load1) (Some txn1) 0%N 0%N = Ok (Some r) /\
  ar_true_negatives r = 2 /\ ar_false_positives r = 2%Z /\ ar_rate r = Some (2, 4)%Z.
Proof. eexists. vm_compute. repeat split. Qed.
(** An upper end that wraps leaves a range without keys. *)
Theorem C62_wrap_refuted : exists lf tf r, run1 (str "range") (str "uniform") (Some lf) (Some tf) 0%N 0%N = Ok (Some r) /\
  tf = str "1 18446744073709551610 18446744073709551610 18446744073709551610" /\ lf = str "18446744073709551614" /\
  ar_true_positives r = 0 /\ ar_true_negatives r = 3.
Proof. exists (str "18446744073709551614"), (str "1 18446744073709551610 18446744073709551610 18446744073709551610"). eexists. vm_compute. repeat split. Qed.
Print Assumptions C62_rate_refuted.
Print Assumptions C62_wrap_refuted.
