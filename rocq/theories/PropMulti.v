(** The benchmark program with several threads: C43.
    Only property theorems, examples and counterexamples. *)
From Coq Require Import Arith List NArith ZArith Bool String Lia Sorting.Sorted Permutation.
From Verif Require Import Res Word Config Builder Dense Sparse Surf Bloom Murmur Bench Threads Multi Spec SpecApi SpecFilter SpecIter SpecRange SpecFixed
  SpecBench SpecMulti BenchFacts BenchApi MultiFacts Samples SamplesIter SamplesRange SamplesFixed PropBench.
Import ListNotations.
Open Scope nat_scope.

(** * C43 *)
Theorem C43_arguments : forall e sz shuffle a t load txn sched, main_multi e sz shuffle a t load txn sched = Ok None <-> ~ accepted_multi a.
Proof. exact multi_exit. Qed.
Print Assumptions C43_arguments.

(** Point lookups, in any number of threads that all get their turns. *)
Theorem C43_point : forall e sz shuffle a t load txn keys sched,
  machine e -> accepted_multi a -> a_query a = str "point" ->
  Permutation (shuffle load) load -> Forall is_bytes load -> Forall (fun k => k <> []) load -> Forall is_bytes txn ->
  taken (shuffle load) (a_percent a) keys ->
  a_filter a = str "Bloom" \/ (keys <> [] /\ ~ lone_ff keys /\ small keys) ->
  1 <= t -> gives sched t (14 * (List.length txn / t)) ->
  exists flt p tp, createFilter e (a_filter a) (a_len a) keys = Ok flt /\
    tally (fun q => lookup e flt q = Ok true) (firstn (List.length txn / t * t) txn) p /\ tally (fun q => In q keys) txn tp /\
    (List.length txn mod t = 0 -> tp <= p) /\
    main_multi e sz shuffle a t load txn sched = if asserts e && (p <? tp) then Fail AssertFail
      else Ok (Some (mkReport p tp (Z.of_nat p - Z.of_nat tp) (Z.of_nat (List.length txn) - Z.of_nat tp) 0 (memory sz flt))).
Proof. exact multi_point_run. Qed.
Print Assumptions C43_point.

(** Range queries, in one thread or to a Bloom filter. *)
Theorem C43_range : forall e sz shuffle a t load txn keys o flt sched,
  machine e -> accepted_multi a -> a_query a = str "range" -> t = 1 \/ (1 <= t /\ a_filter a = str "Bloom") ->
  Permutation (shuffle load) load -> Forall is_bytes load -> Forall (fun k => k <> []) load ->
  taken (shuffle load) (a_percent a) keys -> names (a_filter a) (a_len a) o ->
  o = None \/ (keys <> [] /\ ~ lone_ff keys /\ (small keys \/ quiet e)) ->
  createFilter e (a_filter a) (a_len a) keys = Ok flt ->
  Forall (proper (a_key a)) (map Range txn) -> gives sched t (14 * (List.length txn / t)) ->
  exists p tp, tally (yes e (a_key a) flt) (firstn (List.length txn / t * t) (map Range txn)) p /\ tally (above (a_key a) keys) txn tp /\
    (t = 1 -> Forall (fair e (a_key a) keys o flt) (map Range txn) -> tp <= p) /\
    main_multi e sz shuffle a t load txn sched = if asserts e && (p <? tp) then Fail AssertFail
      else Ok (Some (mkReport p tp (Z.of_nat p - Z.of_nat tp) (Z.of_nat (List.length txn) - Z.of_nat tp) 0 (memory sz flt))).
Proof. exact multi_range_run. Qed.
Print Assumptions C43_range.

(** Two threads, by turns; the eight queries of C39_point_ex. *)
Definition turns (t n : nat) : list nat := List.concat (repeat (seq 0 t) n).
Example C43_point_ex : let a := args_for "SuRFReal" 8 100 "email" "point" in
  accepted_multi a /\ taken (kept keys1) 100 keys1 /\ ~ lone_ff keys1 /\ small keys1 /\ Forall is_bytes txn1 /\
  gives (turns 2 56) 2 (14 * (List.length txn1 / 2)) /\
  main_multi e0 80 kept a 2 keys1 txn1 (turns 2 56) = Ok (Some (mkReport 7 6 1 2 0 505)).
Proof.
  cbv zeta. split; [apply multi_accepted; reflexivity|]. split; [split; [apply keys1_good|reflexivity]|]. split; [exact keys1_not_ff|]. split; [exact keys1_small|].
  split; [repeat (constructor; [repeat constructor; lia|]); constructor|]. split; [|vm_compute; reflexivity].
  intros i L. apply Nat.leb_le. destruct i as [|[|]]; [reflexivity|reflexivity|lia].
Qed.

Example C43_range_ex : let a := args_for "SuRFReal" 8 100 "email" "range" in exists f, let flt := FSurf f (iter_new f) in
  accepted_multi a /\ names (a_filter a) (a_len a) (Some c_real) /\ createFilter e0 (a_filter a) (a_len a) keys1 = Ok flt /\
  Forall (proper (a_key a)) (map Range [[98; 49]; [120]]) /\ gives (repeat 0 28) 1 (14 * (2 / 1)) /\
  above (a_key a) keys1 [98; 49] /\ Forall (fair e0 (a_key a) keys1 (Some c_real) flt) (map Range [[98; 49]; [120]]) /\
  main_multi e0 80 kept a 1 keys1 [[98; 49]; [120]] (repeat 0 28) = Ok (Some (mkReport 1 1 0 1 0 505)).
Proof.
  cbv zeta.
  assert (U1 : upper (str "email") [98; 49] [98; 177]) by (left; split; [reflexivity|]; exists [98], 49; split; reflexivity).
  assert (U2 : upper (str "email") [120] [248]) by (left; split; [reflexivity|]; exists [], 120; split; reflexivity).
  assert (N2 : ~ right (str "email") keys1 (Range [120])).
  { intros (u & k & U & K1 & K2 & K3). cbn in K1. destruct K2 as [K2|K2];
    repeat (destruct K1 as [<-|K1]; [cbn in K2; (discriminate || lia)|]); destruct K1. }
  destruct (made e0 c_real keys1 1 ltac:(vm_compute; reflexivity)) as (f & E & H). exists f.
  split; [apply multi_accepted; reflexivity|]. split; [right; right; left; split; reflexivity|].
  split; [rewrite (create_named e0 _ _ (Some c_real)); [rewrite E; reflexivity|right; right; left; split; reflexivity]|].
  split. { constructor; [split; [repeat constructor; lia|eauto]|]. constructor; [split; [repeat constructor; lia|eauto]|constructor]. }
  split. { intros i L. apply Nat.leb_le. destruct i; [reflexivity|lia]. }
  split. { exists [98; 177], [98; 50]. split; [exact U1|]. split; [apply inb_in; reflexivity|]. split; apply kltb_ok; reflexivity. }
  split; [|vm_compute; reflexivity]. constructor; [|constructor; [|constructor]].
  - intros _. exists c_real, f, (iter_new f). split; [reflexivity|]. split; [reflexivity|]. rewrite H. split; [apply no_trap_check; reflexivity|].
    intros u U. rewrite (upper_fun _ _ _ _ U U1). apply short_bound_check. cbn; lia.
  - intros X. destruct (N2 X).
Qed.

(** Three queries for stored keys in two threads: the third is not executed but
    counted as a true positive. *)
Theorem C43_remainder_refuted : exists txn sched, Forall (fun q => In q keys1) txn /\ gives sched 2 (14 * (List.length txn / 2)) /\
  main_multi e0 80 kept (args_for "SuRFReal" 8 100 "email" "point") 2 keys1 txn sched = Fail AssertFail.
Proof.
  exists [[97]; [97; 98]; [98; 49]], (turns 2 14). split; [repeat constructor; apply inb_in; reflexivity|]. split; [|vm_compute; reflexivity].
  intros i L. apply Nat.leb_le. destruct i as [|[|]]; [reflexivity|reflexivity|lia].
Qed.
(** Zero threads: division by zero. *)
Theorem C43_no_threads_refuted : exists a, accepted_multi a /\ forall sched, main_multi e0 80 kept a 0 keys1 txn1 sched = Fail BadValue.
Proof. exists (args_for "SuRFReal" 8 100 "email" "point"). split; [apply multi_accepted; reflexivity|]. intros sched. vm_compute. reflexivity. Qed.
(** The only key in the range is its start: the answer "yes" is right but
    reported as a false positive. *)
Theorem C43_start_refuted : exists q, In q keys1 /\ right (str "email") keys1 (Range q) /\
  main_multi e0 80 kept (args_for "SuRFReal" 8 100 "email" "range") 1 keys1 [q] (repeat 0 14) = Ok (Some (mkReport 1 0 1 1 0 505)).
Proof.
  exists [99; 97; 116]. split; [apply inb_in; reflexivity|]. split; [|vm_compute; reflexivity].
  exists [99; 97; 244], [99; 97; 116]. split; [left; split; [reflexivity|]; exists [99; 97], 116; split; reflexivity|].
  split; [apply inb_in; reflexivity|]. split; [right; reflexivity|apply kltb_ok; reflexivity].
Qed.
(** Of the 8 queries of C43_point_ex 7 are positives, and yet 2 are reported as
    true negatives. *)
Theorem C43_negatives_refuted : exists txn sched r,
  main_multi e0 80 kept (args_for "SuRFReal" 8 100 "email" "point") 2 keys1 txn sched = Ok (Some r) /\
  (Z.of_nat (r_positives r) + r_true_negatives r <> Z.of_nat (List.length txn))%Z.
Proof. exists txn1, (turns 2 56), (mkReport 7 6 1 2 0 505). split; [vm_compute; reflexivity|discriminate]. Qed.
(** Two threads with range queries share the iterator of the filter: what is
    reported depends on the schedule, and an assertion may fail. *)
Theorem C43_race_refuted : exists txn s1 s2 r1 r2, let a := args_for "SuRF" 8 100 "email" "range" in let n := 14 * (List.length txn / 2) in
  accepted_multi a /\ gives s1 2 n /\ gives s2 2 n /\
  main_multi e_ndebug 80 kept a 2 keys2 txn s1 = Ok (Some r1) /\ r_positives r1 = 1 /\
  main_multi e_ndebug 80 kept a 2 keys2 txn s2 = Ok (Some r2) /\ r_positives r2 = 0 /\
  main_multi e0 80 kept a 2 keys2 txn s1 = Ok (Some r1) /\ main_multi e0 80 kept a 2 keys2 txn s2 = Fail AssertFail.
Proof.
  exists [[98; 49]; [120]], (repeat 0 14 ++ repeat 1 14), (repeat 0 5 ++ repeat 1 14 ++ repeat 0 14).
  eexists _, _. cbv zeta. split; [apply multi_accepted; reflexivity|].
  split; [intros i L; apply Nat.leb_le; destruct i as [|[|]]; [reflexivity|reflexivity|lia]|].
  split; [intros i L; apply Nat.leb_le; destruct i as [|[|]]; [reflexivity|reflexivity|lia]|].
  split; [vm_compute; reflexivity|]. split; [reflexivity|]. split; [vm_compute; reflexivity|]. split; [reflexivity|]. split; vm_compute; reflexivity.
Qed.
Print Assumptions C43_remainder_refuted.
Print Assumptions C43_no_threads_refuted.
Print Assumptions C43_start_refuted.
Print Assumptions C43_negatives_refuted.
Print Assumptions C43_race_refuted.
