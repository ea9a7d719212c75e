(** Key files of the benchmark: C42.
    Only property theorems, examples and counterexamples. *)
From Coq Require Import Arith List NArith ZArith Bool String Lia Permutation.
From Verif Require Import Res Config Builder Surf Spec SpecApi SpecFilter SpecFixed Bench SpecBench BenchApi Load SpecLoad LoadFacts
  Samples SamplesFixed.
Import ListNotations.
Open Scope nat_scope.

(** * C42 *)
(** Every file is a sequence of words. *)
Theorem C42_words : forall f, exists ends ws, words ends ws f.
Proof. exact words_total. Qed.
(** If the file does not end with a word, the last word is read twice. *)
Theorem C42_emails : forall f ends ws stale, words ends ws f ->
  loadKeysFromFile (Some f) false stale = Ok (firstn max_emails (ws ++ if ends then [] else [last ws []])).
Proof. exact load_emails. Qed.
(** If it does not end with a number, a variable that was never set is taken
    for the last key. *)
Theorem C42_integers : forall f ends ws vs stale, words ends ws f -> Forall2 (fun w v => decimal w v /\ (v < 2 ^ 64)%N) ws vs ->
  loadKeysFromFile (Some f) true stale = Ok (int_keys (firstn max_ints (vs ++ if ends then [] else [stale]))).
Proof. exact load_integers. Qed.
(** Any file: numbers with or without a sign, until something that is no number
    (key 0), a number that is too large (key 2^64-1), or the end. *)
Theorem C42_numbers : forall x f, exists vs, numbers x f vs.
Proof. exact numbers_total. Qed.
Theorem C42_any_integers : forall f x vs, numbers x f vs -> loadKeysFromFile (Some f) true x = Ok (int_keys (firstn max_ints vs)).
Proof. exact load_numbers. Qed.
Theorem C42_missing : forall b stale, loadKeysFromFile None b stale = Ok [].
Proof. exact no_file. Qed.
Print Assumptions C42_words.
Print Assumptions C42_emails.
Print Assumptions C42_integers.
Print Assumptions C42_numbers.
Print Assumptions C42_any_integers.
Print Assumptions C42_missing.

(** From the files to the report *)
Theorem C42_email_run : forall e sz shuffle a lf tf s1 s2 e1 e2 lw tw, accepted a -> a_key a = str "email" ->
  words e1 lw lf -> words e2 tw tf ->
  workload e sz shuffle a (Some lf) (Some tf) s1 s2 =
  main e sz shuffle a (firstn max_emails (lw ++ if e1 then [] else [last lw []])) (firstn max_emails (tw ++ if e2 then [] else [last tw []])).
Proof. exact workload_emails. Qed.
Theorem C42_integer_run : forall e sz shuffle a lf tf s1 s2 lv tv, accepted a -> a_key a <> str "email" -> numbers s1 lf lv -> numbers s2 tf tv ->
  workload e sz shuffle a (Some lf) (Some tf) s1 s2 = main e sz shuffle a (int_keys (firstn max_ints lv)) (int_keys (firstn max_ints tv)).
Proof. exact workload_ints. Qed.
Theorem C42_email_report : forall e sz shuffle a lf tf s1 s2 e1 e2 lw tw keys,
  machine e -> accepted a -> a_query a = str "point" -> a_key a = str "email" -> (a_filter a = str "SuRFMixed" -> a_len a <= 32) ->
  is_bytes lf -> is_bytes tf -> words e1 lw lf -> words e2 tw tf -> lw <> [] ->
  let load := firstn max_emails (lw ++ if e1 then [] else [last lw []]) in
  let txn := firstn max_emails (tw ++ if e2 then [] else [last tw []]) in
  Permutation (shuffle load) load -> taken (shuffle load) (a_percent a) keys ->
  a_filter a = str "Bloom" \/ (keys <> [] /\ ~ lone_ff keys /\ small keys) ->
  exists flt r, createFilter e (a_filter a) (a_len a) keys = Ok flt /\
    workload e sz shuffle a (Some lf) (Some tf) s1 s2 = Ok (Some r) /\
    tally (fun q => In q keys) txn (r_true_positives r) /\
    tally (fun q => lookup e flt q = Ok true) txn (r_positives r).
Proof. exact email_report. Qed.
Theorem C42_integer_report : forall e sz shuffle a lf tf s1 s2 lv tv keys,
  machine e -> accepted a -> a_query a = str "point" -> a_key a <> str "email" -> (a_filter a = str "SuRFMixed" -> a_len a <= 32) ->
  numbers s1 lf lv -> numbers s2 tf tv ->
  let load := int_keys (firstn max_ints lv) in
  let txn := int_keys (firstn max_ints tv) in
  Permutation (shuffle load) load -> taken (shuffle load) (a_percent a) keys ->
  a_filter a = str "Bloom" \/ (keys <> [] /\ ~ lone_ff keys /\ small keys) ->
  exists flt r, createFilter e (a_filter a) (a_len a) keys = Ok flt /\
    workload e sz shuffle a (Some lf) (Some tf) s1 s2 = Ok (Some r) /\
    tally (fun q => In q keys) txn (r_true_positives r) /\
    tally (fun q => lookup e flt q = Ok true) txn (r_positives r).
Proof. exact int_report. Qed.
Print Assumptions C42_email_run.
Print Assumptions C42_integer_run.
Print Assumptions C42_email_report.
Print Assumptions C42_integer_report.

(** "a ab\nb1" and "5 0300\n" *)
Example C42_emails_ex : words true [[97]; [97; 98]; [98; 49]] [97; 32; 97; 98; 10; 98; 49] /\
  loadKeysFromFile (Some [97; 32; 97; 98; 10; 98; 49]) false 0 = Ok [[97]; [97; 98]; [98; 49]].
Proof.
  split; [|vm_compute; reflexivity].
  assert (S : forall b, isspace b = true -> space b) by (intros b; apply isspace_ok).
  assert (W : forall w, w <> [] -> forallb (fun b => negb (isspace b)) w = true -> word w).
  { intros w A B. split; [exact A|]. apply Forall_forall. intros x X Y. rewrite forallb_forall in B. apply B in X. apply isspace_ok in Y. rewrite Y in X. discriminate. }
  apply (words_more [] [97] 32 [97; 98; 10; 98; 49]); [constructor|apply W; [discriminate|reflexivity]|apply S; reflexivity|].
  apply (words_more [32] [97; 98] 10 [98; 49]); [constructor; [apply S; reflexivity|constructor]|apply W; [discriminate|reflexivity]|apply S; reflexivity|].
  apply (words_last [10] [98; 49]); [constructor; [apply S; reflexivity|constructor]|apply W; [discriminate|reflexivity]].
Qed.
Example C42_integers_ex : decimal [48; 51; 48; 48] 300 /\
  loadKeysFromFile (Some [53; 32; 48; 51; 48; 48; 10]) true 77 = Ok (int_keys [5; 300; 77]%N) /\
  loadKeysFromFile (Some [53; 32; 120; 32; 54]) true 77 = Ok (int_keys [5; 0]%N).
Proof.
  split; [|split; vm_compute; reflexivity].
  apply (decimal_more [48; 51; 48] 30 0); [|lia]. apply (decimal_more [48; 51] 3 0); [|lia]. apply (decimal_more [48] 0 3); [|lia]. apply (decimal_one 0). lia.
Qed.

(** "5 -3\n+x" *)
Example C42_numbers_ex : numbers 77 [53; 32; 45; 51; 10; 43; 120] [5; 2 ^ 64 - 3; 0]%N /\
  loadKeysFromFile (Some [53; 32; 45; 51; 10; 43; 120]) true 77 = Ok (int_keys [5; 2 ^ 64 - 3; 0]%N).
Proof.
  split; [|vm_compute; reflexivity]. assert (S : forall b, isspace b = true -> space b) by (intros b; apply isspace_ok).
  apply (numbers_more 77 [] [] (fun n => n) [53] 5 32 [45; 51; 10; 43; 120]); [constructor|constructor|apply (decimal_one 5); lia|reflexivity|unfold digit; lia|].
  apply (numbers_more 77 [32] [45] (fun n => ((2 ^ 64 - n) mod 2 ^ 64)%N) [51] 3 10 [43; 120]);
    [constructor; [apply S; reflexivity|constructor]|constructor|apply (decimal_one 3); lia|reflexivity|unfold digit; lia|].
  apply (numbers_lone_sign 77 [10] [43] (fun n => n) [120]); [constructor; [apply S; reflexivity|constructor]|constructor|discriminate|cbn [no_digit]; unfold digit; lia].
Qed.

(** Files that end with a newline: the query "x" is counted twice. *)
Theorem C42_last_twice_refuted : exists lf tf, words false [[97]; [98]] lf /\ words false [[120]] tf /\
  workload e0 80 (fun l => l) (mkArgs (str "SuRFReal") 8 (str "mixed") 100 0 (str "email") (str "point") (str "uniform"))
    (Some lf) (Some tf) 0 0 = Ok (Some (mkReport 0 0 0 2 0 477)).
Proof.
  exists [97; 10; 98; 10], [120; 10].
  assert (S : forall b, isspace b = true -> space b) by (intros b; apply isspace_ok).
  assert (W : forall b, isspace b = false -> word [b]).
  { intros b A. split; [discriminate|]. constructor; [|constructor]. intros Y. apply isspace_ok in Y. congruence. }
  split; [|split; [|vm_compute; reflexivity]].
  - apply (words_more [] [97] 10 [98; 10]); [constructor|apply W; reflexivity|apply S; reflexivity|].
    apply (words_more [10] [98] 10 []); [constructor; [apply S; reflexivity|constructor]|apply W; reflexivity|apply S; reflexivity|].
    apply words_none. constructor; [apply S; reflexivity|constructor].
  - apply (words_more [] [120] 10 []); [constructor|apply W; reflexivity|apply S; reflexivity|]. apply words_none. constructor; [apply S; reflexivity|constructor].
Qed.
(** An empty load file is one empty key, which fails an assertion in the builder. *)
Theorem C42_empty_refuted : words false [] [] /\ loadKeysFromFile (Some []) false 0 = Ok [[]] /\
  workload e0 80 (fun l => l) (mkArgs (str "SuRFReal") 8 (str "mixed") 100 0 (str "email") (str "point") (str "uniform"))
    (Some []) (Some [97]) 0 0 = Fail AssertFail.
Proof. split; [constructor; constructor|]. split; vm_compute; reflexivity. Qed.
(** Which integer is loaded after a last newline depends on what the variable held. *)
Theorem C42_stale_refuted : exists f, loadKeysFromFile (Some f) true 6 <> loadKeysFromFile (Some f) true 7.
Proof. exists [53; 10]. vm_compute. discriminate. Qed.
Print Assumptions C42_last_twice_refuted.
Print Assumptions C42_empty_refuted.
Print Assumptions C42_stale_refuted.
