(** The workload generators: C64.
    Only property theorems, examples and counterexamples. *)
From Coq Require Import Arith List NArith ZArith Bool String Lia.
From Verif Require Import Res Config Spec Bench Load SpecLoad LoadFacts Gen SpecGen GenFacts.
Import ListNotations.
Open Scope nat_scope.

(** * C64 *)
(** Both scripts end without writing anything exactly if they do not accept their
    arguments. *)
Theorem C64_exit : forall kt dist log emails stamps m,
  (gen_load kt dist log emails stamps = Done None <-> ~ gen_accepted kt dist) /\
  (gen_txn kt dist log m = Done None <-> ~ gen_accepted kt dist).
Proof. intros. split; [exact (load_exit _ _ _ _ _)|exact (txn_exit _ _ _ _)]. Qed.

(** Every log names some keys; for integers these are the two files. *)
Theorem C64_logged : forall verb ls, exists ks, logged verb ls ks.
Proof. exact logged_total. Qed.
Theorem C64_randint_load : forall dist ls ks, Forall one_line ls -> logged (str "INSERT") ls ks ->
  forall emails stamps, gen_accepted (str "randint") dist ->
  gen_load (str "randint") dist (text ls) emails stamps = Done (Some (text ks, None)).
Proof. exact load_randint. Qed.
Theorem C64_randint_txn : forall dist ls ts, Forall one_line ls -> logged (str "READ") ls ts ->
  forall m, gen_accepted (str "randint") dist -> gen_txn (str "randint") dist (text ls) m = Done (Some (text ts)).
Proof. exact txn_randint. Qed.

(** An address becomes its host, reversed, and its name; no two the same key. *)
Theorem C64_reverse : forall line k, email_key line k -> reverseHostName (line ++ [10]) = k.
Proof. exact reverse_ok. Qed.
Theorem C64_injective : forall l1 l2 k, email_key l1 k -> email_key l2 k -> l1 = l2.
Proof. exact email_injective. Qed.

(** E-mails: both files. *)
Theorem C64_email : forall dist ls ks kv addrs ek stamps, gen_accepted (str "email") dist -> Forall one_line ls -> logged (str "INSERT") ls ks ->
  Forall2 numeral ks kv -> ks <> [] -> Forall2 email_key addrs ek ->
  let gap := N.to_nat (27549660 / N.of_nat (List.length ks)) in (List.length ks - 1) * gap < List.length addrs ->
  exists out m, List.length out = List.length ks /\ every gap ek out /\
    gen_load (str "email") dist (text ls) (text addrs) stamps = Done (Some (text out, Some m)) /\
    forall dist' tls ts tv, gen_accepted (str "email") dist' -> Forall one_line tls -> logged (str "READ") tls ts -> Forall2 numeral ts tv ->
    ((forall v, In v tv -> In v kv) -> exists qs, gen_txn (str "email") dist' (text tls) m = Done (Some (text qs)) /\ Forall2 (stands kv out) tv qs) /\
    (forall v, In v tv -> ~ In v kv -> gen_txn (str "email") dist' (text tls) m = Raise KeyError).
Proof. exact email_workload. Qed.
(** The benchmark then loads only keys made of addresses and queries only such
    keys as it loads. *)
Theorem C64_queries_loaded : forall dist ls ks kv addrs ek stamps, gen_accepted (str "email") dist -> Forall one_line ls -> logged (str "INSERT") ls ks ->
  Forall2 numeral ks kv -> ks <> [] -> Forall2 email_key addrs ek ->
  (List.length ks - 1) * N.to_nat (27549660 / N.of_nat (List.length ks)) < List.length addrs ->
  forall dist' tls ts tv, gen_accepted (str "email") dist' -> Forall one_line tls -> logged (str "READ") tls ts -> Forall2 numeral ts tv ->
  ts <> [] -> (forall v, In v tv -> In v kv) -> (N.of_nat (List.length ks) <= 25000000)%N ->
  exists load m txn, gen_load (str "email") dist (text ls) (text addrs) stamps = Done (Some (load, Some m)) /\
    gen_txn (str "email") dist' (text tls) m = Done (Some txn) /\
    forall s1 s2, exists lk tk, loadKeysFromFile (Some load) false s1 = Ok lk /\ loadKeysFromFile (Some txn) false s2 = Ok tk /\
      (forall k, In k lk -> In k ek) /\ (forall q, In q tk -> In q lk).
Proof. exact queries_loaded. Qed.
(** A list of the expected length is long enough; a shorter one may not be. *)
Theorem C64_email_enough : forall (ks : list bytes) n, ks <> [] -> (27549660 <= N.of_nat n)%N ->
  (List.length ks - 1) * N.to_nat (27549660 / N.of_nat (List.length ks)) < n.
Proof. exact gap_enough. Qed.
Theorem C64_email_short : forall dist ls ks, Forall one_line ls -> logged (str "INSERT") ls ks ->
  forall addrs ek stamps, gen_accepted (str "email") dist -> Forall (fun k => k <> []) ks -> ks <> [] -> Forall2 email_key addrs ek ->
  List.length addrs <= (List.length ks - 1) * N.to_nat (27549660 / N.of_nat (List.length ks)) ->
  gen_load (str "email") dist (text ls) (text addrs) stamps = Raise IndexError.
Proof. exact email_short. Qed.
Theorem C64_email_none : forall dist ls ks, Forall one_line ls -> logged (str "INSERT") ls ks ->
  forall emails stamps, gen_accepted (str "email") dist -> ks = [] ->
  gen_load (str "email") dist (text ls) emails stamps = Raise ZeroDivisionError.
Proof. exact load_email_none. Qed.

(** Timestamps: both files. *)
Theorem C64_timestamp : forall dist ls ks kv emails stamps, gen_accepted (str "timestamp") dist -> Forall one_line ls -> logged (str "INSERT") ls ks ->
  Forall2 numeral ks kv -> Forall word stamps -> List.length ks <= List.length stamps ->
  let out := firstn (List.length ks) stamps in
  exists m, gen_load (str "timestamp") dist (text ls) emails (text stamps) = Done (Some (text out, Some m)) /\
    forall dist' tls ts tv, gen_accepted (str "timestamp") dist' -> Forall one_line tls -> logged (str "READ") tls ts -> Forall2 numeral ts tv ->
    ((forall v, In v tv -> In v kv) -> exists qs, gen_txn (str "timestamp") dist' (text tls) m = Done (Some (text qs)) /\ Forall2 (stands kv out) tv qs) /\
    (forall v, In v tv -> ~ In v kv -> gen_txn (str "timestamp") dist' (text tls) m = Raise KeyError).
Proof. exact timestamp_workload. Qed.
Theorem C64_timestamp_short : forall dist ls ks, Forall one_line ls -> logged (str "INSERT") ls ks ->
  forall emails stamps, gen_accepted (str "timestamp") dist -> Forall (fun k => k <> []) ks -> Forall one_line stamps ->
  List.length stamps < List.length ks -> gen_load (str "timestamp") dist (text ls) emails (text stamps) = Raise IndexError.
Proof. exact load_timestamp_short. Qed.
Print Assumptions C64_exit.
Print Assumptions C64_logged.
Print Assumptions C64_randint_load.
Print Assumptions C64_randint_txn.
Print Assumptions C64_reverse.
Print Assumptions C64_injective.
Print Assumptions C64_email.
Print Assumptions C64_queries_loaded.
Print Assumptions C64_email_enough.
Print Assumptions C64_email_short.
Print Assumptions C64_email_none.
Print Assumptions C64_timestamp.
Print Assumptions C64_timestamp_short.

(** With e-mails or timestamps, a query that is no number ends the script. *)
Theorem C64_numbers : forall dist ls ts, Forall one_line ls -> logged (str "READ") ls ts ->
  forall kt m q, gen_accepted kt dist -> kt <> str "randint" -> gen_txn kt dist (text ls) m = Done q ->
  forall t, In t ts -> word t -> exists v, numeral t v.
Proof. exact txn_numbers. Qed.
Print Assumptions C64_numbers.

(** Two keys inserted, two queries, among other lines; the timestamps 5, 8, 9; the
    address ann@mail.cs.edu. *)
Definition log1 : list bytes := map str ["Loading"; "INSERT usertable user7 [x]"; ""; "INSERT usertable user12 [y]"]%string.
Definition log2 : list bytes := map str ["READ usertable user12 [all]"; "DONE 3 user5"; "READ usertable user7"]%string.
Definition stamps1 : list bytes := map str ["5"; "8"; "9"]%string.
Definition ann : bytes := str "ann@mail.cs.edu".
Definition ann_key : bytes := str "edu.cs.mail.@ann".

Lemma words_cols : forall l, exists ends, words ends (cols l) l.
Proof. intros l. destruct (words_total l) as (ends & ws & W). exists ends. rewrite (cols_words _ _ _ W). exact W. Qed.
Example C64_ex : gen_accepted (str "timestamp") (str "zipfian") /\ gen_accepted (str "email") (str "latest") /\
  ~ gen_accepted (str "int") (str "latest") /\
  Forall one_line log1 /\ Forall one_line log2 /\ logged (str "INSERT") log1 [[55]; [49; 50]] /\ logged (str "READ") log2 [[49; 50]; [55]] /\
  Forall2 numeral [[55]; [49; 50]] [7%Z; 12%Z] /\ Forall2 numeral [[49; 50]; [55]] [12%Z; 7%Z] /\ numeral (str "-12") (-12) /\ numeral (str "+7") 7 /\
  gen_txn (str "timestamp") (str "uniform") (text [str "READ usertable user1x"]) (str "7 5" ++ [10]) = Raise ValueError /\ Forall word stamps1 /\
  email_key ann ann_key /\ (1 - 1) * N.to_nat (27549660 / 1) < 1 /\ reverseHostName (ann ++ [10]) = ann_key /\
  gen_load (str "timestamp") (str "uniform") (text log1) [] (text stamps1) = Done (Some (str "5" ++ 10 :: str "8" ++ [10], Some (str "7 5" ++ 10 :: str "12 8" ++ [10]))) /\
  gen_txn (str "timestamp") (str "uniform") (text log2) (str "7 5" ++ 10 :: str "12 8" ++ [10]) = Done (Some (str "8" ++ 10 :: str "5" ++ [10])).
Proof.
  assert (ONE : forall l, existsb (Nat.eqb 10) l = false -> one_line l).
  { intros l E I. enough (existsb (Nat.eqb 10) l = true) by congruence. apply existsb_exists. exists 10. auto. }
  assert (NM : forall verb line a b c r k, cols line = verb :: a :: b :: r -> k = skipn 4 b -> c = k -> names verb line c).
  { intros verb line a b c r k E -> ->. destruct (words_cols line) as (ends & W). rewrite E in W. exists ends, a, b, r. auto. }
  assert (SI : forall verb line, List.length (cols line) <= 2 \/ hd_error (cols line) <> Some verb -> silent verb line).
  { intros verb line H. destruct (words_cols line) as (ends & W). exists ends, (cols line). auto. }
  assert (D7 : decimal [55] 7) by (apply (decimal_one 7); lia).
  assert (D12 : decimal [49; 50] 12) by (apply (decimal_more [49] 1 2); [apply (decimal_one 1); lia|lia]).
  assert (NS : forall l, existsb isspace l = false -> Forall (fun b => ~ space b) l).
  { intros l E. apply Forall_forall. intros b B P. enough (existsb isspace l = true) by congruence. apply existsb_exists. exists b. split; [exact B|]. apply isspace_ok. exact P. }
  split; [unfold gen_accepted; cbn [map In]; tauto|]. split; [unfold gen_accepted; cbn [map In]; tauto|].
  split; [intros ([X|[X|[X|[]]]] & _); discriminate X|].
  split; [repeat (constructor; [apply ONE; reflexivity|]); constructor|]. split; [repeat (constructor; [apply ONE; reflexivity|]); constructor|].
  split.
  { apply logged_skip; [apply SI; left; vm_compute; lia|]. apply logged_key; [eapply NM; reflexivity|].
    apply logged_skip; [apply SI; left; vm_compute; lia|]. apply logged_key; [eapply NM; reflexivity|]. constructor. }
  split.
  { apply logged_key; [eapply NM; reflexivity|]. apply logged_skip; [apply SI; right; discriminate|]. apply logged_key; [eapply NM; reflexivity|]. constructor. }
  split; [repeat constructor; [exact (numeral_plain _ _ D7)|exact (numeral_plain _ _ D12)]|].
  split; [repeat constructor; [exact (numeral_plain _ _ D12)|exact (numeral_plain _ _ D7)]|].
  split; [exact (numeral_minus _ _ D12)|]. split; [exact (numeral_plus _ _ D7)|]. split; [vm_compute; reflexivity|].
  split; [repeat (constructor; [split; [discriminate|apply NS; reflexivity]|]); constructor|].
  split. { exists (str "ann"), (map str ["mail"; "cs"; "edu"]%string). split; [|reflexivity]. split; [reflexivity|]. split; [intros X; vm_compute in X; lia|]. split; [discriminate|].
           split; [repeat (constructor; [intros X; vm_compute in X; lia|]); constructor|]. apply NS. reflexivity. }
  split; [exact (le_n 1)|]. repeat split; vm_compute; reflexivity.
Qed.

(** The last address of a file that does not end with a newline loses its last
    character; a line without "@" keeps its newline. *)
Theorem C64_last_line_refuted : reverseHostName ann = str "ed.cs.mail.@ann".
Proof. reflexivity. Qed.
Theorem C64_no_at_refuted : reverseHostName (str "ann" ++ [10]) = str ".ann" ++ [10].
Proof. reflexivity. Qed.
Print Assumptions C64_last_line_refuted.
Print Assumptions C64_no_at_refuted.
