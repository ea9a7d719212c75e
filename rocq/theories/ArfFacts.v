(** What workload_arf reports. *)
From Coq Require Import Arith List NArith ZArith Bool String Lia Sorting.Sorted Permutation.
From Verif Require Import Res Word Config Spec Bench SpecBench BenchFacts Load SpecLoad LoadFacts Arf SpecArf.
Import ListNotations.
Open Scope nat_scope.

(** ** Reading *)
Lemma uints_dead : forall fuel m c l k, load_uints (S fuel) m c (mkStream l false) k = Ok [].
Proof. intros. cbn [load_uints st_good]. rewrite andb_false_r. reflexivity. Qed.
Lemma uints_full : forall fuel m c s k, (m <= c)%N -> load_uints (S fuel) m c s k = Ok [].
Proof. intros. cbn [load_uints]. destruct (N.ltb_spec c m); [lia|reflexivity]. Qed.
Lemma uints_step : forall fuel m c l k, (c < m)%N -> load_uints (S fuel) m c (mkStream l true) k =
  (let '(s, v) := read_uint64 (mkStream l true) k in l <- load_uints fuel m (c + 1) s k ;; Ok (v :: l)).
Proof. intros. cbn [load_uints st_good]. destruct (N.ltb_spec c m); [reflexivity|lia]. Qed.
Lemma uints_ok : forall x f vs, numbers x f vs -> forall m fuel c, List.length f + 2 <= fuel ->
  load_uints fuel m c (mkStream f true) x = Ok (firstn (N.to_nat (m - c)) vs).
Proof.
  intros x f vs H m. induction H; intros fuel c L; (destruct fuel as [|fuel]; [lia|]);
    (destruct (N.lt_ge_cases c m) as [C|C]; [|rewrite uints_full, limit_stop by assumption; reflexivity]);
    rewrite uints_step by assumption.
  - rewrite readi_spaces by assumption. destruct fuel as [|fuel]; [lia|]. rewrite uints_dead. cbn [bind]. rewrite <- limit_step, firstn_nil by assumption. reflexivity.
  - pose proof (readi_signed s g h w n [] x H H0 H1 I) as R. rewrite app_nil_r in R. rewrite R. destruct fuel as [|fuel]; [lia|].
    destruct (N.leb_spec two64 n) as [B2|B2]; [change two64 with (2 ^ 64)%N in B2; lia|].
    cbn [at_end negb]. rewrite uints_dead. cbn [bind]. rewrite <- limit_step, firstn_nil by assumption. reflexivity.
  - rewrite (readi_signed s g h w n (b :: f) x H H0 H1 H3).
    destruct (N.leb_spec two64 n) as [B2|B2]; [change two64 with (2 ^ 64)%N in B2; lia|].
    cbn [at_end negb]. rewrite IHnumbers.
    2: { rewrite !app_length in L. destruct (decimal_digits _ _ H1) as (_ & D & _). destruct w; [congruence|]. cbn [List.length] in *. lia. }
    cbn [bind]. rewrite limit_step by assumption. reflexivity.
  - rewrite (readi_signed s g h w n f x H H0 H1 H3). destruct fuel as [|fuel]; [lia|].
    destruct (N.leb_spec two64 n) as [B2|B2]; [|change two64 with (2 ^ 64)%N in B2; lia].
    rewrite uints_dead. cbn [bind]. rewrite <- limit_step, firstn_nil by assumption. reflexivity.
  - rewrite (readi_lone s g h f x) by assumption. destruct fuel as [|fuel]; [lia|]. rewrite uints_dead. cbn [bind]. rewrite <- limit_step, firstn_nil by assumption. reflexivity.
  - rewrite readi_junk by assumption. destruct fuel as [|fuel]; [lia|]. rewrite uints_dead. cbn [bind]. rewrite <- limit_step, firstn_nil by assumption. reflexivity.
Qed.
Lemma uints_file : forall f x vs m, numbers x f vs -> loadUints (Some f) m x = Ok (firstn (N.to_nat m) vs).
Proof. intros f x vs m H. unfold loadUints. cbn [st_rest]. rewrite (uints_ok _ _ _ H) by lia. rewrite N.sub_0_r. reflexivity. Qed.
Lemma uints_none : forall m x, loadUints None m x = Ok [].
Proof. intros m x. apply uints_dead. Qed.
Lemma numbers_some : forall x f vs, numbers x f vs -> vs <> [].
Proof. intros x f vs H. destruct H; discriminate. Qed.

(** ** Sorting *)
Lemma insertN_perm : forall k l, Permutation (insertN k l) (k :: l).
Proof.
  induction l as [|x l IH]; cbn [insertN]; [constructor; constructor|]. destruct (x <? k)%N; [|reflexivity].
  rewrite IH. constructor.
Qed.
Lemma sortN_perm : forall l, Permutation (sortN l) l.
Proof. induction l as [|k l IH]; cbn; [constructor|]. rewrite insertN_perm. constructor. exact IH. Qed.
Lemma insertN_sorted : forall k l, StronglySorted N.le l -> StronglySorted N.le (insertN k l).
Proof.
  induction l as [|x l IH]; cbn [insertN]; intros H; [repeat constructor|]. inversion H as [|? ? H1 H2]; subst.
  destruct (N.ltb_spec x k) as [E|E].
  - constructor; [apply IH; exact H1|]. eapply Permutation_Forall; [symmetry; apply insertN_perm|].
    constructor; [lia|exact H2].
  - constructor; [exact H|]. constructor; [exact E|]. eapply Forall_impl; [|exact H2]. cbn beta. intros y Hy. lia.
Qed.
Lemma sortN_sorted : forall l, StronglySorted N.le (sortN l).
Proof. induction l as [|k l IH]; [constructor|]. apply insertN_sorted. exact IH. Qed.
Lemma select_picked : forall shuffle percent l, (forall l, Permutation (shuffle l) l) ->
  picked (shuffle l) percent (selectIntKeysToInsert shuffle percent l).
Proof.
  intros shuffle percent l P. unfold picked, selectIntKeysToInsert. split; [apply sortN_sorted|].
  rewrite (Permutation_length (P l)). apply sortN_perm.
Qed.

(** ** Loops over indices *)
Lemma vget_some : forall A (l : list A) i x, nth_error l i = Some x -> vget l i = Ok x.
Proof. intros A l i x H. unfold vget. rewrite H. reflexivity. Qed.
Lemma vget_none : forall A (l : list A) i, List.length l <= i -> vget l i = Fail OutOfBounds.
Proof. intros A l i H. unfold vget. rewrite (proj2 (nth_error_None l i)) by exact H. reflexivity. Qed.
Lemma cut_step : forall A (l : list A) s n x, nth_error l s = Some x -> firstn (S n) (skipn s l) = x :: firstn n (skipn (S s) l).
Proof.
  induction l as [|y l IH]; intros [|s] n x H; cbn [nth_error] in H; try discriminate.
  - injection H as ->. reflexivity.
  - cbn [skipn]. rewrite (IH s n x H). reflexivity.
Qed.
Lemma loop_ok : forall A B (g : B -> A -> B) (f : B -> nat -> res B) (l : list A),
  (forall b i x, nth_error l i = Some x -> f b i = Ok (g b x)) -> forall n s b, s + n <= List.length l ->
  foldM f (seq s n) b = Ok (fold_left g (firstn n (skipn s l)) b).
Proof.
  intros A B g f l F. induction n as [|n IH]; intros s b L; [reflexivity|]. cbn [seq foldM].
  destruct (nth_error l s) as [x|] eqn:E; [|apply nth_error_None in E; lia].
  rewrite (F _ _ _ E). cbn [bind]. rewrite IH by lia. rewrite (cut_step _ _ _ n _ E). reflexivity.
Qed.
Lemma loop_short : forall A B (g : B -> A -> B) (f : B -> nat -> res B) (l : list A),
  (forall b i x, nth_error l i = Some x -> f b i = Ok (g b x)) -> (forall b i, List.length l <= i -> f b i = Fail OutOfBounds) ->
  forall n s b, 0 < n -> List.length l < s + n -> foldM f (seq s n) b = Fail OutOfBounds.
Proof.
  intros A B g f l F G. induction n as [|n IH]; intros s b P L; [lia|]. cbn [seq foldM].
  destruct (nth_error l s) as [x|] eqn:E.
  - rewrite (F _ _ _ E). cbn [bind]. apply IH; [|lia]. assert (s < List.length l) by (apply nth_error_Some; congruence). lia.
  - apply nth_error_None in E. rewrite (G _ _ E). reflexivity.
Qed.

Section Run.
Variables (db : list N -> N -> N -> bool) (state : Type) (perfect : list N -> state)
  (handle : state -> N -> N -> bool -> bool -> state * bool) (trained : state -> state).

Let gtrain ins (st : state) (q : N * N) : state := fst (handle st (fst q) (snd q) (db ins (fst q) (snd q)) true).
Let gask (c : state * nat) (q : N * N) : state * nat := let (st, b) := handle (fst c) (fst q) (snd q) true false in (st, snd c + b2n b).
Let gtruth ins (c : nat * nat) (q : N * N) : nat * nat := if db ins (fst q) (snd q) then (S (fst c), snd c) else (fst c, S (snd c)).

Lemma train_fold : forall ins qs st, fold_left (gtrain ins) qs st = train state handle (db ins) st qs.
Proof. induction qs as [|[l r] qs IH]; intros st; cbn [fold_left train]; [reflexivity|]. apply IH. Qed.
Lemma ask_fold : forall qs st p, exists n, tally (fun b => b = true) (answers state handle st qs) n /\ snd (fold_left gask qs (st, p)) = p + n.
Proof.
  induction qs as [|[l r] qs IH]; intros st p; cbn [fold_left answers].
  - exists 0. split; [constructor|cbn; lia].
  - unfold gask at 2. cbn [fst snd]. destruct (handle st l r true false) as [st' b]. destruct (IH st' (p + b2n b)) as (n & T & E).
    exists (b2n b + n). rewrite E. split; [|lia]. destruct b; cbn [b2n Nat.add]; [apply tally_yes; auto|apply tally_no; auto].
Qed.
Lemma truth_fold : forall ins qs, honest db -> forall t n, exists t' n', tally (hit ins) qs t' /\ tally (fun q => ~ hit ins q) qs n' /\
  fold_left (gtruth ins) qs (t, n) = (t + t', n + n').
Proof.
  intros ins qs H. induction qs as [|[l r] qs IH]; intros t n; cbn [fold_left].
  - exists 0, 0. repeat split; try constructor. f_equal; lia.
  - unfold gtruth at 2. cbn [fst snd]. destruct (db ins l r) eqn:E.
    + destruct (IH (S t) n) as (t' & n' & T & U & ->). apply H in E. exists (S t'), n'. repeat split.
      * apply tally_yes; assumption.
      * apply tally_no; [tauto|assumption].
      * f_equal; lia.
    + destruct (IH t (S n)) as (t' & n' & T & U & ->). assert (NH : ~ hit ins (l, r)) by (intros X; apply H in X; congruence).
      exists t', (S n'). repeat split.
      * apply tally_no; assumption.
      * apply tally_yes; assumption.
      * f_equal; lia.
Qed.

Lemma train_some : forall ins qs b i x, nth_error qs i = Some x -> arf_train db state handle ins qs b i = Ok (gtrain ins b x).
Proof. intros ins qs b i [l r] E. unfold arf_train. rewrite (vget_some _ _ _ _ E). reflexivity. Qed.
Lemma train_none : forall ins qs b i, List.length qs <= i -> arf_train db state handle ins qs b i = Fail OutOfBounds.
Proof. intros ins qs b i E. unfold arf_train. rewrite (vget_none _ _ _ E). reflexivity. Qed.
Lemma ask_some : forall qs b i x, nth_error qs i = Some x -> arf_ask state handle qs b i = Ok (gask b x).
Proof.
  intros qs [st p] i [l r] E. unfold arf_ask. rewrite (vget_some _ _ _ _ E). cbn [bind]. unfold gask. cbn [fst snd].
  destruct (handle st l r true false). reflexivity.
Qed.
Lemma ask_none : forall qs b i, List.length qs <= i -> arf_ask state handle qs b i = Fail OutOfBounds.
Proof. intros qs [st p] i E. unfold arf_ask. rewrite (vget_none _ _ _ E). reflexivity. Qed.
Lemma truth_some : forall ins qs b i x, nth_error qs i = Some x -> arf_truth db ins qs b i = Ok (gtruth ins b x).
Proof. intros ins qs [t n] i [l r] E. unfold arf_truth. rewrite (vget_some _ _ _ _ E). reflexivity. Qed.

Lemma bounds_asks : forall query, In query (map str ["point"; "range"]%string) -> forall txn, Forall2 (asks query) txn (arf_bounds query txn).
Proof.
  intros query Q txn. unfold arf_bounds. destruct (is query "range") eqn:E.
  - apply is_ok in E. induction txn as [|w txn IH]; cbn [map]; constructor; [|exact IH]. right. split; [exact E|].
    unfold wrap64. change two64 with (2 ^ 64)%N. cbv zeta. rewrite N.add_mod_idemp_l by discriminate. reflexivity.
  - destruct Q as [Q|[Q|[]]]; [|subst; rewrite is_self in E; discriminate].
    induction txn as [|w txn IH]; cbn [map]; constructor; [|exact IH]. left. split; [congruence|reflexivity].
Qed.
Lemma bounds_len : forall query txn, List.length (arf_bounds query txn) = List.length txn.
Proof. intros query txn. unfold arf_bounds. destruct (is query "range"); apply map_length. Qed.

Lemma args_accepted : forall percent query dist, arf_args percent query dist = true <-> arf_accepted percent query dist.
Proof.
  intros percent query dist. unfold arf_args, arf_accepted. rewrite !andb_true_iff, !orb_true_iff, negb_true_iff, !is_ok, Nat.ltb_ge. cbn [In map].
  assert (Y : forall x y : key, x = y <-> y = x) by (intros; split; congruence). rewrite !(Y (str _)). tauto.
Qed.

Variables (input txn_size training : N) (shuffle : list N -> list N) (percent : nat) (query dist : key).
Let run := arf_main db state perfect handle trained input txn_size training shuffle percent query dist.

Lemma arf_exit : forall lf tf s1 s2, run lf tf s1 s2 = Ok None <-> ~ arf_accepted percent query dist.
Proof.
  intros lf tf s1 s2. rewrite <- args_accepted. unfold run, arf_main. destruct (arf_args percent query dist); cbn [negb]; [|split; [congruence|reflexivity]].
  split; [|congruence]. intros X _. revert X.
  assert (G : forall T (x : res T) (k : T -> res (option arf_report)), (forall t, k t <> Ok None) -> bind x k <> Ok None) by (intros T [t|] k H; cbn [bind]; auto; discriminate).
  repeat (apply G; intros ?). destruct t5 as [st p]. apply G. intros [a b]. discriminate.
Qed.

Lemma arf_no_load : forall tf s1 s2, arf_accepted percent query dist -> run None tf s1 s2 = Fail OutOfBounds.
Proof. intros tf s1 s2 A. apply args_accepted in A. unfold run, arf_main. rewrite A, uints_none. reflexivity. Qed.

Hypothesis (HA : arf_accepted percent query dist) (HI : (0 < input)%N) (HT : (training <= txn_size)%N).

Lemma load_ends : forall l, l <> [] -> exists a b, (i <- pred_idx (List.length (sortN l)) ;; vget (sortN l) i) = Ok a /\ vget (sortN l) 0 = Ok b.
Proof.
  intros l H. pose proof (Permutation_length (sortN_perm l)) as P. destruct (sortN l) as [|x t] eqn:E.
  { destruct l; [congruence|discriminate]. }
  cbn [List.length pred_idx bind]. destruct (nth_error (x :: t) (List.length t)) as [y|] eqn:Y.
  - exists y, x. split; [apply vget_some; exact Y|reflexivity].
  - apply nth_error_None in Y. cbn [List.length] in Y. lia.
Qed.
Lemma firstn_some : forall x f vs, numbers x f vs -> firstn (N.to_nat input) vs <> [].
Proof. intros x f vs H X. apply numbers_some in H. destruct vs; [congruence|]. destruct (N.to_nat input) eqn:E; [lia|discriminate]. Qed.

(** Everything up to the loops *)
Lemma run_head : forall lf tf s1 s2 lv txn, numbers s1 lf lv -> loadUints tf txn_size s2 = Ok txn ->
  run (Some lf) tf s1 s2 =
    (let ins := selectIntKeysToInsert shuffle percent (sortN (firstn (N.to_nat input) lv)) in
     let qs := arf_bounds query txn in
     st <- foldM (arf_train db state handle ins qs) (seq 0 (N.to_nat training)) (perfect ins) ;;
     let rest := seq (N.to_nat training) (N.to_nat txn_size - N.to_nat training) in
     '(_, positives) <- foldM (arf_ask state handle qs) rest (trained st, 0) ;;
     '(tps, tns) <- foldM (arf_truth db ins qs) rest (0, 0) ;;
     let fps := (Z.of_nat positives - Z.of_nat tps)%Z in
     let rate := if (0 <=? fps)%Z then Some (fps, Z.of_nat tns + fps)%Z else None in
     Ok (Some (mkArfReport positives tps tns fps rate))).
Proof.
  intros lf tf s1 s2 lv txn H1 H2. unfold run, arf_main. rewrite (proj2 (args_accepted _ _ _) HA). cbn [negb].
  rewrite (uints_file _ _ _ input H1). cbn [bind]. destruct (load_ends _ (firstn_some _ _ _ H1)) as (a & b & E1 & E2).
  destruct (pred_idx (List.length (sortN (firstn (N.to_nat input) lv)))) as [i|]; [|discriminate E1]. cbn [bind] in E1 |- *.
  rewrite E1, E2. cbn [bind]. rewrite H2. reflexivity.
Qed.

Lemma arf_short_gen : forall lf tf s1 s2 lv txn, numbers s1 lf lv -> loadUints tf txn_size s2 = Ok txn -> List.length txn < N.to_nat txn_size ->
  run (Some lf) tf s1 s2 = Fail OutOfBounds.
Proof.
  intros lf tf s1 s2 lv txn H1 H2 L. rewrite (run_head _ _ _ _ _ _ H1 H2). cbv zeta.
  set (ins := selectIntKeysToInsert _ _ _). set (qs := arf_bounds query txn).
  assert (LQ : List.length qs = List.length txn) by apply bounds_len.
  destruct (le_lt_dec (N.to_nat training) (List.length txn)) as [C|C].
  - rewrite (loop_ok _ _ (gtrain ins) _ qs (train_some ins qs)) by lia. cbn [bind].
    rewrite (loop_short _ _ gask _ qs (ask_some qs) (ask_none qs)) by lia. reflexivity.
  - rewrite (loop_short _ _ (gtrain ins) _ qs (train_some ins qs) (train_none ins qs)) by lia. reflexivity.
Qed.
Lemma arf_short : forall lf tf s1 s2 lv tv, numbers s1 lf lv -> numbers s2 tf tv -> List.length tv < N.to_nat txn_size ->
  run (Some lf) (Some tf) s1 s2 = Fail OutOfBounds.
Proof.
  intros lf tf s1 s2 lv tv H1 H2 L. apply (arf_short_gen _ _ _ _ _ _ H1 (uints_file _ _ _ txn_size H2)). rewrite firstn_length. lia.
Qed.
Lemma arf_no_txn : forall lf s1 s2, (0 < txn_size)%N -> run (Some lf) None s1 s2 = Fail OutOfBounds.
Proof.
  intros lf s1 s2 P. destruct (numbers_total s1 lf) as (lv & H). apply (arf_short_gen _ _ _ _ _ _ H (uints_none _ _)). cbn [List.length]. lia.
Qed.

Lemma answers_len : forall qs st, List.length (answers state handle st qs) = List.length qs.
Proof. induction qs as [|[l r] qs IH]; intros st; cbn [answers]; [reflexivity|]. destruct (handle st l r true false). cbn [List.length]. rewrite IH. reflexivity. Qed.
Lemma tally_fst : forall A B (P : A -> Prop) (l : list A) (m : list B) n, List.length l = List.length m -> tally P l n -> tally (fun p => P (fst p)) (combine l m) n.
Proof.
  induction l as [|x l IH]; intros [|y m] n E H; cbn [List.length] in E; try discriminate; cbn [combine]; inversion H; subst;
    [constructor|apply tally_yes|apply tally_no]; auto.
Qed.
Lemma tally_snd : forall A B (P : B -> Prop) (l : list A) (m : list B) n, List.length l = List.length m -> tally P m n -> tally (fun p => P (snd p)) (combine l m) n.
Proof.
  induction l as [|x l IH]; intros [|y m] n E H; cbn [List.length] in E; try discriminate; cbn [combine]; inversion H; subst;
    [constructor|apply tally_yes|apply tally_no]; auto.
Qed.
Lemma pairs_in : forall A B (R : A -> B -> Prop) l m, Forall2 R l m -> forall p, In p (combine l m) -> R (fst p) (snd p).
Proof. intros A B R l m F. induction F as [|x y l m H F IH]; intros p I; [destruct I|]. destruct I as [<-|I]; auto. Qed.

Lemma arf_reports : forall lf tf s1 s2 lv tv, honest db -> (forall l, Permutation (shuffle l) l) ->
  numbers s1 lf lv -> numbers s2 tf tv -> N.to_nat txn_size <= List.length tv ->
  exists ordered keys qs r, let T := N.to_nat training in
    let bs := answers state handle (trained (train state handle (db keys) (perfect keys) (firstn T qs))) (skipn T qs) in
    StronglySorted N.le ordered /\ Permutation ordered (firstn (N.to_nat input) lv) /\ picked (shuffle ordered) percent keys /\
    Forall2 (asks query) (firstn (N.to_nat txn_size) tv) qs /\
    run (Some lf) (Some tf) s1 s2 = Ok (Some r) /\
    tally (fun b => b = true) bs (ar_positives r) /\
    tally (hit keys) (skipn T qs) (ar_true_positives r) /\ tally (fun q => ~ hit keys q) (skipn T qs) (ar_true_negatives r) /\
    ar_false_positives r = (Z.of_nat (ar_positives r) - Z.of_nat (ar_true_positives r))%Z /\
    ((ar_false_positives r < 0)%Z -> ar_rate r = None) /\
    ((0 <= ar_false_positives r)%Z -> ar_rate r = Some (ar_false_positives r, Z.of_nat (ar_true_negatives r) + ar_false_positives r)%Z) /\
    (Forall2 (fun q b => hit keys q -> b = true) (skipn T qs) bs ->
       exists n, tally (fun qb => snd qb = true /\ ~ hit keys (fst qb)) (combine (skipn T qs) bs) n /\ ar_false_positives r = Z.of_nat n).
Proof.
  intros lf tf s1 s2 lv tv HD HS H1 H2 L.
  set (ordered := sortN (firstn (N.to_nat input) lv)). set (keys := selectIntKeysToInsert shuffle percent ordered).
  set (txn := firstn (N.to_nat txn_size) tv). set (qs := arf_bounds query txn).
  assert (LQ : List.length qs = N.to_nat txn_size) by (unfold qs; rewrite bounds_len; unfold txn; rewrite firstn_length; lia).
  assert (REST : firstn (N.to_nat txn_size - N.to_nat training) (skipn (N.to_nat training) qs) = skipn (N.to_nat training) qs)
    by (apply firstn_all2; rewrite skipn_length; lia).
  pose proof (run_head _ _ _ _ _ _ H1 (uints_file _ _ _ txn_size H2)) as R. cbv zeta in R. fold ordered keys txn qs in R.
  rewrite (loop_ok _ _ (gtrain keys) _ qs (train_some keys qs)) in R by lia. cbn [bind] in R.
  rewrite (loop_ok _ _ gask _ qs (ask_some qs)) in R by lia. cbn [bind] in R.
  rewrite (loop_ok _ _ (gtruth keys) _ qs (truth_some keys qs)) in R by lia. rewrite REST in R. cbn [skipn] in R. rewrite train_fold in R.
  set (st := trained (train state handle (db keys) (perfect keys) (firstn (N.to_nat training) qs))) in *.
  destruct (ask_fold (skipn (N.to_nat training) qs) st 0) as (p & TP & EP). destruct (truth_fold keys (skipn (N.to_nat training) qs) HD 0 0) as (t & n & TT & TN & ET).
  destruct (fold_left gask (skipn (N.to_nat training) qs) (st, 0)) as [st' p']. cbn [snd Nat.add] in EP, ET. subst p'.
  cbn [bind] in R. rewrite ET in R. cbn [bind] in R. eexists ordered, keys, qs, _. cbv zeta. fold st.
  split; [apply sortN_sorted|]. split; [apply sortN_perm|]. split; [apply select_picked; exact HS|].
  split; [apply bounds_asks; apply HA|]. split; [exact R|]. cbn [ar_positives ar_true_positives ar_true_negatives ar_false_positives ar_rate].
  split; [exact TP|]. split; [exact TT|]. split; [exact TN|]. split; [reflexivity|].
  split; [intros X; apply Z.leb_gt in X; rewrite X; reflexivity|]. split; [intros X; apply Z.leb_le in X; rewrite X; reflexivity|].
  intros F. pose proof (answers_len (skipn (N.to_nat training) qs) st) as LA. symmetry in LA.
  destruct (tally_split _ _ _ _ _ _ (tally_snd _ _ _ _ _ _ LA TP) (tally_fst _ _ _ _ _ _ LA TT)) as (d & TD & ->).
  { intros x I X. exact (pairs_in _ _ _ _ _ F x I X). }
  exists d. split; [exact TD|lia].
Qed.
End Run.

(** The sizes of the program itself. *)
Lemma tally_both : forall (A : Type) (P : A -> Prop) l m n, tally P l m -> tally (fun x => ~ P x) l n -> m + n = List.length l.
Proof.
  intros A P l m n H. revert n. induction H; intros k K; inversion K; subst; try contradiction; cbn [List.length]; [reflexivity| |];
    rewrite <- (IHtally _ ltac:(eassumption)); lia.
Qed.
Lemma two_length : forall (A B : Type) (R : A -> B -> Prop) l l', Forall2 R l l' -> List.length l = List.length l'.
Proof. intros A B R l l' H. induction H; cbn [List.length]; congruence. Qed.
Lemma arf_program : forall db state perfect handle trained shuffle percent query dist lf tf s1 s2 lv tv,
  arf_accepted percent query dist -> numbers s1 lf lv -> numbers s2 tf tv ->
  ((N.of_nat (List.length tv) < 10000000)%N ->
     workload_arf db state perfect handle trained shuffle percent query dist (Some lf) (Some tf) s1 s2 = Fail OutOfBounds) /\
  ((10000000 <= N.of_nat (List.length tv))%N -> honest db -> (forall l, Permutation (shuffle l) l) ->
     exists ordered keys trials qs r,
       let bs := answers state handle (trained (train state handle (db keys) (perfect keys) trials)) qs in
       StronglySorted N.le ordered /\ Permutation ordered (firstn (N.to_nat 10000000) lv) /\ picked (shuffle ordered) percent keys /\
       Forall2 (asks query) (firstn (N.to_nat 10000000) tv) (trials ++ qs) /\
       N.of_nat (List.length trials) = 2000000%N /\ N.of_nat (List.length qs) = 8000000%N /\
       workload_arf db state perfect handle trained shuffle percent query dist (Some lf) (Some tf) s1 s2 = Ok (Some r) /\
       tally (fun b => b = true) bs (ar_positives r) /\ tally (hit keys) qs (ar_true_positives r) /\
       tally (fun q => ~ hit keys q) qs (ar_true_negatives r) /\
       N.of_nat (ar_true_positives r + ar_true_negatives r) = 8000000%N).
Proof.
  intros db state perfect handle trained shuffle percent query dist lf tf s1 s2 lv tv AA NL NT.
  assert (P1 : (0 < 10000000)%N) by reflexivity. assert (P2 : (2000000 <= 10000000)%N) by discriminate.
  split; [intros SH|intros LG HD HP].
  - unfold workload_arf. apply (arf_short db state perfect handle trained _ _ _ shuffle percent query dist AA P1 P2 lf tf s1 s2 lv tv NL NT). lia.
  - assert (LG' : N.to_nat 10000000 <= List.length tv) by lia.
    destruct (arf_reports db state perfect handle trained _ _ _ shuffle percent query dist AA P1 P2 lf tf s1 s2 lv tv HD HP NL NT LG')
      as (ordered & keys & qs & r & H). cbv zeta in H. destruct H as (O1 & O2 & PK & AS & E & T1 & T2 & T3 & _).
    assert (LQ : List.length qs = N.to_nat 10000000) by (rewrite <- (two_length _ _ _ _ _ AS), firstn_length; lia).
    exists ordered, keys, (firstn (N.to_nat 2000000) qs), (skipn (N.to_nat 2000000) qs), r. cbv zeta.
    assert (LS : N.of_nat (List.length (skipn (N.to_nat 2000000) qs)) = 8000000%N) by (rewrite skipn_length; lia).
    split; [exact O1|]. split; [exact O2|]. split; [exact PK|]. split; [rewrite firstn_skipn; exact AS|].
    split; [rewrite firstn_length; lia|]. split; [exact LS|]. split; [exact E|]. split; [exact T1|]. split; [exact T2|]. split; [exact T3|].
    rewrite (tally_both _ _ _ _ _ T2 T3). exact LS.
Qed.
