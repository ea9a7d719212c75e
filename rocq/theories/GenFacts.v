(** Facts about the workload generators. *)
From Coq Require Import Arith List NArith ZArith Bool String Lia.
From Verif Require Import Res Config Spec Bench BenchFacts Load SpecLoad LoadFacts Gen SpecGen.
Import ListNotations.
Open Scope nat_scope.

Lemma lines_one : forall l cur r, one_line l -> lines_from cur (l ++ 10 :: r) = (rev cur ++ l ++ [10]) :: lines_from [] r.
Proof.
  induction l as [|b l IH]; intros cur r H; cbn [app lines_from].
  - rewrite Nat.eqb_refl. cbn [rev]. reflexivity.
  - destruct (Nat.eqb_spec b 10) as [->|N]; [destruct H; left; reflexivity|].
    rewrite IH by (intros X; apply H; right; exact X). cbn [rev]. rewrite <- !app_assoc. reflexivity.
Qed.
Lemma lines_text : forall ls, Forall one_line ls -> lines (text ls) = map (fun l => l ++ [10]) ls.
Proof.
  unfold lines, text. induction 1 as [|l ls H HH IH]; [reflexivity|]. cbn [map List.concat]. rewrite <- app_assoc. cbn [app].
  rewrite lines_one by exact H. cbn [rev app]. f_equal. exact IH.
Qed.

Lemma cols_ok : forall ends ws l, words ends ws l -> forall fuel, List.length l < fuel -> cols_from fuel l = ws.
Proof.
  induction 1 as [f F|s w F W|s w b f ends ws F W B WS IH]; intros fuel L; (destruct fuel as [|fuel]; [lia|]); cbn [cols_from].
  - rewrite <- (app_nil_r f), (skip_app f [] F). reflexivity.
  - assert (SW : skip_spaces w = w) by (rewrite <- (app_nil_r w), (skip_word w [] W); reflexivity).
    assert (TW : take_while (fun b => negb (isspace b)) w = (w, [])).
    { pose proof (take_app (fun b => negb (isspace b)) w [] (word_chars w W) I) as T. rewrite app_nil_r in T. exact T. }
    rewrite (skip_app s w F), SW, TW. destruct W as (W & _). destruct w as [|x w]; [contradiction|]. cbn [at_end]. f_equal.
    destruct fuel as [|fuel]; reflexivity.
  - rewrite (skip_app s _ F), (skip_word w _ W), (take_app _ w (b :: f)); [|apply word_chars; exact W|cbn; apply isspace_ok in B; rewrite B; reflexivity].
    rewrite !app_length in L. cbn [List.length] in L. rewrite IH by (cbn [List.length]; destruct W as (W & _); destruct w; [contradiction|cbn [List.length] in L; lia]).
    destruct W as (W & _). destruct w as [|x w]; [contradiction|]. reflexivity.
Qed.
Lemma cols_words : forall ends ws l, words ends ws l -> cols l = ws.
Proof. intros. eapply cols_ok; eauto. Qed.
Lemma space10 : space 10. Proof. unfold space. cbn [In]. tauto. Qed.
Lemma space32 : space 32. Proof. unfold space. cbn [In]. tauto. Qed.
Lemma words_newline : forall ends ws l, words ends ws l -> words false ws (l ++ [10]).
Proof.
  induction 1 as [f F|s w F W|s w b f ends ws F W B WS IH].
  - constructor. apply Forall_app. split; [exact F|]. constructor; [exact space10|constructor].
  - rewrite <- app_assoc. apply (words_more s w 10 [] false []); auto using space10. constructor. constructor; [exact space10|constructor].
  - rewrite <- !app_assoc. cbn [app]. apply words_more; auto.
Qed.
Lemma words_word : forall ends ws l, words ends ws l -> Forall word ws.
Proof. induction 1; auto. Qed.

Lemma names_chars : forall verb line k, names verb line k -> Forall (fun b => ~ space b) k.
Proof.
  intros verb line k (ends & w1 & w2 & ws & W & ->). apply words_word in W. inversion W as [|? ? _ W1]; subst. inversion W1 as [|? ? _ W2]; subst.
  inversion W2 as [|? ? (_ & C) _]; subst. rewrite <- (firstn_skipn 4 w2) in C. apply Forall_app in C. apply C.
Qed.
Lemma no_newline : forall k, Forall (fun b => ~ space b) k -> one_line k.
Proof. intros k F X. rewrite Forall_forall in F. apply (F 10 X). exact space10. Qed.
Lemma logged_chars : forall verb ls ks, logged verb ls ks -> Forall (fun k => Forall (fun b => ~ space b) k) ks.
Proof. induction 1; auto. constructor; auto. eapply names_chars; eauto. Qed.
Lemma logged_keys : forall verb ls ks, Forall one_line ls -> logged verb ls ks -> ycsb_keys verb (text ls) = text ks.
Proof.
  intros verb ls ks F H. unfold ycsb_keys. rewrite lines_text by exact F. clear F.
  induction H as [|line k ls ks (ends & w1 & w2 & ws & W & ->) HL IH|line ls ks (ends & ws & W & C) HL IH]; [reflexivity| |];
    cbn [map flat_map]; rewrite IH, (cols_words _ _ _ (words_newline _ _ _ W)).
  - assert (E : str_eq verb verb = true) by (apply str_eq_ok; reflexivity). rewrite E. reflexivity.
  - destruct ws as [|c0 [|c1 [|c2 ws]]]; try reflexivity. destruct C as [C|C]; [cbn [List.length] in C; lia|].
    destruct (str_eq c0 verb) eqn:E; [|reflexivity]. apply str_eq_ok in E. subst c0. destruct C. reflexivity.
Qed.
Lemma logged_lines : forall verb ls ks, Forall one_line ls -> logged verb ls ks -> lines (ycsb_keys verb (text ls)) = map (fun l => l ++ [10]) ks.
Proof.
  intros verb ls ks F H. rewrite (logged_keys _ _ _ F H). apply lines_text.
  eapply Forall_impl; [|exact (logged_chars _ _ _ H)]. exact no_newline.
Qed.
Lemma logged_total : forall verb ls, exists ks, logged verb ls ks.
Proof.
  intros verb. induction ls as [|line ls (ks & IH)]; [exists []; constructor|]. destruct (words_total line) as (ends & ws & W).
  destruct ws as [|c0 [|c1 [|c2 ws]]];
    try (exists ks; apply logged_skip; [exists ends; eexists; split; [exact W|left; cbn [List.length]; lia]|exact IH]).
  destruct (list_eq_dec Nat.eq_dec c0 verb) as [->|N].
  - exists (skipn 4 c2 :: ks). apply logged_key; [|exact IH]. exists ends, c1, c2, ws. split; [exact W|reflexivity].
  - exists ks. apply logged_skip; [|exact IH]. exists ends, (c0 :: c1 :: c2 :: ws). split; [exact W|right; cbn; congruence].
Qed.

(** Addresses *)
Lemma partition_at : forall c a b, ~ In c a -> partition c (a ++ c :: b) = (a, [c], b).
Proof.
  intros c a b. induction a as [|x a IH]; intros N; cbn [app partition]; [rewrite Nat.eqb_refl; reflexivity|].
  destruct (Nat.eqb_spec x c) as [->|E]; [destruct N; left; reflexivity|]. rewrite IH by (intros X; apply N; right; exact X). reflexivity.
Qed.
Lemma split_part : forall c p r, ~ In c p -> split_on c (p ++ c :: r) = p :: split_on c r.
Proof.
  intros c p r. induction p as [|x p IH]; intros N; cbn [app split_on]; [rewrite Nat.eqb_refl; reflexivity|].
  destruct (Nat.eqb_spec x c) as [->|E]; [destruct N; left; reflexivity|]. rewrite IH by (intros X; apply N; right; exact X). reflexivity.
Qed.
Lemma split_whole : forall c p, ~ In c p -> split_on c p = [p].
Proof.
  intros c. induction p as [|x p IH]; intros N; cbn [split_on]; [reflexivity|].
  destruct (Nat.eqb_spec x c) as [->|E]; [destruct N; left; reflexivity|]. rewrite IH by (intros X; apply N; right; exact X). reflexivity.
Qed.
Lemma split_dotted : forall parts, parts <> [] -> Forall (fun p => ~ In 46 p) parts -> split_on 46 (dotted parts) = parts.
Proof.
  induction parts as [|p t IH]; intros N F; [contradiction|]. inversion F as [|? ? P T]; subst. destruct t as [|q t]; [apply split_whole; exact P|].
  change (dotted (p :: q :: t)) with (p ++ 46 :: dotted (q :: t)). rewrite split_part by exact P. f_equal. apply IH; [discriminate|exact T].
Qed.
Lemma fold_parts : forall parts acc, fold_left (fun r part => part ++ [46] ++ r) parts acc = flat_map (fun p => p ++ [46]) (rev parts) ++ acc.
Proof.
  induction parts as [|p t IH]; intros acc; [reflexivity|]. cbn [fold_left rev]. rewrite IH, flat_map_app, <- app_assoc. cbn [flat_map].
  rewrite app_nil_r, <- !app_assoc. reflexivity.
Qed.
Lemma reverse_ok : forall line k, email_key line k -> reverseHostName (line ++ [10]) = k.
Proof.
  intros line k (name & parts & (-> & N & P & F & _) & ->). unfold reverseHostName. rewrite <- app_assoc. cbn [app].
  rewrite (partition_at 64 name (dotted parts ++ [10]) N), removelast_last, (split_dotted _ P F), fold_parts, app_nil_r. reflexivity.
Qed.
Lemma split_back : forall ps, Forall (fun p => ~ In 46 p) ps -> split_on 46 (flat_map (fun p => p ++ [46]) ps) = ps ++ [[]].
Proof.
  induction 1 as [|p t P T IH]; [reflexivity|]. cbn [flat_map]. rewrite <- app_assoc. cbn [app]. rewrite split_part by exact P. rewrite IH. reflexivity.
Qed.
Lemma email_injective : forall l1 l2 k, email_key l1 k -> email_key l2 k -> l1 = l2.
Proof.
  intros l1 l2 k (n1 & p1 & (-> & N1 & P1 & F1 & _) & E1) (n2 & p2 & (-> & N2 & P2 & F2 & _) & E2). subst k.
  set (X1 := flat_map (fun p => p ++ [46]) (rev p1)) in *. set (X2 := flat_map (fun p => p ++ [46]) (rev p2)) in *.
  apply (f_equal (@rev nat)) in E2. rewrite !rev_app_distr in E2. cbn [rev] in E2. rewrite <- !app_assoc in E2. cbn [app] in E2.
  apply (f_equal (partition 64)) in E2. rewrite !partition_at in E2 by (rewrite <- in_rev; assumption). injection E2 as EN EX.
  apply (f_equal (@rev nat)) in EN, EX. rewrite !rev_involutive in EN, EX. subst n2.
  apply (f_equal (split_on 46)) in EX. unfold X1, X2 in EX. rewrite !split_back in EX by (apply Forall_rev; assumption).
  apply app_inv_tail in EX. apply (f_equal (@rev bytes)) in EX. rewrite !rev_involutive in EX. rewrite EX. reflexivity.
Qed.
Lemma dotted_in : forall parts b, In b (flat_map (fun p => p ++ [46]) parts) -> In b (dotted parts) \/ b = 46.
Proof.
  induction parts as [|p t IH]; intros b H; [destruct H|]. cbn [flat_map] in H. apply in_app_or in H. destruct t as [|q t].
  - destruct H as [H|[]]. apply in_app_or in H. destruct H as [H|[<-|[]]]; auto.
  - change (dotted (p :: q :: t)) with (p ++ 46 :: dotted (q :: t)). destruct H as [H|H].
    + apply in_app_or in H. destruct H as [H|[<-|[]]]; auto. left. apply in_or_app. left. exact H.
    + destruct (IH b H) as [X|X]; auto. left. apply in_or_app. right. right. exact X.
Qed.
Lemma email_word : forall line k, email_key line k -> word k.
Proof.
  intros line k (name & parts & (-> & _ & _ & _ & C) & ->). split; [intros X; apply app_eq_nil in X; destruct X as [_ X]; discriminate X|].
  apply Forall_forall. intros b B. rewrite Forall_forall in C. apply in_app_or in B. destruct B as [B|[<-|B]].
  - assert (B' : In b (flat_map (fun p => p ++ [46]) parts)).
    { apply in_flat_map in B. destruct B as (p & P & B). apply in_flat_map. exists p. split; [apply in_rev; exact P|exact B]. }
    destruct (dotted_in _ _ B') as [X|X]; [apply C; apply in_or_app; right; right; exact X|subst b; unfold space; cbn [In]; lia].
  - unfold space. cbn [In]. lia.
  - apply C. apply in_or_app. left. exact B.
Qed.

(** The load file and the key map *)
Definition key_map (ks out : list bytes) : list nat := text (map (fun ko => fst ko ++ 32 :: snd ko) (combine ks out)).
Lemma cols_key : forall k, word k -> cols (k ++ [10]) = [k].
Proof. intros k W. apply (cols_words false). apply (words_newline true). apply (words_last [] k); auto. Qed.
Lemma rows_ok : forall pick ks out n, Forall word ks -> List.length out = List.length ks ->
  (forall i, i < List.length out -> pick (n + i) = Done (nth i out [] ++ [10])) ->
  rows pick (map (fun l => l ++ [10]) ks) n = Done (text out, key_map ks out).
Proof.
  intros pick ks. induction ks as [|k ks IH]; intros [|o out] n F L P; try discriminate L; [reflexivity|]. inversion F as [|? ? W F']; subst.
  cbn [map rows]. pose proof (P 0 ltac:(cbn [List.length]; lia)) as P0. rewrite Nat.add_0_r in P0. cbn [nth] in P0. rewrite P0, (cols_key k W).
  rewrite (IH out (S n) F' ltac:(injection L; auto)).
  - unfold key_map, text. cbn [combine map List.concat fst snd]. rewrite <- !app_assoc. reflexivity.
  - intros i I. replace (S n + i) with (n + S i) by lia. apply (P (S i)). cbn [List.length]. lia.
Qed.
Lemma rows_fail : forall pick ks n j, Forall word ks -> j < List.length ks -> pick (n + j) = Raise IndexError ->
  (forall i, i < List.length ks -> (exists x, pick (n + i) = Done x) \/ pick (n + i) = Raise IndexError) ->
  rows pick (map (fun l => l ++ [10]) ks) n = Raise IndexError.
Proof.
  intros pick ks. induction ks as [|k ks IH]; intros n j F L PJ P; [cbn in L; lia|]. inversion F as [|? ? W F']; subst. cbn [map rows].
  destruct (P 0 ltac:(cbn [List.length]; lia)) as [(x & E)|E]; rewrite Nat.add_0_r in E; rewrite E; [|reflexivity]. rewrite (cols_key k W).
  destruct j as [|j]; [rewrite Nat.add_0_r in PJ; congruence|].
  rewrite (IH (S n) j F'); [reflexivity|cbn [List.length] in L; lia|replace (S n + j) with (n + S j) by lia; exact PJ|].
  intros i I. replace (S n + i) with (n + S i) by lia. apply P. cbn [List.length]. lia.
Qed.

(** The arguments *)
Lemma gen_args_ok : forall kt dist, gen_args kt dist = true <-> gen_accepted kt dist.
Proof.
  intros kt dist. unfold gen_args, gen_accepted. rewrite andb_true_iff, !orb_true_iff, !is_ok. cbn [map In].
  intuition (subst; auto).
Qed.
Lemma load_exit : forall kt dist log emails stamps, gen_load kt dist log emails stamps = Done None <-> ~ gen_accepted kt dist.
Proof.
  intros kt dist log emails stamps. rewrite <- gen_args_ok. unfold gen_load. destruct (gen_args kt dist); cbn [negb]; [|split; [intros _; discriminate|reflexivity]].
  split; [|intros N; destruct N; reflexivity]. intros H. exfalso. revert H. destruct (is kt "randint"); [discriminate|].
  destruct (is kt "timestamp"); [destruct (rows _ _ _) as [[? ?]|?]; discriminate|].
  destruct (_ =? 0); [discriminate|]. destruct (rows _ _ _) as [[? ?]|?]; discriminate.
Qed.
Lemma txn_exit : forall kt dist log m, gen_txn kt dist log m = Done None <-> ~ gen_accepted kt dist.
Proof.
  intros kt dist log m. rewrite <- gen_args_ok. unfold gen_txn. destruct (gen_args kt dist); cbn [negb]; [|split; [intros _; discriminate|reflexivity]].
  split; [|intros N; destruct N; reflexivity]. intros H. exfalso. revert H. destruct (is kt "randint"); [discriminate|].
  destruct (read_map _ _) as [d|?]; [|discriminate]. destruct (queries _ _); discriminate.
Qed.

Ltac len := unfold bytes in *; lia.
Lemma item_nth : forall (l : list bytes) i x, nth_error l i = Some x -> item_at (map (fun l => l ++ [10]) l) i = Done (x ++ [10]).
Proof. intros l i x H. unfold item_at. rewrite (map_nth_error _ _ _ H). reflexivity. Qed.

Section Load.
Variables (dist : bytes) (ls ks : list bytes).
Hypothesis HL : Forall one_line ls. Hypothesis HK : logged (str "INSERT") ls ks.

Lemma load_randint : forall emails stamps, gen_accepted (str "randint") dist ->
  gen_load (str "randint") dist (text ls) emails stamps = Done (Some (text ks, None)).
Proof.
  intros emails stamps A. apply gen_args_ok in A. unfold gen_load. rewrite A. cbn [negb]. change (is (str "randint") "randint") with true. cbv iota.
  rewrite (logged_lines _ _ _ HL HK). reflexivity.
Qed.
Lemma load_timestamp : forall emails stamps, gen_accepted (str "timestamp") dist -> Forall (fun k => k <> []) ks -> Forall one_line stamps ->
  List.length ks <= List.length stamps ->
  gen_load (str "timestamp") dist (text ls) emails (text stamps) =
  Done (Some (text (firstn (List.length ks) stamps), Some (key_map ks (firstn (List.length ks) stamps)))).
Proof.
  intros emails stamps A NE F L. apply gen_args_ok in A. unfold gen_load. rewrite A. cbn [negb].
  change (is (str "timestamp") "randint") with false. change (is (str "timestamp") "timestamp") with true. cbv iota.
  rewrite (logged_lines _ _ _ HL HK), (lines_text _ F). rewrite (rows_ok _ ks (firstn (List.length ks) stamps) 0).
  - reflexivity.
  - pose proof (logged_chars _ _ _ HK) as C. rewrite Forall_forall in *. intros k K. split; auto.
  - apply firstn_length_le. exact L.
  - intros i I0. pose proof (firstn_length_le _ L) as LF. assert (I : i < List.length ks) by (rewrite <- LF; exact I0). cbn [Nat.add].
    apply item_nth. transitivity (nth_error (firstn (List.length ks) stamps ++ skipn (List.length ks) stamps) i); [rewrite firstn_skipn; reflexivity|].
    rewrite nth_error_app1 by exact I0. apply nth_error_nth'. exact I0.
Qed.
Lemma load_timestamp_short : forall emails stamps, gen_accepted (str "timestamp") dist -> Forall (fun k => k <> []) ks -> Forall one_line stamps ->
  List.length stamps < List.length ks -> gen_load (str "timestamp") dist (text ls) emails (text stamps) = Raise IndexError.
Proof.
  intros emails stamps A NE F L. apply gen_args_ok in A. unfold gen_load. rewrite A. cbn [negb].
  change (is (str "timestamp") "randint") with false. change (is (str "timestamp") "timestamp") with true. cbv iota.
  rewrite (logged_lines _ _ _ HL HK), (lines_text _ F). rewrite (rows_fail _ ks 0 (List.length stamps)); [reflexivity| |exact L| |].
  - pose proof (logged_chars _ _ _ HK) as C. rewrite Forall_forall in *. intros k K. split; auto.
  - unfold item_at. rewrite (proj2 (nth_error_None _ _)); [reflexivity|]. rewrite map_length. len.
  - intros i _. unfold item_at. destruct (nth_error _ _); eauto.
Qed.

Definition gap : nat := N.to_nat (27549660 / N.of_nat (List.length ks)).
Lemma load_email_none : forall emails stamps, gen_accepted (str "email") dist -> ks = [] ->
  gen_load (str "email") dist (text ls) emails stamps = Raise ZeroDivisionError.
Proof.
  intros emails stamps A E. apply gen_args_ok in A. unfold gen_load. rewrite A. cbn [negb].
  change (is (str "email") "randint") with false. change (is (str "email") "timestamp") with false. cbv iota.
  rewrite (logged_lines _ _ _ HL HK), E. reflexivity.
Qed.
Lemma email_lines : forall addrs ek, Forall2 email_key addrs ek -> Forall one_line addrs.
Proof.
  induction 1 as [|l k addrs ek (name & parts & (_ & _ & _ & _ & C) & _) H IH]; constructor; auto. apply no_newline. exact C.
Qed.
Lemma email_picks : forall addrs ek, Forall2 email_key addrs ek -> forall i,
  match item_at (map (fun l => l ++ [10]) addrs) i with Raise x => Raise x | Done x => Done (reverseHostName x ++ [10]) end =
  match nth_error ek i with Some k => Done (k ++ [10]) | None => Raise IndexError end.
Proof.
  induction 1 as [|l k addrs ek E H IH]; intros [|i]; try reflexivity; [|exact (IH i)]. unfold item_at. cbn [map nth_error]. rewrite (reverse_ok _ _ E). reflexivity.
Qed.
Lemma email_load : forall addrs ek stamps, gen_accepted (str "email") dist -> Forall (fun k => k <> []) ks -> ks <> [] -> Forall2 email_key addrs ek ->
  (List.length ks - 1) * gap < List.length addrs ->
  exists out, List.length out = List.length ks /\ every gap ek out /\
    gen_load (str "email") dist (text ls) (text addrs) stamps = Done (Some (text out, Some (key_map ks out))).
Proof.
  intros addrs ek stamps A NE N F L. apply gen_args_ok in A. assert (LE : List.length ek = List.length addrs) by (clear - F; induction F; cbn; congruence).
  exists (map (fun i => nth (i * gap) ek []) (seq 0 (List.length ks))).
  assert (LO : List.length (map (fun i => nth (i * gap) ek []) (seq 0 (List.length ks))) = List.length ks) by (rewrite map_length, seq_length; reflexivity).
  assert (B : forall i, i < List.length ks -> i * gap < List.length ek).
  { intros i I. rewrite LE. apply Nat.le_lt_trans with ((List.length ks - 1) * gap); [apply Nat.mul_le_mono_r; len|exact L]. }
  assert (NT : forall i, i < List.length ks -> nth i (map (fun i => nth (i * gap) ek []) (seq 0 (List.length ks))) [] = nth (i * gap) ek []).
  { intros i I. rewrite (nth_indep _ [] (nth (0 * gap) ek [])) by len. rewrite (map_nth (fun i => nth (i * gap) ek [])), seq_nth by exact I. reflexivity. }
  split; [exact LO|]. split.
  - intros i I. rewrite LO in I. transitivity (Some (nth (i * gap) ek [])); [apply nth_error_nth'; apply B; exact I|]. symmetry.
    rewrite <- (NT i I). apply nth_error_nth'. rewrite LO. exact I.
  - unfold gen_load. rewrite A. cbn [negb]. change (is (str "email") "randint") with false. change (is (str "email") "timestamp") with false. cbv iota.
    rewrite (logged_lines _ _ _ HL HK), map_length, (lines_text _ (email_lines _ _ F)). match goal with |- context [?n =? 0] => destruct (Nat.eqb_spec n 0) as [E|_] end; [destruct ks; [contradiction|discriminate E]|].
    rewrite (rows_ok _ ks (map (fun i => nth (i * gap) ek []) (seq 0 (List.length ks))) 0); [reflexivity| |exact LO|].
    + pose proof (logged_chars _ _ _ HK) as C. rewrite Forall_forall in *. intros k K. split; auto.
    + intros i I0. assert (I : i < List.length ks) by (rewrite <- LO; exact I0). rewrite (email_picks _ _ F). cbn [Nat.add].
      transitivity (match nth_error ek (i * gap) with Some k => Done (k ++ [10]) | None => Raise IndexError end); [reflexivity|].
      assert (EN : nth_error ek (i * gap) = Some (nth (i * gap) ek [])) by (apply nth_error_nth'; apply B; exact I). rewrite EN.
      do 2 f_equal. symmetry. exact (NT i I).
Qed.
Lemma email_short : forall addrs ek stamps, gen_accepted (str "email") dist -> Forall (fun k => k <> []) ks -> ks <> [] -> Forall2 email_key addrs ek ->
  List.length addrs <= (List.length ks - 1) * gap -> gen_load (str "email") dist (text ls) (text addrs) stamps = Raise IndexError.
Proof.
  intros addrs ek stamps A NE N F L. apply gen_args_ok in A. assert (LE : List.length ek = List.length addrs) by (clear - F; induction F; cbn; congruence).
  unfold gen_load. rewrite A. cbn [negb]. change (is (str "email") "randint") with false. change (is (str "email") "timestamp") with false. cbv iota.
  rewrite (logged_lines _ _ _ HL HK), map_length, (lines_text _ (email_lines _ _ F)). match goal with |- context [?n =? 0] => destruct (Nat.eqb_spec n 0) as [E|E] end; [destruct ks; [contradiction|discriminate E]|].
  rewrite (rows_fail _ ks 0 (List.length ks - 1)); [reflexivity| |len| |].
  - pose proof (logged_chars _ _ _ HK) as C. rewrite Forall_forall in *. intros k K. split; auto.
  - rewrite (email_picks _ _ F). cbn [Nat.add].
    transitivity (match nth_error ek ((List.length ks - 1) * gap) with Some k => Done (k ++ [10]) | None => Raise IndexError end); [reflexivity|].
    rewrite (proj2 (nth_error_None _ _)); [reflexivity|]. unfold bytes in *. rewrite LE. exact L.
  - intros i _. rewrite (email_picks _ _ F). destruct (nth_error ek _); eauto.
Qed.
End Load.
Lemma gap_enough : forall (ks : list bytes) n, ks <> [] -> (27549660 <= N.of_nat n)%N -> (List.length ks - 1) * N.to_nat (27549660 / N.of_nat (List.length ks)) < n.
Proof.
  intros ks n N L. assert (P : 0 < List.length ks) by (destruct ks; [contradiction|cbn; len]).
  set (m := List.length ks) in *. assert (Q : (N.of_nat m * (27549660 / N.of_nat m) <= 27549660)%N) by (apply N.mul_div_le; len).
  set (g := (27549660 / N.of_nat m)%N) in *. destruct (N.eq_dec g 0) as [E|E]; [rewrite E; cbn; len|].
  assert (X : (N.of_nat (m - 1) * g < N.of_nat n)%N) by nia. nia.
Qed.

(** The dictionary and the queries *)
Lemma int_decimal : forall w v, decimal w v -> py_int w = Some (Z.of_N v).
Proof.
  intros w v D. destruct (decimal_digits _ _ D) as (F & NE & V). destruct w as [|b w]; [contradiction|]. unfold py_int.
  assert (B : isdigit b = true) by (inversion F; assumption). unfold isdigit in B. apply andb_true_iff in B. destruct B as (B1 & B2). apply Nat.leb_le in B1.
  destruct (Nat.eqb_spec b 45) as [->|_]; [lia|]. destruct (Nat.eqb_spec b 43) as [->|_]; [lia|]. cbn [at_end orb].
  assert (FB : forallb isdigit (b :: w) = true) by (apply forallb_forall; rewrite Forall_forall in F; exact F). rewrite FB. cbn [negb]. rewrite V. reflexivity.
Qed.
Lemma decimal_word : forall w v, decimal w v -> word w.
Proof.
  intros w v D. destruct (decimal_digits _ _ D) as (F & NE & _). split; [exact NE|]. apply Forall_forall. rewrite Forall_forall in F.
  intros b B Q. apply F in B. rewrite (space_digit _ Q) in B. discriminate B.
Qed.
Lemma int_numeral : forall w v, numeral w v <-> py_int w = Some v.
Proof.
  intros w v. split.
  - intros [u n D|u n D|u n D].
    + exact (int_decimal _ _ D).
    + unfold py_int. cbn [Nat.eqb]. destruct (decimal_digits _ _ D) as (F & NE & V).
      rewrite (proj2 (forallb_forall isdigit u) (proj1 (Forall_forall _ _) F)), V. destruct u as [|b u]; [contradiction|]. reflexivity.
    + unfold py_int. cbn [Nat.eqb]. destruct (decimal_digits _ _ D) as (F & NE & V).
      rewrite (proj2 (forallb_forall isdigit u) (proj1 (Forall_forall _ _) F)), V. destruct u as [|b u]; [contradiction|]. reflexivity.
  - assert (P : forall l n, (if at_end l || negb (forallb isdigit l) then None else Some n) = Some v -> n = v /\ exists k, decimal l k /\ digits_value l = k).
    { intros l n E. destruct l as [|b l]; [discriminate E|]. cbn [at_end orb] in E. destruct (forallb isdigit (b :: l)) eqn:F; [|discriminate E].
      cbn [negb] in E. injection E as E. split; [exact E|].
      destruct (digits_decimal (b :: l)) as (k & D); [|discriminate|exists k; split; [exact D|apply (decimal_digits _ _ D)]].
      apply Forall_forall. intros x X. pose proof (proj1 (forallb_forall _ _) F _ X) as DX. unfold isdigit in DX. apply andb_true_iff in DX. rewrite !Nat.leb_le in DX. unfold digit. lia. }
    unfold py_int. destruct w as [|b t]; [discriminate|].
    destruct (Nat.eqb_spec b 45) as [->|_]; [|destruct (Nat.eqb_spec b 43) as [->|_]]; intros E; apply P in E; destruct E as (<- & k & D & ->).
    + apply numeral_minus. exact D.
    + apply numeral_plus. exact D.
    + apply numeral_plain. exact D.
Qed.
Lemma numeral_word : forall w v, numeral w v -> word w.
Proof.
  assert (C : forall b, ~ space b -> forall u, word u -> word (b :: u)) by (intros b NB u (_ & F); split; [discriminate|constructor; assumption]).
  intros w v [u n D|u n D|u n D]; [exact (decimal_word _ _ D)| |]; apply C; try exact (decimal_word _ _ D); intros Q; apply isspace_ok in Q; discriminate Q.
Qed.
Lemma map_read : forall ks kv, Forall2 numeral ks kv -> forall out d, List.length out = List.length ks -> Forall word out ->
  read_map (map (fun l => l ++ [10]) (map (fun ko => fst ko ++ 32 :: snd ko) (combine ks out))) d =
  Done (rev (combine kv out) ++ d).
Proof.
  induction 1 as [|k v ks kv D H IH]; intros [|o out] d L F; try discriminate L; [reflexivity|]. inversion F as [|? ? W F']; subst.
  cbn [combine map read_map fst snd]. rewrite <- app_assoc. cbn [app]. rewrite (cols_words false [k; o]).
  - rewrite (proj1 (int_numeral _ _) D), (IH out) by (injection L as L; assumption). cbn [rev]. rewrite <- app_assoc. reflexivity.
  - apply (words_more [] k 32 (o ++ [10]) false [o]); auto using space32; [eapply numeral_word; eauto|].
    apply (words_newline true [o] (32 :: o)). apply (words_last [32] o); auto using space32.
Qed.
Lemma look_app : forall a b v, look (a ++ b) v = match look a v with Some s => Some s | None => look b v end.
Proof. induction a as [|[x s] a IH]; intros b v; [reflexivity|]. cbn [app look]. destruct (x =? v)%Z; auto. Qed.
Lemma look_last : forall kv out v, List.length out = List.length kv ->
  match look (rev (combine kv out)) v with
  | Some q => exists i, nth_error kv i = Some v /\ nth_error out i = Some q /\ forall j, i < j -> nth_error kv j <> Some v
  | None => ~ In v kv
  end.
Proof.
  induction kv as [|x kv IH]; intros [|o out] v L; try discriminate L; [intros []|]. cbn [combine rev]. rewrite look_app.
  specialize (IH out v ltac:(injection L; auto)). destruct (look (rev _) _) as [q|].
  - destruct IH as (i & I1 & I2 & I3). exists (S i). split; [exact I1|]. split; [exact I2|]. intros [|j] J; [lia|]. apply (I3 j). lia.
  - cbn [look]. destruct (Z.eqb_spec x v) as [E|E].
    + subst x. exists 0. split; [reflexivity|]. split; [reflexivity|]. intros [|j] J; [lia|]. cbn [nth_error]. intros X.
      apply IH. eapply nth_error_In. exact X.
    + intros [->|X]; [apply E; reflexivity|exact (IH X)].
Qed.
Lemma queries_ok : forall d ts tv, Forall2 numeral ts tv -> forall R : Z -> bytes -> Prop,
  (forall v, In v tv -> exists q, look d v = Some q /\ R v q) ->
  exists qs, Forall2 R tv qs /\ queries d (map (fun l => l ++ [10]) ts) = Done (text qs).
Proof.
  induction 1 as [|t v ts tv D H IH]; intros R Q; [exists []; split; [constructor|reflexivity]|].
  destruct (Q v (or_introl eq_refl)) as (q & E & RQ). destruct (IH R (fun v V => Q v (or_intror V))) as (qs & F & EQ).
  exists (q :: qs). split; [constructor; assumption|]. cbn [map queries]. rewrite (cols_key t (numeral_word _ _ D)), (proj1 (int_numeral _ _) D), E, EQ.
  unfold text. cbn [map List.concat]. rewrite <- app_assoc. reflexivity.
Qed.
Lemma queries_fail : forall d ts tv, Forall2 numeral ts tv -> forall v, In v tv -> look d v = None ->
  queries d (map (fun l => l ++ [10]) ts) = Raise KeyError.
Proof.
  induction 1 as [|t x ts tv D H IH]; intros v V E; [destruct V|]. cbn [map queries]. rewrite (cols_key t (numeral_word _ _ D)), (proj1 (int_numeral _ _) D).
  destruct (look d x) as [s|] eqn:EX; [|reflexivity]. destruct V as [->|V]; [congruence|]. rewrite (IH v V E). reflexivity.
Qed.

Lemma queries_numbers : forall d ts q, queries d (map (fun l => l ++ [10]) ts) = Done q -> forall t, In t ts -> word t -> exists v, numeral t v.
Proof.
  induction ts as [|x ts IH]; intros q E t T W; [destruct T|]. cbn [map queries] in E. destruct T as [->|T].
  - rewrite (cols_key t W) in E. destruct (py_int t) as [v|] eqn:P; [|discriminate E]. exists v. apply int_numeral. exact P.
  - destruct (cols (x ++ [10])) as [|c0 r]; [exact (IH _ E _ T W)|]. destruct (py_int c0) as [v|]; [|discriminate E].
    destruct (look d v) as [s|]; [|discriminate E]. destruct (queries d (map (fun l => l ++ [10]) ts)) as [q'|] eqn:Q; [|discriminate E]. exact (IH _ eq_refl _ T W).
Qed.

Lemma two_len : forall (A B : Type) (R : A -> B -> Prop) l l', Forall2 R l l' -> List.length l = List.length l'.
Proof. intros A B R l l' H. induction H; cbn [List.length]; congruence. Qed.
Section Txn.
Variables (dist : bytes) (ls ts : list bytes) (tv : list Z).
Hypothesis HL : Forall one_line ls. Hypothesis HT : logged (str "READ") ls ts.

Lemma txn_randint : forall m, gen_accepted (str "randint") dist -> gen_txn (str "randint") dist (text ls) m = Done (Some (text ts)).
Proof.
  intros m A. apply gen_args_ok in A. unfold gen_txn. rewrite A. cbn [negb]. change (is (str "randint") "randint") with true. cbv iota.
  rewrite (logged_lines _ _ _ HL HT). reflexivity.
Qed.

Lemma txn_numbers : forall kt m q, gen_accepted kt dist -> kt <> str "randint" -> gen_txn kt dist (text ls) m = Done q ->
  forall t, In t ts -> word t -> exists v, numeral t v.
Proof.
  intros kt m q A NR E. apply gen_args_ok in A. unfold gen_txn in E. rewrite A in E. cbn [negb] in E.
  destruct (is kt "randint") eqn:R; [apply is_ok in R; contradiction|]. rewrite (logged_lines _ _ _ HL HT) in E.
  destruct (read_map (lines m) []) as [d|]; [|discriminate E]. destruct (queries d _) as [q'|] eqn:Q; [|discriminate E].
  exact (queries_numbers _ _ _ Q).
Qed.

Hypothesis HV : Forall2 numeral ts tv.
Variables (kt : bytes) (ks : list bytes) (kv : list Z) (out : list bytes).
Hypothesis HA : gen_accepted kt dist. Hypothesis HN : kt <> str "randint".
Hypothesis HKV : Forall2 numeral ks kv. Hypothesis HO : List.length out = List.length ks. Hypothesis HW : Forall word out.

Lemma txn_map : gen_txn kt dist (text ls) (key_map ks out) =
  match queries (rev (combine kv out)) (map (fun l => l ++ [10]) ts) with Raise x => Raise x | Done q => Done (Some q) end.
Proof.
  pose proof HA as A. apply gen_args_ok in A. unfold gen_txn. rewrite A. cbn [negb].
  destruct (is kt "randint") eqn:E; [apply is_ok in E; contradiction|]. rewrite (logged_lines _ _ _ HL HT). unfold key_map.
  rewrite lines_text; [pose proof (map_read _ _ HKV out [] HO HW) as R; unfold bytes in R |- *; rewrite R, app_nil_r; reflexivity|].
  clear - HKV HO HW. revert out HO HW. induction HKV as [|k v ks kv D H IH]; intros [|o out] L F; try discriminate L; [constructor|].
  inversion F as [|? ? W F']; subst. cbn [combine map fst snd]. constructor; [|apply IH; [exact H|injection L; auto|exact F']].
  intros X. apply in_app_or in X. destruct X as [X|[X|X]]; [|discriminate X|].
  - exact (no_newline _ (proj2 (numeral_word _ _ D)) X).
  - exact (no_newline _ (proj2 W) X).
Qed.
Lemma len_kv : List.length out = List.length kv.
Proof. rewrite HO. exact (two_len _ _ _ _ _ HKV). Qed.
Lemma txn_ok : (forall v, In v tv -> In v kv) -> exists qs,
  gen_txn kt dist (text ls) (key_map ks out) = Done (Some (text qs)) /\
  Forall2 (stands kv out) tv qs.
Proof.
  intros IN. destruct (queries_ok (rev (combine kv out)) ts tv HV
    (stands kv out)) as (qs & F & E).
  - intros v V. pose proof (look_last kv out v len_kv) as K. destruct (look _ _) as [q|]; [exists q; split; [reflexivity|exact K]|]. destruct (K (IN v V)).
  - exists qs. split; [rewrite txn_map, E; reflexivity|exact F].
Qed.
Lemma txn_unknown : forall v, In v tv -> ~ In v kv -> gen_txn kt dist (text ls) (key_map ks out) = Raise KeyError.
Proof.
  intros v V N. rewrite txn_map. pose proof (look_last kv out v len_kv) as K.
  rewrite (queries_fail _ ts tv HV v V); [reflexivity|]. destruct (look _ _) as [q|]; [|reflexivity].
  destruct K as (i & I & _). destruct N. eapply nth_error_In. exact I.
Qed.
End Txn.

Lemma numeral_some : forall ks kv, Forall2 numeral ks kv -> Forall (fun k => k <> []) ks.
Proof. induction 1 as [|k v ks kv D H IH]; constructor; auto. apply (numeral_word _ _ D). Qed.
Lemma follow : forall kt ks kv out, kt <> str "randint" -> Forall2 numeral ks kv -> List.length out = List.length ks -> Forall word out ->
  forall dist ls ts tv, gen_accepted kt dist -> Forall one_line ls -> logged (str "READ") ls ts -> Forall2 numeral ts tv ->
  ((forall v, In v tv -> In v kv) -> exists qs, gen_txn kt dist (text ls) (key_map ks out) = Done (Some (text qs)) /\ Forall2 (stands kv out) tv qs) /\
  (forall v, In v tv -> ~ In v kv -> gen_txn kt dist (text ls) (key_map ks out) = Raise KeyError).
Proof.
  intros kt ks kv out N KV LO W dist ls ts tv A L T V. split.
  - apply (txn_ok dist ls ts tv L T V kt ks kv out A N KV LO W).
  - apply (txn_unknown dist ls ts tv L T V kt ks kv out A N KV LO W).
Qed.
Lemma every_in : forall g items out, every g items out -> forall o, In o out -> In o items.
Proof.
  intros g items out E o O. apply In_nth_error in O. destruct O as (i & I). assert (L : i < List.length out) by (apply nth_error_Some; rewrite I; discriminate).
  specialize (E i L). rewrite I in E. eapply nth_error_In. exact E.
Qed.
Lemma email_workload : forall dist ls ks kv addrs ek stamps, gen_accepted (str "email") dist -> Forall one_line ls -> logged (str "INSERT") ls ks ->
  Forall2 numeral ks kv -> ks <> [] -> Forall2 email_key addrs ek ->
  let gap := N.to_nat (27549660 / N.of_nat (List.length ks)) in (List.length ks - 1) * gap < List.length addrs ->
  exists out m, List.length out = List.length ks /\ every gap ek out /\
    gen_load (str "email") dist (text ls) (text addrs) stamps = Done (Some (text out, Some m)) /\
    forall dist' tls ts tv, gen_accepted (str "email") dist' -> Forall one_line tls -> logged (str "READ") tls ts -> Forall2 numeral ts tv ->
    ((forall v, In v tv -> In v kv) -> exists qs, gen_txn (str "email") dist' (text tls) m = Done (Some (text qs)) /\ Forall2 (stands kv out) tv qs) /\
    (forall v, In v tv -> ~ In v kv -> gen_txn (str "email") dist' (text tls) m = Raise KeyError).
Proof.
  intros dist ls ks kv addrs ek stamps A L K KV N F g G. destruct (email_load dist ls ks L K addrs ek stamps A (numeral_some _ _ KV) N F G) as (out & LO & E & X).
  exists out, (key_map ks out). split; [exact LO|]. split; [exact E|]. split; [exact X|]. apply follow; auto; [discriminate|].
  apply Forall_forall. intros o O. apply (every_in _ _ _ E) in O. clear - F O. induction F as [|l k addrs ek D H IH]; [destruct O|].
  destruct O as [->|O]; [eapply email_word; eauto|auto].
Qed.
Lemma timestamp_workload : forall dist ls ks kv emails stamps, gen_accepted (str "timestamp") dist -> Forall one_line ls -> logged (str "INSERT") ls ks ->
  Forall2 numeral ks kv -> Forall word stamps -> List.length ks <= List.length stamps ->
  let out := firstn (List.length ks) stamps in
  exists m, gen_load (str "timestamp") dist (text ls) emails (text stamps) = Done (Some (text out, Some m)) /\
    forall dist' tls ts tv, gen_accepted (str "timestamp") dist' -> Forall one_line tls -> logged (str "READ") tls ts -> Forall2 numeral ts tv ->
    ((forall v, In v tv -> In v kv) -> exists qs, gen_txn (str "timestamp") dist' (text tls) m = Done (Some (text qs)) /\ Forall2 (stands kv out) tv qs) /\
    (forall v, In v tv -> ~ In v kv -> gen_txn (str "timestamp") dist' (text tls) m = Raise KeyError).
Proof.
  intros dist ls ks kv emails stamps A L K KV W LE out. exists (key_map ks out). split.
  - apply load_timestamp; auto; [eapply numeral_some; eauto|]. eapply Forall_impl; [|exact W]. intros w (_ & C). apply no_newline. exact C.
  - apply follow; auto; [discriminate|apply firstn_length_le; exact LE|]. apply Forall_forall. intros o O. rewrite Forall_forall in W. apply W.
    rewrite <- (firstn_skipn (List.length ks) stamps). apply in_or_app. left. exact O.
Qed.

(** What the benchmark loads of these files *)
Lemma text_words : forall out, Forall word out -> words false out (text out).
Proof.
  intros out F. unfold text.
  assert (X : forall out s, Forall word out -> Forall space s -> words false out (s ++ List.concat (map (fun l => l ++ [10]) out))).
  { clear. induction out as [|o out IH]; intros s F S; cbn [map List.concat]; [rewrite app_nil_r; constructor; exact S|].
    inversion F as [|? ? W F']; subst. rewrite <- app_assoc. cbn [app]. apply words_more; auto using space10.
    apply (IH [10] F'). constructor; [exact space10|constructor]. }
  apply (X out [] F). constructor.
Qed.
Lemma last_in : forall (l : list bytes) d, l <> [] -> In (last l d) l.
Proof.
  induction l as [|x l IH]; intros d N; [contradiction|]. destruct l as [|y l]; [left; reflexivity|]. right. apply (IH d). discriminate.
Qed.
Lemma firstn_incl : forall (A : Type) n (l : list A) x, In x (firstn n l) -> In x l.
Proof. intros A n l x X. rewrite <- (firstn_skipn n l). apply in_or_app. left. exact X. Qed.
Lemma queries_loaded : forall dist ls ks kv addrs ek stamps, gen_accepted (str "email") dist -> Forall one_line ls -> logged (str "INSERT") ls ks ->
  Forall2 numeral ks kv -> ks <> [] -> Forall2 email_key addrs ek ->
  (List.length ks - 1) * N.to_nat (27549660 / N.of_nat (List.length ks)) < List.length addrs ->
  forall dist' tls ts tv, gen_accepted (str "email") dist' -> Forall one_line tls -> logged (str "READ") tls ts -> Forall2 numeral ts tv ->
  ts <> [] -> (forall v, In v tv -> In v kv) -> (N.of_nat (List.length ks) <= 25000000)%N ->
  exists load m txn, gen_load (str "email") dist (text ls) (text addrs) stamps = Done (Some (load, Some m)) /\
    gen_txn (str "email") dist' (text tls) m = Done (Some txn) /\
    forall s1 s2, exists lk tk, loadKeysFromFile (Some load) false s1 = Ok lk /\ loadKeysFromFile (Some txn) false s2 = Ok tk /\
      (forall k, In k lk -> In k ek) /\ (forall q, In q tk -> In q lk).
Proof.
  intros dist ls ks kv addrs ek stamps A L K KV N F G dist' tls ts tv A' TL T TV NT IN LIM.
  destruct (email_load dist ls ks L K addrs ek stamps A (numeral_some _ _ KV) N F G) as (out & LO & E & X).
  assert (W : Forall word out).
  { apply Forall_forall. intros o O. apply (every_in _ _ _ E) in O. clear - F O. induction F as [|l k addrs ek D H IH]; [destruct O|].
    destruct O as [->|O]; [eapply email_word; eauto|auto]. }
  destruct (follow (str "email") ks kv out ltac:(discriminate) KV LO W dist' tls ts tv A' TL T TV) as (Q & _). destruct (Q IN) as (qs & EQ & S).
  assert (QO : forall q, In q qs -> In q out).
  { clear - S. induction S as [|v q tv qs (i & _ & I & _) H IH]; intros x [<-|X] || intros x []; auto. eapply nth_error_In. exact I. }
  assert (WQ : Forall word qs) by (apply Forall_forall; intros q H; rewrite Forall_forall in W; auto).
  exists (text out), (key_map ks out), (text qs). split; [exact X|]. split; [exact EQ|]. intros s1 s2.
  eexists. eexists. split; [apply (load_emails _ false out); apply text_words; exact W|]. split; [apply (load_emails _ false qs); apply text_words; exact WQ|].
  assert (NO : out <> []) by (intros Z; subst; destruct ks; [contradiction|discriminate LO]).
  assert (NQ : qs <> []).
  { intros Z. subst. pose proof (two_len _ _ _ _ _ S). pose proof (two_len _ _ _ _ _ TV). destruct tv; [|discriminate]. destruct ts; [contradiction|discriminate]. }
  assert (AL : forall (l : list bytes) (k : bytes), l <> [] -> In k (firstn max_emails (l ++ [last l []])) -> In k l).
  { intros l k NL H. apply firstn_incl in H. apply in_app_or in H. destruct H as [H|[<-|[]]]; [exact H|apply last_in; exact NL]. }
  split; [intros k H; apply (every_in _ _ _ E); exact (AL _ _ NO H)|].
  intros q H. apply (AL _ _ NQ) in H. apply QO in H. rewrite firstn_app. apply in_or_app. left. rewrite firstn_all2; [exact H|].
  unfold max_emails. rewrite LO. lia.
Qed.
