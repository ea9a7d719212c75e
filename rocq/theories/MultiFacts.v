(** The benchmark with several threads. *)
From Coq Require Import Arith List NArith ZArith Bool String Lia Sorting.Sorted Permutation.
From Verif Require Import Res Word Config Builder Dense Sparse Surf Serialize Bloom Murmur Bench Spec SpecApi SpecFilter SpecIter SpecRange SpecSession
  SpecBloom SpecBench KeyFacts RangeApi Threads ThreadFacts BenchFacts BenchApi Multi SpecMulti.
Import ListNotations.
Open Scope nat_scope.

Lemma multi_checks : forall a, check_multi a = true -> check_args a = true.
Proof.
  intros a H. unfold check_multi in H. unfold check_args. rewrite !andb_true_iff in *. destruct H as ((((((H1 & H2) & H3) & H4) & H5) & H6) & H7).
  repeat split; auto; rewrite !orb_true_iff in *; tauto.
Qed.
Lemma multi_accepted : forall a, check_multi a = true <-> accepted_multi a.
Proof.
  intros a. unfold accepted_multi. rewrite <- check_accepted. split.
  - intros H. split; [apply multi_checks; exact H|]. unfold check_multi in H. rewrite !andb_true_iff in H. destruct H as ((((((H1 & _) & _) & _) & _) & H6) & _).
    rewrite !orb_true_iff, !is_ok in *. split.
    + intros X. rewrite X in H1. destruct H1 as [[[[H1|H1]|H1]|H1]|H1]; discriminate.
    + exact H6.
  - intros (H & HF & HQ). unfold check_args in H. unfold check_multi. rewrite !andb_true_iff in *. destruct H as ((((((H1 & H2) & H3) & H4) & H5) & H6) & H7).
    rewrite !orb_true_iff, !is_ok in *. repeat split; auto. destruct H1 as [[[[[H1|H1]|H1]|H1]|H1]|H1]; try contradiction; rewrite H1; auto 6.
Qed.

(** ** tallies and shares *)
Lemma tally_app : forall A (P : A -> Prop) a b n m, tally P a n -> tally P b m -> tally P (a ++ b) (n + m).
Proof. intros A P a b n m H K. induction H; cbn [app Nat.add]; [exact K|apply tally_yes; auto|apply tally_no; auto]. Qed.
Lemma tally_concat : forall A (P : A -> Prop) ls ns, Forall2 (tally P) ls ns -> tally P (List.concat ls) (sum ns).
Proof. intros A P ls ns H. induction H; [constructor|]. cbn [List.concat sum fold_right]. apply tally_app; assumption. Qed.
Lemma skipn_firstn_step : forall A (l : list A) a b, firstn a l ++ firstn b (skipn a l) = firstn (a + b) l.
Proof.
  intros A. induction l as [|x l IH]; intros a b; [rewrite skipn_nil, !firstn_nil; reflexivity|]. destruct a; [reflexivity|].
  cbn [firstn skipn Nat.add app]. rewrite IH. reflexivity.
Qed.
Lemma concat_shares : forall A (l : list A) per t, List.concat (map (fun i => firstn per (skipn (per * i) l)) (seq 0 t)) = firstn (per * t) l.
Proof.
  intros A l per t. induction t as [|t IH]; [rewrite Nat.mul_0_r; reflexivity|].
  rewrite seq_S, map_app, concat_app, IH. cbn [map List.concat Nat.add]. rewrite app_nil_r, skipn_firstn_step. f_equal. lia.
Qed.

(** ** calls and queries *)
Inductive call_of (kt : key) : query -> call -> Prop :=
| call_point : forall q, call_of kt (Point q) (CLookup q)
| call_range : forall q u, getUpperBoundKey kt q = Ok u -> call_of kt (Range q) (CRange q true u true).

Lemma b2n_inj : forall a b n, n + b2n a = n + b2n b -> a = b.
Proof. intros [|] [|] n; cbn [b2n]; intros; auto; lia. Qed.

Lemma plays : forall e kt f qs cs, Forall2 (call_of kt) qs cs -> Forall (answered e kt (FSurf f (iter_new f))) qs ->
  forall it its, member_iter e f it -> exists l, play e f (mkSession it its) cs = Ok l /\ List.length l = List.length cs /\
    tally (yes e kt (FSurf f (iter_new f))) qs (sum (map yes_of l)).
Proof.
  intros e kt f qs cs H. induction H as [|x cl qs cs C H IH]; intros A it its M.
  - exists []. repeat split. constructor.
  - inversion A as [|? ? (b & B1 & B2) A2]; subst.
    assert (L : later e (FSurf f (iter_new f)) (FSurf f it)) by (constructor; [constructor|exact M]).
    destruct (B2 (FSurf f it) 0 L) as (flt'' & E & L'). inversion L' as [? ? it'' _ M''|]; subst.
    assert (S : exists its', step e f (mkSession it its) cl = Ok (ABool b, mkSession it'' its')).
    { destruct C as [q|q u U]; cbn [ask do_point do_range lookup] in E.
      - cbn [step]. destruct (lookupKey e f q) as [b'|]; cbn [bind] in E; [|discriminate E]. injection E as <- E. apply (b2n_inj b' b 0) in E. subst b'.
        exists its. reflexivity.
      - rewrite U in E. cbn [bind] in E. unfold lookupRange in E. cbn [step se_member].
        destruct (lookupRange_st e f it q true u true) as [[b' it']|]; cbn [bind] in E; [|discriminate E]. injection E as <- E. apply (b2n_inj b' b 0) in E. subst b'.
        exists its. reflexivity. }
    destruct S as (its' & S). destruct (IH A2 it'' its' M'') as (l & P & LN & T). exists (ABool b :: l).
    cbn [play]. rewrite S. cbn [bind]. rewrite P. split; [reflexivity|]. split; [cbn [List.length]; rewrite LN; reflexivity|].
    cbn [map sum fold_right]. destruct b; cbn [yes_of Nat.add]; [apply tally_yes; [apply B1; reflexivity|exact T]|apply tally_no; [|exact T]].
    intros X. apply B1 in X. discriminate.
Qed.

Lemma bloom_counts : forall e kt d qs cs, Forall2 (call_of kt) qs cs -> Forall (answered e kt (FBloom d)) qs ->
  exists n, total (bloom_call d) cs = Ok n /\ tally (yes e kt (FBloom d)) qs n.
Proof.
  intros e kt d qs cs H. induction H as [|x cl qs cs C H IH]; intros A.
  - exists 0. split; [reflexivity|constructor].
  - inversion A as [|? ? (b & B1 & B2) A2]; subst. destruct (IH A2) as (n & E & T).
    destruct (B2 (FBloom d) 0 (later_bloom e d)) as (flt'' & EA & _).
    exists (b2n b + n). rewrite total_cons. assert (bloom_call d cl = Ok (b2n b)) as ->.
    { destruct C as [q|q u U]; cbn [ask do_point do_range lookup bloom_call] in *.
      - destruct (KeyMayMatch key bloom_hash q d) as [b'|]; cbn [bind] in *; [|discriminate EA]. injection EA as _ EA. f_equal. exact EA.
      - rewrite U in EA. cbn [bind lookupRange] in EA. injection EA as _ EA. f_equal. exact EA. }
    cbn [bind]. rewrite E. split; [reflexivity|]. destruct b; cbn [b2n Nat.add]; [apply tally_yes; [apply B1; reflexivity|exact T]|apply tally_no; [|exact T]].
    intros X. apply B1 in X. discriminate.
Qed.

(** ** all threads *)
Lemma Forall2_map_l : forall A B C (R : B -> C -> Prop) (g : A -> B) l m, Forall2 (fun x y => R (g x) y) l m -> Forall2 R (map g l) m.
Proof. intros A B C R g l m H. induction H; cbn [map]; constructor; auto. Qed.
Lemma Forall2_skipn : forall A B (R : A -> B -> Prop) l m, Forall2 R l m -> forall n, Forall2 R (skipn n l) (skipn n m).
Proof. intros A B R l m H. induction H; intros [|n]; cbn [skipn]; try constructor; auto. Qed.
Lemma Forall2_firstn : forall A B (R : A -> B -> Prop) l m, Forall2 R l m -> forall n, Forall2 R (firstn n l) (firstn n m).
Proof. intros A B R l m H. induction H; intros [|n]; cbn [firstn]; constructor; auto. Qed.
Lemma Forall_share : forall A (P : A -> Prop) l a b, Forall P l -> Forall P (firstn a (skipn b l)).
Proof.
  intros A P l a b H. apply Forall_forall. intros x X. rewrite Forall_forall in H. apply H. apply firstn_in in X.
  rewrite <- (firstn_skipn b l). apply in_or_app. right. exact X.
Qed.

Lemma out_all : forall (ts : list thread) (ls : list (list answer)), List.length ts = List.length ls ->
  (forall i t l, nth_error ts i = Some t -> nth_error ls i = Some l -> th_out t = l) -> map th_out ts = ls.
Proof.
  induction ts as [|t ts IH]; intros [|l ls] L H; try discriminate; [reflexivity|]. cbn [map]. f_equal; [exact (H 0 t l eq_refl eq_refl)|].
  apply IH; [cbn in L; lia|]. intros i. exact (H (S i)).
Qed.

Lemma executes : forall e kt flt qs cs t sched, Forall2 (call_of kt) qs cs -> Forall (answered e kt flt) qs ->
  match flt with FSurf f it => it = iter_new f | FBloom _ => True end ->
  t = 1 \/ (exists d, flt = FBloom d) \/ (exists txn, cs = map CLookup txn) -> let per := List.length cs / t in gives sched t (14 * per) ->
  exists ns, execute e flt (shares t per cs) sched = Ok ns /\ tally (yes e kt flt) (firstn (per * t) qs) (sum ns).
Proof.
  intros e kt flt qs cs t sched HC HA HI ONE per GV.
  assert (SH : forall i, Forall2 (call_of kt) (firstn per (skipn (per * i) qs)) (firstn per (skipn (per * i) cs)) /\ Forall (answered e kt flt) (firstn per (skipn (per * i) qs))).
  { intros i. split; [apply Forall2_firstn, Forall2_skipn; exact HC|apply Forall_share; exact HA]. }
  unfold shares. destruct flt as [f it|d].
  - subst it.
    assert (PL : exists ls, Forall2 (fun p l => answers e f p = Ok l) (map (fun i => firstn per (skipn (per * i) cs)) (seq 0 t)) ls /\
      Forall2 (fun p l => List.length l = List.length p) (map (fun i => firstn per (skipn (per * i) cs)) (seq 0 t)) ls /\
      Forall2 (fun x l => tally (yes e kt (FSurf f (iter_new f))) x (sum (map yes_of l))) (map (fun i => firstn per (skipn (per * i) qs)) (seq 0 t)) ls).
    { clear GV ONE. induction (seq 0 t) as [|i is (ls & I1 & I2 & I3)]; [exists []; repeat split; constructor|]. destruct (SH i) as [S1 S2].
      destruct (plays e kt f _ _ S1 S2 (iter_new f) [] (mi_new e f)) as (l & P1 & P2 & P3). exists (l :: ls). cbn [map]. repeat split; constructor; assumption. }
    destruct PL as (ls & P1 & P2 & P3).
    destruct (readers e f _ ls P1) with (sched := sched) as (sh & ts & R1 & R2 & R3).
    { destruct ONE as [->|[(d & X)|(txn & ->)]]; [| discriminate X |].
      - intros i j p q Hi Hj _ _. destruct i as [|i], j as [|j]; auto; cbn in *; rewrite ?nth_error_nil in *; try destruct i; try destruct j; discriminate.
      - intros i j p q Hi _ Ui _. exfalso. apply nth_error_In in Hi. apply in_map_iff in Hi. destruct Hi as (k & <- & _).
        apply existsb_exists in Ui. destruct Ui as (c & C1 & C2). apply firstn_in in C1.
        assert (C3 : In c (map CLookup txn)) by (rewrite <- (firstn_skipn (per * k)); apply in_or_app; right; exact C1).
        apply in_map_iff in C3. destruct C3 as (q' & <- & _). discriminate C2. }
    assert (LL : List.length ls = List.length (map (fun i => firstn per (skipn (per * i) cs)) (seq 0 t))) by (symmetry; eapply Forall2_len; exact P1).
    assert (OUT : map th_out ts = ls).
    { apply out_all; [congruence|]. intros i th l Ht Hl.
      destruct (nth_error (map (fun i => firstn per (skipn (per * i) cs)) (seq 0 t)) i) as [p|] eqn:Hp.
      2: { apply nth_error_None in Hp. rewrite <- LL in Hp. apply nth_error_None in Hp. congruence. }
      destruct (R3 i p th l Hp Ht Hl) as [_ R]. apply R. clear R.
      assert (LP : List.length p <= per).
      { apply nth_error_In in Hp. apply in_map_iff in Hp. destruct Hp as (k & <- & _). rewrite firstn_length. lia. }
      assert (i < t). { assert (X : nth_error (map (fun i => firstn per (skipn (per * i) cs)) (seq 0 t)) i <> None) by congruence.
        apply nth_error_Some in X. rewrite map_length, seq_length in X. exact X. }
      specialize (GV i H). nia. }
    exists (map (fun t => sum (map yes_of (th_out t))) ts). unfold execute. rewrite R1. cbn [bind].
    assert (forallb (fun '(t0, p) => List.length (th_out t0) =? List.length p) (combine ts (map (fun i => firstn per (skipn (per * i) cs)) (seq 0 t))) = true) as ->.
    { clear - OUT P2. subst ls. revert P2. generalize (map (fun i => firstn per (skipn (per * i) cs)) (seq 0 t)). induction ts as [|x ts IH]; intros ps P2; [reflexivity|].
      cbn [map] in P2. inversion P2; subst. cbn [combine forallb]. rewrite H2, Nat.eqb_refl. apply IH. assumption. }
    split; [reflexivity|]. rewrite <- concat_shares. apply tally_concat.
    rewrite <- (map_map th_out (fun l => sum (map yes_of l)) ts), OUT. clear - P3. induction P3; cbn [map]; constructor; auto.
  - assert (PL : exists ns, mapM (total (bloom_call d)) (map (fun i => firstn per (skipn (per * i) cs)) (seq 0 t)) = Ok ns /\
      Forall2 (tally (yes e kt (FBloom d))) (map (fun i => firstn per (skipn (per * i) qs)) (seq 0 t)) ns).
    { clear GV ONE. induction (seq 0 t) as [|i is (ns & I1 & I2)]; [exists []; split; [reflexivity|constructor]|]. destruct (SH i) as [S1 S2].
      destruct (bloom_counts e kt d _ _ S1 S2) as (n & N1 & N2). exists (n :: ns). cbn [map mapM]. rewrite N1. cbn [bind]. rewrite I1. split; [reflexivity|constructor; assumption]. }
    destruct PL as (ns & N1 & N2). exists ns. split; [exact N1|]. rewrite <- concat_shares. apply tally_concat. exact N2.
Qed.

(** ** the reference answers *)
Lemma above_ok : forall keys q u, StronglySorted kle keys ->
  (match ht_upper_bound keys q with Some k => str_lt k u | None => false end = true <-> exists k, In k keys /\ klt q k /\ klt k u).
Proof.
  unfold ht_upper_bound. induction keys as [|x keys IH]; intros q u H; cbn [find].
  - split; [discriminate|intros (k & [] & _)].
  - inversion H as [|? ? H1 H2]; subst. rewrite Forall_forall in H2. destruct (str_lt q x) eqn:E.
    + apply str_lt_ok in E. rewrite str_lt_ok. split.
      * intros L. exists x. split; [left; auto|auto].
      * intros (k & A & B & C). destruct A as [<-|A]; [exact C|]. eapply kle_klt; [apply H2; exact A|exact C].
    + rewrite (IH q u H1). split; intros (k & A & B & C); exists k.
      * split; [right; exact A|auto].
      * destruct A as [<-|A]; [|auto]. exfalso. apply str_lt_ok in B. congruence.
Qed.
Lemma above_count : forall kt keys (txn : list key), StronglySorted kle keys -> Forall (proper kt) (map Range txn) ->
  exists t, total (true_above kt keys) txn = Ok t /\ tally (above kt keys) txn t.
Proof.
  intros kt keys txn H. induction txn as [|q txn IH]; intros P; [exists 0; split; [reflexivity|constructor]|].
  cbn [map] in P. inversion P as [|? ? P1 P2]; subst. destruct P1 as (_ & u & U). destruct (IH P2) as (t & T1 & T2).
  pose proof (above_ok keys q u H) as B. set (b := match ht_upper_bound keys q with Some k => str_lt k u | None => false end) in B.
  assert (BA : b = true <-> above kt keys q).
  { rewrite B. split; [intros (k & K); exists u, k; auto|]. intros (u' & k & U' & K). rewrite (upper_fun _ _ _ _ U' U) in K. exists k. exact K. }
  exists (b2n b + t). rewrite total_cons. assert (true_above kt keys q = Ok (b2n b)) as ->.
  { unfold true_above, b. destruct (ht_upper_bound keys q); [|reflexivity]. rewrite (upper_ok _ _ _ U). reflexivity. }
  cbn [bind]. rewrite T1. split; [reflexivity|]. destruct b; cbn [b2n Nat.add]; [apply tally_yes; [apply BA; reflexivity|exact T2]|apply tally_no; [|exact T2]].
  intros X. apply BA in X. discriminate.
Qed.

Lemma range_calls : forall kt (txn : list key), Forall (proper kt) (map Range txn) ->
  exists cs, mapM (fun q => u <- getUpperBoundKey kt q ;; Ok (CRange q true u true)) txn = Ok cs /\ Forall2 (call_of kt) (map Range txn) cs.
Proof.
  intros kt txn. induction txn as [|q txn IH]; intros P; [exists []; split; [reflexivity|constructor]|].
  cbn [map] in P. inversion P as [|? ? P1 P2]; subst. destruct P1 as (_ & u & U). destruct (IH P2) as (cs & C1 & C2). exists (CRange q true u true :: cs).
  cbn [mapM]. rewrite (upper_ok _ _ _ U). cbn [bind]. rewrite C1. split; [reflexivity|]. cbn [map]. constructor; [constructor; apply upper_ok; exact U|exact C2].
Qed.
Lemma point_calls : forall kt txn, Forall2 (call_of kt) (map Point txn) (map CLookup txn).
Proof. intros kt txn. induction txn; cbn [map]; constructor; auto. constructor. Qed.

Lemma massert_sub : forall e p tp (r : res (option report)), (massert e (0 <=? Z.of_nat p - Z.of_nat tp)%Z ;;; r) = if asserts e && (p <? tp) then Fail AssertFail else r.
Proof.
  intros. unfold massert. replace (negb (0 <=? Z.of_nat p - Z.of_nat tp)%Z) with (p <? tp).
  2: { destruct (Nat.ltb_spec p tp), (Z.leb_spec 0 (Z.of_nat p - Z.of_nat tp)); cbn [negb]; auto; lia. }
  destruct (asserts e && (p <? tp)); reflexivity.
Qed.

Lemma tally_le : forall A (P Q : A -> Prop) l p t, tally P l p -> tally Q l t -> (forall x, In x l -> Q x -> P x) -> t <= p.
Proof. intros A P Q l p t HP HQ H. destruct (tally_split _ _ _ _ _ _ HP HQ H) as (fp & _ & S). lia. Qed.

Section Multi.
Variables (e : env) (sz : N) (shuffle : list key -> list key) (a : args) (t : nat) (load txn keys : list key) (o : option config) (flt : filter) (sched : list nat).
Hypotheses (HM : machine e) (CA : check_multi a = true).
Hypotheses (SH : Permutation (shuffle load) load) (HB : Forall is_bytes load) (HN : Forall (fun k => k <> []) load).
Hypotheses (TK : taken (shuffle load) (a_percent a) keys) (NM : names (a_filter a) (a_len a) o).
Hypotheses (OK : o = None \/ (keys <> [] /\ ~ lone_ff keys /\ (small keys \/ quiet e))).
Hypotheses (CF : createFilter e (a_filter a) (a_len a) keys = Ok flt).
Hypotheses (HT : 1 <= t) (GV : gives sched t (14 * (List.length txn / t))).

Lemma multi_mixed : a_filter a = str "SuRFMixed" -> a_len a <= 32.
Proof using CA. intros X. apply multi_accepted in CA. destruct CA as (_ & F & _). contradiction. Qed.

Lemma flt_new : match flt with FSurf f it => it = iter_new f | FBloom _ => True end.
Proof using NM CF CA OK.
  pose proof (flt_shape e a keys o flt (multi_checks a CA) multi_mixed NM OK CF) as S. destruct o as [c|].
  - destruct S as (f & -> & _). reflexivity.
  - destruct S as (d & -> & _). exact I.
Qed.

Lemma multi_point : a_query a = str "point" -> Forall is_bytes txn ->
  exists p tp, tally (fun q => lookup e flt q = Ok true) (firstn (List.length txn / t * t) txn) p /\ tally (fun q => In q keys) txn tp /\
    (List.length txn mod t = 0 -> tp <= p) /\
    main_multi e sz shuffle a t load txn sched = if asserts e && (p <? tp) then Fail AssertFail
      else Ok (Some (mkReport p tp (Z.of_nat p - Z.of_nat tp) (Z.of_nat (List.length txn) - Z.of_nat tp) 0 (memory sz flt))).
Proof using All.
  intros QT HX. pose proof (multi_checks a CA) as CA'.
  assert (PR : Forall (proper (a_key a)) (map Point txn)).
  { apply Forall_forall. intros x Hx. apply in_map_iff in Hx. destruct Hx as (q & <- & Hq). rewrite Forall_forall in HX. exact (HX q Hq). }
  assert (Q : queries (a_query a) txn (map Point txn)) by (left; auto).
  pose proof (all_answered e sz shuffle a load txn keys o flt (map Point txn) HM CA' multi_mixed SH HB HN TK NM OK CF Q PR) as AN.
  destruct (executes e (a_key a) flt (map Point txn) (map CLookup txn) t sched (point_calls _ _) AN flt_new) as (ns & E & T).
  { right; right. exists txn. reflexivity. }
  { rewrite map_length. exact GV. }
  rewrite map_length in E, T. rewrite firstn_map in T. apply tally_map in T.
  destruct (refs_count (a_key a) keys (map Point txn) (proj1 TK) PR) as (tp & T3 & T4). rewrite total_map in T3. apply tally_map in T4.
  exists (sum ns), tp. split; [exact T|]. split; [exact T4|]. split.
  - intros Z. assert (W : firstn (List.length txn / t * t) txn = txn).
    { apply firstn_all2. pose proof (Nat.div_mod (List.length txn) t). lia. }
    assert (T' : tally (fun q => lookup e flt q = Ok true) txn (sum ns)) by (rewrite <- W; exact T).
    eapply tally_le; [exact T'|exact T4|]. intros q Hq R.
    apply (no_miss e sz shuffle a load txn keys o flt (map Point txn) HM CA' multi_mixed SH HB HN TK NM OK CF Q PR) with (x := Point q); [|apply in_map; exact Hq|exact R].
    apply Forall_forall. intros x Hx. apply in_map_iff in Hx. destruct Hx as (q' & <- & _). exact I.
  - unfold main_multi. rewrite CA. cbn [negb]. rewrite (taken_sort _ _ _ _ TK SH), (checked_alter a CA'). cbn [bind].
    unfold all_calls. rewrite QT. change (is (str "point") "range") with false. change (is (str "point") "point") with true. cbv iota. cbn [bind]. rewrite CF. cbn [bind].
    destruct (Nat.eqb_spec t 0); [lia|].
    match goal with |- context [execute ?a ?b ?c ?d] => replace (execute a b c d) with (Ok ns : res (list nat)) by (symmetry; exact E) end. cbn [bind].
    change (total (fun x => ref (a_key a) keys (Point x)) txn) with (total (true_point keys) txn) in T3. rewrite T3. cbn [bind].
    apply massert_sub.
Qed.

Lemma multi_range : a_query a = str "range" -> Forall (proper (a_key a)) (map Range txn) -> t = 1 \/ a_filter a = str "Bloom" ->
  exists p tp, tally (yes e (a_key a) flt) (firstn (List.length txn / t * t) (map Range txn)) p /\ tally (above (a_key a) keys) txn tp /\
    (t = 1 -> Forall (fair e (a_key a) keys o flt) (map Range txn) -> tp <= p) /\
    main_multi e sz shuffle a t load txn sched = if asserts e && (p <? tp) then Fail AssertFail
      else Ok (Some (mkReport p tp (Z.of_nat p - Z.of_nat tp) (Z.of_nat (List.length txn) - Z.of_nat tp) 0 (memory sz flt))).
Proof using All.
  intros QT PR ONE. pose proof (multi_checks a CA) as CA'.
  assert (Q : queries (a_query a) txn (map Range txn)) by (right; left; auto).
  pose proof (all_answered e sz shuffle a load txn keys o flt (map Range txn) HM CA' multi_mixed SH HB HN TK NM OK CF Q PR) as AN.
  destruct (range_calls (a_key a) txn PR) as (cs & C1 & C2).
  assert (LC : List.length cs = List.length txn) by (etransitivity; [symmetry; eapply Forall2_len; exact C2|apply map_length]).
  destruct (executes e (a_key a) flt (map Range txn) cs t sched C2 AN flt_new) as (ns & E & T).
  { destruct ONE as [X|X]; [left; exact X|right; left]. apply (names_bloom _ _ _ NM) in X.
    pose proof (flt_shape e a keys o flt CA' multi_mixed NM OK CF) as S. rewrite X in S. destruct S as (d & S & _). eauto. }
  { rewrite LC. exact GV. }
  rewrite LC in E, T.
  destruct (above_count (a_key a) keys txn (proj1 TK) PR) as (tp & T3 & T4).
  exists (sum ns), tp. split; [exact T|]. split; [exact T4|]. split.
  - intros -> FR. assert (W : firstn (List.length txn / 1 * 1) (map Range txn) = map Range txn).
    { apply firstn_all2. rewrite map_length, Nat.div_1_r, Nat.mul_1_r. apply Nat.le_refl. }
    assert (T' : tally (yes e (a_key a) flt) (map Range txn) (sum ns)) by (rewrite <- W; exact T).
    apply tally_map in T'. eapply tally_le; [exact T'|exact T4|]. intros q Hq (u & k & U & K1 & K2 & K3).
    apply (no_miss e sz shuffle a load txn keys o flt (map Range txn) HM CA' multi_mixed SH HB HN TK NM OK CF Q PR FR); [apply in_map; exact Hq|].
    exists u, k. split; [exact U|]. split; [exact K1|]. split; [left; exact K2|exact K3].
  - unfold main_multi. rewrite CA. cbn [negb]. rewrite (taken_sort _ _ _ _ TK SH), (checked_alter a CA'). cbn [bind].
    unfold all_calls. rewrite QT. change (is (str "range") "range") with true. change (is (str "range") "point") with false. cbv iota. rewrite C1. cbn [bind]. rewrite CF. cbn [bind].
    destruct (Nat.eqb_spec t 0); [lia|].
    match goal with |- context [execute ?a ?b ?c ?d] => replace (execute a b c d) with (Ok ns : res (list nat)) by (symmetry; exact E) end. cbn [bind]. rewrite T3. cbn [bind]. apply massert_sub.
Qed.
End Multi.

Lemma multi_exit : forall e sz shuffle a t load txn sched, main_multi e sz shuffle a t load txn sched = Ok None <-> ~ accepted_multi a.
Proof.
  intros. rewrite <- multi_accepted. unfold main_multi. destruct (check_multi a); cbn [negb].
  - split; [|intros X; destruct (X eq_refl)]. intros H. exfalso.
    repeat match type of H with
    | bind ?x _ = _ => destruct x; cbn [bind] in H; [|discriminate H]
    | (if ?x then _ else _) = _ => destruct x; [discriminate H|]
    end. discriminate H.
  - split; [discriminate|reflexivity].
Qed.

Theorem multi_point_run : forall e sz shuffle a t load txn keys sched,
  machine e -> accepted_multi a -> a_query a = str "point" ->
  Permutation (shuffle load) load -> Forall is_bytes load -> Forall (fun k => k <> []) load -> Forall is_bytes txn ->
  taken (shuffle load) (a_percent a) keys ->
  a_filter a = str "Bloom" \/ (keys <> [] /\ ~ lone_ff keys /\ small keys) ->
  1 <= t -> gives sched t (14 * (List.length txn / t)) ->
  exists flt p tp, createFilter e (a_filter a) (a_len a) keys = Ok flt /\
    tally (fun q => lookup e flt q = Ok true) (firstn (List.length txn / t * t) txn) p /\ tally (fun q => In q keys) txn tp /\
    (List.length txn mod t = 0 -> tp <= p) /\
    main_multi e sz shuffle a t load txn sched = if asserts e && (p <? tp) then Fail AssertFail
      else Ok (Some (mkReport p tp (Z.of_nat p - Z.of_nat tp) (Z.of_nat (List.length txn) - Z.of_nat tp) 0 (memory sz flt))).
Proof.
  intros e sz shuffle a t load txn keys sched HM AC QT SH HB HN HX TK OK HT GV. apply multi_accepted in AC.
  pose proof (multi_checks a AC) as CA. pose proof (multi_mixed a AC) as MX.
  destruct (filter_made e shuffle a load keys HM CA MX SH HB HN TK ltac:(tauto)) as (flt & CF). destruct (names_some a CA) as (o & NM).
  assert (OK' : o = None \/ (keys <> [] /\ ~ lone_ff keys /\ (small keys \/ quiet e))).
  { destruct OK as [X|X]; [left; apply (names_bloom _ _ _ NM); exact X|right; tauto]. }
  exists flt. destruct (multi_point e sz shuffle a t load txn keys o flt sched HM AC SH HB HN TK NM OK' CF HT GV QT HX) as (p & tp & T). exists p, tp. split; [exact CF|exact T].
Qed.

Theorem multi_range_run : forall e sz shuffle a t load txn keys o flt sched,
  machine e -> accepted_multi a -> a_query a = str "range" -> t = 1 \/ (1 <= t /\ a_filter a = str "Bloom") ->
  Permutation (shuffle load) load -> Forall is_bytes load -> Forall (fun k => k <> []) load ->
  taken (shuffle load) (a_percent a) keys -> names (a_filter a) (a_len a) o ->
  o = None \/ (keys <> [] /\ ~ lone_ff keys /\ (small keys \/ quiet e)) ->
  createFilter e (a_filter a) (a_len a) keys = Ok flt ->
  Forall (proper (a_key a)) (map Range txn) -> gives sched t (14 * (List.length txn / t)) ->
  exists p tp, tally (yes e (a_key a) flt) (firstn (List.length txn / t * t) (map Range txn)) p /\ tally (above (a_key a) keys) txn tp /\
    (t = 1 -> Forall (fair e (a_key a) keys o flt) (map Range txn) -> tp <= p) /\
    main_multi e sz shuffle a t load txn sched = if asserts e && (p <? tp) then Fail AssertFail
      else Ok (Some (mkReport p tp (Z.of_nat p - Z.of_nat tp) (Z.of_nat (List.length txn) - Z.of_nat tp) 0 (memory sz flt))).
Proof.
  intros e sz shuffle a t load txn keys o flt sched HM AC QT ONE SH HB HN TK NM OK CF PR GV. apply multi_accepted in AC.
  apply (multi_range e sz shuffle a t load txn keys o flt sched HM AC SH HB HN TK NM OK CF ltac:(lia) GV QT PR). tauto.
Qed.
