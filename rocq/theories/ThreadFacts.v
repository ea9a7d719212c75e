(** Threads that do not share iter_ do not disturb each other. *)
From Coq Require Import Arith List NArith ZArith Bool Lia.
From Verif Require Import Res Word Config Builder Dense Sparse Surf Spec SpecApi SpecIter SpecFilter SpecSession Threads SafeApi.
Import ListNotations.

Lemma Forall2_len : forall A B (R : A -> B -> Prop) x y, Forall2 R x y -> length x = length y.
Proof. induction 1; cbn; auto. Qed.

Section Threads.
Variables (e : env) (f : surf).

(** [p], started in [sh] and not interrupted, ends in [sh'] with answer [a]
    after [n] steps *)
Inductive runs : proc -> shared -> shared -> answer -> nat -> Prop :=
| runs_done : forall a sh, runs (Done a) sh sh a 0
| runs_step : forall k sh sh1 p sh2 a n, k sh = Ok (sh1, p) -> runs p sh1 sh2 a n -> runs (Step k) sh sh2 a (S n).

(** the same for a procedure that leaves iter_ and iter2_ alone *)
Inductive pure : proc -> answer -> nat -> Prop :=
| pure_done : forall a, pure (Done a) a 0
| pure_step : forall k p a n, (forall sh, k sh = Ok (sh, p)) -> pure p a n -> pure (Step k) a (S n).
Lemma pure_runs : forall p a n, pure p a n -> forall sh, runs p sh sh a n.
Proof. induction 1; intros; [constructor|]. eapply runs_step; eauto. Qed.

Lemma runs_change : forall g p it it2 it' sh2 a n, g it = Ok it' -> runs p (it', it2) sh2 a n -> runs (Change g p) (it, it2) sh2 a (S n).
Proof. intros. eapply runs_step; [|eassumption]. cbn [fst snd]. rewrite H. reflexivity. Qed.
Lemma runs_ask : forall (t : iter -> bool) y n sh sh2 a c, runs (if t (fst sh) then y else n) sh sh2 a c -> runs (Ask t y n) sh sh2 a (S c).
Proof. intros. eapply runs_step; [reflexivity|]. assumption. Qed.

Lemma lookup_pure : forall q b, lookupKey e f q = Ok b -> exists n, n <= 12 /\ pure (lookup_proc e f q) (ABool b) n.
Proof.
  intros q b H. unfold lookupKey in H. destruct (d_lookupKey e (sf_dense f) q) as [[found n]|] eqn:E; [|discriminate]. cbn [bind] in H.
  destruct found; cbn [negb] in H.
  - destruct (negb (n =? 0)) eqn:En.
    + exists 2. split; [lia|]. unfold lookup_proc. eapply pure_step; [intros sh; rewrite E; cbn [bind negb]; rewrite En; reflexivity|].
      eapply pure_step; [intros sh; rewrite H; reflexivity|]. constructor.
    + injection H as <-. exists 1. split; [lia|]. unfold lookup_proc. eapply pure_step; [intros sh; rewrite E; cbn [bind negb]; rewrite En; reflexivity|]. constructor.
  - injection H as <-. exists 1. split; [lia|]. unfold lookup_proc. eapply pure_step; [intros sh; rewrite E; reflexivity|]. constructor.
Qed.

Lemma end_runs : forall r ri it it2 b it',
  (if negb (it_valid it) then Ok (false, it)
   else c <- it_compare e f it r ;;
     if (c =? kCouldBePositive)%Z then Ok (true, it)
     else if ri : bool then Ok ((c <=? 0)%Z, it) else Ok ((c <? 0)%Z, it)) = Ok (b, it') ->
  exists n, n <= 2 /\ runs (range_end e f r ri) (it, it2) (it', it2) (ABool b) n.
Proof.
  intros r ri it it2 b it' H. destruct (it_valid it) eqn:V; cbn [negb] in H.
  - destruct (it_compare e f it r) as [c|] eqn:E; [|discriminate]. cbn [bind] in H. exists 2. split; [lia|].
    apply runs_ask. cbn [fst]. rewrite V. eapply runs_step; [cbn [fst]; rewrite E; reflexivity|].
    destruct (c =? kCouldBePositive)%Z; [injection H as <- <-; constructor|]. destruct ri; injection H as <- <-; constructor.
  - injection H as <- <-. exists 1. split; [lia|]. apply runs_ask. cbn [fst]. rewrite V. constructor.
Qed.

Lemma range_runs : forall l li r ri it it2 b it', lookupRange_st e f it l li r ri = Ok (b, it') ->
  exists n, n <= 12 /\ runs (range_proc e f l li r ri) (it, it2) (it', it2) (ABool b) n.
Proof.
  intros l li r ri it it2 b it' H. unfold lookupRange_st in H. cbv zeta in H.
  destruct (d_moveToKeyGreaterThan e (sf_dense f) l li (it_d (it_clear it))) as [[fp d]|] eqn:E; [|discriminate]. cbn [bind] in H.
  assert (GO : forall p n, runs p (it_setD (it_clear it) d, it2) (it', it2) (ABool b) n ->
    runs (Change (fun it => Ok (it_clear it)) (Change (fun it => '(_, d) <- d_moveToKeyGreaterThan e (sf_dense f) l li (it_d it) ;; Ok (it_setD it d)) p))
      (it, it2) (it', it2) (ABool b) (2 + n)).
  { intros p n R. eapply runs_change; [reflexivity|]. eapply runs_change; [rewrite E; reflexivity|]. exact R. }
  unfold range_proc. destruct (di_valid d) eqn:V; cbn [negb] in H.
  2: { injection H as <- <-. exists 3. split; [lia|]. apply (GO _ 1). apply runs_ask. cbn [fst it_setD it_d]. rewrite V. constructor. }
  destruct (di_complete d) eqn:C; cbn [negb bind] in H.
  { destruct (end_runs r ri _ it2 b it' H) as (n & Hn & R). exists (4 + n). split; [lia|]. apply (GO _ (2 + n)).
    apply runs_ask. cbn [fst it_setD it_d]. rewrite V. apply runs_ask. cbn [fst it_setD it_d]. rewrite C. exact R. }
  destruct (di_search d) eqn:S; cbn [negb bind] in H.
  - destruct (di_left d) eqn:L; cbn [negb bind] in H.
    + destruct (end_runs r ri _ it2 b it' H) as (n & Hn & R). exists (6 + n). split; [lia|]. apply (GO _ (4 + n)).
      apply runs_ask. cbn [fst it_setD it_d]. rewrite V. apply runs_ask. cbn [fst it_setD it_d]. rewrite C.
      apply runs_ask. cbn [fst it_setD it_d]. rewrite S. apply runs_ask. cbn [fst it_setD it_d]. rewrite L. exact R.
    + destruct (si_moveToLeftMostKey e (sf_sparse f) _) as [s|] eqn:ES; [|discriminate]. cbn [bind] in H.
      destruct (end_runs r ri _ it2 b it' H) as (n & Hn & R). exists (8 + n). split; [lia|]. apply (GO _ (6 + n)).
      apply runs_ask. cbn [fst it_setD it_d]. rewrite V. apply runs_ask. cbn [fst it_setD it_d]. rewrite C.
      apply runs_ask. cbn [fst it_setD it_d]. rewrite S. apply runs_ask. cbn [fst it_setD it_d]. rewrite L.
      eapply runs_change; [reflexivity|]. eapply runs_change; [rewrite ES; reflexivity|]. exact R.
  - destruct (s_moveToKeyGreaterThan e (sf_sparse f) l li _) as [[fp' s]|] eqn:ES; [|discriminate]. cbn [bind] in H.
    destruct (si_valid s) eqn:SV; cbn [negb bind] in H.
    + destruct (end_runs r ri _ it2 b it' H) as (n & Hn & R). exists (8 + n). split; [lia|]. apply (GO _ (6 + n)).
      apply runs_ask. cbn [fst it_setD it_d]. rewrite V. apply runs_ask. cbn [fst it_setD it_d]. rewrite C.
      apply runs_ask. cbn [fst it_setD it_d]. rewrite S.
      eapply runs_change; [reflexivity|]. eapply runs_change; [rewrite ES; reflexivity|]. apply runs_ask. cbn [fst it_setS it_s]. rewrite SV. exact R.
    + destruct (incrementDenseIter e f _) as [[ok it3]|] eqn:EI; [|discriminate]. cbn [bind] in H.
      destruct (end_runs r ri _ it2 b it' H) as (n & Hn & R). exists (9 + n). split; [lia|]. apply (GO _ (7 + n)).
      apply runs_ask. cbn [fst it_setD it_d]. rewrite V. apply runs_ask. cbn [fst it_setD it_d]. rewrite C.
      apply runs_ask. cbn [fst it_setD it_d]. rewrite S.
      eapply runs_change; [reflexivity|]. eapply runs_change; [rewrite ES; reflexivity|]. apply runs_ask. cbn [fst it_setS it_s]. rewrite SV.
      eapply runs_change; [rewrite EI; reflexivity|]. exact R.
Qed.

Lemma count_runs : forall l r it it2 it' k, moveToKeyGreaterThan e f l true = Ok it' -> approxCount e f l r = Ok k ->
  exists n it2', n <= 12 /\ runs (count_proc e f l r) (it, it2) (it', it2') (ANum k) n.
Proof.
  intros l r it it2 it' k H1 H2. unfold approxCount in H2. rewrite H1 in H2. cbn [bind] in H2.
  destruct (it_valid it') eqn:V; cbn [negb] in H2.
  - destruct (moveToKeyGreaterThan e f r true) as [b|] eqn:EB; [|discriminate]. cbn [bind] in H2.
    destruct (it_valid b) eqn:VB; cbn [negb bind] in H2.
    + exists 7, b. split; [lia|]. unfold count_proc. eapply runs_change; [reflexivity|]. eapply runs_step; [reflexivity|].
      eapply runs_change; [exact H1|]. apply runs_ask. cbn [fst]. rewrite V. eapply runs_step; [rewrite EB; reflexivity|].
      eapply runs_step; [reflexivity|]. cbn [snd]. rewrite VB. eapply runs_step; [cbn [fst snd]; rewrite H2; reflexivity|]. constructor.
    + destruct (moveToLast e f) as [b'|] eqn:EL; [|discriminate]. cbn [bind] in H2.
      exists 8, b'. split; [lia|]. unfold count_proc. eapply runs_change; [reflexivity|]. eapply runs_step; [reflexivity|].
      eapply runs_change; [exact H1|]. apply runs_ask. cbn [fst]. rewrite V. eapply runs_step; [rewrite EB; reflexivity|].
      eapply runs_step; [reflexivity|]. cbn [snd]. rewrite VB. eapply runs_step; [rewrite EL; reflexivity|].
      eapply runs_step; [cbn [fst snd]; rewrite H2; reflexivity|]. constructor.
  - injection H2 as <-. eexists 4, _. split; [lia|]. unfold count_proc. eapply runs_change; [reflexivity|]. eapply runs_step; [reflexivity|].
    eapply runs_change; [exact H1|]. apply runs_ask. cbn [fst]. rewrite V. constructor.
Qed.

(** A call that does not use iter_ neither reads nor writes it. *)
Lemma step_private : forall cl se a se' m, uses_member cl = false -> step e f se cl = Ok (a, se') ->
  step e f (mkSession m (se_its se)) cl = Ok (a, mkSession m (se_its se')) /\ se_member se' = se_member se.
Proof.
  intros cl se a se' m U H. destruct cl; try discriminate; cbn [step se_its se_member] in *;
    try (destruct (nth_error (se_its se) i) as [it|]; [|injection H as <- <-; auto]);
    try (destruct (nth_error (se_its se) j) as [jt|]; [|injection H as <- <-; auto]);
    try (destruct (it_valid it); [|injection H as <- <-; auto]);
    match type of H with bind ?x _ = _ => destruct x as [y|] end; try discriminate; cbn [bind] in *; try destruct y;
    unfold add_iter in *; injection H as <- <-; auto.
Qed.

Lemma begin_private : forall cl se a se', uses_member cl = false -> step e f se cl = Ok (a, se') ->
  exists p n, begin e f (se_its se) cl = Ok (se_its se', p) /\ n <= 12 /\ pure p a n.
Proof.
  intros cl se a se' U H.
  assert (GEN : begin e f (se_its se) cl = ('(a, se) <- step e f (mkSession (iter_new f) (se_its se)) cl ;; Ok (se_its se, Done a)) ->
    exists p n, begin e f (se_its se) cl = Ok (se_its se', p) /\ n <= 12 /\ pure p a n).
  { intros ->. destruct (step_private cl se a se' (iter_new f) U H) as [-> _]. cbn [bind se_its]. exists (Done a), 0. repeat split; [lia|constructor]. }
  destruct cl; try discriminate; try (apply GEN; reflexivity).
  cbn [step] in H. destruct (lookupKey e f q) as [b|] eqn:E; [|discriminate]. cbn [bind] in H. injection H as <- <-.
  destruct (lookup_pure q b E) as (n & Hn & R). exists (lookup_proc e f q), n. auto.
Qed.

Lemma begin_runs : forall cl se a se' it2, step e f se cl = Ok (a, se') ->
  exists p n it2', begin e f (se_its se) cl = Ok (se_its se', p) /\ n <= 12 /\ runs p (se_member se, it2) (se_member se', it2') a n.
Proof.
  intros cl se a se' it2 H. destruct (uses_member cl) eqn:U.
  - destruct cl; try discriminate; cbn [step begin] in *.
    + destruct (lookupRange_st e f (se_member se) l li r ri) as [[b it]|] eqn:E; [|discriminate]. cbn [bind] in H. injection H as <- <-.
      destruct (range_runs _ _ _ _ _ it2 _ _ E) as (n & Hn & R). eexists _, n, it2. cbn [se_member se_its]. auto.
    + destruct (moveToKeyGreaterThan e f l true) as [it|] eqn:E; [|discriminate]. cbn [bind] in H.
      destruct (approxCount e f l r) as [k|] eqn:EA; [|discriminate]. cbn [bind] in H. injection H as <- <-.
      destruct (count_runs l r (se_member se) it2 it k E EA) as (n & it2' & Hn & R). eexists _, n, it2'. cbn [se_member se_its]. auto.
  - destruct (begin_private cl se a se' U H) as (p & n & HB & Hn & R).
    exists p, n, it2. destruct (step_private cl se a se' (se_member se) U H) as [_ ->]. auto using pure_runs.
Qed.

(** [t] will give the answers [l] in at most [m] more steps: a thread that does
    not use iter_, and one that does *)
Definition alone (t : thread) (l : list answer) (m : nat) : Prop :=
  Forall (fun cl => uses_member cl = false) (th_todo t) /\
  match th_now t with
  | None => exists it l', play e f (mkSession it (th_its t)) (th_todo t) = Ok l' /\ th_out t ++ l' = l /\ 14 * length (th_todo t) <= m
  | Some p => exists it l' a n, pure p a n /\ play e f (mkSession it (th_its t)) (th_todo t) = Ok l' /\
      th_out t ++ a :: l' = l /\ 14 * length (th_todo t) + n + 1 <= m
  end.
Definition owner (sh : shared) (t : thread) (l : list answer) (m : nat) : Prop :=
  match th_now t with
  | None => exists l', play e f (mkSession (fst sh) (th_its t)) (th_todo t) = Ok l' /\ th_out t ++ l' = l /\ 14 * length (th_todo t) <= m
  | Some p => exists l' a sh' n, runs p sh sh' a n /\ play e f (mkSession (fst sh') (th_its t)) (th_todo t) = Ok l' /\
      th_out t ++ a :: l' = l /\ 14 * length (th_todo t) + n + 1 <= m
  end.

Lemma alone_step : forall sh t l m, alone t l m -> exists t', thread_step e f sh t = Ok (sh, t') /\ alone t' l (pred m).
Proof.
  intros sh [now its todo out] l m [P H]. unfold thread_step. cbn [th_now th_its th_todo th_out] in *. destruct now as [p|].
  - destruct H as (it & l' & a & n & R & PL & EL & HM). destruct p as [a'|k].
    + inversion R; subst. eexists. split; [reflexivity|]. split; [exact P|]. cbn [th_now th_its th_todo th_out].
      exists it, l'. split; [exact PL|]. split; [rewrite <- app_assoc; reflexivity|lia].
    + inversion R as [|? p ? n' K R1]; subst. rewrite K. cbn [bind]. eexists. split; [reflexivity|]. split; [exact P|]. cbn [th_now th_its th_todo th_out].
      exists it, l', a, n'. split; [exact R1|]. split; [exact PL|]. split; [reflexivity|lia].
  - destruct todo as [|cl r]; [eexists; split; [reflexivity|]; split; [exact P|]; destruct H as (it & l' & H1 & H2 & H3); exists it, l'; cbn in *; auto with arith|].
    destruct H as (it & l' & PL & EL & HM). cbn [play] in PL.
    destruct (step e f (mkSession it its) cl) as [[a se']|] eqn:ES; [|discriminate]. cbn [bind] in PL.
    destruct (play e f se' r) as [l2|] eqn:EP; [|discriminate]. cbn [bind] in PL. injection PL as <-. inversion P as [|? ? P1 P2]; subst.
    destruct (begin_private cl _ a se' P1 ES) as (p & n & HB & Hn & R). cbn [se_its] in HB. rewrite HB. cbn [bind]. eexists. split; [reflexivity|].
    split; [exact P2|]. cbn [th_now th_its th_todo th_out length] in *. exists (se_member se'), l2, a, n. split; [exact R|].
    destruct se' as [mb its']. cbn [se_member se_its] in *. split; [exact EP|]. split; [reflexivity|lia].
Qed.

Lemma owner_step : forall sh t l m, owner sh t l m -> exists sh' t', thread_step e f sh t = Ok (sh', t') /\ owner sh' t' l (pred m).
Proof.
  intros sh [now its todo out] l m H. unfold owner in H. unfold thread_step. cbn [th_now th_its th_todo th_out] in *. destruct now as [p|].
  - destruct H as (l' & a & sh' & n & R & PL & EL & HM). inversion R as [a' sh0|k sh0 sh1 p' sh2 a' n' K R1]; subst.
    + eexists _, _. split; [reflexivity|]. unfold owner. cbn [th_now th_its th_todo th_out].
      exists l'. split; [exact PL|]. split; [rewrite <- app_assoc; reflexivity|lia].
    + rewrite K. cbn [bind]. eexists _, _. split; [reflexivity|]. unfold owner. cbn [th_now th_its th_todo th_out].
      exists l', a, sh', n'. split; [exact R1|]. split; [exact PL|]. split; [reflexivity|lia].
  - destruct H as (l' & PL & EL & HM). destruct todo as [|cl r].
    { eexists _, _. split; [reflexivity|]. unfold owner. cbn [th_now th_its th_todo th_out length] in *. exists l'. split; [exact PL|]. split; [exact EL|lia]. }
    cbn [play] in PL. destruct (step e f (mkSession (fst sh) its) cl) as [[a se']|] eqn:ES; [|discriminate]. cbn [bind] in PL.
    destruct (play e f se' r) as [l2|] eqn:EP; [|discriminate]. cbn [bind] in PL. injection PL as <-.
    destruct (begin_runs cl _ a se' (snd sh) ES) as (p & n & it2' & HB & Hn & R). cbn [se_its se_member] in HB, R. rewrite HB. cbn [bind].
    eexists _, _. split; [reflexivity|]. unfold owner. cbn [th_now th_its th_todo th_out length] in *.
    exists l2, a, (se_member se', it2'), n. destruct sh as [i1 i2]. cbn [fst snd] in *. split; [exact R|].
    destruct se' as [mb its']. cbn [se_member se_its fst] in *. split; [exact EP|]. split; [exact EL|lia].
Qed.

(** The threads together; [o] is the only one that uses iter_, if any. *)
Definition fine (o : nat) (sh : shared) (i : nat) (t : thread) (l : list answer) (m : nat) : Prop :=
  if i =? o then owner sh t l m else alone t l m.

Lemma run_fine : forall o sched sh ts ls ms, length ls = length ts -> length ms = length ts ->
  (forall i t l m, nth_error ts i = Some t -> nth_error ls i = Some l -> nth_error ms i = Some m -> fine o sh i t l m) ->
  exists sh' ts', run_threads e f sh ts sched = Ok (sh', ts') /\ length ts' = length ts /\
    forall i t l m, nth_error ts' i = Some t -> nth_error ls i = Some l -> nth_error ms i = Some m ->
      fine o sh' i t l (m - count_occ Nat.eq_dec sched i).
Proof.
  intros o. induction sched as [|j r IH]; intros sh ts ls ms L1 L2 H; cbn [run_threads].
  { exists sh, ts. split; [reflexivity|]. split; [reflexivity|]. intros i t l m A B C. cbn [count_occ]. rewrite Nat.sub_0_r. eapply H; eauto. }
  destruct (nth_error ts j) as [t|] eqn:Ej.
  - assert (Lj : j < length ts) by (apply nth_error_Some; congruence).
    destruct (nth_error ls j) as [l|] eqn:Elj; [|apply nth_error_None in Elj; lia].
    destruct (nth_error ms j) as [m|] eqn:Emj; [|apply nth_error_None in Emj; lia].
    pose proof (H j t l m Ej Elj Emj) as F.
    assert (ST : exists sh' t', thread_step e f sh t = Ok (sh', t') /\ fine o sh' j t' l (pred m) /\ (j <> o -> sh' = sh)).
    { unfold fine in *. destruct (j =? o) eqn:EO.
      - destruct (owner_step sh t l m F) as (sh' & t' & A & B). exists sh', t'. split; [exact A|]. split; [exact B|]. apply Nat.eqb_eq in EO. tauto.
      - destruct (alone_step sh t l m F) as (t' & A & B). exists sh, t'. auto. }
    destruct ST as (sh1 & t1 & S1 & S2 & S3). rewrite S1. cbn [bind].
    assert (GET : forall (A : Type) (x : list A) i y, nth_error (lset x i y) i = if i <? length x then Some y else None).
    { clear. induction x as [|h x IH]; intros [|i] y; cbn [lset nth_error length]; auto. rewrite IH. reflexivity. }
    assert (OTH : forall (A : Type) (x : list A) i k y, i <> k -> nth_error (lset x i y) k = nth_error x k).
    { clear. induction x as [|h x IH]; intros [|i] [|k] y N; cbn [lset nth_error]; auto; try congruence. }
    assert (LEN : forall (A : Type) (x : list A) i y, length (lset x i y) = length x).
    { clear. induction x as [|h x IH]; intros [|i] y; cbn [lset length]; auto. }
    destruct (IH sh1 (lset ts j t1) ls (lset ms j (pred m))) as (sh' & ts' & R1 & R2 & R3); try (rewrite ?LEN; assumption).
    + intros i t2 l2 m2 A B C. destruct (Nat.eq_dec j i) as [<-|N].
      * rewrite GET in A, C. replace (j <? length ts) with true in A by (symmetry; apply Nat.ltb_lt; exact Lj).
        replace (j <? length ms) with true in C by (symmetry; apply Nat.ltb_lt; lia). injection A as <-. injection C as <-.
        rewrite Elj in B. injection B as <-. exact S2.
      * rewrite OTH in A, C by exact N. specialize (H i t2 l2 m2 A B C). unfold fine in *. destruct (i =? o) eqn:EO; [|exact H].
        apply Nat.eqb_eq in EO. rewrite S3 by congruence. exact H.
    + exists sh', ts'. split; [exact R1|]. split; [rewrite R2; apply LEN|]. intros i t2 l2 m2 A B C. cbn [count_occ].
      destruct (Nat.eq_dec j i) as [<-|N].
      * rewrite Emj in C. injection C as <-. specialize (R3 j t2 l2 (pred m) A B). rewrite GET in R3.
        replace (j <? length ms) with true in R3 by (symmetry; apply Nat.ltb_lt; lia). specialize (R3 eq_refl).
        replace (m - S (count_occ Nat.eq_dec r j)) with (pred m - count_occ Nat.eq_dec r j) by lia. exact R3.
      * apply R3; auto. rewrite OTH; auto.
  - destruct (IH sh ts ls ms L1 L2 H) as (sh' & ts' & R1 & R2 & R3). exists sh', ts'. split; [exact R1|]. split; [exact R2|].
    intros i t l m A B C. cbn [count_occ]. destruct (Nat.eq_dec j i) as [<-|N]; [|apply R3; auto].
    apply nth_error_None in Ej. assert (j < length ts') by (apply nth_error_Some; congruence). lia.
Qed.

Lemma fine_out : forall o sh i t l m, fine o sh i t l m -> exists l', th_out t ++ l' = l /\ (m = 0 -> l' = [] /\ th_now t = None).
Proof.
  intros o sh i t l m H. unfold fine, alone, owner in H.
  destruct (i =? o); [|destruct H as [_ H]]; destruct (th_now t).
  - destruct H as (l' & a & sh' & n & _ & _ & E & B). exists (a :: l'). split; [exact E|lia].
  - destruct H as (l' & P & E & B). exists l'. split; [exact E|]. intros ->. split; [|reflexivity]. destruct (th_todo t); [|cbn in B; lia]. cbn in P. congruence.
  - destruct H as (it & l' & a & n & _ & _ & E & B). exists (a :: l'). split; [exact E|lia].
  - destruct H as (it & l' & P & E & B). exists l'. split; [exact E|]. intros ->. split; [|reflexivity]. destruct (th_todo t); [|cbn in B; lia]. cbn in P. congruence.
Qed.

Lemma readers : forall ps ls,
  Forall2 (fun p l => answers e f p = Ok l) ps ls ->
  (forall i j p q, nth_error ps i = Some p -> nth_error ps j = Some q -> existsb uses_member p = true -> existsb uses_member q = true -> i = j) ->
  forall sched, exists sh ts, run_programs e f ps sched = Ok (sh, ts) /\ length ts = length ps /\
  forall i p t l, nth_error ps i = Some p -> nth_error ts i = Some t -> nth_error ls i = Some l ->
    (exists l', th_out t ++ l' = l) /\ (14 * length p <= count_occ Nat.eq_dec sched i -> th_out t = l).
Proof.
  intros ps ls HA HU sched.
  assert (LN : length ls = length ps) by (symmetry; exact (Forall2_len _ _ _ _ _ HA)).
  assert (AT : forall i p l, nth_error ps i = Some p -> nth_error ls i = Some l -> answers e f p = Ok l).
  { clear -HA. induction HA as [|p l ps ls H1 _ IH]; intros [|i] p' l' A B; cbn in *; try discriminate; [congruence|eauto]. }
  assert (OW : exists o, forall i p, nth_error ps i = Some p -> i <> o -> existsb uses_member p = false).
  { assert (D : (exists i p, nth_error ps i = Some p /\ existsb uses_member p = true) \/
                (forall i p, nth_error ps i = Some p -> existsb uses_member p = false)).
    { clear. induction ps as [|p ps IH]; [right; intros [|i]; discriminate|].
      destruct (existsb uses_member p) eqn:E; [left; exists 0, p; auto|]. destruct IH as [(i & q & A & B)|IH]; [left; exists (S i), q; auto|].
      right. intros [|i] q A; cbn in A; [congruence|eauto]. }
    destruct D as [(o & p & A & B)|D]; [|exists 0; intros; eauto].
    exists o. intros i q A' N. destruct (existsb uses_member q) eqn:E; [|reflexivity]. exfalso. apply N. eapply HU; eauto. }
  destruct OW as (o & OW).
  destruct (run_fine o sched (iter_new f, iter_new f) (map (fun p => mkThread None [] p []) ps) ls (map (fun p => 14 * length p) ps))
    as (sh & ts & R1 & R2 & R3); try (rewrite !map_length; auto).
  { intros i t l m A B C. rewrite nth_error_map in A, C. destruct (nth_error ps i) as [p|] eqn:EP; [|discriminate]. cbn in A, C.
    injection A as <-. injection C as <-. pose proof (AT i p l EP B) as P. unfold answers in P.
    unfold fine. destruct (i =? o) eqn:EO.
    - unfold owner. cbn [th_now th_its th_todo th_out fst]. exists l. auto.
    - apply Nat.eqb_neq in EO. split; [|cbn [th_now th_its th_todo th_out]; exists (iter_new f), l; auto].
      specialize (OW i p EP EO). cbn [th_todo]. clear -OW. induction p as [|cl p IH]; [constructor|]. cbn in OW. apply orb_false_iff in OW.
      destruct OW. constructor; auto. }
  rewrite map_length in R2. exists sh, ts. split; [exact R1|]. split; [exact R2|].
  intros i p t l A B C. specialize (R3 i t l (14 * length p) B C). rewrite nth_error_map, A in R3. specialize (R3 eq_refl).
  destruct (fine_out _ _ _ _ _ _ R3) as (l' & E & F). split; [exists l'; exact E|]. intros G.
  destruct F as [-> _]; [lia|]. rewrite app_nil_r in E. exact E.
Qed.
End Threads.

Lemma readers_total : forall keys e c f,
  good_keys keys -> machine e -> settings c -> filter_of e c keys f -> ~ lone_ff keys -> padded e c keys f ->
  forall ps, Forall (Forall (sound_call e)) ps ->
  (forall i j p q, nth_error ps i = Some p -> nth_error ps j = Some q -> existsb uses_member p = true -> existsb uses_member q = true -> i = j) ->
  forall sched, exists sh ts, run_programs e f ps sched = Ok (sh, ts) /\ length ts = length ps /\
  forall i p t, nth_error ps i = Some p -> nth_error ts i = Some t ->
    exists l, answers e f p = Ok l /\ (exists l', th_out t ++ l' = l) /\ (14 * length p <= count_occ Nat.eq_dec sched i -> th_out t = l).
Proof.
  intros keys e c f HG HM HC HF HL HP ps HS HU sched.
  assert (LS : exists ls, Forall2 (fun p l => answers e f p = Ok l) ps ls).
  { clear HU. induction HS as [|p ps H1 _ (ls & IH)]; [exists []; constructor|].
    destruct (session_total keys e c f HG HM HC HF HL HP p H1) as (l & E & _). exists (l :: ls). constructor; auto. }
  destruct LS as (ls & HA). destruct (readers e f ps ls HA HU sched) as (sh & ts & R1 & R2 & R3). exists sh, ts. split; [exact R1|]. split; [exact R2|].
  intros i p t A B. pose proof (Forall2_len _ _ _ _ _ HA) as LN.
  destruct (nth_error ls i) as [l|] eqn:EL; [|apply nth_error_None in EL; assert (i < length ps) by (apply nth_error_Some; congruence); lia].
  exists l. split; [|exact (R3 i p t l A B EL)].
  clear -HA A EL. revert i A EL. induction HA as [|p' l' ps ls H1 _ IH]; intros [|i] A B; cbn in *; try discriminate; [congruence|eauto].
Qed.
