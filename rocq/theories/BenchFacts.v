(** The benchmark program counts right. *)
From Coq Require Import Arith List NArith ZArith Bool String Lia Sorting.Sorted Permutation.
From Verif Require Import Res Word Config Builder Dense Sparse Surf Serialize Bloom Murmur Bench Spec SpecApi SpecFilter SpecIter SpecRange SpecSession
  SpecBloom SpecBench KeyFacts IntKeys BloomFacts MurmurFacts PointFacts RangeApi SafeApi.
Import ListNotations.
Open Scope nat_scope.

(** ** Strings *)
Lemma str_eq_ok : forall a b, str_eq a b = true <-> a = b.
Proof.
  induction a as [|x a IH]; intros [|y b]; cbn [str_eq]; split; intros H; try discriminate; auto.
  - apply andb_prop in H. destruct H as [H1 H2]. apply Nat.eqb_eq in H1. apply IH in H2. congruence.
  - injection H as -> ->. rewrite Nat.eqb_refl. apply IH. reflexivity.
Qed.
Lemma is_ok : forall a s, is a s = true <-> a = str s.
Proof. intros a s. apply str_eq_ok. Qed.
Lemma is_self : forall s, is (str s) s = true.
Proof. intros s. apply is_ok. reflexivity. Qed.
Lemma str_lt_ok : forall a b, str_lt a b = true <-> klt a b.
Proof.
  induction a as [|x a IH]; intros [|y b]; cbn [str_lt klt]; split; intros H; try discriminate; try tauto.
  - apply orb_prop in H. destruct H as [H|H]; [left; apply Nat.ltb_lt; exact H|]. apply andb_prop in H. destruct H as [H1 H2].
    right. split; [apply Nat.eqb_eq; exact H1|apply IH; exact H2].
  - apply orb_true_intro. destruct H as [H|[-> H]]; [left; apply Nat.ltb_lt; exact H|right]. rewrite Nat.eqb_refl. apply IH. exact H.
Qed.
Lemma str_lt_no : forall a b, str_lt a b = false -> kle b a.
Proof.
  intros a b H. destruct (klt_total a b) as [L|[->|L]]; [|right; reflexivity|left; exact L]. apply str_lt_ok in L. congruence.
Qed.

Lemma kle_klt : forall a b c, kle a b -> klt b c -> klt a c.
Proof. intros a b c [H| ->] L; auto. eapply klt_trans; eauto. Qed.
Lemma kle_trans' : forall a b c, kle a b -> kle b c -> kle a c.
Proof. intros a b c H [L| <-]; auto. left. eapply kle_klt; eauto. Qed.

(** ** Sorting *)
Lemma insert_perm : forall k l, Permutation (insert k l) (k :: l).
Proof.
  induction l as [|x l IH]; cbn [insert]; [constructor; constructor|]. destruct (str_lt x k); [|reflexivity].
  rewrite IH. constructor.
Qed.
Lemma sort_perm : forall l, Permutation (sort l) l.
Proof. induction l as [|k l IH]; cbn; [constructor|]. rewrite insert_perm. constructor. exact IH. Qed.
Lemma insert_sorted : forall k l, StronglySorted kle l -> StronglySorted kle (insert k l).
Proof.
  induction l as [|x l IH]; cbn [insert]; intros H; [repeat constructor|]. inversion H as [|? ? H1 H2]; subst.
  destruct (str_lt x k) eqn:E.
  - constructor; [apply IH; exact H1|]. eapply Permutation_Forall; [symmetry; apply insert_perm|].
    constructor; [left; apply str_lt_ok; exact E|exact H2].
  - apply str_lt_no in E. constructor; [exact H|]. constructor; [exact E|]. eapply Forall_impl; [|exact H2].
    intros y Hy. eapply kle_trans'; eauto.
Qed.
Lemma sort_sorted : forall l, StronglySorted kle (sort l).
Proof. induction l as [|k l IH]; [constructor|]. apply insert_sorted. exact IH. Qed.

Lemma sorted_unique : forall l l', StronglySorted kle l -> StronglySorted kle l' -> Permutation l l' -> l = l'.
Proof.
  induction l as [|x l IH]; intros l' H H' P.
  - symmetry. apply Permutation_nil. exact P.
  - destruct l' as [|y l']; [apply Permutation_sym, Permutation_nil in P; discriminate|].
    inversion H as [|? ? A1 A2]; subst. inversion H' as [|? ? B1 B2]; subst. rewrite Forall_forall in A2, B2.
    assert (x = y).
    { assert (I : In x (y :: l')) by (eapply Permutation_in; [exact P|left; auto]).
      assert (J : In y (x :: l)) by (eapply Permutation_in; [symmetry; exact P|left; auto]).
      destruct I as [I|I]; auto. destruct J as [J|J]; auto. destruct (A2 y J) as [L|L]; auto. destruct (B2 x I) as [L'|L']; auto.
      exfalso. exact (klt_asym _ _ L L'). }
    subst y. f_equal. apply IH; auto. eapply Permutation_cons_inv; exact P.
Qed.

Lemma firstn_in : forall A n (l : list A) x, In x (firstn n l) -> In x l.
Proof. intros A n l x H. rewrite <- (firstn_skipn n l). apply in_or_app. left; exact H. Qed.

Lemma taken_sort : forall shuffle p load keys, taken (shuffle load) p keys -> Permutation (shuffle load) load ->
  selectKeysToInsert shuffle p load = keys.
Proof.
  intros shuffle p load keys (H1 & H2) P. unfold selectKeysToInsert. apply sorted_unique; auto; [apply sort_sorted|].
  rewrite sort_perm, H2, (Permutation_length P). reflexivity.
Qed.

Lemma taken_good : forall shuffle p load keys, taken (shuffle load) p keys -> Permutation (shuffle load) load ->
  Forall is_bytes load -> Forall (fun k => k <> []) load -> keys <> [] -> good_keys keys.
Proof.
  intros shuffle p load keys (H1 & H2) P B N NE. rewrite Forall_forall in B, N.
  assert (I : forall k, In k keys -> In k load).
  { intros k Hk. eapply Permutation_in; [exact P|]. eapply firstn_in, Permutation_in; [exact H2|exact Hk]. }
  repeat split; auto; apply Forall_forall; auto.
Qed.

(** ** Upper ends *)
Lemma upper_ok : forall kt q u, upper kt q u -> getUpperBoundKey kt q = Ok u.
Proof.
  intros kt q u [(-> & p & b & -> & ->)|(N & w & Hw & -> & ->)]; unfold getUpperBoundKey.
  - rewrite is_self, app_length. cbn [List.length]. rewrite Nat.add_1_r. cbn [pred_idx bind].
    unfold vget. rewrite nth_error_app2, Nat.sub_diag by lia. cbn [nth_error bind]. unfold vset.
    rewrite app_length. cbn [List.length]. replace (List.length p <? List.length p + 1) with true by (symmetry; apply Nat.ltb_lt; lia).
    f_equal. clear. unfold kEmailRangeSize. induction p as [|x p IH]; [reflexivity|]. cbn [app List.length lset]. f_equal. exact IH.
  - destruct (is kt "email") eqn:E; [apply is_ok in E; congruence|]. rewrite u64_roundtrip by exact Hw. reflexivity.
Qed.
Lemma upper_fun : forall kt q u u', upper kt q u -> upper kt q u' -> u = u'.
Proof. intros kt q u u' H H'. apply upper_ok in H, H'. congruence. Qed.
Lemma upper_bytes : forall kt q u, upper kt q u -> is_bytes q -> is_bytes u /\ q <> [].
Proof.
  intros kt q u [(_ & p & b & -> & ->)|(_ & w & _ & -> & ->)] H.
  - apply Forall_app in H. destruct H as [H _]. split; [|destruct p; discriminate]. apply Forall_app. split; [exact H|].
    constructor; [apply Nat.mod_upper_bound; lia|constructor].
  - destruct (u64_shape ((w + 92233697311) mod 2 ^ 64)) as [_ B]. destruct (u64_shape w) as [L _]. split; [exact B|].
    intros X. rewrite X in L. discriminate.
Qed.

(** ** The reference answers *)
Lemma find_ok : forall keys q, ht_find keys q = true <-> In q keys.
Proof.
  intros keys q. unfold ht_find. rewrite existsb_exists. split.
  - intros (x & H & E). apply str_eq_ok in E. subst x. exact H.
  - intros H. exists q. split; [exact H|]. apply str_eq_ok. reflexivity.
Qed.
Lemma lower_ok : forall keys q u, StronglySorted kle keys ->
  (match ht_lower_bound keys q with Some k => str_lt k u | None => false end = true <-> exists k, In k keys /\ kle q k /\ klt k u).
Proof.
  unfold ht_lower_bound. induction keys as [|x keys IH]; intros q u H; cbn [find].
  - split; [discriminate|intros (k & [] & _)].
  - inversion H as [|? ? H1 H2]; subst. rewrite Forall_forall in H2. destruct (str_lt x q) eqn:E; cbn [negb].
    + rewrite (IH q u H1). split; intros (k & A & B & C); exists k.
      * split; [right; exact A|auto].
      * destruct A as [<-|A]; [|auto]. exfalso. apply str_lt_ok in E. apply (klt_irrefl x). eapply klt_trans with (b := q); [exact E|].
        destruct B as [B| <-]; [exact B|]. exact E.
    + apply str_lt_no in E. rewrite str_lt_ok. split.
      * intros L. exists x. split; [left; auto|auto].
      * intros (k & A & B & C). destruct A as [<-|A]; [exact C|]. eapply kle_klt; [apply H2; exact A|exact C].
Qed.

Definition ref (kt : key) (keys : list key) (x : query) : res nat :=
  match x with Point q => true_point keys q | Range q => true_range kt keys q end.

Lemma ref_ok : forall kt keys x, StronglySorted kle keys -> proper kt x ->
  exists b, ref kt keys x = Ok (b2n b) /\ (b = true <-> right kt keys x).
Proof.
  intros kt keys [q|q] H P; cbn [ref right].
  - exists (ht_find keys q). split; [reflexivity|apply find_ok].
  - destruct P as (_ & u & U). exists (match ht_lower_bound keys q with Some k => str_lt k u | None => false end). split.
    + unfold true_range. destruct (ht_lower_bound keys q); [|reflexivity]. rewrite (upper_ok _ _ _ U). reflexivity.
    + rewrite (lower_ok keys q u H). split.
      * intros (k & A). exists u, k. tauto.
      * intros (u' & k & A & B). rewrite (upper_fun _ _ _ _ A U) in B. exists k. exact B.
Qed.

(** ** The filters *)
Lemma bloom_hash_ok : hash_ok bloom_hash.
Proof.
  intros k. unfold bloom_hash. destruct (bloomhash_total k) as (h & d & -> & A & B). cbn [fst snd]. auto.
Qed.

(** A filter after some range queries. *)
Inductive later (e : env) : filter -> filter -> Prop :=
| later_surf : forall f it it', member_iter e f it -> member_iter e f it' -> later e (FSurf f it) (FSurf f it')
| later_bloom : forall d, later e (FBloom d) (FBloom d).

Definition ask (e : env) (kt : key) (st : filter * nat) (x : query) : res (filter * nat) :=
  match x with Point q => do_point e st q | Range q => do_range e kt st q end.

Lemma later_memory : forall e sz a b, later e a b -> memory sz b = memory sz a.
Proof. intros e sz a b []; reflexivity. Qed.

Lemma range_total : forall e c keys f, machine e -> settings c -> good_keys keys -> ~ lone_ff keys -> small keys \/ quiet e -> create e c keys = Ok f ->
  forall it l r, member_iter e f it -> is_bytes l -> l <> [] -> is_bytes r -> exists b it', lookupRange_st e f it l true r true = Ok (b, it') /\
    Surf.lookupRange e f l true r true = Ok b.
Proof.
  intros e c keys f HM HC HG HL HP E it l r MI Hl Nl Hr.
  assert (P : padded e c keys f) by (destruct HP; [left; auto|right; auto]).
  destruct (session_total keys e c f HG HM HC (fo_built e c keys f E) HL P [CRange l true r true]) as (x & A & _).
  { constructor; [|constructor]. cbn. auto. }
  unfold answers in A. cbn [play step] in A. unfold Surf.lookupRange.
  pose proof (range_history e f it l true r true MI) as Q. unfold range_after, Surf.lookupRange in Q.
  assert (T : exists y, lookupRange_st e f (iter_new f) l true r true = Ok y).
  { clear - A. cbn in A. destruct (lookupRange_st e f (iter_new f) l true r true) as [y|]; [eauto|]. discriminate A. }
  destruct T as ((b & it1) & T). rewrite T in Q |- *. cbn [bind] in Q |- *.
  destruct (lookupRange_st e f it l true r true) as [(b' & it2)|]; cbn [bind] in Q; [|clear - Q; discriminate Q].
  exists b, it2. split; [|reflexivity]. clear - Q. congruence.
Qed.

(** Every proper query has an answer, whatever was asked before. *)
Definition answered (e : env) (kt : key) (flt : filter) (x : query) : Prop :=
  exists b, (b = true <-> yes e kt flt x) /\
    forall flt' n, later e flt flt' -> exists flt'', ask e kt (flt', n) x = Ok (flt'', n + b2n b) /\ later e flt flt''.

Lemma surf_answers : forall e c keys f kt x, machine e -> settings c -> good_keys keys -> ~ lone_ff keys -> small keys \/ quiet e -> create e c keys = Ok f ->
  proper kt x -> answered e kt (FSurf f (iter_new f)) x.
Proof.
  intros e c keys f kt [q|q] HM HC HG HL HP E P.
  - assert (PD : padded e c keys f) by (destruct HP; [left; auto|right; auto]).
    destruct (lookup_total keys e c f HG HM HC (fo_built e c keys f E) HL (or_intror PD) q P) as (b & B). exists b. split.
    + cbn [yes lookup]. rewrite B. clear. split; congruence.
    + intros flt' n L. exists flt'. split; [|exact L]. inversion L; subst. cbn [ask do_point lookup]. rewrite B. reflexivity.
  - destruct P as (Hq & u & U). destruct (upper_bytes _ _ _ U Hq) as (Hu & Nq).
    destruct (range_total e c keys f HM HC HG HL HP E (iter_new f) q u (mi_new e f) Hq Nq Hu) as (b & it1 & B1 & B).
    exists b. split.
    + cbn [yes]. split.
      * intros ->. exists u, (FSurf f it1). split; [exact U|]. unfold lookupRange. rewrite B1. reflexivity.
      * intros (u' & flt' & U' & Y). rewrite (upper_fun _ _ _ _ U' U) in Y. unfold lookupRange in Y. rewrite B1 in Y. cbn [bind] in Y. clear - Y. congruence.
    + intros flt' n L. inversion L as [? ? it' M1 M2|]; subst.
      destruct (range_total e c keys f HM HC HG HL HP E it' q u M2 Hq Nq Hu) as (b' & it2 & B2 & B').
      assert (b' = b) by (clear - B B'; congruence). subst b'. exists (FSurf f it2). split.
      * cbn [ask do_range]. rewrite (upper_ok _ _ _ U). cbn [bind]. unfold lookupRange. rewrite B2. reflexivity.
      * constructor; [exact M1|]. eapply mi_range; eauto.
Qed.

Lemma bloom_made : forall keys, exists d, newFilterBloom keys = Ok (FBloom d) /\
  (forall k, In k keys -> KeyMayMatch key bloom_hash k d = Ok true) /\ forall q, exists b, KeyMayMatch key bloom_hash q d = Ok b.
Proof.
  intros keys. destruct (bloom_exact key bloom_hash 10 6 keys (List.length keys) [] bloom_hash_ok (Nat.le_refl _)) as (d & bits & A & _ & _ & B).
  exists d. unfold newFilterBloom, FilterBloom. rewrite A. split; [reflexivity|]. split.
  - intros k Hk. destruct (B k) as (r & R1 & R2). rewrite R1. f_equal. apply R2. rewrite firstn_all. intros j Hj. exists k, j. auto.
  - intros q. destruct (B q) as (r & R & _). eauto.
Qed.

Lemma bloom_murmur : forall keys, exists d bits, newFilterBloom keys = Ok (FBloom d) /\ bloom_size 10 (List.length keys) bits /\
  (forall sz, 8 * memory sz (FBloom d) = bits + 8)%N /\ (forall k, BloomHash k = Ok (bloom_hash k)) /\
  forall e q, exists r, lookup e (FBloom d) q = Ok r /\ (r = true <-> all_hit bloom_hash bits 6 keys q) /\ (In q keys -> r = true).
Proof.
  intros keys. destruct (bloom_exact key bloom_hash 10 6 keys (List.length keys) [] bloom_hash_ok (Nat.le_refl _)) as (d & bits & A & S & L & B).
  exists d, bits. unfold newFilterBloom, FilterBloom. rewrite A. split; [reflexivity|]. split; [exact S|]. split; [intros sz; exact L|]. split.
  - intros k. unfold bloom_hash, BloomHash. destruct (mur_total k 0xbc9f1d34) as (h1 & h2 & h3 & h4 & E & _). rewrite E. reflexivity.
  - intros e q. destruct (B q) as (r & R1 & R2). exists r. rewrite firstn_all in R2. split; [exact R1|]. split; [exact R2|].
    intros Hq. apply R2. intros j Hj. exists q, j. auto.
Qed.

Lemma bloom_ints : forall ws, exists (h : N -> N * N) d, (forall w, BloomHash64 w = Ok (h w) /\ BloomHash (rev (uint64ToString w)) = Ok (h w)) /\
  CreateFilter N h 10 6 ws (List.length ws) [] = Ok d /\ forall w, In w ws -> KeyMayMatch N h w d = Ok true.
Proof.
  intros ws. exists (fun w => bloom_hash (le_bytes 8 w)). destruct (bloom_no_miss N (fun w => bloom_hash (le_bytes 8 w)) 10 6 ws (List.length ws) []) as (d & E & T).
  - intros w. apply bloom_hash_ok.
  - auto.
  - exists d. split; [|split; [exact E|intros w Hw; apply T; rewrite firstn_all; exact Hw]].
    intros w. rewrite u64_eq, rev_involutive. unfold BloomHash64, bloom_hash, BloomHash. destruct (mur_total (le_bytes 8 w) 0xbc9f1d34) as (h1 & h2 & h3 & h4 & X & _). rewrite X. split; reflexivity.
Qed.

Lemma bloom_answers : forall e keys d kt x, newFilterBloom keys = Ok (FBloom d) -> proper kt x -> answered e kt (FBloom d) x.
Proof.
  intros e keys d kt [q|q] E P.
  - destruct (bloom_made keys) as (d' & E' & _ & T). assert (d' = d) by congruence. subst d'. destruct (T q) as (b & B).
    exists b. split; [cbn [yes lookup]; rewrite B; split; congruence|]. intros flt' n L. exists flt'. split; [|exact L].
    inversion L; subst. cbn [ask do_point lookup]. rewrite B. reflexivity.
  - destruct P as (Hq & u & U). exists false. split.
    + cbn [yes lookupRange]. split; [discriminate|]. intros (u' & flt' & _ & Y). discriminate.
    + intros flt' n L. exists flt'. split; [|exact L]. inversion L; subst. cbn [ask do_range]. rewrite (upper_ok _ _ _ U). reflexivity.
Qed.

Lemma names_settings : forall name len o c, names name len o -> o = Some c -> 1 <= len <= 64 -> (name = str "SuRFMixed" -> len <= 32) -> settings c.
Proof.
  intros name len o c H E L M. unfold settings.
  destruct H as [(-> & ->)|[(-> & ->)|[(-> & ->)|[(-> & ->)|[(-> & ->)|(-> & ->)]]]]]; try discriminate; injection E as <-; cbn [cf_dense cf_ratio cf_hlen cf_rlen cf_type];
    try (specialize (M eq_refl)); repeat split; try reflexivity; try discriminate; lia.
Qed.

Lemma create_named : forall e name len o keys, names name len o ->
  createFilter e name len keys = match o with
    | Some c => f <- create e c keys ;; Ok (FSurf f (iter_new f))
    | None => newFilterBloom keys
    end.
Proof.
  intros e name len o keys H.
  destruct H as [(-> & ->)|[(-> & ->)|[(-> & ->)|[(-> & ->)|[(-> & ->)|(-> & ->)]]]]]; reflexivity.
Qed.

(** ** Counting *)
Lemma asks_count : forall e kt flt qs, Forall (answered e kt flt) qs -> exists p tn, tally (yes e kt flt) qs p /\ tally (fun x => ~ yes e kt flt x) qs tn /\ p + tn = List.length qs /\
  forall flt' n, later e flt flt' -> exists flt'', foldM (ask e kt) qs (flt', n) = Ok (flt'', n + p) /\ later e flt flt''.
Proof.
  intros e kt flt. induction qs as [|x qs IH]; intros H.
  - exists 0, 0. repeat split; try constructor. intros flt' n L. exists flt'. cbn [foldM]. rewrite Nat.add_0_r. auto.
  - inversion H as [|? ? (b & B1 & B2) H2]; subst. destruct (IH H2) as (p & tn & T1 & T2 & S1 & F).
    exists (b2n b + p), (b2n (negb b) + tn). split; [|split; [|split]].
    + destruct b; cbn [b2n Nat.add]; [apply tally_yes; [apply B1; reflexivity|exact T1]|apply tally_no; [|exact T1]].
      intros X. apply B1 in X. discriminate.
    + destruct b; cbn [b2n negb Nat.add]; [apply tally_no; [intros X; apply X; apply B1; reflexivity|exact T2]|apply tally_yes; [|exact T2]].
      intros X. apply B1 in X. discriminate.
    + cbn [List.length]. destruct b; cbn [b2n negb]; lia.
    + intros flt' n L. destruct (B2 flt' n L) as (f1 & E1 & L1). destruct (F f1 (n + b2n b) L1) as (f2 & E2 & L2).
      exists f2. split; [|exact L2]. cbn [foldM]. rewrite E1. cbn [bind]. rewrite E2. f_equal. f_equal. lia.
Qed.

Lemma total_count : forall (A : Type) (f : A -> res nat) l n, foldM (fun n x => m <- f x ;; Ok (n + m)) l n = (m <- total f l ;; Ok (n + m)).
Proof.
  intros A f. unfold total. induction l as [|x l IH]; intros n; cbn [foldM]; [cbn [bind]; rewrite Nat.add_0_r; reflexivity|].
  destruct (f x) as [m|]; cbn [bind]; [|reflexivity]. rewrite IH, (IH (0 + m)).
  destruct (foldM (fun n0 x0 => m0 <- f x0;; Ok (n0 + m0)) l 0); cbn [bind]; [|reflexivity]. f_equal. lia.
Qed.
Lemma total_cons : forall (A : Type) (f : A -> res nat) x l, total f (x :: l) = (a <- f x ;; b <- total f l ;; Ok (a + b)).
Proof.
  intros A f x l. unfold total at 1. cbn [foldM]. destruct (f x) as [m|]; cbn [bind]; [|reflexivity].
  rewrite total_count. reflexivity.
Qed.

Lemma refs_count : forall kt keys qs, StronglySorted kle keys -> Forall (proper kt) qs -> exists t, total (ref kt keys) qs = Ok t /\ tally (right kt keys) qs t.
Proof.
  intros kt keys qs HS. induction qs as [|x qs IH]; intros H; [exists 0; split; [reflexivity|constructor]|].
  inversion H as [|? ? H1 H2]; subst. destruct (ref_ok kt keys x HS H1) as (b & B1 & B2). destruct (IH H2) as (t & T1 & T2).
  exists (b2n b + t). split.
  - rewrite total_cons, B1. cbn [bind]. rewrite T1. reflexivity.
  - destruct b; cbn [b2n Nat.add]; [apply tally_yes; [apply B2; reflexivity|exact T2]|apply tally_no; [|exact T2]]. intros X. apply B2 in X. discriminate.
Qed.

Lemma tally_split : forall (A : Type) (P Q : A -> Prop) l p t, tally P l p -> tally Q l t -> (forall x, In x l -> Q x -> P x) ->
  exists d, tally (fun x => P x /\ ~ Q x) l d /\ p = t + d.
Proof.
  intros A P Q. induction l as [|x l IH]; intros p t HP HQ H.
  - inversion HP; subst. inversion HQ; subst. exists 0. split; [constructor|reflexivity].
  - assert (H' : forall y, In y l -> Q y -> P y) by (intros y Hy; apply H; right; exact Hy).
    assert (Hx : Q x -> P x) by (apply H; left; reflexivity).
    inversion HP as [|? ? p' P1 P2|? ? ? P1 P2]; subst; inversion HQ as [|? ? t' Q1 Q2|? ? ? Q1 Q2]; subst; try tauto;
      destruct (IH _ _ P2 Q2 H') as (d & D1 & ->).
    + exists d. split; [apply tally_no; tauto|lia].
    + exists (S d). split; [apply tally_yes; tauto|lia].
    + exists d. split; [apply tally_no; tauto|lia].
Qed.

(** ** The three kinds of queries *)
Lemma fold_map : forall (A B C : Type) (f : C -> B -> res C) (g : A -> B) l c, foldM f (map g l) c = foldM (fun c x => f c (g x)) l c.
Proof. induction l as [|x l IH]; intros c; cbn [map foldM]; [reflexivity|]. destruct (f c (g x)); cbn [bind]; auto. Qed.
Lemma fold_ext : forall (A C : Type) (f g : C -> A -> res C) l c, (forall c x, f c x = g c x) -> foldM f l c = foldM g l c.
Proof. intros A C f g l c H. revert c. induction l as [|x l IH]; intros c; cbn [foldM]; [reflexivity|]. rewrite H. destruct (g c x); cbn [bind]; auto. Qed.
Lemma fold_mix : forall e kt txn s st, foldM (do_mix e kt) (combine (seq s (List.length txn)) txn) st = foldM (ask e kt) (mixed (s mod 2 =? 0) txn) st.
Proof.
  intros e kt. induction txn as [|q t IH]; intros s st; [reflexivity|]. cbn [List.length seq combine mixed foldM do_mix].
  assert (M : (S s mod 2 =? 0) = negb (s mod 2 =? 0)).
  { clear. pose proof (Nat.div_mod_eq s 2). pose proof (Nat.div_mod_eq (S s) 2). pose proof (Nat.mod_upper_bound s 2 ltac:(lia)).
    pose proof (Nat.mod_upper_bound (S s) 2 ltac:(lia)). destruct (Nat.eqb_spec (S s mod 2) 0), (Nat.eqb_spec (s mod 2) 0); cbn [negb]; auto; lia. }
  assert (B : (if s mod 2 =? 0 then do_point e st q else do_range e kt st q) = ask e kt st (if s mod 2 =? 0 then Point q else Range q)) by (destruct (s mod 2 =? 0); reflexivity).
  rewrite B. destruct (ask e kt st (if s mod 2 =? 0 then Point q else Range q)); cbn [bind]; [|reflexivity]. rewrite IH, M. reflexivity.
Qed.
Lemma total_mix : forall kt keys txn s, total (true_mix kt keys) (combine (seq s (List.length txn)) txn) = total (ref kt keys) (mixed (s mod 2 =? 0) txn).
Proof.
  intros kt keys. induction txn as [|q t IH]; intros s; [reflexivity|]. cbn [List.length seq combine mixed]. rewrite !total_cons.
  assert (M : (S s mod 2 =? 0) = negb (s mod 2 =? 0)).
  { clear. pose proof (Nat.div_mod_eq s 2). pose proof (Nat.div_mod_eq (S s) 2). pose proof (Nat.mod_upper_bound s 2 ltac:(lia)).
    pose proof (Nat.mod_upper_bound (S s) 2 ltac:(lia)). destruct (Nat.eqb_spec (S s mod 2) 0), (Nat.eqb_spec (s mod 2) 0); cbn [negb]; auto; lia. }
  rewrite IH, M. cbn [true_mix]. destruct (s mod 2 =? 0); reflexivity.
Qed.
Lemma total_map : forall (A B : Type) (f : B -> res nat) (g : A -> B) l, total f (map g l) = total (fun x => f (g x)) l.
Proof. intros. unfold total. apply fold_map. Qed.

Lemma mixed_length : forall txn b, List.length (mixed b txn) = List.length txn.
Proof. induction txn as [|q t IH]; intros b; cbn [mixed List.length]; auto. Qed.
Lemma queries_length : forall kind txn qs, queries kind txn qs -> List.length qs = List.length txn.
Proof. intros kind txn qs [(_ & ->)|[(_ & ->)|(_ & ->)]]; [apply map_length|apply map_length|apply mixed_length]. Qed.

Lemma checked_len : forall a, check_args a = true -> 1 <= a_len a <= 64.
Proof.
  intros a H. unfold check_args in H. rewrite !andb_true_iff in H. destruct H as ((((((_ & H) & _) & _) & _) & _) & _).
  apply negb_true_iff, orb_false_elim in H. destruct H as [A B]. apply Nat.eqb_neq in A. apply Nat.ltb_ge in B. lia.
Qed.
Lemma checked_alter : forall a, check_args a = true -> is (a_workload a) "alterByte" = false.
Proof.
  intros a H. unfold check_args in H. rewrite !andb_true_iff in H. destruct H as ((((((_ & _) & H) & _) & _) & _) & _).
  destruct (is (a_workload a) "alterByte") eqn:E; [|reflexivity]. apply is_ok in E. rewrite E in H. discriminate.
Qed.

(** What main computes once the filter stands. *)
Lemma main_queries : forall e sz shuffle a load txn keys flt qs,
  check_args a = true -> selectKeysToInsert shuffle (a_percent a) load = keys ->
  createFilter e (a_filter a) (a_len a) keys = Ok flt -> queries (a_query a) txn qs ->
  main e sz shuffle a load txn =
    ('(flt', n) <- foldM (ask e (a_key a)) qs (flt, 0) ;; tp <- total (ref (a_key a) keys) qs ;;
     massert e (0 <=? Z.of_nat n - Z.of_nat tp)%Z ;;;
     Ok (Some (mkReport n tp (Z.of_nat n - Z.of_nat tp) (Z.of_nat (List.length txn) - Z.of_nat n) 0 (memory sz flt')))).
Proof.
  intros e sz shuffle a load txn keys flt qs CA SK CF Q. unfold main. rewrite CA, SK, (checked_alter a CA). cbn [negb bind]. rewrite CF. cbn [bind].
  destruct Q as [(-> & ->)|[(-> & ->)|(-> & ->)]].
  - change (is (str "point") "point") with true. change (is (str "point") "count-long") with false. change (is (str "point") "count-short") with false.
    cbv iota. cbn [orb]. rewrite fold_map, total_map. reflexivity.
  - change (is (str "range") "point") with false. change (is (str "range") "range") with true. change (is (str "range") "count-long") with false. change (is (str "range") "count-short") with false.
    cbv iota. cbn [orb]. rewrite fold_map, total_map. reflexivity.
  - change (is (str "mix") "point") with false. change (is (str "mix") "range") with false. change (is (str "mix") "mix") with true. change (is (str "mix") "count-long") with false. change (is (str "mix") "count-short") with false.
    cbv iota. cbn [orb]. rewrite fold_mix, total_mix. reflexivity.
Qed.
