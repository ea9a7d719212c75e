(** The exact outcome of seeks, comparisons and range queries. *)
From Coq Require Import Arith List NArith ZArith Bool Lia ZifyN ZifyNat ZifyBool Sorting.Sorted.
From Verif Require Import Res Word Config BitFacts WordFacts BitvectorFacts Suffix Spec SpecApi SpecFilter SerialFacts FilterFacts SuffixFacts Builder KeyFacts Trie
  BuilderFacts DenseBuild StructFacts NodeFacts SparseFacts DenseFacts Dense Sparse Surf LookupFacts PointFacts IterTrie IterDense IterDMove IterSparse
  IterFacts IterKey SpecIter IterApi SeekOrder SuffixOrder SeekDense SeekSparse SeekFacts CompareFacts IterSim SpecRange RangeApi SpecExact.
Import ListNotations.

Section Exact.
Variables (keys : list bytes).
Hypothesis HG : good_keys keys.
Notation K := (uniq keys).
Notation n := (length K).
Variables (c : config) (h : nat).

Let HS : StronglySorted klt K := proj1 (good_uniq keys HG).
Let HB : Forall is_bytes K := proj1 (proj2 (good_uniq keys HG)).
Let HE : Forall (fun k => k <> []) K := proj1 (proj2 (proj2 (good_uniq keys HG))).
Let HN : length K <> 0 := proj2 (proj2 (proj2 (good_uniq keys HG))).

Lemma term_inner : forall i, i < n -> term K (leafl K i) i = true <-> inner keys (kk K i).
Proof.
  intros i Hi. split.
  - intros T. assert (HI : item K (leafl K i) i = true) by (apply item_spec; split; auto; unfold leafl; clear; lia).
    destruct (term_first K HS HE _ _ HI T) as (LO & _ & LK & L1). destruct (node_next keys HG _ _ L1 LO) as (Hi' & EN).
    exists (kk K (S i)). split; [apply kk_in; auto|]. split; [apply (kk_neq keys HG); clear - Hi Hi'; lia|].
    rewrite <- LK, EN. apply firstn_all2. rewrite LK. apply Nat.le_refl.
  - intros (k' & H1 & H2 & H3). unfold term. apply Nat.leb_le. destruct (le_lt_dec (length (kk K i)) (leafl K i)) as [|G]; auto. exfalso.
    destruct (dist_at keys HG i Hi) as (_ & D & _). apply (D k' H1 H2). transitivity (firstn (S (leafl K i)) (firstn (length (kk K i)) k')).
    + rewrite firstn_firstn. f_equal. clear - G. lia.
    + rewrite H3. reflexivity.
Qed.

Lemma inner_len : forall i, i < n -> inner keys (kk K i) -> leafl K i = length (kk K i).
Proof.
  intros i Hi H. apply term_inner in H; auto. unfold term in H. apply Nat.leb_le in H. pose proof (leafl_le K i). lia.
Qed.

Lemma follows_iff : forall i q, i < n -> follows keys (kk K i) q <-> mt K q i.
Proof.
  intros i q Hi. split.
  - intros (d & D & E). rewrite (dist_kk keys HG i d Hi D) in E. exact E.
  - intros M. exists (S (leafl K i)). split; [apply (dist_at keys HG); auto|exact M].
Qed.

Lemma numbers : forall i q d, i < n -> is_bytes q -> suffix_number c (kk K i) d = real_val (kk K i) d (cf_rlen c) /\
  suffix_number c q d = real_val q d (cf_rlen c).
Proof.
  intros i q d Hi Hq. assert (Hk : is_bytes (kk K i)) by (rewrite Forall_forall in HB; apply HB, nth_In; auto).
  unfold suffix_number, bits_value. rewrite !next_bits0_val by auto. rewrite !bitsn_value by (apply real_val_bound; auto). auto.
Qed.

Lemma cmp_val_exact : forall i q d, i < n -> is_bytes q ->
  (~ keeps_real c -> cmp_val c (kk K i) q d = 2018%Z) /\
  (keeps_real c ->
     ((suffix_number c (kk K i) d = suffix_number c q d)%N -> cmp_val c (kk K i) q d = 2018%Z) /\
     ((suffix_number c (kk K i) d < suffix_number c q d)%N -> cmp_val c (kk K i) q d = (-1)%Z) /\
     ((suffix_number c q d < suffix_number c (kk K i) d)%N -> cmp_val c (kk K i) q d = 1%Z)).
Proof.
  intros i q d Hi Hq. destruct (numbers i q d Hi Hq) as [-> ->]. split.
  - intros H. unfold cmp_val. destruct (has_real (cf_type c)) eqn:E; [|reflexivity]. exfalso. apply H. apply has_real_keeps. exact E.
  - intros H. apply has_real_keeps in H. unfold cmp_val. rewrite H.
    set (a := real_val (kk K i) d (cf_rlen c)). set (b := real_val q d (cf_rlen c)).
    split; [|split]; intros L; destruct (N.eqb_spec a b) as [E|E]; try (exfalso; clear - E L; lia); try reflexivity.
    + replace (a <? b)%N with true by (clear - L; lia). rewrite orb_true_r. reflexivity.
    + replace (a =? 0)%N with false by (clear - L; lia). replace (a <? b)%N with false by (clear - L; lia). reflexivity.
Qed.

Lemma keeps_dec : keeps_real c \/ ~ keeps_real c.
Proof. unfold keeps_real. destruct (cf_type c); auto; right; intros [X|X]; discriminate. Qed.

Lemma cmp_minus : forall i q, i < n -> is_bytes q -> cmp_val c (kk K i) q (S (leafl K i)) = (-1)%Z <->
  keeps_real c /\ (suffix_number c (kk K i) (S (leafl K i)) < suffix_number c q (S (leafl K i)))%N.
Proof.
  intros i q Hi Hq. destruct (cmp_val_exact i q (S (leafl K i)) Hi Hq) as [A B]. split.
  - intros H. destruct keeps_dec as [KR|KR]; [|rewrite (A KR) in H; discriminate]. split; auto. destruct (B KR) as (B1 & B2 & B3).
    destruct (N.lt_trichotomy (suffix_number c (kk K i) (S (leafl K i))) (suffix_number c q (S (leafl K i)))) as [L|[L|L]]; auto.
    + rewrite (B1 L) in H. discriminate.
    + rewrite (B3 L) in H. discriminate.
  - intros (KR & L). apply (B KR). exact L.
Qed.

(** which keys a seek goes past *)
Lemma passed_mt : forall i q incl, i < n -> is_bytes q -> mt K q i -> passed c keys h q incl (kk K i) <->
  cmp_val c (kk K i) q (S (leafl K i)) = (-1)%Z \/ (kk K i = q /\ incl = false /\ term K (leafl K i) i = true /\ h <= length q).
Proof.
  intros i q incl Hi Hq M. unfold passed. rewrite (cmp_minus i q Hi Hq), (term_inner i Hi), (follows_iff i q Hi). split.
  - intros [(_ & X)|[(KR & d & D & E & L)|X]]; [contradiction| |right; exact X].
    left. split; auto. rewrite (dist_kk keys HG i d Hi D) in L. exact L.
  - intros [(KR & L)|X]; [|right; right; exact X]. right. left. split; auto. exists (S (leafl K i)). split; [apply (dist_at keys HG); auto|].
    split; [exact M|exact L].
Qed.

Lemma passed_not_mt : forall i q incl, i < n -> ~ mt K q i -> passed c keys h q incl (kk K i) <-> klt (kk K i) q.
Proof.
  intros i q incl Hi M. unfold passed. rewrite (follows_iff i q Hi). split.
  - intros [(A & _)|[(KR & d & D & E & L)|(A & _)]]; auto; exfalso; apply M.
    + rewrite (dist_kk keys HG i d Hi D) in E. exact E.
    + unfold mt. rewrite A. reflexivity.
  - intros H. left. auto.
Qed.

Lemma mt_dec : forall q i, mt K q i \/ ~ mt K q i.
Proof. intros q i. unfold mt. destruct (list_eq_dec Nat.eq_dec (firstn (S (leafl K i)) q) (firstn (S (leafl K i)) (kk K i))); auto. Qed.

Lemma landed_exact : forall q incl i fp, is_bytes q -> landed c K h q incl i fp ->
  seek_at c keys h q incl (opt keys i) /\ (i < n -> fp = true <-> flagged keys h q (kk K i)).
Proof.
  intros q incl i fp Hq (A & B & C & D & F).
  assert (P : forall x, x < i -> passed c keys h q incl (kk K x)).
  { intros x Hx. assert (Hn : x < n) by (clear - A Hx; lia). destruct (mt_dec q x) as [M|M].
    - apply passed_mt; auto.
    - apply passed_not_mt; auto. destruct (B x Hx) as [G|[(G & _)|(G & _)]]; auto; [|contradiction]. exfalso. apply M. unfold mt. rewrite G. reflexivity. }
  split.
  - unfold opt, seek_at. destruct (Nat.ltb_spec i n) as [L|L].
    + split; auto. split; auto. intros X. specialize (C L). specialize (F L). destruct (mt_dec q i) as [M|M].
      * apply passed_mt in X; auto. destruct fp; [specialize (F M)|apply proj1 in F; specialize (F M)].
        -- destruct X as [X|(_ & _ & T & LQ)]; [exact (proj1 F X)|]. pose proof (proj2 F T) as F2. clear - F2 LQ. lia.
        -- destruct F as (F1 & F2 & F3 & F4). destruct X as [X|(_ & X & _)]; [|congruence].
           rewrite F1, cmp_refl in X. discriminate.
      * apply passed_not_mt in X; auto. destruct fp.
        -- destruct C as [(C & _)|(_ & C & _)]; [contradiction|exact (klt_asym _ _ X C)].
        -- destruct C as [C|(C & _)]; [exact (klt_asym _ _ X C)|rewrite C in X; exact (klt_irrefl _ X)].
    + intros k Hk. destruct (in_kk keys k Hk) as (x & X1 & <-). apply P. clear - X1 L. lia.
  - intros L. specialize (C L). specialize (F L). unfold flagged. rewrite (follows_iff i q L), <- (term_inner i L). destruct (mt_dec q i) as [M|M].
    + destruct fp; [specialize (F M)|apply proj1 in F; specialize (F M)].
      * split; auto. intros _. left. split; auto. intros (_ & T & LQ). pose proof (proj2 F T) as F2. clear - F2 LQ. lia.
      * split; [discriminate|]. intros [(_ & X)|(X & _)]; [|contradiction]. exfalso. apply X. tauto.
    + destruct fp.
      * split; auto. intros _. right. destruct C as [(C & _)|(C1 & C2 & C3)]; [contradiction|auto].
      * split; [discriminate|]. intros [(X & _)|(_ & X & Y)]; [contradiction|]. exfalso.
        exact (proj2 F X Y).
Qed.

(** the value of a comparison *)
Lemma shown_pre : forall i q, firstn (S (leafl K i)) q = CompareFacts.shown K i -> exists x, q = CompareFacts.shown K i ++ x.
Proof. intros i q H. exists (skipn (S (leafl K i)) q). rewrite <- H. symmetry. apply firstn_skipn. Qed.

Lemma cut_mt : forall i q, i < n -> cut_off keys h (kk K i) q -> firstn (S (leafl K i)) q <> CompareFacts.shown K i.
Proof.
  intros i q Hi (A & B & _) E. apply (f_equal (@length nat)) in E. unfold CompareFacts.shown in E. rewrite !firstn_length in E.
  rewrite (inner_len i Hi A) in E. clear - E B. lia.
Qed.

Lemma cmp_at_cut : forall i q z, i < n -> cmp_at c K h i q z -> cut_off keys h (kk K i) q -> z = (-1)%Z.
Proof.
  intros i q z Hi CA CO. destruct CA as [(Z1 & _)|[(Z1 & _)|[(Z1 & X & FA & N1)|(M & Z1)]]]; auto; exfalso.
  - destruct CO as (A & B & D). rewrite <- (inner_len i Hi A) in B, D. apply (term_inner i Hi) in A.
    destruct (N1 A B) as (L & NE). exact (NE (D L)).
  - exact (cut_mt i q Hi CO M).
Qed.

Lemma shown_le : forall i, length (CompareFacts.shown K i) <= S (leafl K i).
Proof. intros i. unfold CompareFacts.shown. rewrite firstn_length. apply Nat.le_min_l. Qed.

Lemma cmp_at_exact : forall i q z, i < n -> is_bytes q -> cmp_at c K h i q z -> cmp_exact c keys h (kk K i) q z.
Proof.
  intros i q z Hi Hq CA. split; [apply (cmp_at_cut i q z Hi CA)|]. intros NC d D. rewrite (dist_kk keys HG i d Hi D). clear d D.
  fold (CompareFacts.shown K i).
  destruct CA as [(Z1 & T & LQ & PR)|[(Z1 & X)|[(Z1 & X & FA & N1)|(M & Z1)]]].
  - exfalso. apply NC. apply (term_inner i Hi) in T. rewrite (inner_len i Hi T) in *. split; [exact T|]. split; auto.
  - assert (NM : firstn (S (leafl K i)) q <> CompareFacts.shown K i).
    { intros E. destruct (shown_pre i q E) as (x & EX). specialize (X x). rewrite <- EX in X. exact (klt_irrefl _ X). }
    split; [intros; contradiction|]. split; [intros; contradiction|]. intros _. split; auto. intros L. exfalso.
    specialize (X []). rewrite app_nil_r in X. exact (klt_asym _ _ X L).
  - assert (NM : firstn (S (leafl K i)) q <> CompareFacts.shown K i).
    { intros E. destruct (shown_pre i q E) as (x & EX). specialize (X x). rewrite <- EX in X. exact (klt_irrefl _ X). }
    split; [intros; contradiction|]. split; [intros; contradiction|]. intros _. split.
    + intros L. exfalso. specialize (X []). rewrite app_nil_r in X. exact (klt_asym _ _ X L).
    + intros _. split; auto. intros ->. destruct FA as [FA|(_ & FA)]; [discriminate|].
      pose proof (shown_le i) as LS. clear - FA LS. lia.
  - destruct (cmp_val_exact i q (S (leafl K i)) Hi Hq) as [A B]. rewrite <- Z1 in *.
    split; auto. split; auto. intros X. contradiction.
Qed.

Lemma reaches_iff : forall i r z, i < n -> is_bytes r -> no_clash keys r -> cmp_at c K h i r z ->
  ((z =? 2018) || (z <? 0))%Z = true <-> reaches c keys h (kk K i) r.
Proof.
  intros i r z Hi Hr NC CA. pose proof (dist_at keys HG i Hi) as DA.
  pose proof (NC (kk K i) (S (leafl K i)) ltac:(apply kk_in; auto) DA) as NCi. pose proof (shown_le i) as LS.
  assert (RI : forall P : nat -> Prop, (exists d, dist_len keys (kk K i) d /\ P d) <-> P (S (leafl K i))).
  { intros P. split; [intros (d & D & H); rewrite (dist_kk keys HG i d Hi D) in H; exact H|intros H; exists (S (leafl K i)); auto]. }
  unfold reaches. rewrite RI. fold (CompareFacts.shown K i).
  pose proof CA as CA0. destruct CA as [(Z1 & T & LQ & PR)|[(Z1 & X)|[(Z1 & X & FA & N1)|(M & Z1)]]].
  - subst z. split; auto. intros _. left. apply (term_inner i Hi) in T. rewrite (inner_len i Hi T) in *. split; [exact T|]. split; auto.
  - subst z. split; auto. intros _. right. right. split.
    + intros E. destruct (shown_pre i r E) as (x & EX). specialize (X x). rewrite <- EX in X. exact (klt_irrefl _ X).
    + specialize (X []). rewrite app_nil_r in X. exact X.
  - split.
    + intros H. exfalso. destruct (Z.eqb_spec z 2018) as [E|E].
      * subst z. destruct FA as [FA|(_ & FA)]; [discriminate|]. clear - FA LS NCi. lia.
      * cbn [orb] in H. clear - H Z1. lia.
    + intros [CO|[(E & _)|(_ & L)]]; exfalso.
      * pose proof (cmp_at_cut i r z Hi CA0 CO). clear - H Z1. lia.
      * destruct (shown_pre i r E) as (x & EX). specialize (X x). rewrite <- EX in X. exact (klt_irrefl _ X).
      * specialize (X []). rewrite app_nil_r in X. exact (klt_asym _ _ X L).
  - destruct (cmp_val_exact i r (S (leafl K i)) Hi Hr) as [A B]. rewrite <- Z1 in *. split.
    + intros H. right. left. split; auto. intros KR. destruct (B KR) as (B1 & B2 & B3).
      destruct (N.le_gt_cases (suffix_number c (kk K i) (S (leafl K i))) (suffix_number c r (S (leafl K i)))) as [L|L]; auto.
      rewrite (B3 L) in H. discriminate.
    + intros [CO|[(_ & L)|(E & _)]]; [exfalso; exact (cut_mt i r Hi CO M)| |contradiction].
      destruct keeps_dec as [KR|KR]; [|rewrite (A KR); reflexivity]. destruct (B KR) as (B1 & B2 & B3). specialize (L KR).
      destruct (N.eq_dec (suffix_number c (kk K i) (S (leafl K i))) (suffix_number c r (S (leafl K i)))) as [E|E].
      * rewrite (B1 E). reflexivity.
      * rewrite B2; [reflexivity|]. clear - L E. lia.
Qed.

Lemma seek_at_unique : forall q incl p p', seek_at c keys h q incl p -> seek_at c keys h q incl p' -> p = p'.
Proof.
  assert (G : forall q incl i p, seek_at c keys h q incl (Some i) -> seek_at c keys h q incl p -> match p with Some j => ~ i < j | None => False end).
  { intros q incl i p (A & B & C) P. destruct p as [j|].
    - intros L. apply B. apply P. exact L.
    - apply B. apply P. apply kk_in. exact A. }
  intros q incl [i|] [j|] P P'; auto.
  - pose proof (G _ _ _ _ P P') as X. pose proof (G _ _ _ _ P' P) as Y. cbn in X, Y. f_equal. lia.
  - destruct (G _ _ _ _ P P').
  - destruct (G _ _ _ _ P' P).
Qed.
End Exact.

Section Calls.
Variables (e : env) (c : config) (keys : list bytes) (f : surf).
Hypothesis HM : machine e.
Hypothesis HC : settings c.
Hypothesis HG : good_keys keys.
Hypothesis HL : ~ lone_ff keys.
Hypothesis HF : filter_of e c keys f.
Notation K := (uniq keys).
Notation st := (getSparseStartLevel f).

Lemma seek_exact : forall q incl, is_bytes q -> ~ stray e keys st q -> exists it p,
  moveToKeyGreaterThan e f q incl = Ok it /\ stands e c f keys it p /\ seek_at c keys st q incl p /\
  (forall i, p = Some i -> it_fp it = true <-> flagged keys st q (nth i K [])).
Proof.
  intros q incl Hq HT. destruct (seek_gt keys HG e c f HM HC HF HL q Hq HT incl) as (it & i & E & P & LA).
  destruct (landed_exact keys HG c st q incl i _ Hq LA) as [A B].
  exists it, (opt keys i). split; auto. split; [|split; auto].
  - apply (placed_stands keys HG); auto. apply (placed_opt keys f). auto.
  - intros x E'. unfold opt in E'. destruct (Nat.ltb_spec i (length K)) as [L|L]; [|discriminate]. injection E' as <-. apply B. exact L.
Qed.

Lemma less_exact : forall q incl b, is_bytes q -> ~ stray e keys st q -> lookupKey e f q = Ok b -> exists it p,
  moveToKeyLessThan e f q incl = Ok it /\ stands e c f keys it p /\ less_at c keys st q b p.
Proof.
  intros q incl b Hq HT EB. destruct (seek_lt_with keys HG e c f HM HC HF HL q incl Hq HT) as (it0 & i & E0 & LA & G).
  destruct (G b) as (it & p & E & P & BF); auto. exists it, p. split; auto. split; [apply (placed_stands keys HG); auto|].
  destruct (landed_exact keys HG c st q false i _ Hq LA) as [A B]. exists (opt keys i). split; auto.
  unfold back_from, opt in *. destruct (Nat.ltb_spec i (length K)) as [L|L]; auto. specialize (B L).
  destruct (it_fp it0).
  - split; auto. intros X. exfalso. apply X. apply B. reflexivity.
  - split; auto. intros X. apply B in X. discriminate.
Qed.

Lemma compare_exact : forall it q, gotten e f keys it -> is_bytes q -> it_valid it = true -> exists i z,
  stands e c f keys it (Some i) /\ i < length K /\ it_compare e f it q = Ok z /\ cmp_exact c keys st (nth i K []) q z.
Proof.
  intros it q HGo Hq HV. destruct (gotten_placed keys HG e c f HM HC HF HL it HGo) as (p & P). destruct p as [i|]; [|cbn in P; congruence].
  pose proof P as (Hi & HA). destruct (compare_at keys HG e c f HM HC HF HL i it q Hi HA Hq) as (z & EZ & CA).
  exists i, z. split; [apply (placed_stands keys HG); auto|]. split; auto. split; auto.
  apply (cmp_at_exact keys HG c st i q z Hi Hq CA).
Qed.

Lemma range_exact : forall it l li r ri, member_iter e f it -> is_bytes l -> is_bytes r -> ~ stray e keys st l -> no_clash keys r ->
  exists b, range_after e f it l li r ri = Ok b /\
    (b = true <-> exists i, seek_at c keys st l li (Some i) /\ reaches c keys st (nth i K []) r).
Proof.
  intros it l li r ri MI Hl Hr HT NC. destruct (range_answer e c keys f HM HC HG HL HF it l li r ri MI Hl Hr HT) as (fp & i & b & E & LA & D).
  exists b. split; auto. destruct (landed_exact keys HG c st l li i _ Hl LA) as [A _]. unfold opt in A.
  destruct (Nat.ltb_spec i (length K)) as [L|L].
  - destruct D as (z & CA & _ & ->). rewrite (reaches_iff keys HG c st i r z L Hr NC CA). split.
    + intros R. exists i. auto.
    + intros (x & X1 & X2). pose proof (seek_at_unique keys HG c st l li _ _ A X1) as EQ. injection EQ as <-. exact X2.
  - subst b. split; [discriminate|]. intros (x & X1 & _). pose proof (seek_at_unique keys HG c st l li _ _ A X1). discriminate.
Qed.
End Calls.
