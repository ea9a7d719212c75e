(** From positions in the trie to the vocabulary of approxCount. *)
From Coq Require Import Arith List NArith ZArith Bool Lia ZifyN ZifyNat ZifyBool Sorting.Sorted.
From Verif Require Import Res Word Config BitFacts WordFacts BitvectorFacts Suffix Spec SpecApi SpecFilter SerialFacts FilterFacts SuffixFacts Builder KeyFacts Trie
  BuilderFacts DenseBuild StructFacts NodeFacts SparseFacts DenseFacts Dense Sparse Surf LookupFacts PointFacts IterTrie IterDense IterDMove IterSparse
  IterFacts IterKey SpecIter IterApi SeekOrder SuffixOrder SeekDense SeekSparse SeekFacts CompareFacts IterSim SpecRange RangeApi
  CountTrie CountSparse CountDense CountDLoop CountSeek CountIt SpecCount.
Import ListNotations.

Lemma cn_inject : forall (p : nat -> bool) (g : nat -> nat), (forall i j, p i = true -> p j = true -> i < j -> g i < g j) ->
  forall m b, (forall i, i < m -> p i = true -> g i < b) -> cn p m <= b.
Proof.
  intros p g HM. induction m as [|m IH]; intros b HB; cbn [cn]; [lia|]. destruct (p m) eqn:E.
  - specialize (IH (g m) ltac:(intros; apply HM; auto)). specialize (HB m ltac:(lia) E). lia.
  - specialize (IH b ltac:(intros; apply HB; auto)). lia.
Qed.

Section CA.
Variables (keys : list bytes).
Hypothesis HG : good_keys keys.
Notation K := (uniq keys).
Notation n := (length K).
Let HS : StronglySorted klt K := proj1 (good_uniq keys HG).
Let HB : Forall is_bytes K := proj1 (proj2 (good_uniq keys HG)).
Let HE : Forall (fun k => k <> []) K := proj1 (proj2 (proj2 (good_uniq keys HG))).
Let HN : length K <> 0 := proj2 (proj2 (proj2 (good_uniq keys HG))).

Lemma sect : forall a m (P : bytes -> Prop), a + m <= n -> (forall x, x < n -> P (kk K x) <-> a <= x < a + m) ->
  exists xs, lists keys xs P /\ length xs = m.
Proof.
  intros a m P HA HP. exists (map (kk K) (seq a m)). split; [|rewrite map_length; apply seq_length]. split.
  - assert (G : forall m a, a + m <= n -> NoDup (map (kk K) (seq a m))).
    { clear - HS. induction m as [|m IH]; intros a HA; cbn [seq map]; constructor; [|apply IH; lia].
      intros X. apply in_map_iff in X. destruct X as (y & E & Y). apply in_seq in Y.
      pose proof (kk_inj K HS y a ltac:(lia) ltac:(lia) E). lia. }
    apply G. exact HA.
  - intros x. rewrite in_map_iff. split.
    + intros (y & <- & Y). apply in_seq in Y. split; [apply kk_in; lia|]. apply HP; lia.
    + intros [X1 X2]. destruct (in_kk keys x X1) as (y & Y1 & <-). exists y. split; auto. apply in_seq. apply HP; auto.
Qed.

Lemma kk_lt : forall i j, i < j -> j < n -> klt (kk K i) (kk K j).
Proof. intros i j H1 H2. apply (sorted_nth K HS). auto. Qed.
Lemma kk_le : forall i j, i <= j -> j < n -> kle (kk K i) (kk K j).
Proof. intros i j H1 H2. destruct (Nat.eq_dec i j) as [->|N]; [right; reflexivity|left; apply kk_lt; lia]. Qed.
Lemma kle_idx : forall i j, i < n -> j < n -> kle (kk K i) (kk K j) -> i <= j.
Proof.
  intros i j Hi Hj [H|H]; [apply (keys_lt keys HG) in H; auto; lia|]. apply (kk_inj K HS) in H; auto. lia.
Qed.

Lemma leaf_level : forall l, cn (leaf K l) n <= 257 * nds K l.
Proof.
  intros l. rewrite (cn_leaf K HS HE).
  assert (A : cn (termi K l) n <= nds K l).
  { apply (cn_inject _ (nn K l)).
    - intros i j Hi Hj L. pose proof (nn_mono K HN l i j ltac:(clear - L; lia)) as M. pose proof (nn_term_inj K HS HE HN l i j Hi Hj) as J. clear - M J L. lia.
    - intros i Hi T. apply termi_spec in T. apply (nn_lt K HN); tauto. }
  assert (B : cn (nleaf K l) n <= 256 * nds K l).
  { apply (cn_inject _ (dpl K l)).
    - intros i j Hi Hj L. unfold nleaf in *. apply andb_prop in Hi, Hj. destruct Hi as [Hi _], Hj as [Hj _].
      apply nonterm_spec in Hi, Hj. apply (dpl_lt_iff K HS HB HE HN); tauto.
    - intros i Hi T. unfold nleaf in T. apply andb_prop in T. destruct T as [T _]. apply nonterm_spec in T.
      apply (DenseBuild.dpl_lt K HB HN); tauto. }
  clear - A B. lia.
Qed.

Lemma deep_item : forall m t y, t < y -> y < n -> m <= leafl K y -> leafl K t < m -> exists x, t < x /\ item K m x = true.
Proof.
  intros m t y L Hy D S. exists (anc K m y). split; [|apply anc_item; auto].
  destruct (lt_eq_lt_dec (anc K m y) t) as [[G|G]|G]; auto; exfalso.
  - pose proof (anc_between K m y t ltac:(clear - G L; lia)) as A. pose proof (lo_le K t) as B. clear - A B S. lia.
  - pose proof (anc_between K m y (Datatypes.S t) ltac:(clear - G L; lia)) as A. rewrite <- hi_lo in A. unfold leafl in S.
    clear - A S. lia.
Qed.

(** the right side stops at key [t] *)
Definition stop (r : bytes) (t : nat) : Prop :=
  t < n /\ (forall x, x < t -> klt (kk K x) r) /\ (forall x, t < x -> x < n -> klt r (kk K x)).

Section Stop.
Variables (st : nat) (e : env).
Context {lb : nat} {Hlb : wide K lb}.
Hypothesis Hst1 : lb <= st.
Hypothesis Hst2 : S st <= height K.
Hypothesis Hmem : strict_mem e = false.

Lemma stop_room : forall s t r, stop r t -> s <= t -> s < n -> room keys st (kk K s) r -> CountIt.room K st s t.
Proof.
  intros s t r (Ht & HB1 & HB2) Hst Hs [H|(d & z & k & d' & H1 & H2 & H3 & H4 & H5 & H6 & H7 & H8)].
  - left. unfold nit. clear HB1 HB2.
    assert (X : forall x, item K st x = false).
    { intros x. destruct (item K st x) eqn:I; auto. exfalso. pose proof (item_lt K st x I) as Hx.
      specialize (H (kk K x) (S (leafl K x)) (kk_in keys x Hx) (dist_at keys HG x Hx)). apply item_spec in I. unfold leafl in H.
      clear - H I. lia. }
    rewrite (cn_ext (item K st) (fun _ => false) n) by auto. clear. generalize n. intros j. induction j as [|m IH]; [reflexivity|cbn [cn]; rewrite IH; reflexivity].
  - right. destruct (in_kk keys z H2) as (y & Y1 & <-). destruct (in_kk keys k H4) as (w & W1 & <-).
    assert (TY : t <= y).
    { destruct (le_lt_dec t y) as [|G]; auto. exfalso. specialize (HB1 y G). destruct H3 as [H3|H3].
      - exact (klt_asym _ _ HB1 H3).
      - rewrite H3 in HB1. exact (klt_irrefl _ HB1). }
    assert (YW : y < w) by (apply (keys_lt keys HG); auto).
    assert (DX : forall x, s <= x -> x <= t -> leafl K x < d).
    { intros x X1 X2. specialize (H8 (kk K x) (S (leafl K x))).
      assert (Hx : x < n) by (clear - X2 Ht; lia).
      specialize (H8 (kk_in keys x Hx) (kk_le s x X1 Hx) (kk_le x y ltac:(clear - X2 TY; lia) Y1) (dist_at keys HG x Hx)).
      clear - H8. lia. }
    rewrite (dist_fun keys (kk K w) d' (S (leafl K w)) H6 (dist_at keys HG w W1)) in H7.
    exists d. split; [exact H1|]. split.
    { pose proof (leafl_height K HN st Hst1 Hst2 w W1) as LH. clear - LH H7. lia. }
    split; [apply DX; auto|]. split; [apply DX; auto|]. split.
    + intros x X1 X2. destruct (item K d x) eqn:I; auto. exfalso. specialize (DX x ltac:(clear - X1; lia) X2).
      apply item_spec in I. unfold leafl in DX. clear - I DX. lia.
    + intros EN. apply (E_none K HN st e Hst1 Hst2 Hmem d t Ht) in EN. destruct EN as [EN1 EN2].
      destruct (deep_item d t w) as (x & X1 & X2); auto; [clear - TY YW; lia|clear - H7; lia|].
      rewrite (EN2 x X1) in X2. discriminate.
Qed.

Hypothesis Hge : 1 <= st.
Hypothesis HT : plain_top keys st.

Lemma plain_lab : forall m x, m < st -> item K m x = true -> term K m x = false -> 0 < lab K m x < 255.
Proof.
  intros m x Hm HI HTm. pose proof (item_lt K m x HI) as Hx. apply item_spec in HI. destruct HI as (_ & _ & HI).
  unfold term in HTm. apply Nat.leb_gt in HTm.
  pose proof (HT (kk K x) (S (leafl K x)) (kk_in keys x Hx) (dist_at keys HG x Hx)) as F. rewrite Forall_forall in F.
  apply F. change (lab K m x) with (nth m (kk K x) 255). rewrite <- (nth_firstn' _ (kk K x) m (Nat.min st (S (leafl K x))) 255) by (unfold leafl; clear - Hm HI; lia).
  apply nth_In. rewrite firstn_length. unfold leafl. clear - Hm HI HTm. lia.
Qed.

Lemma stop_has : forall r t, stop r t -> reaches keys st r \/ ~ last_level_prefix keys st ->
  has K (st - 1) t = true \/ forall x, item K (st - 1) x = true -> term K (st - 1) x = false.
Proof.
  intros r t (Ht & HB1 & HB2) [(k & d & H1 & H2 & H3 & H4)|H].
  - left. destruct (in_kk keys k H1) as (y & Y1 & <-).
    rewrite (dist_fun keys (kk K y) d (S (leafl K y)) H3 (dist_at keys HG y Y1)) in H4.
    assert (TY : t <= y).
    { destruct (le_lt_dec t y) as [|G]; auto. exfalso. destruct H2 as [H2|H2].
      - specialize (HB1 y G). destruct H2 as [H2|H2].
        + exact (klt_asym _ _ HB1 H2).
        + rewrite H2 in HB1. exact (klt_irrefl _ HB1).
      - specialize (H2 (kk K t) (kk_in keys t Ht)). apply kle_idx in H2; auto. clear - H2 G. lia. }
    destruct (has K (st - 1) t) eqn:EH; auto. exfalso.
    apply (has_none K HN st e Hge Hst2 Hmem plain_lab) in EH. destruct EH as [E1 E2].
    destruct (Nat.eq_dec t y) as [->|NE]; [clear - E1 H4; lia|].
    destruct (deep_item (st - 1) t y) as (x & X1 & X2); auto; [clear - TY NE; lia|clear - H4; lia|].
    rewrite (E2 x X1) in X2. discriminate.
  - right. intros x HI. destruct (term K (st - 1) x) eqn:T; auto. exfalso. apply H.
    destruct (term_first K HS HE _ _ HI T) as (LO & _ & LK & L1). destruct (node_next keys HG _ _ L1 LO) as (Hx' & EN).
    exists (kk K x), (kk K (S x)). split; [apply kk_in; clear - Hx'; lia|]. split; [apply kk_in; auto|].
    split; [apply (kk_neq keys HG); auto; clear - Hx'; lia|]. rewrite <- LK. split; [clear - L1; lia|].
    rewrite EN. apply firstn_all2. rewrite <- LK. apply Nat.le_refl.
Qed.

End Stop.

Section Filter.
Variables (e : env) (c : config) (f : surf).
Hypothesis HM : machine e.
Hypothesis HC : settings c.
Hypothesis HF : filter_of e c keys f.
Hypothesis HL : ~ lone_ff keys.
Notation st := (getSparseStartLevel f).
Let HFF : no_lone_ff K := lone_ff_iff keys HG HL.
Let Hst1 : 1 <= st := proj1 (built_st keys HG e c f HM HC HF).
Let Hst2 : S st <= height K := proj1 (proj2 (built_st keys HG e c f HM HC HF)).
Let HD : dense_ok c K st (sf_dense f) := proj1 (proj2 (proj2 (built_st keys HG e c f HM HC HF))).
Let HK : sparse_ok c K st (sf_sparse f) := proj2 (proj2 (proj2 (built_st keys HG e c f HM HC HF))).
Let Hmem : strict_mem e = false := proj2 HM.
Let Hshift : strict_shift e = false := proj1 HM.
Let Hlens : lens_ok (cf_type c) (cf_hlen c) (cf_rlen c) := settings_lens c HC.

Lemma keys_64 : (N.of_nat n < two64)%N.
Proof.
  assert (Hh : forall i, i < n -> leafl K i < height K).
  { intros i Hi. pose proof (leafl_height K HN st Hst1 Hst2 i Hi) as X. clear - X. lia. }
  pose proof (leaf_sum K HN Hh n (Nat.le_refl n)) as S1.
  pose proof (dk_fits c K st _ HD) as F1. rewrite (len_dlab K HN st Hst1) in F1.
  pose proof (sk_fits c K st _ HK) as F2. rewrite (cc_len K st nat (slabs K)) in F2; [|clear - Hst2; lia|intros; apply slabs_n].
  assert (D : sm (fun l => cn (leaf K l) n) st <= 257 * sm (nds K) st).
  { rewrite <- sm_mul. apply sm_le. intros l _. apply leaf_level. }
  assert (LV : forall m, cn (leaf K m) n <= nit K m).
  { intros m. unfold nit. clear. induction n as [|j IH]; [apply Nat.le_refl|]. cbn [cn].
    destruct (leaf K m j) eqn:L, (item K m j) eqn:I; try (clear - IH; lia). unfold leaf in L. rewrite I in L. discriminate. }
  assert (Q : forall m, st <= m -> sm (fun l => cn (leaf K l) n) m - sm (fun l => cn (leaf K l) n) st <= sm (nit K) m - sm (nit K) st).
  { intros m L. induction L as [|m L IH]; [clear; lia|]. cbn [sm]. specialize (LV m).
    pose proof (sm_mono (nit K) st m L) as SM. clear - IH LV SM. lia. }
  specialize (Q (height K) ltac:(clear - Hst2; lia)). unfold slen, soff in F2. unfold two64. clear - S1 F1 F2 D Q. lia.
Qed.

Section Q.
Hypothesis HT : plain_top keys st.

Lemma left_at : forall s, s < n -> exists it, moveToKeyGreaterThan e f (kk K s) true = Ok it /\ it_at K st s it /\
  di_search (it_d it) = (leafl K s <? st) /\ (leafl K s < st -> si_len (it_s it) = 0).
Proof.
  intros s Hs. assert (NT : ~ trap e c keys st (kk K s)).
  { apply (stored_no_trap e c keys f HG). apply kk_in. exact Hs. }
  unfold trap in NT.
  assert (Hq : is_bytes (kk K s)) by (rewrite Forall_forall in HB; apply HB, nth_In; exact Hs).
  apply (left_flags c K HS HB HE HN HFF st f e Hst1 Hst2 HD HK Hmem Hshift Hlens s Hs).
  - apply (end_early keys HG e c f HM HC HF). tauto.
  - apply (clean_seek keys HG st (kk K s) Hst1 Hst2); tauto.
Qed.

(** the right side of the call *)
Lemma right_at : forall r, is_bytes r -> ~ trap e c keys st r -> exists b b' t, moveToKeyGreaterThan e f r true = Ok b /\
  (if negb (it_valid b) then moveToLast e f else Ok b) = Ok b' /\ it_at K st t b' /\ stop r t.
Proof.
  intros r Hr NT. destruct (seek_gt keys HG e c f HM HC HF HL r Hr (trap_stray e c keys f r NT) true) as (b & i & E & P & LA).
  pose proof (landed_below keys HG c r (trap_cut e c keys f HG r Hr NT) _ _ _ _ LA) as L2.
  exists b. destruct LA as (L1 & _ & L3 & _). unfold SeekFacts.placed in P. destruct (Nat.ltb_spec i n) as [L|L].
  - rewrite (it_at_valid K st i b P). exists b, i. cbn [negb]. split; auto. split; auto. split; auto. split; auto. split.
    + intros x Hx. destruct (L2 x Hx) as [G|(_ & G)]; [auto|discriminate].
    + specialize (L3 L). intros x Hx Hn. destruct (it_fp b).
      * destruct L3 as [(M & _)|(_ & M & _)]; [apply (mt_after K HS HN r i x); auto|].
        exact (klt_trans _ _ _ M (kk_lt i x Hx Hn)).
      * destruct L3 as [M|(M & _)]; [exact (klt_trans _ _ _ M (kk_lt i x Hx Hn))|]. rewrite <- M. apply kk_lt; auto.
  - rewrite P. cbn [negb]. destruct (last_at keys HG e c f HM HC HF HL) as (it & E' & A). exists it, (n - 1).
    assert (EI : i = n) by (clear - L L1; lia). rewrite EI in L2.
    split; auto. split; auto. split; [exact A|].
    split; [clear - HN; lia|]. split.
    + intros x Hx. destruct (L2 x ltac:(clear - Hx; lia)) as [G|(_ & G)]; [auto|discriminate].
    + intros x H1 H2. clear - H1 H2. lia.
Qed.

Lemma count_at : forall s r, s < n -> is_bytes r -> ~ trap e c keys st r -> kle (kk K s) r ->
  reaches keys st r \/ ~ last_level_prefix keys st ->
  exists t, stop r t /\ s <= t /\
    okB (room keys st (kk K s) r) (approxCount e f (kk K s) r) (fun k => k = N.of_nat (t - s - 1)).
Proof.
  intros s r Hs Hr NT LE RE. destruct (left_at s Hs) as (a & EA & A1 & A2 & A3).
  destruct (right_at r Hr NT) as (b & b' & t & EB & EB' & B1 & ST). exists t. split; auto.
  assert (Hst : s <= t).
  { destruct (le_lt_dec s t) as [|G]; auto. exfalso. destruct ST as (_ & _ & ST). specialize (ST s G Hs). destruct LE as [LE|LE].
    - exact (klt_asym _ _ LE ST).
    - rewrite LE in ST. exact (klt_irrefl _ ST). }
  split; auto. unfold approxCount. rewrite EA. cbn [bind]. rewrite (it_at_valid K st s a A1). cbn [negb].
  rewrite EB. cbn [bind]. rewrite EB'. cbn [bind].
  pose proof (count_it c K HS HB HE HN HFF st f e Hst1 Hst2 HD HK Hmem (plain_lab st HT) s t a b' Hst (proj1 ST)
    (stop_has st e Hst2 Hmem Hst1 HT r t ST RE) A1 A2 A3 B1 keys_64) as CI.
  destruct (approxCount_it e f a b') as [k|er]; cbn [okB] in *; auto.
  intros R. apply CI. apply (stop_room st e Hst1 Hst2 Hmem s t r); auto.
Qed.

(** the call on two iterators *)
Lemma iters_at : forall s t a b, s <= t -> t < n -> moveToKeyGreaterThan e f (kk K s) true = Ok a -> it_at K st t b ->
  reaches keys st (kk K t) \/ ~ last_level_prefix keys st ->
  okB (room keys st (kk K s) (kk K t)) (approxCount_it e f a b) (fun k => k = N.of_nat (t - s - 1)).
Proof.
  intros s t a b Hst Ht EA B RE. assert (Hs : s < n) by (clear - Hst Ht; lia).
  assert (ST : stop (kk K t) t).
  { split; auto. split; [intros x Hx; apply kk_lt; auto|]. intros x H1 H2; apply kk_lt; auto. }
  destruct (left_at s Hs) as (a' & EA' & A1 & A2 & A3). rewrite EA in EA'. injection EA' as <-.
  pose proof (count_it c K HS HB HE HN HFF st f e Hst1 Hst2 HD HK Hmem (plain_lab st HT) s t a b Hst Ht
    (stop_has st e Hst2 Hmem Hst1 HT (kk K t) t ST RE) A1 A2 A3 B keys_64) as CI.
  destruct (approxCount_it e f a b) as [k|er]; cbn [okB] in *; auto.
  intros R. apply CI. apply (stop_room st e Hst1 Hst2 Hmem s t (kk K t)); auto.
Qed.

(** an iterator stands at one place only *)
Lemma stands_placed : forall b j, gotten e f keys b -> stands e c f keys b (Some j) -> j < n -> it_at K st j b.
Proof.
  intros b j GB SB Hj. destruct (gotten_placed keys HG e c f HM HC HF HL b GB) as (p & P).
  pose proof (placed_stands keys HG e c f HM HC HF HL b p P) as SP.
  destruct (SB [] (Some j) (path_nil _ _ _)) as (b1 & v1 & R1 & L1 & V1).
  destruct (SP [] p (path_nil _ _ _)) as (b2 & v2 & R2 & L2 & V2).
  cbn [run] in R1, R2. injection R1 as <-. injection R2 as <-. rewrite L1 in L2. injection L2 as <-.
  destruct V1 as (_ & d & D & VV & VK & _). destruct p as [i|]; cbn [view_at] in V2; [|rewrite V2 in VV; discriminate].
  destruct V2 as (Hi & d' & D' & _ & VK' & _). destruct P as [_ P].
  destruct (Nat.eq_dec i j) as [->|NE]; [exact P|exfalso]. rewrite VK in VK'. fold (kk K j) in *. fold (kk K i) in *.
  assert (NK : kk K i <> kk K j) by (apply (kk_neq keys HG); auto).
  destruct (le_ge_dec d d') as [L|L].
  - destruct D as (_ & D & _). apply (D (kk K i) (kk_in keys i Hi) NK).
    replace d with (Nat.min d d') at 1 by (clear - L; lia).
    rewrite <- firstn_firstn, <- VK', firstn_firstn. f_equal. clear. lia.
  - destruct D' as (_ & D' & _). apply (D' (kk K j) (kk_in keys j Hj)); [congruence|].
    replace d' with (Nat.min d' d) at 1 by (clear - L; lia).
    rewrite <- firstn_firstn, VK', firstn_firstn. f_equal. clear. lia.
Qed.
End Q.
End Filter.
End CA.

Theorem count_bounds : forall e c keys f,
  machine e -> settings c -> good_keys keys -> ~ lone_ff keys -> filter_of e c keys f ->
  forall l r, In l keys -> is_bytes r -> kle l r -> ~ trap e c keys (getSparseStartLevel f) r ->
  plain_top keys (getSparseStartLevel f) ->
  reaches keys (getSparseStartLevel f) r \/ ~ last_level_prefix keys (getSparseStartLevel f) ->
  (forall k, approxCount e f l r = Ok k -> exists xs,
     lists keys xs (fun x => kle l x /\ kle x r) /\ (k <= N.of_nat (length xs) <= k + 2)%N) /\
  (room keys (getSparseStartLevel f) l r -> exists k, approxCount e f l r = Ok k).
Proof.
  intros e c keys f HM HC HG HL HF l r Hl Hr LE NT PT RE.
  destruct (in_kk keys l Hl) as (s & Hs & <-).
  destruct (count_at keys HG e c f HM HC HF HL PT s r Hs Hr NT LE RE) as (t & (Ht & T1 & T2) & Hst & CI).
  split.
  - intros k E. rewrite E in CI. cbn [okB] in CI. subst k.
    destruct (klt_total (kk (uniq keys) t) r) as [H|[H|H]].
    + destruct (sect keys HG s (S (t - s)) (fun x => kle (kk (uniq keys) s) x /\ kle x r)) as (xs & X1 & X2); [clear - Hst Ht; lia| |].
      { intros x Hx. split.
        - intros [Q1 Q2]. apply (kle_idx keys HG) in Q1; auto. destruct (le_lt_dec x t) as [G0|G]; [clear - Q1 G0 Hst; lia|]. exfalso.
          specialize (T2 x G Hx). destruct Q2 as [Q2|Q2]; [exact (klt_asym _ _ Q2 T2)|rewrite Q2 in T2; exact (klt_irrefl _ T2)].
        - intros Q. split; [apply (kk_le keys HG); auto; clear - Q; lia|].
          destruct (Nat.eq_dec x t) as [->|NE]; [left; auto|left; apply T1; clear - Q NE Hst; lia]. }
      exists xs. split; auto. rewrite X2. clear. lia.
    + destruct (sect keys HG s (S (t - s)) (fun x => kle (kk (uniq keys) s) x /\ kle x r)) as (xs & X1 & X2); [clear - Hst Ht; lia| |].
      { intros x Hx. split.
        - intros [Q1 Q2]. apply (kle_idx keys HG) in Q1; auto. destruct (le_lt_dec x t) as [G0|G]; [clear - Q1 G0 Hst; lia|]. exfalso.
          specialize (T2 x G Hx). destruct Q2 as [Q2|Q2]; [exact (klt_asym _ _ Q2 T2)|rewrite Q2 in T2; exact (klt_irrefl _ T2)].
        - intros Q. split; [apply (kk_le keys HG); auto; clear - Q; lia|].
          destruct (Nat.eq_dec x t) as [->|NE]; [right; auto|left; apply T1; clear - Q NE Hst; lia]. }
      exists xs. split; auto. rewrite X2. clear. lia.
    + destruct (sect keys HG s (t - s) (fun x => kle (kk (uniq keys) s) x /\ kle x r)) as (xs & X1 & X2); [clear - Hst Ht; lia| |].
      { intros x Hx. split.
        - intros [Q1 Q2]. apply (kle_idx keys HG) in Q1; auto. destruct (le_lt_dec t x) as [G|G]; [|clear - Q1 G; lia]. exfalso.
          assert (T4 : klt r (kk (uniq keys) x)).
          { destruct (Nat.eq_dec x t) as [->|NE]; auto. apply T2; auto. clear - G NE. lia. }
          destruct Q2 as [Q2|Q2]; [exact (klt_asym _ _ Q2 T4)|rewrite Q2 in T4; exact (klt_irrefl _ T4)].
        - intros Q. split; [apply (kk_le keys HG); auto; clear - Q; lia|]. left. apply T1. clear - Q Hst. lia. }
      exists xs. split; auto. rewrite X2. clear. lia.
  - intros R. destruct (approxCount e f (kk (uniq keys) s) r) as [k|er]; [eauto|]. exfalso. exact (CI R).
Qed.

Theorem count_stored : forall e c keys f,
  machine e -> settings c -> good_keys keys -> ~ lone_ff keys -> filter_of e c keys f ->
  forall l r, In l keys -> In r keys -> kle l r -> plain_top keys (getSparseStartLevel f) ->
  reaches keys (getSparseStartLevel f) r \/ ~ last_level_prefix keys (getSparseStartLevel f) ->
  forall k, approxCount e f l r = Ok k -> exists xs, lists keys xs (fun x => klt l x /\ klt x r) /\ k = N.of_nat (length xs).
Proof.
  intros e c keys f HM HC HG HL HF l r Hl Hr LE PT RE k E.
  assert (NT : ~ trap e c keys (getSparseStartLevel f) r) by (apply (stored_no_trap e c keys f HG); auto).
  assert (Br : is_bytes r) by (destruct HG as (_ & HB & _); rewrite Forall_forall in HB; auto).
  destruct (in_kk keys l Hl) as (s & Hs & <-). destruct (in_kk keys r Hr) as (u & Hu & EU).
  destruct (count_at keys HG e c f HM HC HF HL PT s r Hs Br NT LE RE) as (t & (Ht & T1 & T2) & Hst & CI).
  rewrite E in CI. cbn [okB] in CI. subst k.
  assert (TU : t = u).
  { destruct (lt_eq_lt_dec t u) as [[L|L]|L]; auto; exfalso.
    - specialize (T2 u L Hu). rewrite EU in T2. exact (klt_irrefl _ T2).
    - specialize (T1 u L). rewrite EU in T1. exact (klt_irrefl _ T1). }
  subst u. rewrite <- EU.
  destruct (sect keys HG (S s) (t - s - 1) (fun x => klt (kk (uniq keys) s) x /\ klt x (kk (uniq keys) t))) as (xs & X1 & X2); [clear - Hst Ht; lia| |].
  - intros x Hx. split.
    + intros [Q1 Q2]. apply (keys_lt keys HG) in Q1, Q2; auto. clear - Q1 Q2. lia.
    + intros Q. split; apply (kk_lt keys HG); auto; clear - Q; lia.
  - exists xs. split; auto.
Qed.

Theorem count_iters : forall e c keys f,
  machine e -> settings c -> good_keys keys -> ~ lone_ff keys -> filter_of e c keys f ->
  forall l a j b, In l keys -> moveToKeyGreaterThan e f l true = Ok a ->
  gotten e f keys b -> stands e c f keys b (Some j) -> j < length (uniq keys) -> kle l (nth j (uniq keys) []) ->
  plain_top keys (getSparseStartLevel f) ->
  reaches keys (getSparseStartLevel f) (nth j (uniq keys) []) \/ ~ last_level_prefix keys (getSparseStartLevel f) ->
  (forall k, approxCount_it e f a b = Ok k -> exists xs,
     lists keys xs (fun x => klt l x /\ klt x (nth j (uniq keys) [])) /\ k = N.of_nat (length xs)) /\
  (room keys (getSparseStartLevel f) l (nth j (uniq keys) []) -> exists k, approxCount_it e f a b = Ok k).
Proof.
  intros e c keys f HM HC HG HL HF l a t b Hl EA GB SB Ht LE PT RE. fold (kk (uniq keys) t) in *.
  destruct (in_kk keys l Hl) as (s & Hs & <-). pose proof (kle_idx keys HG s t Hs Ht LE) as Hst.
  pose proof (stands_placed keys HG e c f HM HC HF HL b t GB SB Ht) as B.
  pose proof (iters_at keys HG e c f HM HC HF HL PT s t a b Hst Ht EA B RE) as CI.
  split.
  - intros k E. rewrite E in CI. cbn [okB] in CI. subst k.
    destruct (sect keys HG (S s) (t - s - 1) (fun x => klt (kk (uniq keys) s) x /\ klt x (kk (uniq keys) t))) as (xs & X1 & X2); [clear - Hst Ht; lia| |].
    + intros x Hx. split.
      * intros [Q1 Q2]. apply (keys_lt keys HG) in Q1, Q2; auto. clear - Q1 Q2. lia.
      * intros Q. split; apply (kk_lt keys HG); auto; clear - Q; lia.
    + exists xs. split; auto.
  - intros R. destruct (approxCount_it e f a b) as [k|er]; [eauto|]. exfalso. exact (CI R).
Qed.

(** a seek for a stored key stands at it *)
Theorem seek_stored : forall e c keys f,
  machine e -> settings c -> good_keys keys -> ~ lone_ff keys -> filter_of e c keys f ->
  forall q, In q keys -> exists it j, moveToKeyGreaterThan e f q true = Ok it /\ gotten e f keys it /\
  stands e c f keys it (Some j) /\ j < length (uniq keys) /\ nth j (uniq keys) [] = q.
Proof.
  intros e c keys f HM HC HG HL HF q Hq. destruct (in_kk keys q Hq) as (s & Hs & EQ).
  destruct (left_at keys HG e c f HM HC HF HL s Hs) as (it & E & A & _). rewrite EQ in E. exists it, s. split; [exact E|].
  split; [|split; [apply (placed_stands keys HG e c f HM HC HF HL); split; auto|split; [exact Hs|exact EQ]]].
  apply (got_gt e f keys q true); auto.
  - destruct HG as (_ & HB & _). rewrite Forall_forall in HB. auto.
  - apply (trap_stray e c keys f), (stored_no_trap e c keys f HG). exact Hq.
Qed.

(** an iterator at the end counts nothing *)
Lemma stands_end : forall e c f keys it, stands e c f keys it None -> it_valid it = false.
Proof.
  intros e c f keys it H. destruct (H [] None (path_nil _ _ _)) as (it' & v & R & L & V). cbn in R. injection R as <-.
  cbn [view_at] in V. subst v. unfold look in L. destruct (it_valid it); [|reflexivity].
  destruct (it_getKey it); cbn [bind] in L; [|discriminate]. destruct (it_getSuffix e f it); cbn [bind] in L; [|discriminate].
  destruct (it_getKeyWithSuffix e f it); cbn [bind] in L; discriminate.
Qed.
Lemma stands_valid : forall e c f keys it i, stands e c f keys it (Some i) -> it_valid it = true.
Proof.
  intros e c f keys it i H. destruct (H [] (Some i) (path_nil _ _ _)) as (it' & v & R & L & V). cbn in R. injection R as <-.
  destruct V as (_ & d & _ & V & _). unfold look in L. destruct (it_valid it); [reflexivity|]. injection L as <-. discriminate V.
Qed.
Theorem count_end : forall e c keys f a b, stands e c f keys a None \/ stands e c f keys b None -> approxCount_it e f a b = Ok 0%N.
Proof.
  intros e c keys f a b H. unfold approxCount_it.
  destruct H as [H|H]; apply stands_end in H; rewrite H; [reflexivity|rewrite orb_true_r; reflexivity].
Qed.
Theorem count_past : forall e c keys f,
  machine e -> settings c -> good_keys keys -> ~ lone_ff keys -> filter_of e c keys f ->
  forall l r, is_bytes l -> ~ trap e c keys (getSparseStartLevel f) l ->
  (forall k d, In k keys -> dist_len keys k d -> klt k l /\ firstn d l <> firstn d k) ->
  approxCount e f l r = Ok 0%N.
Proof.
  intros e c keys f HM HC HG HL HF l r Bl NT H.
  destruct (seek_gt_place e c keys f HM HC HG HL HF l true Bl NT) as (it & p & E & S & P).
  assert (p = None).
  { destruct p as [i|]; [|reflexivity]. exfalso. destruct P as (_ & Hi & P).
    assert (I : In (nth i (uniq keys) []) keys) by (apply (proj1 (BuilderFacts.uniq_in keys _)); apply nth_In; exact Hi).
    destruct (dist_exists keys HG _ I) as (d0 & D0).
    destruct (H _ _ I D0) as (L & F).
    destruct (it_fp it).
    - destruct P as [(d & D & Q & _)|(_ & Q & _)]; [exact (proj2 (H _ _ I D) Q)|exact (klt_asym _ _ L Q)].
    - destruct P as [Q|(Q & _)]; [exact (klt_asym _ _ L Q)|rewrite Q in L; exact (klt_irrefl _ L)]. }
  subst p. unfold approxCount. rewrite E. cbn [bind]. rewrite (stands_end _ _ _ _ _ S). reflexivity.
Qed.
