(** From positions in the trie to the vocabulary of the seek and range
    properties. *)
From Coq Require Import Arith List NArith ZArith Bool Lia ZifyN ZifyNat ZifyBool Sorting.Sorted.
From Verif Require Import Res Word Config BitFacts WordFacts BitvectorFacts Suffix Spec SpecApi SpecFilter SerialFacts FilterFacts SuffixFacts Builder KeyFacts Trie
  BuilderFacts DenseBuild StructFacts NodeFacts SparseFacts DenseFacts Dense Sparse Surf LookupFacts PointFacts IterTrie IterDense IterDMove IterSparse
  IterFacts IterKey SpecIter IterApi SeekOrder SuffixOrder SeekDense SeekSparse SeekFacts CompareFacts IterSim SpecRange.
Import ListNotations.

Lemma ex_dec : forall (P : nat -> Prop), (forall i, P i \/ ~ P i) -> forall m,
  (exists i, i < m /\ P i) \/ ~ exists i, i < m /\ P i.
Proof.
  intros P D m. induction m as [|m IH].
  - right. intros (i & A & _). lia.
  - destruct IH as [(i & A & B)|N1]; [left; exists i; split; [lia|auto]|].
    destruct (D m) as [H|H]; [left; exists m; split; [lia|auto]|].
    right. intros (i & A & B). destruct (Nat.eq_dec i m) as [->|]; [auto|]. apply N1. exists i. split; [lia|auto].
Qed.

Lemma and_dec : forall A B : Prop, A \/ ~ A -> B \/ ~ B -> (A /\ B) \/ ~ (A /\ B).
Proof. tauto. Qed.

Lemma bool_eq_dec : forall a b : bool, a = b \/ a <> b.
Proof. intros [|] [|]; auto; right; discriminate. Qed.

Lemma same_node_dec : forall K l j i, same_node K l j i \/ ~ same_node K l j i.
Proof.
  intros K l j i. destruct (ex_dec (fun m => j < m /\ louds K l m = true)) with (m := S i) as [(m & A & B & C)|N1].
  - intros m. apply and_dec; [lia|apply bool_eq_dec].
  - right. intros H. rewrite (H m ltac:(lia)) in C. discriminate.
  - left. intros m Hm. destruct (louds K l m) eqn:E; auto. exfalso. apply N1. exists m. split; [lia|]. split; [lia|auto].
Qed.

Section Api.
Variables (keys : list bytes).
Hypothesis HG : good_keys keys.
Notation K := (uniq keys).
Notation n := (length K).

Let HS : StronglySorted klt K := proj1 (good_uniq keys HG).
Let HB : Forall is_bytes K := proj1 (proj2 (good_uniq keys HG)).
Let HE : Forall (fun k => k <> []) K := proj1 (proj2 (proj2 (good_uniq keys HG))).
Let HN : length K <> 0 := proj2 (proj2 (proj2 (good_uniq keys HG))).

Lemma keys_lt : forall i j, i < n -> j < n -> klt (kk K i) (kk K j) -> i < j.
Proof.
  intros i j Hi Hj H. destruct (lt_eq_lt_dec i j) as [[L|L]|L]; auto; exfalso.
  - subst. exact (klt_irrefl _ H).
  - apply (klt_asym _ _ H). apply (sorted_nth K HS). auto.
Qed.

(** ** nodes are shared prefixes *)
Lemma shared_node : forall p, shared keys p -> 1 <= length p ->
  exists j, louds K (length p) j = true /\ firstn (length p) (kk K j) = p.
Proof.
  assert (G : forall p ia ib, ia < ib -> ib < n -> 1 <= length p -> firstn (length p) (kk K ia) = p -> firstn (length p) (kk K ib) = p ->
    exists j, louds K (length p) j = true /\ firstn (length p) (kk K j) = p).
  { intros p ia ib L Hb Hp EA EB. set (l := length p) in *. exists (anc K (l - 1) ia).
    pose proof (anc_prefix K (l - 1) ia) as AP. pose proof (anc_lo K (l - 1) ia) as AL. pose proof (anc_le K (l - 1) ia) as AE.
    replace (S (l - 1)) with l in AP by lia.
    assert (E : firstn l (kk K (anc K (l - 1) ia)) = p) by (rewrite <- EA; auto). split; [|exact E].
    apply louds_spec. split; [lia|]. left. split; [lia|]. rewrite hi_lo.
    apply (lo_of_prefix K HS l (anc K (l - 1) ia) ib); try lia. rewrite E, EB. reflexivity. }
  intros p (k & k' & H1 & H2 & NE & E1 & E2) Hp.
  destruct (in_kk keys k H1) as (ia & A1 & A2), (in_kk keys k' H2) as (ib & B1 & B2).
  destruct (lt_eq_lt_dec ia ib) as [[L|L]|L].
  - apply (G p ia ib); auto; [rewrite A2|rewrite B2]; auto.
  - exfalso. apply NE. rewrite <- A2, <- B2, L. reflexivity.
  - apply (G p ib ia); auto; [rewrite B2|rewrite A2]; auto.
Qed.

Lemma node_len : forall l j, louds K l j = true -> length (firstn l (kk K j)) = l.
Proof.
  intros l j H. rewrite firstn_length. apply louds_item, item_spec in H. pose proof (leafl_le K j) as LE.
  unfold leafl in LE. lia.
Qed.

Lemma node_next : forall l j, 1 <= l -> louds K l j = true -> S j < n /\ firstn l (kk K (S j)) = firstn l (kk K j).
Proof.
  intros l j Hl H. apply louds_spec in H. destruct H as (Hj & [[A B]|[A B]]); [|lia].
  assert (S j < n).
  { destruct (le_lt_dec n (S j)) as [L|]; auto. rewrite (hi_last K j L) in B. lia. }
  split; auto. unfold hi in B. symmetry. apply lcp_firstn. auto.
Qed.

Lemma kk_neq : forall i j, i < n -> j < n -> i <> j -> kk K i <> kk K j.
Proof. intros i j Hi Hj NE E. apply NE. apply (kk_inj K HS); auto. Qed.

Lemma node_shared : forall l j, 1 <= l -> louds K l j = true -> shared keys (firstn l (kk K j)).
Proof.
  intros l j Hl H. destruct (node_next l j Hl H) as [Hj E]. exists (kk K j), (kk K (S j)). rewrite (node_len l j H).
  split; [apply kk_in; lia|]. split; [apply kk_in; lia|]. split; [apply kk_neq; lia|]. split; auto.
Qed.

Lemma root_shared : 2 <= n -> shared keys [].
Proof.
  intros H. exists (kk K 0), (kk K 1). split; [apply kk_in; lia|]. split; [apply kk_in; lia|]. split; [apply kk_neq; lia|].
  split; reflexivity.
Qed.

Lemma node_shared' : forall l j, 1 <= l \/ 2 <= n -> louds K l j = true -> shared keys (firstn l (kk K j)).
Proof.
  intros l j [H|H] HLo; [apply node_shared; auto|].
  destruct l; [exact (root_shared H)|apply node_shared; [lia|auto]].
Qed.

Lemma olab_nth : forall l (a b : bytes), olab l a = olab l b -> nth_error a l = nth_error b l.
Proof. intros l a b H. unfold olab in H. destruct (nth_error a l), (nth_error b l); congruence. Qed.

Lemma branch_item : forall l j o, louds K l j = true -> branch keys (firstn l (kk K j)) o ->
  exists i, j <= i /\ item K l i = true /\ same_node K l j i /\ nth_error (kk K i) l = o.
Proof.
  intros l j o H (k & H1 & H2 & H3). rewrite (node_len l j H) in *. destruct (in_kk keys k H1) as (x & X1 & X2).
  destruct (node_find K HS l j k x H H2 X1) as (i & A & B & C & D); [rewrite X2; reflexivity|].
  exists i. split; [lia|]. split; auto. split; auto. destruct (firstn_S_inv _ _ _ D) as [_ D2].
  rewrite (olab_nth _ _ _ D2). auto.
Qed.

Lemma item_branch : forall l j i, louds K l j = true -> j <= i -> item K l i = true -> same_node K l j i ->
  branch keys (firstn l (kk K j)) (nth_error (kk K i) l).
Proof.
  intros l j i H L HI HN'. pose proof (item_lt K l i HI) as Hi. exists (kk K i). rewrite (node_len l j H).
  split; [apply kk_in; auto|]. split; auto. symmetry. apply share_prefix; auto. apply (same_node_lo K l j i); auto.
Qed.

Section Compared.
Variables (c : config) (st : nat).

(** ** comparisons *)
Lemma cmp_at_sound : forall i q z, i < n -> is_bytes q -> cmp_at c K st i q z -> cmp_sound c keys (kk K i) q z.
Proof.
  intros i q z Hi Hq H.
  assert (Hk : is_bytes (kk K i)) by (rewrite Forall_forall in HB; apply HB, nth_In; auto).
  assert (SH : kk K i = CompareFacts.shown K i ++ skipn (S (leafl K i)) (kk K i)) by (unfold CompareFacts.shown; symmetry; apply firstn_skipn).
  pose proof (dist_at keys HG i Hi) as DA.
  destruct H as [(Z1 & T & LQ & _)|[(Z1 & X)|[(Z1 & X & FA & _)|(M & Z1)]]].
  - subst z. split; [|split; [intros; lia|split; [intros; lia|lia]]]. intros _. right. left.
    assert (HI : item K (leafl K i) i = true).
    { apply item_spec. split; auto. unfold leafl. clear. lia. }
    destruct (term_first K HS HE _ _ HI T) as (LO & _ & LK & L1). destruct (node_next _ _ L1 LO) as (Hi' & EN).
    rewrite <- LK. split; [exact LQ|].
    exists (kk K (S i)). split; [apply kk_in; auto|]. split; [apply kk_neq; clear - Hi Hi'; lia|].
    rewrite EN. apply firstn_all2. rewrite LK. apply Nat.le_refl.
  - subst z. split; [|split; [intros; lia|split; [intros; lia|lia]]]. intros _. left. rewrite SH. apply X.
  - assert (L : klt q (kk K i)) by (rewrite SH; apply X).
    split; [lia|]. split; [auto|]. split; [auto|lia].
  - set (d := S (leafl K i)) in *. change (firstn d q = firstn d (kk K i)) in M.
    destruct (cmp_cases c (kk K i) q d) as [E|[E|E]]; rewrite E in Z1; subst z.
    + change kCouldBePositive with 2018%Z. split; [lia|]. split; [lia|]. split; [|lia]. intros _. right. eauto.
    + split; [|lia]. intros _. destruct (le_lt_dec (cf_rlen c) (8 * (length (kk K i) - d))) as [G|G];
        [|destruct (le_lt_dec (length (kk K i)) d) as [G2|G2]].
      1,2: left; apply (cmp_neg c (kk K i) q d); auto; intros (A & B); lia.
      right. right. exists d. split; auto. split; auto. intros W.
      assert (KR : keeps_real c).
      { apply (has_real_keeps c). unfold cmp_val in E. destruct (has_real (cf_type c)); auto. discriminate. }
      specialize (W KR G2). lia.
    + split; [lia|]. split; [|lia]. intros _ _. destruct (le_lt_dec (cf_rlen c) (8 * (length q - d))) as [G|G];
        [|destruct (le_lt_dec (length q) d) as [G2|G2]].
      1,2: left; apply (cmp_pos c (kk K i) q d); auto; intros (A & B); lia.
      right. exists d. split; auto. split; auto. intros W.
      assert (KR : keeps_real c).
      { apply (has_real_keeps c). unfold cmp_val in E. destruct (has_real (cf_type c)); auto. discriminate. }
      specialize (W KR G2). lia.
Qed.
Lemma In_keys_dec : forall q, In q keys \/ ~ In q keys.
Proof. intros q. destruct (in_dec (list_eq_dec Nat.eq_dec) q keys); auto. Qed.

Lemma all_zero_real : forall x d, is_bytes x -> Spec.all_zero (next_bits0 x d (cf_rlen c)) -> real_val x d (cf_rlen c) = 0%N.
Proof.
  intros x d Hx H. rewrite next_bits0_val in H by auto.
  rewrite <- (bitsn_value (cf_rlen c) (real_val x d (cf_rlen c))) by (apply real_val_bound; auto).
  revert H. generalize (bitsn (cf_rlen c) (real_val x d (cf_rlen c))). induction l as [|b l IH]; intros H; [reflexivity|].
  cbn [fold_left]. rewrite (H b (or_introl eq_refl)). apply IH. intros y Hy. apply H. right. exact Hy.
Qed.

Lemma keys_sorted_lt : forall x m, x < m -> m < n -> klt (kk K x) (kk K m).
Proof. intros x m A B. apply (sorted_nth K HS). auto. Qed.

(** what the comparison decides about the range [l], [r] *)
Definition decided (l : bytes) (li : bool) (r : bytes) (b : bool) : Prop :=
  exists fp i, landed c K st l li i fp /\ (forall x, x < i -> klt (kk K x) l \/ (kk K x = l /\ li = false)) /\
    if i <? n then exists z, cmp_at c K st i r z /\ z <> 0%Z /\ b = ((z =? 2018) || (z <? 0))%Z else b = false.

Lemma decided_true : forall l li r ri k b, is_bytes l -> is_bytes r -> decided l li r b -> ~ short_bound c keys r ->
  In k keys -> above li l k -> below ri k r -> b = true.
Proof.
  intros l li r ri k b Hl Hr (fp & i & LA & LB & D) HR Hk HA HBe. clear LA.
  destruct (in_kk keys k Hk) as (m & Hm & Em).
  assert (LE : i <= m).
  { destruct (le_lt_dec i m) as [|G]; auto. exfalso. destruct (LB m G) as [X|[X Y]]; rewrite Em in X.
    - destruct HA as [HA|(_ & HA)]; [exact (klt_asym _ _ X HA)|subst; exact (klt_irrefl _ X)].
    - destruct HA as [HA|(HA & _)]; [subst; exact (klt_irrefl _ HA)|congruence]. }
  replace (i <? n) with true in D by (symmetry; apply Nat.ltb_lt; lia). destruct D as (z & CA & NZ & ->).
  assert (KR : ~ klt r (kk K i)).
  { intros X. assert (Y : klt r k).
    { destruct (Nat.eq_dec i m) as [->|NE]; [rewrite <- Em; auto|]. apply (klt_trans _ (kk K i)); auto.
      rewrite <- Em. apply keys_sorted_lt; auto. lia. }
    destruct HBe as [Z1|(_ & Z1)]; [exact (klt_asym _ _ Y Z1)|subst; exact (klt_irrefl _ Y)]. }
  assert (Hi : i < n) by lia.
  destruct (cmp_at_sound i r z Hi Hr CA) as (_ & S2 & _ & _).
  destruct (Z.eqb_spec z 2018) as [E1|N1]; [reflexivity|]. destruct (Z.ltb_spec z 0) as [L|L]; [reflexivity|]. exfalso.
  destruct (S2 ltac:(lia) N1) as [X|(d & D1 & D2 & D3)]; [auto|].
  destruct (In_keys_dec r) as [IR|IR].
  - destruct (in_kk keys r IR) as (y & Y1 & Y2).
    assert (EY : y = i).
    { apply (leafl_dist K HS HN i y); auto. rewrite <- (dist_kk keys HG i d Hi D1). rewrite Y2. exact D2. }
    subst y. apply N1. destruct CA as [(Z1 & _)|[(Z1 & _)|[(Z1 & X & _)|(_ & Z1)]]]; [lia|lia| |].
    + exfalso. specialize (X (skipn (S (leafl K i)) (kk K i))). unfold CompareFacts.shown in X. rewrite firstn_skipn in X. auto.
    + rewrite Z1, Y2, cmp_refl. reflexivity.
  - destruct (klt_total (kk K i) r) as [T|[T|T]]; [|apply IR; rewrite <- T; apply kk_in; auto|auto].
    apply HR. split; auto. exists (kk K i), d. split; [apply kk_in; auto|]. split; auto. split; auto. split; auto. split; auto.
    rewrite (dist_kk keys HG i d Hi D1). intros AZ.
    destruct CA as [(Z1 & _)|[(Z1 & _)|[(_ & X & _)|(_ & Z1)]]]; [lia|lia| |].
    + specialize (X (skipn (S (leafl K i)) (kk K i))). unfold CompareFacts.shown in X. rewrite firstn_skipn in X. auto.
    + assert (BI : is_bytes (kk K i)) by (rewrite Forall_forall in HB; apply HB, nth_In; auto).
      apply all_zero_real in AZ; auto.
      unfold cmp_val in Z1. rewrite AZ in Z1. destruct (has_real (cf_type c)); [|exact (N1 Z1)].
      destruct (0 =? real_val r (S (leafl K i)) (cf_rlen c))%N; [exact (N1 Z1)|]. cbn in Z1. lia.
Qed.

(** a positive answer has a cause *)
Lemma decided_cause : forall l li r, is_bytes l -> is_bytes r -> decided l li r true ->
  exists k, In k keys /\ (forall x, In x keys -> klt x k -> kle x l) /\
    (klt l k \/ (exists d, dist_len keys k d /\ firstn d l = firstn d k)) /\
    (klt k r \/ (exists d, dist_len keys k d /\ firstn d r = firstn d k) \/
     (length k < length r /\ exists k', In k' keys /\ k' <> k /\ firstn (length k) k' = k) \/
     (firstn (length r) k = r /\ exists d, dist_len keys k d /\ length r + 2018 <= d)).
Proof.
  intros l li r Hl Hr (fp & i & LA & LB & D).
  destruct (Nat.ltb_spec i n) as [L|L]; [|discriminate]. destruct D as (z & CA & NZ & EB).
  exists (kk K i). split; [apply kk_in; auto|]. destruct LA as (_ & _ & LC & _). specialize (LC L). split; [|split].
  - intros x Hx LX. destruct (in_kk keys x Hx) as (y & Y1 & Y2).
    assert (y < i) by (apply keys_lt; auto; rewrite Y2; auto).
    destruct (LB y H) as [X|[X _]]; rewrite Y2 in X; [left; auto|right; auto].
  - destruct fp.
    + destruct LC as [(M & _)|(_ & LC & _)]; [right|left; auto]. exists (S (leafl K i)). split; [apply (dist_at keys HG); auto|exact M].
    + destruct LC as [LC|(LC & _)]; [left; auto|]. right. exists (S (leafl K i)). split; [apply (dist_at keys HG); auto|].
      rewrite LC. reflexivity.
  - destruct (cmp_at_sound i r z L Hr CA) as (S1 & S2 & S3 & _).
    destruct (Z.eqb_spec z 2018) as [E1|N1]; [subst z|].
    + clear S1 S2 S3 EB. destruct CA as [(Z1 & _)|[(Z1 & _)|[(Z1 & X & FA & _)|(M & Z1)]]]; [discriminate|discriminate| |].
      * right. right. right. destruct FA as [FA|(F1 & F2)]; [discriminate|].
        assert (LS : length (CompareFacts.shown K i) <= S (leafl K i)) by (unfold CompareFacts.shown; rewrite firstn_length; clear; lia).
        split; [|exists (S (leafl K i)); split; [apply (dist_at keys HG); auto|clear - F2 LS; lia]].
        unfold CompareFacts.shown in F1. rewrite firstn_firstn in F1. rewrite <- F1 at 2. f_equal. clear - F2 LS. lia.
      * right. left. exists (S (leafl K i)). split; [apply (dist_at keys HG); auto|exact M].
    + cbn [orb] in EB. symmetry in EB. apply Z.ltb_lt in EB. destruct (S1 EB) as [X|[X|(d & X1 & X2 & _)]]; auto.
      right. left. eauto.
Qed.
End Compared.

Section Clean.
Variables (st : nat) (q : bytes).
Context {lb : nat} {Hlb : wide K lb}.
Hypothesis Hst1 : lb <= st.
Hypothesis Hst2 : S st <= height K.

Lemma wide_at : forall l, st <= l -> 1 <= l \/ 2 <= n.
Proof. intros l H. pose proof (@wide_or K lb Hlb) as [A|A]; [left; exact (Nat.le_trans _ _ _ A (Nat.le_trans _ _ _ Hst1 H))|right; exact A]. Qed.

Lemma slen_total : slen K st <= total_len keys.
Proof.
  pose proof (total_len_uniq keys) as T. pose proof (items_total K) as I.
  assert (E : sm (nit K) (height K) <= sm (fun l => length (items K l)) (height K)).
  { rewrite (sm_ext (nit K) (fun l => length (items K l))); [lia|]. intros l _. unfold nit, items. rewrite cn_filter. reflexivity. }
  unfold slen, soff. lia.
Qed.

Lemma win_beyond : forall l j N, st <= l -> louds K l j = true -> node_win K st l j N -> slen K st < spos K st l j + N ->
  64 < total_len keys /\
  (exists o1 o2 o3, o1 <> o2 /\ o1 <> o3 /\ o2 <> o3 /\ branch keys (firstn l (kk K j)) o1 /\
     branch keys (firstn l (kk K j)) o2 /\ branch keys (firstn l (kk K j)) o3) /\
  (forall p', shared keys p' -> length p' < l \/ (length p' = l /\ kle p' (firstn l (kk K j)))).
Proof.
  intros l j N Hl HLo HW HO. pose proof HW as [W1 W2 W3 W4]. destruct W4 as [W4|(W4 & W5 & W6)]; [nlia|].
  pose proof slen_total as ST.
  assert (LN : length (firstn l (kk K j)) = l) by (apply node_len; auto).
  split; [nlia|]. split.
  - set (p := spos K st l j) in *. set (p3 := 64 * (S p / 64 + 1)) in *.
    assert (P3 : S p < p3) by (pose proof (Nat.div_mod (S p) 64 ltac:(nlia)); pose proof (Nat.mod_upper_bound (S p) 64 ltac:(nlia)); nlia).
    destruct (W2 p) as (i1 & A1 & A2 & A3 & A4); try nlia.
    destruct (W2 (S p)) as (i2 & B1 & B2 & B3 & B4); try nlia.
    destruct (W2 p3) as (i3 & C1 & C2 & C3 & C4); try nlia.
    assert (OD : forall a b, item K l a = true -> item K l b = true -> same_node K l j a -> same_node K l j b -> j <= a ->
      spos K st l a < spos K st l b -> nth_error (kk K a) l <> nth_error (kk K b) l).
    { intros a b Ia Ib Sa Sb Ja LT. assert (LAB : a < b).
      { destruct (lt_eq_lt_dec a b) as [[L|L]|L]; auto; [subst; nlia|]. pose proof (spos_mono K HN st Hst1 Hst2 l b a Ib L). nlia. }
      pose proof (same_node_label K HS l a b LAB Ib (same_node_sub K l j a b Sb Ja ltac:(nlia))) as Q.
      intros E. unfold olab in Q. rewrite E in Q. nlia. }
    exists (nth_error (kk K i1) l), (nth_error (kk K i2) l), (nth_error (kk K i3) l).
    split; [apply OD; auto; nlia|]. split; [apply OD; auto; nlia|]. split; [apply OD; auto; nlia|].
    split; [apply item_branch; auto|]. split; apply item_branch; auto.
  - intros p' SH. destruct (lt_eq_lt_dec (length p') l) as [[L|L]|L]; auto.
    + right. split; auto. destruct (klt_total p' (firstn l (kk K j))) as [H|[H|H]]; [left; auto|right; auto|]. exfalso.
      assert (P1 : 1 <= length p') by (destruct p'; [exfalso; destruct (firstn l (kk K j)); exact H|cbn; clear; lia]).
      destruct (shared_node p' SH P1) as (j' & X1 & X2). rewrite L in X1, X2.
      pose proof (louds_item K l j' X1) as I'. pose proof (item_lt K l j' I') as Hj'.
      pose proof (louds_item K l j HLo) as HI. pose proof (item_lt K l j HI) as Hj.
      assert (LT : j < j').
      { apply keys_lt; auto. rewrite <- (firstn_skipn l (kk K j)), <- (firstn_skipn l (kk K j')), X2.
        apply klt_ext; auto. rewrite LN, L. reflexivity. }
      pose proof (spos_mono K HN st Hst1 Hst2 l j j' HI LT) as SM. pose proof (spos_lt K HN st Hst1 Hst2 l j' Hl I') as SL.
      destruct (W2 (spos K st l j')) as (i & A1 & A2 & A3 & A4); try nlia.
      destruct (spos_inj K HN st Hst1 Hst2 l j' l i Hl Hl I' A2 A4) as [_ EI]. subst i.
      rewrite (same_node_louds K l j j' A3 LT) in X1. discriminate.
    + exfalso. destruct (shared_node p' SH ltac:(nlia)) as (j' & X1 & X2). set (l' := length p') in *.
      pose proof (louds_item K l' j' X1) as I'. pose proof (louds_item K l j HLo) as HI.
      pose proof (spos_lt K HN st Hst1 Hst2 l' j' ltac:(nlia) I') as SL. pose proof (spos_level K HN st Hst1 Hst2 l j l' Hl HI L) as SV.
      assert (soff K st l' <= spos K st l' j') by (unfold spos; nlia).
      destruct (W2 (spos K st l' j')) as (i & A1 & A2 & A3 & A4); try nlia.
      destruct (spos_inj K HN st Hst1 Hst2 l' j' l i ltac:(nlia) Hl I' A2 A4) as [EL _]. nlia.
Qed.

Lemma clean_seek : ~ past_prefix_key keys st q -> ~ at_last_node keys st q ->
  forall l j b N, st <= l -> louds K l j = true -> firstn l q = firstn l (kk K j) ->
    nth_error q l = Some b -> no_label K l j b -> node_win K st l j N ->
    spos K st l j + N <= slen K st /\
    (term K l j = false \/ exists v w, j <= v /\ item K l v = true /\ same_node K l j v /\ term K l v = false /\ b < lab K l v /\
       v < w /\ item K l w = true /\ same_node K l j w).
Proof.
  intros HT1 HT2 l j b N Hl HLo HP HQ HNL HW.
  assert (LN : length (firstn l (kk K j)) = l) by (apply node_len; auto).
  assert (QE : q = firstn l (kk K j) ++ b :: skipn (S l) q).
  { rewrite <- HP. rewrite <- (firstn_skipn l q) at 1. f_equal. clear - HQ. revert q HQ. induction l as [|l IH]; intros [|x q] H; cbn in *; try discriminate.
    - injection H as ->. reflexivity.
    - apply IH. auto. }
  pose proof (node_shared' l j (wide_at l Hl) HLo) as SH.
  assert (NB : ~ branch keys (firstn l (kk K j)) (Some b)).
  { intros HBr. destruct (branch_item l j _ HLo HBr) as (i & A & B & C & D).
    assert (T : term K l i = false).
    { unfold term. apply Nat.leb_gt. apply nth_error_Some. rewrite D. discriminate. }
    apply (HNL i A B C T). unfold lab. apply nth_error_nth. auto. }
  split.
  - destruct (le_lt_dec (spos K st l j + N) (slen K st)) as [|G]; auto. exfalso.
    destruct (win_beyond l j N Hl HLo HW G) as (A & B & C).
    apply HT2. exists (firstn l (kk K j)), b, (skipn (S l) q). rewrite LN. repeat (split; auto).
  - destruct (term K l j) eqn:ET; auto. right.
    pose proof (louds_item K l j HLo) as HI. pose proof (item_lt K l j HI) as Hj.
    assert (BN : branch keys (firstn l (kk K j)) None).
    { assert (E : nth_error (kk K j) l = None) by (apply nth_error_None; unfold term in ET; lia).
      rewrite <- E. apply item_branch; auto. intros m Hm. lia. }
    set (P := fun v => exists w, w < n /\ (j <= v /\ item K l v = true /\ same_node K l j v /\ term K l v = false /\ b < lab K l v /\
       v < w /\ item K l w = true /\ same_node K l j w)).
    assert (DP : forall v, P v \/ ~ P v).
    { intros v. apply ex_dec. intros w. repeat (apply and_dec); try apply same_node_dec; try apply bool_eq_dec; lia. }
    destruct (ex_dec P DP n) as [(v & Hv & w & Hw & A)|N1]; [exists v, w; exact A|]. exfalso.
    apply HT1. exists (firstn l (kk K j)), b, (skipn (S l) q). rewrite LN.
    split; [exact QE|]. split; [exact Hl|]. split; [exact SH|]. split; [exact BN|]. split; [exact NB|].
    intros (b1 & b2 & L1 & L2 & B1 & B2). apply N1.
    destruct (branch_item l j _ HLo B1) as (v & A1 & A2 & A3 & A4).
    destruct (branch_item l j _ HLo B2) as (w & C1 & C2 & C3 & C4).
    assert (TL : forall x y, nth_error (kk K x) l = Some y -> term K l x = false /\ lab K l x = y).
    { intros x y E. split; [|unfold lab; apply nth_error_nth; auto].
      unfold term. apply Nat.leb_gt. apply nth_error_Some. rewrite E. discriminate. }
    destruct (TL v b1 A4) as [T1 T2]. destruct (TL w b2 C4) as [T3 T4].
    exists v. split; [exact (item_lt K l v A2)|]. exists w. split; [exact (item_lt K l w C2)|].
    do 4 (split; auto). split; [rewrite T2; exact L1|]. split; [|split; auto].
    destruct (lt_eq_lt_dec v w) as [[L|L]|L]; auto; exfalso; [subst w; clear - T2 T4 L2; lia|].
    pose proof (same_node_label K HS l w v L A2 (same_node_sub K l j w v A3 C1 ltac:(clear - L; lia))) as Q.
    unfold olab in Q. rewrite A4, C4 in Q. clear - Q L2. lia.
Qed.
End Clean.

(** ** what the sparse seek found *)
Section Cut.
Variables (c : config) (q : bytes).
Hypothesis Hq : is_bytes q.

Lemma cut_whole : ~ meets_short_key c keys q ->
  forall i, i < n -> mt K q i -> cmp_val c (kk K i) q (S (leafl K i)) = (-1)%Z -> klt (kk K i) q.
Proof.
  intros HW i Hi M H. destruct (In_keys_dec q) as [IQ|IQ].
  - exfalso. destruct (in_kk keys q IQ) as (y & Y1 & Y2).
    assert (y = i) by (apply (leafl_dist K HS HN i y); auto; rewrite Y2; exact M). subst y.
    rewrite Y2, cmp_refl in H. discriminate.
  - destruct (klt_total (kk K i) q) as [T|[T|T]]; [exact T|exfalso; apply IQ; rewrite <- T; apply kk_in; auto|].
    apply (cmp_neg c (kk K i) q (S (leafl K i))); auto.
    + rewrite Forall_forall in HB. apply HB. apply nth_In. auto.
    + intros (A & B). apply HW. split; auto. exists (kk K i), (S (leafl K i)).
      split; [apply kk_in; auto|]. split; [apply (dist_at keys HG); auto|]. split; auto.
      assert (KR : keeps_real c).
      { apply has_real_keeps. unfold cmp_val in H. destruct (has_real (cf_type c)); auto. discriminate. }
      split; [intros W; specialize (W KR A); lia|]. split; auto.
      intros AZ. apply all_zero_real in AZ; auto. unfold cmp_val in H. rewrite AZ in H. destruct (has_real (cf_type c)); [|discriminate].
      destruct (N.eqb_spec (real_val (kk K i) (S (leafl K i)) (cf_rlen c)) 0) as [E|E]; [discriminate|].
      destruct (N.ltb_spec (real_val (kk K i) (S (leafl K i)) (cf_rlen c)) 0) as [E'|E']; [lia|discriminate].
Qed.

Definition opt (i : nat) : option nat := if i <? n then Some i else None.

Lemma not_below_cmp : forall i, i < n -> cmp_val c (kk K i) q (S (leafl K i)) <> (-1)%Z ->
  suffix_not_below c (kk K i) q (S (leafl K i)).
Proof.
  intros i Hi H KR. apply has_real_keeps in KR. unfold cmp_val in H. rewrite KR in H.
  assert (Hk : is_bytes (kk K i)) by (rewrite Forall_forall in HB; apply HB, nth_In; auto).
  rewrite !next_bits0_val by auto. unfold bits_value. rewrite !bitsn_value by (apply real_val_bound; auto).
  destruct (N.eqb_spec (real_val (kk K i) (S (leafl K i)) (cf_rlen c)) (real_val q (S (leafl K i)) (cf_rlen c))) as [E|E]; [lia|].
  destruct (_ || _) eqn:EO; [congruence|]. apply orb_false_iff in EO. lia.
Qed.

Lemma landed_below : (forall i, i < n -> mt K q i -> cmp_val c (kk K i) q (S (leafl K i)) = (-1)%Z -> klt (kk K i) q) ->
  forall st incl i fp, landed c K st q incl i fp -> forall x, x < i -> klt (kk K x) q \/ (kk K x = q /\ incl = false).
Proof.
  intros HW st incl i fp (A & B & _) x Hx. destruct (B x Hx) as [X|[X|(X & Y)]]; auto. left. apply HW; auto. lia.
Qed.

Lemma gt_landed : (forall i, i < n -> mt K q i -> cmp_val c (kk K i) q (S (leafl K i)) = (-1)%Z -> klt (kk K i) q) ->
  forall st incl i fp, landed c K st q incl i fp -> gt_place c keys st q incl fp (opt i).
Proof.
  intros HW st incl i fp LA. pose proof (landed_below HW st incl i fp LA) as B. destruct LA as (A & _ & C & _). unfold gt_place, opt. destruct (Nat.ltb_spec i n) as [L|L].
  - split; [exact B|]. split; auto. specialize (C L). destruct fp; auto. destruct C as [(M & Z1)|C]; [left|right; auto].
    exists (S (leafl K i)). split; [apply (dist_at keys HG); auto|]. split; auto. apply not_below_cmp; auto.
  - split; auto. assert (i = n) by lia. subst i. exact B.
Qed.
End Cut.

Section Filter.
Variables (e : env) (c : config) (f : surf).
Hypothesis HM : machine e.
Hypothesis HC : settings c.
Hypothesis HF : filter_of e c keys f.
Hypothesis HL : ~ lone_ff keys.
Let st := getSparseStartLevel f.

Let HFF : no_lone_ff K := lone_ff_iff keys HG HL.
Let Hst1 : 1 <= st := proj1 (built_st keys HG e c f HM HC HF).
Let Hst2 : S st <= height K := proj1 (proj2 (built_st keys HG e c f HM HC HF)).
Let HD : dense_ok c K st (sf_dense f) := proj1 (proj2 (proj2 (built_st keys HG e c f HM HC HF))).
Let HK : sparse_ok c K st (sf_sparse f) := proj2 (proj2 (proj2 (built_st keys HG e c f HM HC HF))).
Let Hmem : strict_mem e = false := proj2 HM.
Let Hshift : strict_shift e = false := proj1 HM.
Let Hlens : lens_ok (cf_type c) (cf_hlen c) (cf_rlen c) := settings_lens c HC.

Section Query.
Variable q : bytes.
Hypothesis Hq : is_bytes q.

Lemma end_early : ~ ends_early e keys st q ->
  forall l j, l < st -> louds K l j = true -> firstn l q = firstn l (kk K j) -> length q = l ->
    (asserts e = false \/ 1 <= l) /\ (term K l j = true \/ leafl K j < st).
Proof.
  intros HT l j Hl HLo HP LQ.
  assert (FQ : firstn l q = q) by (rewrite <- LQ; apply firstn_all).
  pose proof (louds_item K l j HLo) as HI. pose proof (item_lt K l j HI) as Hj.
  split.
  - destruct (asserts e) eqn:EA; [right|left; reflexivity]. destruct l; [|lia]. exfalso. apply HT. split; [lia|]. left. split; [exact (eq_sym FQ)|exact EA].
  - destruct (term K l j) eqn:ET; auto. right. destruct (le_lt_dec st (leafl K j)) as [G|]; auto. exfalso.
    apply HT. split; [rewrite LQ; exact Hl|]. right.
    pose proof (ext_lt K HN l j q HLo HP LQ ET) as LT. split.
    + intros IQ. destruct (in_kk keys q IQ) as (y & Y1 & Y2).
      assert (y < j) by (apply keys_lt; auto; rewrite Y2; auto).
      pose proof (ext_before K HS HN l j y HLo q HP H) as X. rewrite Y2 in X. exact (klt_irrefl _ X).
    + assert (HH : st <= hi K j).
      { unfold leafl in G. apply louds_spec in HLo. destruct HLo as (_ & [HLo|(E1 & E2)]); [clear - HLo G Hl; lia|].
        rewrite E1 in *. change (lo K 0) with 0 in G. clear - G Hl. lia. }
      assert (Hj2 : S j < n).
      { destruct (le_lt_dec n (S j)) as [L|]; auto. rewrite (hi_last K j L) in HH. lia. }
      exists (kk K j), (kk K (S j)). split.
      * split; [apply kk_in; auto|]. split; auto. intros x Hx LX. destruct (in_kk keys x Hx) as (y & Y1 & Y2).
        destruct (lt_eq_lt_dec y j) as [[L|L]|L].
        -- exfalso. pose proof (ext_before K HS HN l j y HLo q HP L) as X. rewrite Y2 in X. exact (klt_asym _ _ X LX).
        -- subst y. right. auto.
        -- left. rewrite <- Y2. apply (sorted_nth K HS). auto.
      * rewrite LQ, <- HP. split; auto. split; [apply kk_in; auto|]. split; [apply kk_neq; lia|].
        symmetry. apply lcp_firstn. exact HH.
Qed.

Hypothesis HT : ~ stray e keys st q.

Lemma seek_gt : forall incl, exists it i, moveToKeyGreaterThan e f q incl = Ok it /\ SeekFacts.placed K st i it /\
  landed c K st q incl i (it_fp it).
Proof.
  intros incl. unfold stray in HT.
  apply (moveToKeyGreaterThan_ok c K HS HB HE HN HFF st f e Hst1 Hst2 HD HK Hmem Hshift Hlens q incl Hq).
  - apply end_early. tauto.
  - apply (clean_seek st q Hst1 Hst2); tauto.
Qed.

Lemma seek_range : forall incl it0 r ri, sized K st it0 -> exists fp it i,
  lookupRange_st e f it0 q incl r ri =
    (if i <? n then
       c <- it_compare e f it r ;;
       if (c =? kCouldBePositive)%Z then Ok (true, it)
       else if ri : bool then Ok ((c <=? 0)%Z, it)
       else Ok ((c <? 0)%Z, it)
     else Ok (false, it)) /\ SeekFacts.placed K st i it /\ landed c K st q incl i fp.
Proof.
  intros incl. unfold stray in HT.
  apply (lookupRange_ok c K HS HB HE HN HFF st f e Hst1 Hst2 HD HK Hmem Hshift Hlens q incl Hq).
  - apply end_early. tauto.
  - apply (clean_seek st q Hst1 Hst2); tauto.
Qed.

Lemma placed_opt : forall i it, SeekFacts.placed K st i it -> IterApi.placed keys f it (opt i).
Proof.
  intros i it H. unfold SeekFacts.placed in H. unfold opt, IterApi.placed. destruct (Nat.ltb_spec i n) as [L|L]; [split; auto|auto].
Qed.

End Query.

Lemma placed_stands : forall it p, IterApi.placed keys f it p -> stands e c f keys it p.
Proof.
  intros it p HP ms. revert it p HP. induction ms as [|m ms IH]; intros it p HP p' HPa; inversion HPa; subst.
  - exists it. destruct p' as [i|].
    + destruct HP as [Hi HA]. destruct (look_at keys HG e c f HM HC HF HL i it Hi HA) as (v & E & V & _).
      exists v. split; auto. split; auto. split; auto.
    + exists (mkView false [] (0, None) ([], 0)). split; auto. cbn in HP. unfold look. rewrite HP. split; reflexivity.
  - destruct (move_placed keys HG e c f HM HC HF HL m it p HP) as (b & it1 & p1 & E & A & P1 & _).
    match goal with H : ahead _ _ _ _ ?y |- _ => pose proof (ahead_fun keys f m p p1 y A H) as EQ; subst y end.
    destruct (IH it1 p1 P1 p') as (it' & v & R & Q); auto. exists it', v. cbn [run]. rewrite E. cbn [bind]. auto.
Qed.

Lemma point_total : padded e c keys f -> forall q, is_bytes q -> exists b, lookupKey e f q = Ok b.
Proof.
  intros HZ q Hq. destruct (Exists_dec (fun i => mt K q i) (seq 0 n)) as [E|E].
  { intros i. unfold mt. destruct (list_eq_dec Nat.eq_dec (firstn (S (leafl K i)) q) (firstn (S (leafl K i)) (kk K i))); auto. }
  - apply Exists_exists in E. destruct E as (i & Hi & M). apply in_seq in Hi.
    assert (Fo : follows keys (kk K i) q) by (apply (follows_mt keys HG); auto; lia).
    destruct (lookup_follows keys HG e c f HM HC HF HL (kk K i) q) as (d & _ & E); auto; [apply kk_in; lia|]. eauto.
  - destruct (lookup_unfollowed keys HG e c f HM HC HF HL HZ q Hq) as (b & E' & _); [|eauto].
    intros k Hk F. apply E. destruct (in_kk keys k Hk) as (i & Hi & <-). apply Exists_exists. exists i. split; [apply in_seq; lia|].
    apply (follows_mt keys HG); auto.
Qed.

(** the call after the seek, given the answer of lookupKey *)
Definition back_from (q : bytes) (fp b : bool) (p0 p : option nat) : Prop :=
  match p0 with
  | None => p = Some (n - 1)
  | Some i =>
      if fp then p = Some i
      else exists p1, ahead keys Bwd st (Some i) p1 /\ (if b then ahead keys Bwd st p1 p else p = p1)
  end.

Lemma seek_lt_with : forall q incl, is_bytes q -> ~ stray e keys st q -> exists it0 i,
  moveToKeyGreaterThan e f q false = Ok it0 /\ landed c K st q false i (it_fp it0) /\
  forall b, (it_valid it0 = true -> it_fp it0 = false -> lookupKey e f q = Ok b) -> exists it p,
  moveToKeyLessThan e f q incl = Ok it /\
  IterApi.placed keys f it p /\ back_from q (it_fp it0) b (opt i) p.
Proof.
  intros q incl Hq HT. destruct (seek_gt q Hq HT false) as (it0 & i & E & P & LA).
  pose proof (placed_opt i it0 P) as PO.
  exists it0, i. split; auto. split; auto. intros b EB. unfold back_from. unfold moveToKeyLessThan. rewrite E. cbn [bind]. unfold opt in *. destruct (Nat.ltb_spec i n) as [L|L].
  - destruct PO as [Hi HA]. rewrite (it_at_valid K _ i it0 HA) in EB |- *. specialize (EB eq_refl). cbn [negb].
    destruct (it_fp it0) eqn:EF; cbn [negb].
    + exists it0, (Some i). split; auto. split; [split; auto|]. reflexivity.
    + specialize (EB eq_refl). assert (P0 : IterApi.placed keys f it0 (Some i)) by (split; auto).
      destruct (move_placed keys HG e c f HM HC HF HL Bwd it0 (Some i) P0) as (b1 & it1 & p1 & E1 & A1 & P1 & _). cbn [do_move] in E1.
      rewrite E1. cbn [bind]. rewrite EB. cbn [bind]. destruct b.
      * destruct (move_placed keys HG e c f HM HC HF HL Bwd it1 p1 P1) as (b2 & it2 & p2 & E2 & A2 & P2 & _). cbn [do_move] in E2.
        rewrite E2. cbn [bind]. exists it2, p2. split; auto. split; auto. exists p1. auto.
      * exists it1, p1. split; auto. split; auto. exists p1. auto.
  - cbn [IterApi.placed] in PO. rewrite PO. cbn [negb].
    destruct (last_at keys HG e c f HM HC HF HL) as (it & E' & A). exists it, (Some (n - 1)).
    split; auto. split; [split; auto; clear - HN; lia|]. reflexivity.
Qed.

Lemma gotten_placed : forall it, gotten e f keys it -> exists p, IterApi.placed keys f it p.
Proof.
  intros it H. induction H as [it E|it E|q incl it Hq HT E|q incl it Hq HT E|m b it it' R [p IH] E].
  - apply (first_placed keys HG e c f HM HC HF HL). auto.
  - apply (last_placed keys HG e c f HM HC HF HL). auto.
  - destruct (seek_gt q Hq HT incl) as (it1 & i & E1 & P & _). rewrite E in E1. injection E1 as <-. exists (opt i). apply placed_opt. auto.
  - destruct (seek_lt_with q incl Hq HT) as (it0 & i0 & E0 & _ & G).
    destruct (lookupKey e f q) as [b|er] eqn:EL.
    + destruct (G b) as (it1 & p & E1 & P & _); auto. rewrite E in E1. injection E1 as <-. eauto.
    + destruct (it_valid it0) eqn:EV; [destruct (it_fp it0) eqn:EF|].
      * destruct (G true) as (it1 & p & E1 & P & _); [congruence|]. rewrite E in E1. injection E1 as <-. eauto.
      * exfalso. unfold moveToKeyLessThan in E. rewrite E0 in E. cbn [bind] in E. rewrite EV, EF, EL in E. cbn [negb] in E.
        destruct (it_prev e f it0) as [[? ?]|]; cbn [bind] in E; discriminate.
      * destruct (G true) as (it1 & p & E1 & P & _); [congruence|]. rewrite E in E1. injection E1 as <-. eauto.
  - destruct (move_placed keys HG e c f HM HC HF HL m it p IH) as (b' & a & p' & E' & _ & P & _). rewrite E in E'. injection E' as -> ->. eauto.
Qed.

Lemma compare_at : forall i it q, i < n -> it_at K st i it -> is_bytes q -> exists z, it_compare e f it q = Ok z /\ cmp_at c K st i q z.
Proof.
  intros i it q Hi HA Hq. apply (it_compare_ok c K HS HB HE HN HFF st f e Hst1 Hst2 HD HK Hmem Hshift Hlens q Hq i it Hi HA).
Qed.
End Filter.
End Api.

(** ** histories *)
Lemma new_sized : forall f, sized_it (d_height (sf_dense f)) (s_height (sf_sparse f) - s_start (sf_sparse f)) (iter_new f).
Proof. intros f. unfold sized_it, iter_new, diter_new, siter_new. cbn. rewrite !repeat_length. auto. Qed.

Lemma member_sized : forall e f it, member_iter e f it ->
  sized_it (d_height (sf_dense f)) (s_height (sf_sparse f) - s_start (sf_sparse f)) it.
Proof.
  intros e f it H. induction H as [|it l li r ri b it' H IH E|l it E].
  - apply new_sized.
  - apply (lookupRange_sized _ _ _ _ _ _ _ _ _ _ _ IH E).
  - pose proof (moveToKeyGreaterThan_sized e f _ _ l true (new_sized f)) as Q. rewrite E in Q. exact Q.
Qed.

Lemma range_history : forall e f it l li r ri, member_iter e f it -> range_after e f it l li r ri = lookupRange e f l li r ri.
Proof.
  intros e f it l li r ri H. unfold range_after, lookupRange.
  destruct (lookupRange_sim e f _ _ it (iter_new f) l li r ri (member_sized e f it H) (new_sized f)) as [[x ?] [y ?] (E & _)|x]; cbn [bind fst] in *; congruence.
Qed.

(** ** the final forms *)
Section Final.
Variables (e : env) (c : config) (keys : list bytes) (f : surf).
Hypothesis HM : machine e.
Hypothesis HC : settings c.
Hypothesis HG : good_keys keys.
Hypothesis HL : ~ lone_ff keys.
Hypothesis HF : filter_of e c keys f.
Notation K := (uniq keys).
Notation n := (length K).
Notation st := (getSparseStartLevel f).

Let HS : StronglySorted klt K := proj1 (good_uniq keys HG).
Let HB : Forall is_bytes K := proj1 (proj2 (good_uniq keys HG)).
Let HN : length K <> 0 := proj2 (proj2 (proj2 (good_uniq keys HG))).

Lemma member_sizes : forall it, member_iter e f it -> SeekFacts.sized K st it.
Proof.
  intros it H. pose proof (member_sized e f it H) as (A & B & C & D).
  destruct (built_st keys HG e c f HM HC HF) as (S1 & S2 & DO & SO).
  pose proof (sized_new c K st f DO SO) as Q.
  destruct (new_sized f) as (A' & B' & C' & D'). pose proof Q as (Q1 & Q2 & Q3 & Q4). unfold SeekFacts.sized. lia.
Qed.

Lemma trap_stray : forall q, ~ trap e c keys st q -> ~ stray e keys st q.
Proof. intros q H X. apply H. unfold trap. unfold stray in X. tauto. Qed.

Lemma trap_cut : forall q, is_bytes q -> ~ trap e c keys st q ->
  forall i, i < n -> mt K q i -> cmp_val c (kk K i) q (S (leafl K i)) = (-1)%Z -> klt (kk K i) q.
Proof. intros q Hq H. apply (cut_whole keys HG c q Hq). intros X. apply H. unfold trap. tauto. Qed.

Lemma stored_no_trap : forall q, In q keys -> ~ trap e c keys st q.
Proof.
  intros q Hq H. assert (NE : q <> []).
  { pose proof HG as (_ & _ & A & _). rewrite Forall_forall in A. apply A. auto. }
  assert (BR : forall p b r, q = p ++ b :: r -> branch keys p (Some b)).
  { intros p b r E. exists q. split; auto. rewrite E. split.
    - rewrite firstn_app, Nat.sub_diag, firstn_all. cbn. apply app_nil_r.
    - rewrite nth_error_app2, Nat.sub_diag by lia. reflexivity. }
  destruct H as [(_ & [(A & _)|(A & _)])|[(p & b & r & E & _ & _ & _ & A & _)|[(p & b & r & E & _ & _ & A & _)|(A & _)]]]; auto; apply A; eapply BR; eauto.
Qed.

(** what the comparison decides *)
Lemma range_answer : forall it0 l li r ri, member_iter e f it0 -> is_bytes l -> is_bytes r -> ~ stray e keys st l ->
  exists fp i b, range_after e f it0 l li r ri = Ok b /\ landed c K st l li i fp /\
    if i <? n then exists z, cmp_at c K st i r z /\ z <> 0%Z /\ b = ((z =? 2018) || (z <? 0))%Z else b = false.
Proof.
  intros it0 l li r ri MI Hl Hr HT. destruct (seek_range keys HG e c f HM HC HF HL l Hl HT li it0 r ri (member_sizes it0 MI)) as (fp & it & i & E & P & LA).
  exists fp, i. unfold range_after. rewrite E. unfold SeekFacts.placed in P. destruct (Nat.ltb_spec i n) as [L|L].
  - destruct (compare_at keys HG e c f HM HC HF HL i it r L P Hr) as (z & EZ & CA). rewrite EZ. cbn [bind].
    destruct (cmp_at_sound keys HG c st i r z L Hr CA) as (_ & _ & _ & NZ).
    exists ((z =? 2018) || (z <? 0))%Z. split; [|split; auto; exists z; auto].
    change kCouldBePositive with 2018%Z. destruct (z =? 2018)%Z; [reflexivity|]. cbn [orb bind].
    destruct ri; cbn [bind]; f_equal. destruct (Z.ltb_spec z 0), (Z.leb_spec z 0); auto; lia.
  - exists false. auto.
Qed.

Lemma range_true : forall it l li r ri k, member_iter e f it -> is_bytes l -> is_bytes r ->
  ~ trap e c keys st l -> ~ short_bound c keys r ->
  In k keys -> above li l k -> below ri k r -> range_after e f it l li r ri = Ok true.
Proof.
  intros it l li r ri k MI Hl Hr HT HR Hk HA HBe.
  destruct (range_answer it l li r ri MI Hl Hr (trap_stray l HT)) as (fp & i & b & E & LA & D). rewrite E. f_equal.
  apply (decided_true keys HG c st l li r ri k b Hl Hr); auto. exists fp, i. split; auto. split; auto.
  apply (landed_below keys HG c l (trap_cut l Hl HT) _ _ _ _ LA).
Qed.

Lemma range_stored : forall it l r ri, member_iter e f it -> In l keys -> In r keys -> kle l r ->
  range_after e f it l true r ri = Ok true.
Proof.
  intros it l r ri MI Hl Hr LE.
  assert (BY : forall k, In k keys -> is_bytes k) by (pose proof HG as (_ & B & _); rewrite Forall_forall in B; auto).
  destruct LE as [LT|<-].
  - apply (range_true it l true r ri l); auto; [apply stored_no_trap; auto|intros (X & _); auto|right; auto|left; auto].
  - destruct (range_answer it l true l ri MI (BY l Hl) (BY l Hl) (trap_stray l (stored_no_trap l Hl))) as (fp & i & b & E & LA & D).
    rewrite E. f_equal. pose proof (landed_below keys HG c l (trap_cut l (BY l Hl) (stored_no_trap l Hl)) _ _ _ _ LA) as LB.
    destruct LA as (_ & _ & LC & _). destruct (in_kk keys l Hl) as (m & Hm & Em).
    assert (LE : i <= m).
    { destruct (le_lt_dec i m) as [|G]; auto. exfalso. destruct (LB m G) as [X|[X Y]]; rewrite Em in X; [exact (klt_irrefl _ X)|discriminate]. }
    assert (Hi : i < n) by lia. specialize (LC Hi).
    replace (i <? n) with true in D by (symmetry; apply Nat.ltb_lt; lia). destruct D as (z & CA & NZ & ->).
    destruct CA as [(Z1 & _)|[(Z1 & _)|[(Z1 & X & FA & _)|(M & Z1)]]]; [subst; reflexivity|subst; reflexivity| |].
    + exfalso. specialize (X (skipn (S (leafl K i)) (kk K i))). unfold CompareFacts.shown in X. rewrite firstn_skipn in X.
      destruct (Nat.eq_dec i m) as [->|NE]; [rewrite Em in X; exact (klt_irrefl _ X)|].
      apply (klt_asym _ _ X). rewrite <- Em. apply (keys_sorted_lt keys HG); lia.
    + assert (EY : m = i) by (apply (leafl_dist K HS HN i m); auto; rewrite Em; exact M). subst m.
      rewrite Z1, Em, cmp_refl. reflexivity.
Qed.

(** a positive answer has a cause *)
Lemma range_cause : forall it l li r ri, member_iter e f it -> is_bytes l -> is_bytes r -> ~ trap e c keys st l ->
  range_after e f it l li r ri = Ok true ->
  exists k, In k keys /\ (forall x, In x keys -> klt x k -> kle x l) /\
    (klt l k \/ (exists d, dist_len keys k d /\ firstn d l = firstn d k)) /\
    (klt k r \/ (exists d, dist_len keys k d /\ firstn d r = firstn d k) \/
     (length k < length r /\ exists k', In k' keys /\ k' <> k /\ firstn (length k) k' = k) \/
     (firstn (length r) k = r /\ exists d, dist_len keys k d /\ length r + 2018 <= d)).
Proof.
  intros it l li r ri MI Hl Hr HT E. destruct (range_answer it l li r ri MI Hl Hr (trap_stray l HT)) as (fp & i & b & E' & LA & D).
  rewrite E in E'. injection E' as <-. apply (decided_cause keys HG c st l li r Hl Hr). exists fp, i. split; auto. split; auto.
  apply (landed_below keys HG c l (trap_cut l Hl HT) _ _ _ _ LA).
Qed.

Lemma seek_gt_place : forall q incl, is_bytes q -> ~ trap e c keys st q -> exists it p,
  moveToKeyGreaterThan e f q incl = Ok it /\ stands e c f keys it p /\ gt_place c keys st q incl (it_fp it) p.
Proof.
  intros q incl Hq HT. destruct (seek_gt keys HG e c f HM HC HF HL q Hq (trap_stray q HT) incl) as (it & i & E & P & LA).
  exists it, (opt keys i). split; auto. split.
  - apply (placed_stands keys HG); auto. apply (placed_opt keys f). auto.
  - apply (gt_landed keys HG c q Hq (trap_cut q Hq HT)); auto.
Qed.

Lemma seek_lt_place : forall q incl, padded e c keys f -> is_bytes q -> ~ trap e c keys st q -> exists it0 it b p,
  moveToKeyGreaterThan e f q false = Ok it0 /\ lookupKey e f q = Ok b /\ moveToKeyLessThan e f q incl = Ok it /\
  stands e c f keys it p /\ lt_place c keys st q (it_fp it0) b p.
Proof.
  intros q incl HZ Hq HT. destruct (seek_lt_with keys HG e c f HM HC HF HL q incl Hq (trap_stray q HT)) as (it0 & i & E0 & LA & G).
  destruct (point_total keys HG e c f HM HC HF HL HZ q Hq) as (b & EB). destruct (G b) as (it & p & E & P & LP); auto.
  exists it0, it, b, p. split; auto. split; auto. split; auto. split; [apply (placed_stands keys HG); auto|].
  exists (opt keys i). split; [apply (gt_landed keys HG c q Hq (trap_cut q Hq HT)); auto|exact LP].
Qed.

Lemma seek_lt_exact : forall q incl it0, is_bytes q -> ~ trap e c keys st q ->
  moveToKeyGreaterThan e f q false = Ok it0 -> it_fp it0 = false -> lookupKey e f q = Ok false -> exists it p,
  moveToKeyLessThan e f q incl = Ok it /\ stands e c f keys it p /\
  match p with
  | Some i => last_below keys q i
  | None => (forall k, In k keys -> klt q k) \/
            exists i, last_below keys q i /\ S i < length (uniq keys) /\
              stuck keys st (nth i (uniq keys) []) (nth (S i) (uniq keys) [])
  end.
Proof.
  intros q incl it0 Hq HT E0 EF EB. destruct (seek_lt_with keys HG e c f HM HC HF HL q incl Hq (trap_stray q HT)) as (it0' & i0 & E0' & LA & G).
  assert (EI : it0' = it0) by congruence. subst it0'. destruct (G false) as (it & p & E & P & LP); auto.
  exists it, p. split; auto. split; [apply (placed_stands keys HG); auto|].
  assert (NQ : ~ In q keys).
  { intros H. pose proof (lookup_stored keys HG e c f HM HC HF HL q H). congruence. }
  assert (LP0 : lt_place c keys st q (it_fp it0) false p).
  { exists (opt keys i0). split; [apply (gt_landed keys HG c q Hq (trap_cut q Hq HT)); auto|exact LP]. }
  clear LP. destruct LP0 as (p0 & (GB & GP) & LP). rewrite EF in *.
  assert (LBE : forall i, i < n -> (forall x, x < S i -> klt (kk K x) q) -> (S i < n -> klt q (kk K (S i))) -> last_below keys q i).
  { intros i Hi A B. split; auto. split; [apply A; lia|]. intros k Hk LK. destruct (in_kk keys k Hk) as (y & Y1 & Y2).
    destruct (lt_eq_lt_dec y i) as [[L|L]|L].
    - left. rewrite <- Y2. apply (keys_sorted_lt keys HG); auto.
    - right. subst y. symmetry. exact Y2.
    - exfalso. rewrite <- Y2 in LK. specialize (B ltac:(lia)). assert (X : kle (kk K (S i)) (kk K y)).
      { destruct (Nat.eq_dec (S i) y) as [<-|NE]; [right; auto|left; apply (keys_sorted_lt keys HG); lia]. }
      destruct X as [X|X]; [|rewrite <- X in LK; exact (klt_asym _ _ B LK)].
      apply (klt_asym _ _ LK). apply (klt_trans _ _ _ B X). }
  assert (GL : forall x, x < match p0 with Some i => i | None => n end -> x < n -> klt (kk K x) q).
  { intros x Hx Hn. destruct (GB x Hx) as [X|[X _]]; auto. exfalso. apply NQ. rewrite <- X. apply kk_in. auto. }
  destruct p0 as [i|].
  - destruct GP as (Hi & GP). destruct LP as (p1 & A1 & ->). destruct GP as [GP|(_ & X)]; [|discriminate].
    cbn [ahead] in A1. destruct i as [|j].
    + subst p1. left. intros k Hk. destruct (in_kk keys k Hk) as (y & Y1 & Y2). rewrite <- Y2.
      destruct y; auto. apply (klt_trans _ _ _ GP). apply (keys_sorted_lt keys HG 0 (S y)); auto. lia.
    + assert (LB : last_below keys q j).
      { apply LBE; auto; [lia|]. intros x Hx. apply GL; lia. }
      destruct A1 as [(S1 & ->)|(S1 & ->)]; auto. right. exists j. auto.
  - subst p. apply LBE; [lia| |lia]. intros x Hx. apply GL; lia.
Qed.

Lemma compare_sound : forall it q, gotten e f keys it -> is_bytes q -> it_valid it = true -> exists i z,
  stands e c f keys it (Some i) /\ i < length (uniq keys) /\ it_compare e f it q = Ok z /\
  cmp_sound c keys (nth i (uniq keys) []) q z.
Proof.
  intros it q HGo Hq HV. destruct (gotten_placed keys HG e c f HM HC HF HL it HGo) as (p & P). destruct p as [i|]; [|cbn in P; congruence].
  pose proof P as (Hi & HA). destruct (compare_at keys HG e c f HM HC HF HL i it q Hi HA Hq) as (z & EZ & CA).
  exists i, z. split; [apply (placed_stands keys HG); auto|]. split; auto. split; auto.
  apply (cmp_at_sound keys HG c st i q z Hi Hq CA).
Qed.
End Final.

(** Steps back and forth, and what can be read off, for every iterator a caller
    can get hold of. *)
Lemma gotten_prev_next : forall e c keys f it it1, machine e -> settings c -> good_keys keys -> ~ lone_ff keys ->
  filter_of e c keys f -> gotten e f keys it -> it_prev e f it = Ok (true, it1) ->
  exists it2, it_next e f it1 = Ok (true, it2) /\ same_view e f it2 it.
Proof. intros e c keys f it it1 HM HC HG HL HF R. exact (iter_prev_next e c keys f it it1 HM HC HG HL HF (gotten_placed keys HG e c f HM HC HF HL it R)). Qed.

Lemma gotten_next_prev : forall e c keys f it it1, machine e -> settings c -> good_keys keys -> ~ lone_ff keys ->
  filter_of e c keys f -> gotten e f keys it -> it_next e f it = Ok (true, it1) ->
  exists k k' o o', In k keys /\ In k' keys /\ it_getKey it = Ok o /\ SpecIter.shown keys k o /\ it_getKey it1 = Ok o' /\ SpecIter.shown keys k' o' /\
    (exists b it2, it_prev e f it1 = Ok (b, it2) /\
      ((stuck keys (getSparseStartLevel f) k k' /\ b = false /\ it_valid it2 = false) \/
       (~ stuck keys (getSparseStartLevel f) k k' /\ b = true /\ same_view e f it2 it))).
Proof. intros e c keys f it it1 HM HC HG HL HF R. exact (iter_next_prev e c keys f it it1 HM HC HG HL HF (gotten_placed keys HG e c f HM HC HF HL it R)). Qed.

Lemma gotten_next_prev_plain : forall e c keys f it it1, machine e -> settings c -> good_keys keys -> ~ lone_ff keys ->
  filter_of e c keys f -> (forall k, In k keys -> ~ zero_start k) ->
  gotten e f keys it -> it_next e f it = Ok (true, it1) ->
  exists it2, it_prev e f it1 = Ok (true, it2) /\ same_view e f it2 it.
Proof. intros e c keys f it it1 HM HC HG HL HF NZ R. exact (iter_next_prev_plain e c keys f it it1 HM HC HG HL HF NZ (gotten_placed keys HG e c f HM HC HF HL it R)). Qed.

Lemma gotten_suffix : forall e c keys f it, machine e -> settings c -> good_keys keys -> ~ lone_ff keys ->
  filter_of e c keys f -> cf_rlen c <= 63 -> gotten e f keys it -> it_valid it = true ->
  exists k d s ks, In k keys /\ dist_len keys k d /\ it_getKey it = Ok (firstn d k) /\
    it_getSuffix e f it = Ok s /\ good_suffix c k d s /\ it_getKeyWithSuffix e f it = Ok ks /\ good_keysuf c k d ks.
Proof. intros e c keys f it HM HC HG HL HF L R. exact (iter_suffix e c keys f it HM HC HG HL HF L (gotten_placed keys HG e c f HM HC HF HL it R)). Qed.

Lemma gotten_suffix64 : forall e c keys f it, machine e -> settings c -> good_keys keys -> ~ lone_ff keys ->
  filter_of e c keys f -> cf_type c = kReal -> cf_rlen c = 64 -> gotten e f keys it -> it_valid it = true ->
  exists o, it_getKey it = Ok o /\ it_getSuffix e f it = Ok (64, Some 0%N) /\ it_getKeyWithSuffix e f it = Ok (o, 0).
Proof. intros e c keys f it HM HC HG HL HF T L R. exact (iter_suffix64 e c keys f it HM HC HG HL HF T L (gotten_placed keys HG e c f HM HC HF HL it R)). Qed.
