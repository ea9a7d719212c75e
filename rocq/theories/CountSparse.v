(** approxCount in the sparse levels. *)
From Coq Require Import Arith List NArith ZArith Bool Lia ZifyN ZifyNat ZifyBool Sorting.Sorted.
From Verif Require LookupFacts.
From Verif Require Import Res Word Config BitFacts WordFacts Bitvector BitvectorFacts Rank Select
  RankSelectFacts LabelVector LabelFacts Suffix Spec SuffixFacts Builder KeyFacts Trie BuilderFacts
  DenseBuild StructFacts NodeFacts SparseFacts DenseFacts Dense Sparse Surf IterTrie IterDMove IterSparse CountBits CountTrie.
Import ListNotations.

Lemma level_cuts_nth : forall l b i, i < length l ->
  nth_error (level_cuts_from b l) i = Some (sub32 (b + N.of_nat (list_sum (firstn (S i) l))) 1).
Proof.
  induction l as [|x l IH]; intros b i H; cbn [length] in H; [lia|]. cbn [level_cuts_from].
  destruct i as [|i].
  - cbn [nth_error firstn]. do 3 f_equal. cbn. lia.
  - cbn [nth_error]. rewrite IH by lia. rewrite firstn_cons. f_equal. f_equal.
    change (list_sum (x :: firstn (S i) l)) with (x + list_sum (firstn (S i) l)). lia.
Qed.
Lemma sum_seq : forall f a k i, i <= k -> list_sum (firstn i (map f (seq a k))) = sm f (a + i) - sm f a.
Proof.
  intros f a k i. revert a k. induction i as [|i IH]; intros a k H.
  - cbn. rewrite Nat.add_0_r. lia.
  - destruct k as [|k]; [lia|]. cbn [seq map firstn].
    change (list_sum (f a :: firstn i (map f (seq (S a) k)))) with (f a + list_sum (firstn i (map f (seq (S a) k)))).
    rewrite IH by lia. cbn [sm]. replace (S a + i) with (S (a + i)) by lia. replace (a + S i) with (S (a + i)) by lia.
    pose proof (sm_mono f (S a) (S (a + i)) ltac:(lia)) as M. cbn [sm] in *. lia.
Qed.
Lemma sub32_1 : forall a, (1 <= a < 4294967296)%N -> sub32 a 1 = (a - 1)%N.
Proof.
  intros a H. unfold sub32, wrap32, two32. replace (a + 4294967296 - 1)%N with ((a - 1) + 1 * 4294967296)%N by lia.
  rewrite N.mod_add by lia. apply N.mod_small. lia.
Qed.

Lemma mapM_vget : forall (p : list nat) k a, a + k <= length p -> mapM (vget p) (seq a k) = Ok (firstn k (skipn a p)).
Proof.
  intros p k. induction k as [|k IH]; intros a Ha; cbn [seq mapM]; [reflexivity|].
  unfold vget at 1. rewrite (nth_error_nth' p 0) by lia. cbn [bind]. rewrite IH by lia. cbn [bind]. f_equal.
  assert (Q : skipn a p = nth a p 0 :: skipn (S a) p).
  { clear - Ha. revert a Ha. induction p as [|x p IHp]; intros a Ha; cbn [length] in Ha; [lia|]. destruct a; [reflexivity|]. cbn [skipn nth]. apply IHp. lia. }
  rewrite Q. reflexivity.
Qed.

Section CS.
Variables (c : config) (K : list bytes).
Notation kk := (kk K). Notation lo := (lo K). Notation hi := (hi K). Notation leafl := (leafl K).
Notation item := (item K). Notation child := (child K). Notation louds := (louds K).
Notation leaf := (leaf K). Notation lab := (lab K). Notation term := (term K). Notation anc := (anc K).
Notation items := (items K). Notation nds := (nds K). Notation height := (height K).
Notation nit := (nit K). Notation NN := (NN K). Notation same_node := (same_node K).
Notation nextit := (nextit K). Notation lvl := (lvl K).
Let n := length K.
Hypothesis HS : StronglySorted klt K.
Hypothesis HB : Forall is_bytes K.
Hypothesis HE : Forall (fun k => k <> []) K.
Hypothesis HNE : length K <> 0.
Variables (st : nat) (s : sparse) (e : env).
Context {lb : nat} {Hlb : wide K lb}.
Hypothesis Hst1 : lb <= st.
Hypothesis Hst2 : S st <= height.
Hypothesis HK : sparse_ok c K st s.
Hypothesis Hmem : strict_mem e = false.
Notation soff := (soff K st). Notation spos := (spos K st). Notation slen := (slen K st).

Lemma leafl_h : forall i, i < n -> leafl i < height.
Proof. intros i H. pose proof (leafl_height K HNE st Hst1 Hst2 i H). lia. Qed.
Lemma soff_S : forall m, st <= m -> soff (S m) = soff m + nit m.
Proof. intros m H. unfold SparseFacts.soff. pose proof (sm_mono nit st m H). cbn [sm]. lia. Qed.
Lemma soff_mono : forall a b, a <= b -> soff a <= soff b.
Proof. intros a b H. unfold SparseFacts.soff. pose proof (sm_mono nit a b H). lia. Qed.
Lemma slen_fits : (N.of_nat (S slen) < 4294967296)%N.
Proof.
  pose proof (sk_fits c K st s HK) as F. rewrite (cc_len K st nat (slabs K)) in F; [exact F|lia|]. intros. apply slabs_n.
Qed.
Lemma s_cut : forall m, st <= m -> m < height -> cut_at (s_cuts s) m = Ok (sub32 (N.of_nat (soff (S m))) 1).
Proof.
  intros m H1 H2. unfold cut_at, vget. rewrite (sk_cuts c K st s HK).
  rewrite nth_error_app2 by (rewrite repeat_length; lia). rewrite repeat_length.
  rewrite level_cuts_nth by (rewrite map_length, seq_length; lia).
  rewrite sum_seq by lia. do 2 f_equal. rewrite N.add_0_l. f_equal. unfold SparseFacts.soff.
  replace (st + S (m - st)) with (S m) by lia.
  rewrite (sm_ext _ nit) by (intros; apply nit_items). rewrite (sm_ext (fun l => length (items l)) nit st) by (intros; apply nit_items). reflexivity.
Qed.

(** ** the position approxCount uses for key [i] at level [m] *)
Definition xi (m i : nat) : nat := if m <=? leafl i then anc m i else S i.
Definition ep (m i : nat) : nat := soff m + cn (item m) (xi m i).
Definition E (m i : nat) : option nat :=
  if (m <=? leafl i) || (cn (item m) (S i) <? nit m) then Some (ep m i) else None.

Lemma xi_le : forall m i, i < n -> xi m i <= n.
Proof. intros m i H. unfold xi. pose proof (anc_le K m i). destruct (m <=? leafl i); lia. Qed.
Lemma E_item : forall m i p, i < n -> E m i = Some p -> exists x, item m x = true /\ p = spos m x /\
  ((x = anc m i /\ m <= leafl i) \/ (nextit m i x /\ leafl i < m)).
Proof.
  intros m i p Hi H. unfold E, ep, xi in H. destruct (Nat.leb_spec m (leafl i)) as [L|L].
  - cbn [orb] in H. injection H as <-. exists (anc m i). split; [apply anc_item; auto|]. split; [reflexivity|left; auto].
  - cbn [orb] in H. destruct (Nat.ltb_spec (cn (item m) (S i)) (nit m)) as [G|G]; [|discriminate]. injection H as <-.
    destruct (next_find K m i G) as (x & X). exists x. split; [apply X|].
    split; [unfold SparseFacts.spos; rewrite (next_cn K HNE leafl_h m i x X); reflexivity|right; auto].
Qed.
Lemma E_next : forall m i x, leafl i < m -> nextit m i x -> E m i = Some (spos m x).
Proof.
  intros m i x L X. unfold E, ep, xi. replace (m <=? leafl i) with false by lia. cbn [orb].
  unfold SparseFacts.spos. rewrite (next_cn K HNE leafl_h m i x X).
  replace (cn (item m) (S i) <? nit m) with true; [reflexivity|]. symmetry. apply Nat.ltb_lt.
  pose proof (proj1 (proj2 X)) as I. pose proof (cn_item_lt K m x I) as Q. rewrite (next_cn K HNE leafl_h m i x X) in Q. exact Q.
Qed.
Lemma E_none : forall m i, i < n -> E m i = None <-> leafl i < m /\ forall x, i < x -> item m x = false.
Proof.
  intros m i Hi. unfold E. split.
  - intros H. destruct (Nat.leb_spec m (leafl i)) as [L|L]; [discriminate|].
    destruct (Nat.ltb_spec (cn (item m) (S i)) (nit m)) as [G|G]; [discriminate|]. split; auto. apply (next_none K HNE leafl_h). auto.
  - intros [L H]. replace (m <=? leafl i) with false by lia. rewrite (none_next K HNE leafl_h m i Hi H). rewrite Nat.ltb_irrefl. reflexivity.
Qed.
Lemma E_none_S : forall m i, i < n -> E m i = None -> E (S m) i = None.
Proof.
  intros m i Hi H. apply E_none in H; auto. destruct H as [L H]. apply E_none; auto. split; [lia|].
  apply (none_deeper K HNE leafl_h); auto. lia.
Qed.
Lemma E_none_le : forall m m' i, i < n -> m <= m' -> E m i = None -> E m' i = None.
Proof. intros m m' i Hi L H. induction L as [|m' L IH]; auto. apply E_none_S; auto. Qed.
Lemma E_top : forall i, i < n -> E (height - 1) i = None.
Proof.
  intros i Hi. apply E_none; auto. pose proof (leafl_height K HNE st Hst1 Hst2 i Hi). split; [lia|].
  intros x _. destruct (item (height - 1) x) eqn:I; auto. apply (item_height K HNE st Hst1 Hst2) in I. lia.
Qed.
Lemma E_some_ep : forall m i p, E m i = Some p -> p = ep m i.
Proof. intros m i p H. unfold E in H. destruct ((m <=? leafl i) || _); congruence. Qed.
Lemma ep_none : forall m i, st <= m -> i < n -> E m i = None -> ep m i = soff (S m).
Proof.
  intros m i Hm Hi H. apply E_none in H; auto. destruct H as [L H]. unfold ep, xi. replace (m <=? leafl i) with false by lia.
  rewrite (none_next K HNE leafl_h m i Hi H), soff_S by auto. reflexivity.
Qed.
Lemma ep_le : forall m i, st <= m -> i < n -> ep m i <= soff (S m).
Proof.
  intros m i Hm Hi. unfold ep. rewrite soff_S by auto. pose proof (cn_mono (item m) (xi m i) n (xi_le m i Hi)) as Q.
  unfold SparseFacts.nit. fold n. lia.
Qed.
Lemma leaf_xi : forall m i, i < n -> cn (leaf m) (xi m i) = cn (leaf m) i.
Proof.
  intros m i Hi. unfold xi. destruct (Nat.leb_spec m (leafl i)) as [L|L]; [apply leaf_anc; auto|apply leaf_after; lia].
Qed.

(** positions equal: nothing between from there on *)
Lemma E_same : forall m s0 t0, s0 <= t0 -> t0 < n -> leafl s0 < m -> (forall x, s0 < x -> x <= t0 -> item m x = false) ->
  leafl t0 < m -> E m s0 = E m t0.
Proof.
  intros m s0 t0 H1 H2 L H L'. unfold E, ep, xi. replace (m <=? leafl s0) with false by lia. replace (m <=? leafl t0) with false by lia.
  cbn [orb]. rewrite (cn_none_eq (item m) (S s0) (S t0)); auto; [lia|]. intros y Hy. apply H; lia.
Qed.

(** ** one level of the count *)
Lemma count_level : forall m s0 t0 q, st <= m -> m < height -> s0 <= t0 -> t0 < n -> q = ep m t0 ->
  (if ep m s0 <? q then
     rl <- rank e (s_child s) (ep m s0) ;;
     rr <- rank e (s_child s) q ;;
     cr <- s_readChild e s q ;;
     cl <- s_readChild e s (ep m s0) ;;
     Ok (pos32 ((Z.of_nat q - Z.of_nat (ep m s0)) - (Z.of_nat rr - Z.of_nat rl) + b2z cr - b2z cl - b2z (m =? leafl s0)%nat))
   else Ok 0%N) = Ok (N.of_nat (lvl s0 t0 m)).
Proof.
  intros m s0 t0 q Hm Hh Hst Ht ->. assert (Hs : s0 < n) by lia.
  pose proof (xi_le m s0 Hs) as X1. pose proof (xi_le m t0 Ht) as X2.
  pose proof (sk_ch c K st s HK) as RK.
  assert (LN : length (cc (schild K) st height) = slen) by (apply cc_len; [lia|]; intros; apply schild_n).
  assert (UB : forall i, i < n -> ep m i <= slen).
  { intros i Hi. pose proof (ep_le m i Hm Hi) as P. unfold SparseFacts.slen. pose proof (soff_mono (S m) height ltac:(lia)). lia. }
  assert (CB : forall i, i < n -> cnt (firstn (ep m i) (cc (schild K) st height)) =
     sm (fun l => cn (child l) n) m - sm (fun l => cn (child l) n) st + cn (child m) (xi m i)).
  { intros i Hi. unfold ep. pose proof (cnt_cc_item K HNE st Hst1 Hst2 child m (xi m i) Hm Hh (xi_le m i Hi)) as Q.
    unfold schild. rewrite Q. fold n.
    rewrite (sm_ext (fun l => cn (fun x => item l x && child l x) n) (fun l => cn (child l) n) m) by (intros; apply cn_ext; intros; apply ic).
    rewrite (sm_ext (fun l => cn (fun x => item l x && child l x) n) (fun l => cn (child l) n) st) by (intros; apply cn_ext; intros; apply ic).
    f_equal. apply cn_ext. intros. apply ic. }
  pose proof (cn_split_leaf K m (xi m s0)) as P1. pose proof (cn_split_leaf K m (xi m t0)) as P2.
  rewrite (leaf_xi m s0 Hs) in P1. rewrite (leaf_xi m t0 Ht) in P2.
  destruct (Nat.ltb_spec (ep m s0) (ep m t0)) as [L|L].
  - destruct (rank_excl e Hmem (s_child s) _ (ep m s0) RK ltac:(rewrite LN; auto)) as (b1 & B1 & R1).
    destruct (rank_excl e Hmem (s_child s) _ (ep m t0) RK ltac:(rewrite LN; auto)) as (b2 & B2 & R2).
    rewrite R1, R2. cbn [bind]. unfold s_readChild. rewrite B1, B2. cbn [bind]. f_equal.
    rewrite (CB s0 Hs), (CB t0 Ht). unfold b2z.
    assert (NE : s0 < t0) by (destruct (Nat.eq_dec s0 t0) as [->|]; lia).
    pose proof (lvl_exact K HNE leafl_h s0 t0 m NE ltac:(fold n; lia)) as LE.
    pose proof slen_fits as SF. pose proof (UB t0 Ht) as U.
    transitivity (pos32 (Z.of_nat (lvl s0 t0 m))).
    + f_equal. unfold ep in *. unfold b2n in *. destruct b1, b2, (m =? leafl s0); lia.
    + rewrite (pos32_z _ (lvl s0 t0 m) eq_refl). unfold wrap32. apply N.mod_small.
      assert (lvl s0 t0 m <= slen); [|unfold two32; lia]. unfold ep in *. lia.
  - f_equal. unfold CountTrie.lvl. unfold ep in L. assert (G : cn (leaf m) t0 <= cn (leaf m) s0); [|lia].
    rewrite <- (leaf_xi m s0 Hs), <- (leaf_xi m t0 Ht).
    destruct (Nat.le_gt_cases (xi m t0) (xi m s0)) as [X|X]; [apply cn_mono; auto|].
    rewrite (cn_none_eq (leaf m) (xi m s0) (xi m t0)); [lia|lia|]. intros y Hy. unfold Trie.leaf.
    rewrite (cn_eq_none (item m) (xi m s0) (xi m t0)) by (auto; try lia; pose proof (cn_mono (item m) (xi m s0) (xi m t0)); lia). reflexivity.
Qed.

(** ** extending a position by one level *)
(** the number of the first node of level [m] to the right of key [i] *)
Definition nodeno (m i : nat) : nat := sm nds m + cn (louds m) (S i).

Lemma s_step : forall m i p, st <= m -> i < n -> leafl i <= m -> E m i = Some p ->
  (a <- s_getChildNodeNum e s p ;; b <- s_readChild e s p ;; Ok (if b : bool then a else S a)) = Ok (nodeno (S m) i).
Proof.
  intros m i p Hm Hi L H. destruct (E_item m i p Hi H) as (x & X1 & -> & X2). unfold s_getChildNodeNum.
  rewrite (s_child_rank c K HNE st s e Hst1 Hst2 HK m x Hm X1). cbn [bind].
  rewrite (s_child_read c K HNE st s e Hst1 Hst2 HK m x Hm X1). cbn [bind]. f_equal. rewrite (sk_cc c K st s HK).
  unfold nodeno. rewrite <- cn_child_louds.
  assert (Q : cn (child m) x = cn (child m) (S i)).
  { destruct X2 as [[-> X2]|[X2 _]].
    - replace m with (leafl i) by lia. rewrite (proj1 (anc_leaf K i Hi)). cbn [cn].
      rewrite (not_child K HNE leafl_h (leafl i) i) by lia. lia.
    - destruct X2 as (A & _ & B). symmetry. apply cn_none_eq; [lia|]. intros y Hy.
      destruct (child m y) eqn:C; auto. apply child_item in C. rewrite B in C by lia. discriminate. }
  cbn [cn]. pose proof (sm_mono nds (S st) (S m) ltac:(lia)). pose proof (sm_nds_pos K HNE st Hst1 Hst2 st).
  cbn [cn] in Q. destruct (child m x); lia.
Qed.

Lemma soff_st : soff st = 0. Proof. unfold SparseFacts.soff. lia. Qed.
Lemma louds_slen : length (cc (slouds K) st height) = slen.
Proof. apply cc_len; [lia|]. intros; apply slouds_n. Qed.
Lemma nodeno_next : forall m i x, leafl i < m -> nextit m i x -> nodeno m i = NN m x.
Proof.
  intros m i x L X. unfold nodeno, SparseFacts.NN. rewrite <- (next_louds_cn K HNE leafl_h m i x L X). cbn [cn].
  rewrite (next_louds K HNE leafl_h m i x L X). lia.
Qed.

Hypothesis Hpos : 0 < nit st.
Lemma slen_pos : 0 < slen.
Proof. unfold SparseFacts.slen. pose proof (soff_mono (S st) height Hst2). rewrite soff_S in H by lia. lia. Qed.

Lemma s_first_none : forall m i, st <= m -> m < height -> i < n -> (forall x, i < x -> item m x = false) ->
  okB False (s_getFirstLabelPos e s (nodeno m i)) (fun p => soff (S m) <= p).
Proof.
  intros m i Hm Hh Hi H. unfold s_getFirstLabelPos. rewrite (sk_nc c K st s HK).
  pose proof (sm_mono nds st m Hm) as M. unfold nodeno. rewrite (none_louds K HNE leafl_h m i Hi H).
  replace (sm nds m + cn (louds m) (length K) + 1 <? sm nds st) with false by lia.
  set (L := cc (slouds K) st height).
  set (k := sm nds m + cn (louds m) (length K) + 1 - sm nds st).
  pose proof (s_first_louds K HNE st Hst1 Hst2 slen_pos) as F. pose proof (sk_ld c K st s HK) as SO. fold L in F, SO.
  pose proof (s_louds_cnt K HNE st Hst1 Hst2 m (length K) Hm Hh ltac:(lia)) as C. fold L in C.
  assert (SN : soff m + cn (item m) (length K) = soff (S m)) by (rewrite soff_S by auto; reflexivity). rewrite SN in C.
  assert (SL : soff (S m) <= slen) by (apply soff_mono; lia). pose proof louds_slen as LL. fold L in LL.
  assert (KC : k = S (cnt (firstn (soff (S m)) L))) by (unfold k; lia).
  pose proof (cnt_firstn_le L (soff (S m))) as CL.
  destruct (Nat.le_gt_cases k (cnt L)) as [G|G].
  - rewrite (select_spec e _ L k SO F) by (auto; lia). cbn [okB].
    rewrite <- (firstn_skipn (soff (S m)) L). rewrite sel_app_r by lia. rewrite firstn_length. lia.
  - assert (KK : k = S (cnt L)) by lia. rewrite KK. destruct (select e (s_louds s) (S (cnt L))) as [p|er] eqn:SE; cbn [okB]; auto.
    apply (select_past e Hmem _ L p SO F) in SE. lia.
Qed.

Lemma s_append : forall (B : Prop) m i isL d l, st <= m -> m < height -> i < n -> leafl i < m -> (B -> E m i <> None) ->
  okB B (s_appendToPosList e s l (nodeno m i) (m - st) isL d)
    (fun r => match E m i with
              | Some p => r = (l ++ [Some p], Some p, d)
              | None => r = (l ++ repeat None (if isL then 1 else height - (m - st) - 1) ++ [None], None, true)
              end).
Proof.
  intros B m i isL d l Hm Hh Hi L HBE. unfold s_appendToPosList. rewrite (sk_st c K st s HK), (sk_h c K st s HK).
  replace (st + (m - st)) with m by lia. rewrite s_cut by auto.
  pose proof (soff_mono (S m) height ltac:(lia)) as MM. pose proof slen_fits as SF. unfold SparseFacts.slen in SF.
  pose proof (soff_mono (S st) (S m) ltac:(lia)) as M1. rewrite (soff_S st) in M1 by lia.
  rewrite sub32_1 by lia.
  destruct (E m i) as [p|] eqn:EE.
  - destruct (E_item m i p Hi EE) as (x & X1 & -> & [[-> X2]|[X2 _]]); [lia|].
    rewrite (nodeno_next m i x L X2).
    rewrite (s_first_pos c K HNE st s e Hst1 Hst2 HK m x Hm (next_louds K HNE leafl_h m i x L X2)). cbn [bind].
    assert (Q : spos m x < soff (S m)).
    { unfold SparseFacts.spos. rewrite soff_S by auto. pose proof (cn_item_lt K m x X1). lia. }
    replace (N.of_nat (soff (S m)) - 1 <? N.of_nat (spos m x))%N with false by lia. cbn [okB]. reflexivity.
  - pose proof EE as EE2. apply E_none in EE2; auto. destruct EE2 as [_ H].
    pose proof (s_first_none m i Hm Hh Hi H) as P.
    destruct (s_getFirstLabelPos e s (nodeno m i)) as [p|er]; cbn [okB bind] in *.
    + replace (N.of_nat (soff (S m)) - 1 <? N.of_nat p)%N with true by lia. cbn [okB]. reflexivity.
    + intros b. exact (HBE b eq_refl).
Qed.

(** ** extending both sides *)
Variables (s0 t0 : nat).
Hypothesis Hst0 : s0 <= t0.
Hypothesis Ht0 : t0 < n.
(** [B]: below some level nothing lies between, and there is something further right *)
Variable B : Prop.
Hypothesis HBM : B -> exists M, st <= M /\ M < height /\ leafl s0 < M /\ leafl t0 < M /\
  (forall x, s0 < x -> x <= t0 -> item M x = false) /\ E M t0 <> None.
Let H := height - st.
Definition path (x : nat) : nat := S (leafl x) - st.
Definition ents (x : nat) (l : list (option nat)) : Prop :=
  forall m, m < length l -> m < H -> nth_error l m = Some (E (st + m) x).

Definition side (isL : bool) (i x : nat) (l : list (option nat)) (p : option nat) (d : bool) : Prop :=
  ents x l /\ 1 <= length l /\
  match p with
  | Some q => d = false /\ path x <= length l /\ E (st + length l - 1) x = Some q /\ i <= length l /\
      length l <= Nat.max i (Nat.max 1 (path x)) /\ length l < H
  | None => (exists k, k < i /\ k < length l /\ k < H /\ E (st + k) x = None) /\ (d = true \/ H <= length l) /\ (isL = false -> H <= length l)
  end.

Lemma ents_add : forall x l l2 i, ents x l -> length l = i -> (forall m, m < length l2 -> i + m < H -> nth_error l2 m = Some (E (st + (i + m)) x)) ->
  ents x (l ++ l2).
Proof.
  intros x l l2 i HL HI H2 m Hm HH. destruct (Nat.lt_ge_cases m (length l)) as [L|L].
  - rewrite nth_error_app1 by auto. apply HL; auto.
  - rewrite nth_error_app2 by auto. rewrite app_length in Hm. rewrite (H2 (m - length l)) by lia. do 3 f_equal. lia.
Qed.

(** the fault cannot happen while the levels compared are above that of [B] *)
Definition safe (i : nat) : Prop := B -> exists M, st <= M /\ M < height /\ leafl s0 < M /\ leafl t0 < M /\
  (forall x, s0 < x -> x <= t0 -> item M x = false) /\ E M t0 <> None /\ st + i <= M.

Lemma safe_E : forall i x, safe i -> x = s0 \/ x = t0 -> B -> E (st + i) x <> None.
Proof.
  intros i x HS0 Hx b. destruct (HS0 b) as (M & M1 & M2 & M3 & M4 & M5 & M6 & M7).
  assert (Hxn : x < n) by lia.
  intros G. apply (E_none_le (st + i) M x Hxn M7) in G. destruct Hx as [->| ->]; [|contradiction].
  rewrite (E_same M s0 t0) in G by auto. contradiction.
Qed.

Lemma append_side : forall isL i x l, i < H -> x = s0 \/ x = t0 -> (B -> E (st + i) x <> None) ->
  leafl x < st + i -> length l = i -> ents x l ->
  okB B (s_appendToPosList e s l (nodeno (st + i) x) i isL false) (fun r => side isL (S i) x (fst (fst r)) (snd (fst r)) (snd r)).
Proof.
  intros isL i x l Hi Hx HSf L LL HL. assert (Hxn : x < n) by lia.
  pose proof (s_append B (st + i) x isL false l ltac:(lia) ltac:(unfold H in *; lia) Hxn L HSf) as P.
  replace (st + i - st) with i in P by lia.
  destruct (s_appendToPosList e s l (nodeno (st + i) x) i isL false) as [r|]; cbn [okB] in *; auto.
  destruct (E (st + i) x) as [p|] eqn:EE; subst r; cbn [fst snd]; unfold side.
  - assert (Hlast : S i < H).
    { destruct (Nat.eq_dec (S i) H) as [G|G]; [|lia]. pose proof (E_top x Hxn) as T.
      replace (height - 1) with (st + i) in T by (unfold H in *; lia). congruence. }
    split; [|split].
    + apply (ents_add x l [Some p] i); auto. intros m Hm _. cbn in Hm. replace m with 0 by lia. rewrite Nat.add_0_r, EE. reflexivity.
    + rewrite app_length. cbn. lia.
    + rewrite app_length. cbn [length]. unfold path.
      replace (st + (length l + 1) - 1) with (st + i) by lia. rewrite EE. repeat split; auto; lia.
  - split; [|split; [|split; [|split]]].
    + apply (ents_add x l _ i); auto. intros m Hm HH. rewrite app_length, repeat_length in Hm. cbn in Hm.
      rewrite (E_none_le (st + i) (st + (i + m)) x Hxn ltac:(lia) EE).
      set (k := if isL then 1 else height - i - 1) in *. clear - Hm.
      revert m Hm. induction k as [|k IH]; intros m Hm; cbn [repeat app].
      * destruct m; [reflexivity|lia].
      * destruct m; [reflexivity|]. cbn [nth_error]. apply IH. lia.
    + rewrite !app_length. cbn. lia.
    + exists i. rewrite !app_length. cbn [length]. repeat split; auto; lia.
    + auto.
    + intros ->. rewrite !app_length, repeat_length. cbn [length]. unfold H in *. lia.
Qed.

Lemma extend_one : forall isL i x l p d, 1 <= i -> i < H -> x = s0 \/ x = t0 -> (p <> None -> safe i) -> side isL i x l p d ->
  okB B (s_extend_one e s l p i isL d) (fun r => side isL (S i) x (fst (fst r)) (snd (fst r)) (snd r)).
Proof.
  intros isL i x l p d Hi1 Hi Hx HSf HSd. assert (Hxn : x < n) by lia. pose proof HSd as (A1 & A2 & A3). unfold s_extend_one.
  destruct p as [q|].
  - destruct A3 as (-> & P1 & P2 & P3 & P4 & P5). cbn [negb andb].
    destruct (Nat.leb_spec (length l) i) as [L|L].
    + assert (LL : length l = i) by lia. pose proof (s_step (st + i - 1) x q ltac:(lia) Hxn ltac:(unfold path in *; lia)) as ST.
      replace (st + length l - 1) with (st + i - 1) in P2 by lia. specialize (ST P2). replace (S (st + i - 1)) with (st + i) in ST by lia.
      destruct (s_getChildNodeNum e s q) as [a|]; cbn [bind] in ST |- *; [|discriminate].
      destruct (s_readChild e s q) as [b|]; cbn [bind] in ST |- *; [|discriminate]. injection ST as ->.
      apply append_side; auto; [|unfold path in *; lia]. apply safe_E; auto. apply HSf. discriminate.
    + cbn [okB fst snd]. unfold side. split; auto. split; auto. repeat split; auto; lia.
  - destruct A3 as ((k & K0 & K1 & K2 & K3) & P2 & P3).
    replace (negb d && (length l <=? i)) with false by (destruct P2 as [->|P2]; [reflexivity|]; destruct d; cbn; [reflexivity|symmetry; apply Nat.leb_gt; lia]).
    cbn [okB fst snd]. unfold side. split; auto. split; auto. split; [exists k; auto|]. auto.
Qed.

(** what the two lists have to be *)
Definition lists_ok (ls rs : list (option nat)) : Prop := exists L, L <= H /\ ents s0 ls /\ ents t0 rs /\
  L <= length ls /\ L <= length rs /\
  ((length ls = L /\ length rs = L /\ forall m, st + L <= m -> lvl s0 t0 m = 0) \/ (exists k, k < L /\ E (st + k) s0 = None)).

Lemma E_level : forall m i p, st <= m -> i < n -> E m i = Some p -> soff m <= p < soff (S m).
Proof.
  intros m i p Hm Hi G. destruct (E_item m i p Hi G) as (x & X1 & -> & _). unfold SparseFacts.spos. rewrite soff_S by auto.
  pose proof (cn_item_lt K m x X1). lia.
Qed.

(** equal last positions *)
Lemma equal_end : forall m q, st <= m -> leafl s0 <= m -> leafl t0 <= m -> E m s0 = Some q -> E m t0 = Some q ->
  forall m', S m <= m' -> lvl s0 t0 m' = 0.
Proof.
  intros m q Hm L1 L2 E1 E2. assert (Hs0 : s0 < n) by lia.
  destruct (E_item m s0 q Hs0 E1) as (x & X1 & X2 & X3). destruct (E_item m t0 q Ht0 E2) as (y & Y1 & Y2 & Y3).
  assert (XY : x = y).
  { destruct (Nat.lt_trichotomy x y) as [G|[G|G]]; auto; exfalso;
    [pose proof (spos_mono K HNE st Hst1 Hst2 m x y X1 G)|pose proof (spos_mono K HNE st Hst1 Hst2 m y x Y1 G)]; lia. }
  subst y. destruct (Nat.eq_dec s0 t0) as [->|NE].
  { intros m' _. unfold CountTrie.lvl. lia. }
  assert (XN : nextit m s0 x).
  { destruct X3 as [[-> X3]|[X3 _]]; auto. exfalso. replace m with (leafl s0) in * by lia.
    rewrite (proj1 (anc_leaf K s0 Hs0)) in *. destruct Y3 as [[Y3 Y4]|[(Y3 & _) _]]; [|lia].
    replace (leafl s0) with (leafl t0) in Y3 by lia. rewrite (proj1 (anc_leaf K t0 Ht0)) in Y3. lia. }
  assert (Q : forall z, s0 < z -> z <= t0 -> item (S m) z = false).
  { intros z Z1 Z2. destruct (item (S m) z) eqn:I; auto. exfalso.
    destruct (up_right K HNE leafl_h m s0 z L1 Z1 I) as [A1 A2]. pose proof (anc_le K m z) as A3.
    destruct XN as (N1 & _ & N3).
    assert (XT : x <= anc m z) by (destruct (Nat.le_gt_cases x (anc m z)) as [|G]; auto; rewrite N3 in A2 by lia; discriminate).
    destruct Y3 as [[Y3 Y4]|[(Y3 & _) _]]; [|lia].
    replace m with (leafl t0) in * by lia. rewrite (proj1 (anc_leaf K t0 Ht0)) in Y3. subst x.
    assert (z = t0) by lia. subst z. apply item_spec in I. unfold Trie.leafl in *. lia. }
  intros m' Hm'. apply (lvl_none K HNE leafl_h s0 t0 (S m)); auto. lia.
Qed.

Lemma side_len : forall isL i x l q d, side isL i x l (Some q) d -> nth_error l (length l - 1) = Some (Some q).
Proof.
  intros isL i x l q d (A1 & A2 & _ & _ & A3 & _ & _ & A4). rewrite A1 by lia. rewrite <- A3. do 2 f_equal. lia.
Qed.

Lemma extend_loop : forall k i ll rl lp rp ld rd, i + k = H -> 1 <= i -> (B -> exists M, st <= M /\ M < height /\ leafl s0 < M /\ leafl t0 < M /\
  (forall x, s0 < x -> x <= t0 -> item M x = false) /\ E M t0 <> None /\ st + i <= S M) ->
  side true i s0 ll lp ld -> side false i t0 rl rp rd ->
  okB B (s_extend_loop e s k i ll rl lp rp ld rd) (fun r => lists_ok (fst r) (snd r)).
Proof.
  assert (Hs0 : s0 < n) by lia.
  assert (NoneOk : forall i ll rl rp ld rd, side true i s0 ll None ld -> side false i t0 rl rp rd -> (rp = None \/ H <= length rl) -> lists_ok ll rl).
  { intros i ll rl rp ld rd (A1 & A2 & (k & _ & K1 & K2 & K3) & _) (B1 & B2 & B3) G.
    assert (HR : H <= length rl) by (destruct G as [->|G]; auto; apply B3; auto).
    exists (S k). split; [lia|]. split; auto. split; auto. split; [lia|]. split; [lia|]. right. exists k. auto. }
  induction k as [|k IH]; intros i ll rl lp rp ld rd HI Hi1 HM SL SR; cbn [s_extend_loop].
  - cbn [okB fst snd]. destruct lp as [q|].
    + exfalso. destruct SL as (_ & _ & _ & _ & _ & P & _ & P2). lia.
    + destruct rp as [q|]; [exfalso; destruct SR as (_ & _ & _ & _ & _ & P & _ & P2); lia|].
      eapply NoneOk; eauto.
  - destruct (optnat_eqb lp rp) eqn:EQ.
    + cbn [okB fst snd]. destruct lp as [q|], rp as [q'|]; cbn [optnat_eqb] in EQ; try discriminate.
      2: { eapply NoneOk; eauto. }
      apply Nat.eqb_eq in EQ. subst q'.
      destruct SL as (A1 & A2 & A3 & A4 & A5 & A6 & A7 & A8). destruct SR as (B1 & B2 & B3 & B4 & B5 & B6 & B7 & B8).
      pose proof (E_level (st + length ll - 1) s0 q ltac:(lia) Hs0 A5) as R1. pose proof (E_level (st + length rl - 1) t0 q ltac:(lia) Ht0 B5) as R2.
      assert (LL : length ll = length rl).
      { destruct (Nat.lt_trichotomy (length ll) (length rl)) as [G|[G|G]]; auto; exfalso.
        - pose proof (soff_mono (S (st + length ll - 1)) (st + length rl - 1) ltac:(lia)). lia.
        - pose proof (soff_mono (S (st + length rl - 1)) (st + length ll - 1) ltac:(lia)). lia. }
      exists (length ll). split; [lia|]. split; auto. split; auto. split; [lia|]. split; [lia|]. left. split; auto. split; auto.
      intros m Hm. rewrite <- LL in B5.
      apply (equal_end (st + length ll - 1) q); auto; unfold path in *; lia.
    + assert (SF : (lp <> None \/ rp <> None) -> safe i).
      { intros NN0 b. destruct (HM b) as (M & M1 & M2 & M3 & M4 & M5 & M6 & M7). exists M. repeat (split; [assumption|]).
        destruct (Nat.eq_dec (st + i) (S M)) as [G|G]; [|lia]. exfalso.
        assert (EM : E M s0 = E M t0) by (apply E_same; auto).
        assert (X : forall isL x l p d, x = s0 \/ x = t0 -> side isL i x l p d -> p = E M x).
        { intros isL x l p d Hx (A1 & A2 & A3). assert (Hxn : x < n) by lia. destruct p as [q|].
          - destruct A3 as (_ & P1 & P2 & P3 & P4 & P5). rewrite <- P2. f_equal.
            assert (path x <= i) by (unfold path; destruct Hx; subst x; lia). lia.
          - destruct A3 as ((k0 & K0 & K1 & K2 & K3) & P2 & P3).
            assert (NM : E M x <> None) by (destruct Hx as [->| ->]; [rewrite EM|]; auto).
            exfalso. apply (E_none_le _ M) in K3; auto. lia. }
        rewrite (X _ _ _ _ _ (or_introl eq_refl) SL), (X _ _ _ _ _ (or_intror eq_refl) SR), EM in EQ.
        destruct (E M t0); cbn in EQ; [rewrite Nat.eqb_refl in EQ|]; discriminate. }
      apply (okB_bind B _ _ _ _ (fun r => side true (S i) s0 (fst (fst r)) (snd (fst r)) (snd r))).
      { apply extend_one; auto; lia. }
      intros [[ll' lp'] ld'] SL'. cbn [fst snd] in SL'.
      apply (okB_bind B _ _ _ _ (fun r => side false (S i) t0 (fst (fst r)) (snd (fst r)) (snd r))).
      { apply extend_one; auto; lia. }
      intros [[rl' rp'] rd'] SR'. cbn [fst snd] in SR'.
      apply IH; auto; [lia|].
      assert (SF' : safe i).
      { apply SF. destruct lp; [left; discriminate|]. destruct rp; [right; discriminate|]. discriminate. }
      intros b. destruct (SF' b) as (M & M1 & M2 & M3 & M4 & M5 & M6 & M7). exists M. repeat (split; [assumption|]). lia.
Qed.

Lemma last_app : forall (l : list (option nat)) x, last_pos (l ++ [x]) = Ok x.
Proof.
  intros l x. unfold last_pos. rewrite app_length. cbn [length]. rewrite Nat.add_1_r. cbn [pred_idx bind]. unfold vget.
  rewrite nth_error_app2, Nat.sub_diag by lia. reflexivity.
Qed.
Lemma append_last : forall l a i isL d r, s_appendToPosList e s l a i isL d = Ok r -> last_pos (fst (fst r)) = Ok (snd (fst r)).
Proof.
  intros l a i isL d r. unfold s_appendToPosList. destruct (s_getFirstLabelPos e s a) as [p|]; cbn [bind]; [|discriminate].
  destruct (cut_at _ _) as [cu|]; cbn [bind]; [|discriminate]. destruct (cu <? N.of_nat p)%N; intros [= <-]; cbn [fst snd].
  - rewrite app_assoc. apply last_app.
  - apply last_app.
Qed.
Lemma last_nth : forall (l : list (option nat)) x, nth_error l (length l - 1) = Some x -> last_pos l = Ok x.
Proof.
  intros l x Q. unfold last_pos. destruct (length l) as [|k] eqn:E0.
  - destruct l; [discriminate|discriminate].
  - cbn [pred_idx bind]. unfold vget. replace (S k - 1) with k in Q by lia. rewrite Q. reflexivity.
Qed.
Lemma side_nth : forall isL i x l q, ents x l -> 1 <= i -> i <= length l -> length l < H -> path x <= length l -> length l <= Nat.max 1 (path x) ->
  nth_error l (length l - 1) = Some (Some q) -> side isL i x l (Some q) false.
Proof.
  intros isL i x l q A I1 I2 L P P2 Q. split; auto. split; [lia|]. repeat split; auto; try lia.
  rewrite A in Q by lia. injection Q as Q. rewrite <- Q. f_equal. lia.
Qed.
Lemma append_start : forall isL x, x = s0 \/ x = t0 -> path x = 0 ->
  okB B (s_appendToPosList e s [] (nodeno st x) 0 isL false) (fun r => side isL 1 x (fst (fst r)) (snd (fst r)) (snd r) /\ last_pos (fst (fst r)) = Ok (snd (fst r))).
Proof.
  intros isL x Hx HP. pose proof (append_side isL 0 x [] ltac:(unfold H; lia) Hx) as Q. rewrite Nat.add_0_r in Q.
  assert (S0 : safe 0). { intros b. destruct (HBM b) as (M & M1 & M2 & M3 & M4 & M5 & M6). exists M. repeat (split; [assumption|]). lia. }
  pose proof (safe_E 0 x S0 Hx) as S1. rewrite Nat.add_0_r in S1. specialize (Q S1 ltac:(unfold path in *; lia) eq_refl).
  assert (EN : ents x []) by (intros m Hm; cbn in Hm; lia). specialize (Q EN).
  destruct (s_appendToPosList e s [] (nodeno st x) 0 isL false) as [r|] eqn:EA; cbn [okB] in *; auto. split; auto. eapply append_last; eauto.
Qed.

Lemma extend_lists : forall ll rl a inr,
  ents s0 ll -> length ll = path s0 -> (path s0 = 0 -> a = nodeno st s0) ->
  (inr = None /\ rl = repeat None H /\ E st t0 = None \/
   exists b, inr = Some b /\ ents t0 rl /\ (forall x, In x rl -> x <> None) /\ (length rl = path t0 \/ path t0 = 0 /\ length rl = 1) /\
     (path t0 = 0 -> b = nodeno st t0)) ->
  okB B (s_extendPosList e s ll rl (Some a) inr) (fun r => lists_ok (fst r) (snd r)).
Proof.
  intros ll rl a inr EL LL HA HR. assert (Hs0 : s0 < n) by lia.
  assert (PH : forall x, x < n -> path x < H).
  { intros x Hx. pose proof (leafl_height K HNE st Hst1 Hst2 x Hx). unfold path, H. lia. }
  assert (H1 : 1 <= H) by (unfold H; lia). assert (HH2 : forall x, x < n -> E st x <> None -> 1 < H).
  { intros x Hx Q. destruct (Nat.eq_dec H 1) as [G|G]; [|lia]. pose proof (E_top x Hx) as T.
    replace (height - 1) with st in T by (unfold H in *; lia). contradiction. }
  (* the initial sides *)
  assert (SL : forall i, 1 <= i -> i <= length ll -> exists q, last_pos ll = Ok (Some q) /\ side true i s0 ll (Some q) false).
  { intros i I1 I2. pose proof (PH s0 Hs0) as P. destruct (E (st + (length ll - 1)) s0) as [q|] eqn:EE.
    - assert (Q : nth_error ll (length ll - 1) = Some (Some q)) by (rewrite EL by lia; rewrite EE; reflexivity).
      exists q. split; [apply last_nth; auto|]. apply side_nth; auto; lia.
    - exfalso. apply E_none in EE; auto. unfold path in *. lia. }
  assert (SR : forall i, 1 <= i -> i <= length rl -> i <= H -> exists q, last_pos rl = Ok q /\ side false i t0 rl q false).
  { intros i I1 I2 I3. destruct HR as [(-> & -> & EN)|(b & -> & E1 & E2 & E3 & E4)].
    - exists None. split.
      { apply last_nth. rewrite repeat_length. apply nth_error_repeat. lia. }
      split; [|split; [rewrite repeat_length; lia|split; [|split]]].
      + intros m Hm1 Hm2. rewrite repeat_length in Hm1. rewrite nth_error_repeat by lia. f_equal. symmetry.
        apply (E_none_le st); auto. lia.
      + exists 0. rewrite repeat_length, Nat.add_0_r. repeat split; auto; lia.
      + right. rewrite repeat_length. lia.
      + intros _. rewrite repeat_length. lia.
    - pose proof (PH t0 Ht0) as P.
      assert (LH : length rl < H).
      { destruct E3 as [E3|[E3 E5]]; [lia|]. rewrite E5. apply (HH2 t0 Ht0). intros EE.
        pose proof (E1 0 ltac:(lia) ltac:(lia)) as Q. rewrite Nat.add_0_r, EE in Q. apply nth_error_In in Q. apply E2 in Q. contradiction. }
      pose proof (E1 (length rl - 1) ltac:(lia) ltac:(lia)) as Q. destruct (E (st + (length rl - 1)) t0) as [q|] eqn:EE.
      + exists (Some q). split; [apply last_nth; auto|]. apply side_nth; auto; lia.
      + exfalso. apply nth_error_In in Q. apply E2 in Q. contradiction. }
  unfold s_extendPosList. rewrite (sk_h c K st s HK), (sk_st c K st s HK).
  assert (HB1 : forall i, i <= Nat.max 1 (Nat.min (length ll) (length rl)) -> B -> exists M, st <= M /\ M < height /\ leafl s0 < M /\ leafl t0 < M /\
    (forall x, s0 < x -> x <= t0 -> item M x = false) /\ E M t0 <> None /\ st + i <= S M).
  { intros i Hi b. destruct (HBM b) as (M & M1 & M2 & M3 & M4 & M5 & M6). exists M. repeat (split; [assumption|]). unfold path in *. lia. }
  destruct (Nat.eqb_spec (Nat.min (length ll) (length rl)) 0) as [Z|Z].
  2: { cbn [bind]. destruct (SL (Nat.min (length ll) (length rl)) ltac:(lia) ltac:(lia)) as (q & L1 & L2).
       pose proof (PH s0 Hs0) as P.
       destruct (SR (Nat.min (length ll) (length rl)) ltac:(lia) ltac:(lia) ltac:(lia)) as (q' & R1 & R2).
       rewrite L1, R1. cbn [bind]. apply extend_loop; auto; [unfold H in *; lia|lia|apply HB1; lia]. }
  (* start depth 1 *)
  set (LP := fun r : list (option nat) * bool => exists p, last_pos (fst r) = Ok p /\ side true 1 s0 (fst r) p (snd r)).
  set (RP := fun r : list (option nat) * bool => exists p, last_pos (fst r) = Ok p /\ side false 1 t0 (fst r) p (snd r)).
  apply (okB_bind B _ _ _ _ (fun r => LP (fst (fst (fst (fst r))), snd (fst (fst (fst r)))) /\ RP (snd (fst (fst r)), snd (fst r)) /\ snd r = 1)).
  - apply (okB_bind B _ _ _ _ LP).
    + destruct ll as [|x ll0].
      * cbn [length] in LL. rewrite (HA (eq_sym LL)).
        eapply okB_bind; [apply (append_start true s0); auto|]. intros [[l p] dn] [A1 A2]. cbn [okB]. exists p. auto.
      * destruct (SL 1 ltac:(lia) ltac:(cbn; lia)) as (q & Q). cbn [okB]. exists (Some q). exact Q.
    + intros [l1 d1] Q1. apply (okB_bind B _ _ _ _ RP).
      * destruct rl as [|x rl0].
        -- destruct HR as [(-> & R & EN)|(b & -> & E1 & E2 & E3 & E4)]; [destruct H; [lia|discriminate]|].
           cbn [length] in E3. assert (PT : path t0 = 0) by lia. rewrite (E4 PT).
           eapply okB_bind; [apply (append_start false t0); auto|]. intros [[l p] dn] [A1 A2]. cbn [okB]. exists p. auto.
        -- destruct (SR 1 ltac:(lia) ltac:(cbn; lia) ltac:(lia)) as (q & Q). cbn [okB]. exists q. exact Q.
      * intros [l2 d2] Q2. cbn [okB fst snd]. auto.
  - intros [[[[l1 d1] l2] d2] sd] (Q1 & Q2 & Q3). cbn [fst snd] in Q1, Q2, Q3. subst sd.
    destruct Q1 as (p1 & A1 & A2). destruct Q2 as (p2 & B1 & B2). cbn [fst snd] in *. rewrite A1, B1. cbn [bind].
    apply extend_loop; auto; [unfold H in *; lia|]. apply HB1. lia.
Qed.

(** ** the count *)
Lemma count_loop : forall k i ls rs count, i + k = H -> 
  (forall m, m < length ls -> i + m < H -> nth_error ls m = Some (E (st + (i + m)) s0)) ->
  (forall m, m < length rs -> i + m < H -> nth_error rs m = Some (E (st + (i + m)) t0)) ->
  (exists L, i + L <= H /\ L <= length ls /\ L <= length rs /\
    ((length ls = L /\ length rs = L /\ forall m, st + (i + L) <= m -> lvl s0 t0 m = 0) \/ (exists m, m < L /\ E (st + (i + m)) s0 = None))) ->
  (count + N.of_nat (sm (lvl s0 t0) height - sm (lvl s0 t0) (st + i)) < two64)%N ->
  s_count_loop e s (path s0) i ls rs count = Ok (count + N.of_nat (sm (lvl s0 t0) height - sm (lvl s0 t0) (st + i)))%N.
Proof.
  assert (Hs0 : s0 < n) by lia.
  assert (Rest0 : forall m, (forall m', m <= m' -> lvl s0 t0 m' = 0) -> sm (lvl s0 t0) height - sm (lvl s0 t0) m = 0).
  { intros m G. destruct (Nat.le_gt_cases height m) as [Q|Q]; [pose proof (sm_mono (lvl s0 t0) height m Q); lia|].
    assert (X : forall d, sm (lvl s0 t0) (m + d) = sm (lvl s0 t0) m).
    { induction d as [|d IHd]; [f_equal; lia|]. replace (m + S d) with (S (m + d)) by lia. cbn [sm]. rewrite G by lia. lia. }
    specialize (X (height - m)). replace (m + (height - m)) with height in X by lia. lia. }
  assert (None0 : forall m, E m s0 = None -> forall m', m <= m' -> lvl s0 t0 m' = 0).
  { intros m EE. apply E_none in EE; auto. destruct EE as [A1 A2]. apply (lvl_none K HNE leafl_h); auto. }
  induction k as [|k IH]; intros i ls rs count HI EL ER (L & L1 & L2 & L3 & L4) CB.
  - assert (L = 0) by lia. subst L. destruct L4 as [(A1 & A2 & A3)|(m & A1 & _)]; [|lia].
    destruct ls; [|discriminate]. cbn [s_count_loop]. rewrite Rest0; [f_equal; lia|]. intros m' Q. apply A3. lia.
  - destruct ls as [|l ls].
    { cbn [length] in L2. assert (L = 0) by lia. subst L. destruct L4 as [(A1 & A2 & A3)|(m & A1 & _)]; [|lia].
      cbn [s_count_loop]. rewrite Rest0; [f_equal; lia|]. intros m' Q. apply A3. lia. }
    pose proof (EL 0 ltac:(cbn; lia) ltac:(lia)) as E0. cbn [nth_error] in E0. rewrite Nat.add_0_r in E0. injection E0 as ->.
    destruct (E (st + i) s0) as [p|] eqn:EE.
    2: { destruct rs; cbn [s_count_loop]; rewrite Rest0; try (f_equal; lia); intros m' Q; apply (None0 (st + i)); auto. }
    destruct rs as [|r rs].
    { cbn [length] in L3. assert (L = 0) by lia. subst L. destruct L4 as [(A1 & A2 & A3)|(m & A1 & _)]; [|lia]. discriminate. }
    pose proof (ER 0 ltac:(cbn; lia) ltac:(lia)) as E0. cbn [nth_error] in E0. rewrite Nat.add_0_r in E0. injection E0 as ->.
    cbn [s_count_loop]. rewrite (sk_st c K st s HK), s_cut by (unfold H in *; lia). cbn [bind].
    assert (RP : (match E (st + i) t0 with Some p => p | None => N.to_nat (wrap32 (sub32 (N.of_nat (soff (S (st + i)))) 1 + 1)) end) = ep (st + i) t0).
    { destruct (E (st + i) t0) as [p'|] eqn:ET; [apply E_some_ep; auto|]. rewrite ep_none by (auto; lia).
      pose proof slen_fits as SF. unfold SparseFacts.slen in SF. pose proof (soff_mono (S (st + i)) height ltac:(unfold H in *; lia)) as M.
      pose proof (soff_mono (S st) (S (st + i)) ltac:(lia)) as M1. rewrite (soff_S st) in M1 by lia.
      rewrite sub32_1 by lia. unfold wrap32, two32. rewrite N.mod_small by lia. lia. }
    rewrite RP. rewrite (E_some_ep _ _ _ EE).
    pose proof (count_level (st + i) s0 t0 (ep (st + i) t0) ltac:(lia) ltac:(unfold H in *; lia) Hst0 Ht0 eq_refl) as CL.
    assert (FL : (i + 1 =? path s0) = (st + i =? leafl s0)).
    { unfold path. destruct (Nat.eqb_spec (st + i) (leafl s0)); [apply Nat.eqb_eq|apply Nat.eqb_neq]; lia. }
    rewrite FL. rewrite CL. cbn [bind].
    assert (SB : sm (lvl s0 t0) (st + i) + lvl s0 t0 (st + i) <= sm (lvl s0 t0) height).
    { pose proof (sm_mono (lvl s0 t0) (S (st + i)) height ltac:(unfold H in *; lia)) as Q. cbn [sm] in Q. lia. }
    unfold wrap64. rewrite N.mod_small by lia.
    rewrite IH; [f_equal; replace (st + S i) with (S (st + i)) by lia; cbn [sm]; lia|lia| | | |].
    + intros m Hm1 Hm2. pose proof (EL (S m) ltac:(cbn; lia) ltac:(lia)) as Q. cbn [nth_error] in Q. rewrite Q. do 3 f_equal. lia.
    + intros m Hm1 Hm2. pose proof (ER (S m) ltac:(cbn; lia) ltac:(lia)) as Q. cbn [nth_error] in Q. rewrite Q. do 3 f_equal. lia.
    + cbn [length] in L2, L3. destruct L4 as [(A1 & A2 & A3)|(m & A1 & A2)].
      * cbn [length] in A1, A2. exists (L - 1). split; [lia|]. split; [lia|]. split; [lia|]. left. split; [lia|]. split; [lia|]. intros m Hm. apply A3. lia.
      * exists (L - 1). split; [lia|]. split; [lia|]. split; [lia|]. right. exists (m - 1).
        assert (m <> 0) by (intros ->; rewrite Nat.add_0_r in A2; congruence). split; [lia|]. rewrite <- A2. f_equal. lia.
    + replace (st + S i) with (S (st + i)) by lia. cbn [sm]. lia.
Qed.

Lemma ents_slpre : forall x len k p, x < n -> len <= path x -> len <= length p -> slpre K st x len k p -> ents x (map Some (firstn len p)).
Proof.
  intros x len k p Hx HL HP (A1 & A2 & A3) m Hm1 Hm2. rewrite map_length, firstn_length in Hm1.
  rewrite nth_error_map, LookupFacts.nth_error_firstn_lt by lia. rewrite (nth_error_nth' p 0) by lia. cbn [option_map]. do 2 f_equal.
  rewrite (proj1 (A3 m ltac:(lia))). unfold E, ep, xi, SparseFacts.spos.
  replace (st + m <=? leafl x) with true by (unfold path in *; lia). reflexivity.
Qed.

Lemma s_count_ok : forall itl itr inl inr,
  (N.of_nat (sm (lvl s0 t0) height) < two64)%N ->
  si_len itl = path s0 -> slpre K st s0 (path s0) (si_key itl) (si_pos itl) ->
  (inl = None -> E st s0 = None) -> (forall a, inl = Some a -> path s0 = 0 -> a = nodeno st s0) ->
  (inr = None -> E st t0 = None) -> (forall a, inr = Some a -> path t0 = 0 -> a = nodeno st t0) ->
  (si_len itr = path t0 /\ slpre K st t0 (path t0) (si_key itr) (si_pos itr) \/
   path t0 = 0 /\ si_len itr = 1 /\ exists x, t0 < x /\ item st x = true /\ cn (item st) x = 0 /\ slpre K st x 1 (si_key itr) (si_pos itr)) ->
  okB B (s_approxCount e s itl itr inl inr) (fun c => c = N.of_nat (sm (lvl s0 t0) height - sm (lvl s0 t0) st)).
Proof.
  intros itl itr inl inr HN LL LP IL1 IL2 IR1 IR2 RT. assert (Hs0 : s0 < n) by lia.
  assert (PH : forall x, x < n -> path x < H).
  { intros x Hx. pose proof (leafl_height K HNE st Hst1 Hst2 x Hx). unfold path, H. lia. }
  unfold s_approxCount. destruct inl as [a|].
  2: { cbn [okB]. specialize (IL1 eq_refl). apply E_none in IL1; auto. destruct IL1 as [A1 A2].
    assert (X : forall d, sm (lvl s0 t0) (st + d) = sm (lvl s0 t0) st).
    { induction d as [|d IHd]; [f_equal; lia|]. replace (st + S d) with (S (st + d)) by lia. cbn [sm].
      rewrite (lvl_none K HNE leafl_h s0 t0 st) by (auto; lia). lia. }
    specialize (X H). replace (st + H) with height in X by (unfold H; lia). rewrite X, Nat.sub_diag. reflexivity. }
  pose proof LP as (LPk & LPp & _). pose proof (PH s0 Hs0) as P0. pose proof (PH t0 Ht0) as P1. fold H in LPp.
  rewrite mapM_vget by lia. cbn [bind skipn]. rewrite (sk_h c K st s HK), (sk_st c K st s HK). fold H.
  assert (EL : ents s0 (map Some (firstn (si_len itl) (si_pos itl)))) by (apply (ents_slpre s0 _ (si_key itl)); auto; try lia; rewrite LL; auto).
  assert (LLen : length (map Some (firstn (si_len itl) (si_pos itl))) = path s0) by (rewrite map_length, firstn_length; lia).
  assert (FIN : forall rl, okB B (s_extendPosList e s (map Some (firstn (si_len itl) (si_pos itl))) rl (Some a) inr) (fun r => lists_ok (fst r) (snd r)) ->
    okB B ('(ls, rs) <- s_extendPosList e s (map Some (firstn (si_len itl) (si_pos itl))) rl (Some a) inr ;;
       s_count_loop e s (length (firstn (si_len itl) (si_pos itl))) 0 ls rs 0%N)
      (fun c => c = N.of_nat (sm (lvl s0 t0) height - sm (lvl s0 t0) st))).
  { intros rl Q. eapply okB_bind; [exact Q|]. intros [ls rs] (L & L1 & L2 & L3 & L4 & L5 & L6). cbn [fst snd] in *.
    rewrite map_length in LLen. rewrite LLen.
    rewrite (count_loop H 0 ls rs 0%N); auto.
    - cbn [okB]. rewrite Nat.add_0_r. lia.
    - exists L. cbn [Nat.add]. auto.
    - rewrite Nat.add_0_r. lia. }
  destruct inr as [b|].
  - assert (RL : exists p, mapM (vget (si_pos itr)) (seq 0 (si_len itr)) = Ok p /\ ents t0 (map Some p) /\ (length p = path t0 \/ path t0 = 0 /\ length p = 1)).
    { destruct RT as [[R1 R2]|(R1 & R2 & x & R3 & R4 & R5 & R6)].
      - pose proof R2 as (_ & R4 & _). fold H in R4. rewrite mapM_vget by lia. cbn [skipn]. exists (firstn (si_len itr) (si_pos itr)).
        split; auto. split; [apply (ents_slpre t0 _ (si_key itr)); auto; try lia; rewrite R1; auto|left; rewrite firstn_length; lia].
      - pose proof R6 as (_ & R7 & R8). fold H in R7. rewrite mapM_vget by lia. cbn [skipn]. exists (firstn (si_len itr) (si_pos itr)).
        split; auto. split; [|right; rewrite firstn_length; lia].
        intros m Hm1 Hm2. rewrite map_length, firstn_length in Hm1. assert (m = 0) by lia. subst m.
        rewrite nth_error_map, LookupFacts.nth_error_firstn_lt by lia. rewrite (nth_error_nth' (si_pos itr) 0) by lia. cbn [option_map]. f_equal.
        rewrite (proj1 (R8 0 ltac:(lia))), Nat.add_0_r.
        rewrite (E_next st t0 x); [|unfold path in *; lia|].
        + rewrite anc_self; auto. apply item_spec in R4. lia.
        + split; auto. split; auto. intros y Y1 Y2. destruct (item st y) eqn:Q; auto.
          pose proof (cn_lt (item st) y x Q Y2). lia. }
    destruct RL as (p & R1 & R2 & R3). rewrite R1. cbn [bind]. apply FIN. apply extend_lists; auto.
    right. exists b. split; auto. split; auto. split; [|rewrite map_length; split; auto].
    intros x Q. apply in_map_iff in Q. destruct Q as (y & <- & _). discriminate.
  - cbn [bind]. apply FIN. apply extend_lists; auto.
Qed.
End CS.
