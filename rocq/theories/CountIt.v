(** approxCount of two iterators: the dense and the sparse part together. *)
From Coq Require Import Arith List NArith ZArith Bool Lia ZifyN ZifyNat ZifyBool Sorting.Sorted.
From Verif Require LookupFacts.
From Verif Require Import Res Word Config BitFacts WordFacts Bitvector BitvectorFacts Rank Select
  RankSelectFacts LabelVector LabelFacts Suffix Spec SuffixFacts Builder KeyFacts Trie BuilderFacts
  DenseBuild StructFacts NodeFacts SparseFacts DenseFacts Dense Sparse Surf IterTrie IterDense IterDMove IterSparse CountBits CountTrie CountSparse CountDense CountDLoop IterFacts.
Import ListNotations.

Section It.
Variables (c : config) (K : list bytes).
Notation kk := (kk K). Notation leafl := (leafl K). Notation item := (item K). Notation louds := (louds K).
Notation lab := (lab K). Notation term := (term K). Notation anc := (anc K).
Notation nds := (nds K). Notation height := (height K). Notation nit := (nit K).
Notation lvl := (lvl K). Notation nodeno := (nodeno K). Notation has := (has K).
Let n := length K.
Hypothesis HS : StronglySorted klt K.
Hypothesis HB : Forall is_bytes K.
Hypothesis HE : Forall (fun k => k <> []) K.
Hypothesis HNE : length K <> 0.
Hypothesis HFF : no_lone_ff K.
Variables (st : nat) (f : surf) (e : env).
Hypothesis Hst1 : 1 <= st.
Hypothesis Hst2 : S st <= height.
Hypothesis HD : dense_ok c K st (sf_dense f).
Hypothesis HK : sparse_ok c K st (sf_sparse f).
Hypothesis Hmem : strict_mem e = false.
Notation E := (E K st). Notation path := (path K st). Notation it_at := (it_at K st).

(** no key reaches the sparse part *)
Lemma empty_item : nit st = 0 -> forall x, item st x = false.
Proof.
  intros H x. destruct (item st x) eqn:I; auto. exfalso. pose proof (cn_item_lt K st x I) as Q.
  rewrite H in Q. inversion Q.
Qed.

Lemma empty_height : nit st = 0 -> height = S st.
Proof.
  intros H. destruct (LEN_max K (length K)) as (w & W1 & W2); [lia|]. fold height in W2.
  destruct (le_lt_dec st (leafl w)) as [L|L]; [|lia]. exfalso.
  pose proof (anc_item K st w W1 L) as I. rewrite (empty_item H) in I. discriminate.
Qed.

Lemma empty_louds : nit st = 0 -> forall i, cn (louds st) i = 0.
Proof.
  intros H. induction i as [|i IH]; [reflexivity|]. cbn [cn]. rewrite IH.
  destruct (louds st i) eqn:L; auto. apply louds_item in L. rewrite (empty_item H) in L. discriminate.
Qed.

Lemma empty_first : nit st = 0 -> forall i, s_getFirstLabelPos e (sf_sparse f) (nodeno st i) = Ok 0.
Proof.
  intros H i. unfold s_getFirstLabelPos. rewrite (sk_nc c K st _ HK). unfold CountSparse.nodeno. rewrite (empty_louds H), Nat.add_0_r.
  replace (sm nds st + 1 <? sm nds st) with false by lia. replace (sm nds st + 1 - sm nds st) with 1 by lia.
  destruct (sk_ld c K st _ HK) as (_ & _ & _ & LUT). unfold select, massert.
  replace (1 <=? sl_ones (s_louds (sf_sparse f)) + 1) with true by lia. cbn [Nat.ltb Nat.leb negb andb bind].
  rewrite !andb_false_r. cbn [bind]. rewrite (sk_int c K st _ HK). change (1 / 64) with 0. change (1 mod 64) with 1.
  cbn [Nat.eqb pred_idx bind]. rewrite LUT. reflexivity.
Qed.

Lemma empty_cut : nit st = 0 -> cut_at (s_cuts (sf_sparse f)) st = Ok 4294967295%N.
Proof.
  intros H. rewrite (s_cut c K HNE st (sf_sparse f) e Hst1 Hst2 HK Hmem st) by lia.
  replace (soff K st (S st)) with 0; [reflexivity|]. unfold SparseFacts.soff. cbn [sm]. lia.
Qed.

Lemma s_count_empty : nit st = 0 -> forall itl itr s t inl inr, si_len itl = 0 -> si_len itr = 0 ->
  (forall a, inl = Some a -> a = nodeno st s) -> (forall a, inr = Some a -> a = nodeno st t) ->
  s_approxCount e (sf_sparse f) itl itr inl inr = Ok 0%N.
Proof.
  intros H itl itr s t inl inr LL LR IL IR. unfold s_approxCount. destruct inl as [a|]; [|reflexivity].
  rewrite (IL a eq_refl). rewrite LL, LR. cbn [seq mapM bind map].
  assert (AP : forall x isL, s_appendToPosList e (sf_sparse f) [] (nodeno st x) 0 isL false = Ok ([Some 0], Some 0, false)).
  { intros x isL. unfold s_appendToPosList. rewrite (empty_first H). cbn [bind]. rewrite (sk_st c K st _ HK), Nat.add_0_r, (empty_cut H).
    reflexivity. }
  pose proof (empty_height H) as HH.
  assert (S1 : s_height (sf_sparse f) - s_start (sf_sparse f) = 1).
  { rewrite (sk_h c K st _ HK), (sk_st c K st _ HK). lia. }
  destruct inr as [b|].
  - rewrite (IR b eq_refl). cbn [bind map]. unfold s_extendPosList. cbn [length Nat.min Nat.eqb]. rewrite !AP. cbn [bind].
    cbn [last_pos length pred_idx bind vget nth_error]. rewrite S1. cbn [Nat.sub s_extend_loop bind].
    cbn [s_count_loop]. rewrite (sk_st c K st _ HK), Nat.add_0_r, (empty_cut H). reflexivity.
  - rewrite S1. cbn [bind repeat]. unfold s_extendPosList. cbn [length Nat.min Nat.eqb]. rewrite !AP. cbn [bind].
    cbn [last_pos length pred_idx bind vget nth_error]. rewrite S1. cbn [Nat.sub s_extend_loop bind].
    cbn [s_count_loop]. rewrite (sk_st c K st _ HK), Nat.add_0_r, (empty_cut H). cbn [bind].
    replace (N.to_nat (wrap32 (4294967295 + 1))) with 0 by reflexivity. reflexivity.
Qed.

Hypothesis Hlab : forall m x, m < st -> item m x = true -> term m x = false -> 0 < lab m x < 255.

Lemma has_E : forall i, i < n -> has (st - 1) i = false -> E st i = None.
Proof.
  intros i Hi H. apply (has_deeper K HNE st e Hst1 Hst2 Hmem Hlab (st - 1) i Hi) in H.
  replace (S (st - 1)) with st in H by lia. unfold CountDense.has in H. unfold CountSparse.E. rewrite H. reflexivity.
Qed.

(** enough for the call to stay inside the arrays *)
Definition room (s t : nat) : Prop :=
  nit st = 0 \/
  exists M, st <= M /\ M < height /\ leafl s < M /\ leafl t < M /\ (forall x, s < x -> x <= t -> item M x = false) /\
    E M t <> None.

Variables (s t : nat) (a b : iter).
Hypothesis Hst : s <= t.
Hypothesis Ht : t < n.
Hypothesis HP : has (st - 1) t = true \/ forall x, item (st - 1) x = true -> term (st - 1) x = false.

Theorem count_it : it_at s a -> di_search (it_d a) = (leafl s <? st) -> (leafl s < st -> si_len (it_s a) = 0) -> it_at t b ->
  (N.of_nat n < two64)%N ->
  okB (room s t) (approxCount_it e f a b) (fun k => k = N.of_nat (t - s - 1)).
Proof.
  intros A SE LZ B HN. assert (Hs : s < n) by lia.
  assert (Hh : forall i, i < length K -> leafl i < height).
  { intros i Hi. pose proof (leafl_height K HNE st Hst1 Hst2 i Hi). lia. }
  pose proof (lvl_sum K HNE Hh s t Hst ltac:(unfold n in *; lia)) as SUM.
  pose proof (sm_mono (lvl s t) st height ltac:(lia)) as SMN.
  unfold approxCount_it. rewrite (it_at_valid K st _ _ A), (it_at_valid K st _ _ B). cbn [negb orb].
  destruct A as [DA SA]. destruct B as [DB SB].
  pose proof (proj2 (d_list K HS HE st s (it_d a) Hs DA)) as PA.
  pose proof (proj2 (d_list K HS HE st t (it_d b) Ht DB)) as PB.
  destruct (d_count_ok c K HS HB HE HNE HFF st (sf_dense f) e Hst1 Hst2 HD Hmem Hlab (it_d a) (it_d b) s t Hst Ht PA PB SE HP DA DB)
    as (outl & outr & -> & L1 & L2 & R1 & R2).
  { eapply N.le_lt_trans; [|exact HN]. clear - SUM SMN Ht. lia. }
  cbn [bind].
  assert (LA : si_len (it_s a) = path s /\ slpre K st s (path s) (si_key (it_s a)) (si_pos (it_s a))).
  { unfold CountSparse.path. destruct (Nat.ltb_spec (leafl s) st) as [L|L].
    - replace (S (leafl s) - st) with 0 by (clear - L; lia). split; [auto|]. destruct SA as (_ & _ & X1 & X2 & _). split; auto. split; auto.
      intros m Hm. lia.
    - destruct SA as (_ & X1 & _ & X2). auto. }
  assert (LB : si_len (it_s b) = path t /\ slpre K st t (path t) (si_key (it_s b)) (si_pos (it_s b)) \/
   path t = 0 /\ si_len (it_s b) = 1 /\ exists x, t < x /\ item st x = true /\ cn (item st) x = 0 /\
     slpre K st x 1 (si_key (it_s b)) (si_pos (it_s b))).
  { unfold CountSparse.path. destruct (Nat.ltb_spec (leafl t) st) as [L|L].
    - replace (S (leafl t) - st) with 0 by (clear - L; lia). destruct SB as (_ & _ & X1 & X2 & [X3|X3]); [left|right; auto].
      split; auto. split; auto. split; auto. intros m Hm. lia.
    - left. destruct SB as (_ & X1 & _ & X2). auto. }
  assert (FIN : forall k, k = N.of_nat (sm (lvl s t) height - sm (lvl s t) st) ->
    wrap64 (N.of_nat (sm (lvl s t) st) + k) = N.of_nat (t - s - 1)).
  { intros k ->. unfold wrap64. rewrite N.mod_small; [clear - SUM SMN; lia|]. eapply N.le_lt_trans; [|exact HN]. clear - SUM SMN Ht. lia. }
  assert (PO : forall x, path x = 0 -> leafl x < st) by (clear; intros x; unfold CountSparse.path; lia).
  destruct (Nat.eq_dec (nit st) 0) as [Z|Z].
  - assert (LF : forall x, x < n -> leafl x < st).
    { intros x Hx. destruct (le_lt_dec st (leafl x)) as [L|]; auto. exfalso.
      pose proof (anc_item K st x Hx L) as I. rewrite (empty_item Z) in I. discriminate. }
    rewrite (s_count_empty Z (it_s a) (it_s b) s t outl outr).
    + cbn [bind okB]. apply FIN. assert (ZL : forall d, sm (lvl s t) (st + d) = sm (lvl s t) st); [|].
      { induction d as [|d IH]; [rewrite Nat.add_0_r; reflexivity|]. rewrite Nat.add_succ_r. cbn [sm]. rewrite IH.
        rewrite (lvl_none K HNE Hh s t st (LF s Hs) Ht) by (auto using empty_item; clear; lia). apply Nat.add_0_r. }
      replace height with (st + (height - st)) by lia. rewrite ZL. lia.
    + destruct LA as [LA _]. rewrite LA. unfold CountSparse.path. specialize (LF s Hs). lia.
    + destruct LB as [[LB _]|(_ & _ & x & _ & X & _)]; [|rewrite (empty_item Z) in X; discriminate].
      rewrite LB. unfold CountSparse.path. specialize (LF t Ht). lia.
    + intros x Hx. apply L2; auto.
    + intros x Hx. apply R2; auto.
  - pose proof (s_count_ok c K HNE st (sf_sparse f) e Hst1 Hst2 HK Hmem ltac:(lia) s t Hst Ht
      (room s t)) as SC.
    destruct LA as [LA1 LA2].
    specialize (SC ltac:(intros [X|X]; [contradiction|exact X]) (it_s a) (it_s b) outl outr).
    specialize (SC ltac:(eapply N.le_lt_trans; [|exact HN]; clear - SUM SMN Ht; lia) LA1 LA2).
    specialize (SC ltac:(intros X; apply has_E; auto; apply L1; auto) ltac:(intros x X Y; apply L2; auto)).
    specialize (SC ltac:(intros X; apply has_E; auto; apply R1; auto) ltac:(intros x X Y; apply R2; auto) LB).
    destruct (s_approxCount e (sf_sparse f) (it_s a) (it_s b) outl outr) as [k|er]; cbn [bind okB] in *; auto.
Qed.
End It.
