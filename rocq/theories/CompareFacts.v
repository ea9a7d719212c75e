(** Comparing the key under an iterator with a query. *)
From Coq Require Import Arith List NArith ZArith Bool Lia ZifyN ZifyNat ZifyBool Sorting.Sorted.
From Verif Require Import Res Word Config BitFacts WordFacts Bitvector BitvectorFacts Rank Select
  RankSelectFacts LabelVector LabelFacts Suffix Spec SuffixFacts Builder KeyFacts Trie BuilderFacts
  DenseBuild StructFacts NodeFacts SparseFacts Dense Sparse DenseFacts LookupFacts
  Surf IterTrie IterDense IterDMove IterSparse IterFacts IterKey SeekOrder SuffixOrder.
Import ListNotations.

(** the positive values: 1, or how much longer the first string is *)
Definition far (a b : bytes) (z : Z) : Prop :=
  z = 1%Z \/ (firstn (length b) a = b /\ z + Z.of_nat (length b) <= Z.of_nat (length a))%Z.

Lemma far_pre : forall p a b z, far a b z -> far (p ++ a) (p ++ b) z.
Proof.
  intros p a b z [->|[A B]]; [left; auto|right]. rewrite !app_length. split; [|lia].
  rewrite firstn_app. rewrite firstn_all2 by lia. replace (length p + length b - length p) with (length b) by lia. rewrite A. auto.
Qed.

Lemma far_ext : forall a b x z, far a b z -> far (a ++ x) b z.
Proof.
  intros a b x z [->|[A B]]; [left; auto|right]. rewrite app_length. split; [|lia].
  assert (L : length b <= length a) by (rewrite <- A, firstn_length; lia).
  rewrite firstn_app. replace (length b - length a) with 0 by lia. cbn [firstn]. rewrite app_nil_r. auto.
Qed.

Lemma str_compare_pre : forall a b,
  (str_compare a (firstn (length a) b) = (-1)%Z /\ forall x, klt (a ++ x) b) \/
  ((0 < str_compare a (firstn (length a) b))%Z /\ (forall x, klt b (a ++ x)) /\ far a b (str_compare a (firstn (length a) b))) \/
  (str_compare a (firstn (length a) b) = 0%Z /\ firstn (length a) b = a).
Proof.
  induction a as [|x a IH]; intros b.
  - right. right. split; reflexivity.
  - destruct b as [|y b].
    + right. left. split; [cbn [firstn length str_compare]; lia|]. split; [intros z; exact I|]. right.
      cbn [firstn length str_compare]. split; [reflexivity|lia].
    + cbn [length firstn str_compare app klt].
      destruct (Nat.ltb_spec x y) as [L|L].
      { left. split; [reflexivity|]. intros z. left. exact L. }
      destruct (Nat.ltb_spec y x) as [L2|L2].
      { right. left. split; [lia|]. split; [intros z; left; exact L2|left; reflexivity]. }
      assert (E : x = y) by lia. subst y. destruct (IH b) as [[A B]|[[A [B C]]|[A B]]].
      * left. split; [exact A|]. intros z. right. split; auto.
      * right. left. split; [exact A|]. split; [intros z; right; split; auto|].
        apply (far_pre [x] a b) in C. exact C.
      * right. right. split; [exact A|]. f_equal. exact B.
Qed.

Lemma str_compare_refl : forall a, str_compare a a = 0%Z.
Proof. induction a as [|x a IH]; cbn [str_compare]; [reflexivity|]. rewrite Nat.ltb_irrefl. exact IH. Qed.

Section Cmp.
Variables (c : config) (K : list bytes).
Notation kk := (kk K). Notation lo := (lo K). Notation hi := (hi K). Notation leafl := (leafl K).
Notation item := (item K). Notation child := (child K). Notation louds := (louds K).
Notation leaf := (leaf K). Notation lab := (lab K). Notation term := (term K). Notation anc := (anc K).
Notation height := (height K). Notation NN := (NN K). Notation same_node := (same_node K).
Let n := length K.
Hypothesis HS : StronglySorted klt K.
Hypothesis HB : Forall is_bytes K.
Hypothesis HE : Forall (fun k => k <> []) K.
Hypothesis HNE : length K <> 0.
Hypothesis HFF : no_lone_ff K.
Variables (st : nat) (f : surf) (e : env).
Hypothesis Hst1 : 1 <= st.
Hypothesis Hst2 : S st <= height.
Hypothesis HD : dense_ok c K st (sf_dense f).
Hypothesis HK : sparse_ok c K st (sf_sparse f).
Hypothesis Hmem : strict_mem e = false.
Hypothesis Hshift : strict_shift e = false.
Hypothesis Hlens : lens_ok (cf_type c) (cf_hlen c) (cf_rlen c).
Notation sat := (sat K st). Notation dat := (dat K st). Notation it_at := (it_at K st).

Definition shown (i : nat) : bytes := firstn (S (leafl i)) (kk i).

(** what a comparison of the key number [i] with [q] may return *)
Definition cmp_at (i : nat) (q : bytes) (z : Z) : Prop :=
  (z = (-1)%Z /\ term (leafl i) i = true /\ leafl i < length q /\ (st <= leafl i -> firstn st q = firstn st (kk i))) \/
  (z = (-1)%Z /\ forall x, klt (shown i ++ x) q) \/
  ((0 < z)%Z /\ (forall x, klt q (shown i ++ x)) /\ far (shown i) q z /\
     (term (leafl i) i = true -> leafl i < length q -> st <= leafl i /\ firstn st q <> firstn st (kk i))) \/
  (firstn (S (leafl i)) q = shown i /\ z = cmp_val c (kk i) q (S (leafl i))).

Section Query.
Variable q : bytes.
Hypothesis Hq : is_bytes q.

(** where the shown key is compared in full *)
Lemma shown_eq : forall i, i < n -> (term (leafl i) i = false \/ length q <= leafl i) ->
  firstn (length (shown i)) q = shown i -> firstn (S (leafl i)) q = shown i.
Proof.
  clear Hst1 Hst2 HD HK HFF Hmem Hshift. intros i Hi HT H. unfold shown in *. rewrite firstn_length in H.
  destruct (key_len K HNE i Hi) as [L|[L1 L2]].
  - replace (Nat.min (S (leafl i)) (length (kk i))) with (S (leafl i)) in H by (clear - L; lia). exact H.
  - replace (Nat.min (S (leafl i)) (length (kk i))) with (leafl i) in H by (clear - L2; lia).
    destruct HT as [HT|HT]; [congruence|].
    rewrite <- H. rewrite (firstn_all2 q) by (clear - HT; lia). rewrite (firstn_all2 q) by (clear - HT; lia). reflexivity.
Qed.

Lemma d_cmp : forall i sp, i < n -> leafl i < st -> sp = wrap32 (N.of_nat (dsidx c K (leafl i) i)) ->
  suf_compare e (d_suf (sf_dense f)) sp q (S (leafl i)) = Ok (cmp_val c (kk i) q (S (leafl i))).
Proof.
  intros i sp Hi L ->.
  destruct (leaf_idx c K HNE st Hst1 (leafl i) i L (proj2 (anc_leaf K i Hi))) as [A B].
  apply (suf_compare_spec c e (d_suf (sf_dense f)) _ (dsidx c K (leafl i) i) (kk i) q q (S (leafl i)) (S (leafl i))
    Hshift Hlens (kk_ok K HB i Hi) Hq (dk_suf _ _ _ _ HD) A B eq_refl).
Qed.

Lemma s_cmp : forall i, i < n -> st <= leafl i -> st <= length q ->
  suf_compare e (s_suf (sf_sparse f)) (N.of_nat (ssidx c K st (leafl i) i)) (skipn st q) (S (leafl i) - st) =
    Ok (cmp_val c (kk i) q (S (leafl i))).
Proof.
  intros i Hi L LQ.
  destruct (ssidx_nth c K HNE st e Hst1 Hst2 Hmem (leafl i) i L (proj2 (anc_leaf K i Hi))) as [A B].
  pose proof (sk_suf _ _ _ _ HK) as SR.
  assert (RV : real_val (skipn st q) (S (leafl i) - st) (cf_rlen c) = real_val q (S (leafl i)) (cf_rlen c)).
  { apply real_val_skip; auto. }
  pose proof (suf_compare_spec c e (s_suf (sf_sparse f)) _ (ssidx c K st (leafl i) i) (kk i) q (skipn st q) (S (leafl i))
    (S (leafl i) - st) Hshift Hlens (kk_ok K HB i Hi) (is_bytes_skipn st q Hq) SR A B RV) as Q.
  destruct (cf_type c) eqn:ET in |- *.
  - unfold suf_rel in SR. rewrite ET in SR. rewrite SR in *. rewrite <- Q.
    assert (G : forall x q l, suf_compare e suf_empty x q l = Ok kCouldBePositive)
      by (intros; unfold suf_compare; destruct (_ <=? _)%N; reflexivity).
    rewrite !G. reflexivity.
  - rewrite <- Q. f_equal. symmetry. unfold suf_rel in SR. rewrite ET in SR. eapply suf_idx_small; [apply SR|exact A].
  - rewrite <- Q. f_equal. symmetry. unfold suf_rel in SR. rewrite ET in SR. eapply suf_idx_small; [apply SR|exact A].
  - rewrite <- Q. f_equal. symmetry. unfold suf_rel in SR. rewrite ET in SR. eapply suf_idx_small; [apply SR|exact A].
Qed.

(** a leaf of the dense levels *)
Lemma di_compare_leaf : forall i it, i < n -> leafl i < st -> dat i it ->
  exists z, di_compare e (sf_dense f) it q = Ok z /\ cmp_at i q z.
Proof.
  clear Hst2 HK. intros i it Hi L DA. pose proof (di_suf_pos c K HS HB HE HNE HFF st f e Hst1 HD i it Hi L DA) as (pos & P1 & P2).
  pose proof (di_key_ok K HS HE HNE st Hst1 i it Hi DA) as KO. pose proof (dat_complete K st i _ DA) as DC.
  replace (Nat.min st (S (leafl i))) with (S (leafl i)) in KO by (clear - L; lia). fold (shown i) in KO.
  destruct DA as (V & H). replace (leafl i <? st) with true in * by (clear - L; lia).
  destruct H as (_ & _ & _ & HL & HA & _). unfold di_compare. rewrite HA, HL.
  replace (S (leafl i) - 1) with (leafl i) by (clear; lia). change (0 <? S (leafl i)) with true. rewrite andb_true_r.
  destruct (term (leafl i) i && (leafl i <? length q)) eqn:EC.
  { apply andb_true_iff in EC. destruct EC as [E1 E2]. eexists. split; [reflexivity|]. left.
    apply Nat.ltb_lt in E2. repeat split; auto. intros C. exfalso. clear - L C. lia. }
  rewrite HA in P2. rewrite KO. cbn [bind]. unfold substr. replace (length q <? 0) with false by (clear; lia). cbn [bind].
  rewrite DC, P1. cbn [bind]. rewrite P2. cbn [bind]. rewrite (d_cmp i _ Hi L eq_refl).
  destruct (str_compare_pre (shown i) q) as [[A B]|[[A [B FA]]|[A B]]].
  - cbn [skipn]. rewrite A. exists (-1)%Z. split; [reflexivity|]. right. left. auto.
  - cbn [skipn]. replace (_ =? 0)%Z with false by (clear - A; lia). cbn [negb].
    eexists. split; [reflexivity|]. right. right. left. split; auto. split; auto. split; auto.
    intros T LQ. exfalso. apply andb_false_iff in EC. destruct EC as [EC|EC]; [congruence|]. apply Nat.ltb_ge in EC. clear - EC LQ. lia.
  - cbn [skipn]. rewrite A. eexists. split; [reflexivity|]. right. right. right. split; auto.
    apply shown_eq; auto. apply andb_false_iff in EC. destruct EC as [EC|EC]; auto.
    apply Nat.ltb_ge in EC. auto.
Qed.

(** the dense part of a leaf in the sparse levels *)
Lemma di_compare_part : forall i it, i < n -> st <= leafl i -> dat i it ->
  di_compare e (sf_dense f) it q = Ok (str_compare (firstn st (kk i)) (firstn st q)) /\ length (firstn st (kk i)) = st.
Proof.
  intros i it Hi L DA. pose proof (di_key_ok K HS HE HNE st Hst1 i it Hi DA) as KO.
  pose proof (dat_complete K st i _ DA) as DC. pose proof (leafl_le K i) as LE.
  assert (LF : length (firstn st (kk i)) = st) by (rewrite firstn_length; clear - L LE; lia).
  split; [|exact LF].
  replace (Nat.min st (S (leafl i))) with st in KO by (clear - L; lia).
  destruct DA as (V & H). replace (leafl i <? st) with false in * by (clear - L; lia).
  destruct H as (_ & _ & HA & _). unfold di_compare. rewrite HA. cbn [andb]. rewrite KO. cbn [bind]. rewrite LF.
  unfold substr. replace (length q <? 0) with false by (clear; lia). cbn [bind skipn].
  destruct (Z.eqb_spec (str_compare (firstn st (kk i)) (firstn st q)) 0) as [E|E]; cbn [negb]; auto.
  rewrite DC. reflexivity.
Qed.

Lemma si_compare_leaf : forall i it, i < n -> st <= leafl i -> sat i it -> firstn st q = firstn st (kk i) -> st <= length q ->
  exists z, si_compare e (sf_sparse f) it q = Ok z /\ cmp_at i q z.
Proof.
  intros i it Hi L SA HP LQ. pose proof (si_suf_pos c K HNE st f e Hst1 Hst2 HK Hmem Hshift i it Hi L SA) as (pos & P1 & P2).
  pose proof (si_key_ok K HNE st e Hst1 Hst2 Hmem i it Hi L SA) as KO. pose proof (key_join K HNE st e Hst1 Hst2 Hmem i L) as KJ.
  pose proof (sk_st _ _ _ _ HK) as SST. pose proof (leafl_le K i) as LE.
  replace (Nat.min st (S (leafl i))) with st in KJ by (clear - L; lia). fold (shown i) in KJ.
  destruct SA as (V & HL & HA & _). unfold si_compare. rewrite HA, HL, SST.
  replace (0 <? S (leafl i) - st) with true by (clear - L; lia).
  replace (length q <? st) with false by (clear - LQ; lia). cbn [orb]. rewrite andb_true_r.
  replace (S (leafl i) - st - 1 <? length q - st) with (leafl i <? length q).
  2: { destruct (Nat.ltb_spec (leafl i) (length q)), (Nat.ltb_spec (S (leafl i) - st - 1) (length q - st)); auto; exfalso;
       clear - H H0 L LQ; lia. }
  destruct (term (leafl i) i && (leafl i <? length q)) eqn:EC.
  { apply andb_true_iff in EC. destruct EC as [E1 E2]. eexists. split; [reflexivity|]. left.
    apply Nat.ltb_lt in E2. repeat split; auto. }
  rewrite KO. cbn [bind]. unfold substr_from. replace (length q <? st) with false by (clear - LQ; lia). cbn [bind].
  rewrite P1. cbn [bind]. rewrite P2. cbn [bind]. rewrite (s_cmp i Hi L LQ).
  set (t := firstn (S (leafl i) - st) (skipn st (kk i))) in *.
  assert (QE : q = firstn st q ++ skipn st q) by (symmetry; apply firstn_skipn).
  assert (LF : length (firstn st (kk i)) = st) by (rewrite firstn_length; clear - L LE; lia).
  destruct (str_compare_pre t (skipn st q)) as [[A B]|[[A [B FA]]|[A B]]].
  - rewrite A. exists (-1)%Z. split; [reflexivity|]. right. left. split; auto. intros x. rewrite <- KJ, QE, HP, <- app_assoc.
    apply klt_pre. apply B.
  - replace (_ =? 0)%Z with false by (clear - A; lia). cbn [negb].
    eexists. split; [reflexivity|]. right. right. left. split; auto. generalize dependent (str_compare t (firstn (length t) (skipn st q))).
    intros z A FA. split; [|split].
    + intros x. rewrite <- KJ, QE, HP. rewrite <- app_assoc. apply klt_pre. apply B.
    + rewrite <- KJ, QE, HP. apply far_pre. exact FA.
    + intros T LQ2. exfalso. apply andb_false_iff in EC. destruct EC as [EC|EC]; [congruence|]. apply Nat.ltb_ge in EC. clear - EC LQ2. lia.
  - rewrite A. eexists. split; [reflexivity|]. right. right. right. split; auto.
    apply shown_eq; auto.
    { apply andb_false_iff in EC. destruct EC as [EC|EC]; auto. apply Nat.ltb_ge in EC. auto. }
    rewrite <- KJ at 2. rewrite <- B, <- HP. rewrite <- KJ, app_length, LF.
    rewrite QE at 1. rewrite firstn_app. rewrite firstn_length.
    replace (Nat.min st (length q)) with st by (clear - LQ; lia).
    replace (st + length t - st) with (length t) by (clear; lia).
    rewrite (firstn_all2 (firstn st q)) by (rewrite firstn_length; clear; lia).
    reflexivity.
Qed.

Theorem it_compare_ok : forall i it, i < n -> it_at i it ->
  exists z, it_compare e f it q = Ok z /\ cmp_at i q z.
Proof.
  intros i it Hi HA. unfold it_compare. rewrite (it_at_valid K st i it HA).
  rewrite massert_ok by reflexivity. cbn [bind]. destruct HA as (DA & SA).
  rewrite (dat_complete K st i _ DA). destruct (Nat.ltb_spec (leafl i) st) as [L|L].
  - destruct (di_compare_leaf i _ Hi L DA) as (z & E & C). rewrite E. cbn [bind orb]. exists z. auto.
  - destruct (di_compare_part i _ Hi L DA) as [E LF]. rewrite E. cbn [bind orb].
    pose proof (str_compare_pre (firstn st (kk i)) q) as P. rewrite LF in P.
    assert (SH : exists y, shown i = firstn st (kk i) ++ y).
    { exists (firstn (S (leafl i) - st) (skipn st (kk i))). unfold shown. rewrite <- (key_join K HNE st e Hst1 Hst2 Hmem i L).
      replace (Nat.min st (S (leafl i))) with st by (clear - L; lia). reflexivity. }
    destruct SH as [y SH].
    destruct P as [[A B]|[[A [B FA]]|[A B]]].
    + rewrite A. exists (-1)%Z. split; [reflexivity|]. right. left. split; auto. intros x. rewrite SH, <- app_assoc. apply B.
    + replace (_ =? 0)%Z with false by (clear - A; lia). cbn [negb].
      eexists. split; [reflexivity|]. right. right. left. split; auto. split; [|split].
      * intros x. rewrite SH, <- app_assoc. apply B.
      * rewrite SH. apply far_ext. exact FA.
      * intros _ _. split; auto. intros EQ. rewrite EQ in A. specialize (B []). rewrite app_nil_r in B.
        rewrite str_compare_refl in A. clear - A. lia.
    + rewrite A. cbn [Z.eqb negb]. apply si_compare_leaf; auto.
      assert (LQ : length (firstn st q) = st) by (rewrite B; exact LF). rewrite firstn_length in LQ. clear - LQ. lia.
Qed.
End Query.
End Cmp.
