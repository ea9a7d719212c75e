(** approxCount when the right iterator is not to the right of the left one:
    every level counts nothing. *)
From Coq Require Import Arith List NArith ZArith Bool Lia ZifyN ZifyNat ZifyBool Sorting.Sorted.
From Verif Require LookupFacts.
From Verif Require Import Res Word Config BitFacts WordFacts Bitvector BitvectorFacts Rank Select
  RankSelectFacts LabelVector LabelFacts Suffix Spec SuffixFacts Builder KeyFacts Trie BuilderFacts
  DenseBuild StructFacts NodeFacts SparseFacts DenseFacts Dense Sparse Surf IterTrie IterDense IterDMove IterSparse CountBits CountTrie CountSparse CountDense CountDLoop IterFacts CountIt.
Import ListNotations.

Section Back.
Variables (c : config) (K : list bytes).
Notation kk := (kk K). Notation lo := (lo K). Notation leafl := (leafl K). Notation item := (item K). Notation louds := (louds K).
Notation lab := (lab K). Notation term := (term K). Notation anc := (anc K).
Notation nds := (nds K). Notation height := (height K). Notation nit := (nit K). Notation NN := (NN K).
Notation nodeno := (nodeno K). Notation has := (has K). Notation base := (base K). Notation orig := (orig K).
Notation DD := (DD K). Notation dstart := (dstart K). Notation xi := (xi K). Notation posn := (posn K).
Let n := length K.
Hypothesis HS : StronglySorted klt K.
Hypothesis HB : Forall is_bytes K.
Hypothesis HE : Forall (fun k => k <> []) K.
Hypothesis HNE : length K <> 0.
Variables (st : nat) (e : env).
Hypothesis Hst1 : 1 <= st.
Hypothesis Hst2 : S st <= height.
Hypothesis Hmem : strict_mem e = false.
Notation E := (E K st). Notation path := (path K st). Notation it_at := (it_at K st). Notation ep := (ep K st).
Notation ents := (ents K st). Notation soff := (soff K st).

(** [s] is the left iterator's key, [t] the right one's *)
Variables (s t : nat).
Hypothesis Hts : t <= s.
Hypothesis Hs : s < n.

Lemma anc_right : forall m, t < s -> leafl t < m -> t < anc m s.
Proof.
  intros m H1 H2. destruct (Nat.lt_ge_cases t (anc m s)) as [|G]; auto. exfalso.
  pose proof (anc_between K m s (S t) ltac:(lia)) as Q. unfold Trie.leafl, hi in H2. cbn [Trie.lo] in Q. lia.
Qed.
Lemma anc_order : forall m, anc m t <= anc m s.
Proof.
  intros m. destruct (Nat.le_gt_cases (anc m t) (anc m s)) as [|G]; auto. exfalso.
  pose proof (anc_le K m t) as L. pose proof (anc_between K m s (anc m t) ltac:(lia)) as Q. pose proof (anc_lo K m t). lia.
Qed.
Lemma xi_order : forall m, xi m t <= xi m s.
Proof.
  intros m. unfold CountSparse.xi. destruct (Nat.leb_spec m (leafl t)) as [A|A], (Nat.leb_spec m (leafl s)) as [B|B].
  - apply anc_order.
  - pose proof (anc_le K m t). lia.
  - destruct (Nat.eq_dec t s) as [Q|Q]; [rewrite Q in A; lia|]. pose proof (anc_right m ltac:(lia) A). lia.
  - lia.
Qed.
Lemma ep_order : forall m, ep m t <= ep m s.
Proof.
  intros m. unfold CountSparse.ep. pose proof (cn_mono (item m) (xi m t) (xi m s) (xi_order m)). lia.
Qed.
Lemma has_order : forall m, has m s = true -> has m t = true.
Proof.
  intros m H. unfold CountDense.has in *. destruct (Nat.leb_spec m (leafl t)) as [A|A]; [reflexivity|]. cbn [orb].
  destruct (Nat.eq_dec t s) as [->|Q].
  { destruct (Nat.leb_spec m (leafl s)); [lia|]. exact H. }
  apply Nat.ltb_lt. destruct (Nat.leb_spec m (leafl s)) as [B|B]; cbn [orb] in H.
  - pose proof (anc_right m ltac:(lia) A) as G. pose proof (anc_item K m s Hs B) as I.
    pose proof (cn_item_lt K m _ I) as L. pose proof (cn_mono (item m) (S t) (anc m s) G). lia.
  - apply Nat.ltb_lt in H. pose proof (cn_mono (item m) (S t) (S s) ltac:(lia)). lia.
Qed.

(** ** the sparse part *)
Section Sparse.
Variable sp : sparse.
Hypothesis HK : sparse_ok c K st sp.

Let H := height - st.

Lemma back_loop : forall k i ls rs count o, i + k = H ->
  (forall m, m < length ls -> i + m < H -> nth_error ls m = Some (E (st + (i + m)) s)) ->
  (forall m, m < length rs -> i + m < H -> nth_error rs m = Some (E (st + (i + m)) t)) ->
  (N.of_nat (soff (st + i)) < 4294967296)%N -> 0 < nit st -> (count < two64)%N -> i < H ->
  s_count_loop e sp o i ls rs count = Ok count.
Proof.
  induction k as [|k IH]; intros i ls rs count o HI EL ER F NZ CB LH; [lia|].
  destruct ls as [|l ls]; [reflexivity|]. destruct rs as [|r rs]; [destruct l; reflexivity|].
  pose proof (EL 0 ltac:(cbn; lia) ltac:(lia)) as E0. cbn [nth_error] in E0. rewrite Nat.add_0_r in E0. injection E0 as ->.
  pose proof (ER 0 ltac:(cbn; lia) ltac:(lia)) as E0. cbn [nth_error] in E0. rewrite Nat.add_0_r in E0. injection E0 as ->.
  destruct (E (st + i) s) as [p|] eqn:EE; [|reflexivity].
  assert (Hlast : S i < H).
  { destruct (Nat.eq_dec (S i) H) as [G|G]; [|lia]. pose proof (E_top K HNE st e Hst1 Hst2 Hmem s Hs) as T.
    replace (height - 1) with (st + i) in T by (unfold H in *; lia). congruence. }
  cbn [s_count_loop]. rewrite (sk_st c K st sp HK). rewrite (s_cut c K HNE st sp e Hst1 Hst2 HK Hmem) by (unfold H in *; lia). cbn [bind].
  assert (Ht : t < n) by lia.
  pose proof (slen_fits c K HNE st sp e Hst1 Hst2 HK Hmem) as SF. unfold SparseFacts.slen in SF.
  pose proof (soff_mono K HNE st e Hst1 Hst2 Hmem (S (st + i)) height ltac:(unfold H in *; lia)) as M.
  pose proof (soff_mono K HNE st e Hst1 Hst2 Hmem (S st) (S (st + i)) ltac:(lia)) as M1.
  rewrite (soff_S K HNE st e Hst1 Hst2 Hmem st) in M1 by lia.
  assert (RP : (match E (st + i) t with Some p => p | None => N.to_nat (wrap32 (sub32 (N.of_nat (soff (S (st + i)))) 1 + 1)) end) = ep (st + i) t).
  { destruct (E (st + i) t) as [p'|] eqn:ET; [apply E_some_ep; auto|].
    rewrite (ep_none K HNE st e Hst1 Hst2 Hmem) by (auto; lia).
    rewrite sub32_1 by lia. unfold wrap32, two32. rewrite N.mod_small by lia. lia. }
  rewrite RP. apply E_some_ep in EE. pose proof (ep_order (st + i)) as O.
  replace (p <? ep (st + i) t) with false by lia. cbn [bind].
  unfold wrap64. rewrite N.add_0_r, N.mod_small by auto. apply IH; auto; try lia.
  - intros m Hm1 Hm2. pose proof (EL (S m) ltac:(cbn; lia) ltac:(lia)) as Q. cbn [nth_error] in Q. rewrite Q. do 3 f_equal. lia.
  - intros m Hm1 Hm2. pose proof (ER (S m) ltac:(cbn; lia) ltac:(lia)) as Q. cbn [nth_error] in Q. rewrite Q. do 3 f_equal. lia.
  - replace (st + S i) with (S (st + i)) by lia. lia.
Qed.

Variable B : Prop.
Hypothesis Hpos : 0 < nit st.
Hypothesis HBM : B -> exists M, st <= M /\ M < height /\ leafl t < M /\ leafl s < M /\
  (forall x, t < x -> x <= s -> item M x = false) /\ E M s <> None.
Notation side := (CountSparse.side K st).
Notation safe := (CountSparse.safe K st t s B).

Lemma back_extend : forall k i ll rl lp rp ld rd, i + k = H -> 1 <= i ->
  (B -> exists M, st <= M /\ M < height /\ leafl t < M /\ leafl s < M /\
     (forall x, t < x -> x <= s -> item M x = false) /\ E M s <> None /\ st + i <= S M) ->
  side true i s ll lp ld -> side false i t rl rp rd ->
  okB B (s_extend_loop e sp k i ll rl lp rp ld rd) (fun r => ents s (fst r) /\ ents t (snd r)).
Proof.
  assert (Ht : t < n) by lia.
  induction k as [|k IH]; intros i ll rl lp rp ld rd HI Hi1 HM SL SR; cbn [s_extend_loop].
  - cbn [okB fst snd]. split; [apply SL|apply SR].
  - destruct (optnat_eqb lp rp) eqn:EQ.
    + cbn [okB fst snd]. split; [apply SL|apply SR].
    + assert (SF : (lp <> None \/ rp <> None) -> safe i).
      { intros NN0 b. destruct (HM b) as (M & M1 & M2 & M3 & M4 & M5 & M6 & M7). exists M. repeat (split; [assumption|]).
        destruct (Nat.eq_dec (st + i) (S M)) as [G|G]; [|lia]. exfalso.
        assert (EM : E M t = E M s) by (apply (E_same K HNE st e Hst1 Hst2 Hmem); auto).
        assert (X : forall isL x l p d, x = s \/ x = t -> side isL i x l p d -> p = E M x).
        { intros isL x l p d Hx (A1 & A2 & A3). assert (Hxn : x < n) by lia. destruct p as [q|].
          - destruct A3 as (_ & P1 & P2 & P3 & P4 & P5). rewrite <- P2. f_equal.
            assert (path x <= i) by (unfold CountSparse.path; destruct Hx; subst x; lia). lia.
          - destruct A3 as ((k0 & K0 & K1 & K2 & K3) & P2 & P3).
            assert (NM : E M x <> None) by (destruct Hx as [->| ->]; [|rewrite EM]; auto).
            exfalso. apply (E_none_le K HNE st e Hst1 Hst2 Hmem _ M) in K3; auto. lia. }
        rewrite (X _ _ _ _ _ (or_introl eq_refl) SL), (X _ _ _ _ _ (or_intror eq_refl) SR), EM in EQ.
        destruct (E M s); cbn in EQ; [rewrite Nat.eqb_refl in EQ|]; discriminate. }
      apply (okB_bind B _ _ _ _ (fun r => side true (S i) s (fst (fst r)) (snd (fst r)) (snd r))).
      { apply (extend_one c K HNE st sp e Hst1 Hst2 HK Hmem Hpos t s Hts Hs B HBM); auto; lia. }
      intros [[ll' lp'] ld'] SL'. cbn [fst snd] in SL'.
      apply (okB_bind B _ _ _ _ (fun r => side false (S i) t (fst (fst r)) (snd (fst r)) (snd r))).
      { apply (extend_one c K HNE st sp e Hst1 Hst2 HK Hmem Hpos t s Hts Hs B HBM); auto; lia. }
      intros [[rl' rp'] rd'] SR'. cbn [fst snd] in SR'.
      apply IH; auto; [lia|].
      assert (SF' : safe i).
      { apply SF. destruct lp; [left; discriminate|]. destruct rp; [right; discriminate|]. discriminate. }
      intros b. destruct (SF' b) as (M & M1 & M2 & M3 & M4 & M5 & M6 & M7). exists M. repeat (split; [assumption|]). lia.
Qed.

(** what is known of a list before it is extended *)
Definition start (x : nat) (l : list (option nat)) : Prop :=
  ents x l /\ (forall y, In y l -> y <> None) /\ (length l = path x \/ path x = 0 /\ length l = 1).

Lemma start_side : forall isL x l i, x = s \/ x = t -> start x l -> 1 <= i -> i <= length l -> i <= H ->
  exists q, last_pos l = Ok q /\ side isL i x l q false.
Proof.
  intros isL x l i Hx (E1 & E2 & E3) I1 I2 I3. assert (Hxn : x < n) by lia.
  assert (P : path x < H).
  { pose proof (leafl_height K HNE st Hst1 Hst2 x Hxn). unfold CountSparse.path, H. lia. }
  assert (LH : length l < H).
  { destruct E3 as [E3|[E3 E5]]; [lia|]. rewrite E5. destruct (Nat.eq_dec H 1) as [G|G]; [|lia]. exfalso.
    pose proof (E_top K HNE st e Hst1 Hst2 Hmem x Hxn) as T. replace (height - 1) with st in T by (unfold H in *; lia).
    pose proof (E1 0 ltac:(lia) ltac:(lia)) as Q. rewrite Nat.add_0_r, T in Q. apply nth_error_In in Q. apply E2 in Q. contradiction. }
  pose proof (E1 (length l - 1) ltac:(lia) ltac:(lia)) as Q. destruct (E (st + (length l - 1)) x) as [q|] eqn:EE.
  - exists (Some q). split; [apply (last_nth K HNE st e Hst1 Hst2 Hmem Hpos t s Hts Hs); auto|].
    apply (side_nth K HNE st e Hst1 Hst2 Hmem Hpos t s Hts Hs); auto; lia.
  - exfalso. apply nth_error_In in Q. apply E2 in Q. contradiction.
Qed.

Lemma back_lists : forall ll rl a b, start s ll -> start t rl -> (path s = 0 -> a = nodeno st s) -> (path t = 0 -> b = nodeno st t) ->
  okB B (s_extendPosList e sp ll rl (Some a) (Some b)) (fun r => ents s (fst r) /\ ents t (snd r)).
Proof.
  intros ll rl a b SL SR HA HB'. assert (Ht : t < n) by lia.
  assert (LN : forall x l, x = s \/ x = t -> start x l -> length l <= Nat.max 1 (path x)) by (intros x l _ (_ & _ & Q); lia).
  assert (PH : forall x, x < n -> path x < H).
  { intros x Hx. pose proof (leafl_height K HNE st Hst1 Hst2 x Hx). unfold CountSparse.path, H. lia. }
  pose proof (PH s Hs) as P1. pose proof (PH t Ht) as P2.
  pose proof (LN s ll (or_introl eq_refl) SL) as L1. pose proof (LN t rl (or_intror eq_refl) SR) as L2.
  unfold s_extendPosList. rewrite (sk_h c K st sp HK), (sk_st c K st sp HK).
  assert (HB1 : forall i, i <= Nat.max 1 (Nat.min (length ll) (length rl)) -> B -> exists M, st <= M /\ M < height /\ leafl t < M /\ leafl s < M /\
    (forall x, t < x -> x <= s -> item M x = false) /\ E M s <> None /\ st + i <= S M).
  { intros i Hi b0. destruct (HBM b0) as (M & M1 & M2 & M3 & M4 & M5 & M6). exists M. repeat (split; [assumption|]). unfold CountSparse.path in *. lia. }
  destruct (Nat.eqb_spec (Nat.min (length ll) (length rl)) 0) as [Z|Z].
  2: { cbn [bind]. destruct (start_side true s ll (Nat.min (length ll) (length rl)) (or_introl eq_refl) SL ltac:(lia) ltac:(lia) ltac:(unfold H in *; lia)) as (q & A1 & A2).
       destruct (start_side false t rl (Nat.min (length ll) (length rl)) (or_intror eq_refl) SR ltac:(lia) ltac:(lia) ltac:(unfold H in *; lia)) as (q' & R1 & R2).
       rewrite A1, R1. cbn [bind]. apply back_extend; auto; [unfold H in *; lia|lia|apply HB1; lia]. }
  set (LP := fun r : list (option nat) * bool => exists p, last_pos (fst r) = Ok p /\ side true 1 s (fst r) p (snd r)).
  set (RP := fun r : list (option nat) * bool => exists p, last_pos (fst r) = Ok p /\ side false 1 t (fst r) p (snd r)).
  apply (okB_bind B _ _ _ _ (fun r => LP (fst (fst (fst (fst r))), snd (fst (fst (fst r)))) /\ RP (snd (fst (fst r)), snd (fst r)) /\ snd r = 1)).
  - apply (okB_bind B _ _ _ _ LP).
    + destruct ll as [|x ll0].
      * destruct SL as (_ & _ & SL). cbn [length] in SL. assert (PZ : path s = 0) by lia. rewrite (HA PZ).
        eapply okB_bind; [apply (append_start c K HNE st sp e Hst1 Hst2 HK Hmem Hpos t s Hts Hs B HBM true s); auto|].
        intros [[l p] dn] [A1 A2]. cbn [okB]. exists p. auto.
      * destruct (start_side true s (x :: ll0) 1 (or_introl eq_refl) SL ltac:(lia) ltac:(cbn; lia) ltac:(unfold H in *; lia)) as (q & Q). cbn [okB]. exists q. exact Q.
    + intros [l1 d1] Q1. apply (okB_bind B _ _ _ _ RP).
      * destruct rl as [|x rl0].
        -- destruct SR as (_ & _ & SR). cbn [length] in SR. assert (PZ : path t = 0) by lia. rewrite (HB' PZ).
           eapply okB_bind; [apply (append_start c K HNE st sp e Hst1 Hst2 HK Hmem Hpos t s Hts Hs B HBM false t); auto|].
           intros [[l p] dn] [A1 A2]. cbn [okB]. exists p. auto.
        -- destruct (start_side false t (x :: rl0) 1 (or_intror eq_refl) SR ltac:(lia) ltac:(cbn; lia) ltac:(unfold H in *; lia)) as (q & Q). cbn [okB]. exists q. exact Q.
      * intros [l2 d2] Q2. cbn [okB fst snd]. auto.
  - intros [[[[l1 d1] l2] d2] sd] (Q1 & Q2 & Q3). cbn [fst snd] in Q1, Q2, Q3. subst sd.
    destruct Q1 as (p1 & A1 & A2). destruct Q2 as (p2 & B1 & B2). cbn [fst snd] in *. rewrite A1, B1. cbn [bind].
    apply back_extend; auto; [unfold H in *; lia|]. apply HB1. lia.
Qed.

Definition tail (x : nat) (it : siter) : Prop :=
  si_len it = path x /\ slpre K st x (path x) (si_key it) (si_pos it) \/
  path x = 0 /\ si_len it = 1 /\ exists y, x < y /\ item st y = true /\ cn (item st) y = 0 /\ slpre K st y 1 (si_key it) (si_pos it).

Lemma tail_start : forall x it, x = s \/ x = t -> tail x it ->
  exists p, mapM (vget (si_pos it)) (seq 0 (si_len it)) = Ok p /\ start x (map Some p).
Proof.
  intros x it Hx RT. assert (Hxn : x < n) by lia.
  assert (PH : path x < H).
  { pose proof (leafl_height K HNE st Hst1 Hst2 x Hxn). unfold CountSparse.path, H. lia. }
  assert (SM : forall (p : list nat) y, In y (map Some p) -> y <> None).
  { intros p y Q. apply in_map_iff in Q. destruct Q as (z & <- & _). discriminate. }
  destruct RT as [[R1 R2]|(R1 & R2 & y & R3 & R4 & R5 & R6)].
  - pose proof R2 as (_ & R4 & _). fold H in R4. rewrite mapM_vget by lia. cbn [skipn]. exists (firstn (si_len it) (si_pos it)).
    split; auto. split; [|split; [apply SM|left; rewrite map_length, firstn_length; lia]].
    apply (ents_slpre K HNE st e Hst1 Hst2 Hmem Hpos t s Hts Hs x _ (si_key it)); auto; try lia. rewrite R1; auto.
  - pose proof R6 as (_ & R7 & R8). fold H in R7. rewrite mapM_vget by lia. cbn [skipn]. exists (firstn (si_len it) (si_pos it)).
    split; auto. split; [|split; [apply SM|right; rewrite map_length, firstn_length; lia]].
    intros m Hm1 Hm2. rewrite map_length, firstn_length in Hm1. assert (m = 0) by lia. subst m.
    rewrite nth_error_map, LookupFacts.nth_error_firstn_lt by lia. rewrite (nth_error_nth' (si_pos it) 0) by lia. cbn [option_map]. f_equal.
    rewrite (proj1 (R8 0 ltac:(lia))), Nat.add_0_r.
    rewrite (E_next K HNE st e Hst1 Hst2 Hmem st x y); [|unfold CountSparse.path in *; lia|].
    + rewrite anc_self; auto. apply item_spec in R4. lia.
    + split; auto. split; auto. intros z Y1 Y2. destruct (item st z) eqn:Q; auto.
      pose proof (cn_lt (item st) z y Q Y2). lia.
Qed.

Lemma back_sparse : forall itl itr inl inr, tail s itl -> tail t itr ->
  (inr = None -> inl = None) -> (forall a, inl = Some a -> path s = 0 -> a = nodeno st s) ->
  (forall a, inr = Some a -> path t = 0 -> a = nodeno st t) ->
  okB B (s_approxCount e sp itl itr inl inr) (fun k => k = 0%N).
Proof.
  intros itl itr inl inr TL TR HN HA HB'. unfold s_approxCount. destruct inl as [a|]; [|reflexivity].
  destruct inr as [b|]; [|discriminate (HN eq_refl)].
  destruct (tail_start s itl (or_introl eq_refl) TL) as (p & -> & SL).
  destruct (tail_start t itr (or_intror eq_refl) TR) as (p' & -> & SR). cbn [bind].
  eapply okB_bind; [apply (back_lists _ _ a b SL SR); auto|]. intros [ls rs] [EL ER]. cbn [fst snd] in *.
  assert (G : s_count_loop e sp (length p) 0 ls rs 0%N = Ok 0%N).
  { apply (back_loop H); auto; try reflexivity; [|unfold H; lia].
    unfold SparseFacts.soff. rewrite Nat.add_0_r, Nat.sub_diag. reflexivity. }
  rewrite G. reflexivity.
Qed.
End Sparse.

(** ** the dense part *)
Section Dense.
Variable d : dense.
Hypothesis HD : dense_ok c K st d.
Hypothesis Hlab : forall m x, m < st -> item m x = true -> term m x = false -> 0 < lab m x < 255.

Lemma base_order : forall m, m < st -> has m s = true -> base m t <= base m s.
Proof.
  intros m Hm L. pose proof (has_order m L) as R.
  destruct (Nat.eq_dec t s) as [->|NE]; [lia|]. assert (TS : t < s) by lia. assert (Ht : t < n) by lia.
  destruct (Nat.leb_spec m (leafl t)) as [A|A], (Nat.leb_spec m (leafl s)) as [B|B].
  - unfold CountDense.base. replace (m <=? leafl t) with true by lia. replace (m <=? leafl s) with true by lia.
    apply (posn_le K HS HB HE HNE st e Hst1 Hst2 Hmem Hlab); auto using anc_item, anc_order.
  - destruct (has_next K HNE st e Hst1 Hst2 Hmem Hlab m s L B) as (x & X).
    destruct (base_next K HNE st e Hst1 Hst2 Hmem Hlab m s x B X) as [-> LX].
    unfold CountDense.base. replace (m <=? leafl t) with true by lia.
    pose proof (anc_item K m t Ht A) as I. pose proof (posn_high K HNE st e Hst1 Hst2 Hmem Hlab m _ Hm I) as PH.
    pose proof (anc_le K m t) as AL. destruct X as [X _].
    pose proof (NN_louds K HNE st e Hst1 Hst2 Hmem Hlab m (anc m t) x I LX ltac:(lia)). lia.
  - destruct (has_next K HNE st e Hst1 Hst2 Hmem Hlab m t R A) as (x & X).
    destruct (base_next K HNE st e Hst1 Hst2 Hmem Hlab m t x A X) as [-> LX].
    pose proof (anc_item K m s Hs B) as I. pose proof (anc_right m TS A) as G.
    unfold CountDense.base. replace (m <=? leafl s) with true by lia.
    pose proof (posn_low K HNE st e Hst1 Hst2 Hmem Hlab m (anc m s)) as PL.
    destruct X as (X1 & X2 & X3).
    assert (XA : x <= anc m s) by (destruct (Nat.le_gt_cases x (anc m s)) as [|Q]; auto; rewrite X3 in I by lia; discriminate).
    pose proof (NN_mono K HNE st e Hst1 Hst2 Hmem Hlab m x (anc m s) XA). lia.
  - destruct (has_next K HNE st e Hst1 Hst2 Hmem Hlab m t R A) as (x & X).
    destruct (base_next K HNE st e Hst1 Hst2 Hmem Hlab m t x A X) as [-> LX].
    destruct (has_next K HNE st e Hst1 Hst2 Hmem Hlab m s L B) as (y & Y).
    destruct (base_next K HNE st e Hst1 Hst2 Hmem Hlab m s y B Y) as [-> LY].
    destruct X as (X1 & X2 & X3). destruct Y as (Y1 & Y2 & Y3).
    assert (XA : x <= y) by (destruct (Nat.le_gt_cases x y) as [|Q]; auto; rewrite X3 in Y2 by lia; discriminate).
    pose proof (NN_mono K HNE st e Hst1 Hst2 Hmem Hlab m x y XA). lia.
Qed.

Variables (itl itr : diter).
Hypothesis HLp : di_atprefix itl = pre K st s.
Hypothesis HRp : di_atprefix itr = pre K st t.

Lemma back_level : forall m, m < st -> has m s = true ->
  d_count_level e d itl itr (orig st s) (orig st t) m (dstart m s) (DD t m) = Ok 0%N.
Proof.
  intros m Hm HL. assert (Ht : t < n) by lia. unfold d_count_level. rewrite HLp, HRp.
  rewrite (round_ok K HS HB HE HNE st e Hst1 Hst2 Hmem Hlab m s Hm Hs).
  rewrite (d_cut c K HNE st d Hst1 HD m Hm). cbn [bind]. unfold CountDense.DD. rewrite (has_order m HL).
  rewrite (round_ok K HS HB HE HNE st e Hst1 Hst2 Hmem Hlab m t Hm Ht).
  pose proof (base_order m Hm HL). replace (base m s <? base m t) with false by lia. reflexivity.
Qed.

Lemma back_dloop : forall k m count, m + k = st -> (count < two64)%N ->
  d_count_loop e d itl itr (orig st s) (orig st t) m (map (DD s) (seq m k)) (map (DD t) (seq m k)) count = Ok count.
Proof.
  induction k as [|k IH]; intros m count Hm HC; [reflexivity|].
  cbn [seq map d_count_loop]. unfold CountDense.DD at 1. destruct (has m s) eqn:H; [|reflexivity].
  rewrite (back_level m ltac:(lia) H). cbn [bind]. unfold wrap64. rewrite N.add_0_r, N.mod_small by auto. apply IH; auto. lia.
Qed.

Lemma back_dense : dat K st s itl -> dat K st t itr -> exists outl outr, d_approxCount e d itl itr = Ok (0%N, outl, outr) /\
  (outl = None <-> has (st - 1) s = false) /\ (forall a, outl = Some a -> leafl s < st -> a = nodeno st s) /\
  (outr = None <-> has (st - 1) t = false) /\ (forall a, outr = Some a -> leafl t < st -> a = nodeno st t).
Proof.
  intros DL DR. assert (Ht : t < n) by lia.
  destruct (d_ext c K HS HB HE HNE st d e Hst1 Hst2 HD Hmem Hlab s Hs) as (outl & EL & L1 & L2).
  destruct (d_ext c K HS HB HE HNE st d e Hst1 Hst2 HD Hmem Hlab t Ht) as (outr & ER & R1 & R2).
  exists outl, outr. split; auto. unfold d_approxCount.
  rewrite (proj1 (d_list K HS HE st s itl Hs DL)). cbn [bind]. rewrite EL. cbn [bind].
  rewrite (proj1 (d_list K HS HE st t itr Ht DR)). cbn [bind]. rewrite ER. cbn [bind].
  rewrite !map_length, !seq_length. rewrite (back_dloop st 0 0%N) by reflexivity. reflexivity.
Qed.
End Dense.

(** ** both *)
Variable f : surf.
Hypothesis HD : dense_ok c K st (sf_dense f).
Hypothesis HK : sparse_ok c K st (sf_sparse f).
Hypothesis Hlab : forall m x, m < st -> item m x = true -> term m x = false -> 0 < lab m x < 255.

Lemma at_tail : forall x it, x < n -> it_at x it -> tail x (it_s it).
Proof.
  intros x it Hx [_ SA]. unfold tail, CountSparse.path. destruct (Nat.ltb_spec (leafl x) st) as [L|L].
  - replace (S (leafl x) - st) with 0 by lia. destruct SA as (_ & _ & X1 & X2 & [X3|X3]); [left|right; auto].
    split; auto. split; auto. split; auto. intros m Hm. lia.
  - left. destruct SA as (_ & X1 & _ & X2). auto.
Qed.

Theorem count_back : forall a b, it_at s a -> it_at t b ->
  okB (CountIt.room K st t s) (approxCount_it e f a b) (fun k => k = 0%N).
Proof.
  intros a b A B. assert (Ht : t < n) by lia. unfold approxCount_it.
  rewrite (it_at_valid K st _ _ A), (it_at_valid K st _ _ B). cbn [negb orb].
  pose proof (at_tail s a Hs A) as TA. pose proof (at_tail t b Ht B) as TB. destruct A as [DA _]. destruct B as [DB _].
  pose proof (proj2 (d_list K HS HE st s (it_d a) Hs DA)) as PA.
  pose proof (proj2 (d_list K HS HE st t (it_d b) Ht DB)) as PB.
  destruct (back_dense (sf_dense f) HD Hlab (it_d a) (it_d b) PA PB DA DB) as (outl & outr & -> & L1 & L2 & R1 & R2).
  cbn [bind].
  assert (PO : forall x, path x = 0 -> leafl x < st) by (intros x; unfold CountSparse.path; lia).
  assert (NN0 : outr = None -> outl = None).
  { intros Q. apply R1 in Q. apply L1. destruct (has (st - 1) s) eqn:G; auto. rewrite (has_order _ G) in Q. discriminate. }
  assert (G : okB (CountIt.room K st t s) (s_approxCount e (sf_sparse f) (it_s a) (it_s b) outl outr) (fun k => k = 0%N)).
  { destruct (Nat.eq_dec (nit st) 0) as [Z|Z].
    - assert (EI : forall x, item st x = false).
      { intros x. destruct (item st x) eqn:I; auto. pose proof (cn_item_lt K st x I) as Q. rewrite Z in Q. inversion Q. }
      assert (LF : forall x, x < n -> leafl x < st).
      { intros x Hx. destruct (le_lt_dec st (leafl x)) as [L|]; auto.
        pose proof (anc_item K st x Hx L) as I. rewrite EI in I. discriminate. }
      assert (T0 : forall x it, x < n -> tail x it -> si_len it = 0).
      { intros x it Hx [[T _]|(_ & _ & y & _ & T & _)]; [|rewrite EI in T; discriminate].
        rewrite T. unfold CountSparse.path. specialize (LF x Hx). lia. }
      rewrite (s_count_empty c K HNE st f e Hst1 Hst2 HK Hmem Z (it_s a) (it_s b) s t outl outr); auto; [reflexivity|eauto|eauto].
    - apply (back_sparse (sf_sparse f) HK (CountIt.room K st t s) ltac:(lia)); auto.
      intros [X|X]; [contradiction|exact X]. }
  destruct (s_approxCount e (sf_sparse f) (it_s a) (it_s b) outl outr) as [k|er]; cbn [bind okB] in *; auto. rewrite G. reflexivity.
Qed.
End Back.
