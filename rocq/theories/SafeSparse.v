(** The sparse iterator never faults, whatever key it was sent to: every level
    it holds is the position of a label at that level or deeper, or the first
    position after the last label. *)
From Coq Require Import Arith List NArith ZArith Bool Lia ZifyN ZifyNat ZifyBool Sorting.Sorted.
From Verif Require Import Res Word Config BitFacts WordFacts Bitvector BitvectorFacts Rank Select
  RankSelectFacts LabelVector LabelFacts Suffix Spec SuffixFacts Builder KeyFacts Trie BuilderFacts
  DenseBuild StructFacts NodeFacts SparseFacts Dense Sparse DenseFacts LookupFacts CompareFacts IterTrie IterDense IterDMove
  IterSparse SafeBits SafeDense.
Import ListNotations.

(** ** searchGreaterThan on any window *)
Section SearchAny.
Variables (e : env) (lv : labelvec) (r : nat -> nat) (M : nat).
Hypothesis HR : forall i, i < M -> lv_read e lv i = Ok (r i).

Lemma mid_lt : forall l h, l < h -> l <= (l + h) / 2 < h.
Proof.
  intros l h H. pose proof (Nat.div_mod (l + h) 2 ltac:(lia)). pose proof (Nat.mod_upper_bound (l + h) 2 ltac:(lia)). lia.
Qed.

Definition gt_res (b p n : nat) (x : bool * nat) : Prop :=
  if fst x then p <= snd x < p + n /\ (b < r (snd x) \/ (p < snd x /\ r (snd x - 1) = b)) else snd x = p.

Lemma binary_gt_any : forall t p n, p + n <= M ->
  forall fuel l h, h < l + fuel -> p <= l -> l <= h -> h <= p + n -> h = p + n \/ t < r h ->
  safe (binary_gt_loop e fuel lv t p n l h) (gt_res t p n).
Proof.
  intros t p n HM. induction fuel as [|f IH]; intros l h Hf L1 L2 L3 HH; cbn [binary_gt_loop]; [lia|].
  destruct (Nat.ltb_spec l h) as [L|L].
  - pose proof (mid_lt l h L) as HMid. set (m := (l + h) / 2) in *. rewrite HR by lia. cbn [bind].
    destruct (Nat.ltb_spec t (r m)) as [G|G]; [apply IH; auto; lia|].
    destruct (Nat.eqb_spec t (r m)) as [E|E].
    + destruct (Nat.ltb_spec m (p + n - 1)) as [Q|Q]; apply safe_ok; unfold gt_res; cbn [fst snd]; [|reflexivity].
      split; [lia|]. right. replace (S m - 1) with m by lia. lia.
    + apply IH; auto; lia.
  - destruct (Nat.ltb_spec l (p + n)) as [Q|Q]; apply safe_ok; unfold gt_res; cbn [fst snd]; [|reflexivity].
    split; [lia|]. left. replace l with h by lia. lia.
Qed.

Lemma linear_gt_any : forall t p n, p + n <= M -> safe (linearSearchGreaterThan e lv t p n) (gt_res t p n).
Proof.
  intros t p n HM. unfold linearSearchGreaterThan. rewrite (linear_gt_spec e lv r M HR) by lia.
  apply safe_ok. unfold gt_res, res_of. destruct (ff _ _ _) as [x|] eqn:EF; cbn [fst snd]; [|reflexivity].
  apply ff_some in EF. destruct EF as (A & B & _). split; lia.
Qed.

Lemma search_gt_any : forall b p n, p + n <= M -> 1 <= n ->
  safe (lv_searchGreaterThan e lv b p n) (fun x =>
    if fst x then p <= snd x < p + n /\ (b < r (snd x) \/ (p < snd x /\ r (snd x - 1) = b)) else p <= snd x <= S p).
Proof.
  intros b p n HM H1. unfold lv_searchGreaterThan.
  assert (G : forall p' n', p <= p' -> p' + n' <= M -> p' <= S p -> p' + n' = p + n ->
    safe (if n' <? 3 then linearSearchGreaterThan e lv b p' n' else binarySearchGreaterThan e lv b p' n') (fun x =>
      if fst x then p <= snd x < p + n /\ (b < r (snd x) \/ (p < snd x /\ r (snd x - 1) = b)) else p <= snd x <= S p)).
  { intros p' n' A B C D.
    assert (Q : safe (if n' <? 3 then linearSearchGreaterThan e lv b p' n' else binarySearchGreaterThan e lv b p' n') (gt_res b p' n')).
    { destruct (n' <? 3); [apply linear_gt_any; auto|]. unfold binarySearchGreaterThan. apply binary_gt_any; auto; lia. }
    eapply safe_impl; [exact Q|]. intros [f x]. unfold gt_res. cbn [fst snd]. destruct f; intros; lia. }
  destruct (Nat.ltb_spec 1 n) as [L|L].
  - rewrite HR by lia. cbn [bind]. destruct (r p =? kTerminator); apply G; lia.
  - cbn [bind]. apply G; lia.
Qed.
End SearchAny.

Section SafeSparse.
Variables (c : config) (K : list bytes).
Notation item := (item K). Notation child := (child K). Notation louds := (louds K).
Notation lab := (lab K). Notation term := (term K). Notation height := (height K).
Notation nds := (nds K). Notation NN := (NN K). Notation same_node := (same_node K).
Hypothesis HS : StronglySorted klt K.
Hypothesis HB : Forall is_bytes K.
Hypothesis HE : Forall (fun k => k <> []) K.
Hypothesis HNE : length K <> 0.
Variables (st : nat) (s : sparse) (e : env).
Hypothesis Hst1 : 1 <= st.
Hypothesis Hst2 : S st <= height.
Hypothesis HK : sparse_ok c K st s.
Hypothesis Hmem : strict_mem e = false.
Hypothesis Hsh : strict_shift e = false.
Hypothesis Hlens : lens_ok (cf_type c) (cf_hlen c) (cf_rlen c).
Notation spos := (spos K st). Notation slen := (slen K st). Notation node_win := (node_win K st).
Notation rd := (rd s e).

(** zero bytes follow the last label *)
Definition zeros : Prop := rd slen = 0 /\ (64 < slen -> forall x, slen <= x < slen + 64 -> rd x = 0).
Hypothesis HZ : zeros.

Lemma s_suf_fit : suf_fit (s_suf s).
Proof. destruct HK. eapply suf_rel_fit; eauto. Qed.

(** ** positions *)
Definition sgood (j p : nat) : Prop :=
  (p < slen \/ (p = slen /\ slen < 64 * num_words slen)) /\ exists l i, st + j <= l /\ item l i = true /\ spos l i <= p.

Lemma sgood_item : forall j p, sgood j p -> p < slen -> exists l i, st + j <= l /\ item l i = true /\ p = spos l i.
Proof.
  intros j p (_ & l & i & A & B & C) Hp. destruct (spos_inv K HNE st Hst1 Hst2 p Hp) as (l' & i' & A' & B' & C').
  exists l', i'. split; [|auto]. destruct (le_lt_dec l l') as [|G]; [lia|]. exfalso.
  pose proof (spos_level K HNE st Hst1 Hst2 l' i' l A' B' G) as Q. unfold SparseFacts.spos in C, C', Q. lia.
Qed.

Lemma item_good : forall j l i, st + j <= l -> item l i = true -> sgood j (spos l i).
Proof.
  intros j l i Hl HI. split; [left; apply (spos_lt K HNE st Hst1 Hst2); auto; lia|]. exists l, i. auto.
Qed.

Lemma sgood_lt : forall j p, sgood j p -> j < height - st.
Proof. intros j p (_ & l & i & A & B & _). pose proof (item_height K HNE st Hst1 Hst2 l i B). lia. Qed.

Lemma past_end : slen < 64 * num_words slen -> past e slen slen.
Proof. intros H. split; auto. Qed.

Lemma CH_len : length (cc (schild K) st height) = slen.
Proof. apply cc_len; [lia|apply schild_n]. Qed.

Lemma sgood_label : forall j p, sgood j p -> exists b, lv_read e (s_labels s) p = Ok b /\ (p = slen -> b = 0).
Proof.
  intros j p (G & _). exists (rd p). split; [apply (rd_ok c K HNE st s e Hst1 Hst2 HK Hmem); lia|]. intros ->. exact (proj1 HZ).
Qed.

Lemma sgood_child : forall j p, sgood j p -> exists r, s_readChild e s p = Ok r /\
  (r = true -> exists l i, st + j <= l /\ child l i = true /\ p = spos l i).
Proof.
  intros j p G. pose proof G as ([Hp|[-> Hp]] & _).
  - destruct (sgood_item j p G Hp) as (l & i & A & B & ->). rewrite (s_child_read c K HNE st s e Hst1 Hst2 HK) by (auto; lia).
    eexists. split; [reflexivity|]. intros R. exists l, i. auto.
  - exists false. split; [|discriminate]. unfold s_readChild. destruct (sk_ch _ _ _ _ HK) as [R _].
    rewrite (readBit_past e _ _ slen R); [reflexivity|]. rewrite CH_len. apply past_end; auto.
Qed.

Lemma sgood_louds : forall j p, sgood j p -> exists r, s_readLouds e s p = Ok r /\ (r = false -> 1 <= p /\ sgood j (p - 1)).
Proof.
  intros j p G. pose proof G as ([Hp|[-> Hp]] & H2).
  - destruct (sgood_item j p G Hp) as (l & i & A & B & ->). rewrite (s_louds_read c K HNE st s e Hst1 Hst2 HK) by (auto; lia).
    eexists. split; [reflexivity|]. intros R.
    assert (NZ : cn (item l) i <> 0) by (intros Z; rewrite (first_item_louds K HNE l i B Z) in R; discriminate).
    destruct (bsearch (item l) i 0) as [(i0 & X & Y & _)|N0]; [|exfalso; apply NZ; apply cn_zero; intros; apply N0; lia].
    pose proof (spos_mono K HNE st Hst1 Hst2 l i0 i Y ltac:(lia)) as SM. split; [lia|]. split; [left; lia|].
    exists l, i0. split; auto. split; auto. lia.
  - exists false. split.
    + unfold s_readLouds. destruct (sk_ld _ _ _ _ HK) as [R _]. rewrite (readBit_past e _ _ slen R); [reflexivity|].
      rewrite (LD_len K HNE st Hst1 Hst2). apply past_end; auto.
    + intros _. destruct H2 as (l & i & A & B & C). pose proof (spos_lt K HNE st Hst1 Hst2 l i ltac:(lia) B). split; [lia|].
      split; [left; lia|]. exists l, i. repeat split; auto. lia.
Qed.

Lemma sgood_suffix : forall j p, sgood j p -> exists v, s_getSuffixPos e s p = Ok v.
Proof.
  intros j p G. unfold s_getSuffixPos. pose proof G as ([Hp|[-> Hp]] & _).
  - destruct (sgood_item j p G Hp) as (l & i & A & B & ->). rewrite (s_child_rank c K HNE st s e Hst1 Hst2 HK) by (auto; lia).
    cbn [bind]. eauto.
  - destruct (rank_past e _ _ slen (sk_ch _ _ _ _ HK)) as (m & ->); [rewrite CH_len; apply past_end; auto|]. cbn [bind]. eauto.
Qed.

Lemma sgood_end : forall j p b, sgood j p -> lv_read e (s_labels s) p = Ok b ->
  exists r, (if b =? kTerminator then x <- s_isEndofNode e s p ;; Ok (negb x) else Ok false) = Ok r.
Proof.
  intros j p b G EB. destruct (Nat.eqb_spec b kTerminator) as [->|]; [|eauto].
  assert (Hp : p < slen).
  { destruct (sgood_label j p G) as (b' & EB' & HZ'). rewrite EB in EB'. injection EB' as <-.
    pose proof G as ([Hp|[Hp _]] & _); auto. specialize (HZ' Hp). discriminate. }
  rewrite (end_of_node c K HNE st s e Hst1 Hst2 HK) by auto. unfold up_flag.
  rewrite (s_numBits_eq c K HNE st s Hst1 Hst2 HK). destruct (Nat.leb_spec slen (S p)) as [L|L]; [cbn [bind]; eauto|].
  rewrite (LD_read c K HNE st s e Hst1 Hst2 HK) by auto. cbn [bind]. eauto.
Qed.

(** ** the vectors of the iterator *)
Definition svec (len : nat) (k p : list nat) : Prop :=
  length k = height - st /\ length p = height - st /\ len <= height - st /\ forall j, j < len -> sgood j (nth j p 0).

Lemma svec_le : forall len len' k p, svec len k p -> len' <= len -> svec len' k p.
Proof. intros len len' k p (A & B & C & D) H. repeat split; auto; try lia; apply D; lia. Qed.

Lemma sset_vec : forall len k p b pos, svec len k p -> sgood len pos -> svec (S len) (lset k len b) (lset p len pos).
Proof.
  intros len k p b pos (A & B & C & D) G. pose proof (sgood_lt _ _ G) as L.
  split; [rewrite lset_length; auto|]. split; [rewrite lset_length; auto|]. split; [lia|]. intros j Hj.
  rewrite lset_nth, B. destruct (Nat.eqb_spec j len) as [->|NE]; [replace (len <? height - st) with true by lia; exact G|].
  cbn [andb]. apply D. lia.
Qed.

(** append when there is room; the position need not be good *)
Lemma sappendL_raw : forall it b pos, length (si_key it) = height - st -> length (si_pos it) = height - st -> si_len it < height - st ->
  si_appendL e it b pos = Ok (si_setLen (si_setKP it (lset (si_key it) (si_len it) b) (lset (si_pos it) (si_len it) pos)) (S (si_len it))).
Proof.
  intros it b pos A B L. unfold si_appendL. rewrite massert_ok by lia. cbn [bind]. rewrite !vset_ok by lia. reflexivity.
Qed.

Lemma sappendL_safe : forall it b pos, svec (si_len it) (si_key it) (si_pos it) -> sgood (si_len it) pos ->
  exists k p, si_appendL e it b pos = Ok (si_setLen (si_setKP it k p) (S (si_len it))) /\ svec (S (si_len it)) k p /\
    nth (si_len it) p 0 = pos.
Proof.
  intros it b pos V G. pose proof V as (A & B & _). pose proof (sgood_lt _ _ G) as L.
  rewrite sappendL_raw by auto. eexists _, _. split; [reflexivity|]. split; [apply sset_vec; auto|].
  rewrite lset_nth, Nat.eqb_refl, B. replace (_ <? _) with true by lia. reflexivity.
Qed.

Record ssafe (it : siter) : Prop := mkSsafe {
  ss_vec : svec (si_len it) (si_key it) (si_pos it);
  ss_val : si_valid it = true -> 1 <= si_len it }.

Lemma at_leaf_safe : forall it j b p, svec (si_len it) (si_key it) (si_pos it) -> 1 <= si_len it -> sgood j p ->
  lv_read e (s_labels s) p = Ok b -> safe (si_at_leaf e s it b p) (fun it' => ssafe it' /\ si_valid it' = true).
Proof.
  intros it j b p V H1 G EB. unfold si_at_leaf. destruct (sgood_end j p b G EB) as (r & ->). cbn [bind].
  apply safe_ok. destruct r; (split; [constructor; scbn; auto|reflexivity]).
Qed.

(** ** down a subtrie *)
Lemma left_loop_safe : forall n it l i, height <= n + l -> st + si_len it <= S l -> st <= l -> child l i = true ->
  svec (si_len it) (si_key it) (si_pos it) ->
  safe (si_left_loop e s n it (spos l i)) (fun it' => ssafe it' /\ si_valid it' = true).
Proof.
  induction n as [|n IH]; intros it l i Hn Hl Hst C V; cbn [si_left_loop].
  { pose proof (item_height K HNE st Hst1 Hst2 l i (child_item K l i C)). lia. }
  rewrite (s_child_node c K HNE st s e Hst1 Hst2 HK) by auto. cbn [bind]. pose proof C as L. rewrite child_louds in L.
  rewrite (s_first_pos c K HNE st s e Hst1 Hst2 HK) by (auto; lia). cbn [bind]. pose proof (louds_item K _ _ L) as I.
  rewrite (s_lab_read c K HNE st s e Hst1 Hst2 HK) by (auto; lia). cbn [bind].
  rewrite (s_child_read c K HNE st s e Hst1 Hst2 HK) by (auto; lia). cbn [bind].
  pose proof (item_good (si_len it) (S l) i ltac:(lia) I) as G.
  destruct (sappendL_safe it (lab (S l) i) _ V G) as (k & p & EA & W & _). rewrite EA. cbn [bind].
  destruct (child (S l) i) eqn:EC; cbn [negb].
  - apply IH; scbn; auto; lia.
  - eapply at_leaf_safe; scbn; eauto; try lia. apply (s_lab_read c K HNE st s e Hst1 Hst2 HK); auto; lia.
Qed.

Definition entry (it : siter) : Prop := si_len it = 0 -> exists x, louds st x = true /\ si_start it = NN st x.

Lemma move_left_safe : forall it, svec (si_len it) (si_key it) (si_pos it) -> entry it ->
  safe (si_moveToLeftMostKey e s it) (fun it' => ssafe it' /\ si_valid it' = true).
Proof.
  intros it V HEn. unfold si_moveToLeftMostKey.
  assert (Q : safe (if si_len it =? 0 then
           pos <- s_getFirstLabelPos e s (si_start it) ;; label <- lv_read e (s_labels s) pos ;; si_appendL e it label pos
         else Ok it) (fun it' => svec (si_len it') (si_key it') (si_pos it') /\ 1 <= si_len it')).
  { destruct (Nat.eqb_spec (si_len it) 0) as [E0|E0]; [|apply safe_ok; split; auto; lia].
    destruct (HEn E0) as (x & L & ->). rewrite (s_first_pos c K HNE st s e Hst1 Hst2 HK) by auto. cbn [bind].
    pose proof (louds_item K _ _ L) as I. rewrite (s_lab_read c K HNE st s e Hst1 Hst2 HK) by auto. cbn [bind].
    pose proof (item_good 0 st x ltac:(lia) I) as G. rewrite <- E0 in G.
    destruct (sappendL_safe it (lab st x) _ V G) as (k & p & EA & W & _). rewrite EA. apply safe_ok. scbn. split; auto. lia. }
  eapply safe_bind; [exact Q|]. clear it V HEn Q. intros it (V & H1). destruct (si_len it) as [|m] eqn:EL; [lia|].
  cbn [pred_idx bind]. pose proof V as (V1 & V2 & V3 & V4). rewrite (vget_ok _ _ m 0) by lia. cbn [bind].
  pose proof (V4 m ltac:(lia)) as G. destruct (sgood_label _ _ G) as (b & EB & _). rewrite EB. cbn [bind].
  destruct (sgood_child _ _ G) as (r & ER & HR). rewrite ER. cbn [bind]. rewrite <- EL in V. destruct r; cbn [negb].
  - destruct (HR eq_refl) as (l & i & A & C & EP). rewrite EP. apply left_loop_safe; auto; try lia.
    destruct HK as [HH _]. lia.
  - eapply at_leaf_safe; eauto; lia.
Qed.

Lemma last_of_node : forall l j, louds l j = true -> exists x, j <= x /\ item l x = true /\ same_node l j x /\ no_later_item K l x.
Proof.
  intros l j L.
  assert (G : forall d x, length K - x <= d -> j <= x -> item l x = true -> same_node l j x ->
    exists x, j <= x /\ item l x = true /\ same_node l j x /\ no_later_item K l x).
  { induction d as [|d IH]; intros x Hd Hj HI HN; pose proof (item_lt K l x HI) as Hx; [lia|].
    destruct (bsearch (item l) (length K - S x) (S x)) as [(x' & A & B & C)|N0].
    - destruct (louds l x') eqn:EL.
      + exists x. repeat split; auto. intros y Hy IY SN. destruct (lt_eq_lt_dec y x') as [[Y|Y]|Y].
        * rewrite C in IY by lia. discriminate.
        * subst y. rewrite (SN x') in EL by lia. discriminate.
        * rewrite (SN x') in EL by lia. discriminate.
      + apply (IH x'); auto; try lia. intros m Hm. destruct (le_lt_dec m x) as [Y|Y]; [apply HN; lia|].
        destruct (Nat.eq_dec m x') as [->|]; auto. destruct (louds l m) eqn:EM; auto. apply louds_item in EM.
        rewrite C in EM by lia. discriminate.
    - exists x. repeat split; auto. intros y Hy IY SN. pose proof (item_lt K l y IY). rewrite N0 in IY by lia. discriminate. }
  apply (G (length K) j); auto; try lia; [apply louds_item; auto|]. intros m Hm. lia.
Qed.

Lemma last_pos_safe : forall l j, st <= l -> louds l j = true ->
  exists x, item l x = true /\ s_getLastLabelPos e s (NN l j) = Ok (spos l x).
Proof.
  intros l j Hl L. destruct (last_of_node l j L) as (x & A & B & C & D). exists x. split; auto.
  rewrite <- (NN_same K l j x A C). apply (s_last_pos c K HNE st s e Hst1 Hst2 HK); auto.
Qed.

Lemma right_loop_safe : forall n it l i, height <= n + l -> st + si_len it <= S l -> st <= l -> child l i = true ->
  svec (si_len it) (si_key it) (si_pos it) ->
  safe (si_right_loop e s n it (spos l i)) (fun it' => ssafe it' /\ si_valid it' = true).
Proof.
  induction n as [|n IH]; intros it l i Hn Hl Hst C V; cbn [si_right_loop].
  { pose proof (item_height K HNE st Hst1 Hst2 l i (child_item K l i C)). lia. }
  rewrite (s_child_node c K HNE st s e Hst1 Hst2 HK) by auto. cbn [bind]. pose proof C as L. rewrite child_louds in L.
  destruct (last_pos_safe (S l) i ltac:(lia) L) as (x & I & EX). rewrite EX. cbn [bind].
  rewrite (s_lab_read c K HNE st s e Hst1 Hst2 HK) by (auto; lia). cbn [bind].
  rewrite (s_child_read c K HNE st s e Hst1 Hst2 HK) by (auto; lia). cbn [bind].
  pose proof (item_good (si_len it) (S l) x ltac:(lia) I) as G.
  destruct (sappendL_safe it (lab (S l) x) _ V G) as (k & p & EA & W & _). rewrite EA. cbn [bind].
  destruct (child (S l) x) eqn:EC; cbn [negb].
  - apply IH; scbn; auto; lia.
  - eapply at_leaf_safe; scbn; eauto; try lia. apply (s_lab_read c K HNE st s e Hst1 Hst2 HK); auto; lia.
Qed.

Lemma move_right_safe : forall it, svec (si_len it) (si_key it) (si_pos it) -> entry it ->
  safe (si_moveToRightMostKey e s it) (fun it' => ssafe it' /\ si_valid it' = true).
Proof.
  intros it V HEn. unfold si_moveToRightMostKey.
  assert (Q : safe (if si_len it =? 0 then
           _ <- s_getFirstLabelPos e s (si_start it) ;; pos <- s_getLastLabelPos e s (si_start it) ;;
           label <- lv_read e (s_labels s) pos ;; si_appendL e it label pos
         else Ok it) (fun it' => svec (si_len it') (si_key it') (si_pos it') /\ 1 <= si_len it')).
  { destruct (Nat.eqb_spec (si_len it) 0) as [E0|E0]; [|apply safe_ok; split; auto; lia].
    destruct (HEn E0) as (x & L & ->). rewrite (s_first_pos c K HNE st s e Hst1 Hst2 HK) by auto. cbn [bind].
    destruct (last_pos_safe st x ltac:(lia) L) as (y & I & EX). rewrite EX. cbn [bind].
    rewrite (s_lab_read c K HNE st s e Hst1 Hst2 HK) by auto. cbn [bind].
    pose proof (item_good 0 st y ltac:(lia) I) as G. rewrite <- E0 in G.
    destruct (sappendL_safe it (lab st y) _ V G) as (k & p & EA & W & _). rewrite EA. apply safe_ok. scbn. split; auto. lia. }
  eapply safe_bind; [exact Q|]. clear it V HEn Q. intros it (V & H1). destruct (si_len it) as [|m] eqn:EL; [lia|].
  cbn [pred_idx bind]. pose proof V as (V1 & V2 & V3 & V4). rewrite (vget_ok _ _ m 0) by lia. cbn [bind].
  pose proof (V4 m ltac:(lia)) as G. destruct (sgood_label _ _ G) as (b & EB & _). rewrite EB. cbn [bind].
  destruct (sgood_child _ _ G) as (r & ER & HR). rewrite ER. cbn [bind]. rewrite <- EL in V. destruct r; cbn [negb].
  - destruct (HR eq_refl) as (l & i & A & C & EP). rewrite EP. apply right_loop_safe; auto; try lia.
    destruct HK as [HH _]. lia.
  - eapply at_leaf_safe; eauto; lia.
Qed.

(** ** ++ and -- *)
Lemma sset_safe : forall it m pos, svec m (si_key it) (si_pos it) -> sgood m pos ->
  exists k p, si_set e s it m pos = Ok (si_setKP it k p) /\ svec (S m) k p.
Proof.
  intros it m pos V G. pose proof V as (A & B & _). pose proof (sgood_lt _ _ G) as L. unfold si_set.
  rewrite massert_ok by lia. cbn [bind]. destruct (sgood_label _ _ G) as (b & EB & _). rewrite EB. cbn [bind].
  rewrite !vset_ok by lia. cbn [bind]. eexists _, _. split; [reflexivity|]. apply sset_vec; auto.
Qed.

(** the deepest position may lie behind the labels *)
Definition tvec (len : nat) (k p : list nat) : Prop :=
  length k = height - st /\ length p = height - st /\ len <= height - st /\
  forall j, j < len -> sgood j (nth j p 0) \/ (S j = len /\ slen <= nth j p 0).

Lemma svec_t : forall len k p, svec len k p -> tvec len k p.
Proof. intros len k p (A & B & C & D). repeat split; auto. Qed.

Lemma next_loop_safe : forall len it, tvec len (si_key it) (si_pos it) -> safe (si_next_loop e s it len) ssafe.
Proof.
  induction len as [|l IH]; intros it V; cbn [si_next_loop].
  { apply safe_ok. constructor; scbn; [|discriminate]. destruct V as (A & B & C & _). repeat split; auto; intros; lia. }
  pose proof V as (A & B & C & D). rewrite (vget_ok _ _ l 0) by lia. cbn [bind].
  assert (V' : svec l (si_key it) (si_pos it)).
  { split; auto. split; auto. split; [lia|]. intros j Hj. destruct (D j ltac:(lia)) as [|[? _]]; auto. lia. }
  rewrite (s_numBits_eq c K HNE st s Hst1 Hst2 HK). destruct (Nat.leb_spec slen (S (nth l (si_pos it) 0))) as [L|L].
  - cbn [bind]. apply IH. apply svec_t. auto.
  - rewrite (LD_read c K HNE st s e Hst1 Hst2 HK) by auto. cbn [bind]. destruct (nth _ _ false); [apply IH; apply svec_t; auto|].
    assert (G : sgood l (S (nth l (si_pos it) 0))).
    { destruct (D l ltac:(lia)) as [(_ & l' & i & G1 & G2 & G3)|[_ ?]]; [|lia]. split; [left; auto|]. exists l', i. repeat split; auto; lia. }
    destruct (sset_safe (si_setLen it (S l)) l _ V' G) as (k & p & ES & W). rewrite ES. cbn [bind].
    eapply safe_impl; [apply move_left_safe; scbn; auto; intros H; scbn; discriminate|]. intros x (X & _). exact X.
Qed.

Lemma si_next_safe : forall it, tvec (si_len it) (si_key it) (si_pos it) -> 1 <= si_len it -> safe (si_next e s it) ssafe.
Proof.
  intros it V H. unfold si_next. rewrite massert_ok by lia. cbn [bind].
  destruct (si_len it) as [|m]; [lia|]. cbn [pred_idx bind]. apply next_loop_safe. scbn. auto.
Qed.

Lemma prev_loop_safe : forall len it, svec len (si_key it) (si_pos it) -> safe (si_prev_loop e s it len) ssafe.
Proof.
  induction len as [|l IH]; intros it V; cbn [si_prev_loop].
  { apply safe_ok. constructor; scbn; [auto|discriminate]. }
  pose proof V as (A & B & C & D). rewrite (vget_ok _ _ l 0) by lia. cbn [bind].
  destruct (sgood_louds l _ (D l ltac:(lia))) as (r & ER & HR). rewrite ER. cbn [bind]. destruct r.
  - apply IH. eapply svec_le; eauto.
  - destruct (HR eq_refl) as (H1 & G). unfold pred_idx at 1. destruct (nth l (si_pos it) 0) as [|p0] eqn:EP; [lia|]. cbn [bind].
    replace (S p0 - 1) with p0 in G by lia.
    destruct (sset_safe (si_setLen it (S l)) l p0 (svec_le _ l _ _ V ltac:(lia)) G) as (k & p & ES & W). rewrite ES. cbn [bind].
    eapply safe_impl; [apply move_right_safe; scbn; auto; intros H; discriminate|]. intros x (X & _). exact X.
Qed.

Lemma s_last_safe : forall it, svec (si_len it) (si_key it) (si_pos it) -> 1 <= si_len it ->
  exists p j, si_lastpos it = Ok p /\ sgood j p.
Proof.
  intros it (A & B & C & D) H. unfold si_lastpos. destruct (si_len it) as [|m]; [lia|]. cbn [pred_idx bind].
  rewrite (vget_ok _ _ m 0) by lia. exists (nth m (si_pos it) 0), m. split; auto.
Qed.

Lemma si_prev_safe : forall it, svec (si_len it) (si_key it) (si_pos it) -> 1 <= si_len it -> safe (si_prev e s it) ssafe.
Proof.
  intros it V H. unfold si_prev. rewrite massert_ok by lia. cbn [bind].
  destruct (s_last_safe it V H) as (p & j & EP & G). rewrite EP. cbn [bind]. destruct (p =? 0).
  - apply safe_ok. constructor; scbn; [auto|discriminate].
  - apply prev_loop_safe. scbn. auto.
Qed.

(** ** seeks *)
Lemma next_subtrie_safe : forall it l j N b q, st <= l -> louds l j = true -> node_win l j N ->
  lv_search e (s_labels s) b (spos l j) N = Ok (false, q) ->
  svec (si_len it) (si_key it) (si_pos it) -> st + si_len it <= l ->
  safe (s_moveToLeftInNextSubtrie e s q N b it) ssafe.
Proof.
  intros it l j N b q Hl L W ES V Hlen. unfold s_moveToLeftInNextSubtrie.
  pose proof (louds_item K l j L) as I. pose proof (w_pos _ _ _ _ _ W) as WP. pose proof (w_end _ _ _ _ _ W) as WE.
  pose proof (num_words_le slen) as NW. pose proof (item_height K HNE st Hst1 Hst2 l j I) as HH.
  pose proof (node_not_last K HNE st Hst1 Hst2 l j Hl L) as NL.
  pose proof (search_ff c K HS HB HE HNE st s e Hst1 Hst2 HK Hmem l j N Hl L W b) as Q. rewrite ES in Q.
  pose proof (win_sum K HNE st e Hst1 Hst2 Hmem l j N Hl L W) as WS. 
  set (p := if term l j then S (spos l j) else spos l j) in *. set (m := if term l j then N - 1 else N) in *.
  assert (PQ : spos l j <= p <= S (spos l j)) by (unfold p; destruct (term l j); lia).
  unfold res_of in Q. destruct (ff _ _ _) eqn:EF; [discriminate|]. injection Q as ->. rewrite ff_none in EF.
  assert (B : p + N <= slen + 80) by lia.
  eapply safe_bind; [apply (search_gt_any e (s_labels s) rd (slen + 80) (rd_ok c K HNE st s e Hst1 Hst2 HK Hmem)); auto|].
  intros [f x]. cbn [fst snd]. destruct f; cbn [negb].
  - intros (X1 & X2).
    assert (X3 : x < slen).
    { destruct (le_lt_dec slen x) as [G|G]; auto. exfalso.
      assert (ZX : rd x = 0).
      { destruct HZ as [Z1 Z2]. destruct (Nat.eq_dec x slen) as [->|NE]; auto. apply Z2; lia. }
      destruct X2 as [X2|[X2 X3]]; [lia|]. specialize (EF (x - 1) ltac:(lia)). cbn beta in EF. lia. }
    assert (G : sgood (si_len it) x) by (split; [left; auto|]; exists l, j; repeat split; auto; lia).
    unfold si_append. destruct (sgood_label _ _ G) as (lb & EB & _). rewrite EB. cbn [bind].
    destruct (sappendL_safe it lb x V G) as (k & pp & EA & U & _). rewrite EA. cbn [bind].
    eapply safe_impl; [apply move_left_safe; scbn; auto; intros H; discriminate|]. intros y (Y & _). exact Y.
  - intros X. unfold pred_idx at 1. destruct (x + N) as [|p1] eqn:EP; [lia|]. cbn [bind]. unfold si_append.
    rewrite (rd_ok c K HNE st s e Hst1 Hst2 HK Hmem) by lia. cbn [bind]. pose proof V as (V1 & V2 & V3 & V4).
    rewrite sappendL_raw by (auto; lia). cbn [bind]. apply si_next_safe; scbn; [|lia].
    split; [rewrite lset_length; auto|]. split; [rewrite lset_length; auto|]. split; [lia|]. intros i Hi.
    rewrite lset_nth, V2. destruct (Nat.eqb_spec i (si_len it)) as [->|NE].
    + replace (si_len it <? height - st) with true by lia. cbn [andb].
      destruct (le_lt_dec slen p1) as [G|G]; [right; auto|left]. split; [left; auto|]. exists l, j. repeat split; auto; lia.
    + cbn [andb]. left. apply V4. lia.
Qed.

Lemma compare_suffix_safe : forall it j p k level, is_bytes k -> svec (si_len it) (si_key it) (si_pos it) -> 1 <= si_len it -> sgood j p ->
  safe (s_compareSuffixGreaterThan e s p k level it) (fun r => ssafe (snd r)).
Proof.
  intros it j p k level Hk V H G. unfold s_compareSuffixGreaterThan. destruct (sgood_suffix j p G) as (v & EV). rewrite EV. cbn [bind].
  destruct (suf_compare_total e Hsh Hmem (s_suf s) v k level s_suf_fit Hk) as (z & EZ). rewrite EZ. cbn [bind].
  destruct (_ && _).
  - eapply safe_bind; [apply si_next_safe; auto; apply svec_t; auto|]. intros y Y. apply safe_ok. exact Y.
  - apply safe_ok. cbn [snd]. constructor; scbn; auto.
Qed.

Lemma gt_end_safe : forall inc l j it, st <= l -> louds l j = true -> svec (si_len it) (si_key it) (si_pos it) -> st + si_len it <= l ->
  (si_len it = 0 -> l = st /\ si_start it = NN l j) ->
  safe (s_gt_end e s inc (spos l j) it) (fun r => ssafe (snd r)).
Proof.
  intros inc l j it Hl L V Hlen HEn. pose proof (louds_item K l j L) as I. unfold s_gt_end.
  rewrite (s_lab_read c K HNE st s e Hst1 Hst2 HK) by auto. cbn [bind].
  pose proof (node_not_last K HNE st Hst1 Hst2 l j Hl L) as NL.
  set (T := if lab l j =? kTerminator then _ else _).
  assert (QT : exists t, T = Ok t /\ (t = true -> nth (S (spos l j)) (cc (slouds K) st height) false = false)).
  { unfold T. destruct (lab l j =? kTerminator); [|exists false; split; auto; discriminate].
    rewrite (s_child_read c K HNE st s e Hst1 Hst2 HK) by auto. cbn [bind]. destruct (child l j); cbn [negb];
      [exists false; split; auto; discriminate|].
    rewrite (end_of_node c K HNE st s e Hst1 Hst2 HK) by lia. unfold up_flag. rewrite (s_numBits_eq c K HNE st s Hst1 Hst2 HK).
    replace (slen <=? S (spos l j)) with false by lia. rewrite (LD_read c K HNE st s e Hst1 Hst2 HK) by auto. cbn [bind].
    eexists. split; [reflexivity|]. destruct (nth _ _ false); [discriminate|auto]. }
  clearbody T. destruct QT as (t & -> & HT). cbn [bind]. destruct t.
  - specialize (HT eq_refl). pose proof (item_good (si_len it) l j Hlen I) as G.
    destruct (sappendL_safe it kTerminator _ V G) as (k & p & EA & W & EN). rewrite EA. cbn [bind].
    destruct inc; cbn [negb bind].
    + apply safe_ok. cbn [snd]. constructor; scbn; auto. lia.
    + assert (Q : safe (si_next e s (si_setTerm (si_setLen (si_setKP it k p) (S (si_len it))) true)) (fun x => ssafe x /\ 1 <= si_len x)).
      { unfold si_next. scbn. rewrite massert_ok by lia. cbn [bind pred_idx si_next_loop]. scbn.
        pose proof W as (W1 & W2 & W3 & W4). rewrite (vget_ok _ _ (si_len it) 0) by lia. cbn [bind]. rewrite EN.
        rewrite (s_numBits_eq c K HNE st s Hst1 Hst2 HK). replace (slen <=? S (spos l j)) with false by lia.
        rewrite (LD_read c K HNE st s e Hst1 Hst2 HK) by auto. rewrite HT. cbn [bind].
        assert (G' : sgood (si_len it) (S (spos l j))) by (split; [left; lia|]; exists l, j; repeat split; auto).
        match goal with |- safe (bind (si_set _ _ ?I _ _) _) _ => destruct (sset_safe I (si_len it) _ (svec_le _ (si_len it) _ _ W ltac:(lia)) G') as (k' & p' & ES & U) end.
        rewrite ES. cbn [bind]. eapply safe_impl; [apply move_left_safe; scbn; auto; intros H; discriminate|].
        intros x (X & XV). split; auto. apply X. auto. }
      eapply safe_bind; [exact Q|]. intros x ([X1 X2] & X3). apply safe_ok. cbn [snd]. constructor; scbn; auto.
  - eapply safe_bind.
    + apply move_left_safe; auto. intros H0. destruct (HEn H0) as (-> & E). eauto.
    + intros x (X & _). apply safe_ok. exact X.
Qed.

Lemma gt_loop_safe : forall k, is_bytes k -> forall inc rest, is_bytes rest -> forall level l j it, st <= l -> louds l j = true ->
  svec (si_len it) (si_key it) (si_pos it) -> st + si_len it <= l ->
  (si_len it = 0 -> l = st /\ si_start it = NN l j) ->
  safe (s_gt_loop e s k rest inc level (spos l j) it) (fun r => ssafe (snd r)).
Proof.
  intros k Hk inc. induction rest as [|b rest IH]; intros Hr level l j it Hl L V Hlen HEn; cbn [s_gt_loop].
  { apply gt_end_safe; auto. }
  pose proof (louds_item K l j L) as I.
  destruct (s_nodeSize_spec c K HNE st s e Hst1 Hst2 HK l j Hl L) as (N & EN & W). rewrite EN. cbn [bind].
  pose proof (search_ff c K HS HB HE HNE st s e Hst1 Hst2 HK Hmem l j N Hl L W b) as Q. rewrite Q. cbn [bind].
  pose proof (w_end _ _ _ _ _ W) as WE. pose proof (num_words_le slen) as NW.
  pose proof (node_not_last K HNE st Hst1 Hst2 l j Hl L) as NL.
  pose proof (win_sum K HNE st e Hst1 Hst2 Hmem l j N Hl L W) as WS.
  set (p := if term l j then S (spos l j) else spos l j) in *. set (m := if term l j then N - 1 else N) in *.
  assert (PQ : spos l j <= p <= S (spos l j)) by (unfold p; destruct (term l j); lia).
  destruct (ff _ p m) as [x|] eqn:EF; unfold res_of in *; cbn [bind negb].
  - apply ff_some in EF. destruct EF as (X1 & X2 & X3).
    assert (G : sgood (si_len it) x).
    { split; [|exists l, j; repeat split; auto; lia]. destruct (le_lt_dec slen x) as [G|G]; [right|left; auto].
      assert (ZX : rd x = 0) by (destruct HZ as [Z1 Z2]; apply Z2; lia).
      assert (x = slen).
      { destruct (Nat.eq_dec x slen) as [|NE]; auto. exfalso. specialize (X3 slen ltac:(lia)). destruct HZ as [Z1 _]. cbn beta in *. lia. }
      split; auto. lia. }
    destruct (sappendL_safe it b x V G) as (k' & p' & EA & U & _). rewrite EA. cbn [bind].
    destruct (sgood_child _ _ G) as (r & ER & HR). rewrite ER. cbn [bind]. destruct r; cbn [negb].
    + destruct (HR eq_refl) as (l' & i & A & C & ->).
      rewrite (s_child_node c K HNE st s e Hst1 Hst2 HK) by (auto; lia). cbn [bind]. rewrite child_louds in C.
      rewrite (s_first_pos c K HNE st s e Hst1 Hst2 HK) by (auto; lia). cbn [bind].
      inversion Hr; subst. apply IH; scbn; auto; try lia.
    + eapply compare_suffix_safe; scbn; eauto; lia.
  - eapply safe_bind; [eapply (next_subtrie_safe it l j N b p); eauto|]. intros y Y. apply safe_ok. exact Y.
Qed.

Lemma s_moveToKeyGreaterThan_safe : forall k inc it, is_bytes k -> svec 0 (si_key it) (si_pos it) -> si_len it = 0 -> entry it ->
  safe (s_moveToKeyGreaterThan e s k inc it) (fun r => ssafe (snd r)).
Proof.
  intros k inc it Hk V H0 HEn. unfold s_moveToKeyGreaterThan. destruct (HEn H0) as (x & L & EX). rewrite EX.
  rewrite (s_first_pos c K HNE st s e Hst1 Hst2 HK) by auto. cbn [bind].
  apply gt_loop_safe; auto; rewrite ?H0; auto; try lia. apply is_bytes_skipn; auto.
Qed.

(** ** accessors *)
Lemma s_getKey_safe : forall it, ssafe it -> safe (si_getKey it) (fun _ => True).
Proof.
  intros it [V A]. unfold si_getKey. destruct (si_valid it); cbn [negb]; [|apply safe_ok; auto].
  destruct V as (V1 & V2 & V3 & V4). specialize (A eq_refl). destruct (si_len it) as [|m]; [lia|].
  destruct (si_atterm it); cbn [pred_idx bind].
  - replace (m <=? length (si_key it)) with true by lia. apply safe_ok. auto.
  - replace (S m <=? length (si_key it)) with true by lia. apply safe_ok. auto.
Qed.

Lemma s_compare_safe : forall it k, ssafe it -> si_valid it = true -> is_bytes k -> st <= length k ->
  safe (si_compare e s it k) (fun _ => True).
Proof.
  intros it k SS HV Hk HL. unfold si_compare. destruct (_ && _); [apply safe_ok; auto|].
  eapply safe_bind; [apply s_getKey_safe; auto|]. intros ik _.
  assert (ES : s_start s = st) by (destruct HK; auto). rewrite ES.
  unfold substr_from. replace (length k <? st) with false by lia. cbn [bind]. destruct (negb _); [apply safe_ok; auto|].
  destruct SS as [V A]. destruct (s_last_safe it V (A HV)) as (p & j & EP & G). rewrite EP. cbn [bind].
  destruct (sgood_suffix j p G) as (v & EV). rewrite EV. cbn [bind].
  destruct (suf_compare_total e Hsh Hmem (s_suf s) v (skipn st k) (si_len it) s_suf_fit (is_bytes_skipn _ _ Hk)) as (z & EZ).
  rewrite EZ. apply safe_ok. auto.
Qed.

Lemma s_getSuffix_safe : forall it, ssafe it -> si_valid it = true -> safe (si_getSuffix e s it) (fun _ => True).
Proof.
  intros it [V A] HV. unfold si_getSuffix. destruct (has_real _); [|apply safe_ok; auto].
  destruct (s_last_safe it V (A HV)) as (p & j & EP & G). rewrite EP. cbn [bind].
  destruct (sgood_suffix j p G) as (v & EV). rewrite EV. cbn [bind].
  destruct (suf_readReal_total e Hsh Hmem (s_suf s) v s_suf_fit) as (w & EW). rewrite EW. apply safe_ok. auto.
Qed.

Lemma s_getKeyWithSuffix_safe : forall it n, ssafe it -> si_valid it = true -> safe (si_getKeyWithSuffix e s it n) (fun _ => True).
Proof.
  intros it n SS HV. unfold si_getKeyWithSuffix. eapply safe_bind; [apply s_getKey_safe; auto|]. intros ik _.
  destruct (has_real _); [|apply safe_ok; auto]. destruct SS as [V A].
  destruct (s_last_safe it V (A HV)) as (p & j & EP & G). rewrite EP. cbn [bind].
  destruct (sgood_suffix j p G) as (v & EV). rewrite EV. cbn [bind].
  destruct (suf_readReal_total e Hsh Hmem (s_suf s) v s_suf_fit) as (w & EW). rewrite EW. cbn [bind].
  destruct (0 <? w)%N; [|apply safe_ok; auto]. unfold suffix_bytes.
  destruct (shl_total e Hsh w (sub32 64 (N.of_nat (sf_rlen (s_suf s))))) as (y & EY). rewrite EY. cbn [bind]. apply safe_ok. auto.
Qed.
End SafeSparse.
