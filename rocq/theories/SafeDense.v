(** The dense iterator never faults, whatever key it was sent to: every level
    it holds is a position of a node of that level. *)
From Coq Require Import Arith List NArith ZArith Bool Lia ZifyN ZifyNat ZifyBool Sorting.Sorted.
From Verif Require Import Res Word Config BitFacts WordFacts Bitvector BitvectorFacts Rank Select
  RankSelectFacts LabelVector Suffix Spec SuffixFacts Builder KeyFacts Trie BuilderFacts
  DenseBuild StructFacts NodeFacts SparseFacts Dense Sparse DenseFacts LookupFacts CompareFacts IterTrie IterDense IterDMove SafeBits.
Import ListNotations.

Lemma bsearch : forall (P : nat -> bool) m a,
  (exists b, a <= b < a + m /\ P b = true /\ forall x, a <= x -> x < b -> P x = false) \/
  (forall x, a <= x -> x < a + m -> P x = false).
Proof.
  intros P. induction m as [|m IH]; intros a; [right; intros; lia|].
  destruct (P a) eqn:E; [left; exists a; repeat split; auto; try lia; intros; lia|].
  destruct (IH (S a)) as [(b & A & B & C)|H]; [left; exists b|right].
  - split; [lia|]. split; auto. intros x X1 X2. destruct (Nat.eq_dec x a) as [->|]; auto. apply C; lia.
  - intros x X1 X2. destruct (Nat.eq_dec x a) as [->|]; auto. apply H; lia.
Qed.

Section SafeDense.
Variables (c : config) (K : list bytes).
Notation item := (item K). Notation child := (child K). Notation louds := (louds K).
Notation lab := (lab K). Notation term := (term K).
Notation nds := (nds K). Notation NN := (NN K). Notation same_node := (same_node K).
Notation dp := (dp K). Notation dpos := (dpos K).
Hypothesis HS : StronglySorted klt K.
Hypothesis HB : Forall is_bytes K.
Hypothesis HE : Forall (fun k => k <> []) K.
Hypothesis HNE : length K <> 0.
Hypothesis HFF : no_lone_ff K.
Variables (st : nat) (d : dense) (e : env).
Hypothesis Hst1 : 1 <= st.
Hypothesis HD : dense_ok c K st d.
Hypothesis Hmem : strict_mem e = false.
Hypothesis Hsh : strict_shift e = false.
Hypothesis Hlens : lens_ok (cf_type c) (cf_hlen c) (cf_rlen c).
Notation LB := (cc (dlab K) 0 st).

Lemma d_suf_fit : suf_fit (d_suf d).
Proof. destruct HD. eapply suf_rel_fit; eauto. Qed.

(** ** single reads *)
Definition dgood (l p : nat) : Prop := l < st /\ exists x b, louds l x = true /\ b < 256 /\ p = dp l x b.

Lemma dpos_good : forall l i, l < st -> item l i = true -> dgood l (dpos l i).
Proof.
  intros l i Hl HI. destruct (dpos_start K l i HI) as (j & A & B & C & D & E). split; auto.
  exists j, (lab l i). rewrite E. repeat split; auto. apply (lab_byte K HB HNE).
Qed.

Lemma good_label : forall l p, dgood l p -> exists b, d_readLabel e d p = Ok b.
Proof.
  intros l p (Hl & x & b & HL & Hb & ->). unfold d_readLabel.
  rewrite (readBit_spec e _ _ _ (lab_repr c K st d HD)); [eauto|].
  rewrite (LB_len K HNE st Hst1). apply dp_lt; auto.
Qed.

Lemma good_child : forall l p, dgood l p -> exists r, d_readChild e d p = Ok r /\
  (r = true -> exists i, child l i = true /\ p = dpos l i).
Proof.
  intros l p (Hl & j & b & HL & Hb & ->). unfold d_readChild.
  destruct HD as [_ _ [R _] _ _ _]. rewrite (readBit_spec e _ _ _ R) by (rewrite (len_dchl K HNE st Hst1); apply dp_lt; auto).
  eexists. split; [reflexivity|]. intros HR.
  pose proof (in_level K HNE st Hst1 l j b HL Hb) as IL.
  replace (dp l j b) with (off (dchl K) 0 l + (256 * nn K l j + b)) in HR
    by (rewrite (off_dchl K HNE st Hst1); unfold DenseFacts.dp; rewrite (NN_nn K); lia).
  rewrite cc_nth in HR by (try rewrite dchl_length; lia). unfold dchl in HR. rewrite bm_nth in HR by auto.
  apply existsb_seq in HR. destruct HR as (i & Hi & E). apply andb_prop in E. destruct E as [E1 E2].
  apply Nat.eqb_eq in E2. exists i. split; auto.
  apply (in_node K HB HNE st Hst1) in E2; auto using child_nonterm. destruct E2 as (A & B & C).
  unfold IterDMove.dpos, DenseFacts.dp. rewrite C, (NN_same K l j i A B). reflexivity.
Qed.

Lemma good_suffix : forall l p b, dgood l p -> exists v, d_getSuffixPos e d p b = Ok v.
Proof.
  intros l p b G. destruct (good_label l p G) as (r1 & E1). destruct (good_child l p G) as (r2 & E2 & _).
  destruct G as (Hl & j & y & HL & Hb & ->). rewrite d_suffix_eq.
  rewrite (suffix_pos_raw c K HS HB HE HNE HFF st d e Hst1 HD) by auto. cbn [bind].
  destruct b; [|cbn [bind]; eauto]. rewrite E1. cbn [bind]. destruct r1; [|cbn [bind]; eauto].
  rewrite E2. cbn [bind]. eauto.
Qed.

Lemma good_div : forall l x b, b < 256 -> dp l x b / kNodeFanout = NN l x.
Proof. intros. apply (dp_div K HNE st Hst1). auto. Qed.

(** ** neighbouring labels *)
Lemma next_any : forall l j b1, l < st -> louds l j = true -> 1 <= dp l j b1 \/ asserts e = false -> b1 <= 256 ->
  (b1 = 0 -> exists b, b < 256 /\ nth (dp l j b) LB false = true) ->
  exists p, d_getNextPos1 e d (dp l j b1) = Ok p /\
    ((1 <= b1 /\ NN l j < p / kNodeFanout) \/ exists b, b1 <= b /\ b < 256 /\ p = dp l j b).
Proof.
  intros l j b1 Hl HL H1 H2 HZ. unfold d_getNextPos1. pose proof (dp_256 K HNE st e Hst1 Hmem l j Hl HL) as E2.
  pose proof (lab_repr c K st d HD) as LR.
  destruct (bsearch (fun b => nth (dp l j b) LB false) (256 - b1) b1) as [(b & B1 & B2 & B3)|H].
  - rewrite (next_bit e _ _ (dp l j b1) (dp l j b) LR); auto.
    + cbn [bind]. eexists. split; [reflexivity|]. right. exists b. repeat split; try lia.
      unfold DenseFacts.dp in *. lia.
    + destruct H1; auto.
    + unfold DenseFacts.dp. lia.
    + unfold DenseFacts.dp in *. lia.
    + intros x X1 X2. destruct (dp_div' K HNE st e Hst1 Hmem l j b1 x X1 ltac:(unfold DenseFacts.dp in *; lia) ltac:(lia)) as (b' & C1 & C2 & ->).
      apply B3; auto. unfold DenseFacts.dp in X2. lia.
  - destruct (Nat.eq_dec b1 0) as [Z|NZ].
    + destruct (HZ Z) as (b & Hb & T). rewrite H in T by lia. discriminate.
    + destruct (next_none e _ _ (dp l j b1) (dp l j 256) LR) as (m & EM & G1 & G2).
      * right. unfold DenseFacts.dp. lia.
      * unfold DenseFacts.dp. lia.
      * unfold DenseFacts.dp in *. lia.
      * apply (mult64 K HNE st e Hst1 Hmem).
      * auto.
      * auto.
      * intros x X1 X2. destruct (Nat.eq_dec b1 256) as [->|NB]; [lia|].
        destruct (dp_div' K HNE st e Hst1 Hmem l j b1 x X1 X2 ltac:(lia)) as (b' & B1 & B2 & ->). apply H; lia.
      * rewrite EM. cbn [bind]. eexists. split; [reflexivity|]. left. split; [lia|].
        apply Nat.div_le_lower_bound; unfold kNodeFanout, DenseFacts.dp in *; lia.
Qed.

Lemma prev_any : forall l j b, l < st -> louds l j = true -> b <= 256 ->
  exists o, d_getPrevPos e d (dp l j b) = Ok o /\ forall p, o = Some p -> p < dp l j b.
Proof.
  intros l j b Hl HL Hb. unfold d_getPrevPos. pose proof (dp_256 K HNE st e Hst1 Hmem l j Hl HL) as E2.
  pose proof (lab_repr c K st d HD) as LR.
  assert (G : exists m, distanceToPrevSetBit e (rk_bv (d_labels d)) (dp l j b) = Ok m /\ (1 <= m \/ dp l j b <= m)).
  { destruct (bsearch (fun x => nth x LB false) (dp l j b) 0) as [(x & X1 & X2 & _)|H].
    - destruct (prev_some e _ _ (dp l j b) x LR) as (m & EM & G1 & _); auto; try (unfold DenseFacts.dp in *; lia). eauto.
    - destruct (prev_none e _ _ (dp l j b) LR) as (m & EM & G1); eauto; [unfold DenseFacts.dp in *; lia|].
      intros x Hx. apply H; lia. }
  destruct G as (m & -> & G). cbn [bind]. destruct (Nat.leb_spec (dp l j b) m) as [Q|Q].
  - eexists. split; [reflexivity|]. discriminate.
  - eexists. split; [reflexivity|]. intros p [= <-]. lia.
Qed.

Lemma same_div : forall l x b p, b <= 256 -> p < dp l x b -> NN l x <= p / kNodeFanout -> exists b', b' < 256 /\ p = dp l x b'.
Proof.
  intros l x b p Hb H1 H2. unfold kNodeFanout, DenseFacts.dp in *. pose proof (Nat.div_mod p 256 ltac:(lia)) as Q.
  pose proof (Nat.mod_upper_bound p 256 ltac:(lia)) as M. exists (p mod 256). split; [lia|].
  assert (p / 256 = NN l x) by lia. lia.
Qed.

(** a node below the root has a label; the root too *)
Lemma node_label : forall m i, m < st -> louds m i = true -> exists b, b < 256 /\ nth (dp m i b) LB false = true.
Proof.
  intros m i Hm HL. pose proof (louds_item K m i HL) as HI.
  assert (G : exists x, i <= x /\ item m x = true /\ same_node m i x /\ term m x = false).
  { destruct (term m i) eqn:ET.
    - destruct (term_next K HS HE m i HI ET) as (A & B). exists (S i). split; [lia|]. split; auto.
      split; [intros x Hx; replace x with (S i) by lia; auto|apply (not_first_not_term K HS HE); auto].
    - exists i. repeat split; auto. intros x Hx. lia. }
  destruct G as (x & X1 & X2 & X3 & X4). exists (lab m x). split; [apply (lab_byte K HB HNE)|].
  apply (LB_true c K HS HB HE HNE HFF st d e Hst1 HD); auto.
Qed.

Lemma first_any : forall m i, m < st -> louds m i = true -> 1 <= m \/ asserts e = false ->
  exists p, d_getNextPos1 e d (NN m i * kNodeFanout) = Ok p /\ exists b, b < 256 /\ p = dp m i b.
Proof.
  intros m i Hm HL H1. replace (NN m i * kNodeFanout) with (dp m i 0) by (unfold DenseFacts.dp, kNodeFanout; lia).
  destruct (next_any m i 0 Hm HL) as (p & EP & [(A & _)|(b & _ & B & C)]); auto; try lia.
  - destruct H1 as [H1|H1]; auto. left. pose proof (NN_pos K m i HNE (louds_item K m i HL) H1). unfold DenseFacts.dp. lia.
  - intros _. apply node_label; auto.
  - eauto.
Qed.

Lemma last_any : forall m i, m < st -> louds m i = true -> 1 <= m ->
  exists p, d_getPrevPos e d ((NN m i + 1) * kNodeFanout) = Ok (Some p) /\ exists b, b < 256 /\ p = dp m i b.
Proof.
  intros m i Hm HL H1. replace ((NN m i + 1) * kNodeFanout) with (dp m i 256) by (unfold DenseFacts.dp, kNodeFanout; lia).
  destruct (node_label m i Hm HL) as (b0 & B0 & T0). pose proof (dp_256 K HNE st e Hst1 Hmem m i Hm HL) as E2.
  pose proof (NN_pos K m i HNE (louds_item K m i HL) H1) as NP.
  destruct (prev_some e _ _ (dp m i 256) (dp m i b0) (lab_repr c K st d HD)) as (q & EQ & Q1 & Q2 & _); auto.
  { unfold DenseFacts.dp. lia. }
  unfold d_getPrevPos. rewrite EQ. cbn [bind]. replace (dp m i 256 <=? q) with false by (unfold DenseFacts.dp in *; lia).
  eexists. split; [reflexivity|]. destruct (dp_div' K HNE st e Hst1 Hmem m i b0 (dp m i 256 - q)) as (b' & _ & A & B); eauto;
    unfold DenseFacts.dp in *; lia.
Qed.

(** ** the iterator *)
Definition dvec (len : nat) (k p : list nat) : Prop :=
  length k = st /\ length p = st /\ len <= st /\ forall m, m < len -> dgood m (nth m p 0).

Lemma dvec_le : forall a b k p, dvec b k p -> a <= b -> dvec a k p.
Proof. intros a b k p (A & B & C & D) H. repeat split; auto; try lia; apply D; lia. Qed.

Lemma dset_safe : forall it m pos, dvec m (di_key it) (di_pos it) -> dgood m pos ->
  exists k p, di_set e it m pos = Ok (di_setKP it k p) /\ dvec (S m) k p.
Proof.
  intros it m pos (A & B & C & D) G. pose proof (proj1 G) as Hm. unfold di_set.
  rewrite massert_ok by lia. cbn [bind]. rewrite !vset_ok by lia. cbn [bind]. eexists _, _. split; [reflexivity|].
  split; [rewrite lset_length; auto|]. split; [rewrite lset_length; auto|]. split; [lia|]. intros m' Hm'.
  rewrite lset_nth, B. destruct (Nat.eqb_spec m' m) as [->|NE]; [replace (m <? st) with true by lia; exact G|].
  cbn [andb]. apply D. lia.
Qed.

Lemma dappend_safe : forall it m pos, dvec m (di_key it) (di_pos it) -> di_len it = m -> dgood m pos ->
  exists k p, di_append e it pos = Ok (di_setLen (di_setKP it k p) (S m)) /\ dvec (S m) k p.
Proof.
  intros it m pos V HL G. destruct (dset_safe it m pos V G) as (k & p & E & Q). exists k, p. split; auto.
  unfold di_append. rewrite HL, E. reflexivity.
Qed.

Record dsafe (it : diter) : Prop := mkDsafe {
  ds_vec : dvec (di_len it) (di_key it) (di_pos it);
  ds_pre : di_atprefix it = true -> 2 <= di_len it;
  ds_val : di_valid it = true -> 1 <= di_len it;
  ds_out : di_valid it = true -> di_complete it = false ->
    di_len it = st /\ di_atprefix it = false /\ exists x, louds st x = true /\ di_send it = NN st x }.

(** either done, or what remains is the sparse part *)
Definition dleftd (it : diter) : Prop :=
  dsafe it /\ (di_valid it = true -> di_complete it = true \/ di_search it = false \/ di_left it = false).

Lemma complete_flags : forall it v, di_complete (di_setFlags it v true true true) = true.
Proof. reflexivity. Qed.

Lemma done_safe : forall it, dvec (di_len it) (di_key it) (di_pos it) -> 1 <= di_len it ->
  (di_atprefix it = true -> 2 <= di_len it) -> dleftd (di_setFlags it true true true true).
Proof.
  intros it V H1 H2. split; [|intros _; left; reflexivity]. constructor; dcbn; auto. discriminate.
Qed.

Lemma invalid_safe : forall it len, dvec len (di_key it) (di_pos it) -> (di_atprefix it = true -> 2 <= len) ->
  dleftd (di_setValid (di_setLen it len) false).
Proof. intros it len V H. split; [|discriminate]. constructor; dcbn; auto; discriminate. Qed.

Lemma left_loop_safe : forall nn m it i, st = S (m + nn) -> child m i = true ->
  dvec (S m) (di_key it) (di_pos it) -> di_len it = S m -> di_atprefix it = false ->
  safe (di_left_loop e d nn it (dpos m i)) (fun it' => dleftd it' /\ di_valid it' = true).
Proof.
  induction nn as [|nn IH]; intros m it i Hst HC HP HL HA; cbn [di_left_loop];
    rewrite (d_child_num c K HS HB HE HNE st d e Hst1 HD) by (auto; lia); cbn [bind]; pose proof HC as HL';
    rewrite child_louds in HL'.
  - apply safe_ok. split; [|reflexivity]. assert (ES : S m = st) by lia. 
    split; [|intros _; right; right; reflexivity].
    constructor; dcbn; rewrite ?HL, ?HA; auto; try lia; try discriminate; rewrite <- ?ES; eauto 6.
  - rewrite (d_prefix_read c K HS HB HE HNE HFF st d e Hst1 HD) by (auto; lia). cbn [bind].
    destruct (first_any (S m) i ltac:(lia) HL' ltac:(lia)) as (p & EP & b & Hb & EB). rewrite EP.
    assert (G : dgood (S m) p) by (split; [lia|eauto]).
    destruct (dappend_safe it (S m) p HP HL G) as (k & q & EA & V).
    destruct (term (S m) i); cbn [bind]; rewrite EA; cbn [bind].
    + apply safe_ok. split; [|reflexivity]. apply done_safe; dcbn; auto; lia.
    + destruct (good_child (S m) p G) as (r & ER & HR). rewrite ER. cbn [bind]. destruct r; cbn [negb].
      * destruct (HR eq_refl) as (i' & C' & EI). rewrite EI. apply IH; dcbn; auto. lia.
      * apply safe_ok. split; [|reflexivity]. apply done_safe; dcbn; auto; try lia.
Qed.

Lemma move_left_safe : forall it, dvec (di_len it) (di_key it) (di_pos it) -> 1 <= di_len it -> di_atprefix it = false ->
  safe (di_moveToLeftMostKey e d it) (fun it' => dleftd it' /\ di_valid it' = true).
Proof.
  intros it V H1 HA. unfold di_moveToLeftMostKey. rewrite massert_ok by lia. cbn [bind].
  destruct (di_len it) as [|m] eqn:EL; [lia|]. cbn [pred_idx bind].
  pose proof V as (V1 & V2 & V3 & V4). rewrite (vget_ok _ _ m 0) by lia. cbn [bind].
  pose proof (V4 m ltac:(lia)) as G. destruct (good_child m _ G) as (r & ER & HR). rewrite ER. cbn [bind].
  destruct r; cbn [negb].
  - destruct (HR eq_refl) as (i & C & EI). rewrite EI.
    assert (HH : d_height d = st) by (destruct HD; auto). rewrite HH. apply left_loop_safe; auto. destruct G. lia.
  - apply safe_ok. split; [|reflexivity]. apply done_safe; rewrite ?EL; auto; congruence.
Qed.

Lemma right_loop_safe : forall nn m it i, st = S (m + nn) -> child m i = true ->
  dvec (S m) (di_key it) (di_pos it) -> di_len it = S m -> di_atprefix it = false ->
  safe (di_right_loop e d nn it (dpos m i)) (fun it' => dsafe it' /\ (di_valid it' = true -> di_right it' = true -> di_complete it' = true) /\ di_valid it' = true).
Proof.
  induction nn as [|nn IH]; intros m it i Hst HC HP HL HA; cbn [di_right_loop];
    rewrite (d_child_num c K HS HB HE HNE st d e Hst1 HD) by (auto; lia); cbn [bind]; pose proof HC as HL';
    rewrite child_louds in HL'.
  - apply safe_ok. assert (ES : S m = st) by lia. split; [|split; [discriminate|reflexivity]].
    constructor; dcbn; rewrite ?HL, ?HA; auto; try lia; try discriminate; rewrite <- ?ES; eauto 6.
  - destruct (last_any (S m) i ltac:(lia) HL' ltac:(lia)) as (p & EP & b & Hb & EB). rewrite EP. cbn [bind].
    assert (G : dgood (S m) p) by (split; [lia|eauto]).
    destruct (dappend_safe it (S m) p HP HL G) as (k & q & EA & V). rewrite EA; cbn [bind].
    destruct (good_child (S m) p G) as (r & ER & HR). rewrite ER. cbn [bind]. destruct r; cbn [negb].
    + destruct (HR eq_refl) as (i' & C' & EI). rewrite EI. apply IH; dcbn; auto. lia.
    + apply safe_ok. split; [|split; reflexivity]. apply done_safe; dcbn; auto; try lia.
Qed.

Lemma move_right_safe : forall it, dvec (di_len it) (di_key it) (di_pos it) -> 1 <= di_len it -> di_atprefix it = false ->
  safe (di_moveToRightMostKey e d it) (fun it' => dsafe it' /\ (di_valid it' = true -> di_right it' = true -> di_complete it' = true) /\ di_valid it' = true).
Proof.
  intros it V H1 HA. unfold di_moveToRightMostKey. rewrite massert_ok by lia. cbn [bind].
  destruct (di_len it) as [|m] eqn:EL; [lia|]. cbn [pred_idx bind].
  pose proof V as (V1 & V2 & V3 & V4). rewrite (vget_ok _ _ m 0) by lia. cbn [bind].
  pose proof (V4 m ltac:(lia)) as G. destruct (good_child m _ G) as (r & ER & HR). rewrite ER. cbn [bind].
  destruct r; cbn [negb].
  - destruct (HR eq_refl) as (i & C & EI). rewrite EI.
    assert (HH : d_height d = st) by (destruct HD; auto). rewrite HH. apply right_loop_safe; auto. destruct G. lia.
  - apply safe_ok. split; [|split; reflexivity]. apply done_safe; rewrite ?EL; auto; congruence.
Qed.

Lemma next_loop_safe : forall len it, dvec len (di_key it) (di_pos it) -> di_atprefix it = false ->
  safe (di_next_loop e d it len) dleftd.
Proof.
  induction len as [|l IH]; intros it V HA; cbn [di_next_loop].
  - apply safe_ok. apply invalid_safe; auto. congruence.
  - pose proof V as (V1 & V2 & V3 & V4). rewrite (vget_ok _ _ l 0) by lia. cbn [bind].
    pose proof (V4 l ltac:(lia)) as G. destruct G as (Hl & x & b & HL & Hb & ->). unfold d_getNextPos.
    replace (S (dp l x b)) with (dp l x (S b)) by (unfold DenseFacts.dp; lia).
    destruct (next_any l x (S b) Hl HL) as (p & EP & HP); try lia; [unfold DenseFacts.dp; lia|].
    rewrite EP. cbn [bind]. rewrite good_div by auto. destruct (Nat.ltb_spec (NN l x) (p / kNodeFanout)) as [Q|Q].
    + apply IH; auto. apply (dvec_le l (S l)); auto.
    + destruct HP as [(_ & HP)|(b' & _ & B' & EB)]; [lia|].
      assert (G : dgood l p) by (split; [lia|eauto]).
      destruct (dset_safe (di_setLen it (S l)) l p) as (k & q & EA & W); auto; [dcbn; apply (dvec_le l (S l)); auto|].
      rewrite EA. cbn [bind]. eapply safe_impl; [apply move_left_safe; dcbn; auto; lia|]. cbn beta. intros y (Y & _). exact Y.
Qed.

Lemma di_next_safe : forall it, dvec (di_len it) (di_key it) (di_pos it) -> 1 <= di_len it -> safe (di_next e d it) dleftd.
Proof.
  intros it V H1. unfold di_next. rewrite massert_ok by lia. cbn [bind]. destruct (di_atprefix it) eqn:EA.
  - eapply safe_impl; [apply move_left_safe; dcbn; auto|]. cbn beta. intros y (Y & _). exact Y.
  - destruct (di_len it) eqn:EL; [lia|]. cbn [pred_idx bind]. apply next_loop_safe; auto.
Qed.

Lemma prev_loop_safe : forall len it, dvec len (di_key it) (di_pos it) -> di_atprefix it = false ->
  safe (di_prev_loop e d it len) (fun it' => dsafe it' /\ (di_valid it' = true -> di_right it' = true -> di_complete it' = true)).
Proof.
  induction len as [|l IH]; intros it V HA; cbn [di_prev_loop].
  - apply safe_ok. split; [|discriminate]. apply invalid_safe; auto. congruence.
  - pose proof V as (V1 & V2 & V3 & V4). rewrite (vget_ok _ _ l 0) by lia. cbn [bind].
    pose proof (V4 l ltac:(lia)) as G. destruct G as (Hl & x & b & HL & Hb & ->).
    destruct (prev_any l x b Hl HL ltac:(lia)) as (o & EO & HO). rewrite EO. cbn [bind].
    destruct o as [p|].
    + specialize (HO p eq_refl). rewrite good_div by auto. destruct (Nat.ltb_spec (p / kNodeFanout) (NN l x)) as [Q|Q].
      * rewrite (d_prefix_read c K HS HB HE HNE HFF st d e Hst1 HD) by auto. cbn [bind].
        destruct (term l x) eqn:ET.
        -- apply safe_ok. split; [|reflexivity]. apply done_safe; dcbn; auto; [lia|]. intros _.
           destruct l; [|lia]. rewrite (term0 K HS HE HNE st e Hst1 Hmem) in ET; [discriminate|]. apply louds_item; auto.
        -- apply IH; auto. apply (dvec_le l (S l)); auto.
      * destruct (same_div l x b p ltac:(lia) HO Q) as (b' & B' & EB).
        assert (G : dgood l p) by (split; [lia|eauto]).
        destruct (dset_safe (di_setLen it (S l)) l p) as (k & q & EA & W); auto; [dcbn; apply (dvec_le l (S l)); auto|].
        rewrite EA. cbn [bind]. eapply safe_impl; [apply move_right_safe; dcbn; auto; lia|]. cbn beta. intros y (Y1 & Y2 & _). auto.
    + apply safe_ok. split; [|discriminate]. apply invalid_safe; auto. congruence.
Qed.

Lemma di_prev_safe : forall it, dvec (di_len it) (di_key it) (di_pos it) -> 1 <= di_len it ->
  (di_atprefix it = true -> 2 <= di_len it) ->
  safe (di_prev e d it) (fun it' => dsafe it' /\ (di_valid it' = true -> di_right it' = true -> di_complete it' = true)).
Proof.
  intros it V H1 H2. unfold di_prev. rewrite massert_ok by lia. cbn [bind]. destruct (di_atprefix it) eqn:EA.
  - specialize (H2 eq_refl). destruct (di_len it) as [|[|m]] eqn:EL; try lia. cbn [pred_idx bind].
    apply prev_loop_safe; dcbn; auto. apply (dvec_le (S m) (S (S m))); auto.
  - destruct (di_len it) eqn:EL; [lia|]. cbn [pred_idx bind]. apply prev_loop_safe; auto.
Qed.

Lemma first_root_safe : forall it, dvec 0 (di_key it) (di_pos it) -> di_len it = 0 ->
  safe (di_setToFirstLabelInRoot e d it) (fun it' => dvec (di_len it') (di_key it') (di_pos it') /\
    1 <= di_len it' /\ di_atprefix it' = di_atprefix it).
Proof.
  intros it V HL. pose proof (louds_root K HNE) as HR. unfold di_setToFirstLabelInRoot.
  assert (Z : forall b, dp 0 0 b = b).
  { intros b. unfold DenseFacts.dp, SparseFacts.NN. cbn [sm cn]. rewrite HR. reflexivity. }
  destruct (good_label 0 0) as (r & ER).
  { split; [lia|]. exists 0, 0. rewrite Z. repeat split; auto. lia. }
  rewrite ER. cbn [bind].
  assert (P : exists pos, (if r then Ok 0 else d_getNextPos e d 0) = Ok pos /\ dgood 0 pos).
  { destruct r.
    - exists 0. split; auto. split; [lia|]. exists 0, 0. rewrite Z. repeat split; auto. lia.
    - unfold d_getNextPos. rewrite <- (Z 1). destruct (next_any 0 0 1) as (p & EP & HP); auto; try lia; [rewrite Z; lia|].
      exists p. split; auto. split; [lia|]. exists 0. destruct HP as [(_ & HP)|(b & _ & B & C)]; [|eauto].
      exfalso. destruct (node_label 0 0 ltac:(lia) HR) as (b & Hb & T).
      assert (b <> 0).
      { intros ->. unfold d_readLabel in ER. rewrite Z in T.
        rewrite (readBit_spec e _ _ _ (lab_repr c K st d HD)) in ER; [congruence|].
        rewrite (LB_len K HNE st Hst1). pose proof (dp_lt K HNE st Hst1 0 0 0 ltac:(lia) HR ltac:(lia)) as Q. rewrite Z in Q. exact Q. }
      unfold d_getNextPos1 in EP. pose proof (dp_256 K HNE st e Hst1 Hmem 0 0 ltac:(lia) HR) as E2.
      destruct (bsearch (fun b => nth (dp 0 0 b) LB false) (S b - 1) 1) as [(b' & B1 & B2 & B3)|H'].
      + rewrite (next_bit e _ _ (dp 0 0 1) (dp 0 0 b') (lab_repr c K st d HD)) in EP; auto.
        * cbn [bind] in EP. injection EP as EP. rewrite !Z in EP. assert (EQ : p = dp 0 0 b') by (rewrite Z; lia).
          rewrite EQ, good_div in HP by lia. lia.
        * rewrite Z. lia.
        * rewrite !Z. lia.
        * rewrite !Z in *. lia.
        * intros x X1 X2. rewrite Z in X1, X2. rewrite <- (Z x). apply B3; lia.
      + rewrite H' in T by lia. discriminate. }
  destruct P as (pos & -> & G). cbn [bind]. destruct V as (V1 & V2 & V3 & V4). rewrite !vset_ok by lia. cbn [bind].
  apply safe_ok. dcbn. rewrite HL. split; [|split; auto].
  split; [rewrite lset_length; auto|]. split; [rewrite lset_length; auto|]. split; [lia|].
  intros m Hm. assert (m = 0) by lia. subst m. rewrite lset_nth. replace (0 <? length (di_pos it)) with true by lia. exact G.
Qed.

Lemma last_root_safe : forall it, dvec 0 (di_key it) (di_pos it) -> di_len it = 0 ->
  safe (di_setToLastLabelInRoot e d it) (fun it' => dvec (di_len it') (di_key it') (di_pos it') /\
    1 <= di_len it' /\ di_atprefix it' = di_atprefix it).
Proof.
  intros it V HL. pose proof (louds_root K HNE) as HR. unfold di_setToLastLabelInRoot.
  assert (Z : forall b, dp 0 0 b = b).
  { intros b. unfold DenseFacts.dp, SparseFacts.NN. cbn [sm cn]. rewrite HR. reflexivity. }
  destruct (prev_any 0 0 256 ltac:(lia) HR ltac:(lia)) as (o & EO & HO). rewrite Z in EO. unfold kNodeFanout. rewrite EO. cbn [bind].
  set (pos := match o with Some p => p | None => 0 end).
  assert (G : dgood 0 pos).
  { split; [lia|]. exists 0, pos. rewrite Z. repeat split; auto. unfold pos. destruct o; [|lia].
    specialize (HO _ eq_refl). rewrite Z in HO. auto. }
  destruct V as (V1 & V2 & V3 & V4). rewrite !vset_ok by lia. cbn [bind].
  apply safe_ok. dcbn. rewrite HL. split; [|split; auto].
  split; [rewrite lset_length; auto|]. split; [rewrite lset_length; auto|]. split; [lia|].
  intros m Hm. assert (m = 0) by lia. subst m. rewrite lset_nth. replace (0 <? length (di_pos it)) with true by lia. exact G.
Qed.

(** ** point lookups and seeks *)
Definition out_ok (node : nat) : Prop := node = 0 \/ exists x, louds st x = true /\ node = NN st x.

Lemma byte_of : forall k i b, is_bytes k -> nth_error k i = Some b -> b < 256.
Proof. intros k i b H E. apply (proj1 (Forall_forall _ _) H). eapply nth_error_In; eauto. Qed.

Lemma d_lookup_safe : forall k, is_bytes k -> forall nn m x, st = m + nn -> louds m x = true ->
  safe (d_lookup_loop e d k nn m (NN m x)) (fun r => out_ok (snd r)).
Proof.
  intros k Hk. pose proof d_suf_fit as SF. induction nn as [|nn IH]; intros m x Hst HL; cbn [d_lookup_loop].
  - apply safe_ok. right. assert (m = st) by lia. subst m. eauto.
  - assert (Q0 : dgood m (NN m x * kNodeFanout)).
    { split; [lia|]. exists x, 0. repeat split; auto; try lia. unfold DenseFacts.dp, kNodeFanout. lia. }
    destruct (nth_error k m) as [b|] eqn:EN.
    + pose proof (byte_of _ _ _ Hk EN) as Hb.
      assert (G : dgood m (NN m x * kNodeFanout + b)).
      { split; [lia|]. exists x, b. repeat split; auto. unfold DenseFacts.dp, kNodeFanout. lia. }
      destruct (good_label m _ G) as (r1 & E1). rewrite E1. cbn [bind]. destruct r1; cbn [negb]; [|apply safe_ok; left; reflexivity].
      destruct (good_child m _ G) as (r2 & E2 & H2). rewrite E2. cbn [bind]. destruct r2; cbn [negb].
      * destruct (H2 eq_refl) as (i & C & EI). rewrite EI.
        rewrite (d_child_num c K HS HB HE HNE st d e Hst1 HD) by (auto; lia). cbn [bind].
        rewrite child_louds in C. apply IH; auto. lia.
      * destruct (good_suffix m _ false G) as (v & EV). rewrite EV. cbn [bind].
        destruct (checkEquality_total e Hsh Hmem (d_suf d) v k (m + 1) SF Hk) as (r & ER). rewrite ER. cbn [bind]. apply safe_ok. left. reflexivity.
    + rewrite (d_prefix_read c K HS HB HE HNE HFF st d e Hst1 HD) by (auto; lia). cbn [bind].
      destruct (term m x); [|apply safe_ok; left; reflexivity].
      destruct (good_suffix m _ true Q0) as (v & EV). rewrite EV. cbn [bind].
      destruct (checkEquality_total e Hsh Hmem (d_suf d) v k (m + 1) SF Hk) as (r & ER). rewrite ER. cbn [bind]. apply safe_ok. left. reflexivity.
Qed.

Lemma NN_root : NN 0 0 = 0.
Proof. unfold SparseFacts.NN. cbn [sm cn]. rewrite (louds_root K HNE). reflexivity. Qed.

Lemma d_lookupKey_safe : forall k, is_bytes k -> safe (d_lookupKey e d k) (fun r => out_ok (snd r)).
Proof.
  intros k Hk. unfold d_lookupKey. rewrite <- NN_root at 2.
  assert (HH : d_height d = st) by (destruct HD; auto). rewrite HH. apply d_lookup_safe; auto. apply louds_root; auto.
Qed.

Lemma d_gt_safe : forall k, is_bytes k -> k <> [] \/ asserts e = false -> forall nn m x it, st = m + nn -> louds m x = true ->
  dvec m (di_key it) (di_pos it) -> di_len it = m -> di_atprefix it = false ->
  safe (d_gt_loop e d k nn m (NN m x) it) (fun r => dleftd (snd r)).
Proof.
  intros k Hk HNil. pose proof d_suf_fit as SF. induction nn as [|nn IH]; intros m x it Hst HL V HLen HA; cbn [d_gt_loop].
  - apply safe_ok. assert (ES : m = st) by lia. cbn [snd]. split; [|intros _; right; left; reflexivity].
    constructor; dcbn; rewrite ?HLen, ?HA; auto; try lia; try discriminate; rewrite <- ?ES; eauto 6.
  - destruct (nth_error k m) as [b|] eqn:EN.
    + pose proof (byte_of _ _ _ Hk EN) as Hb.
      assert (G : dgood m (NN m x * kNodeFanout + b)).
      { split; [lia|]. exists x, b. repeat split; auto. unfold DenseFacts.dp, kNodeFanout. lia. }
      destruct (dappend_safe it m _ V HLen G) as (kk & q & EA & W). rewrite EA. cbn [bind].
      destruct (good_label m _ G) as (r1 & E1). rewrite E1. cbn [bind]. destruct r1; cbn [negb].
      * destruct (good_child m _ G) as (r2 & E2 & H2). rewrite E2. cbn [bind]. destruct r2; cbn [negb].
        -- destruct (H2 eq_refl) as (i & C & EI). rewrite EI.
           rewrite (d_child_num c K HS HB HE HNE st d e Hst1 HD) by (auto; lia). cbn [bind].
           rewrite child_louds in C. apply IH; dcbn; auto. lia.
        -- unfold d_compareSuffixGreaterThan. destruct (good_suffix m _ false G) as (v & EV). rewrite EV. cbn [bind].
           destruct (suf_compare_total e Hsh Hmem (d_suf d) v k (m + 1) SF Hk) as (z & EZ). rewrite EZ. cbn [bind].
           destruct (_ && _).
           ++ eapply safe_bind; [apply di_next_safe; dcbn; auto; lia|]. intros y Y. apply safe_ok. exact Y.
           ++ apply safe_ok. cbn [snd]. apply done_safe; dcbn; auto; try lia; try congruence.
      * eapply safe_bind; [apply di_next_safe; dcbn; auto; lia|]. intros y Y. apply safe_ok. exact Y.
    + assert (H1 : 1 <= m \/ asserts e = false).
      { destruct HNil as [HN|]; auto. left. destruct m; [|lia]. destruct k; [congruence|discriminate]. }
      destruct (first_any m x ltac:(lia) HL H1) as (p & EP & b & Hb & EB). rewrite EP. cbn [bind].
      assert (G : dgood m p) by (split; [lia|eauto]).
      destruct (dappend_safe it m p V HLen G) as (kk & q & EA & W). rewrite EA. cbn [bind].
      rewrite (d_prefix_read c K HS HB HE HNE HFF st d e Hst1 HD) by (auto; lia). cbn [bind].
      destruct (term m x) eqn:ET; cbn [bind].
      * apply safe_ok. cbn [snd]. apply done_safe; dcbn; auto; [lia|]. intros _.
        destruct m; [|lia]. rewrite (term0 K HS HE HNE st e Hst1 Hmem) in ET; [discriminate|]. apply louds_item; auto.
      * eapply safe_bind; [apply move_left_safe; dcbn; auto; lia|]. intros y (Y & YV). apply safe_ok. cbn [snd].
        destruct Y as (Y & _). destruct Y as [Y1 Y2 Y3 Y4]. apply done_safe; auto.
Qed.

Lemma d_moveToKeyGreaterThan_safe : forall k inc it, is_bytes k -> k <> [] \/ asserts e = false ->
  dvec 0 (di_key it) (di_pos it) -> di_len it = 0 -> di_atprefix it = false ->
  safe (d_moveToKeyGreaterThan e d k inc it) (fun r => dleftd (snd r)).
Proof.
  intros k inc it Hk HN V HL HA. unfold d_moveToKeyGreaterThan. rewrite <- NN_root at 2.
  assert (HH : d_height d = st) by (destruct HD; auto). rewrite HH. apply d_gt_safe; auto. apply louds_root; auto.
Qed.

(** ** accessors *)
Lemma d_last_safe : forall it, dvec (di_len it) (di_key it) (di_pos it) -> 1 <= di_len it ->
  exists p l, di_lastpos it = Ok p /\ dgood l p.
Proof.
  intros it (V1 & V2 & V3 & V4) H. unfold di_lastpos. destruct (di_len it) as [|m]; [lia|]. cbn [pred_idx bind].
  rewrite (vget_ok _ _ m 0) by lia. exists (nth m (di_pos it) 0), m. split; auto.
Qed.

Lemma d_getKey_safe : forall it, dsafe it -> safe (di_getKey it) (fun k =>
  di_valid it = true -> di_complete it = false -> length k = st).
Proof.
  intros it [V P A O]. unfold di_getKey. destruct (di_valid it); cbn [negb]; [|apply safe_ok; discriminate].
  destruct V as (V1 & V2 & V3 & V4). specialize (A eq_refl). destruct (di_atprefix it) eqn:EA.
  - destruct (di_len it) as [|m] eqn:EL; [lia|]. cbn [pred_idx bind]. replace (m <=? length (di_key it)) with true by lia.
    apply safe_ok. intros _ HC. destruct (O eq_refl HC) as (_ & Q & _). discriminate.
  - cbn [bind]. replace (di_len it <=? length (di_key it)) with true by lia. apply safe_ok. intros _ HC.
    destruct (O eq_refl HC) as (Q & _). rewrite firstn_length. lia.
Qed.

Lemma d_compare_safe : forall it k, dsafe it -> di_valid it = true -> is_bytes k ->
  safe (di_compare e d it k) (fun z => di_complete it = false -> z = 0%Z -> st <= length k).
Proof.
  intros it k DS HV Hk. pose proof d_suf_fit as SF. unfold di_compare. destruct (_ && _).
  { apply safe_ok. discriminate. }
  eapply safe_bind; [apply d_getKey_safe; auto|]. intros ik HK. specialize (HK HV).
  unfold substr. cbn [Nat.ltb Nat.leb skipn bind]. set (z := str_compare ik (firstn (length ik) k)).
  destruct (Z.eqb_spec z 0) as [Z|NZ]; cbn [negb].
  - destruct (di_complete it) eqn:EC.
    + destruct DS as [V P A O]. destruct (d_last_safe it V (A HV)) as (p & l & EP & G). rewrite EP. cbn [bind].
      destruct (good_suffix l p (di_atprefix it) G) as (v & EV). rewrite EV. cbn [bind].
      destruct (suf_compare_total e Hsh Hmem (d_suf d) v k (di_len it) SF Hk) as (y & EY). rewrite EY. apply safe_ok. discriminate.
    + apply safe_ok. intros _ _. specialize (HK eq_refl).
      assert (Q : firstn (length ik) k = ik) by (destruct (str_compare_pre ik k) as [[Q _]|[[Q _]|[_ Q]]]; auto; unfold z in Z; lia).
      apply (f_equal (@length nat)) in Q. rewrite firstn_length in Q. lia.
  - apply safe_ok. intros _ ?. lia.
Qed.

Lemma d_getSuffix_safe : forall it, dsafe it -> di_valid it = true -> safe (di_getSuffix e d it) (fun _ => True).
Proof.
  intros it [V P A O] HV. pose proof d_suf_fit as SF. unfold di_getSuffix. destruct (_ && _); [|apply safe_ok; auto].
  destruct (d_last_safe it V (A HV)) as (p & l & EP & G). rewrite EP. cbn [bind].
  destruct (good_suffix l p (di_atprefix it) G) as (v & EV). rewrite EV. cbn [bind].
  destruct (suf_readReal_total e Hsh Hmem (d_suf d) v SF) as (w & EW). rewrite EW. apply safe_ok. auto.
Qed.

Lemma d_getKeyWithSuffix_safe : forall it n, dsafe it -> di_valid it = true ->
  safe (di_getKeyWithSuffix e d it n) (fun _ => True).
Proof.
  intros it n DS HV. pose proof d_suf_fit as SF. unfold di_getKeyWithSuffix.
  eapply safe_bind; [apply d_getKey_safe; auto|]. intros ik _. destruct (_ && _); [|apply safe_ok; auto].
  destruct DS as [V P A O]. destruct (d_last_safe it V (A HV)) as (p & l & EP & G). rewrite EP. cbn [bind].
  destruct (good_suffix l p (di_atprefix it) G) as (v & EV). rewrite EV. cbn [bind].
  destruct (suf_readReal_total e Hsh Hmem (d_suf d) v SF) as (w & EW). rewrite EW. cbn [bind].
  destruct (0 <? w)%N; [|apply safe_ok; auto]. unfold suffix_bytes.
  destruct (shl_total e Hsh w (sub32 64 (N.of_nat (sf_rlen (d_suf d))))) as (y & EY). rewrite EY. cbn [bind]. apply safe_ok. auto.
Qed.
End SafeDense.
