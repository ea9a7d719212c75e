(** Positions in the dense part. *)
From Coq Require Import Arith List NArith ZArith Bool Lia ZifyN ZifyNat ZifyBool Sorting.Sorted.
From Verif Require Import Res Word Config BitFacts WordFacts Bitvector BitvectorFacts Rank Select
  RankSelectFacts Suffix Spec SuffixFacts Builder KeyFacts Trie BuilderFacts
  DenseBuild StructFacts NodeFacts SparseFacts Dense.
Import ListNotations.

Lemma cn_and_split : forall (p q : nat -> bool) m,
  cn p m = cn (fun i => p i && q i) m + cn (fun i => p i && negb (q i)) m.
Proof.
  intros p q. induction m as [|m IH]; cbn [cn]; [reflexivity|]. rewrite IH.
  destruct (p m); cbn [andb]; [destruct (q m); cbn [negb]; lia|lia].
Qed.

Lemma cn_eq_upto : forall p q m i, i <= m -> (forall x, x < i -> p x = q x) -> (forall x, i <= x -> x < m -> p x = false) ->
  cn p m = cn q i.
Proof.
  intros p q m i H H1 H2. rewrite <- (cn_ext p q i) by auto. symmetry. apply cn_none_eq; auto.
  intros x Hx. apply H2; lia.
Qed.

Lemma cn_or : forall (p q : nat -> bool) m, (forall x, p x = true -> q x = false) ->
  cn (fun x => p x || q x) m = cn p m + cn q m.
Proof.
  intros p q m H. induction m as [|m IH]; cbn [cn]; [reflexivity|]. rewrite IH.
  specialize (H m). destruct (p m), (q m); cbn [orb]; try lia; specialize (H eq_refl); discriminate.
Qed.

Lemma sm_add : forall f g l, sm (fun x => f x + g x) l = sm f l + sm g l.
Proof. intros f g. induction l as [|l IH]; cbn [sm]; lia. Qed.

Lemma pos32_z : forall z m, z = Z.of_nat m -> pos32 z = wrap32 (N.of_nat m).
Proof.
  intros z m ->. unfold pos32, wrap32, two32. rewrite <- nat_N_Z.
  change 4294967296%Z with (Z.of_N 4294967296). rewrite <- N2Z.inj_mod. apply N2Z.id.
Qed.

Lemma cn_le_n : forall (p : nat -> bool) m, cn p m <= m.
Proof. intros p. induction m as [|m IH]; cbn [cn]; [lia|]. destruct (p m); lia. Qed.

Section Dense.
Variables (c : config) (K : list bytes).
Notation kk := (kk K). Notation lo := (lo K). Notation hi := (hi K). Notation leafl := (leafl K).
Notation item := (item K). Notation child := (child K). Notation louds := (louds K).
Notation leaf := (leaf K). Notation lab := (lab K). Notation term := (term K). Notation anc := (anc K).
Notation items := (items K). Notation nds := (nds K). Notation height := (height K).
Notation nit := (nit K). Notation NN := (NN K). Notation same_node := (same_node K).
Notation nn := (nn K). Notation tm := (tm K). Notation dpl := (dpl K).
Let n := length K.
Hypothesis HS : StronglySorted klt K.
Hypothesis HB : Forall is_bytes K.
Hypothesis HE : Forall (fun k => k <> []) K.
Hypothesis HNE : length K <> 0.

(** not a single key that starts with byte 255 *)
Definition no_lone_ff : Prop := length K = 1 -> lab 0 0 <> 255.
Hypothesis HFF : no_lone_ff.

Lemma tm_term : forall l i, item l i = true -> tm l i = term l i.
Proof.
  intros l i HI. unfold DenseBuild.tm. destruct (term l i) eqn:ET.
  - destruct (term_first K HS HE l i HI ET) as (A & B & _). rewrite A, (lab_term K l i ET).
    rewrite (term_not_child K HS HE l i HI ET). reflexivity.
  - destruct (louds l i) eqn:EL; [|reflexivity]. cbn [andb].
    destruct (Nat.eqb_spec (lab l i) 255) as [E|E]; [|reflexivity]. cbn [andb].
    destruct (child l i) eqn:EC; [reflexivity|]. exfalso.
    assert (HF : leaf l i = true).
    { unfold Trie.leaf. rewrite HI. unfold Trie.child in EC. rewrite HI in EC. cbn [andb] in *.
      rewrite EC. reflexivity. }
    assert (X : item l (S i) = true /\ louds l (S i) = false).
    { destruct l as [|l].
      - apply louds_spec in EL. assert (i = 0) by lia. subst i.
        apply leaf_spec in HF. unfold Trie.leafl in HF. change (lo 0) with 0 in HF.
        assert (1 < n).
        { destruct (Nat.eq_dec n 1) as [E1|]; [|fold n in HNE; lia]. exfalso. apply HFF; auto. }
        assert (hi 0 = 0) by lia. split.
        + apply item_spec. rewrite <- hi_lo. fold n. lia.
        + apply louds_root_only; auto.
      - apply node_two; auto. lia. }
    destruct X as [X1 X2].
    assert (T : term l i = true); [|congruence].
    apply (term_of_255 K HS HB) with (S i); auto.
    intros m Hm. replace m with (S i) by lia. auto.
Qed.

(** ** node numbers inside a level *)
Lemma nn_mono : forall l i i', i <= i' -> nn l i <= nn l i'.
Proof. intros l i i' H. unfold DenseBuild.nn. pose proof (cn_mono (louds l) (S i) (S i') ltac:(lia)). lia. Qed.

Lemma nn_same : forall l j i, louds l j = true -> item l i = true -> (nn l i = nn l j <-> j <= i /\ same_node l j i).
Proof.
  intros l j i HL HI. pose proof (louds_before K HNE l i HI) as A.
  pose proof (louds_before K HNE l j (louds_item K l j HL)) as B. unfold DenseBuild.nn.
  split.
  - intros E. assert (EQ : cn (louds l) (S i) = cn (louds l) (S j)) by lia.
    destruct (le_lt_dec j i) as [G|G].
    + split; auto. intros m Hm. destruct (louds l m) eqn:EM; auto.
      pose proof (cn_lt (louds l) m (S i) EM ltac:(lia)). pose proof (cn_mono (louds l) (S j) m ltac:(lia)). lia.
    + pose proof (cn_lt (louds l) j (S j) HL ltac:(lia)). pose proof (cn_mono (louds l) (S i) j ltac:(lia)). lia.
  - intros [G HN]. f_equal. symmetry. apply cn_none_eq; [lia|]. intros m Hm. apply HN. lia.
Qed.

Lemma dpl_lt_iff : forall l i i', item l i = true -> item l i' = true -> term l i = false -> term l i' = false ->
  i < i' -> dpl l i < dpl l i'.
Proof.
  intros l i i' HI HI' HT HT' H. unfold DenseBuild.dpl.
  pose proof (lab_byte K HB HNE l i) as LB. pose proof (nn_mono l i i' ltac:(lia)) as NM.
  destruct (Nat.eq_dec (nn l i) (nn l i')) as [E|E]; [|lia].
  destruct (node_start K l i HI) as (j & J1 & J2 & J3).
  assert (E1 : nn l i = nn l j) by (apply nn_same; auto).
  destruct (proj1 (nn_same l j i' J2 HI') ltac:(lia)) as [J4 J5].
  pose proof (node_lab_lt K HS HE l i i' H HI' (same_node_sub K l j i i' J5 J1 ltac:(lia)) HT). lia.
Qed.

Definition nonterm (l i : nat) : bool := item l i && negb (term l i).
Definition termi (l i : nat) : bool := item l i && term l i.

Lemma nonterm_tm : forall l i, item l i && negb (tm l i) = nonterm l i.
Proof. intros l i. unfold nonterm. destruct (item l i) eqn:E; [rewrite tm_term by auto|]; reflexivity. Qed.
Lemma tm_termi : forall l i, tm l i = termi l i.
Proof.
  intros l i. unfold termi. destruct (item l i) eqn:E; [rewrite tm_term by auto; reflexivity|].
  unfold DenseBuild.tm. destruct (louds l i) eqn:E2; [apply louds_item in E2; congruence|reflexivity].
Qed.
Lemma nonterm_spec : forall l i, nonterm l i = true <-> item l i = true /\ term l i = false.
Proof. intros l i. unfold nonterm. destruct (item l i), (term l i); cbn; intuition congruence. Qed.
Lemma termi_spec : forall l i, termi l i = true <-> item l i = true /\ term l i = true.
Proof. intros l i. unfold termi. destruct (item l i), (term l i); cbn; intuition congruence. Qed.
Lemma child_nonterm : forall l i, child l i = true -> nonterm l i = true.
Proof.
  intros l i H. apply nonterm_spec. pose proof (child_item K l i H) as HI. split; auto.
  destruct (term l i) eqn:E; auto. pose proof (term_not_child K HS HE l i HI E). congruence.
Qed.

Lemma dpl_inj : forall l i i', nonterm l i = true -> nonterm l i' = true -> dpl l i = dpl l i' -> i = i'.
Proof.
  intros l i i' H H' E. apply nonterm_spec in H. apply nonterm_spec in H'. destruct H, H'.
  destruct (lt_eq_lt_dec i i') as [[L|]|L]; auto; exfalso.
  - pose proof (dpl_lt_iff l i i'). intuition lia.
  - pose proof (dpl_lt_iff l i' i). intuition lia.
Qed.

Lemma nn_term_inj : forall l i i', termi l i = true -> termi l i' = true -> nn l i = nn l i' -> i = i'.
Proof.
  intros l i i' H H' E. apply termi_spec in H. apply termi_spec in H'. destruct H as [A B], H' as [A' B'].
  destruct (term_first K HS HE l i A B) as (L & _). destruct (term_first K HS HE l i' A' B') as (L' & _).
  destruct (proj1 (nn_same l i i' L A') ltac:(lia)) as [G1 _].
  destruct (proj1 (nn_same l i' i L' A) ltac:(lia)) as [G2 _]. lia.
Qed.

Lemma dlab_eq : forall l, dlab K l = bm (nonterm l) (dpl l) (seq 0 n) (256 * nds l).
Proof.
  intros l. unfold dlab, bm. apply map_ext. intros p. apply existsb_ext. intros x. rewrite nonterm_tm. reflexivity.
Qed.
Lemma dpre_eq : forall l, dpre K l = bm (termi l) (nn l) (seq 0 n) (nds l).
Proof.
  intros l. unfold dpre, bm. apply map_ext. intros p. apply existsb_ext. intros x. rewrite tm_termi. reflexivity.
Qed.

(** ** the elementary reads *)
Variables (st : nat) (d : dense) (e : env).
Hypothesis Hst1 : 1 <= st.
Hypothesis HD : dense_ok c K st d.

Lemma off_dlab : forall l, off (dlab K) 0 l = 256 * sm nds l.
Proof. intros. unfold off. cbn [sm]. rewrite (sm_ext _ (fun l => 256 * nds l)) by (intros; apply dlab_length). rewrite sm_mul. lia. Qed.
Lemma off_dchl : forall l, off (dchl K) 0 l = 256 * sm nds l.
Proof. intros. unfold off. cbn [sm]. rewrite (sm_ext _ (fun l => 256 * nds l)) by (intros; apply dchl_length). rewrite sm_mul. lia. Qed.
Lemma off_dpre : forall l, off (dpre K) 0 l = sm nds l.
Proof. intros. unfold off. cbn [sm]. rewrite (sm_ext _ nds) by (intros; apply dpre_length). lia. Qed.
Lemma len_dlab : length (cc (dlab K) 0 st) = 256 * sm nds st.
Proof. rewrite cc_length by lia. rewrite <- off_dlab. reflexivity. Qed.
Lemma len_dchl : length (cc (dchl K) 0 st) = 256 * sm nds st.
Proof. rewrite cc_length by lia. rewrite <- off_dchl. reflexivity. Qed.
Lemma len_dpre : length (cc (dpre K) 0 st) = sm nds st.
Proof. rewrite cc_length by lia. rewrite <- off_dpre. reflexivity. Qed.

(** position of byte [b] in the node that starts with item [j] *)
Definition dp (l j b : nat) : nat := 256 * NN l j + b.

Lemma NN_nn : forall l j, NN l j = sm nds l + nn l j.
Proof. reflexivity. Qed.

Lemma dp_lt : forall l j b, l < st -> louds l j = true -> b < 256 -> dp l j b < 256 * sm nds st.
Proof.
  intros l j b Hl HL Hb. pose proof (nn_lt K HNE l j (louds_item K l j HL)) as Q.
  unfold dp. rewrite NN_nn. pose proof (sm_mono nds (S l) st Hl) as M. cbn [sm] in M. lia.
Qed.

Lemma node_lt : forall l j, l < st -> louds l j = true -> NN l j < sm nds st.
Proof.
  intros l j Hl HL. pose proof (nn_lt K HNE l j (louds_item K l j HL)) as Q. rewrite NN_nn.
  pose proof (sm_mono nds (S l) st Hl) as M. cbn [sm] in M. lia.
Qed.

Lemma in_level : forall l j b, louds l j = true -> b < 256 -> 256 * nn l j + b < 256 * nds l.
Proof. intros l j b HL Hb. pose proof (nn_lt K HNE l j (louds_item K l j HL)). lia. Qed.

Lemma dlab_nth : forall l j b, l < st -> louds l j = true -> b < 256 ->
  nth (dp l j b) (cc (dlab K) 0 st) false = existsb (fun i => nonterm l i && (dpl l i =? 256 * nn l j + b)) (seq 0 n).
Proof.
  intros l j b Hl HL Hb. pose proof (in_level l j b HL Hb) as IL.
  replace (dp l j b) with (off (dlab K) 0 l + (256 * nn l j + b)) by (rewrite off_dlab; unfold dp; rewrite NN_nn; lia).
  rewrite cc_nth by (try rewrite dlab_length; lia). rewrite dlab_eq, bm_nth by auto. reflexivity.
Qed.

Lemma in_node : forall l j b i, louds l j = true -> b < 256 -> nonterm l i = true ->
  (dpl l i = 256 * nn l j + b <-> j <= i /\ same_node l j i /\ lab l i = b).
Proof.
  intros l j b i HL Hb H. apply nonterm_spec in H. destruct H as [HI HT].
  pose proof (lab_byte K HB HNE l i) as LB. unfold DenseBuild.dpl.
  pose proof (nn_same l j i HL HI) as Q. split.
  - intros E. assert (nn l i = nn l j) by lia. apply Q in H. destruct H. repeat split; auto. lia.
  - intros (A & B & C). assert (nn l i = nn l j) by (apply Q; auto). lia.
Qed.

Lemma readLabel_true : forall l j i, l < st -> louds l j = true -> j <= i -> item l i = true -> same_node l j i ->
  term l i = false -> d_readLabel e d (dp l j (lab l i)) = Ok true.
Proof.
  intros l j i Hl HL A B C D. pose proof (lab_byte K HB HNE l i) as LB. unfold d_readLabel.
  destruct HD as [_ [R _] _ _ _ _]. rewrite (readBit_spec e _ _ _ R) by (rewrite len_dlab; apply dp_lt; auto).
  f_equal. rewrite dlab_nth by auto. apply existsb_seq. exists i.
  pose proof (item_lt K l i B) as Hi. split; auto.
  assert (NT : nonterm l i = true) by (apply nonterm_spec; auto). rewrite NT. cbn [andb].
  apply Nat.eqb_eq. apply in_node; auto.
Qed.

Lemma readLabel_false : forall l j b, l < st -> louds l j = true -> b < 256 ->
  (forall i, j <= i -> item l i = true -> same_node l j i -> term l i = false -> lab l i <> b) ->
  d_readLabel e d (dp l j b) = Ok false.
Proof.
  intros l j b Hl HL Hb H. unfold d_readLabel.
  destruct HD as [_ [R _] _ _ _ _]. rewrite (readBit_spec e _ _ _ R) by (rewrite len_dlab; apply dp_lt; auto).
  f_equal. rewrite dlab_nth by auto. destruct (existsb _ _) eqn:EX; auto. exfalso.
  apply existsb_seq in EX. destruct EX as (i & Hi & E). apply andb_prop in E. destruct E as [E1 E2].
  apply Nat.eqb_eq in E2. apply in_node in E2; auto. apply nonterm_spec in E1.
  destruct E2 as (A & B & C). destruct E1. apply (H i); auto.
Qed.

Lemma readChild_spec : forall l j i, l < st -> louds l j = true -> j <= i -> item l i = true -> same_node l j i ->
  term l i = false -> d_readChild e d (dp l j (lab l i)) = Ok (child l i).
Proof.
  intros l j i Hl HL A B C D. pose proof (lab_byte K HB HNE l i) as LB. unfold d_readChild.
  destruct HD as [_ _ [R _] _ _ _]. rewrite (readBit_spec e _ _ _ R) by (rewrite len_dchl; apply dp_lt; auto).
  f_equal. pose proof (in_level l j (lab l i) HL LB) as IL.
  replace (dp l j (lab l i)) with (off (dchl K) 0 l + (256 * nn l j + lab l i)) by (rewrite off_dchl; unfold dp; rewrite NN_nn; lia).
  rewrite cc_nth by (try rewrite dchl_length; lia). unfold dchl. rewrite bm_nth by auto.
  assert (NT : nonterm l i = true) by (apply nonterm_spec; auto).
  assert (EQ : dpl l i = 256 * nn l j + lab l i) by (apply in_node; auto).
  pose proof (item_lt K l i B) as Hi.
  destruct (child l i) eqn:EC.
  - apply existsb_seq. exists i. split; auto. rewrite EC, EQ. cbn [andb]. apply Nat.eqb_refl.
  - destruct (existsb _ _) eqn:EX; auto. exfalso. apply existsb_seq in EX. destruct EX as (i' & Hi' & E).
    apply andb_prop in E. destruct E as [E1 E2]. apply Nat.eqb_eq in E2.
    assert (i' = i) by (apply (dpl_inj l); auto using child_nonterm; congruence). congruence.
Qed.

Lemma readPrefix_spec : forall l j, l < st -> louds l j = true -> d_readPrefix e d (NN l j) = Ok (term l j).
Proof.
  intros l j Hl HL. pose proof (louds_item K l j HL) as HI. unfold d_readPrefix.
  destruct HD as [_ _ _ [R _] _ _]. rewrite (readBit_spec e _ _ _ R) by (rewrite len_dpre; apply node_lt; auto).
  f_equal. rewrite NN_nn, <- off_dpre. pose proof (nn_lt K HNE l j HI) as NL.
  rewrite cc_nth by (try rewrite dpre_length; lia). rewrite dpre_eq, bm_nth by auto.
  pose proof (item_lt K l j HI) as Hj. destruct (term l j) eqn:ET.
  - apply existsb_seq. exists j. split; auto. rewrite Nat.eqb_refl, andb_true_r. apply termi_spec. auto.
  - destruct (existsb _ _) eqn:EX; auto. exfalso. apply existsb_seq in EX. destruct EX as (i & Hi & E).
    apply andb_prop in E. destruct E as [E1 E2]. apply Nat.eqb_eq in E2. apply termi_spec in E1. destruct E1 as [A B].
    destruct (term_first K HS HE l i A B) as (L & _).
    destruct (proj1 (nn_same l j i HL A) E2) as [G HN]. destruct (Nat.eq_dec i j) as [->|NE]; [congruence|].
    rewrite HN in L by lia. discriminate.
Qed.

(** ** ranks *)
Lemma bm_rank : forall (P : nat -> nat -> bool) (f : nat -> nat -> nat) (len : nat -> nat) l p,
  l < st -> p < len l ->
  (forall l i i', P l i = true -> P l i' = true -> f l i = f l i' -> i = i') ->
  (forall l i, P l i = true -> i < n /\ f l i < len l) ->
  cnt (firstn (S (off (fun l => bm (P l) (f l) (seq 0 n) (len l)) 0 l + p))
        (cc (fun l => bm (P l) (f l) (seq 0 n) (len l)) 0 st)) =
  sm (fun l => cn (P l) n) l + cn (fun i => P l i && (f l i <? S p)) n.
Proof.
  intros P f len l p Hl Hp HI HF. set (lev := fun l => bm (P l) (f l) (seq 0 n) (len l)).
  rewrite <- Nat.add_succ_r. rewrite (cc_cnt_firstn lev) by (try (unfold lev; rewrite bm_length); lia).
  cbn [sm]. rewrite Nat.sub_0_r. f_equal.
  - apply sm_ext. intros l' _. unfold lev. rewrite <- (firstn_all (bm _ _ _ _)), bm_length.
    rewrite cnt_firstn_bm by (eauto; lia). apply cn_ext. intros x Hx. destruct (P l' x) eqn:E; [|reflexivity].
    apply HF in E. cbn [andb]. lia.
  - unfold lev. apply cnt_firstn_bm; eauto; lia.
Qed.

Lemma rank_child : forall l j b, l < st -> louds l j = true -> b < 256 ->
  rank e (d_child d) (dp l j b) =
  Ok (sm (fun l => cn (child l) n) l + cn (fun i => child l i && (dpl l i <? S (256 * nn l j + b))) n).
Proof.
  intros l j b Hl HL Hb. destruct HD as [_ _ R _ _ _].
  rewrite (rank_spec e _ _ _ R) by (rewrite len_dchl; apply dp_lt; auto). f_equal.
  replace (dp l j b) with (off (dchl K) 0 l + (256 * nn l j + b)) by (rewrite off_dchl; unfold dp; rewrite NN_nn; lia).
  apply (bm_rank child dpl (fun l => 256 * nds l)); auto.
  - apply in_level; auto.
  - intros l' i i' A B E. apply (dpl_inj l'); auto using child_nonterm.
  - intros l' i A. apply child_item in A. split; [apply (item_lt K l' i A)|apply dpl_lt; auto].
Qed.

Lemma rank_label : forall l j b, l < st -> louds l j = true -> b < 256 ->
  rank e (d_labels d) (dp l j b) =
  Ok (sm (fun l => cn (nonterm l) n) l + cn (fun i => nonterm l i && (dpl l i <? S (256 * nn l j + b))) n).
Proof.
  intros l j b Hl HL Hb. destruct HD as [_ R _ _ _ _].
  rewrite (rank_spec e _ _ _ R) by (rewrite len_dlab; apply dp_lt; auto). f_equal.
  replace (dp l j b) with (off (dlab K) 0 l + (256 * nn l j + b)) by (rewrite off_dlab; unfold dp; rewrite NN_nn; lia).
  assert (EL : forall A s t (f g : nat -> list A), (forall l, f l = g l) -> cc f s t = cc g s t).
  { intros A s t f g H. unfold cc. f_equal. apply map_ext. auto. }
  assert (EO : off (dlab K) 0 l = off (fun l => bm (nonterm l) (dpl l) (seq 0 n) (256 * nds l)) 0 l).
  { unfold off. cbn [sm]. f_equal. apply sm_ext. intros. rewrite dlab_eq. reflexivity. }
  rewrite (EL _ 0 st _ _ dlab_eq), EO.
  apply (bm_rank nonterm dpl (fun l => 256 * nds l)); auto.
  - apply in_level; auto.
  - intros l' i i' A B E. apply (dpl_inj l'); auto.
  - intros l' i A. apply nonterm_spec in A. destruct A as [A _]. split; [apply (item_lt K l' i A)|apply dpl_lt; auto].
Qed.

Lemma rank_prefix : forall l j, l < st -> louds l j = true ->
  rank e (d_prefix d) (NN l j) =
  Ok (sm (fun l => cn (termi l) n) l + cn (fun i => termi l i && (nn l i <? S (nn l j))) n).
Proof.
  intros l j Hl HL. destruct HD as [_ _ _ R _ _].
  rewrite (rank_spec e _ _ _ R) by (rewrite len_dpre; apply node_lt; auto). f_equal.
  rewrite NN_nn, <- off_dpre.
  assert (EL : forall A s t (f g : nat -> list A), (forall l, f l = g l) -> cc f s t = cc g s t).
  { intros A s t f g H. unfold cc. f_equal. apply map_ext. auto. }
  assert (EO : off (dpre K) 0 l = off (fun l => bm (termi l) (nn l) (seq 0 n) (nds l)) 0 l).
  { unfold off. cbn [sm]. f_equal. apply sm_ext. intros. rewrite dpre_eq. reflexivity. }
  rewrite (EL _ 0 st _ _ dpre_eq), EO.
  apply (bm_rank termi nn nds); auto.
  - apply nn_lt; auto. apply louds_item. auto.
  - intros l' i i' A B E. apply (nn_term_inj l'); auto.
  - intros l' i A. apply termi_spec in A. destruct A as [A _]. split; [apply (item_lt K l' i A)|apply nn_lt; auto].
Qed.

Lemma dpl_le_iff : forall l i i', nonterm l i = true -> nonterm l i' = true -> (dpl l i' <? S (dpl l i)) = (i' <? S i).
Proof.
  intros l i i' H H'. pose proof (dpl_inj l i i' H H'). apply nonterm_spec in H. apply nonterm_spec in H'. destruct H, H'.
  destruct (lt_eq_lt_dec i i') as [[L|L]|L].
  - pose proof (dpl_lt_iff l i i'). intuition lia.
  - subst. lia.
  - pose proof (dpl_lt_iff l i' i). intuition lia.
Qed.

Lemma child_node : forall l j i, l < st -> louds l j = true -> j <= i -> same_node l j i -> child l i = true ->
  d_getChildNodeNum e d (dp l j (lab l i)) = Ok (NN (S l) i).
Proof.
  intros l j i Hl HL A B C. pose proof (lab_byte K HB HNE l i) as LB. pose proof (child_item K l i C) as HI.
  pose proof (item_lt K l i HI) as Hi.
  unfold d_getChildNodeNum. rewrite rank_child by auto. f_equal.
  pose proof (child_nonterm l i C) as NT.
  assert (EQ : dpl l i = 256 * nn l j + lab l i) by (apply in_node; auto). rewrite <- EQ.
  rewrite (cn_eq_upto _ (child l) n (S i)).
  - rewrite cn_child_louds. unfold SparseFacts.NN. pose proof (sm_child K l) as Q. fold n in Q.
    assert (1 <= cn (louds (S l)) (S i)) by (cbn [cn]; rewrite <- child_louds, C; lia).
    pose proof (nds_root K HNE). lia.
  - auto.
  - intros x Hx. destruct (child l x) eqn:E; [|reflexivity]. rewrite dpl_le_iff by (auto using child_nonterm). cbn [andb]. lia.
  - intros x Hx1 Hx2. destruct (child l x) eqn:E; [|reflexivity]. rewrite dpl_le_iff by (auto using child_nonterm). cbn [andb]. lia.
Qed.

(** ** suffix positions *)
Definition dsidx (l i : nat) : nat := off (ssfx c K) 0 l + cn (leaf l) i.

Lemma leaf_split : forall l x, leaf l x = termi l x || (nonterm l x && negb (child l x)).
Proof.
  intros l x. unfold termi, nonterm. destruct (item l x) eqn:EI.
  - assert (E : leaf l x = negb (child l x)).
    { unfold Trie.leaf, Trie.child. rewrite EI. reflexivity. }
    rewrite E. destruct (term l x) eqn:ET; cbn [andb orb negb]; [|reflexivity].
    rewrite (term_not_child K HS HE l x EI ET). reflexivity.
  - unfold Trie.leaf. rewrite EI. reflexivity.
Qed.

Definition nleaf (l x : nat) : bool := nonterm l x && negb (child l x).

Lemma cn_leaf : forall l m, cn (leaf l) m = cn (termi l) m + cn (nleaf l) m.
Proof.
  intros l m. rewrite <- cn_or.
  - apply cn_ext. intros x _. apply leaf_split.
  - intros x H. apply termi_spec in H. destruct H as [A B]. unfold nleaf, nonterm. rewrite A, B. reflexivity.
Qed.

Lemma cn_nonterm : forall l (q : nat -> bool) m,
  cn (fun x => nonterm l x && q x) m = cn (fun x => child l x && q x) m + cn (fun x => nleaf l x && q x) m.
Proof.
  intros l q m. rewrite (cn_and_split (fun x => nonterm l x && q x) (child l)). f_equal; apply cn_ext; intros x _.
  - destruct (child l x) eqn:E; [rewrite (child_nonterm l x E)|]; cbn [andb]; [apply andb_true_r|apply andb_false_r].
  - unfold nleaf. destruct (nonterm l x), (q x), (child l x); reflexivity.
Qed.

Lemma off_ssfx : forall l, off (ssfx c K) 0 l = sm (fun l => cn (termi l) n) l + sm (fun l => cn (nleaf l) n) l.
Proof.
  intros l. unfold off. cbn [sm]. rewrite Nat.sub_0_r. rewrite <- sm_add. apply sm_ext. intros l' _.
  rewrite ssfx_n. apply cn_leaf.
Qed.

Lemma sm_nonterm : forall l, sm (fun l => cn (nonterm l) n) l = sm (fun l => cn (child l) n) l + sm (fun l => cn (nleaf l) n) l.
Proof.
  intros l. rewrite <- sm_add. apply sm_ext. intros l' _. pose proof (cn_nonterm l' (fun _ => true) n) as Q.
  rewrite !(cn_ext (fun x => _ && true) _ n (fun x _ => andb_true_r _)) in Q. exact Q.
Qed.

Lemma dp_div : forall l j b, b < 256 -> dp l j b / kNodeFanout = NN l j.
Proof.
  intros l j b Hb. unfold dp, kNodeFanout. rewrite Nat.mul_comm, Nat.add_comm, Nat.div_add by lia.
  rewrite Nat.div_small by lia. reflexivity.
Qed.
Lemma dp_mod : forall l j b, b < 256 -> dp l j b mod kNodeFanout = b.
Proof.
  intros l j b Hb. unfold dp, kNodeFanout. rewrite Nat.mul_comm, Nat.add_comm, Nat.mod_add by lia.
  apply Nat.mod_small. lia.
Qed.

(** number of non-terminator leaves at positions up to [p] in level [l] *)
Lemma suffix_pos_raw : forall l j b, l < st -> louds l j = true -> b < 256 ->
  (rl <- rank e (d_labels d) (dp l j b) ;;
   rc <- rank e (d_child d) (dp l j b) ;;
   rp <- rank e (d_prefix d) (dp l j b / kNodeFanout) ;;
   Ok (Z.of_nat rl - Z.of_nat rc + Z.of_nat rp - 1)%Z) =
  Ok (Z.of_nat (off (ssfx c K) 0 l + cn (fun i => nleaf l i && (dpl l i <? S (256 * nn l j + b))%nat) n
       + cn (fun i => termi l i && (nn l i <? S (nn l j))%nat) n)%nat - 1)%Z.
Proof.
  intros l j b Hl HL Hb. rewrite rank_label, rank_child by auto. cbn [bind].
  rewrite dp_div by auto. rewrite rank_prefix by auto. cbn [bind]. f_equal.
  rewrite off_ssfx, sm_nonterm, cn_nonterm. lia.
Qed.

Lemma d_suffix_eq : forall pos pk, d_getSuffixPos e d pos pk =
  (z <- (rl <- rank e (d_labels d) pos ;;
   rc <- rank e (d_child d) pos ;;
   rp <- rank e (d_prefix d) (pos / kNodeFanout) ;;
   Ok (Z.of_nat rl - Z.of_nat rc + Z.of_nat rp - 1)%Z) ;;
   dec <- (if pk : bool then
            l <- d_readLabel e d pos ;;
            if l : bool then c <- d_readChild e d pos ;; Ok (negb c) else Ok false
          else Ok false) ;;
  Ok (pos32 (if dec : bool then z - 1 else z)%Z)).
Proof.
  intros. unfold d_getSuffixPos.
  destruct (rank e (d_labels d) pos); cbn [bind]; [|reflexivity].
  destruct (rank e (d_child d) pos); cbn [bind]; [|reflexivity].
  destruct (rank e (d_prefix d) (pos / kNodeFanout)); cbn [bind]; reflexivity.
Qed.

Lemma leaf_idx : forall l i, l < st -> leaf l i = true ->
  dsidx l i < length (cc (ssfx c K) 0 st) /\ nth (dsidx l i) (cc (ssfx c K) 0 st) 0%N = sv c K i.
Proof.
  intros l i Hl HF. apply leaf_spec in HF as HF'. destruct HF' as [Hi _].
  pose proof (cn_lt (leaf l) i n HF Hi) as CL. split.
  - unfold dsidx. rewrite cc_length by lia. cbn [sm]. rewrite Nat.sub_0_r.
    unfold off. cbn [sm]. rewrite Nat.sub_0_r. pose proof (sm_mono (fun l => length (ssfx c K l)) (S l) st Hl) as M.
    cbn [sm] in M. rewrite ssfx_n in M. fold n in M. lia.
  - unfold dsidx. rewrite cc_nth by (try rewrite ssfx_n; fold n; lia).
    unfold ssfx. rewrite nth_indep with (d' := sv c K 0) by (rewrite map_length, cn_filter; auto).
    rewrite map_nth. f_equal. apply nth_filter_seq; auto.
Qed.

Lemma term_nn : forall l i x, termi l x = true -> item l i = true -> (nn l x <? S (nn l i)) = (x <? S i).
Proof.
  intros l i x HT HI. apply termi_spec in HT. destruct HT as [A B].
  destruct (term_first K HS HE l x A B) as (L & _).
  destruct (le_lt_dec x i) as [G|G].
  - pose proof (nn_mono l x i G). lia.
  - pose proof (nn_mono l i x ltac:(lia)). destruct (Nat.eq_dec (nn l i) (nn l x)) as [E|]; [|lia].
    destruct (proj1 (nn_same l x i L HI) E). lia.
Qed.

Lemma d_suffix_leaf : forall l j i, l < st -> louds l j = true -> j <= i -> same_node l j i ->
  leaf l i = true -> term l i = false ->
  d_getSuffixPos e d (dp l j (lab l i)) false = Ok (wrap32 (N.of_nat (dsidx l i))).
Proof.
  intros l j i Hl HL A B HF HT. pose proof (leaf_item K l i HF) as HI.
  pose proof (lab_byte K HB HNE l i) as LB. rewrite d_suffix_eq, suffix_pos_raw by auto. cbn [bind].
  f_equal. apply pos32_z.
  assert (NT : nonterm l i = true) by (apply nonterm_spec; auto).
  assert (EQ : dpl l i = 256 * nn l j + lab l i) by (apply in_node; auto). rewrite <- EQ.
  assert (EN : nn l i = nn l j) by (apply nn_same; auto). rewrite <- EN.
  pose proof (item_lt K l i HI) as Hi.
  rewrite (cn_eq_upto (fun x => nleaf l x && _) (nleaf l) n (S i)).
  - rewrite (cn_eq_upto (fun x => termi l x && _) (termi l) n (S i)).
    + unfold dsidx. pose proof (cn_leaf l (S i)) as Q. cbn [cn] in *. rewrite HF in Q. lia.
    + auto.
    + intros x Hx. destruct (termi l x) eqn:E; [|reflexivity]. rewrite term_nn by auto. cbn [andb]. lia.
    + intros x Hx Hx2. destruct (termi l x) eqn:E; [|reflexivity]. rewrite term_nn by auto. cbn [andb]. lia.
  - auto.
  - intros x Hx. destruct (nleaf l x) eqn:E; [|reflexivity]. apply andb_prop in E. rewrite dpl_le_iff by tauto. cbn [andb]. lia.
  - intros x Hx Hx2. destruct (nleaf l x) eqn:E; [|reflexivity]. apply andb_prop in E. rewrite dpl_le_iff by tauto. cbn [andb]. lia.
Qed.

(** the terminator of a node, read at any position of the node that no label precedes *)
Lemma d_suffix_term : forall l j b, l < st -> louds l j = true -> term l j = true -> b < 256 ->
  (forall i, j <= i -> item l i = true -> same_node l j i -> term l i = false -> b <= lab l i) ->
  d_getSuffixPos e d (dp l j b) true = Ok (wrap32 (N.of_nat (dsidx l j))).
Proof.
  intros l j b Hl HL HT Hb HF. pose proof (louds_item K l j HL) as HI.
  destruct (term_first K HS HE l j HI HT) as (_ & HLF & _).
  pose proof (item_lt K l j HI) as Hj.
  rewrite d_suffix_eq, suffix_pos_raw by auto. cbn [bind].
  assert (CT : cn (fun x => termi l x && (nn l x <? S (nn l j))) n = S (cn (termi l) j)).
  { rewrite (cn_eq_upto _ (termi l) n (S j)); auto.
    - cbn [cn]. replace (termi l j) with true by (symmetry; apply termi_spec; auto). lia.
    - intros x Hx. destruct (termi l x) eqn:E; [|reflexivity]. rewrite term_nn by auto. cbn [andb]. lia.
    - intros x Hx Hx2. destruct (termi l x) eqn:E; [|reflexivity]. rewrite term_nn by auto. cbn [andb]. lia. }
  rewrite CT.
  (* non-terminator leaves before position b of the node *)
  assert (BEF : forall x, nonterm l x = true -> (dpl l x < 256 * nn l j + b <-> x < j)).
  { intros x NT. apply nonterm_spec in NT as NT'. destruct NT' as [XI XT].
    pose proof (lab_byte K HB HNE l x) as LBx. unfold DenseBuild.dpl. split.
    - intros H. destruct (lt_dec x j) as [|G]; auto. exfalso.
      pose proof (nn_mono l j x ltac:(lia)). assert (EN : nn l x = nn l j) by lia.
      apply nn_same in EN; auto. destruct EN as [E1 E2]. pose proof (HF x E1 XI E2 XT).
      assert (nn l x = nn l j) by (apply nn_same; auto). lia.
    - intros H. pose proof (nn_mono l x j ltac:(lia)).
      destruct (Nat.eq_dec (nn l x) (nn l j)) as [E|]; [|lia].
      apply nn_same in E; auto. lia. }
  destruct (existsb (fun i => nonterm l i && (dpl l i =? 256 * nn l j + b)) (seq 0 n)) eqn:EX.
  - apply existsb_seq in EX. destruct EX as (i & Hi & E). apply andb_prop in E. destruct E as [E1 E2].
    apply Nat.eqb_eq in E2. pose proof (proj1 (in_node l j b i HL Hb E1) E2) as (F1 & F2 & F3).
    apply nonterm_spec in E1 as E1'. destruct E1' as [I1 I2].
    assert (NJ : j < i) by (destruct (Nat.eq_dec i j) as [->|]; [congruence|lia]).
    rewrite <- F3, readLabel_true by auto. cbn [bind]. rewrite readChild_spec by auto. cbn [bind]. f_equal.
    rewrite F3, <- E2.
    assert (CN : cn (fun x => nleaf l x && (dpl l x <? S (dpl l i))) n = cn (nleaf l) j + (if child l i then 0 else 1)).
    { rewrite (cn_eq_upto _ (fun x => nleaf l x && ((x <? j) || (x =? i))) n (S i)); auto.
      - cbn [cn]. unfold nleaf at 2. rewrite E1, Nat.eqb_refl, orb_true_r, andb_true_r. cbn [andb].
        rewrite (cn_eq_upto _ (nleaf l) i j); [destruct (child l i); cbn [negb]; lia|lia| |].
        + intros x Hx. replace (x <? j) with true by lia. cbn [orb]. apply andb_true_r.
        + intros x Hx Hx2. replace (x <? j) with false by lia. replace (x =? i) with false by lia. apply andb_false_r.
      - intros x Hx. destruct (nleaf l x) eqn:E; [|reflexivity]. cbn [andb]. apply andb_prop in E. destruct E as [NT _].
        pose proof (BEF x NT) as Q. rewrite <- E2 in Q. pose proof (dpl_inj l x i NT E1).
        destruct (Nat.eq_dec x i) as [->|NE]; [lia|].
        assert (dpl l x <> dpl l i) by auto. lia.
      - intros x Hx Hx2. destruct (nleaf l x) eqn:E; [|reflexivity]. cbn [andb]. apply andb_prop in E. destruct E as [NT _].
        rewrite dpl_le_iff by auto. lia. }
    rewrite CN. apply pos32_z.
    unfold dsidx. rewrite (cn_leaf l j). destruct (child l i); cbn [negb]; lia.
  - rewrite readLabel_false; auto.
    + cbn [bind]. f_equal. apply pos32_z.
      rewrite (cn_eq_upto (fun x => nleaf l x && _) (nleaf l) n j).
      * unfold dsidx. rewrite (cn_leaf l j). lia.
      * lia.
      * intros x Hx. destruct (nleaf l x) eqn:E; [|reflexivity]. cbn [andb]. apply andb_prop in E. destruct E as [NT _].
        pose proof (BEF x NT). lia.
      * intros x Hx Hx2. destruct (nleaf l x) eqn:E; [|reflexivity]. cbn [andb]. apply andb_prop in E. destruct E as [NT _].
        pose proof (BEF x NT) as Q. assert (dpl l x <> 256 * nn l j + b); [|lia]. intros F.
        assert (X : existsb (fun i => nonterm l i && (dpl l i =? 256 * nn l j + b)) (seq 0 n) = true); [|congruence].
        apply existsb_seq. exists x. split; auto. rewrite NT. cbn [andb]. apply Nat.eqb_eq. exact F.
    + intros i A1 A2 A3 A4 A5.
      assert (X : existsb (fun i => nonterm l i && (dpl l i =? 256 * nn l j + b)) (seq 0 n) = true); [|congruence].
      apply existsb_seq. exists i. split; [apply (item_lt K l i A2)|].
      assert (NT : nonterm l i = true) by (apply nonterm_spec; auto). rewrite NT. cbn [andb].
      apply Nat.eqb_eq. apply in_node; auto.
Qed.
End Dense.
