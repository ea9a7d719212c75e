(** The dense bitmaps made from the levels (surf_builder.hpp:353-397), and the
    choice of the first sparse level (surf_builder.hpp:319-351). *)
From Coq Require Import Arith List NArith ZArith Bool Lia ZifyN ZifyNat ZifyBool Sorting.Sorted.
From Verif Require Import Res Word Config Hash BitFacts WordFacts Bitvector BitvectorFacts Suffix Spec
  SuffixFacts Builder StoreFacts KeyFacts Trie BuilderFacts.
Import ListNotations.

(** ** bitmaps given by a set of positions *)

Definition bm (P : nat -> bool) (f : nat -> nat) (xs : list nat) (len : nat) : list bool :=
  map (fun p => existsb (fun i => P i && (f i =? p)) xs) (seq 0 len).

Lemma bm_length : forall P f xs len, length (bm P f xs len) = len.
Proof. intros. unfold bm. rewrite map_length, seq_length. reflexivity. Qed.

Lemma bm_nth : forall P f xs len p, p < len ->
  nth p (bm P f xs len) false = existsb (fun i => P i && (f i =? p)) xs.
Proof.
  intros. unfold bm. rewrite nth_indep with (d' := existsb (fun i => P i && (f i =? 0)) xs)
    by (rewrite map_length, seq_length; auto).
  rewrite (map_nth (fun p => existsb (fun i => P i && (f i =? p)) xs) (seq 0 len) 0 p).
  rewrite seq_nth by auto. reflexivity.
Qed.

(** counting the bits below [p] counts the elements *)
Lemma cnt_map_seq : forall (g : nat -> bool) m p, p <= m -> cnt (firstn p (map g (seq 0 m))) = cn g p.
Proof.
  intros g m p. induction p as [|p IH]; intros H; [reflexivity|].
  rewrite firstn_S_snoc with (x := g p).
  - rewrite cnt_app, IH by lia. cbn [cn cnt]. destruct (g p); reflexivity.
  - rewrite nth_error_map. rewrite (nth_error_nth' _ 0) by (rewrite seq_length; lia).
    rewrite seq_nth by lia. reflexivity.
Qed.

Lemma cn_zero : forall j (p : nat -> bool), (forall i, i < j -> p i = false) -> cn p j = 0.
Proof. induction j as [|j IH]; intros p H; [reflexivity|]. cbn [cn]. rewrite (H j), IH by auto. reflexivity. Qed.

Lemma cn_one : forall j (p : nat -> bool) i, i < j -> p i = true ->
  (forall i', i' < j -> p i' = true -> i' = i) -> cn p j = 1.
Proof.
  induction j as [|j IH]; intros p i Hi Hp HU; [lia|]. cbn [cn].
  destruct (Nat.eq_dec i j) as [->|N].
  - rewrite Hp, cn_zero; [reflexivity|]. intros x Hx. destruct (p x) eqn:E; auto. apply HU in E; lia.
  - rewrite (IH p i); auto; [|lia]. destruct (p j) eqn:E; [|lia]. apply HU in E; lia.
Qed.

Lemma cn_plus : forall j (p q : nat -> bool), (forall i, i < j -> p i && q i = false) ->
  cn (fun i => p i || q i) j = cn p j + cn q j.
Proof.
  induction j as [|j IH]; intros p q H; [reflexivity|]. cbn [cn]. rewrite IH by auto.
  specialize (H j ltac:(lia)). destruct (p j), (q j); cbn in *; try lia; discriminate.
Qed.

Lemma existsb_seq : forall (p : nat -> bool) n, existsb p (seq 0 n) = true <-> exists i, i < n /\ p i = true.
Proof.
  intros. rewrite existsb_exists. split; intros (x & A & B); exists x; split; auto.
  - apply in_seq in A. lia.
  - apply in_seq. lia.
Qed.

Lemma cnt_firstn_bm : forall P f n len p, p <= len ->
  (forall i i', i < n -> i' < n -> P i = true -> P i' = true -> f i = f i' -> i = i') ->
  cnt (firstn p (bm P f (seq 0 n) len)) = cn (fun i => P i && (f i <? p)) n.
Proof.
  intros P f n len p Hp HI. unfold bm. rewrite cnt_map_seq by auto.
  clear Hp len. induction p as [|p IH].
  - cbn [cn]. symmetry. apply cn_zero. intros. replace (f i <? 0) with false by lia. apply andb_false_r.
  - cbn [cn]. rewrite IH.
    rewrite (cn_ext (fun i => P i && (f i <? S p)) (fun i => (P i && (f i <? p)) || (P i && (f i =? p)))).
    + rewrite cn_plus.
      * f_equal. destruct (existsb _ (seq 0 n)) eqn:E.
        -- apply existsb_seq in E. destruct E as (i & A & B). symmetry. apply cn_one with (i := i); auto.
           intros i' A' B'. apply HI; auto; lia.
        -- symmetry. apply cn_zero. intros i Hi. destruct (P i && (f i =? p)) eqn:E2; auto.
           rewrite <- not_true_iff_false in E. exfalso. apply E. apply existsb_seq. exists i. auto.
      * intros. destruct (P i); cbn [andb]; lia.
    + intros. destruct (P i); cbn [andb orb]; lia.
Qed.

(** ** filtered ranges *)

Lemma firstn_filter_seq : forall P i n, i <= n ->
  firstn (cn P i) (filter P (seq 0 n)) = filter P (seq 0 i).
Proof.
  intros P i n H. replace n with (i + (n - i)) by lia. rewrite seq_app, filter_app, <- cn_filter.
  apply firstn_app_l || (rewrite firstn_app, firstn_all, Nat.sub_diag; cbn; apply app_nil_r).
Qed.

Lemma nth_filter_seq : forall P i n d, i < n -> P i = true -> nth (cn P i) (filter P (seq 0 n)) d = i.
Proof.
  intros P i n d H HP. replace n with (i + S (n - S i)) by lia.
  rewrite seq_app, filter_app, <- cn_filter. cbn [Nat.add seq filter]. rewrite HP.
  rewrite app_nth2 by lia. rewrite Nat.sub_diag. reflexivity.
Qed.

Lemma filter_seq_nth : forall P n p, p < cn P n -> exists i, i < n /\ P i = true /\ cn P i = p.
Proof.
  induction n as [|n IH]; intros p H; [cbn in H; lia|]. cbn [cn] in H.
  destruct (le_lt_dec (cn P n) p) as [G|G].
  - exists n. destruct (P n) eqn:E; [|lia]. split; [lia|]. split; auto. lia.
  - destruct (IH p G) as (i & A & B & C). exists i. split; [lia|auto].
Qed.

Lemma cnt_filter_seq : forall P g i n, i <= n ->
  cnt (firstn (cn P i) (map g (filter P (seq 0 n)))) = cn (fun x => P x && g x) i.
Proof.
  intros P g i n H. rewrite firstn_map, firstn_filter_seq by auto. clear H n.
  induction i as [|i IH]; [reflexivity|]. rewrite seq_snoc, filter_app, map_app, cnt_app, IH.
  cbn [cn filter Nat.add]. destruct (P i); cbn [andb map cnt]; [destruct (g i); cbn; lia|lia].
Qed.

(** ** one level *)
Section Level.
Variable K : list bytes.
Hypothesis HB : Forall is_bytes K.
Hypothesis HNE : length K <> 0.
Notation kk := (kk K). Notation lo := (lo K). Notation hi := (hi K). Notation leafl := (leafl K).
Notation item := (item K). Notation child := (child K). Notation louds := (louds K).
Notation leaf := (leaf K). Notation lab := (lab K). Notation term := (term K). Notation anc := (anc K).
Notation items := (items K).
Let n := length K.

(** node number within the level, nodes of the level *)
Definition nn (l i : nat) : nat := cn (louds l) (S i) - 1.
Definition nds (l : nat) : nat := cn (louds l) n.

(** what isTerminator says about the first item of a node *)
Definition tm (l i : nat) : bool := louds l i && ((lab l i =? 255) && negb (child l i)).
Definition dpl (l i : nat) : nat := 256 * nn l i + lab l i.

Definition dlab (l : nat) : list bool :=
  bm (fun i => item l i && negb (tm l i)) (dpl l) (seq 0 n) (256 * nds l).
Definition dchl (l : nat) : list bool := bm (child l) (dpl l) (seq 0 n) (256 * nds l).
Definition dpre (l : nat) : list bool := bm (tm l) (nn l) (seq 0 n) (nds l).

Lemma lab_byte : forall l i, lab l i < 256.
Proof.
  intros l i. unfold Trie.lab. destruct (lt_dec l (length (kk i))) as [L|L].
  - assert (Hi : i < n).
    { destruct (lt_dec i n); auto. unfold Trie.kk in L. rewrite nth_overflow in L by (fold n; lia). cbn in L. lia. }
    rewrite Forall_forall in HB. specialize (HB (kk i) (nth_In _ _ Hi)). unfold is_bytes in HB.
    rewrite Forall_forall in HB. apply HB. apply nth_In. auto.
  - rewrite nth_overflow by lia. lia.
Qed.

(** every item is in a node that has started *)
Lemma louds_before : forall l i, item l i = true -> 1 <= cn (louds l) (S i).
Proof.
  intros l i H. destruct (node_start K l i H) as (j & A & B & C).
  pose proof (cn_lt (louds l) j (S i) B ltac:(lia)). lia.
Qed.

Lemma nn_lt : forall l i, item l i = true -> nn l i < nds l.
Proof.
  intros l i H. pose proof (louds_before l i H). apply item_spec in H. unfold nn, nds.
  pose proof (cn_mono (louds l) (S i) n ltac:(fold n in H; lia)). lia.
Qed.

Lemma dpl_lt : forall l i, item l i = true -> dpl l i < 256 * nds l.
Proof. intros l i H. unfold dpl. pose proof (nn_lt l i H). pose proof (lab_byte l i). lia. Qed.

Record dinv (l : nat) (xs : list nat) (d : dense_rec) : Prop := mkDinv {
  dv_lab : Forall word_ok (dr_labels d) /\ length (dr_labels d) = nds l * 4 /\
    forall j, nth j (bits_of (dr_labels d)) false = existsb (fun i => negb (tm l i) && (dpl l i =? j)) xs;
  dv_ch : Forall word_ok (dr_child d) /\ length (dr_child d) = nds l * 4 /\
    forall j, nth j (bits_of (dr_child d)) false = existsb (fun i => child l i && (dpl l i =? j)) xs;
  dv_pre : Forall word_ok (dr_prefix d) /\ length (dr_prefix d) = num_words (nds l) /\
    forall j, nth j (bits_of (dr_prefix d)) false = existsb (fun i => tm l i && (nn l i =? j)) xs }.

Lemma existsb_snoc : forall (A : Type) (p : A -> bool) l x, existsb p (l ++ [x]) = p x || existsb p l.
Proof. intros. rewrite existsb_app. cbn [existsb]. rewrite orb_false_r. apply orb_comm. Qed.

Section R.
Variables (e : env) (slen l : nat) (r : level_rec) (sv : nat -> N).
Hypothesis HR : lev_rel slen r (mkA (map (lab l) (items l)) (map (child l) (items l)) (map (louds l) (items l))
      (map sv (filter (leaf l) (seq 0 n))) (last (map (term l) (items l)) false)).

Lemma r_label : forall i, item l i = true -> vget (lv_labels r) (cn (item l) i) = Ok (lab l i).
Proof.
  intros i H. destruct HR as [R _ _ _ _ _ _ _ _]. cbn [a_labs] in R. rewrite R.
  assert (Hi : i < n) by (apply item_spec in H; apply H).
  rewrite (vget_ok _ _ _ (lab l i)).
  - f_equal. rewrite map_nth. f_equal. apply nth_filter_seq; auto.
  - rewrite map_length. unfold BuilderFacts.items. rewrite cn_filter. apply cn_lt; auto.
Qed.

Lemma r_bit : forall ws g i, item l i = true -> wrepr ws (map g (items l)) ->
  b_readBit e ws (cn (item l) i) = Ok (g i).
Proof.
  intros ws g i H W. assert (Hi : i < n) by (apply item_spec in H; apply H).
  assert (LT : cn (item l) i < length (map g (items l))).
  { rewrite map_length. unfold BuilderFacts.items. rewrite cn_filter. apply cn_lt; auto. }
  rewrite b_readBit_spec.
  - f_equal. destruct W as (_ & _ & W). rewrite W.
    rewrite nth_indep with (d' := g i) by auto. rewrite map_nth. f_equal. apply nth_filter_seq; auto.
  - eapply wrepr_lt; [exact W|lia].
Qed.

Lemma r_child : forall i, item l i = true -> b_readBit e (lv_child r) (cn (item l) i) = Ok (child l i).
Proof. intros i H. apply r_bit; auto. destruct HR as [_ _ _ R _ _ _ _ _]. exact R. Qed.

Lemma r_louds : forall i, item l i = true -> b_readBit e (lv_louds r) (cn (item l) i) = Ok (louds l i).
Proof. intros i H. apply r_bit; auto. destruct HR as [_ _ _ _ R _ _ _ _]. exact R. Qed.

Lemma r_term : forall i, item l i = true ->
  isTerminator e r (cn (item l) i) = Ok ((lab l i =? 255) && negb (child l i)).
Proof.
  intros i H. unfold isTerminator. rewrite r_label by auto. cbn [bind]. unfold kTerminator.
  destruct (lab l i =? 255); [|reflexivity]. rewrite r_child by auto. reflexivity.
Qed.

Lemma r_set : forall i xs d, item l i = true -> tm l i = false -> dinv l xs d ->
  exists d', setLabelAndChild e r d (nn l i) (cn (item l) i) = Ok d' /\ dinv l (xs ++ [i]) d'.
Proof.
  intros i xs d H HT [(L1 & L2 & L3) (C1 & C2 & C3) P]. unfold setLabelAndChild.
  rewrite r_label by auto. cbn [bind]. pose proof (dpl_lt l i H) as HD. unfold kFanout.
  replace (nn l i * 256 + lab l i) with (dpl l i) by (unfold dpl; lia).
  destruct (b_setBit_spec e (dr_labels d) (dpl l i) L1 ltac:(lia)) as (lb & E1 & A1 & A2 & A3).
  rewrite E1. cbn [bind]. rewrite r_child by auto. cbn [bind].
  destruct (child l i) eqn:EC.
  - destruct (b_setBit_spec e (dr_child d) (dpl l i) C1 ltac:(lia)) as (cb & E2 & B1 & B2 & B3).
    rewrite E2. cbn [bind]. eexists. split; [reflexivity|].
    constructor; cbn [dr_labels dr_child dr_prefix].
    + split; auto. split; [lia|]. intros j. rewrite A3, L3, existsb_snoc, HT. cbn [negb andb].
      rewrite Nat.eqb_sym. reflexivity.
    + split; auto. split; [lia|]. intros j. rewrite B3, C3, existsb_snoc, EC. cbn [andb].
      rewrite Nat.eqb_sym. reflexivity.
    + destruct P as (P1 & P2 & P3). split; auto. split; auto. intros j. rewrite P3, existsb_snoc, HT. reflexivity.
  - eexists. split; [reflexivity|]. constructor; cbn [dr_labels dr_child dr_prefix].
    + split; auto. split; [lia|]. intros j. rewrite A3, L3, existsb_snoc, HT. cbn [negb andb].
      rewrite Nat.eqb_sym. reflexivity.
    + split; auto. split; auto. intros j. rewrite C3, existsb_snoc, EC. reflexivity.
    + destruct P as (P1 & P2 & P3). split; auto. split; auto. intros j. rewrite P3, existsb_snoc, HT. reflexivity.
Qed.

Lemma tm_child : forall i, tm l i = true -> child l i = false.
Proof. intros i H. unfold tm in H. destruct (child l i); auto. lia. Qed.

Lemma r_pre : forall i xs d, item l i = true -> tm l i = true -> dinv l xs d ->
  exists p, b_setBit e (dr_prefix d) (nn l i) = Ok p /\
    dinv l (xs ++ [i]) (mkDenseRec (dr_labels d) (dr_child d) p).
Proof.
  intros i xs d H HT [(L1 & L2 & L3) (C1 & C2 & C3) (P1 & P2 & P3)].
  pose proof (nn_lt l i H) as HN. pose proof (num_words_bounds (nds l)) as [NW _].
  destruct (b_setBit_spec e (dr_prefix d) (nn l i) P1 ltac:(lia)) as (p & E & A1 & A2 & A3).
  exists p. split; auto. constructor; cbn [dr_labels dr_child dr_prefix].
  - split; auto. split; auto. intros j. rewrite L3, existsb_snoc, HT. reflexivity.
  - split; auto. split; auto. intros j. rewrite C3, existsb_snoc, tm_child by auto. reflexivity.
  - split; auto. split; [lia|]. intros j. rewrite A3, P3, existsb_snoc, HT. cbn [andb].
    rewrite Nat.eqb_sym. reflexivity.
Qed.

Lemma dinv_init : dinv l [] (initDenseVectors (nds l)).
Proof.
  constructor; cbn [initDenseVectors dr_labels dr_child dr_prefix existsb];
  (split; [apply Forall_forall; intros x Hx; apply repeat_spec in Hx; subst; reflexivity|
   split; [apply repeat_length|intros j; rewrite bits_of_repeat0, nth_repeat; reflexivity]]).
Qed.

(** all items from the [p]-th on *)
Lemma dense_items_spec : forall m p d, 1 <= p -> p + m = length (items l) ->
  dinv l (firstn p (items l)) d ->
  exists d' v, foldM (dense_item e r) (seq p m) (d, cnt (firstn p (map (louds l) (items l))) - 1) = Ok (d', v) /\
    dinv l (items l) d'.
Proof.
  induction m as [|m IH]; intros p d Hp HL HI.
  - cbn [seq foldM]. rewrite firstn_all2 in HI by lia. eauto.
  - cbn [seq foldM].
    assert (LI : length (items l) = cn (item l) n) by (unfold BuilderFacts.items; apply cn_filter).
    destruct (filter_seq_nth (item l) n p ltac:(lia)) as (i & A & B & C).
    assert (NE : nth_error (items l) p = Some i).
    { rewrite (nth_error_nth' _ 0) by lia. f_equal. rewrite <- C. apply nth_filter_seq; auto. }
    assert (CS : cnt (firstn (S p) (map (louds l) (items l))) = cn (louds l) (S i)).
    { replace (S p) with (cn (item l) (S i)) by (cbn [cn]; rewrite B; lia).
      unfold BuilderFacts.items. rewrite cnt_filter_seq by lia. apply cn_ext. intros x _.
      destruct (louds l x) eqn:E; [rewrite louds_item by auto; auto|apply andb_false_r]. }
    assert (CP : cnt (firstn p (map (louds l) (items l))) = cn (louds l) i).
    { rewrite <- C. unfold BuilderFacts.items. rewrite cnt_filter_seq by lia. apply cn_ext. intros x _.
      destruct (louds l x) eqn:E; [rewrite louds_item by auto; auto|apply andb_false_r]. }
    assert (C1 : 1 <= cn (louds l) i).
    { destruct (filter_seq_nth (item l) i 0) as (i0 & A0 & B0 & _); [lia|].
      pose proof (louds_before l i0 B0). pose proof (cn_mono (louds l) (S i0) i A0). lia. }
    assert (STEP : exists d', dense_item e r (d, cnt (firstn p (map (louds l) (items l))) - 1) p =
       Ok (d', cnt (firstn (S p) (map (louds l) (items l))) - 1) /\ dinv l (firstn (S p) (items l)) d').
    { rewrite (firstn_S_snoc _ _ _ _ NE). rewrite CS, CP. fold (nn l i).
      unfold dense_item. replace p with (cn (item l) i) by auto. rewrite r_louds by auto. cbn [bind].
      assert (NN : nn l i = cn (louds l) i - 1 + (if louds l i then 1 else 0)).
      { unfold nn. cbn [cn]. destruct (louds l i); lia. }
      destruct (louds l i) eqn:EL.
      - rewrite r_term by auto. cbn [bind].
        assert (ET : tm l i = (lab l i =? 255) && negb (child l i)) by (unfold tm; rewrite EL; reflexivity).
        rewrite <- ET. replace (S (cn (louds l) i - 1)) with (nn l i) by lia.
        destruct (tm l i) eqn:ETM.
        + destruct (r_pre i _ d B ETM HI) as (pp & E1 & I1). rewrite E1. cbn [bind].
          rewrite C. eexists. split; [reflexivity|]. exact I1.
        + destruct (r_set i _ d B ETM HI) as (d' & E1 & I1). rewrite E1. cbn [bind].
          rewrite C. eexists. split; [reflexivity|]. exact I1.
      - assert (ETM : tm l i = false) by (unfold tm; rewrite EL; reflexivity).
        replace (cn (louds l) i - 1) with (nn l i) by lia.
        destruct (r_set i _ d B ETM HI) as (d' & E1 & I1). rewrite E1. cbn [bind].
        rewrite C. eexists. split; [reflexivity|]. exact I1. }
    destruct STEP as (d' & E1 & I1). rewrite E1. cbn [bind]. apply IH; auto; lia.
Qed.

Lemma build_dense_level_inv : exists d, build_dense_level e r = Ok d /\ dinv l (items l) d.
Proof.
  unfold build_dense_level.
  assert (EN : lv_nodes r = nds l).
  { destruct HR as [_ _ _ _ _ _ _ R _]. cbn [a_ld] in R. rewrite R.
    unfold BuilderFacts.items. pose proof (cnt_filter_seq (item l) (louds l) n n ltac:(lia)) as Q.
    rewrite firstn_all2 in Q by (rewrite map_length, cn_filter; lia). fold n. rewrite Q. apply cn_ext. intros x _.
    destruct (louds l x) eqn:E; [rewrite louds_item by auto; auto|apply andb_false_r]. }
  assert (EL : length (lv_labels r) = length (items l)).
  { destruct HR as [R _ _ _ _ _ _ _ _]. cbn [a_labs] in R. rewrite R. apply map_length. }
  rewrite EN, EL. destruct (Nat.eqb_spec (length (items l)) 0) as [G|G].
  - eexists. split; [reflexivity|]. destruct (items l); [apply dinv_init|cbn in G; lia].
  - assert (LI : length (items l) = cn (item l) n) by (unfold BuilderFacts.items; apply cn_filter).
    destruct (filter_seq_nth (item l) n 0 ltac:(lia)) as (i & A & B & C).
    assert (NE : nth_error (items l) 0 = Some i).
    { rewrite (nth_error_nth' _ 0) by lia. f_equal. rewrite <- C. apply nth_filter_seq; auto. }
    assert (LD : louds l i = true).
    { apply (first_item_louds K HNE); auto. }
    assert (N0 : nn l i = 0).
    { unfold nn. cbn [cn]. rewrite LD. rewrite cn_zero; [reflexivity|]. intros x Hx.
      destruct (louds l x) eqn:E; auto. apply louds_item in E.
      pose proof (cn_lt (item l) x i E Hx). lia. }
    assert (ST : exists d, (t <- isTerminator e r 0 ;;
       (if t : bool then p <- b_setBit e (dr_prefix (initDenseVectors (nds l))) 0 ;;
            Ok (mkDenseRec (dr_labels (initDenseVectors (nds l))) (dr_child (initDenseVectors (nds l))) p)
          else setLabelAndChild e r (initDenseVectors (nds l)) 0 0)) = Ok d /\ dinv l (firstn 1 (items l)) d).
    { rewrite (firstn_S_snoc _ _ _ _ NE). pose proof (r_term i B) as RT. rewrite C in RT. rewrite RT. cbn [bind].
      assert (ET : tm l i = (lab l i =? 255) && negb (child l i)) by (unfold tm; rewrite LD; reflexivity).
      rewrite <- ET. destruct (tm l i) eqn:ETM.
      - destruct (r_pre i [] _ B ETM dinv_init) as (pp & E1 & I1). rewrite N0 in E1. rewrite E1. cbn [bind]. eauto.
      - destruct (r_set i [] _ B ETM dinv_init) as (d' & E1 & I1). rewrite N0, C in E1. rewrite E1. eauto. }
    destruct ST as (d1 & E1 & I1).
    destruct (isTerminator e r 0) as [t|f]; [|discriminate]. cbn [bind] in *.
    cbv zeta. rewrite E1. cbn [bind].
    destruct (dense_items_spec (length (items l) - 1) 1 d1 ltac:(lia) ltac:(lia) I1) as (d2 & v & E2 & I2).
    assert (Z : cnt (firstn 1 (map (louds l) (items l))) - 1 = 0).
    { destruct (items l) as [|y ys]; [reflexivity|]. cbn [map firstn cnt]. destruct (louds l y); reflexivity. }
    rewrite Z in E2. rewrite E2. cbn [bind]. eauto.
Qed.

Lemma existsb_filter : forall (p q : nat -> bool) xs, existsb q (filter p xs) = existsb (fun i => p i && q i) xs.
Proof.
  induction xs as [|x xs IH]; [reflexivity|]. cbn [filter existsb].
  destruct (p x); cbn [andb orb existsb]; rewrite IH; reflexivity.
Qed.

Lemma existsb_ext : forall (p q : nat -> bool) xs, (forall x, p x = q x) -> existsb p xs = existsb q xs.
Proof. intros p q xs H. induction xs as [|x xs IH]; [reflexivity|]. cbn [existsb]. rewrite H, IH. reflexivity. Qed.

Lemma lrepr_of_nth : forall ws P f len, Forall word_ok ws -> len <= 64 * length ws ->
  (forall i, i < n -> P i = true -> f i < len) ->
  (forall j, nth j (bits_of ws) false = existsb (fun i => P i && (f i =? j)) (seq 0 n)) ->
  lrepr ws (bm P f (seq 0 n) len).
Proof.
  intros ws P f len H1 H2 H3 H4. split; auto. rewrite bm_length. split; auto.
  apply list_ext with (d := false).
  - rewrite bits_of_length, app_length, bm_length, repeat_length. lia.
  - intros j Hj. rewrite H4. destruct (lt_dec j len) as [G|G].
    + rewrite app_nth1 by (rewrite bm_length; auto). rewrite bm_nth by auto. reflexivity.
    + rewrite app_nth2 by (rewrite bm_length; lia). rewrite nth_repeat.
      destruct (existsb _ _) eqn:E; auto. apply existsb_seq in E. destruct E as (i & A & B).
      specialize (H3 i A). destruct (P i); [|discriminate]. specialize (H3 eq_refl). lia.
Qed.

Theorem build_dense_level_spec : exists d, build_dense_level e r = Ok d /\
  length (dr_labels d) = nds l * 4 /\
  lrepr (dr_labels d) (dlab l) /\ lrepr (dr_child d) (dchl l) /\ lrepr (dr_prefix d) (dpre l).
Proof.
  destruct build_dense_level_inv as (d & E & [(L1 & L2 & L3) (C1 & C2 & C3) (P1 & P2 & P3)]).
  exists d. split; auto. split; auto. split; [|split].
  - apply lrepr_of_nth; auto; [lia| |].
    + intros i Hi Hp. apply dpl_lt. destruct (item l i); auto.
    + intros j. rewrite L3. unfold BuilderFacts.items. rewrite existsb_filter. apply existsb_ext.
      intros x. apply andb_assoc.
  - apply lrepr_of_nth; auto; [lia| |].
    + intros i Hi Hp. apply dpl_lt. apply child_item. auto.
    + intros j. rewrite C3. unfold BuilderFacts.items. rewrite existsb_filter. apply existsb_ext.
      intros x. destruct (child l x) eqn:Ex; [rewrite child_item by auto; reflexivity|apply andb_false_r].
  - pose proof (num_words_bounds (nds l)) as [NW _].
    apply lrepr_of_nth; auto; [lia| |].
    + intros i Hi Hp. apply nn_lt. apply louds_item. unfold tm in Hp. destruct (louds l i); auto.
    + intros j. rewrite P3. unfold BuilderFacts.items. rewrite existsb_filter. apply existsb_ext.
      intros x. destruct (tm l x) eqn:Ex; [|apply andb_false_r].
      assert (louds l x = true) by (unfold tm in Ex; destruct (louds l x); auto).
      rewrite louds_item by auto. reflexivity.
Qed.

End R.
End Level.
