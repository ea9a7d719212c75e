(** approxCount in the dense levels. *)
From Coq Require Import Arith List NArith ZArith Bool Lia ZifyN ZifyNat ZifyBool Sorting.Sorted.
From Verif Require LookupFacts.
From Verif Require Import Res Word Config BitFacts WordFacts Bitvector BitvectorFacts Rank Select
  RankSelectFacts LabelVector LabelFacts Suffix Spec SuffixFacts Builder KeyFacts Trie BuilderFacts
  DenseBuild StructFacts NodeFacts SparseFacts DenseFacts Dense Sparse Surf IterTrie IterDense IterDMove IterSparse CountBits CountTrie CountSparse.
Import ListNotations.

Lemma first_true : forall (p : nat -> bool) m, 0 < cn p m -> exists j, j < m /\ p j = true /\ forall y, y < j -> p y = false.
Proof.
  intros p. induction m as [|m IH]; intros H; [cbn in H; lia|]. destruct (Nat.eq_dec (cn p m) 0) as [G|G].
  - cbn [cn] in H. destruct (p m) eqn:E; [|lia]. exists m. split; [lia|]. split; auto. intros y Hy. destruct (p y) eqn:Q; auto.
    pose proof (cn_lt p y m Q Hy). lia.
  - destruct IH as (j & A & B & C); [lia|]. exists j. split; [lia|]. auto.
Qed.

Section CD.
Variables (c : config) (K : list bytes).
Notation kk := (kk K). Notation lo := (lo K). Notation hi := (hi K). Notation leafl := (leafl K).
Notation item := (item K). Notation child := (child K). Notation louds := (louds K).
Notation leaf := (leaf K). Notation lab := (lab K). Notation term := (term K). Notation anc := (anc K).
Notation nds := (nds K). Notation height := (height K). Notation nn := (nn K). Notation dpl := (dpl K).
Notation nit := (nit K). Notation NN := (NN K). Notation same_node := (same_node K).
Notation nextit := (nextit K). Notation lvl := (lvl K). Notation nodeno := (nodeno K).
Notation dp := (dp K). Notation dpos := (dpos K). Notation termi := (termi K). Notation nonterm := (nonterm K). Notation nleaf := (nleaf K).
Let n := length K.
Hypothesis HS : StronglySorted klt K.
Hypothesis HB : Forall is_bytes K.
Hypothesis HE : Forall (fun k => k <> []) K.
Hypothesis HNE : length K <> 0.
Hypothesis HFF : no_lone_ff K.
Variables (st : nat) (d : dense) (e : env).
Hypothesis Hst1 : 1 <= st.
Hypothesis Hst2 : S st <= height.
Hypothesis HD : dense_ok c K st d.
Hypothesis Hmem : strict_mem e = false.
(** no label 0 and no label 255 in the dense levels *)
Hypothesis Hlab : forall m x, m < st -> item m x = true -> term m x = false -> 0 < lab m x < 255.

Lemma Hh : forall i, i < n -> leafl i < height.
Proof. intros i H. pose proof (leafl_height K HNE st Hst1 Hst2 i H). lia. Qed.

(** leaves of the levels above [m] *)
Definition above (m : nat) : nat := sm (fun l => cn (leaf l) n) m.
Lemma above_off : forall m, off (ssfx c K) 0 m = above m.
Proof.
  intros m. rewrite (off_ssfx c K HS HE). unfold above. rewrite <- sm_add. apply sm_ext. intros l _. symmetry.
  apply (cn_leaf K HS HE).
Qed.

Lemma raw : forall l j b, l < st -> louds l j = true -> b < 256 ->
  exists x y z, rank e (d_labels d) (dp l j b) = Ok x /\ rank e (d_child d) (dp l j b) = Ok y /\
    rank e (d_prefix d) (dp l j b / kNodeFanout) = Ok z /\
    (Z.of_nat x - Z.of_nat y + Z.of_nat z = Z.of_nat (above l + cn (fun i => nleaf l i && (dpl l i <? S (256 * nn l j + b))%nat) n
       + cn (fun i => termi l i && (nn l i <? S (nn l j))%nat) n))%Z.
Proof.
  intros l j b Hl HL Hb. pose proof (suffix_pos_raw c K HS HB HE HNE HFF st d e Hst1 HD l j b Hl HL Hb) as Q.
  destruct (rank e (d_labels d) (dp l j b)) as [x|]; cbn [bind] in Q; [|discriminate].
  destruct (rank e (d_child d) (dp l j b)) as [y|]; cbn [bind] in Q; [|discriminate].
  destruct (rank e (d_prefix d) (dp l j b / kNodeFanout)) as [z|]; cbn [bind] in Q; [|discriminate].
  exists x, y, z. repeat (split; [reflexivity|]). apply (f_equal (fun r => match r with Ok v => v | _ => 0%Z end)) in Q. cbv beta iota in Q. rewrite above_off in Q. fold n in Q. lia.
Qed.

(** the quantity the count is made of, at position [p] *)
Definition val (p : nat) (ch : bool) (v : nat) : Prop :=
  exists x y z, rank e (d_labels d) p = Ok x /\ rank e (d_child d) p = Ok y /\ rank e (d_prefix d) (p / kNodeFanout) = Ok z /\
    d_readChild e d p = Ok ch /\ (Z.of_nat x - Z.of_nat y + Z.of_nat z + b2z ch = Z.of_nat v)%Z.

Lemma nleaf_spec : forall l x, nleaf l x = true <-> nonterm l x = true /\ child l x = false.
Proof. intros l x. unfold DenseFacts.nleaf. destruct (nonterm l x), (child l x); cbn; intuition congruence. Qed.

(** at the label of an item *)
Lemma val_item : forall m x, m < st -> item m x = true -> term m x = false ->
  val (dpos m x) (child m x) (above m + 1 + cn (leaf m) x).
Proof.
  intros m x Hm HI HT. pose proof (d_child_read c K HS HB HE HNE st d e Hst1 HD m x Hm HI HT) as RC.
  destruct (dpos_start K m x HI) as (j & A & B & C & _ & DP).
  pose proof (lab_byte K HB HNE m x) as LB. pose proof (item_lt K m x HI) as Hx.
  destruct (raw m j (lab m x) Hm B LB) as (a & b & r & R1 & R2 & R3 & R4). rewrite <- DP in R1, R2, R3.
  exists a, b, r. repeat (split; [assumption|]).
  assert (NT : nonterm m x = true) by (apply (nonterm_spec K); auto).
  assert (EQ : dpl m x = 256 * nn m j + lab m x) by (apply (in_node K HB HNE st Hst1); auto). rewrite <- EQ in R4.
  assert (EN : nn m x = nn m j) by (apply (nn_same K HNE); auto). rewrite <- EN in R4.
  rewrite (cn_eq_upto (fun i => nleaf m i && _) (nleaf m) n (S x)) in R4.
  - rewrite (cn_eq_upto (fun i => termi m i && _) (termi m) n (S x)) in R4; [|auto| |].
    + pose proof (cn_leaf K HS HE m (S x)) as Q.
      assert (Q2 : cn (leaf m) (S x) = cn (leaf m) x + (if child m x then 0 else 1)).
      { cbn [cn]. unfold Trie.leaf at 2. unfold Trie.child. rewrite HI. cbn [andb]. destruct (m <? hi x); reflexivity. }
      unfold b2z. destruct (child m x); lia.
    + intros y Hy. destruct (termi m y) eqn:E; [|reflexivity]. rewrite (term_nn K HS HE HNE st Hst1) by auto. cbn [andb]. lia.
    + intros y Hy Hy2. destruct (termi m y) eqn:E; [|reflexivity]. rewrite (term_nn K HS HE HNE st Hst1) by auto. cbn [andb]. lia.
  - auto.
  - intros y Hy. destruct (nleaf m y) eqn:E; [|reflexivity]. apply nleaf_spec in E. rewrite (dpl_le_iff K HS HB HE HNE st Hst1) by tauto. cbn [andb]. lia.
  - intros y Hy Hy2. destruct (nleaf m y) eqn:E; [|reflexivity]. apply nleaf_spec in E. rewrite (dpl_le_iff K HS HB HE HNE st Hst1) by tauto. cbn [andb]. lia.
Qed.

(** positions before the start of a node *)
Lemma before_node : forall m j i, m < st -> louds m j = true -> nonterm m i = true -> (dpl m i <? S (256 * nn m j + 0)) = (i <? j).
Proof.
  intros m j i Hm HL HN. apply (nonterm_spec K) in HN. destruct HN as [HI HT]. pose proof (Hlab m i Hm HI HT) as LB.
  unfold DenseBuild.dpl. pose proof (louds_before K HNE m i HI) as LI. pose proof (louds_before K HNE m j (louds_item K m j HL)) as LJ.
  destruct (Nat.lt_ge_cases i j) as [G|G].
  - assert (Q : nn m i < nn m j).
    { unfold DenseBuild.nn. pose proof (cn_lt (louds m) j (S j) HL ltac:(lia)) as A. pose proof (cn_mono (louds m) (S i) j G). lia. }
    pose proof (lab_byte K HB HNE m i). lia.
  - pose proof (nn_mono K HNE m j i G). lia.
Qed.

Lemma read_none : forall m j b, m < st -> louds m j = true -> b < 256 -> (forall i, child m i = true -> dpl m i <> 256 * nn m j + b) ->
  d_readChild e d (dp m j b) = Ok false.
Proof.
  intros m j b Hm HL Hb H. unfold d_readChild. destruct HD as [_ _ [R _] _ _ _].
  pose proof (in_level K HNE st Hst1 m j b HL Hb) as IL.
  rewrite (readBit_spec e _ _ _ R) by (rewrite (len_dchl K HNE st Hst1); apply (dp_lt K HNE st Hst1); auto). f_equal.
  replace (dp m j b) with (off (dchl K) 0 m + (256 * nn m j + b)) by (rewrite (off_dchl K HNE st Hst1); unfold DenseFacts.dp; rewrite NN_nn; lia).
  rewrite cc_nth by (try rewrite dchl_length; lia). unfold dchl. rewrite bm_nth by auto.
  destruct (existsb _ _) eqn:EX; auto. exfalso. apply existsb_seq in EX. destruct EX as (i' & Hi' & X).
  apply andb_prop in X. destruct X as [E1 E2]. apply Nat.eqb_eq in E2. exact (H i' E1 E2).
Qed.

Lemma read_first : forall m j, m < st -> louds m j = true -> d_readChild e d (dp m j 0) = Ok false.
Proof.
  intros m j Hm HL. apply read_none; auto; [lia|]. intros i HC. apply (child_nonterm K HS HE) in HC.
  pose proof (before_node m j i Hm HL HC) as Q. apply (nonterm_spec K) in HC. destruct HC as [HI HT].
  pose proof (Hlab m i Hm HI HT) as LB. unfold DenseBuild.dpl in *. lia.
Qed.

Lemma val_start : forall m j, m < st -> louds m j = true -> term m j = true -> val (dp m j 0) false (above m + 1 + cn (leaf m) j).
Proof.
  intros m j Hm HL HT. pose proof (louds_item K m j HL) as HI. pose proof (item_lt K m j HI) as Hj.
  destruct (raw m j 0 Hm HL ltac:(lia)) as (a & b & r & R1 & R2 & R3 & R4). exists a, b, r. repeat (split; [assumption|]).
  split; [apply read_first; auto|].
  rewrite (cn_eq_upto (fun i => nleaf m i && _) (nleaf m) n j) in R4; [|unfold n; lia| |].
  - rewrite (cn_eq_upto (fun i => termi m i && _) (termi m) n (S j)) in R4; [|auto| |].
    + pose proof (cn_leaf K HS HE m j) as Q. cbn [cn] in R4.
      replace (termi m j) with true in R4 by (symmetry; apply (termi_spec K); auto). unfold b2z. lia.
    + intros y Hy. destruct (termi m y) eqn:E; [|reflexivity]. rewrite (term_nn K HS HE HNE st Hst1) by auto. cbn [andb]. lia.
    + intros y Hy Hy2. destruct (termi m y) eqn:E; [|reflexivity]. rewrite (term_nn K HS HE HNE st Hst1) by auto. cbn [andb]. lia.
  - intros y Hy. destruct (nleaf m y) eqn:E; [|reflexivity]. apply nleaf_spec in E. rewrite before_node by tauto. cbn [andb]. lia.
  - intros y Hy Hy2. destruct (nleaf m y) eqn:E; [|reflexivity]. apply nleaf_spec in E. rewrite before_node by tauto. cbn [andb]. lia.
Qed.

(** after the last position of the last dense level *)
Lemma val_last : forall m j, m < st -> louds m j = true -> (forall y, j < y -> louds m y = false) ->
  val (dp m j 255) false (above m + cn (leaf m) n).
Proof.
  intros m j Hm HL HY. pose proof (louds_item K m j HL) as HI. pose proof (item_lt K m j HI) as Hj.
  assert (A : forall i, item m i = true -> nn m i <= nn m j).
  { intros i Hi. destruct (Nat.le_gt_cases i j) as [G|G]; [apply (nn_mono K HNE); lia|].
    apply Nat.eq_le_incl. apply (proj2 (nn_same K HNE m j i HL Hi)). split; [lia|]. intros y Hy. apply HY. lia. }
  destruct (raw m j 255 Hm HL ltac:(lia)) as (a & b & r & R1 & R2 & R3 & R4). exists a, b, r. repeat (split; [assumption|]).
  assert (B : forall i, nonterm m i = true -> dpl m i < 256 * nn m j + 255).
  { intros i Hi. apply (nonterm_spec K) in Hi. destruct Hi as [I T]. pose proof (Hlab m i Hm I T). pose proof (A i I).
    unfold DenseBuild.dpl. lia. }
  split.
  { apply read_none; auto. intros i Hi. apply (child_nonterm K HS HE) in Hi. pose proof (B i Hi). lia. }
  { rewrite (cn_ext (fun i => nleaf m i && _) (nleaf m) n) in R4.
    + rewrite (cn_ext (fun i => termi m i && _) (termi m) n) in R4.
      * pose proof (cn_leaf K HS HE m n) as Q. unfold b2z. lia.
      * intros y Hy. destruct (termi m y) eqn:E; [|reflexivity]. apply (termi_spec K) in E. pose proof (A y (proj1 E)). cbn [andb]. lia.
    + intros y Hy. destruct (nleaf m y) eqn:E; [|reflexivity]. apply nleaf_spec in E. pose proof (B y (proj1 E)). cbn [andb]. lia. }
Qed.

(** ** positions of items in order *)
Definition posn (m x : nat) : nat := if term m x then 256 * NN m x else dpos m x.

Lemma posn_low : forall m x, 256 * NN m x <= posn m x.
Proof. intros m x. unfold posn, IterDMove.dpos, DenseFacts.dp. destruct (term m x); lia. Qed.
Lemma posn_high : forall m x, m < st -> item m x = true -> posn m x < 256 * NN m x + 255.
Proof.
  intros m x Hm HI. unfold posn, IterDMove.dpos, DenseFacts.dp. destruct (term m x) eqn:E; [lia|].
  pose proof (Hlab m x Hm HI E). lia.
Qed.
Lemma NN_louds : forall m x y, item m x = true -> louds m y = true -> x < y -> NN m x < NN m y.
Proof.
  intros m x y HI HL H. rewrite !NN_nn. unfold DenseBuild.nn. pose proof (louds_before K HNE m x HI).
  pose proof (cn_lt (louds m) y (S y) HL ltac:(lia)) as A. pose proof (cn_mono (louds m) (S x) y H). lia.
Qed.
Lemma NN_mono : forall m x y, x <= y -> NN m x <= NN m y.
Proof. intros m x y H. rewrite !NN_nn. pose proof (nn_mono K HNE m x y H). lia. Qed.

Lemma posn_lt : forall m x y, m < st -> item m x = true -> item m y = true -> x < y -> posn m x < posn m y.
Proof.
  intros m x y Hm HX HY H. pose proof (posn_high m x Hm HX) as PX. pose proof (posn_low m y) as PY.
  destruct (term m y) eqn:TY.
  - destruct (term_first K HS HE m y HY TY) as (LY & _). pose proof (NN_louds m x y HX LY H). lia.
  - pose proof (Hlab m y Hm HY TY) as LB. pose proof (NN_mono m x y ltac:(lia)) as M. destruct (term m x) eqn:TX.
    + unfold posn. rewrite TX, TY. unfold IterDMove.dpos, DenseFacts.dp. lia.
    + pose proof (dpl_lt_iff K HS HB HE HNE m x y HX HY TX TY H) as Q. unfold posn. rewrite TX, TY.
      unfold IterDMove.dpos, DenseFacts.dp. rewrite !NN_nn. unfold DenseBuild.dpl in Q. lia.
Qed.
Lemma posn_le : forall m x y, m < st -> item m x = true -> item m y = true -> x <= y -> posn m x <= posn m y.
Proof.
  intros m x y Hm HX HY H. destruct (Nat.eq_dec x y) as [->|]; [lia|]. pose proof (posn_lt m x y Hm HX HY ltac:(lia)). lia.
Qed.

Lemma item_bound : forall m, m < st -> cn (item m) n <= 256 * sm nds st.
Proof.
  intros m Hm. assert (A : forall y x, item m x = true -> y <= x -> cn (item m) y + 256 * sm nds m <= posn m x).
  { induction y as [|y IH]; intros x HX H.
    - cbn [cn]. pose proof (posn_low m x) as Q. rewrite NN_nn in Q. lia.
    - cbn [cn]. destruct (item m y) eqn:E; [|specialize (IH x HX ltac:(lia)); lia].
      specialize (IH y E ltac:(lia)). pose proof (posn_lt m y x Hm E HX ltac:(lia)). lia. }
  destruct (Nat.eq_dec (cn (item m) n) 0) as [Z|Z]; [lia|].
  assert (B : exists j, j < n /\ item m j = true /\ cn (item m) n = S (cn (item m) j)).
  { clear - Z. induction n as [|k IH]; [cbn in Z; lia|]. cbn [cn] in *. destruct (item m k) eqn:E.
    - exists k. split; [lia|]. split; auto. lia.
    - destruct IH as (j & J1 & J2 & J3); [lia|]. exists j. split; [lia|]. split; auto. lia. }
  destruct B as (j & J1 & J2 & J3). pose proof (A j j J2 ltac:(lia)) as Q. pose proof (posn_high m j Hm J2) as PH.
  pose proof (nn_lt K HNE m j J2) as NL. rewrite NN_nn in PH. pose proof (sm_mono nds (S m) st Hm) as M. cbn [sm] in M. lia.
Qed.

(** ** the position list of key [i] *)
Definition dstart (m i : nat) : nat :=
  if m <? leafl i then dpos m (anc m i)
  else if m =? leafl i then dpos m (if term m i then S i else i) else 256 * nodeno m i.
Definition has (m i : nat) : bool := (m <=? leafl i) || (cn (item m) (S i) <? nit m).
Definition DD (i m : nat) : option nat := if has m i then Some (dstart m i) else None.
Definition orig (i : nat) : nat := Nat.min (S (leafl i)) st.
Definition pre (i : nat) : bool := if leafl i <? st then term (leafl i) i else false.
(** with the end of a prefix key moved to the start of its node *)
Definition base (m i : nat) : nat := if m <=? leafl i then posn m (anc m i) else 256 * nodeno m i.

Lemma leaf_self : forall i, i < n -> item (leafl i) i = true /\ anc (leafl i) i = i.
Proof.
  intros i Hi. destruct (anc_leaf K i Hi) as [A B]. split; auto. unfold Trie.leaf in B. destruct (item (leafl i) i); auto.
Qed.
Lemma anc_nonterm : forall m i, i < n -> m < leafl i -> term m (anc m i) = false.
Proof.
  intros m i Hi H. pose proof (anc_child K m i Hi H) as C. apply (child_nonterm K HS HE) in C. apply (nonterm_spec K) in C. tauto.
Qed.
Lemma term_step : forall i, i < n -> term (leafl i) i = true -> item (leafl i) (S i) = true /\ term (leafl i) (S i) = false /\ NN (leafl i) (S i) = NN (leafl i) i.
Proof.
  intros i Hi T. destruct (leaf_self i Hi) as [I _]. destruct (term_next K HS HE _ i I T) as [A B]. split; auto. split.
  - apply (not_first_not_term K HS HE); auto.
  - apply (NN_same K); [lia|]. intros y Hy. replace y with (S i) by lia. auto.
Qed.

Lemma round_ok : forall m i, m < st -> i < n ->
  (if (m + 1 =? orig i) && pre i then dstart m i / kNodeFanout * kNodeFanout else dstart m i) = base m i.
Proof.
  intros m i Hm Hi. unfold orig, pre, dstart, base.
  destruct (Nat.ltb_spec m (leafl i)) as [G|G].
  - replace (m <=? leafl i) with true by lia. unfold posn. rewrite (anc_nonterm m i Hi G).
    destruct (Nat.eqb_spec (m + 1) (Nat.min (S (leafl i)) st)) as [E|E]; [|reflexivity].
    replace (leafl i <? st) with false by lia. reflexivity.
  - destruct (Nat.eqb_spec m (leafl i)) as [E|E].
    + subst m. replace (leafl i <=? leafl i) with true by lia. rewrite (proj2 (leaf_self i Hi)).
      replace (leafl i <? st) with true by lia. replace (leafl i + 1 =? Nat.min (S (leafl i)) st) with true by lia. cbn [andb].
      unfold posn. destruct (term (leafl i) i) eqn:T; [|reflexivity].
      rewrite (dpos_div K HB HNE st Hst1). rewrite (proj2 (proj2 (term_step i Hi T))). unfold kNodeFanout. lia.
    + replace (m <=? leafl i) with false by lia. replace (m + 1 =? Nat.min (S (leafl i)) st) with false by lia. reflexivity.
Qed.

Lemma base_next : forall m i x, leafl i < m -> nextit m i x -> base m i = 256 * NN m x /\ louds m x = true.
Proof.
  intros m i x G NX. pose proof (next_louds K HNE Hh m i x G NX) as LX. split; auto. unfold base.
  replace (m <=? leafl i) with false by lia. unfold CountSparse.nodeno. rewrite <- (next_louds_cn K HNE Hh m i x G NX).
  rewrite NN_nn. unfold DenseBuild.nn. cbn [cn]. rewrite LX. lia.
Qed.

Lemma has_next : forall m i, has m i = true -> leafl i < m -> exists x, nextit m i x.
Proof.
  intros m i H G. unfold has in H. replace (m <=? leafl i) with false in H by lia. cbn [orb] in H.
  apply (next_find K). lia.
Qed.
Lemma has_none : forall m i, has m i = false -> leafl i < m /\ forall x, i < x -> item m x = false.
Proof.
  intros m i H. unfold has in H. apply orb_false_elim in H. destruct H as [H1 H2]. split; [lia|].
  apply (next_none K HNE Hh); apply Nat.ltb_ge; exact H2.
Qed.

Lemma val_at : forall m x, m < st -> item m x = true -> term m x = false -> exists j, louds m j = true /\ NN m x = NN m j /\
  d_readPrefix e d (dpos m x / kNodeFanout) = Ok (term m j).
Proof.
  intros m x Hm HI HT. destruct (dpos_start K m x HI) as (j & A & B & C & D & _). exists j. split; auto. split; auto.
  rewrite (dpos_div K HB HNE st Hst1), D. apply (d_prefix_read c K HS HB HE HNE HFF st d e Hst1 HD); auto.
Qed.

Lemma leaf_cn_term : forall m x, item m x = true -> term m x = true -> cn (leaf m) (S x) = S (cn (leaf m) x).
Proof. intros m x HI T. destruct (term_first K HS HE m x HI T) as (_ & L & _). cbn [cn]. rewrite L. lia. Qed.

Lemma cn_leaf_gap : forall m i x, i < n -> leafl i < m -> i < x -> (forall y, i < y -> y < x -> item m y = false) -> cn (leaf m) x = cn (leaf m) i.
Proof.
  intros m i x Hi G Hx HY. rewrite <- (leaf_after K HNE m i) by lia. symmetry. apply cn_none_eq; [lia|].
  intros y Hy. unfold Trie.leaf. rewrite HY by lia. reflexivity.
Qed.

Definition side (ext : bool) (p : nat) (v : nat) (hp ch : bool) (q x y z : nat) : Prop :=
  (if ext then d_getNextPos e d p else Ok p) = Ok q /\ d_readPrefix e d (q / kNodeFanout) = Ok hp /\
  rank e (d_labels d) q = Ok x /\ rank e (d_child d) q = Ok y /\ rank e (d_prefix d) (q / kNodeFanout) = Ok z /\
  d_readChild e d q = Ok ch /\
  (Z.of_nat x - Z.of_nat y + Z.of_nat z + b2z ch - b2z (ext && hp) = Z.of_nat v)%Z.

Lemma first_label1 : forall m x, m < st -> louds m x = true -> let x' := if term m x then S x else x in
  d_getNextPos e d (256 * NN m x) = Ok (dpos m x') /\ item m x' = true /\ term m x' = false /\ same_node m x x'.
Proof.
  intros m i Hm HL i'. pose proof (louds_item K m i HL) as HI.
  assert (G : item m i' = true /\ term m i' = false /\ same_node m i i' /\ i <= i').
  { unfold i'. destruct (term m i) eqn:ET.
    - destruct (term_next K HS HE m i HI ET) as (A & B). split; auto. split; [apply (not_first_not_term K HS HE); auto|].
      split; [|lia]. intros x Hx. replace x with (S i) by lia. auto.
    - split; auto. split; auto. split; [intros x Hx; lia|lia]. }
  destruct G as (G1 & G2 & G3 & G4). split; auto. unfold d_getNextPos.
  replace (S (256 * NN m i)) with (dp m i 1) by (unfold DenseFacts.dp; lia).
  assert (E : dpos m i' = dp m i (lab m i')).
  { unfold IterDMove.dpos, DenseFacts.dp. rewrite (NN_same K m i i' G4 G3). reflexivity. }
  rewrite E. pose proof (Hlab m i' Hm G1 G2) as LB.
  apply (d_next_in c K HS HB HE HNE HFF st d e Hst1 HD); auto.
  - right. unfold DenseFacts.dp. lia.
  - lia.
  - intros x X1 X2 X3 X4 _. destruct (le_lt_dec x i') as [L|L].
    + assert (x = i'); [|subst; lia]. unfold i' in *. destruct (term m i) eqn:ET; [|lia].
      destruct (Nat.eq_dec x i) as [->|]; [congruence|lia].
    + pose proof (node_lab_lt K HS HE m i' x L X2 (same_node_sub K m i i' x X3 G4 ltac:(lia)) G2). lia.
Qed.

(** a side that moves on to the first label of the node of [x] *)
Lemma side_first : forall m x p, m < st -> louds m x = true ->
  d_getNextPos e d p = Ok (dpos m (if term m x then S x else x)) ->
  exists hp ch q a b r, side true p (above m + 1 + cn (leaf m) x) hp ch q a b r /\ q mod 256 <> 255.
Proof.
  intros m x p Hm HL N1. pose proof (louds_item K m x HL) as HI.
  destruct (first_label1 m x Hm HL) as (_ & F2 & F3 & F4).
  set (x' := if term m x then S x else x) in *.
  destruct (val_item m x' Hm F2 F3) as (a & b & r & R1 & R2 & R3 & R4 & R5).
  exists (term m x), (child m x'), (dpos m x'), a, b, r. split.
  - split; [exact N1|]. split.
    + rewrite (dpos_div K HB HNE st Hst1). rewrite (NN_same K m x x'); [|unfold x'; destruct (term m x); lia|exact F4].
      apply (d_prefix_read c K HS HB HE HNE HFF st d e Hst1 HD); auto.
    + repeat (split; [assumption|]). cbn [andb].
      assert (CV : cn (leaf m) x' = cn (leaf m) x + (if term m x then 1 else 0)).
      { unfold x'. destruct (term m x) eqn:T; [rewrite (leaf_cn_term m x HI T)|]; lia. }
      rewrite CV in R5. unfold b2z in *. destruct (term m x); lia.
  - change 256 with kNodeFanout. rewrite (dpos_mod K HB HNE st Hst1). pose proof (Hlab m x' Hm F2 F3). lia.
Qed.

(** a side whose position list reaches level [m] *)
Lemma side_own : forall m i, m < st -> i < n -> m <= leafl i ->
  exists hp ch q a b r, side false (base m i) (above m + 1 + cn (leaf m) i) hp ch q a b r /\ q mod 256 <> 255.
Proof.
  intros m i Hm Hi G. pose proof (anc_item K m i Hi G) as HI. unfold base. replace (m <=? leafl i) with true by lia.
  rewrite <- (leaf_anc K HNE m i Hi). set (x := anc m i) in *. unfold posn. destruct (term m x) eqn:T.
  - destruct (term_first K HS HE m x HI T) as (L & _).
    destruct (val_start m x Hm L T) as (a & b & r & R1 & R2 & R3 & R4 & R5).
    replace (256 * NN m x) with (dp m x 0) by (unfold DenseFacts.dp; lia).
    exists true, false, (dp m x 0), a, b, r. split.
    + split; [reflexivity|]. split.
      * rewrite (dp_div K HNE st Hst1) by lia. rewrite (d_prefix_read c K HS HB HE HNE HFF st d e Hst1 HD m x) by auto. rewrite T. reflexivity.
      * repeat (split; [assumption|]). cbn [andb]. unfold b2z in *. lia.
    + unfold DenseFacts.dp. rewrite Nat.mul_comm, Nat.add_comm, Nat.mod_add by lia. rewrite Nat.mod_small by lia. lia.
  - destruct (val_item m x Hm HI T) as (a & b & r & R1 & R2 & R3 & R4 & R5). destruct (val_at m x Hm HI T) as (j & _ & _ & RP).
    exists (term m j), (child m x), (dpos m x), a, b, r. split.
    + split; [reflexivity|]. split; [exact RP|]. repeat (split; [assumption|]). cbn [andb]. unfold b2z in *. lia.
    + change 256 with kNodeFanout. rewrite (dpos_mod K HB HNE st Hst1). pose proof (Hlab m x Hm HI T). lia.
Qed.

Lemma side_some : forall m i, m < st -> i < n -> has m i = true ->
  exists hp ch q a b r, side (orig i <=? m) (base m i) (above m + 1 + cn (leaf m) i) hp ch q a b r /\ q mod 256 <> 255.
Proof.
  intros m i Hm Hi H. unfold orig. destruct (Nat.le_gt_cases m (leafl i)) as [G|G].
  - replace (Nat.min (S (leafl i)) st <=? m) with false by lia. apply side_own; auto.
  - replace (Nat.min (S (leafl i)) st <=? m) with true by lia. destruct (has_next m i H G) as (x & NX).
    destruct (base_next m i x G NX) as [-> LX]. destruct NX as (N1 & N2 & N3).
    rewrite <- (cn_leaf_gap m i x) by auto. apply side_first; auto. apply first_label1; auto.
Qed.

Lemma level_louds : forall m, m < st -> 0 < cn (louds m) n.
Proof.
  intros m Hm. destruct (LEN_max K n) as (w & W1 & W2); [unfold n; lia|].
  assert (G : m <= leafl w) by (unfold StructFacts.height in Hst2; fold n in Hst2; lia).
  pose proof (anc_item K m w W1 G) as I. destruct (node_start K m _ I) as (j & A & B & _).
  pose proof (anc_le K m w). pose proof (cn_lt (louds m) j n B ltac:(lia)). lia.
Qed.

(** the right side beyond the last node of the level: in the levels above the last dense one *)
Lemma side_right : forall m i, S m < st -> i < n -> has m i = false ->
  exists hp ch q a b r, side true (256 * sm nds (S m) - 1) (above m + 1 + cn (leaf m) i) hp ch q a b r /\ q mod 256 <> 255.
Proof.
  intros m i Hm Hi H. destruct (has_none m i H) as [G HN].
  destruct (first_true (louds (S m)) n (level_louds (S m) Hm)) as (j & J1 & J2 & J3).
  pose proof (louds_item K _ j J2) as JI.
  assert (NJ : NN (S m) j = sm nds (S m)).
  { rewrite NN_nn. unfold DenseBuild.nn. cbn [cn]. rewrite J2. rewrite <- (cn_none_eq (louds (S m)) 0 j); [cbn [cn]; lia|lia|].
    intros y Hy. apply J3. lia. }
  assert (V : above m + 1 + cn (leaf m) i = above (S m) + 1 + cn (leaf (S m)) j).
  { rewrite <- (cn_leaf_gap m i n Hi G Hi) by auto. rewrite <- (cn_none_eq (leaf (S m)) 0 j); [unfold above; cbn [sm cn]; lia|lia|].
    intros y Hy. unfold Trie.leaf. destruct (item (S m) y) eqn:E; [|reflexivity]. exfalso.
    destruct (node_start K _ y E) as (w & W1 & W2 & _). rewrite J3 in W2 by lia. discriminate. }
  rewrite V. apply side_first; auto.
  destruct (first_label c K HS HB HE HNE HFF st d e Hst1 HD Hmem (S m) j Hm J2 ltac:(lia)) as (F1 & _).
  rewrite <- F1. unfold d_getNextPos. f_equal. rewrite NJ. unfold kNodeFanout.
  pose proof (NN_pos K (S m) j HNE JI ltac:(lia)) as NP. rewrite NJ in NP. lia.
Qed.

Lemma side_last : forall m i, S m = st -> i < n -> has m i = false -> (forall x, item m x = true -> term m x = false) ->
  let q := 256 * sm nds st - 1 in exists x y z, d_readPrefix e d (q / kNodeFanout) = Ok false /\
  rank e (d_labels d) q = Ok x /\ rank e (d_child d) q = Ok y /\ rank e (d_prefix d) (q / kNodeFanout) = Ok z /\
  d_readChild e d q = Ok false /\ (Z.of_nat (S x) - Z.of_nat y + Z.of_nat z = Z.of_nat (above m + 1 + cn (leaf m) i))%Z.
Proof.
  intros m i Hm Hi H HT q. destruct (has_none m i H) as [G HN].
  assert (J : exists j, j < n /\ louds m j = true /\ forall y, j < y -> louds m y = false).
  { pose proof (level_louds m ltac:(lia)) as P. clear - P. assert (Q : forall y, n <= y -> louds m y = false).
    { intros y Hy. destruct (louds m y) eqn:E; auto. apply louds_item in E. apply item_lt in E. unfold n in Hy. lia. }
    clearbody n. induction n as [|k IH]; [cbn in P; lia|]. destruct (louds m k) eqn:E.
    - exists k. split; [lia|]. split; auto.
    - destruct IH as (j & A & B & C); [cbn [cn] in P; rewrite E in P; lia| |].
      + intros y Hy. destruct (Nat.eq_dec y k) as [->|]; auto. apply Q. lia.
      + exists j. split; [lia|]. auto. }
  destruct J as (j & J1 & J2 & J3). pose proof (louds_item K _ j J2) as JI.
  assert (NJ : q = dp m j 255).
  { unfold q, DenseFacts.dp. rewrite <- Hm. cbn [sm]. rewrite NN_nn. unfold DenseBuild.nn.
    rewrite (cn_none_eq (louds m) (S j) n); [|lia|intros y Hy; apply J3; lia].
    pose proof (level_louds m ltac:(lia)). change (DenseBuild.nds K m) with (cn (louds m) n). lia. }
  destruct (val_last m j ltac:(lia) J2 J3) as (a & b & r & R1 & R2 & R3 & R4 & R5). rewrite NJ. exists a, b, r. split.
  - rewrite (dp_div K HNE st Hst1) by lia. rewrite (d_prefix_read c K HS HB HE HNE HFF st d e Hst1 HD m j) by (auto; lia).
    rewrite HT by auto. reflexivity.
  - repeat (split; [assumption|]). rewrite (cn_leaf_gap m i n Hi G Hi) in R5 by auto. unfold b2z in R5. lia.
Qed.

(** ** a level whose two positions are out of order has nothing to count *)
Lemma base_left : forall m s x, m < st -> s < n -> has m s = true -> s < x -> leaf m x = true -> base m s <= posn m x.
Proof.
  intros m s x Hm Hs H HX HL. assert (IX : item m x = true) by (unfold Trie.leaf in HL; destruct (item m x); auto).
  destruct (Nat.le_gt_cases m (leafl s)) as [G|G].
  - unfold base. replace (m <=? leafl s) with true by lia. pose proof (anc_le K m s). apply posn_le; auto; [apply anc_item; auto|lia].
  - destruct (has_next m s H G) as (y & NX). destruct (base_next m s y G NX) as [-> LY]. destruct NX as (N1 & N2 & N3).
    destruct (Nat.lt_ge_cases x y) as [L|L]; [rewrite N3 in IX by lia; discriminate|].
    pose proof (posn_low m y). pose proof (posn_le m y x Hm N2 IX L). lia.
Qed.
Lemma base_right : forall m t x, m < st -> t < n -> has m t = true -> x < t -> leaf m x = true -> posn m x < base m t.
Proof.
  intros m t x Hm Ht H HX HL. assert (IX : item m x = true) by (unfold Trie.leaf in HL; destruct (item m x); auto).
  destruct (Nat.le_gt_cases m (leafl t)) as [G|G].
  - unfold base. replace (m <=? leafl t) with true by lia. apply posn_lt; auto; [apply anc_item; auto|].
    pose proof (leaf_anc K HNE m t Ht) as Q. pose proof (cn_lt (leaf m) x t HL HX) as L. 
    destruct (Nat.le_gt_cases (anc m t) x) as [A|A]; auto. pose proof (cn_mono (leaf m) _ _ A). lia.
  - destruct (has_next m t H G) as (y & NX). destruct (base_next m t y G NX) as [-> LY]. destruct NX as (N1 & N2 & N3).
    pose proof (NN_louds m x y IX LY ltac:(lia)). pose proof (posn_high m x Hm IX). lia.
Qed.
Lemma base_end : forall m x, m < st -> leaf m x = true -> posn m x < 256 * sm nds (S m) - 1.
Proof.
  intros m x Hm HL. assert (IX : item m x = true) by (unfold Trie.leaf in HL; destruct (item m x); auto).
  pose proof (posn_high m x Hm IX) as P. rewrite NN_nn in P. pose proof (nn_lt K HNE m x IX). cbn [sm]. lia.
Qed.
Lemma lvl_leaf : forall m s t, s < t -> t < n -> 0 < lvl s t m -> exists x, s < x /\ x < t /\ leaf m x = true.
Proof.
  intros m s t H Ht P. assert (X : cn (leaf m) (S s) < cn (leaf m) t).
  { unfold CountTrie.lvl, b2n in P. destruct (Nat.eqb_spec m (leafl s)) as [->|].
    - rewrite (leaf_at K HNE) by lia. lia.
    - rewrite (leaf_after K HNE) by auto. lia. }
  clear - X H. assert (Y : forall k, cn (leaf m) (S s) < cn (leaf m) (S s + k) -> exists x, s < x /\ x < S s + k /\ leaf m x = true).
  { induction k as [|k IH]; intros Q; [rewrite Nat.add_0_r in Q; lia|]. destruct (leaf m (S s + k)) eqn:E.
    - exists (S s + k). split; [lia|]. split; auto. lia.
    - rewrite Nat.add_succ_r in Q. change (cn (leaf m) (S (S s + k))) with ((cn (leaf m) (S s + k)) + (if leaf m (S s + k) then 1 else 0)) in Q. rewrite E in Q.
      destruct IH as (x & A & B & C); [lia|]. exists x. split; auto. split; auto. lia. }
  destruct (Y (t - S s)) as (x & A & B & C); [replace (S s + (t - S s)) with t by lia; auto|]. exists x. split; auto. split; auto. lia.
Qed.
End CD.
