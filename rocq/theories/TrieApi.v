(** The levels that the builder makes, in the vocabulary of SpecTrie.v. *)
From Coq Require Import Arith List NArith ZArith Bool Lia ZifyN ZifyNat ZifyBool Sorting.Sorted Sorting.Permutation.
From Verif Require Import Res Word Config Hash BitFacts WordFacts Bitvector BitvectorFacts Suffix Spec SpecBits SpecTrie SpecApi
  SuffixFacts Builder StoreFacts KeyFacts Trie BuilderFacts DenseBuild Cutoff StructFacts DenseFacts LookupFacts FilterFacts PointFacts Dense Sparse Surf BitsApi.
Import ListNotations.

(** ** keys with their end marked *)

Lemma tkey_length : forall k, length (tkey k) = S (length k).
Proof. intros. unfold tkey. rewrite app_length, map_length. cbn. lia. Qed.

Lemma tkey_firstn : forall m a b, firstn m (tkey a) = firstn m (tkey b) <-> firstn m a = firstn m b.
Proof.
  induction m as [|m IH]; intros a b; [split; reflexivity|].
  destruct a as [|x a], b as [|y b].
  - split; reflexivity.
  - cbn. split; discriminate.
  - cbn. split; discriminate.
  - change (tkey (x :: a)) with (S x :: tkey a). change (tkey (y :: b)) with (S y :: tkey b). cbn [firstn]. split; intros H.
    + injection H as E1 E2. apply (proj1 (IH a b)) in E2. congruence.
    + injection H as -> E2. apply (proj2 (IH a b)) in E2. congruence.
Qed.

Lemma tkey_klt : forall m a b, klt a b -> firstn m a <> firstn m b -> klt (firstn m (tkey a)) (firstn m (tkey b)).
Proof.
  induction m as [|m IH]; intros a b H N; [exfalso; apply N; reflexivity|].
  destruct a as [|x a], b as [|y b]; cbn [klt] in H; try tauto.
  - cbn. left. lia.
  - change (tkey (x :: a)) with (S x :: tkey a). change (tkey (y :: b)) with (S y :: tkey b). cbn [firstn klt].
    destruct H as [H|[-> H]]; [left; lia|]. right. split; auto. apply IH; auto. intros E. apply N. cbn. congruence.
Qed.

Lemma tkey_nth : forall l k, nth l (tkey k) 0 = olab l k.
Proof.
  induction l as [|l IH]; intros [|x k]; try reflexivity.
  - unfold tkey. cbn. destruct l; reflexivity.
  - exact (IH k).
Qed.

Lemma last_firstn : forall (A : Type) l (xs : list A) d, l < length xs -> last (firstn (S l) xs) d = nth l xs d.
Proof.
  intros A. induction l as [|l IH]; intros [|x xs] d H; cbn in H; try lia; [reflexivity|].
  destruct xs as [|y xs]; cbn [length] in H; [lia|]. change (firstn (S (S l)) (x :: y :: xs)) with (x :: firstn (S l) (y :: xs)).
  change (nth (S l) (x :: y :: xs) d) with (nth l (y :: xs) d). rewrite <- IH by (cbn [length]; lia). reflexivity.
Qed.

Lemma branch_label_spec : forall l k, l <= length k -> branch_label (firstn (S l) (tkey k)) = nth l k 255.
Proof.
  intros l k H. unfold branch_label. rewrite last_firstn by (rewrite tkey_length; lia). rewrite tkey_nth. unfold olab.
  destruct (nth_error k l) eqn:E.
  - symmetry. apply nth_error_nth. auto.
  - apply nth_error_None in E. rewrite nth_overflow by lia. reflexivity.
Qed.

Lemma length_pos_ne : forall (A : Type) (xs : list A), xs <> [] -> 0 < length xs.
Proof. intros A [|x xs] H; [congruence|cbn; lia]. Qed.

Section TA.
Variable keys : list bytes.
Hypothesis HG : good_keys keys.
Let K := uniq keys.
Let n := length K.
Notation kk := (kk K). Notation lo := (lo K). Notation hi := (hi K). Notation leafl := (leafl K).
Notation item := (item K). Notation child := (child K). Notation louds := (louds K).
Notation items := (items K).

Definition pre (l j : nat) : list nat := firstn (S l) (tkey (kk j)).

Lemma GS : StronglySorted klt K. Proof. apply good_uniq; auto. Qed.
Lemma kk_keys : forall i, i < n -> In (kk i) keys.
Proof. intros. apply kk_in. auto. Qed.
Lemma keys_kk : forall k, In k keys -> exists i, i < n /\ kk i = k.
Proof. intros. apply in_kk. auto. Qed.

Lemma pre_length : forall l j, l <= leafl j -> length (pre l j) = S l.
Proof.
  intros l j H. unfold pre. rewrite firstn_length, tkey_length. pose proof (leafl_le K j). lia.
Qed.

Lemma pre_eq : forall l i j, pre l i = pre l j <-> firstn (S l) (kk i) = firstn (S l) (kk j).
Proof. intros. apply tkey_firstn. Qed.

Lemma item_leafl : forall l j, item l j = true -> j < n /\ l <= leafl j.
Proof. intros l j H. apply item_spec in H. unfold Trie.leafl. fold n in H. lia. Qed.

Lemma shared_iff : forall m k, shared keys (firstn m (tkey k)) -> m <= length k -> In k keys ->
  exists k', In k' keys /\ k' <> k /\ firstn m k' = firstn m k.
Proof.
  intros m k (a & b & N & A & B & EA & EB) L HI.
  rewrite firstn_length, tkey_length in EA, EB. replace (Nat.min m (S (length k))) with m in * by lia.
  apply (proj1 (tkey_firstn m a k)) in EA. apply (proj1 (tkey_firstn m b k)) in EB.
  destruct (list_eq_dec Nat.eq_dec a k) as [->|Na].
  - exists b. auto.
  - exists a. auto.
Qed.

Lemma shared_intro : forall m k k', In k keys -> In k' keys -> k' <> k -> firstn m k' = firstn m k ->
  m <= S (length k) -> shared keys (firstn m (tkey k)).
Proof.
  intros m k k' A B N E L. exists k, k'. rewrite firstn_length, tkey_length. replace (Nat.min m (S (length k))) with m by lia.
  repeat split; auto. apply tkey_firstn. auto.
Qed.

(** the l-prefix of key [i] is shared exactly if its leaf is at level [l] or deeper *)
Lemma leafl_shared : forall l i, i < n -> l = 0 \/ shared keys (firstn l (tkey (kk i))) -> l <= leafl i.
Proof.
  intros l i Hi [->|H]; [lia|].
  destruct (le_lt_dec l (leafl i)) as [|G]; auto. exfalso.
  destruct (le_lt_dec l (length (kk i))) as [L|L].
  - apply shared_iff in H; auto using kk_keys. destruct H as (k' & A & B & C).
    destruct (keys_kk k' A) as (i' & Hi' & <-). apply B. f_equal.
    apply (leafl_dist K GS); auto; [fold n; lia|]. apply (firstn_le_eq _ _ (S (leafl i)) l); auto.
  - destruct H as (a & b & N & A & B & EA & EB). assert (EF : firstn l (tkey (kk i)) = tkey (kk i)) by (apply firstn_all2; rewrite tkey_length; lia).
    rewrite EF in EA, EB. apply N. rewrite tkey_length in EA, EB.
    assert (X : forall x, In x keys -> firstn (S (length (kk i))) (tkey x) = tkey (kk i) -> x = kk i).
    { intros x Hx E. assert (E' : firstn (S (length (kk i))) (tkey x) = firstn (S (length (kk i))) (tkey (kk i))).
      { rewrite E. rewrite firstn_all2 by (rewrite tkey_length; lia). reflexivity. }
      apply (proj1 (tkey_firstn (S (length (kk i))) x (kk i))) in E'. rewrite (firstn_all2 (kk i)) in E' by lia.
      assert (L2 : length (firstn (S (length (kk i))) x) = length (kk i)) by congruence. rewrite firstn_length in L2.
      rewrite firstn_all2 in E' by lia. auto. }
    rewrite (X a), (X b); auto.
Qed.

Lemma item_shared : forall l j, item l j = true -> l = 0 \/ shared keys (firstn l (tkey (kk j))).
Proof.
  intros l j H. pose proof (item_leafl l j H) as [Hj L]. apply item_spec in H. destruct H as (_ & H1 & H2).
  destruct (Nat.eq_dec l 0) as [|NZ]; [left; auto|right].
  assert (LL : l <= S (length (kk j))) by (pose proof (leafl_le K j); lia).
  destruct H2 as [H2|H2].
  - destruct j as [|p]; [cbn in H2; lia|].
    apply (shared_intro l (kk (S p)) (kk p)); auto.
    + apply kk_keys; auto.
    + apply kk_keys; lia.
    + intros E. apply (kk_inj K GS) in E; fold n; lia.
    + apply lcp_firstn. exact H2.
  - destruct (le_lt_dec n (S j)) as [G|G]; [rewrite (hi_last K j) in H2 by (fold n; lia); lia|].
    apply (shared_intro l (kk j) (kk (S j))); auto.
    + apply kk_keys; auto.
    + apply kk_keys; auto.
    + intros E. apply (kk_inj K GS) in E; fold n; lia.
    + symmetry. apply lcp_firstn. exact H2.
Qed.

Lemma pre_branch : forall l j, item l j = true -> branch keys l (pre l j).
Proof.
  intros l j H. pose proof (item_leafl l j H) as [Hj L]. exists (kk j). split; [apply kk_keys; auto|]. split; auto.
  unfold pre. rewrite firstn_firstn. replace (Nat.min l (S l)) with l by lia. apply item_shared. auto.
Qed.

Lemma branch_pre : forall l p, branch keys l p -> exists j, item l j = true /\ p = pre l j.
Proof.
  intros l p (k & Hk & -> & H). destruct (keys_kk k Hk) as (i & Hi & <-).
  rewrite firstn_firstn in H. replace (Nat.min l (S l)) with l in H by lia.
  apply leafl_shared in H; auto. exists (anc K l i). split; [apply anc_item; auto|].
  apply tkey_firstn. symmetry. apply anc_prefix.
Qed.

Lemma item_inj : forall l i j, item l i = true -> item l j = true -> firstn (S l) (kk i) = firstn (S l) (kk j) -> i = j.
Proof.
  intros l i j Hi Hj E. pose proof (item_leafl _ _ Hi). pose proof (item_leafl _ _ Hj). apply item_spec in Hi, Hj.
  destruct (lt_eq_lt_dec i j) as [[L|]|L]; auto; exfalso.
  - pose proof (lo_of_prefix K GS (S l) i j L ltac:(fold n; lia) E j ltac:(lia)). lia.
  - pose proof (lo_of_prefix K GS (S l) j i L ltac:(fold n; lia) (eq_sym E) i ltac:(lia)). lia.
Qed.

Lemma pre_lt : forall l i j, item l i = true -> item l j = true -> i < j -> klt (pre l i) (pre l j).
Proof.
  intros l i j Hi Hj L. pose proof (item_leafl _ _ Hj) as [Hn _].
  apply tkey_klt; [apply (sorted_nth K GS); fold n; lia|]. intros E. apply item_inj in E; auto. lia.
Qed.

Lemma in_items : forall l j, In j (items l) <-> item l j = true.
Proof.
  intros. unfold BuilderFacts.items. rewrite filter_In, in_seq. split; [tauto|]. intros H. split; auto.
  apply item_leafl in H. fold n. lia.
Qed.

Lemma filter_seq_sorted : forall (P : nat -> bool) m s, StronglySorted lt (filter P (seq s m)).
Proof.
  intros P. induction m as [|m IH]; intros s; [constructor|]. cbn [seq filter]. destruct (P s); auto.
  constructor; auto. rewrite Forall_forall. intros x Hx. apply filter_In in Hx. destruct Hx as [Hx _]. apply in_seq in Hx. lia.
Qed.

Lemma sorted_map : forall (f : nat -> list nat) xs, StronglySorted lt xs ->
  (forall i j, In i xs -> In j xs -> i < j -> klt (f i) (f j)) -> StronglySorted klt (map f xs).
Proof.
  intros f xs H. induction H as [|x xs H IH HF]; intros HX; [constructor|]. cbn [map]. constructor.
  - apply IH. intros. apply HX; auto; right; auto.
  - rewrite Forall_forall in *. intros y Hy. apply in_map_iff in Hy. destruct Hy as (z & <- & Hz).
    apply HX; [left; auto|right; auto|]. auto.
Qed.

Lemma branches_items : forall l, branches keys l (map (pre l) (items l)).
Proof.
  intros l. split.
  - apply sorted_map; [apply filter_seq_sorted|]. intros i j Hi Hj L. apply in_items in Hi, Hj. apply pre_lt; auto.
  - intros p. rewrite in_map_iff. split.
    + intros (j & <- & Hj). apply in_items in Hj. apply pre_branch. auto.
    + intros H. destruct (branch_pre l p H) as (j & Hj & ->). exists j. split; auto. apply in_items. auto.
Qed.

Lemma child_shared : forall l j, item l j = true -> (child l j = true <-> shared keys (pre l j)).
Proof.
  intros l j H. pose proof (item_leafl _ _ H) as [Hj L]. pose proof (leafl_le K j) as LL. split.
  - intros C. apply child_spec in C. destruct C as (_ & C1 & C2).
    destruct (le_lt_dec n (S j)) as [G|G]; [rewrite (hi_last K j) in C2 by (fold n; lia); lia|].
    apply (shared_intro (S l) (kk j) (kk (S j))).
    + apply kk_keys; auto.
    + apply kk_keys; auto.
    + intros E. apply (kk_inj K GS) in E; fold n; lia.
    + symmetry. apply lcp_firstn. exact C2.
    + lia.
  - intros S1. assert (LE : S l <= leafl j) by (apply leafl_shared; auto; right; exact S1).
    apply child_spec. apply item_spec in H. unfold Trie.leafl in LE. fold n. lia.
Qed.

Lemma louds_first : forall l j, item l j = true -> (louds l j = true <-> node_first (map (pre l) (items l)) l (pre l j)).
Proof.
  intros l j H. pose proof (item_leafl _ _ H) as [Hj L]. split.
  - intros LD p' Hp E. apply in_map_iff in Hp. destruct Hp as (i & <- & Hi). apply in_items in Hi.
    unfold pre in E. rewrite !firstn_firstn in E. replace (Nat.min l (S l)) with l in E by lia. apply (proj1 (tkey_firstn l _ _)) in E.
    destruct (lt_eq_lt_dec i j) as [[G|G]|G].
    + exfalso. pose proof (lo_of_prefix K GS l i j G ltac:(fold n; lia) E j ltac:(lia)) as Q.
      apply louds_spec in LD. destruct LD as (_ & [[X _]|[-> _]]); lia.
    + left. subst. auto.
    + right. apply pre_lt; auto.
  - intros F. destruct (louds l j) eqn:LD; auto. exfalso.
    destruct (node_start K l j H) as (s & A & B & C). destruct (Nat.eq_dec s j) as [->|N]; [congruence|].
    pose proof (louds_item _ _ _ B) as IS. pose proof (pre_lt l s j IS H ltac:(lia)) as LT.
    destruct (F (pre l s)) as [E|X].
    + apply in_map. apply in_items. auto.
    + unfold pre. rewrite !firstn_firstn. replace (Nat.min l (S l)) with l by lia. apply tkey_firstn.
      apply (same_node_prefix K l s j); auto.
    + rewrite E in LT. exact (klt_irrefl _ LT).
    + exact (klt_asym _ _ LT X).
Qed.

Lemma labels_items : forall l, map (Trie.lab K l) (items l) = map branch_label (map (pre l) (items l)).
Proof.
  intros l. rewrite map_map. apply map_ext_in. intros j Hj. apply in_items in Hj. apply item_leafl in Hj.
  unfold pre. rewrite branch_label_spec by (pose proof (leafl_le K j); lia). reflexivity.
Qed.

Lemma Forall2_map2 : forall (A B C : Type) (R : A -> B -> Prop) (f : C -> A) (g : C -> B) xs,
  (forall x, In x xs -> R (f x) (g x)) -> Forall2 R (map f xs) (map g xs).
Proof. induction xs as [|x xs IH]; intros H; cbn [map]; constructor; [apply H; left; auto|apply IH; intros; apply H; right; auto]. Qed.

Lemma encodes_items : forall l, encodes keys l (map (Trie.lab K l) (items l)) (map (child l) (items l)) (map (louds l) (items l)).
Proof.
  intros l. exists (map (pre l) (items l)). split; [apply branches_items|]. split; [apply labels_items|]. split.
  - apply Forall2_map2. intros j Hj. apply in_items in Hj. apply child_shared. auto.
  - apply Forall2_map2. intros j Hj. apply in_items in Hj. apply louds_first. auto.
Qed.

(** ** counts *)
Lemma NoDup_map_in : forall (A B : Type) (f : A -> B) xs, NoDup xs ->
  (forall x y, In x xs -> In y xs -> f x = f y -> x = y) -> NoDup (map f xs).
Proof.
  intros A B f xs H. induction H as [|x xs H1 H2 IH]; intros HI; [constructor|]. cbn [map]. constructor.
  - intros X. apply in_map_iff in X. destruct X as (y & E & Hy). apply HI in E; [subst; auto|right; auto|left; auto].
  - apply IH. intros. apply HI; auto; right; auto.
Qed.

Lemma card_seq : forall (A : Type) (P : A -> Prop) (Q : nat -> bool) (f : nat -> A),
  (forall j, j < n -> Q j = true -> P (f j)) ->
  (forall x, P x -> exists j, j < n /\ Q j = true /\ x = f j) ->
  (forall i j, i < n -> j < n -> Q i = true -> Q j = true -> f i = f j -> i = j) -> card P (cn Q n).
Proof.
  intros A P Q f H1 H2 H3. exists (map f (filter Q (seq 0 n))). split; [|split].
  - apply NoDup_map_in; [apply NoDup_filter, seq_NoDup|]. intros x y Hx Hy. apply filter_In in Hx, Hy.
    destruct Hx as [Hx Qx], Hy as [Hy Qy]. apply in_seq in Hx, Hy. apply H3; auto; lia.
  - intros x. rewrite in_map_iff. split.
    + intros (j & <- & Hj). apply filter_In in Hj. destruct Hj as [Hj Qj]. apply in_seq in Hj. apply H1; auto. lia.
    + intros HP. destruct (H2 x HP) as (j & Hj & Qj & ->). exists j. split; auto. apply filter_In. split; auto. apply in_seq. lia.
  - rewrite map_length. apply cn_filter.
Qed.

Lemma shape_items : forall l, level_shape keys l (length (items l)) (nds K l) (cn (Trie.leaf K l) n).
Proof.
  intros l. unfold level_shape. split; [|split].
  - unfold BuilderFacts.items. fold n. rewrite cn_filter. apply card_seq with (f := pre l).
    + intros. apply pre_branch. auto.
    + intros x Hx. destruct (branch_pre l x Hx) as (j & Hj & ->). exists j. split; auto. apply item_leafl in Hj. apply Hj.
    + intros i j _ _ Hi Hj E. apply pre_eq in E. apply item_inj in E; auto.
  - unfold nds. fold n. apply card_seq with (f := fun j => firstn l (pre l j)).
    + intros j Hj LD. exists (pre l j). split; auto. apply pre_branch. apply louds_item. auto.
    + intros x (p & Hp & ->). destruct (branch_pre l p Hp) as (j & Hj & ->).
      destruct (node_start K l j Hj) as (s & A & B & C). pose proof (item_leafl _ _ Hj).
      exists s. split; [lia|]. split; auto. unfold pre. rewrite !firstn_firstn. replace (Nat.min l (S l)) with l by lia.
      apply tkey_firstn. symmetry. apply (same_node_prefix K l s j); auto.
    + intros i j Hi Hj Li Lj E. unfold pre in E. rewrite !firstn_firstn in E. replace (Nat.min l (S l)) with l in E by lia.
      apply (proj1 (tkey_firstn l _ _)) in E. destruct (lt_eq_lt_dec i j) as [[G|]|G]; auto; exfalso.
      * pose proof (lo_of_prefix K GS l i j G ltac:(fold n; lia) E j ltac:(lia)) as Q. apply louds_spec in Lj. lia.
      * pose proof (lo_of_prefix K GS l j i G ltac:(fold n; lia) (eq_sym E) i ltac:(lia)) as Q. apply louds_spec in Li. lia.
  - apply card_seq with (f := pre l).
    + intros j Hj LF. unfold leaf in LF. apply andb_true_iff in LF. destruct LF as [I N]. split; [apply pre_branch; auto|].
      intros S1. apply child_shared in S1; auto. unfold child in S1. rewrite I in S1. cbn [andb] in S1. rewrite S1 in N. discriminate.
    + intros x [Hx NS]. destruct (branch_pre l x Hx) as (j & Hj & ->). exists j. pose proof (item_leafl _ _ Hj).
      split; [lia|]. split; auto. unfold leaf. rewrite Hj. cbn [andb].
      destruct (l <? hi j) eqn:E; auto. exfalso. apply NS. apply child_shared; auto. unfold child. rewrite Hj, E. reflexivity.
    + intros i j _ _ Hi Hj E. apply pre_eq in E. unfold leaf in Hi, Hj. apply andb_true_iff in Hi, Hj. apply item_inj in E; tauto.
Qed.

(** ** what the builder returns *)
Section Build.
Variables (e : env) (c : config).
Hypothesis HM : machine e.
Hypothesis HC : settings c.

Lemma lens : lens_ok (cf_type c) (cf_hlen c) (cf_rlen c).
Proof. destruct HC as (_ & _ & A & B). split; auto. Qed.

Definition levels_ok (st : levels) : Prop :=
  length st = height K /\ (forall l, lev_rel (cf_len c) (nth l st elev)
    (mkA (slabs K l) (schild K l) (slouds K l) (ssfx c K l) (last (map (Trie.term K l) (items l)) false))).

Lemma buildSparse_ok : forall st, buildSparse e c keys = Ok st -> levels_ok st /\ st_rel (cf_len c) st (absl K (sv c K) n 0).
Proof.
  intros st EB. destruct (good_uniq keys HG) as (HS & HB & HE & HN). destruct HM as [M1 M2].
  pose proof (buildSparse_spec e c K HS HB HE M1 lens keys eq_refl) as BS. unfold okp in BS. rewrite EB in BS.
  destruct BS as [A B]. split; [|exact B]. split; [exact A|]. intros l. specialize (B l).
  unfold slabs, schild, slouds, ssfx. rewrite <- (absl_final K (sv c K) l). exact B.
Qed.

Lemma build_ok : forall b, build e c keys = Ok b -> levels_ok (bd_levels b) /\
  determineCutoffLevel e c (bd_levels b) = Ok (bd_start b) /\ 1 <= bd_start b /\ S (bd_start b) <= height K /\
  bd_cfg b = c /\
  length (bd_dense b) = bd_start b /\
  forall i d, i < bd_start b -> length (dr_labels (nth i (bd_dense b) d)) = nds K i * 4 /\
    lrepr (dr_labels (nth i (bd_dense b) d)) (dlab K i) /\ lrepr (dr_child (nth i (bd_dense b) d)) (dchl K i) /\
    lrepr (dr_prefix (nth i (bd_dense b) d)) (dpre K i).
Proof.
  intros b EB. destruct (good_uniq keys HG) as (HS & HB & HE & HN). destruct HM as [M1 M2].
  destruct HC as (C1 & C2 & _). unfold build in EB.
  apply bind_ok in EB. destruct EB as (u & _ & EB). apply bind_ok in EB. destruct EB as (st & E & EB). rewrite C1 in EB.
  destruct (buildSparse_ok st E) as (OK & R). pose proof (proj1 OK) as HL.
  destruct (cutoff_ok c K e HN M1 M2 st R HL C1 C2) as (s & EC & S1 & S2).
  rewrite EC in EB. cbn [bind] in EB.
  destruct (buildDense_ok c K e HB HN M1 M2 st R HL s ltac:(lia)) as (ds & ED & L & G).
  rewrite ED in EB. cbn [bind] in EB. injection EB as <-. cbn [bd_levels bd_start bd_cfg bd_dense]. auto 10.
Qed.

Lemma build_exists : (N.of_nat (length (uniq keys)) <= 67108862)%N -> exists b, build e c keys = Ok b.
Proof.
  intros HL. destruct (good_uniq keys HG) as (HS & HB & HE & HN). destruct HM as [M1 M2].
  pose proof HC as (C1 & C2 & C3 & _). unfold build.
  assert (KN : keys <> []) by (destruct HG; auto).
  assert (KL : 0 < length keys) by (apply length_pos_ne; auto).
  rewrite massert_true by (apply Nat.ltb_lt; exact KL). cbn [bind]. rewrite C1.
  pose proof (buildSparse_spec e c K HS HB HE M1 lens keys eq_refl) as BS. unfold okp in BS.
  destruct (buildSparse e c keys) as [st|er] eqn:E; cbn [bind].
  - destruct (buildSparse_ok st E) as (OK & R). pose proof (proj1 OK) as HL'.
    destruct (cutoff_ok c K e HN M1 M2 st R HL' C1 C2) as (s & -> & S1 & S2). cbn [bind].
    destruct (buildDense_ok c K e HB HN M1 M2 st R HL' s ltac:(lia)) as (ds & -> & L & G). cbn [bind]. eauto.
  - exfalso. assert (X : (N.of_nat (length K * cf_len c + 64) < 4294967296)%N).
    { assert (CL : cf_len c <= 64) by exact C3. change (uniq keys) with K in HL.
      assert (length K * cf_len c <= length K * 64) by (apply Nat.mul_le_mono_l; exact CL). lia. }
    destruct er; tauto.
Qed.

Lemma create_builds : forall f, create e c keys = Ok f -> exists b, build e c keys = Ok b.
Proof. intros f EF. unfold create in EF. apply bind_ok in EF. destruct EF as (b & E & _). eauto. Qed.

Lemma lrepr_firstn : forall ws lb, lrepr ws lb -> firstn (length lb) (vec_bits ws) = lb /\ holds ws (length lb).
Proof.
  intros ws lb (A & B & C). rewrite vec_bits_eq, C. split.
  - rewrite firstn_app, firstn_all, Nat.sub_diag. cbn [firstn]. apply app_nil_r.
  - split; [exact A|]. split; [exact B|]. intros i Hi. rewrite vec_bits_eq, C. rewrite app_nth2 by lia.
    apply nth_repeat.
Qed.

(** ** the levels *)
Lemma levels_encode : forall b, build e c keys = Ok b ->
  (forall l lv, nth_error (bd_levels b) l = Some lv ->
     let m := length (lv_labels lv) in
     holds (lv_child lv) m /\ holds (lv_louds lv) m /\
     encodes keys l (lv_labels lv) (firstn m (vec_bits (lv_child lv))) (firstn m (vec_bits (lv_louds lv))) /\
     level_shape keys l m (lv_nodes lv) (lv_sufcount lv)) /\
  (forall l p, length (bd_levels b) <= l -> ~ branch keys l p).
Proof.
  intros b EB. destruct (build_ok b EB) as ([L1 L2] & _). split.
  - intros l lv HL m. pose proof (L2 l) as [R1 R2 R3 R4 R5 R6 R7 R8 R9].
    assert (EN : nth l (bd_levels b) elev = lv) by (apply nth_error_nth; auto). rewrite EN in *.
    cbn [a_labs a_ch a_ld a_sfx a_lt] in *. apply wrepr_lrepr in R4, R5. apply lrepr_firstn in R4, R5.
    rewrite R2, <- R1 in R4. rewrite R3, <- R1 in R5. fold m in R4, R5. destruct R4 as [F4 H4], R5 as [F5 H5].
    split; auto. split; auto. rewrite F4, F5. rewrite R1. split; [apply encodes_items|].
    assert (EM : m = length (items l)) by (unfold m; rewrite R1; apply map_length).
    rewrite EM, R7, R8, nds_eq. unfold ssfx. rewrite map_length, cn_filter. apply shape_items.
  - intros l p HL HB. destruct (branch_pre l p HB) as (j & Hj & _). apply in_items in Hj.
    destruct HM as [M1 M2], (good_uniq keys HG) as (_ & _ & _ & HN).
    rewrite (height_items K e HN M1 M2 l) in Hj by lia. exact Hj.
Qed.

(** ** the dense bitmaps *)
Definition nstart (l m : nat) : nat := nth m (filter (louds l) (seq 0 n)) 0.

Lemma nstart_louds : forall l m, m < nds K l -> nstart l m < n /\ louds l (nstart l m) = true /\ nn K l (nstart l m) = m.
Proof.
  intros l m Hm. unfold nds in Hm. fold n in Hm. destruct (filter_seq_nth _ _ _ Hm) as (i & A & B & C).
  unfold nstart. rewrite <- C. rewrite nth_filter_seq by auto. split; auto. split; auto.
  unfold nn. cbn [cn]. rewrite B. lia.
Qed.

Definition npre (l m : nat) : list nat := firstn l (tkey (kk (nstart l m))).

Lemma npre_length : forall l m, m < nds K l -> length (npre l m) = l.
Proof.
  intros l m Hm. destruct (nstart_louds l m Hm) as (A & B & _). apply louds_item in B. apply item_leafl in B.
  unfold npre. rewrite firstn_length, tkey_length. pose proof (leafl_le K (nstart l m)). lia.
Qed.

Lemma firstn_S_nth : forall (A : Type) l (xs : list A) d, l < length xs -> firstn (S l) xs = firstn l xs ++ [nth l xs d].
Proof.
  intros A. induction l as [|l IH]; intros [|x xs] d H; cbn [length] in H; try lia; [reflexivity|].
  change (firstn (S (S l)) (x :: xs)) with (x :: firstn (S l) xs). rewrite (IH xs d) by lia. reflexivity.
Qed.

Lemma pre_split : forall l j, l <= leafl j -> pre l j = firstn l (tkey (kk j)) ++ [olab l (kk j)].
Proof.
  intros l j H. unfold pre. rewrite (firstn_S_nth _ l _ 0) by (rewrite tkey_length; pose proof (leafl_le K j); lia).
  rewrite tkey_nth. reflexivity.
Qed.

(** the items of node [m] are those that extend its prefix *)
Lemma pre_node : forall l m j, m < nds K l -> item l j = true ->
  (nn K l j = m <-> firstn l (tkey (kk j)) = npre l m).
Proof.
  intros l m j Hm Hj. destruct (nstart_louds l m Hm) as (A & B & C). destruct (good_uniq keys HG) as (HS & HB & HE & HN).
  pose proof (item_leafl _ _ Hj) as [Hjn _]. rewrite <- C at 1. rewrite (nn_same K HN l _ j B Hj). unfold npre. rewrite tkey_firstn. split.
  - intros [G1 G2]. symmetry. apply (same_node_prefix K l _ j); auto.
  - intros E. destruct (le_lt_dec (nstart l m) j) as [G|G].
    + split; auto. apply lo_same_node. intros x Hx. destruct (Nat.eq_dec (nstart l m) j) as [EQ|NE]; [lia|].
      apply (lo_of_prefix K HS l (nstart l m) j); auto; lia.
    + exfalso. pose proof (lo_of_prefix K HS l j (nstart l m) G ltac:(exact A) E (nstart l m) ltac:(lia)) as Q.
      apply louds_spec in B. lia.
Qed.

Lemma item_of_pre : forall l m x, m < nds K l -> branch keys l (npre l m ++ [x]) ->
  exists j, j < n /\ item l j = true /\ nn K l j = m /\ olab l (kk j) = x.
Proof.
  intros l m x Hm HBr. destruct (branch_pre l _ HBr) as (j & Hj & E). pose proof (item_leafl _ _ Hj) as [Hn L].
  rewrite pre_split in E by auto. apply app_inj_tail in E. destruct E as [E1 E2].
  exists j. split; auto. split; auto. split; auto. apply pre_node; auto.
Qed.

Lemma pre_of_item : forall l m j, m < nds K l -> item l j = true -> nn K l j = m ->
  pre l j = npre l m ++ [olab l (kk j)].
Proof.
  intros l m j Hm Hj E. pose proof (item_leafl _ _ Hj) as [Hn L]. rewrite pre_split by auto. f_equal. apply pre_node; auto.
Qed.

Lemma lab_olab : forall l j, Trie.term K l j = false -> olab l (kk j) = S (Trie.lab K l j).
Proof.
  intros l j H. unfold Trie.term in H. unfold olab, Trie.lab. destruct (nth_error (kk j) l) eqn:E.
  - f_equal. symmetry. apply nth_error_nth. auto.
  - apply nth_error_None in E. lia.
Qed.

(** ** height and cut-off *)
Lemma create_build : forall b f, build e c keys = Ok b -> create e c keys = Ok f ->
  s_height (sf_sparse f) = length (bd_levels b) /\ s_start (sf_sparse f) = bd_start b.
Proof.
  intros b f EB EF. unfold create in EF. rewrite EB in EF. cbn [bind] in EF.
  apply bind_inv in EF. destruct EF as (d & _ & EF). apply bind_inv in EF. destruct EF as (s & ES & EF).
  injection EF as <-. cbn [sf_sparse]. unfold sparse_make in ES. cbv zeta in ES.
  apply bind_inv in ES. destruct ES as (x1 & _ & ES). apply bind_inv in ES. destruct ES as (x2 & _ & ES).
  apply bind_inv in ES. destruct ES as (x3 & _ & ES). apply bind_inv in ES. destruct ES as (x4 & _ & ES).
  apply bind_inv in ES. destruct ES as (x5 & _ & ES). apply bind_inv in ES. destruct ES as (x6 & _ & ES).
  injection ES as <-. split; reflexivity.
Qed.

Lemma height_dist : forall f, create e c keys = Ok f ->
  (forall k d, In k keys -> dist_len keys k d -> d < getHeight f) /\
  (exists k d, In k keys /\ dist_len keys k d /\ getHeight f = S d) /\
  1 <= getSparseStartLevel f /\ getSparseStartLevel f < getHeight f.
Proof.
  intros f EF. destruct (create_builds f EF) as (b & EB). destruct (build_ok b EB) as ([L1 _] & _ & S1 & S2 & _).
  destruct (create_build b f EB EF) as [H1 H2]. unfold getHeight, getSparseStartLevel. rewrite H1, H2, L1.
  destruct (good_uniq keys HG) as (HS & HB & HE & HN). split; [|split; [|split; [exact S1|lia]]].
  - intros k d Hk Hd. destruct (keys_kk k Hk) as (i & Hi & <-). rewrite (dist_kk keys HG i d Hi Hd).
    pose proof (LEN_leafl K n i Hi) as Q. unfold height. change (uniq keys) with K. fold n. lia.
  - assert (HN' : 0 < n) by (change n with (length (uniq keys)); lia).
    destruct (LEN_max K n HN') as (m & A & B). exists (kk m), (S (leafl m)).
    split; [apply kk_keys; auto|]. split; [|unfold height; fold n; lia]. apply dist_uniq. apply (dist_leafl K HS). auto.
Qed.

Lemma card_fun : forall (A : Type) (P : A -> Prop) a b, card P a -> card P b -> a = b.
Proof.
  intros A P a b (xs & X1 & X2 & <-) (ys & Y1 & Y2 & <-). apply Permutation_length.
  apply NoDup_Permutation; auto. intros x. rewrite X2, Y2. reflexivity.
Qed.

Lemma shape_fun : forall l a b x a' b' x', level_shape keys l a b x -> level_shape keys l a' b' x' -> a = a' /\ b = b' /\ x = x'.
Proof.
  intros l a b x a' b' x' (A & B & C) (A' & B' & C').
  split; [eapply card_fun; eauto|]. split; eapply card_fun; eauto.
Qed.

Lemma fold_sum_to : forall (f : nat -> N) m s, fold_left N.add (map f (seq s m)) 0%N = sum_to (fun i => f (s + i)) m.
Proof.
  intros f m s. revert s. induction m as [|m IH]; intros s; [reflexivity|].
  rewrite seq_snoc, map_app, fold_left_app, IH. reflexivity.
Qed.

Lemma sum_to_ext : forall f g m, (forall i, i < m -> f i = g i) -> sum_to f m = sum_to g m.
Proof. intros f g m. induction m as [|m IH]; intros H; [reflexivity|]. cbn [sum_to]. rewrite IH, H by auto. reflexivity. Qed.

Lemma items_small : told_apart keys 8388607 -> forall l, (N.of_nat (length (items l)) <= 8388607)%N.
Proof.
  intros HZ l. pose proof (items_total K) as H1. destruct HM as [M1 M2], (good_uniq keys HG) as (HS & _ & _ & HN).
  pose proof (told_total keys HS _ HZ) as H2. change (uniq keys) with K in H2.
  destruct (le_lt_dec (height K) l) as [G|G].
  - rewrite (height_items K e HN M1 M2 l) by lia. cbn. lia.
  - pose proof (sm_mono (fun l => length (items l)) (S l) (height K) G) as Q. cbn [sm] in Q. lia.
Qed.

Lemma cutoff_build : forall b, build e c keys = Ok b -> told_apart keys 8388607 -> forall nl nn nf, (forall l, level_shape keys l (nl l) (nn l) (nf l)) ->
  let s := bd_start b in let h := length (bd_levels b) in let slen := cf_hlen c + cf_rlen c in
  (sparse_cost nl nf slen s h <= dense_cost nn nf slen s * cf_ratio c)%N /\
  forall s', s' < s -> (dense_cost nn nf slen s' * cf_ratio c < sparse_cost nl nf slen s' h)%N.
Proof.
  intros b EB HZ nl nn' nf HSH s h slen. destruct (build_ok b EB) as ([L1 L2] & EC & S1 & S2 & _). subst s h.
  set (st := bd_levels b) in *.
  assert (LV : forall l, length (lv_labels (nth l st elev)) = nl l /\ lv_nodes (nth l st elev) = nn' l /\
     lv_sufcount (nth l st elev) = nf l /\ (N.of_nat (nl l) <= 8388607)%N /\ (N.of_nat (nn' l) <= 8388607)%N /\ (N.of_nat (nf l) <= 8388607)%N).
  { intros l. pose proof (L2 l) as [R1 R2 R3 R4 R5 R6 R7 R8 R9]. cbn [a_labs a_ch a_ld a_sfx a_lt] in *.
    destruct (shape_fun l _ _ _ _ _ _ (HSH l) (shape_items l)) as (A & B & C).
    rewrite R1, R7, R8, nds_eq, A, B, C. unfold slabs, ssfx. rewrite !map_length, cn_filter.
    pose proof (items_small HZ l). pose proof (nds_items K l). destruct HM as [M1 M2], (good_uniq keys HG) as (_ & _ & _ & HN). pose proof (leaf_items c K e HN M1 M2 st L1 l) as Q. unfold ssfx in Q. rewrite map_length, cn_filter in Q.
    fold n in Q. repeat split; lia. }
  assert (SL : slen <= 64) by (destruct HC as (_ & _ & A & _); exact A).
  assert (WS : forall l, wrap32 (N.of_nat (nf l) * N.of_nat slen) = (N.of_nat (nf l) * N.of_nat slen)%N).
  { intros l. apply wrap32_small. destruct (LV l) as (_ & _ & _ & _ & _ & Q).
    eapply N.le_lt_trans; [apply (N.mul_le_mono _ 8388607 _ 64); lia|reflexivity]. }
  assert (DC : forall s, dense_mem slen st s = dense_cost nn' nf slen s).
  { intros s. unfold dense_mem. rewrite fold_sum_to. apply sum_to_ext. intros i Hi. cbn [Nat.add]. unfold lv_dmem. cbv zeta.
    destruct (LV i) as (A1 & A2 & A3 & _ & A4 & _). rewrite A2, A3, WS.
    rewrite wrap32_small by lia. destruct i as [|p]; [reflexivity|].
    destruct (LV p) as (_ & -> & _). reflexivity. }
  assert (SC : forall s, sparse_mem slen st s = sparse_cost nl nf slen s (length st)).
  { intros s. unfold sparse_mem. rewrite fold_sum_to. apply sum_to_ext. intros i Hi. unfold lv_smem. cbv zeta.
    destruct (LV (s + i)) as (A1 & A2 & A3 & A4 & _). rewrite A1, A3, WS.
    rewrite (wrap32_small (2 * _)) by lia.
    rewrite wrap32_small; [reflexivity|]. 
    assert (2 * N.of_nat (nl (s + i)%nat) / 8 <= 2 * N.of_nat (nl (s + i)%nat))%N by (apply N.div_le_upper_bound; lia). lia. }
  destruct (determineCutoffLevel_spec e c st) as (s & A & B & C & D). rewrite EC in A. injection A as <-.
  change (cf_len c) with slen in *. rewrite <- DC, <- SC. split; [apply D; lia|].
  intros s' Hs'. rewrite <- DC, <- SC. apply C. auto.
Qed.

Lemma cutoff_costs : forall f, create e c keys = Ok f -> told_apart keys 8388607 -> forall nl nn nf, (forall l, level_shape keys l (nl l) (nn l) (nf l)) ->
  let s := getSparseStartLevel f in let h := getHeight f in let slen := cf_hlen c + cf_rlen c in
  (sparse_cost nl nf slen s h <= dense_cost nn nf slen s * cf_ratio c)%N /\
  forall s', s' < s -> (dense_cost nn nf slen s' * cf_ratio c < sparse_cost nl nf slen s' h)%N.
Proof.
  intros f EF HZ nl nn' nf HSH. destruct (create_builds f EF) as (b & EB).
  destruct (create_build b f EB EF) as [H1 H2]. unfold getHeight, getSparseStartLevel. rewrite H1, H2.
  apply (cutoff_build b EB HZ nl nn' nf HSH).
Qed.

Hypothesis HFF : ~ lone_ff keys.

Lemma dense_lab : forall l m b, m < nds K l -> b < 256 ->
  (nth (256 * m + b) (dlab K l) false = true <-> branch keys l (npre l m ++ [S b])).
Proof.
  intros l m b Hm Hb. destruct (good_uniq keys HG) as (HS & HB & HE & HN). pose proof (lone_ff_iff keys HG HFF) as NF.
  rewrite (dlab_eq K HS HB HE HN NF). rewrite bm_nth by lia. rewrite existsb_seq. split.
  - intros (j & Hj & X). apply andb_true_iff in X. destruct X as [X1 X2]. apply nonterm_spec in X1. destruct X1 as [I T].
    apply Nat.eqb_eq in X2. unfold dpl in X2. pose proof (lab_byte K HB HN l j) as LB.
    assert (EN : nn K l j = m) by lia. assert (EL : Trie.lab K l j = b) by lia.
    rewrite <- EL, <- lab_olab by auto. rewrite <- (pre_of_item l m j) by auto. apply pre_branch. auto.
  - intros X. destruct (item_of_pre l m _ Hm X) as (j & Hj & I & EN & EO). exists j. split; auto.
    assert (T : Trie.term K l j = false).
    { destruct (Trie.term K l j) eqn:T; auto. unfold Trie.term in T. apply Nat.leb_le in T. apply olab_zero in T. lia. }
    rewrite (proj2 (nonterm_spec K l j)) by auto. rewrite (lab_olab l j T) in EO. cbn [andb]. apply Nat.eqb_eq. unfold dpl. lia.
Qed.

Lemma dense_child : forall l m b, m < nds K l -> b < 256 ->
  (nth (256 * m + b) (dchl K l) false = true <-> branch keys l (npre l m ++ [S b]) /\ shared keys (npre l m ++ [S b])).
Proof.
  intros l m b Hm Hb. destruct (good_uniq keys HG) as (HS & HB & HE & HN).
  unfold dchl. rewrite bm_nth by lia. rewrite existsb_seq. split.
  - intros (j & Hj & X). apply andb_true_iff in X. destruct X as [X1 X2]. pose proof (child_nonterm K HS HE l j X1) as X3.
    apply nonterm_spec in X3. destruct X3 as [I T].
    apply Nat.eqb_eq in X2. unfold dpl in X2. pose proof (lab_byte K HB HN l j) as LB.
    assert (EN : nn K l j = m) by lia. assert (EL : Trie.lab K l j = b) by lia.
    rewrite <- EL, <- lab_olab by auto. rewrite <- (pre_of_item l m j) by auto. split; [apply pre_branch; auto|].
    apply child_shared; auto.
  - intros [X Y]. destruct (item_of_pre l m _ Hm X) as (j & Hj & I & EN & EO). exists j. split; auto.
    assert (T : Trie.term K l j = false).
    { destruct (Trie.term K l j) eqn:T; auto. unfold Trie.term in T. apply Nat.leb_le in T. apply olab_zero in T. lia. }
    rewrite <- EO, <- pre_of_item in Y by auto. apply child_shared in Y; auto. rewrite Y.
    rewrite (lab_olab l j T) in EO. cbn [andb]. apply Nat.eqb_eq. unfold dpl. lia.
Qed.

Lemma dense_pre : forall l m, m < nds K l ->
  (nth m (dpre K l) false = true <-> branch keys l (npre l m ++ [0])).
Proof.
  intros l m Hm. destruct (good_uniq keys HG) as (HS & HB & HE & HN). pose proof (lone_ff_iff keys HG HFF) as NF.
  rewrite (dpre_eq K HS HB HE HN NF). rewrite bm_nth by lia. rewrite existsb_seq. split.
  - intros (j & Hj & X). apply andb_true_iff in X. destruct X as [X1 X2]. apply termi_spec in X1. destruct X1 as [I T].
    apply Nat.eqb_eq in X2. unfold Trie.term in T. apply Nat.leb_le, olab_zero in T.
    rewrite <- T. rewrite <- (pre_of_item l m j) by auto. apply pre_branch. auto.
  - intros X. destruct (item_of_pre l m _ Hm X) as (j & Hj & I & EN & EO). exists j. split; auto.
    rewrite (proj2 (termi_spec K l j)); [cbn [andb]; apply Nat.eqb_eq; auto|]. split; auto.
    unfold Trie.term. apply Nat.leb_le, olab_zero. auto.
Qed.

Lemma npre_sorted : forall l, StronglySorted klt (map (npre l) (seq 0 (nds K l))).
Proof.
  intros l. destruct (good_uniq keys HG) as (HS & HB & HE & HN). apply sorted_map.
  - generalize (nds K l), 0. induction n0 as [|x IH]; intros s; cbn [seq]; constructor; auto.
    rewrite Forall_forall. intros y Hy. apply in_seq in Hy. lia.
  - intros i j Hi Hj L. apply in_seq in Hi, Hj.
    destruct (nstart_louds l i ltac:(lia)) as (A & B & C). destruct (nstart_louds l j ltac:(lia)) as (A' & B' & C').
    assert (LT : nstart l i < nstart l j).
    { destruct (le_lt_dec (nstart l j) (nstart l i)) as [G|]; auto. pose proof (nn_mono K HN l _ _ G). lia. }
    apply tkey_klt; [apply (sorted_nth K GS); fold n; lia|]. intros E.
    pose proof (lo_of_prefix K HS l _ _ LT ltac:(exact A') E (nstart l j) ltac:(lia)) as Q. apply louds_spec in B'. lia.
Qed.

Lemma npre_in : forall l x, In x (map (npre l) (seq 0 (nds K l))) <-> exists p, branch keys l p /\ x = firstn l p.
Proof.
  intros l x. destruct (good_uniq keys HG) as (HS & HB & HE & HN). rewrite in_map_iff. split.
  - intros (m & <- & Hm). apply in_seq in Hm. destruct (nstart_louds l m ltac:(lia)) as (A & B & C).
    exists (pre l (nstart l m)). split; [apply pre_branch; apply louds_item; auto|].
    unfold pre, npre. rewrite firstn_firstn. f_equal. lia.
  - intros (p & Hp & ->). destruct (branch_pre l p Hp) as (j & Hj & ->). exists (nn K l j).
    pose proof (nn_lt K HN l j Hj) as LT. split; [|apply in_seq; lia].
    unfold pre. rewrite firstn_firstn. replace (Nat.min l (S l)) with l by lia. symmetry. apply pre_node; auto.
Qed.

Lemma dense_encode : forall b, build e c keys = Ok b -> length (bd_dense b) = bd_start b /\
  forall l d, nth_error (bd_dense b) l = Some d -> exists xs,
    StronglySorted klt xs /\ (forall x, In x xs <-> exists p, branch keys l p /\ x = firstn l p) /\
    holds (dr_labels d) (256 * length xs) /\ holds (dr_child d) (256 * length xs) /\ holds (dr_prefix d) (length xs) /\
    forall m x, nth_error xs m = Some x ->
      (nth m (vec_bits (dr_prefix d)) false = true <-> branch keys l (x ++ [0])) /\
      forall a, a < 256 ->
        (nth (256 * m + a) (vec_bits (dr_labels d)) false = true <-> branch keys l (x ++ [S a])) /\
        (nth (256 * m + a) (vec_bits (dr_child d)) false = true <-> branch keys l (x ++ [S a]) /\ shared keys (x ++ [S a])).
Proof.
  intros b EB. destruct (build_ok b EB) as (_ & _ & S1 & S2 & _ & LD & G). split; [exact LD|].
  intros l d Hd. assert (Hl : l < bd_start b) by (rewrite <- LD; apply nth_error_Some; congruence).
  destruct (G l d Hl) as (G1 & G2 & G3 & G4). rewrite (nth_error_nth _ _ d Hd) in *.
  apply lrepr_firstn in G2, G3, G4. rewrite dlab_length in G2. rewrite dchl_length in G3. rewrite dpre_length in G4.
  destruct G2 as [F2 H2], G3 as [F3 H3], G4 as [F4 H4].
  exists (map (npre l) (seq 0 (nds K l))). rewrite map_length, seq_length.
  split; [apply npre_sorted|]. split; [apply npre_in|]. split; auto. split; auto. split; auto.
  intros m x Hx. unfold bytes in Hx.
  assert (Hm : m < nds K l).
  { assert (m < length (map (npre l) (seq 0 (nds K l)))) as Q by (apply nth_error_Some; intros Q; rewrite Q in Hx; discriminate).
    rewrite map_length, seq_length in Q. exact Q. }
  rewrite nth_error_map, (nth_error_nth' _ 0) in Hx by (rewrite seq_length; auto). rewrite seq_nth in Hx by auto.
  cbn in Hx. injection Hx as <-.
  assert (NF : forall (v : list bool) k i, i < k -> nth i v false = nth i (firstn k v) false).
  { intros v k i Hi. rewrite <- (firstn_skipn k v) at 1. destruct (le_lt_dec (length v) i) as [Q|Q].
    - rewrite !nth_overflow; auto; [rewrite firstn_length; lia|rewrite firstn_skipn; lia].
    - rewrite app_nth1; auto. rewrite firstn_length. lia. }
  split.
  - rewrite (NF _ (nds K l)) by auto. rewrite F4. apply dense_pre. auto.
  - intros a Ha. split.
    + rewrite (NF _ (256 * nds K l)) by lia. rewrite F2. apply dense_lab; auto.
    + rewrite (NF _ (256 * nds K l)) by lia. rewrite F3. apply dense_child; auto.
Qed.
End Build.
End TA.

Lemma start_no_dense : forall e c keys f, cf_dense c = false -> create e c keys = Ok f -> getSparseStartLevel f = 0.
Proof.
  intros e c keys f HD EF. pose proof EF as EF'. unfold create in EF'. apply bind_inv in EF'. destruct EF' as (b & EB & _).
  unfold getSparseStartLevel. rewrite (proj2 (create_build keys e c b f EB EF)).
  unfold build in EB. apply bind_inv in EB. destruct EB as (x & _ & EB). apply bind_inv in EB. destruct EB as (st & _ & EB).
  rewrite HD in EB. injection EB as <-. reflexivity.
Qed.
