(** How many bytes a filter takes, from the shape of the trie of its keys. *)
From Coq Require Import Arith List NArith Bool Lia ZifyN ZifyNat ZifyBool Sorting.Sorted.
From Verif Require Import Res Word Config BitFacts Bitvector BitvectorFacts Rank Select RankSelectFacts LabelVector Suffix SuffixFacts
  Builder Spec KeyFacts Trie BuilderFacts DenseBuild StructFacts Dense Sparse Surf SpecApi SpecTrie Serialize SpecFilter
  SerialFacts FilterFacts SerialApi PointFacts TrieApi CountTrie IterSparse Heap SpecSpace.
Import ListNotations.

Lemma up8_round : forall n, N.of_nat (up8 n) = round8 (N.of_nat n).
Proof. intros n. apply up8_N. Qed.

Lemma words_eq : forall n, N.of_nat (8 * num_words n) = words (N.of_nat n).
Proof.
  intros n. unfold num_words, words. pose proof (Nat.div_mod n 64 ltac:(lia)) as A. pose proof (Nat.mod_upper_bound n 64 ltac:(lia)) as B.
  assert (D : ((N.of_nat n + 63) / 64 = N.of_nat (if (n mod 64 =? 0)%nat then n / 64 else n / 64 + 1)%nat)%N).
  { destruct (Nat.eqb_spec (n mod 64) 0) as [Z|Z].
    - symmetry. apply (N.div_unique _ _ _ 63); lia.
    - symmetry. apply (N.div_unique _ _ _ (N.of_nat (n mod 64 - 1))); lia. }
  rewrite D. lia.
Qed.

Lemma ranked_eq : forall n, N.of_nat (8 * num_words n + 4 * (n / 512 + 1)) = ranked (N.of_nat n).
Proof. intros n. unfold ranked. rewrite <- words_eq. change 512%N with (N.of_nat 512). rewrite <- Nat2N.inj_div. lia. Qed.
Lemma picked_eq : forall n o, N.of_nat (8 * num_words n + 4 * (o / 64 + 1)) = picked (N.of_nat n) (N.of_nat o).
Proof. intros n o. unfold picked. rewrite <- words_eq. change 64%N with (N.of_nat 64). rewrite <- Nat2N.inj_div. lia. Qed.

Lemma over_sm : forall (g g' : nat -> nat) s h, s <= h -> (forall l, g l = g' l) -> over g s h = N.of_nat (sm g' h - sm g' s).
Proof.
  intros g g' s h H E. unfold over. replace h with (s + (h - s)) at 2 by lia. generalize (h - s). intros m.
  induction m as [|m IH]; cbn [sum_to]; [rewrite Nat.add_0_r, Nat.sub_diag; reflexivity|].
  rewrite IH, E, Nat.add_succ_r. cbn [sm]. pose proof (sm_mono g' s (s + m) ltac:(lia)). lia.
Qed.

Section Space.
Variables (e : env) (c : config) (keys : list bytes) (f : surf).
Hypothesis HM : machine e.
Hypothesis HC : any_settings c.
Hypothesis HG : good_keys keys.
Hypothesis HF : filter_of e c keys f.
Hypothesis HT : storable e keys.
Variables nl nn nf : nat -> nat.
Hypothesis SH : forall l, level_shape keys l (nl l) (nn l) (nf l).
Notation K := (uniq keys).
Notation n := (length K).
Notation s := (getSparseStartLevel f).
Notation h := (getHeight f).

Let HS : StronglySorted klt K := proj1 (good_uniq keys HG).
Let HN : n <> 0 := proj2 (proj2 (proj2 (good_uniq keys HG))).

Lemma nl_eq : forall l, nl l = length (items K l).
Proof. intros l. apply (shape_fun keys l _ _ _ _ _ _ (SH l) (shape_items keys HG l)). Qed.
Lemma nn_eq : forall l, nn l = nds K l.
Proof. intros l. apply (shape_fun keys l _ _ _ _ _ _ (SH l) (shape_items keys HG l)). Qed.
Lemma nf_eq : forall l, nf l = cn (Trie.leaf K l) n.
Proof. intros l. apply (shape_fun keys l _ _ _ _ _ _ (SH l) (shape_items keys HG l)). Qed.

Record figures : Prop := mkFigures {
  fg_s : d_height (sf_dense f) = s;
  fg_sh : s <= h;
  fg_lab : N.of_nat (bv_nbits (rk_bv (d_labels (sf_dense f)))) = (256 * over nn 0 s)%N;
  fg_chl : N.of_nat (bv_nbits (rk_bv (d_child (sf_dense f)))) = (256 * over nn 0 s)%N;
  fg_pre : N.of_nat (bv_nbits (rk_bv (d_prefix (sf_dense f)))) = over nn 0 s;
  fg_ds : N.of_nat (bv_nbits (sf_bv (d_suf (sf_dense f)))) = (suffix_bits c * over nf 0 s)%N;
  fg_lv : N.of_nat (lv_num_bytes (s_labels (sf_sparse f))) = (1 + over nl s h)%N;
  fg_ch : N.of_nat (bv_nbits (rk_bv (s_child (sf_sparse f)))) = over nl s h;
  fg_ld : N.of_nat (bv_nbits (sl_bv (s_louds (sf_sparse f)))) = over nl s h;
  fg_ones : N.of_nat (sl_ones (s_louds (sf_sparse f))) = over nn s h;
  fg_ss : N.of_nat (bv_nbits (sf_bv (s_suf (sf_sparse f)))) = (suffix_bits c * over nf s h)%N;
  fg_all : (over nf 0 s + over nf s h = N.of_nat n)%N }.

Lemma suffix_count : forall b vs m, suf_rel c b vs -> N.of_nat (length vs) = m ->
  N.of_nat (bv_nbits (sf_bv b)) = (suffix_bits c * m)%N.
Proof.
  intros b vs m R <-. unfold suf_rel, suffix_bits in *.
  destruct (cf_type c); [subst b; reflexivity| | |]; destruct R as (_ & E1 & E2 & R); rewrite (suf_nbits b vs R); unfold sf_len; rewrite E1, E2; lia.
Qed.

Lemma the_figures : figures.
Proof.
  destruct (filled e c keys f HM HC HG HF) as (st & A & B & D & S & _).
  assert (Es : s = st) by exact (sk_st _ _ _ _ S). assert (Eh : h = height K) by exact (sk_h _ _ _ _ S).
  assert (Ld : N.of_nat (length (cc (dlab K) 0 st)) = (256 * over nn 0 st)%N).
  { rewrite (over_sm nn (nds K) 0 st) by (try lia; exact nn_eq). rewrite cc_length by lia. cbn [sm]. rewrite !Nat.sub_0_r.
    rewrite (sm_ext _ (fun l => 256 * nds K l)) by (intros; apply dlab_length). rewrite sm_mul. lia. }
  assert (Lc : N.of_nat (length (cc (dchl K) 0 st)) = (256 * over nn 0 st)%N).
  { rewrite (over_sm nn (nds K) 0 st) by (try lia; exact nn_eq). rewrite cc_length by lia. cbn [sm]. rewrite !Nat.sub_0_r.
    rewrite (sm_ext _ (fun l => 256 * nds K l)) by (intros; apply dchl_length). rewrite sm_mul. lia. }
  assert (Lp : N.of_nat (length (cc (dpre K) 0 st)) = over nn 0 st).
  { rewrite (over_sm nn (nds K) 0 st) by (try lia; exact nn_eq). rewrite cc_length by lia. cbn [sm]. rewrite !Nat.sub_0_r.
    rewrite (sm_ext _ (nds K)) by (intros; apply dpre_length). reflexivity. }
  assert (Lx : forall a b, a <= b -> N.of_nat (length (cc (ssfx c K) a b)) = over nf a b).
  { intros a b L. rewrite (over_sm nf (fun l => cn (Trie.leaf K l) n) a b L nf_eq). rewrite cc_length by lia. f_equal. f_equal; apply sm_ext; intros l _;
    unfold ssfx; rewrite map_length; apply cn_filter. }
  assert (Li : forall (T : Type) (lev : nat -> list T), (forall l, length (lev l) = length (items K l)) ->
    N.of_nat (length (cc lev st (height K))) = over nl st (height K)).
  { intros T lev E. rewrite (over_sm nl (fun l => length (items K l)) st (height K)) by (try lia; exact nl_eq). rewrite cc_length by lia.
    f_equal. f_equal; apply sm_ext; intros l _; apply E. }
  constructor; rewrite ?Es, ?Eh.
  - exact (dk_h _ _ _ _ D).
  - lia.
  - destruct (dk_lab _ _ _ _ D) as ((-> & _) & _). exact Ld.
  - destruct (dk_ch _ _ _ _ D) as ((-> & _) & _). exact Lc.
  - destruct (dk_pre _ _ _ _ D) as ((-> & _) & _). exact Lp.
  - apply (suffix_count _ _ _ (dk_suf _ _ _ _ D)). apply Lx. lia.
  - unfold lv_num_bytes. rewrite (sk_lab _ _ _ _ S), app_length. cbn [length]. rewrite <- (Li _ (slabs K)) by apply slabs_len. lia.
  - destruct (sk_ch _ _ _ _ S) as ((-> & _) & _). apply Li. apply schild_len.
  - destruct (sk_ld _ _ _ _ S) as ((-> & _) & _). apply Li. apply slouds_len.
  - destruct (sk_ld _ _ _ _ S) as (_ & _ & -> & _). rewrite (over_sm nn (nds K) st (height K)) by (try lia; exact nn_eq).
    rewrite cc_cnt by lia. f_equal. f_equal; apply sm_ext; intros l _; apply nds_eq.
  - apply (suffix_count _ _ _ (sk_suf _ _ _ _ S)). apply Lx. lia.
  - rewrite !(over_sm nf (fun l => cn (Trie.leaf K l) n)) by (try lia; exact nf_eq). cbn [sm].
    pose proof (sm_mono (fun l => cn (Trie.leaf K l) n) st (height K) ltac:(lia)) as M.
    assert (Hh : forall i, i < n -> leafl K i < height K).
    { intros i Hi. pose proof (LEN_leafl K (length K) i Hi) as X. unfold height. clear - X. lia. }
    pose proof (leaf_sum K HN Hh n (Nat.le_refl n)) as Q. lia.
Qed.

Lemma surf_parts : dense_wf (sf_dense f) /\ sparse_wf e (sf_sparse f).
Proof. exact (wf_both e c keys f HM HC HG HF HT). Qed.

Lemma rank_part : forall r b, rank_wf r -> N.of_nat (bv_nbits (rk_bv r)) = b -> N.of_nat (rank_bytes r) = round8 (8 + ranked b).
Proof.
  intros r b (_ & _ & L & _) <-. unfold rank_bytes. rewrite up8_round, L, <- ranked_eq. f_equal. lia.
Qed.
Lemma suf_part : forall r b, N.of_nat (bv_nbits (sf_bv r)) = b -> N.of_nat (suf_bytes r) = round8 (16 + words b).
Proof. intros r b <-. unfold suf_bytes. rewrite up8_round, <- words_eq. f_equal. lia. Qed.

Theorem size_written : serializedSize f = written (N.of_nat s) (N.of_nat h) (over nn 0 s) (over nl s h) (over nn s h)
  (suffix_bits c * over nf 0 s) (suffix_bits c * over nf s h).
Proof.
  destruct surf_parts as [D S]. rewrite (size_eq e f D S). destruct the_figures as [F1 F2 F3 F4 F5 F6 F7 F8 F9 F10 F11 _].
  destruct D as (D1 & D2 & D3 & D4 & D5 & D6), S as (S1 & S2 & S3 & S4 & S5 & S6 & S7 & S8 & S9).
  unfold surf_bytes, dense_bytes, sparse_bytes, written. rewrite !Nat2N.inj_add.
  rewrite (rank_part _ _ D3 F3), (rank_part _ _ D4 F4), (rank_part _ _ D5 F5), (suf_part _ _ F6), (rank_part _ _ S7 F8), (suf_part _ _ F11).
  assert (P1 : N.of_nat (up8 (4 + 4 * d_height (sf_dense f))) = round8 (4 + 4 * N.of_nat s)) by (rewrite up8_round, F1; f_equal; lia).
  assert (P2 : N.of_nat (up8 (16 + 4 * s_height (sf_sparse f))) = round8 (16 + 4 * N.of_nat h)).
  { rewrite up8_round. unfold getHeight. f_equal. lia. }
  assert (P3 : N.of_nat (lv_space (s_labels (sf_sparse f))) = round8 (5 + over nl s h)) by (unfold lv_space; rewrite up8_round; f_equal; lia).
  assert (P4 : N.of_nat (select_bytes (s_louds (sf_sparse f))) = round8 (12 + picked (over nl s h) (over nn s h))).
  { destruct S8 as (_ & _ & _ & L & _). unfold select_bytes. rewrite up8_round, L, <- F9, <- F10, <- picked_eq. f_equal. lia. }
  rewrite P1, P2, P3, P4. ring.
Qed.

Lemma rank_held : forall r b, rank_wf r -> N.of_nat (bv_nbits (rk_bv r)) = b -> (words_bytes (rk_bv r) + lut_bytes (rk_lut r) = ranked b)%N.
Proof. intros r b ((_ & W & _) & _ & L & _) <-. unfold words_bytes, lut_bytes. rewrite W, L, <- ranked_eq. lia. Qed.
Lemma select_held : forall r b o, select_wf r -> N.of_nat (bv_nbits (sl_bv r)) = b -> N.of_nat (sl_ones r) = o ->
  (words_bytes (sl_bv r) + lut_bytes (sl_lut r) = picked b o)%N.
Proof. intros r b o ((_ & W & _) & _ & _ & L & _) <- <-. unfold words_bytes, lut_bytes. rewrite W, L, <- picked_eq. lia. Qed.
Lemma suf_held : forall r b, suf_wf r -> N.of_nat (bv_nbits (sf_bv r)) = b -> words_bytes (sf_bv r) = words b.
Proof. intros r b ((_ & W & _) & _) <-. unfold words_bytes. rewrite W, <- words_eq. lia. Qed.

Theorem memory_contents : forall sz, (sz <= 4294967295)%N -> getMemoryUsage sz f =
  (sz + 296 + contents (over nn 0 s) (over nl s h) (over nn s h) (suffix_bits c * over nf 0 s) (suffix_bits c * over nf s h))%N.
Proof.
  intros sz Hsz. destruct surf_parts as [D S]. pose proof (memory_report e c keys f HM HC HG HF HT sz Hsz) as R. rewrite (held_eq e f D S) in R.
  destruct the_figures as [F1 F2 F3 F4 F5 F6 F7 F8 F9 F10 F11 _].
  destruct D as (D1 & D2 & D3 & D4 & D5 & D6), S as (S1 & S2 & S3 & S4 & S5 & S6 & S7 & S8 & S9).
  rewrite (rank_held _ _ D3 F3), (rank_held _ _ D4 F4), (rank_held _ _ D5 F5), (suf_held _ _ D6 F6), (rank_held _ _ S7 F8),
    (select_held _ _ _ S8 F9 F10), (suf_held _ _ S9 F11), F1, F7 in R.
  unfold contents. unfold getHeight in *. lia.
Qed.

Lemma leaves_keys : (over nf 0 h = N.of_nat n)%N.
Proof.
  destruct the_figures. rewrite <- fg_all0. rewrite !(over_sm nf (fun l => cn (Trie.leaf K l) n)) by (try lia; exact nf_eq). cbn [sm].
  pose proof (sm_mono (fun l => cn (Trie.leaf K l) n) s h fg_sh0). lia.
Qed.

Lemma leaves_split : (over nf 0 s + over nf s h = N.of_nat n)%N.
Proof. exact (fg_all the_figures). Qed.

Lemma nodes_labels : (over nn s h <= over nl s h)%N.
Proof.
  unfold over. induction (h - s) as [|m IH]; cbn [sum_to]; [lia|]. pose proof (nds_items K (s + m)) as Q. rewrite <- nl_eq, <- nn_eq in Q. lia.
Qed.
End Space.

(** ** what that amounts to in bits *)
Section Bits.
Local Open Scope N_scope.
Lemma round8_le : forall n, round8 n <= n + 7.
Proof. intros n. unfold round8. pose proof (N.mul_div_le (n + 7) 8 ltac:(lia)). lia. Qed.
Lemma words_le : forall b, 8 * words b <= b + 63.
Proof. intros b. unfold words. pose proof (N.mul_div_le (b + 63) 64 ltac:(lia)). lia. Qed.
Lemma ranked_le : forall b, 16 * (8 * ranked b) <= 17 * b + 1520.
Proof. intros b. unfold ranked. pose proof (words_le b). pose proof (N.mul_div_le b 512 ltac:(lia)). lia. Qed.
Lemma picked_le : forall b o, 16 * (8 * picked b o) <= 16 * b + 8 * o + 1520.
Proof. intros b o. unfold picked. pose proof (words_le b). pose proof (N.mul_div_le o 64 ltac:(lia)). lia. Qed.

Lemma written_le : forall s h dn sl sn dx sx,
  16 * (8 * written s h dn sl sn dx sx) <= 8721 * dn + 161 * sl + 8 * sn + 16 * (dx + sx) + 512 * (s + h) + 31504.
Proof.
  intros. unfold written.
  pose proof (round8_le (4 + 4 * s)). pose proof (round8_le (8 + ranked (256 * dn))). pose proof (round8_le (8 + ranked dn)).
  pose proof (round8_le (16 + words dx)). pose proof (round8_le (16 + 4 * h)). pose proof (round8_le (5 + sl)).
  pose proof (round8_le (8 + ranked sl)). pose proof (round8_le (12 + picked sl sn)). pose proof (round8_le (16 + words sx)).
  pose proof (ranked_le (256 * dn)). pose proof (ranked_le dn). pose proof (ranked_le sl). pose proof (picked_le sl sn).
  pose proof (words_le dx). pose proof (words_le sx). lia.
Qed.
End Bits.

(** ** for the statements *)
Lemma keys_card : forall keys m, good_keys keys -> card (fun k => In k keys) m -> m = length (uniq keys).
Proof.
  intros keys m HG H. apply (card_fun _ (fun k => In k keys) m (length (uniq keys)) H). destruct (good_uniq keys HG) as (HS & _).
  exists (uniq keys). split; [|split; [|reflexivity]].
  - clear - HS. induction HS as [|x l HS IH HF]; constructor; auto. intros I. rewrite Forall_forall in HF. exact (klt_irrefl _ (HF x I)).
  - intros x. apply uniq_in.
Qed.

Lemma leaves_are_keys : forall e c keys f, machine e -> any_settings c -> good_keys keys -> filter_of e c keys f ->
  forall nl nn nf, (forall l, level_shape keys l (nl l) (nn l) (nf l)) -> forall m, card (fun k => In k keys) m ->
  let s := getSparseStartLevel f in let h := getHeight f in
  (over nf 0 s + over nf s h)%N = N.of_nat m /\ (over nn s h <= over nl s h)%N.
Proof.
  intros e c keys f HM HC HG HF nl nn nf SH m CM s h. rewrite (keys_card keys m HG CM). split.
  - exact (leaves_split e c keys f HM HC HG HF nl nn nf SH).
  - exact (nodes_labels keys f HG nl nn nf SH).
Qed.

Lemma size_bound : forall e c keys f, machine e -> any_settings c -> good_keys keys -> filter_of e c keys f -> storable e keys ->
  forall nl nn nf, (forall l, level_shape keys l (nl l) (nn l) (nf l)) -> forall m, card (fun k => In k keys) m ->
  let s := getSparseStartLevel f in let h := getHeight f in
  (16 * (8 * serializedSize f) <= 8721 * over nn 0 s + 161 * over nl s h + 8 * over nn s h + 16 * (suffix_bits c * N.of_nat m) +
     512 * (N.of_nat s + N.of_nat h) + 31504)%N.
Proof.
  intros e c keys f HM HC HG HF HT nl nn nf SH m CM s h. rewrite (size_written e c keys f HM HC HG HF HT nl nn nf SH).
  destruct (leaves_are_keys e c keys f HM HC HG HF nl nn nf SH m CM) as [E _]. fold s h in E |- *. rewrite <- E.
  pose proof (written_le (N.of_nat s) (N.of_nat h) (over nn 0 s) (over nl s h) (over nn s h) (suffix_bits c * over nf 0 s) (suffix_bits c * over nf s h)) as W.
  rewrite N.mul_add_distr_l. exact W.
Qed.
