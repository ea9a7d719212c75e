(** Every filter made from a set of keys has the structure of that set. *)
From Coq Require Import Arith List NArith Bool Lia ZifyN ZifyNat ZifyBool Sorting.Sorted.
From Verif Require Import Res Word Config Hash BitFacts WordFacts Bitvector BitvectorFacts Rank Select
  RankSelectFacts LabelVector Suffix Spec SuffixFacts Builder KeyFacts Trie BuilderFacts
  DenseBuild Dense Sparse Surf StructFacts SpecApi Serialize SpecFilter SerialFacts.
Import ListNotations.

Lemma repr_wf : forall b l, repr b l -> (N.of_nat (length l) < 4294967296)%N -> bv_wf b.
Proof. intros b l (A & B & C & _) H. split; [rewrite A; exact H|]. split; auto. Qed.

Lemma rank_ok_wf : forall r l, rank_ok r l -> (N.of_nat (length l) < 4294967296)%N -> rank_wf r.
Proof.
  intros r l (A & B & C) H. split; [eapply repr_wf; eauto|]. split; auto. rewrite C.
  destruct A as (A & _). rewrite map_length, seq_length, A. split; auto.
  apply Forall_map, Forall_forall. intros i _. pose proof (cnt_firstn_le l (512 * i)). pose proof (cnt_le_length l). lia.
Qed.

Lemma select_ok_wf : forall s l, select_ok s l -> sl_interval s = 64 -> (N.of_nat (length l) < 4294967296)%N -> select_wf s.
Proof.
  intros s l (A & B & C & D) I H. pose proof (cnt_le_length l) as CL. split; [eapply repr_wf; eauto|]. split; auto.
  rewrite C. split; [lia|]. rewrite D, I. cbn [length]. rewrite map_length, seq_length. split; [lia|].
  constructor; [reflexivity|]. apply Forall_map, Forall_forall. intros j Hj. apply in_seq in Hj.
  destruct (sel_spec l (j * 64)) as (Q & _); [lia| |lia].
  pose proof (Nat.div_mod (cnt l) 64 ltac:(lia)). nia.
Qed.

Lemma suf_rel_wf : forall c s vs, any_settings c -> suf_rel c s vs -> suf_wf s.
Proof.
  intros c s vs HC0 H. assert (HC : cf_hlen c + cf_rlen c <= 64) by (destruct HC0 as [(_ & _ & HC & _)|(_ & _ & HC)]; exact HC).
  unfold suf_rel in H. destruct (cf_type c) eqn:ET;
    [subst s; repeat split; cbn; try lia; constructor| | |];
    destruct H as (T & H1 & H2 & (A & B & C & D)); apply fits32_lt in D; rewrite <- flat_bits_length in D;
    (split; [eapply repr_wf; eauto|]); rewrite H1, H2; (split; [lia|]); (split; [lia|]); intros; congruence.
Qed.

Lemma level_cuts_len : forall l b, length (level_cuts_from b l) = length l.
Proof. induction l as [|x l IH]; intros b; cbn; auto. Qed.
Lemma level_cuts_fit : forall l b, Forall (fun x => (x < 4294967296)%N) (level_cuts_from b l).
Proof.
  induction l as [|x l IH]; intros b; cbn; constructor; auto. unfold sub32, wrap32. apply N.mod_lt. discriminate.
Qed.

Section Wf.
Variables (e : env) (c : config) (K : list bytes).
Hypothesis HC : any_settings c.
Hypothesis HT : (N.of_nat (total_bytes K) <= 4000000000)%N.
Hypothesis HN : length K <> 0.

Lemma height_total : height K <= S (total_bytes K).
Proof.
  unfold height. destruct (LEN_max K (length K)) as (m & A & ->); [lia|]. 
  unfold total_bytes. assert (G : forall f j, j < length K -> f j <= sm f (length K)).
  { intros f j Hj. pose proof (sm_mono f (S j) (length K) Hj) as Q. cbn [sm] in Q. lia. }
  specialize (G (fun i => S (leafl K i)) m A). cbn beta in G. lia.
Qed.

Lemma nds_total : forall l, l <= height K -> sm (nds K) l <= total_bytes K.
Proof.
  intros l Hl. etransitivity; [apply (sm_mono _ l (height K)); auto|]. etransitivity; [|apply items_total].
  apply sm_le. intros. apply nds_items.
Qed.

Lemma items_lev : forall st (A : Type) (lev : nat -> list A), st <= height K -> (forall l, length (lev l) = length (items K l)) ->
  length (cc lev st (height K)) = length (cc (slabs K) st (height K)).
Proof.
  intros st A lev H E. rewrite !cc_length by auto. unfold slabs.
  f_equal; apply sm_ext; intros; rewrite map_length; auto.
Qed.

Lemma dense_ok_wf : forall st d, S st <= height K -> dense_ok c K st d -> dense_wf d.
Proof.
  intros st d Hs D. pose proof height_total as HH. destruct D as [D1 D2 D3 D4 D5 D6 D7].
  assert (L : forall l, length (dlab K l) = 256 * nds K l) by (intros; unfold dlab; apply bm_length).
  assert (L2 : length (cc (dchl K) 0 st) = length (cc (dlab K) 0 st)).
  { rewrite !cc_length by lia. f_equal; apply sm_ext; intros; rewrite L; unfold dchl; apply bm_length. }
  assert (L3 : length (cc (dpre K) 0 st) <= length (cc (dlab K) 0 st)).
  { rewrite !cc_length by lia. cbn [sm]. rewrite !Nat.sub_0_r. apply sm_le. intros i _. rewrite L. unfold dpre. rewrite bm_length. lia. }
  split; [lia|]. split.
  - rewrite D6, D1. split; [rewrite level_cuts_len, map_length, seq_length; auto|apply level_cuts_fit].
  - split; [eapply rank_ok_wf; eauto|]. split; [eapply rank_ok_wf; eauto; lia|].
    split; [eapply rank_ok_wf; eauto; lia|]. eapply suf_rel_wf; eauto.
Qed.

(** the label after the last one can be read *)
Definition readable (st : nat) (s : sparse) : Prop :=
  lv_read e (s_labels s) (length (cc (slabs K) st (height K))) = Ok 0.

Lemma sparse_ok_wf : forall st s, S st <= height K -> sparse_ok c K st s -> readable st s -> sparse_wf e s.
Proof.
  intros st s Hs S R. pose proof height_total as HH. pose proof (nds_total st ltac:(lia)) as N1. pose proof (nds_total (Datatypes.S st) Hs) as N2.
  destruct S as [S1 S2 S3 S4 S5 S6 S7 S8 S9 S10 S11 S12 S13]. unfold readable in R.
  assert (LN : lv_num_bytes (s_labels s) = length (cc (slabs K) st (height K)) + 1) by (unfold lv_num_bytes; rewrite S5, app_length; reflexivity).
  assert (LT : length (cc (slabs K) st (height K)) <= total_bytes K).
  { rewrite cc_length by lia. etransitivity; [apply Nat.le_sub_l|]. etransitivity; [|apply items_total].
    apply sm_le. intros. unfold slabs. rewrite map_length. auto. }
  split; [lia|]. split; [lia|]. split; [lia|]. split; [lia|]. split.
  { rewrite S13. split.
    - rewrite app_length, repeat_length, level_cuts_len, map_length, seq_length. lia.
    - apply Forall_app. split; [|apply level_cuts_fit]. apply Forall_forall. intros x Hx. apply repeat_spec in Hx. subst x. reflexivity. }
  split.
  { split; [lia|]. intros i Hi. destruct (Nat.eq_dec i (length (cc (slabs K) st (height K)))) as [->|].
    - rewrite R, S5, app_nth2, Nat.sub_diag by lia. reflexivity.
    - unfold lv_read. replace (N.of_nat i <? lv_alloc (s_labels s))%N with true by lia. reflexivity. }
  split; [eapply rank_ok_wf; eauto; rewrite items_lev; [lia|lia|]; intros; apply map_length|].
  split; [eapply select_ok_wf; eauto; rewrite items_lev; [lia|lia|]; intros; apply map_length|].
  eapply suf_rel_wf; eauto.
Qed.
End Wf.

(** ** the whole filter *)
Definition trim (f : surf) : surf := mkSurf (sf_dense f) (trim_s (sf_sparse f)).
Definition surf_bytes (f : surf) : nat := dense_bytes (sf_dense f) + sparse_bytes (sf_sparse f).

Section Whole.
Variables (e : env) (f : surf).
Hypothesis HD : dense_wf (sf_dense f).
Hypothesis HS : sparse_wf e (sf_sparse f).

Lemma bv_bytes_small : forall n, (N.of_nat n < 4294967296)%N -> (N.of_nat (8 * num_words n) <= 600000000)%N.
Proof. intros n H. pose proof (words_small n H). lia. Qed.
Lemma rank_bytes_small : forall r, rank_wf r -> (N.of_nat (rank_bytes r) <= 1000000000)%N.
Proof.
  intros r ((A & _) & _ & B & _). unfold rank_bytes. rewrite B. pose proof (bv_bytes_small _ A). pose proof (div_small _ 512 A ltac:(lia)).
  pose proof (up8_bounds (8 + 8 * num_words (bv_nbits (rk_bv r)) + 4 * (bv_nbits (rk_bv r) / 512 + 1))). lia.
Qed.
Lemma select_bytes_small : forall s, select_wf s -> (N.of_nat (select_bytes s) <= 1000000000)%N.
Proof.
  intros s ((A & _) & _ & O & B & _). unfold select_bytes. rewrite B. pose proof (bv_bytes_small _ A). pose proof (div_small _ 64 O ltac:(lia)).
  pose proof (up8_bounds (12 + 8 * num_words (bv_nbits (sl_bv s)) + 4 * (sl_ones s / 64 + 1))). lia.
Qed.
Lemma suf_bytes_small : forall s, suf_wf s -> (N.of_nat (suf_bytes s) <= 1000000000)%N.
Proof.
  intros s ((A & _) & _). unfold suf_bytes. pose proof (bv_bytes_small _ A).
  pose proof (up8_bounds (16 + 8 * num_words (bv_nbits (sf_bv s)))). lia.
Qed.

Lemma up8_mul8 : forall n m, n = 8 * m -> up8 n = n.
Proof. intros n m ->. apply up8_id. Qed.

Lemma dense_size_eq : dense_serializedSize (sf_dense f) = N.of_nat (dense_bytes (sf_dense f)) /\
  (N.of_nat (dense_bytes (sf_dense f)) <= 30000000000)%N.
Proof.
  destruct HD as (H1 & _ & H3 & H4 & H5 & H6). unfold dense_serializedSize. cbv zeta.
  rewrite !rank_size_eq, suf_size_eq by auto.
  pose proof (rank_bytes_small _ H3). pose proof (rank_bytes_small _ H4). pose proof (rank_bytes_small _ H5). pose proof (suf_bytes_small _ H6).
  pose proof (up8_bounds (4 + 4 * d_height (sf_dense f))).
  replace (4 + 4 * N.of_nat (d_height (sf_dense f)))%N with (N.of_nat (4 + 4 * d_height (sf_dense f))) by lia.
  rewrite sizeAlign64_up by (unfold two64; lia). rewrite wrap64_id by (unfold two64; lia).
  rewrite <- !Nat2N.inj_add, !Nat.add_assoc. fold (dense_bytes (sf_dense f)). rewrite sizeAlign64_up by (unfold two64, dense_bytes; lia).
  split; [|unfold dense_bytes; lia].
  f_equal. unfold dense_bytes, rank_bytes, suf_bytes, up8. eapply up8_mul8. rewrite <- !Nat.mul_add_distr_l. reflexivity.
Qed.

Lemma sparse_size_eq : sparse_serializedSize (sf_sparse f) = N.of_nat (sparse_bytes (sf_sparse f)) /\
  (N.of_nat (sparse_bytes (sf_sparse f)) <= 30000000000)%N.
Proof.
  destruct HS as (H1 & _ & _ & _ & _ & H6 & H7 & H8 & H9). unfold sparse_serializedSize. cbv zeta.
  rewrite (lv_size_eq e), rank_size_eq, select_size_eq, suf_size_eq by auto.
  pose proof (rank_bytes_small _ H7). pose proof (select_bytes_small _ H8). pose proof (suf_bytes_small _ H9).
  pose proof (up8_bounds (16 + 4 * s_height (sf_sparse f))).
  assert (LB : (N.of_nat (lv_space (s_labels (sf_sparse f))) <= 5000000000)%N).
  { destruct H6 as [L _]. unfold lv_space. pose proof (up8_bounds (4 + lv_num_bytes (s_labels (sf_sparse f)))). lia. }
  replace (4 + 4 + 4 + 4 + 4 * N.of_nat (s_height (sf_sparse f)))%N with (N.of_nat (16 + 4 * s_height (sf_sparse f))) by lia.
  rewrite sizeAlign64_up by (unfold two64; lia). rewrite wrap64_id by (unfold two64; lia).
  rewrite <- !Nat2N.inj_add, !Nat.add_assoc. fold (sparse_bytes (sf_sparse f)). rewrite sizeAlign64_up by (unfold two64, sparse_bytes; lia).
  split; [|unfold sparse_bytes; lia].
  f_equal. unfold sparse_bytes, lv_space, rank_bytes, select_bytes, suf_bytes, up8. eapply up8_mul8. rewrite <- !Nat.mul_add_distr_l. reflexivity.
Qed.

Lemma size_eq : serializedSize f = N.of_nat (surf_bytes f).
Proof.
  unfold serializedSize. destruct dense_size_eq as [-> A], sparse_size_eq as [-> B].
  rewrite wrap64_id by (unfold two64; lia). unfold surf_bytes. lia.
Qed.

Lemma dense_bytes_mul : forall d, exists m, dense_bytes d = 8 * m.
Proof. intros d. unfold dense_bytes, rank_bytes, suf_bytes, up8. rewrite <- !Nat.mul_add_distr_l. eexists. reflexivity. Qed.

Theorem round_trip : forall a a' mem rest, length mem = surf_bytes f -> block a (length mem) -> block a' (length mem) ->
  exists buf, serialize_into e a mem f = Ok (buf, surf_bytes f) /\ length buf = surf_bytes f /\
    deSerialize a' (buf ++ rest) = Ok (trim f, surf_bytes f).
Proof.
  intros a a' mem rest HM [A1 A2] [B1 B2]. change (2 ^ 64)%N with two64 in *.
  destruct (dense_codec a a' (length mem) A1 B1 A2 B2 (sf_dense f) HD) as (sz1 & (C1 & C2) & E1).
  destruct (sparse_codec a a' (length mem) A1 B1 A2 B2 e (sf_sparse f) HS) as (sz2 & (D1 & D2) & E2).
  specialize (E1 0). cbn [Nat.mul Nat.add] in E1.
  destruct (dense_bytes_mul (sf_dense f)) as (m & EM).
  specialize (E2 m). rewrite <- EM in E2.
  destruct (C2 mem 0 (le_n _)) as (b1 & W1 & L1 & F1 & R1); [rewrite E1, HM; unfold surf_bytes; lia|]. rewrite E1 in *.
  destruct (D2 b1 (dense_bytes (sf_dense f))) as (b2 & W2 & L2 & F2 & R2); [lia|rewrite E2, L1, HM; unfold surf_bytes; lia|]. rewrite E2 in *.
  fold (surf_bytes f) in *. exists b2. unfold serialize_into, deSerialize. rewrite W1. cbn [bind]. rewrite W2. cbn [bind].
  rewrite size_eq, N.eqb_refl. rewrite massert_true by reflexivity. cbn [bind]. split; auto. split; [congruence|].
  assert (P : firstn (surf_bytes f) (b2 ++ rest) = firstn (surf_bytes f) b2).
  { rewrite firstn_app. replace (surf_bytes f - length b2) with 0 by lia. rewrite firstn_O, app_nil_r. reflexivity. }
  rewrite R1.
  - cbn [bind]. rewrite R2; auto.
  - rewrite <- F2. eapply firstn_le_eq; [|exact P]. unfold surf_bytes. lia.
Qed.
End Whole.

(** ** filters made from keys *)
Lemma sm_list : forall (K : list bytes) (g : bytes -> nat) f, (forall i, i < length K -> f i <= g (kk K i)) ->
  sm f (length K) <= list_sum (map g K).
Proof.
  intros K g. induction K as [|k r IH] using rev_ind; intros f H; [cbn; lia|].
  rewrite app_length, map_app, list_sum_app in *. cbn [length map list_sum fold_right] in *. rewrite Nat.add_1_r in *. cbn [sm].
  pose proof (H (length r) ltac:(lia)) as A. unfold kk in A. rewrite app_nth2, Nat.sub_diag in A by lia. cbn [nth] in A.
  enough (sm f (length r) <= list_sum (map g r)) by lia. apply IH. intros i Hi. specialize (H i ltac:(lia)). unfold kk in *.
  rewrite app_nth1 in H by lia. exact H.
Qed.

Lemma total_len_uniq : forall keys, total_bytes (uniq keys) <= total_len keys.
Proof.
  intros keys. unfold total_bytes. etransitivity.
  - apply (sm_list (uniq keys) (fun k => S (length k))). intros i _. pose proof (leafl_le (uniq keys) i). lia.
  - unfold total_len. induction keys as [|k r IH]; [cbn; lia|].
    cbn [uniq map list_sum fold_right]. change (fold_right Nat.add 0) with list_sum.
    destruct (uniq r) as [|k' r']; [cbn; lia|].
    destruct (list_eq_dec Nat.eq_dec k k'); cbn [map list_sum fold_right] in *; lia.
Qed.

(** any choice of distinguishing prefixes is at least as long as the paths of
    the trie *)
Section Apart.
Variable keys : list bytes.
Notation K := (uniq keys).
Hypothesis HS : StronglySorted klt K.

Lemma dist_ge : forall i d, i < length K -> dist_len keys (kk K i) d -> S (leafl K i) <= d.
Proof.
  intros i d Hi (A & B & _). destruct (le_lt_dec (S (leafl K i)) d) as [|L]; [assumption|exfalso].
  unfold leafl in L. destruct (le_lt_dec d (lo K i)) as [Q|Q].
  - destruct i as [|i]; cbn [lo] in Q; [lia|]. apply (B (kk K i)).
    + apply uniq_in. apply nth_In. lia.
    + intros E. pose proof (sorted_nth K HS i (S i) ltac:(lia)) as R. rewrite E in R. exact (klt_irrefl _ R).
    + apply lcp_firstn. exact Q.
  - assert (Q' : d <= hi K i) by lia. unfold hi in Q'.
    assert (S i < length K).
    { destruct (le_lt_dec (length K) (S i)) as [G|]; auto. exfalso. unfold kk in Q' at 2. rewrite nth_overflow in Q' by auto.
      rewrite lcp_nil_r in Q'. lia. }
    apply (B (kk K (S i))).
    + apply uniq_in. apply nth_In. lia.
    + intros E. pose proof (sorted_nth K HS i (S i) ltac:(lia)) as R. rewrite E in R. exact (klt_irrefl _ R).
    + symmetry. apply lcp_firstn. exact Q'.
Qed.

Lemma apart_sum : forall (R : bytes -> nat -> Prop) (g : bytes -> nat) (l ks : list bytes) ds, NoDup l -> incl l ks ->
  Forall2 R ks ds -> (forall k d, In k l -> R k d -> g k <= d) -> list_sum (map g l) <= list_sum ds.
Proof.
  intros R g l. induction l as [|k l IH]; intros ks ds ND IN F H; [cbn; lia|].
  inversion ND as [|? ? N1 N2]; subst. destruct (in_split k ks (IN k (or_introl eq_refl))) as (a & b & ->).
  apply Forall2_app_inv_l in F. destruct F as (da & db & FA & FB & ->).
  inversion FB as [|? d ? db' RD FB']; subst.
  assert (Q : list_sum (map g l) <= list_sum (da ++ db')).
  { apply (IH (a ++ b)); auto.
    - intros x Hx. specialize (IN x (or_intror Hx)). apply in_app_or in IN. apply in_or_app.
      destruct IN as [|[->|]]; auto. contradiction.
    - apply Forall2_app; auto.
    - intros. apply (H k0 d0); auto. right. auto. }
  specialize (H k d (or_introl eq_refl) RD). rewrite list_sum_app in *. cbn [map list_sum fold_right] in *.
  change (fold_right Nat.add 0) with list_sum in *. lia.
Qed.

Lemma sorted_nodup : forall l : list bytes, StronglySorted klt l -> NoDup l.
Proof.
  induction l as [|k l IH]; intros H; constructor; inversion H; subst; auto.
  intros I. rewrite Forall_forall in H3. exact (klt_irrefl _ (H3 k I)).
Qed.

Lemma told_total : forall N, told_apart keys N -> (N.of_nat (total_bytes K) <= N)%N.
Proof.
  intros N (ks & ds & A & F & L). enough (total_bytes K <= list_sum ds) by lia. unfold total_bytes.
  pose (g := fun k => S (Nat.max (list_max (map (fun i => if list_eq_dec Nat.eq_dec (kk K i) k then leafl K i else 0) (seq 0 (length K)))) 0)).
  assert (GK : forall i, i < length K -> g (kk K i) = S (leafl K i)).
  { intros i Hi. unfold g. f_equal. rewrite Nat.max_0_r. apply Nat.le_antisymm.
    - apply list_max_le. apply Forall_forall. intros x Hx. apply in_map_iff in Hx. destruct Hx as (j & <- & Hj). apply in_seq in Hj.
      destruct (list_eq_dec _ _ _) as [E|]; [|lia]. replace j with i; [lia|].
      apply (proj1 (NoDup_nth K []) (sorted_nodup K HS)); auto; lia.
    - assert (I : In (leafl K i) (map (fun j => if list_eq_dec Nat.eq_dec (kk K j) (kk K i) then leafl K j else 0) (seq 0 (length K)))).
      { apply in_map_iff. exists i. split; [destruct (list_eq_dec _ _ _); congruence|]. apply in_seq. lia. }
      pose proof (proj1 (list_max_le _ _) (le_n (list_max (map (fun j => if list_eq_dec Nat.eq_dec (kk K j) (kk K i) then leafl K j else 0) (seq 0 (length K)))))) as Q.
      rewrite Forall_forall in Q. apply Q. exact I. }
  etransitivity; [apply (sm_list K g); intros i Hi; rewrite GK by auto; lia|].
  apply (apart_sum (dist_len keys) g K ks ds); auto using sorted_nodup.
  - intros k Hk. apply A. apply uniq_in. exact Hk.
  - intros k d Hk D. apply (In_nth _ _ []) in Hk. destruct Hk as (i & Hi & <-). change (nth i K []) with (kk K i) in *.
    rewrite GK by auto. apply dist_ge; auto.
Qed.
End Apart.

Section Keys.
Variables (keys : list bytes) (e : env) (c : config).
Notation K := (uniq keys).
Hypothesis HS : StronglySorted klt K.
Hypothesis HB : Forall is_bytes K.
Hypothesis HE : Forall (fun k => k <> []) K.
Hypothesis HN : length K <> 0.
Hypothesis HM : machine e.
Hypothesis HC : any_settings c.

Lemma settings_lens' : lens_ok (cf_type c) (cf_hlen c) (cf_rlen c).
Proof. destruct HC as [(_ & _ & A & B)|(_ & B & A)]; (split; [exact A|]); [exact B|]. rewrite B. exact I. Qed.

Lemma total_small : small keys -> sizes_fit c K.
Proof.
  intros HZ. apply total_fits.
  - apply told_total; auto.
  - assert (A : cf_hlen c + cf_rlen c <= 64) by (destruct HC as [(_ & _ & A & _)|(_ & _ & A)]; exact A). unfold cf_len. destruct (cf_type c); lia.
Qed.

Lemma create_any : forall f, create e c keys = Ok f ->
  exists st, (if cf_dense c then 1 <= st else st = 0) /\ S st <= height K /\ dense_ok c K st (sf_dense f) /\ sparse_ok c K st (sf_sparse f) /\ fresh_alloc K st (sf_sparse f).
Proof.
  intros f HF. destruct HM as [M1 M2]. pose proof settings_lens' as HL. destruct HC as [(C1 & C2 & _)|(C1 & C2 & _)].
  - pose proof (create_spec c K e HS HB HE HN M1 M2 HL keys eq_refl C1 C2) as Q.
    rewrite HF in Q. destruct Q as (st & A & Q). exists st. rewrite C1. split; [exact A|exact Q].
  - pose proof HF as E. unfold create in E. apply bind_ok in E. destruct E as (b & EB & _).
    pose proof (create_bare c K e HS HB HE HN M1 M2 HL keys b eq_refl C1 C2 EB) as Q. rewrite HF in Q. exists 0.
    rewrite C1. split; [reflexivity|]. split; [|exact Q]. pose proof (height_ge2 K e HN M1 M2). lia.
Qed.

(** the label array keeps every label, and one more byte if it can be written *)
Definition roomy (st : nat) (s : sparse) : Prop := small keys -> (N.of_nat (length (cc (slabs K) st (height K))) < lv_alloc (s_labels s))%N.

Lemma fresh_roomy : forall st s, S st <= height K -> fresh_alloc K st s -> roomy st s.
Proof.
  intros st s Hs H HZ. destruct (total_small HZ) as (_ & Z & _). unfold fresh_alloc in H. cbv zeta in Z, H. rewrite H. clear H.
  assert (LE : length (cc (slabs K) st (height K)) <= sm (fun l => length (items K l)) (height K)).
  { rewrite cc_length by lia. eapply Nat.le_trans; [apply Nat.le_sub_l|].
    apply sm_le. intros l _. unfold slabs. rewrite map_length. auto. }
  set (m := N.of_nat (1 + length (cc (slabs K) st (height K)))) in *.
  set (m' := N.of_nat (1 + sm (fun l => length (items K l)) (height K))) in *.
  assert (MM : (m <= m')%N) by (unfold m, m'; lia).
  assert (W : (m * (m / 64 + 1) < 4294967296)%N).
  { eapply N.le_lt_trans; [|exact Z]. apply N.mul_le_mono; auto. apply N.add_le_mono_r. apply N.div_le_mono; lia. }
  rewrite wrap32_small by exact W. assert (AA : (m * 1 <= m * (m / 64 + 1))%N) by (apply N.mul_le_mono_l; lia). unfold m in *. lia.
Qed.

Lemma can_read : forall st s, S st <= height K -> sparse_ok c K st s -> roomy st s -> storable e keys -> readable e K st s.
Proof.
  intros st s Hs S R T. unfold readable, lv_read. pose proof (sk_lab _ _ _ _ S) as L. pose proof (sk_room _ _ _ _ S) as M.
  assert (Z : nth (length (cc (slabs K) st (height K))) (lv_bytes (s_labels s)) 0 = 0) by (rewrite L, app_nth2, Nat.sub_diag by lia; reflexivity).
  rewrite Z. destruct T as [T|[Q _]].
  - specialize (R T). replace (_ <? _)%N with true by lia. reflexivity.
  - destruct (_ <? lv_alloc _)%N; auto. destruct HM as [_ ->]. replace (_ <? _ + 80)%N with true by lia. rewrite Q. reflexivity.
Qed.

Lemma storable_total : storable e keys -> (N.of_nat (total_bytes K) <= 4000000000)%N.
Proof. intros [T|[_ T]]; [unfold small in T|]; pose proof (told_total keys HS _ T); lia. Qed.

Lemma trim_sparse : forall st s, sparse_ok c K st s -> sparse_ok c K st (trim_s s) /\ roomy st (trim_s s).
Proof.
  intros st s S. split.
  - destruct S. constructor; auto. cbn. unfold lv_num_bytes. rewrite sk_lab, app_length. cbn. lia.
  - intros _. cbn. unfold lv_num_bytes. rewrite (sk_lab _ _ _ _ S), app_length. cbn. lia.
Qed.

Lemma filter_wf : forall f st, S st <= height K -> dense_ok c K st (sf_dense f) -> sparse_ok c K st (sf_sparse f) ->
  roomy st (sf_sparse f) -> storable e keys -> dense_wf (sf_dense f) /\ sparse_wf e (sf_sparse f).
Proof.
  intros f st Hs D S R T. pose proof (storable_total T) as TT. split.
  - eapply dense_ok_wf; eauto.
  - eapply sparse_ok_wf; eauto. apply can_read; auto.
Qed.

Lemma restored_trim : forall f g, dense_wf (sf_dense f) -> sparse_wf e (sf_sparse f) -> restored e f g -> g = trim f.
Proof.
  intros f g D S (a & a' & mem & buf & rest & m & m' & H1 & H2 & H3 & H4 & H5).
  assert (L : length mem = surf_bytes f) by (rewrite (size_eq e f D S) in H1; lia).
  destruct (round_trip e f D S a a' mem rest L H2 H3) as (buf' & E & _ & E'). rewrite E in H4. injection H4 as <- <-.
  rewrite E' in H5. injection H5 as <- _. reflexivity.
Qed.

Theorem filter_any : forall f, filter_of e c keys f ->
  exists st, (if cf_dense c then 1 <= st else st = 0) /\ S st <= height K /\ dense_ok c K st (sf_dense f) /\ sparse_ok c K st (sf_sparse f) /\ roomy st (sf_sparse f).
Proof.
  intros f H. induction H as [f H|f g H (st & A & B & D & S & R) T Q].
  - destruct (create_any f H) as (st & A & B & D & S & F). exists st. repeat (split; auto). apply fresh_roomy; auto.
  - destruct (filter_wf f st B D S R T) as [W1 W2]. rewrite (restored_trim f g W1 W2 Q). exists st.
    destruct (trim_sparse st _ S) as [X Y]. repeat (split; auto).
Qed.
End Keys.

(** with dense levels *)
Section Dense.
Variables (keys : list bytes) (e : env) (c : config).
Notation K := (uniq keys).
Hypothesis HS : StronglySorted klt K.
Hypothesis HB : Forall is_bytes K.
Hypothesis HE : Forall (fun k => k <> []) K.
Hypothesis HN : length K <> 0.
Hypothesis HM : machine e.
Hypothesis HC : settings c.

Lemma create_built : forall f, create e c keys = Ok f ->
  exists st, 1 <= st /\ S st <= height K /\ dense_ok c K st (sf_dense f) /\ sparse_ok c K st (sf_sparse f) /\ fresh_alloc K st (sf_sparse f).
Proof.
  intros f H. destruct (create_any keys e c HS HB HE HN HM (or_introl HC) f H) as (st & A & Q). exists st. rewrite (proj1 HC) in A. split; [exact A|exact Q].
Qed.
Theorem filter_built : forall f, filter_of e c keys f ->
  exists st, 1 <= st /\ S st <= height K /\ dense_ok c K st (sf_dense f) /\ sparse_ok c K st (sf_sparse f) /\ roomy keys st (sf_sparse f).
Proof.
  intros f H. destruct (filter_any keys e c HS HB HE HN HM (or_introl HC) f H) as (st & A & Q). exists st. rewrite (proj1 HC) in A. split; [exact A|exact Q].
Qed.
End Dense.
