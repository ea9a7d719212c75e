(** Serialization: the round trip keeps the answers, the sizes and the bytes;
    the arrays a filter holds. *)
From Coq Require Import Arith List NArith ZArith Bool Lia ZifyN ZifyNat ZifyBool.
From Verif Require Import Res Word Config Bitvector Rank Select LabelVector Suffix Builder Spec KeyFacts Trie BuilderFacts
  Dense Sparse Surf StructFacts SpecApi Serialize SpecFilter SpecIter SpecSession SerialFacts FilterFacts TrimFacts Heap PointFacts.
Import ListNotations.

(** ** the same program run on two filters *)
Section Le.
Variable e : env.
Hypothesis quiet_e : quiet e.
Variable f : surf.
Hypothesis room : (N.of_nat (lv_num_bytes (s_labels (sf_sparse f))) <= lv_alloc (s_labels (sf_sparse f)))%N.

Lemma trim_read : forall i, le (lv_read e (trim_lv (s_labels (sf_sparse f))) i) (lv_read e (s_labels (sf_sparse f)) i).
Proof.
  intros i x. unfold lv_read, trim_lv. cbn [lv_bytes lv_alloc]. set (lv := s_labels (sf_sparse f)) in *.
  destruct (N.ltb_spec (N.of_nat i) (N.of_nat (lv_num_bytes lv))).
  - replace (_ <? lv_alloc lv)%N with true by lia. auto.
  - destruct (strict_mem e) eqn:E; [discriminate|]. destruct (N.ltb_spec (N.of_nat i) (N.of_nat (lv_num_bytes lv) + 80)); [|discriminate].
    rewrite !quiet_e. destruct (N.ltb_spec (N.of_nat i) (lv_alloc lv)).
    + rewrite nth_overflow; auto. unfold lv_num_bytes in *. lia.
    + replace (_ <? lv_alloc lv + 80)%N with true by lia. auto.
Qed.

Lemma step_le : forall st c, le (step e (trim f) st c) (step e f st c).
Proof.
  pose proof trim_read as RD. destruct f as [d [h st nc cc cuts lv ch ld sf]]. unfold trim, trim_s. cbn in RD |- *.
  intros se c. destruct c; cbn [step].
  - apply le_bind; [apply lookupKey_le; exact RD|intros; apply le_refl].
  - apply le_bind; [apply range_le; exact RD|intros; apply le_refl].
  - apply le_bind; [apply seek_gt_le; exact RD|intros]. apply le_bind; [apply count_le; exact RD|intros; apply le_refl].
  - apply le_bind; [apply first_le; exact RD|intros; apply le_refl].
  - apply le_bind; [apply last_le; exact RD|intros; apply le_refl].
  - apply le_bind; [apply seek_gt_le; exact RD|intros; apply le_refl].
  - apply le_bind; [apply seek_lt_le; exact RD|intros; apply le_refl].
  - destruct (nth_error (se_its se) i); [|apply le_refl]. apply le_bind; [apply move_le; exact RD|intros; apply le_refl].
  - destruct (nth_error (se_its se) i) as [it|]; [|apply le_refl]. apply le_bind; [|intros; apply le_refl].
    unfold look. destruct (it_valid it); [|apply le_refl].
    destruct (same_reads e h st nc cc cuts ch ld sf lv (trim_lv lv) d it) as (_ & A & B & _). rewrite A, B. apply le_refl.
  - destruct (nth_error (se_its se) i) as [it|]; [|apply le_refl]. destruct (it_valid it); [|apply le_refl].
    destruct (same_reads e h st nc cc cuts ch ld sf lv (trim_lv lv) d it) as (A & _). rewrite A. apply le_refl.
  - destruct (nth_error (se_its se) i) as [a|]; [|apply le_refl]. destruct (nth_error (se_its se) j) as [b|]; [|apply le_refl].
    apply le_bind; [apply count_it_le|intros; apply le_refl].
Qed.

Lemma play_le : forall cs st, le (play e (trim f) st cs) (play e f st cs).
Proof.
  induction cs as [|c cs IH]; intros st; cbn [play]; [apply le_refl|]. apply le_bind; [apply step_le|]. intros [a st'].
  apply le_bind; [apply IH|intros; apply le_refl].
Qed.

Lemma answers_le : forall cs, le (answers e (trim f) cs) (answers e f cs).
Proof. intros cs. unfold answers. change (iter_new (trim f)) with (iter_new f). apply play_le. Qed.
End Le.

Section Api.
Variables (e : env) (c : config) (keys : list bytes) (f : surf).
Hypothesis HM : machine e.
Hypothesis HC : any_settings c.
Hypothesis HG : good_keys keys.
Hypothesis HF : filter_of e c keys f.

Lemma filled : exists st, (if cf_dense c then 1 <= st else st = 0) /\ S st <= height (uniq keys) /\ dense_ok c (uniq keys) st (sf_dense f) /\
  sparse_ok c (uniq keys) st (sf_sparse f) /\ roomy keys st (sf_sparse f).
Proof. destruct (good_uniq keys HG) as (HS & HB & HE & HN). exact (filter_any keys e c HS HB HE HN HM HC f HF). Qed.

Lemma wf_both : storable e keys -> dense_wf (sf_dense f) /\ sparse_wf e (sf_sparse f).
Proof. intros T. destruct filled as (st & A & B & D & S & R). destruct (good_uniq keys HG) as (HS & HB & HE & HN). eapply filter_wf; eauto. Qed.

Lemma room_small : small keys -> (N.of_nat (lv_num_bytes (s_labels (sf_sparse f))) <= lv_alloc (s_labels (sf_sparse f)))%N.
Proof.
  intros Z. destruct filled as (st & A & B & D & S & R). specialize (R Z). unfold lv_num_bytes.
  rewrite (sk_lab _ _ _ _ S), app_length. cbn [length]. lia.
Qed.

Theorem exact_bytes : storable e keys -> forall a mem, N.of_nat (length mem) = serializedSize f -> block a (length mem) ->
  exists buf, serialize_into e a mem f = Ok (buf, length mem) /\ length buf = length mem /\
    exists g, forall a' rest, block a' (length mem) -> deSerialize a' (buf ++ rest) = Ok (g, length mem).
Proof.
  intros T a mem HL HA. destruct (wf_both T) as [D S]. rewrite (size_eq e f D S) in HL. apply Nat2N.inj in HL.
  destruct (round_trip e f D S a a mem [] HL HA HA) as (buf & E1 & E2 & _). rewrite HL. exists buf. split; [exact E1|].
  split; [exact E2|]. exists (trim f). intros a' rest HA'. rewrite <- HL in HA'.
  destruct (round_trip e f D S a a' mem rest HL HA HA') as (buf' & E1' & _ & E3). rewrite E1 in E1'. injection E1' as <-. exact E3.
Qed.

Theorem same_figures : storable e keys -> forall g, restored e f g ->
  getHeight g = getHeight f /\ getSparseStartLevel g = getSparseStartLevel f /\ serializedSize g = serializedSize f /\
  (forall sz, getMemoryUsage sz g = getMemoryUsage sz f) /\
  (forall a mem, serialize_into e a mem g = serialize_into e a mem f).
Proof.
  intros T g R. destruct (wf_both T) as [D S]. destruct (good_uniq keys HG) as (_ & _ & _ & HN). rewrite (restored_trim keys e HN f g D S R). repeat split.
  intros a mem. unfold serialize_into.
  assert (E : forall st, sparse_serialize e a (sf_sparse (trim f)) st = sparse_serialize e a (sf_sparse f) st); [|].
  { intros st. unfold trim. cbn [sf_sparse]. unfold sparse_serialize, trim_s. cbn [s_height s_start s_ncount s_ccount s_cuts s_labels s_child s_louds s_suf].
    assert (L : lv_serialize e a (trim_lv (s_labels (sf_sparse f))) = lv_serialize e a (s_labels (sf_sparse f))).
    { unfold lv_serialize. destruct S as (_ & _ & _ & _ & _ & W & _). change (lv_num_bytes (trim_lv (s_labels (sf_sparse f)))) with (lv_num_bytes (s_labels (sf_sparse f))).
      rewrite (lv_all e _ W). pose proof (lv_all e (trim_lv (s_labels (sf_sparse f)))) as Q.
      change (lv_num_bytes (trim_lv (s_labels (sf_sparse f)))) with (lv_num_bytes (s_labels (sf_sparse f))) in Q. rewrite Q; [reflexivity|].
      destruct W as [W1 W2]. split; [exact W1|]. intros i Hi. unfold lv_read, trim_lv. cbn [lv_alloc lv_bytes].
      change (lv_num_bytes (trim_lv (s_labels (sf_sparse f)))) with (lv_num_bytes (s_labels (sf_sparse f))) in Hi.
      replace (_ <? _)%N with true by lia. reflexivity. }
    rewrite L. reflexivity. }
  change (sf_dense (trim f)) with (sf_dense f). destruct (dense_serialize a (sf_dense f) (mem, 0)) as [st|]; [|reflexivity]. cbn [bind].
  rewrite E. reflexivity.
Qed.

(** ** arrays *)
Lemma rank_mem : forall r, rank_wf r -> (rank_size r = 32 + words_bytes (rk_bv r) + lut_bytes (rk_lut r) /\ rank_size r <= 2000000000)%N.
Proof.
  intros r H. pose proof H as ((B1 & B2 & _) & _ & L & _). unfold rank_size. rewrite (rankLut_eq r H), bitsSize_eq by auto.
  pose proof (words_small _ B1). pose proof (div_small _ 512 B1 ltac:(lia)). unfold words_bytes, lut_bytes. rewrite B2.
  rewrite wrap32_id by lia. lia.
Qed.
Lemma select_mem : forall r, select_wf r -> (select_size r = 32 + words_bytes (sl_bv r) + lut_bytes (sl_lut r) /\ select_size r <= 2000000000)%N.
Proof.
  intros r H. pose proof H as ((B1 & B2 & _) & _ & O & L & _). unfold select_size. rewrite (selectLut_eq r H), bitsSize_eq by auto.
  pose proof (words_small _ B1). pose proof (div_small _ 64 O ltac:(lia)). unfold words_bytes, lut_bytes. rewrite B2.
  rewrite wrap32_id by lia. lia.
Qed.
Lemma suffix_mem : forall s, suf_wf s -> (suf_size s = 32 + words_bytes (sf_bv s) /\ suf_size s <= 2000000000)%N.
Proof.
  intros s ((B1 & B2 & _) & _). unfold suf_size. rewrite bitsSize_eq by auto. pose proof (words_small _ B1). unfold words_bytes. rewrite B2.
  rewrite wrap32_id by lia. lia.
Qed.
Lemma live_suffix : forall s h, suf_wf s -> live_bytes (snd (suffix_arrays s h)) = (words_bytes (sf_bv s) + live_bytes h)%N.
Proof.
  intros s h ((_ & W & _) & _ & _ & Z). unfold suffix_arrays. destruct (sf_type s); try reflexivity. cbn [snd].
  specialize (Z eq_refl). rewrite Z in W. unfold words_bytes. rewrite W. reflexivity.
Qed.

Lemma held_eq : dense_wf (sf_dense f) -> sparse_wf e (sf_sparse f) ->
  held f = (4 * N.of_nat (d_height (sf_dense f)) + 4 * N.of_nat (s_height (sf_sparse f)) + lv_alloc (s_labels (sf_sparse f)) +
    (words_bytes (rk_bv (d_labels (sf_dense f))) + lut_bytes (rk_lut (d_labels (sf_dense f)))) +
    (words_bytes (rk_bv (d_child (sf_dense f))) + lut_bytes (rk_lut (d_child (sf_dense f)))) +
    (words_bytes (rk_bv (d_prefix (sf_dense f))) + lut_bytes (rk_lut (d_prefix (sf_dense f)))) +
    words_bytes (sf_bv (d_suf (sf_dense f))) +
    (words_bytes (rk_bv (s_child (sf_sparse f))) + lut_bytes (rk_lut (s_child (sf_sparse f)))) +
    (words_bytes (sl_bv (s_louds (sf_sparse f))) + lut_bytes (sl_lut (s_louds (sf_sparse f)))) +
    words_bytes (sf_bv (s_suf (sf_sparse f))))%N.
Proof.
  intros (_ & (CL & _) & _ & _ & _ & DS) (_ & _ & _ & _ & (CL' & _) & _ & _ & _ & SS). unfold held, surf_arrays.
  unfold dense_arrays, rank_arrays, new_array. cbn [hp_next hp_live fst snd].
  pose proof (live_suffix (d_suf (sf_dense f))) as LD. destruct (suffix_arrays (d_suf (sf_dense f)) _) as [p1 h1] eqn:E1.
  match type of E1 with suffix_arrays _ ?h = _ => pose proof (LD h DS) as L1 end. rewrite E1 in L1. cbn [snd] in L1. clear LD E1.
  unfold sparse_arrays, rank_arrays, select_arrays, new_array. cbn [hp_next hp_live fst snd].
  pose proof (live_suffix (s_suf (sf_sparse f))) as LD. destruct (suffix_arrays (s_suf (sf_sparse f)) _) as [p2 h2] eqn:E2.
  match type of E2 with suffix_arrays _ ?h = _ => pose proof (LD h SS) as L2 end. rewrite E2 in L2. cbn [snd] in L2 |- *. rewrite L2. unfold live_bytes at 1. cbn [hp_live map fold_right snd].
  fold (live_bytes h1). rewrite L1. unfold live_bytes. cbn [hp_live map fold_right snd]. rewrite CL, CL'. lia.
Qed.

Theorem memory_report : storable e keys -> forall sz, (sz <= 4294967295)%N ->
  (getMemoryUsage sz f + 4 * N.of_nat (getSparseStartLevel f) + 4 * N.of_nat (getHeight f) + lv_alloc (s_labels (sf_sparse f)) =
   sz + 296 + N.of_nat (lv_num_bytes (s_labels (sf_sparse f))) + held f)%N.
Proof.
  intros T sz Hsz. destruct (wf_both T) as [D S]. rewrite (held_eq D S). destruct filled as (st & _ & _ & DK & SK & _).
  unfold getSparseStartLevel, getHeight. rewrite (sk_st _ _ _ _ SK), (dk_h _ _ _ _ DK).
  destruct D as (D1 & D2 & D3 & D4 & D5 & D6), S as (S1 & S2 & S3 & S4 & S5 & S6 & S7 & S8 & S9).
  unfold getMemoryUsage, dense_getMemoryUsage, sparse_getMemoryUsage, lv_size.
  destruct (rank_mem _ D3) as [M3 B3], (rank_mem _ D4) as [M4 B4], (rank_mem _ D5) as [M5 B5], (suffix_mem _ D6) as [M6 B6].
  destruct (rank_mem _ S7) as [M7 B7], (select_mem _ S8) as [M8 B8], (suffix_mem _ S9) as [M9 B9]. destruct S6 as [S6 _].
  rewrite M3 in B3 |- *; rewrite M4 in B4 |- *; rewrite M5 in B5 |- *; rewrite M6 in B6 |- *; rewrite M7 in B7 |- *; rewrite M8 in B8 |- *; rewrite M9 in B9 |- *. rewrite (wrap32_id (16 + _)) by lia.
  rewrite (wrap64_id (48 + _ + _ + _ + _)) by (unfold two64; lia). rewrite (wrap64_id (8 + _ + _ + _ + _)) by (unfold two64; lia).
  rewrite wrap64_id by (unfold two64; lia). lia.
Qed.

Theorem memory_built : create e c keys = Ok f -> small keys -> forall sz, (sz <= 4294967295)%N ->
  let n := N.of_nat (lv_num_bytes (s_labels (sf_sparse f))) in
  (getMemoryUsage sz f + 4 * N.of_nat (getSparseStartLevel f) + 4 * N.of_nat (getHeight f) + n * (n / 64) = sz + 296 + held f)%N.
Proof.
  intros HF' T sz Hsz n. pose proof (memory_report (or_introl T) sz Hsz) as Q. fold n in Q.
  destruct (good_uniq keys HG) as (HS & HB & HE & HN).
  destruct (create_any keys e c HS HB HE HN HM HC f HF') as (st & _ & B & _ & SK & FA).
  destruct (total_small keys c HS HN HC T) as (_ & Z & _). unfold fresh_alloc in FA. cbv zeta in Z, FA.
  assert (EN : N.of_nat (1 + length (cc (slabs (uniq keys)) st (height (uniq keys)))) = n).
  { unfold n, lv_num_bytes. rewrite (sk_lab _ _ _ _ SK), app_length. cbn [length]. lia. }
  assert (LE : length (cc (slabs (uniq keys)) st (height (uniq keys))) <= sm (fun l => length (items (uniq keys) l)) (height (uniq keys))).
  { rewrite cc_length by lia. eapply Nat.le_trans; [apply Nat.le_sub_l|]. apply sm_le. intros l _. unfold slabs. rewrite map_length. auto. }
  set (m := N.of_nat (1 + sm _ _)) in Z. assert (LM : (n <= m)%N) by (rewrite <- EN; subst m; lia).
  rewrite EN in FA. clearbody m n. assert (W : (n * (n / 64 + 1) < 4294967296)%N).
  { eapply N.le_lt_trans; [|exact Z]. apply N.mul_le_mono; [exact LM|]. apply N.add_le_mono_r. apply N.div_le_mono; [discriminate|exact LM]. }
  rewrite wrap32_id in FA by exact W. rewrite FA in Q. replace (n * (n / 64 + 1))%N with (n * (n / 64) + n)%N in Q by lia. lia.
Qed.
Theorem memory_restored : storable e keys -> forall g, restored e f g -> forall sz, (sz <= 4294967295)%N ->
  (getMemoryUsage sz g + 4 * N.of_nat (getSparseStartLevel g) + 4 * N.of_nat (getHeight g) = sz + 296 + held g)%N.
Proof.
  intros T g R sz Hsz. pose proof (memory_report T sz Hsz) as Q. pose proof (wf_both T) as [D S].
  destruct (same_figures T g R) as (A & B & _ & C & _). rewrite A, B, C. destruct (good_uniq keys HG) as (_ & _ & _ & HN).
  rewrite (restored_trim keys e HN f g D S R). enough ((held (trim f) + lv_alloc (s_labels (sf_sparse f)) = held f + N.of_nat (lv_num_bytes (s_labels (sf_sparse f))))%N) by lia.
  clear. unfold held, surf_arrays, trim. cbn [sf_dense sf_sparse]. destruct (dense_arrays _ _) as [p h]. unfold sparse_arrays, trim_s.
  cbn [s_labels s_cuts s_child s_louds s_suf lv_alloc trim_lv]. unfold rank_arrays, select_arrays, suffix_arrays, new_array. cbn [hp_next hp_live fst snd].
  destruct (sf_type _); unfold live_bytes; cbn [hp_live map fold_right snd]; lia.
Qed.
End Api.

(** ** destroy *)
Definition shift (n : nat) (L l : list (nat * N)) : list (nat * N) := map (fun x => (fst x + n, snd x)) L ++ l.

Lemma filter_old : forall l p n, (forall q m, In (q, m) l -> q < n) -> n <= p -> filter (fun x : nat * N => negb (fst x =? p)) l = l.
Proof.
  induction l as [|[q m] l IH]; intros p n H Hp; cbn [filter fst]; auto. pose proof (H q m (or_introl eq_refl)).
  replace (q =? p) with false by lia. cbn [negb]. f_equal. eapply IH; eauto. intros. eapply H. right. eauto.
Qed.
Lemma eqb_shift : forall i j n, (i + n =? j + n) = (i =? j).
Proof. intros. destruct (i =? j) eqn:E, (i + n =? j + n) eqn:F; auto; apply Nat.eqb_eq in E || apply Nat.eqb_eq in F; lia. Qed.
Lemma filter_shift : forall n i L l, (forall q m, In (q, m) l -> q < n) ->
  filter (fun x => negb (fst x =? i + n)) (shift n L l) = shift n (filter (fun x => negb (fst x =? i)) L) l.
Proof.
  intros n i L l H. unfold shift. rewrite filter_app, (filter_old l _ n H) by lia. f_equal.
  induction L as [|[j b] L IH]; auto. cbn [map filter fst snd]. rewrite eqb_shift. destruct (j =? i); cbn [negb]; auto.
  cbn [map fst snd]. f_equal. exact IH.
Qed.
Lemma delete_shift : forall n i m L l, (forall q b, In (q, b) l -> q < n) -> existsb (fun x => fst x =? i) L = true ->
  delete_array (i + n) (mkHeap m (shift n L l)) = Some (mkHeap m (shift n (filter (fun x => negb (fst x =? i)) L) l)).
Proof.
  intros n i m L l H E. unfold delete_array. cbn [hp_live hp_next]. rewrite filter_shift by exact H.
  replace (existsb _ (shift n L l)) with true; auto. symmetry. unfold shift. rewrite existsb_app. apply orb_true_iff. left.
  rewrite existsb_exists in *. destruct E as ([j b] & I & E). exists (j + n, b). split; [|cbn [fst] in *; rewrite eqb_shift; exact E].
  apply in_map_iff. exists (j, b). auto.
Qed.

Ltac off n p := match p with n => constr:(O) | S ?q => let i := off n q in constr:(S i) end.
Ltac offs n l t := match t with l => constr:(@nil (nat * N)) | (?p, ?b) :: ?r => let i := off n p in let r' := offs n l r in constr:((i, b) :: r') end.
Ltac del n l H := match goal with |- context [delete_array ?p (mkHeap ?m ?t)] =>
  let i := off n p in
  let L := match t with shift n ?L l => constr:(L) | _ => offs n l t end in
  change (delete_array p (mkHeap m t)) with (delete_array (i + n) (mkHeap m (shift n L l)));
  rewrite (delete_shift n i m L l H eq_refl); cbn [filter fst snd Nat.eqb negb obind] end.

Theorem destroy_leaks_cuts : forall f h, fresh_heap h ->
  exists h', surf_destroy (fst (surf_arrays f h)) (snd (surf_arrays f h)) = Some h' /\
    hp_live h' = (dp_cuts (fst (fst (surf_arrays f h))), (4 * N.of_nat (length (d_cuts (sf_dense f))))%N) :: hp_live h.
Proof.
  intros f [n l] H. unfold fresh_heap in H. cbn in H.
  unfold surf_arrays, dense_arrays, sparse_arrays, rank_arrays, select_arrays, suffix_arrays, new_array. cbn [hp_next hp_live].
  destruct (sf_type (d_suf (sf_dense f))), (sf_type (s_suf (sf_sparse f)));
  cbn [hp_next hp_live fst snd dp_cuts]; unfold surf_destroy, dense_destroy, sparse_destroy, pair_destroy, suffix_destroy;
  cbn [fst snd dp_cuts dp_labels dp_child dp_prefix dp_suf sp_labels sp_cuts sp_child sp_louds sp_suf];
  repeat del n l H; eexists; (split; [reflexivity|reflexivity]).
Qed.

(** ** the statements of PropSerial.v *)
Lemma round_trip_figures : forall e c keys f, machine e -> any_settings c -> good_keys keys -> filter_of e c keys f -> storable e keys ->
  forall g, restored e f g ->
  (~ lone_ff keys -> forall k, In k keys -> lookupKey e g k = Ok true) /\
  getHeight g = getHeight f /\ getSparseStartLevel g = getSparseStartLevel f /\ serializedSize g = serializedSize f /\
  (forall sz, getMemoryUsage sz g = getMemoryUsage sz f) /\
  (forall a mem, serialize_into e a mem g = serialize_into e a mem f).
Proof.
  intros e c keys f HM HC HG HF HT g HR. split; [|eapply same_figures; eauto].
  intros HL k Hk. assert (HF' : filter_of e c keys g) by (eapply fo_restored; eauto). pose proof HC as [HC'|HC'].
  - eapply point_stored; eauto.
  - destruct (filled e c keys g HM HC HG HF') as (st & A & _ & D & _). rewrite (proj1 HC') in A. subst st.
    unfold lookupKey, d_lookupKey. rewrite (dk_h _ _ _ _ D). reflexivity.
Qed.
Lemma round_trip_answers : forall e c keys f, machine e -> quiet e -> any_settings c -> good_keys keys -> small keys -> filter_of e c keys f ->
  forall g cs l, restored e f g -> answers e g cs = Ok l -> answers e f cs = Ok l.
Proof.
  intros e c keys f HM HQ HC HG HZ HF g cs l HR HA. assert (T : storable e keys) by (left; auto).
  destruct (wf_both e c keys f HM HC HG HF T) as [D S]. destruct (good_uniq keys HG) as (_ & _ & _ & HN).
  rewrite (restored_trim keys e HN f g D S HR) in HA. eapply answers_le; eauto. eapply room_small; eauto.
Qed.
Lemma exact_size : forall e c keys f, machine e -> any_settings c -> good_keys keys -> filter_of e c keys f -> storable e keys ->
  forall a mem, N.of_nat (length mem) = serializedSize f -> block a (length mem) ->
  exists buf, serialize_into e a mem f = Ok (buf, length mem) /\ length buf = length mem /\
    forall a', block a' (length mem) -> exists g, deSerialize a' buf = Ok (g, length mem).
Proof.
  intros e c keys f HM HC HG HF HT a mem HL HA. destruct (exact_bytes e c keys f HM HC HG HF HT a mem HL HA) as (buf & E1 & E2 & g & E3).
  exists buf. split; [exact E1|]. split; [exact E2|]. intros a' HA'. exists g. rewrite <- (app_nil_r buf). apply E3. exact HA'.
Qed.
Lemma any_aligned : forall e c keys f, machine e -> any_settings c -> good_keys keys -> filter_of e c keys f -> storable e keys ->
  forall a mem buf n, N.of_nat (length mem) = serializedSize f -> block a (length mem) -> serialize_into e a mem f = Ok (buf, n) ->
  exists g, forall a' rest, block a' (length mem) -> deSerialize a' (buf ++ rest) = Ok (g, length buf).
Proof.
  intros e c keys f HM HC HG HF HT a mem buf n HL HA HS. destruct (exact_bytes e c keys f HM HC HG HF HT a mem HL HA) as (buf' & E1 & E2 & g & E3).
  rewrite HS in E1. injection E1 as <- _. exists g. rewrite E2. exact E3.
Qed.
Lemma destroy_all_but_cuts : forall e c keys f, machine e -> any_settings c -> good_keys keys -> filter_of e c keys f ->
  forall h p h1, fresh_heap h -> surf_arrays f h = (p, h1) ->
  exists h2, surf_destroy p h1 = Some h2 /\ hp_live h2 = (dp_cuts (fst p), (4 * N.of_nat (getSparseStartLevel f))%N) :: hp_live h.
Proof.
  intros e c keys f HM HC HG HF h p h1 HH E. destruct (destroy_leaks_cuts f h HH) as (h2 & A & B). rewrite E in A, B. cbn [fst snd] in A, B.
  exists h2. split; [exact A|]. rewrite B. do 3 f_equal. destruct (filled e c keys f HM HC HG HF) as (st & _ & _ & D & S & _).
  unfold getSparseStartLevel. rewrite (sk_st _ _ _ _ S), (dk_cuts _ _ _ _ D), level_cuts_len, map_length, seq_length. reflexivity.
Qed.
