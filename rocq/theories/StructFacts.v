(** What the constructors put into the dense and sparse parts. *)
From Coq Require Import Arith List NArith ZArith Bool Lia ZifyN ZifyNat ZifyBool Sorting.Sorted.
From Verif Require Import Res Word Config Hash BitFacts WordFacts Bitvector BitvectorFacts Rank Select
  RankSelectFacts LabelVector Suffix Spec SuffixFacts Builder StoreFacts KeyFacts Trie BuilderFacts
  DenseBuild Cutoff Dense Sparse Surf.
Import ListNotations.

(** [m] succeeds with a result in [P], or [B] does not hold *)
Definition okB (B : Prop) {A} (m : res A) (P : A -> Prop) : Prop :=
  match m with Ok a => P a | Fail _ => ~ B end.

Lemma okB_bind : forall (B : Prop) A C (m : res A) (k : A -> res C) P Q,
  okB B m P -> (forall a, P a -> okB B (k a) Q) -> okB B (bind m k) Q.
Proof. intros B A C m k P Q H1 H2. destruct m as [a|f]; simpl in *; auto. Qed.

Lemma bind_ok : forall (A C : Type) (m : res A) (f : A -> res C) y, bind m f = Ok y -> exists x, m = Ok x /\ f x = Ok y.
Proof. intros A C [x|r] f y H; [exists x; auto|discriminate]. Qed.

Lemma okB_of_okp : forall (B B' : Prop) A (m : res A) P, (B' -> B) -> okp B m P -> okB B' m P.
Proof. intros B B' A m P HB H. destruct m as [a|[]]; simpl in *; tauto. Qed.

Lemma okB_fits : forall (B : Prop) A (m : res A) (P : A -> Prop) x,
  (B -> fits32 x = true) ->
  (if fits32 x then exists a, m = Ok a /\ P a else m = Fail PosOverflow) ->
  okB B m (fun a => P a /\ fits32 x = true).
Proof.
  intros B A m P x HB H. destruct (fits32 x).
  - destruct H as (a & -> & H). cbn [okB]. auto.
  - rewrite H. cbn [okB]. intros Q. specialize (HB Q). discriminate.
Qed.

(** ** sums over levels and concatenated levels *)
Fixpoint sm (f : nat -> nat) (l : nat) : nat := match l with O => 0 | S m => sm f m + f m end.

Lemma sm_mono : forall f a b, a <= b -> sm f a <= sm f b.
Proof. intros f a b H. induction H; cbn [sm]; lia. Qed.

Lemma sm_ext : forall f g l, (forall i, i < l -> f i = g i) -> sm f l = sm g l.
Proof. induction l as [|l IH]; intros H; cbn [sm]; [reflexivity|]. rewrite IH, H by auto. reflexivity. Qed.

Lemma sm_le : forall f g l, (forall i, i < l -> f i <= g i) -> sm f l <= sm g l.
Proof. induction l as [|l IH]; intros H; cbn [sm]; [lia|]. specialize (IH ltac:(auto)). specialize (H l ltac:(lia)). lia. Qed.

Lemma sm_mul : forall k f l, sm (fun i => k * f i) l = k * sm f l.
Proof. induction l as [|l IH]; cbn [sm]; [lia|]. rewrite IH. lia. Qed.

Section Concat.
Context {A : Type}.
Variable lev : nat -> list A.
Definition cc (s e : nat) : list A := concat (map lev (seq s (e - s))).

Lemma cc_snoc : forall s e, s <= e -> cc s (S e) = cc s e ++ lev e.
Proof.
  intros s e H. unfold cc. replace (S e - s) with (S (e - s)) by lia.
  rewrite seq_snoc, map_app, concat_app. cbn [map concat]. rewrite app_nil_r.
  replace (s + (e - s)) with e by lia. reflexivity.
Qed.

Lemma cc_length : forall s e, s <= e -> length (cc s e) = sm (fun l => length (lev l)) e - sm (fun l => length (lev l)) s.
Proof.
  intros s e H. induction H as [|e H IH].
  - unfold cc. rewrite Nat.sub_diag. cbn. lia.
  - rewrite cc_snoc, app_length, IH by auto. cbn [sm].
    pose proof (sm_mono (fun l => length (lev l)) s e H). lia.
Qed.

Lemma cc_split : forall s l e, s <= l -> l < e -> exists r, cc s e = cc s l ++ lev l ++ r.
Proof.
  intros s l e H1 H2. unfold cc. replace (e - s) with ((l - s) + S (e - S l)) by lia.
  rewrite seq_app, map_app, concat_app. replace (s + (l - s)) with l by lia.
  cbn [seq map concat]. eexists. reflexivity.
Qed.

Definition off (s l : nat) : nat := sm (fun l => length (lev l)) l - sm (fun l => length (lev l)) s.

Lemma cc_nth : forall s l e k d, s <= l -> l < e -> k < length (lev l) ->
  nth (off s l + k) (cc s e) d = nth k (lev l) d.
Proof.
  intros s l e k d H1 H2 H3. destruct (cc_split s l e H1 H2) as (r & ->).
  unfold off. rewrite <- cc_length by auto.
  rewrite app_nth2 by lia. rewrite app_nth1 by lia. f_equal. lia.
Qed.

Lemma cc_lt : forall s l e k, s <= l -> l < e -> k < length (lev l) -> off s l + k < length (cc s e).
Proof.
  intros s l e k H1 H2 H3. destruct (cc_split s l e H1 H2) as (r & ->).
  unfold off. rewrite <- cc_length by auto. rewrite !app_length. lia.
Qed.

Lemma cc_firstn : forall s l e k, s <= l -> l < e -> k <= length (lev l) ->
  firstn (off s l + k) (cc s e) = cc s l ++ firstn k (lev l).
Proof.
  intros s l e k H1 H2 H3. destruct (cc_split s l e H1 H2) as (r & ->).
  unfold off. rewrite <- cc_length by auto. rewrite firstn_app.
  rewrite firstn_all2 by lia. f_equal. rewrite firstn_app.
  replace (length (cc s l) + k - length (cc s l)) with k by lia.
  replace (k - length (lev l)) with 0 by lia. cbn [firstn]. apply app_nil_r.
Qed.

Lemma cc_inv : forall s e p, s <= e -> p < length (cc s e) ->
  exists l k, s <= l < e /\ k < length (lev l) /\ p = off s l + k.
Proof.
  intros s e p H. induction H as [|e H IH]; intros Hp.
  - unfold cc in Hp. rewrite Nat.sub_diag in Hp. cbn in Hp. lia.
  - rewrite cc_snoc, app_length in Hp by auto.
    destruct (lt_dec p (length (cc s e))) as [G|G].
    + destruct (IH G) as (l & k & X & Y & Z). exists l, k. split; [lia|auto].
    + exists e, (p - length (cc s e)). split; [lia|]. split; [lia|].
      unfold off. rewrite <- cc_length by auto. lia.
Qed.
End Concat.

Lemma cc_cnt : forall lev s e, s <= e -> cnt (cc lev s e) = sm (fun l => cnt (lev l)) e - sm (fun l => cnt (lev l)) s.
Proof.
  intros lev s e H. induction H as [|e H IH].
  - unfold cc. rewrite Nat.sub_diag. cbn. lia.
  - rewrite cc_snoc, cnt_app, IH by auto. cbn [sm].
    pose proof (sm_mono (fun l => cnt (lev l)) s e H). lia.
Qed.

Lemma cc_cnt_firstn : forall lev s l e k, s <= l -> l < e -> k <= length (lev l) ->
  cnt (firstn (off lev s l + k) (cc lev s e)) =
  sm (fun l => cnt (lev l)) l - sm (fun l => cnt (lev l)) s + cnt (firstn k (lev l)).
Proof. intros. rewrite cc_firstn, cnt_app, cc_cnt by auto. reflexivity. Qed.

(** ** the two tries *)
Section Struct.
Variables (c : config) (K : list bytes).
Notation kk := (kk K). Notation lo := (lo K). Notation hi := (hi K). Notation leafl := (leafl K).
Notation item := (item K). Notation child := (child K). Notation louds := (louds K).
Notation leaf := (leaf K). Notation lab := (lab K). Notation term := (term K). Notation anc := (anc K).
Notation items := (items K). Notation nds := (nds K). Notation sv := (sv c K).
Let n := length K.

Definition height : nat := LEN K n.
Definition slabs (l : nat) : list nat := map (lab l) (items l).
Definition schild (l : nat) : list bool := map (child l) (items l).
Definition slouds (l : nat) : list bool := map (louds l) (items l).
Definition ssfx (l : nat) : list N := map sv (filter (leaf l) (seq 0 n)).

Definition suf_rel (s : bvsuffix) (vs : list N) : Prop :=
  match cf_type c with
  | kNone => s = suf_empty
  | t => sf_type s = t /\ sf_hlen s = cf_hlen c /\ sf_rlen s = cf_rlen c /\ suf_ok s vs
  end.

Record dense_ok (st : nat) (d : dense) : Prop := mkDenseOk {
  dk_h : d_height d = st;
  dk_lab : rank_ok (d_labels d) (cc (dlab K) 0 st);
  dk_ch : rank_ok (d_child d) (cc (dchl K) 0 st);
  dk_pre : rank_ok (d_prefix d) (cc (dpre K) 0 st);
  dk_suf : suf_rel (d_suf d) (cc ssfx 0 st);
  dk_cuts : d_cuts d = level_cuts_from 0 (map (fun l => 256 * nds l) (seq 0 st));
  dk_fits : (N.of_nat (length (cc (dlab K) 0 st)) < 4294967296)%N }.

Record sparse_ok (st : nat) (s : sparse) : Prop := mkSparseOk {
  sk_h : s_height s = height;
  sk_st : s_start s = st;
  sk_nc : s_ncount s = sm nds st;
  sk_cc : s_ccount s = sm nds (S st) - 1;
  sk_lab : lv_bytes (s_labels s) = cc slabs st height ++ [0];
  sk_byte : Forall (fun b => b < 256) (cc slabs st height);
  sk_room : (N.of_nat (length (cc slabs st height)) <= lv_alloc (s_labels s))%N;
  sk_fits : (N.of_nat (1 + length (cc slabs st height)) < 4294967296)%N;
  sk_ch : rank_ok (s_child s) (cc schild st height);
  sk_ld : select_ok (s_louds s) (cc slouds st height);
  sk_int : sl_interval (s_louds s) = 64;
  sk_suf : suf_rel (s_suf s) (cc ssfx st height);
  sk_cuts : s_cuts s = repeat 0%N st ++ level_cuts_from 0 (map (fun l => length (items l)) (seq st (height - st))) }.

(** the size of the label array the constructor allocates *)
Definition fresh_alloc (st : nat) (s : sparse) : Prop :=
  lv_alloc (s_labels s) = (let m := N.of_nat (1 + length (cc slabs st height)) in wrap32 (m * (m / 64 + 1)))%N.

(** everything fits the 32-bit positions *)
Definition sizes_fit : Prop :=
  (256 * N.of_nat (sm nds height) < 4294967296 /\
   (let m := N.of_nat (1 + sm (fun l => length (items l)) height) in m * (m / 64 + 1) < 4294967296) /\
   N.of_nat (n * cf_len c + 64) < 4294967296)%N.

(** the same for a filter whose sparse levels start at [s]; the label array can
    hold its labels although its size wraps *)
Definition labels_from (s : nat) : nat := length (cc slabs s height).
Definition room_at (s : nat) : Prop :=
  (N.of_nat (labels_from s) <= let m := N.of_nat (1 + labels_from s) in wrap32 (m * (m / 64 + 1)))%N.
Definition fits_at (s : nat) : Prop :=
  (256 * N.of_nat (sm nds height) < 4294967296)%N /\
  ((N.of_nat (1 + sm (fun l => length (items l)) height) < 4294967296)%N /\ room_at s) /\
  (N.of_nat (n * cf_len c + 64) < 4294967296)%N.

Lemma nds_eq : forall l, cnt (slouds l) = nds l.
Proof.
  intros l. unfold slouds, BuilderFacts.items, DenseBuild.nds.
  pose proof (cnt_filter_seq (item l) (louds l) (length K) (length K) ltac:(lia)) as Q.
  rewrite firstn_all2 in Q by (rewrite map_length, cn_filter; lia). rewrite Q. apply cn_ext. intros x _.
  destruct (louds l x) eqn:E; [rewrite louds_item by auto; auto|apply andb_false_r].
Qed.

Section Create.
Variable e : env.
Hypothesis HS : StronglySorted klt K.
Hypothesis HB : Forall is_bytes K.
Hypothesis HE : Forall (fun k => k <> []) K.
Hypothesis HNE : length K <> 0.
Hypothesis Hshift : strict_shift e = false.
Hypothesis Hmem : strict_mem e = false.
Hypothesis Hlens : lens_ok (cf_type c) (cf_hlen c) (cf_rlen c).

Lemma height_items : forall l, height <= S l -> items l = [].
Proof.
  intros l H. unfold BuilderFacts.items. fold n.
  assert (X : forall xs, (forall x, In x xs -> x < n) -> filter (item l) xs = []).
  { induction xs as [|x xs IH]; intros HX; [reflexivity|]. cbn [filter].
    specialize (HX x (or_introl eq_refl)) as Hx. rewrite IH by (intros; apply HX; right; auto).
    destruct (item l x) eqn:E; auto. apply item_spec in E.
    pose proof (LEN_leafl K n x Hx) as Q. fold height in Q. unfold Trie.leafl in Q. lia. }
  apply X. intros x Hx. apply in_seq in Hx. lia.
Qed.

Lemma height_ge2 : 2 <= height.
Proof. pose proof (LEN_leafl K n 0 ltac:(unfold n; lia)). unfold height. lia. Qed.

Section St.
Variable st : levels.
Hypothesis Hst : st_rel (cf_len c) st (absl K sv n 0).
Hypothesis Hlen : length st = height.
Variable s0 : nat.
Notation B := (fits_at s0).

Lemma st_level : forall l, lev_rel (cf_len c) (nth l st elev)
  (mkA (slabs l) (schild l) (slouds l) (ssfx l) (last (map (term l) (items l)) false)).
Proof. intros l. specialize (Hst l). rewrite absl_final in Hst. exact Hst. Qed.

Lemma st_nodes : forall l, lv_nodes (nth l st elev) = nds l.
Proof. intros l. destruct (st_level l) as [_ _ _ _ _ _ _ R _]. rewrite R. apply nds_eq. Qed.

Lemma st_sufcount : forall l, lv_sufcount (nth l st elev) = length (ssfx l).
Proof. intros l. destruct (st_level l) as [_ _ _ _ _ _ R _ _]. exact R. Qed.

Lemma leaf_items : forall l, length (ssfx l) <= length (items l).
Proof.
  intros l. unfold ssfx, BuilderFacts.items. rewrite map_length, !cn_filter. fold n.
  assert (W : forall m, cn (leaf l) m <= cn (item l) m).
  { induction m as [|m IH]; cbn [cn]; [lia|]. unfold Trie.leaf in *.
    destruct (Trie.item K l m); cbn [andb]; [|lia]. destruct (negb _); lia. }
  apply W.
Qed.

Lemma cutoff_ok : cf_dense c = true -> (1 <= cf_ratio c)%N ->
  exists s, determineCutoffLevel e c st = Ok s /\ 1 <= s /\ S s <= height.
Proof.
  intros Hd Hr. destruct (determineCutoffLevel_spec e c st) as (s & A & B0 & C & D).
  exists s. split; auto. pose proof height_ge2 as H2.
  assert (X : 1 <= s <= length st - 1).
  { apply (cutoff_bounds (cf_len c) (cf_ratio c)); auto; try lia.
    - rewrite st_nodes. apply cn_louds_root. auto.
    - destruct (st_level (length st - 1)) as [R _ _ _ _ _ _ _ _]. rewrite R. cbn [a_labs]. unfold slabs.
      rewrite height_items by lia. reflexivity.
    - rewrite st_sufcount. pose proof (leaf_items (length st - 1)) as Q. rewrite height_items in Q by lia.
      cbn in Q. lia. }
  lia.
Qed.

Lemma mapM_seq : forall (A : Type) (f : nat -> res A) (g : nat -> A -> Prop) m s,
  (forall i, s <= i < s + m -> exists a, f i = Ok a /\ g i a) ->
  exists xs, mapM f (seq s m) = Ok xs /\ length xs = m /\
    forall i d, i < m -> g (s + i) (nth i xs d).
Proof.
  intros A f g. induction m as [|m IH]; intros s H.
  - exists []. split; auto. split; auto. intros. lia.
  - cbn [seq mapM]. destruct (H s ltac:(lia)) as (a & E & G). rewrite E. cbn [bind].
    destruct (IH (S s)) as (xs & E2 & L & G2); [intros; apply H; lia|]. rewrite E2. cbn [bind].
    exists (a :: xs). split; auto. split; [cbn; lia|]. intros [|i] d Hi; cbn [nth].
    + rewrite Nat.add_0_r. auto.
    + replace (s + S i) with (S s + i) by lia. apply G2. lia.
Qed.

Lemma buildDense_ok : forall s, s <= height -> exists ds, buildDense e st s = Ok ds /\ length ds = s /\
  forall i d, i < s -> length (dr_labels (nth i ds d)) = nds i * 4 /\
    lrepr (dr_labels (nth i ds d)) (dlab K i) /\ lrepr (dr_child (nth i ds d)) (dchl K i) /\
    lrepr (dr_prefix (nth i ds d)) (dpre K i).
Proof.
  intros s Hs. unfold buildDense.
  destruct (mapM_seq dense_rec (fun level => l <- vget st level ;; build_dense_level e l)
     (fun i d => length (dr_labels d) = nds i * 4 /\
    lrepr (dr_labels d) (dlab K i) /\ lrepr (dr_child d) (dchl K i) /\ lrepr (dr_prefix d) (dpre K i)) s 0) as (ds & E & L & G).
  - intros i Hi. rewrite (vget_ok _ st i elev) by lia. cbn [bind].
    eapply build_dense_level_spec; eauto using st_level.
  - exists ds. split; [exact E|]. split; [exact L|]. intros i d Hi. apply (G i d Hi).
Qed.

Lemma map_nth' : forall (A C : Type) (f : A -> C) xs i d d', i < length xs -> nth i (map f xs) d' = f (nth i xs d).
Proof.
  intros. rewrite nth_indep with (d' := f d) by (rewrite map_length; auto). apply map_nth.
Qed.

Lemma nth_error_map' : forall (A C : Type) (f : A -> C) xs i d, i < length xs ->
  nth_error (map f xs) i = Some (f (nth i xs d)).
Proof. intros. rewrite nth_error_map, (nth_error_nth' _ d) by auto. reflexivity. Qed.

Lemma suf_make_ok : forall nb s en, 1 <= en -> s <= en -> en <= height -> cf_type c <> kNone ->
  (forall i, s <= i < en -> nth_error nb i = Some (length (ssfx i) * cf_len c)) ->
  okB B (suf_make e (cf_type c) (cf_hlen c) (cf_rlen c) (map lv_suf st) nb s en)
    (fun x => suf_rel x (cc ssfx s en)).
Proof.
  intros nb s en H1 Hse Hen Ht Hnb. unfold suf_make.
  set (slen := cf_len c).
  assert (SL : 1 <= slen <= 64).
  { unfold slen, cf_len. destruct Hlens as [A D]. destruct (cf_type c); [congruence|lia|lia|lia]. }
  assert (CE : cc (fun l => flat_map (bitsn slen) (ssfx l)) s en = flat_map (bitsn slen) (cc ssfx s en)).
  { clear -Hse. induction Hse as [|m H IH].
    - unfold cc. rewrite Nat.sub_diag. reflexivity.
    - rewrite !cc_snoc, flat_map_app, IH by auto. reflexivity. }
  assert (NL : length (cc ssfx s en) <= n).
  { rewrite cc_length by auto. unfold ssfx.
    assert (Z : forall m, sm (fun l => length (map sv (filter (leaf l) (seq 0 n)))) m = cn (fun i => leafl i <? m) n).
    { induction m as [|m IH]; cbn [sm]; [symmetry; apply cn_zero; intros; lia|].
      rewrite IH, map_length, cn_filter.
      rewrite (cn_ext (fun i => leafl i <? S m) (fun i => (leafl i <? m) || leaf m i)).
      - rewrite cn_plus; auto. intros i Hi. destruct (leaf m i) eqn:E; [|apply andb_false_r].
        apply leaf_spec in E. lia.
      - intros i Hi. apply eq_true_iff_eq. rewrite orb_true_iff, leaf_spec. fold n. lia. }
    assert (W : forall p m, cn p m <= m) by (intros p; induction m as [|m IH]; cbn [cn]; [lia|destruct (p m); lia]).
    rewrite !Z. specialize (W (fun i => leafl i <? en) n). lia. }
  eapply okB_bind.
  - eapply okB_fits with (x := N.of_nat (length (cc (fun l => flat_map (bitsn slen) (ssfx l)) s en))).
    + intros (_ & _ & Q). apply fits32_lt. rewrite CE, flat_bits_length. fold slen in Q. nia.
    + pose proof (bv_make_spec e (map lv_suf st) nb (fun l => flat_map (bitsn slen) (ssfx l)) s en Hmem) as Q.
      replace (en =? 0) with false in Q by lia. cbv zeta in Q. apply Q. clear Q.
      intros i Hi. rewrite map_length, Hlen. split; [lia|]. split.
      * rewrite Hnb, flat_bits_length by lia. f_equal. unfold slen. lia.
      * rewrite (map_nth' _ _ lv_suf st i elev) by lia.
        destruct (st_level i) as [_ _ _ _ _ [R _] _ _ _]. exact R.
  - intros b [Hb EF]. cbn beta in Hb. rewrite massert_true by (fold (cf_len c); fold slen; lia). cbn [bind okB].
    change (repr b (cc (fun l => flat_map (bitsn slen) (ssfx l)) s en)) in Hb. rewrite CE in Hb. rewrite CE, flat_bits_length in EF. unfold suf_rel.
    assert (SO : suf_ok (mkSuf b (cf_type c) (cf_hlen c) (cf_rlen c)) (cc ssfx s en)).
    { unfold suf_ok. unfold sf_len. cbn [sf_hlen sf_rlen sf_bv]. fold (cf_len c). fold slen.
      split; auto. split; [|split; auto].
      unfold cc. apply Forall_concat. apply Forall_forall. intros vs Hvs. apply in_map_iff in Hvs.
      destruct Hvs as (l & <- & _). unfold ssfx. apply Forall_forall. intros v Hv. apply in_map_iff in Hv.
      destruct Hv as (i & <- & _). apply suf_val_bound. apply keys_bytes. auto. }
    destruct (cf_type c); [congruence| | |]; auto.
Qed.


Lemma rank_make_ok : forall pl nbits (bits : nat -> list bool) s en, 1 <= en ->
  (B -> (N.of_nat (length (cc bits s en)) < 4294967296)%N) ->
  (forall i, s <= i < en -> i < length pl /\ nth_error nbits i = Some (length (bits i)) /\
     lrepr (nth i pl []) (bits i)) ->
  okB B (rank_make e 512 pl nbits s en) (fun r => rank_ok r (cc bits s en) /\ (N.of_nat (length (cc bits s en)) < 4294967296)%N).
Proof.
  intros pl nbits bits s en Hen HBf H.
  pose proof (rank_make_spec e pl nbits bits s en Hmem) as Q. cbv zeta in Q.
  replace (en =? 0) with false in Q by lia. specialize (Q H). fold (cc bits s en) in Q.
  destruct (fits32 _) eqn:EF.
  - destruct Q as (r & -> & R). apply fits32_lt in EF. split; [exact R|exact EF].
  - rewrite Q. cbn [okB]. intros X. apply HBf in X. apply fits32_lt in X. congruence.
Qed.

Lemma select_make_ok : forall pl nbits (bits : nat -> list bool) s en, 1 <= en ->
  (B -> (N.of_nat (length (cc bits s en)) < 4294967296)%N) ->
  (forall i, s <= i < en -> i < length pl /\ nth_error nbits i = Some (length (bits i)) /\
     lrepr (nth i pl []) (bits i)) ->
  okB B (select_make e 64 pl nbits s en) (fun r => select_ok r (cc bits s en) /\ sl_interval r = 64).
Proof.
  intros pl nbits bits s en Hen HBf H.
  pose proof (select_make_spec e 64 pl nbits bits s en Hmem ltac:(lia)) as Q. cbv zeta in Q.
  replace (en =? 0) with false in Q by lia. specialize (Q H). fold (cc bits s en) in Q.
  destruct (fits32 _) eqn:EF.
  - destruct Q as (r & E & R). rewrite E. split; auto. unfold select_make in E.
    destruct (bv_make e pl nbits s en); [|discriminate]. cbn [bind] in E.
    destruct (initSelectLut e _ _) as [[lut ones]|]; [|discriminate]. cbn [bind] in E. injection E as <-. reflexivity.
  - rewrite Q. cbn [okB]. intros X. apply HBf in X. apply fits32_lt in X. congruence.
Qed.

Lemma mapM_map : forall (A C : Type) (f : A -> res C) g xs, (forall x, In x xs -> f x = Ok (g x)) ->
  mapM f xs = Ok (map g xs).
Proof.
  intros A C f g. induction xs as [|x xs IH]; intros H; [reflexivity|].
  cbn [mapM map]. rewrite H by (left; auto). cbn [bind]. rewrite IH by (intros; apply H; right; auto). reflexivity.
Qed.

Lemma dlab_length : forall l, length (dlab K l) = 256 * nds l.
Proof. intros. apply bm_length. Qed.
Lemma dchl_length : forall l, length (dchl K l) = 256 * nds l.
Proof. intros. apply bm_length. Qed.
Lemma dpre_length : forall l, length (dpre K l) = nds l.
Proof. intros. apply bm_length. Qed.

Lemma sm_length : forall (A : Type) (lev : nat -> list A) f s en, s <= en -> en <= height -> (forall l, length (lev l) = f l) ->
  length (cc lev s en) <= sm f height.
Proof.
  intros A lev f s en H1 H2 H. rewrite cc_length by auto.
  rewrite (sm_ext (fun l => length (lev l)) f) by (intros; apply H).
  rewrite (sm_ext (fun l => length (lev l)) f) by (intros; apply H).
  pose proof (sm_mono f en height H2). lia.
Qed.

Lemma dense_make_ok : forall s ds, 1 <= s -> s <= height -> length ds = s ->
  (forall i d, i < s -> length (dr_labels (nth i ds d)) = nds i * 4 /\
    lrepr (dr_labels (nth i ds d)) (dlab K i) /\ lrepr (dr_child (nth i ds d)) (dchl K i) /\
    lrepr (dr_prefix (nth i ds d)) (dpre K i)) ->
  okB B (dense_make e (mkBuilder c st ds s)) (dense_ok s).
Proof.
  intros s ds H1 H2 HL HD. unfold dense_make. cbn [bd_start bd_levels bd_cfg bd_dense].
  set (d0 := mkDenseRec [] [] []).
  rewrite (mapM_map _ _ _ (fun l => 256 * nds l)).
  2:{ intros x Hx. apply in_seq in Hx. rewrite (vget_ok _ ds x d0) by lia. cbn [bind].
      destruct (HD x d0 ltac:(lia)) as (-> & _). f_equal. lia. }
  cbn [bind].
  assert (NB : forall i, i < s -> nth_error (map (fun l => 256 * nds l) (seq 0 s)) i = Some (256 * nds i)).
  { intros i Hi. rewrite (nth_error_map' _ _ _ _ _ 0) by (rewrite seq_length; auto). rewrite seq_nth by auto. reflexivity. }
  eapply okB_bind; [apply rank_make_ok with (bits := dlab K)|]; auto.
  { intros (Q & _). pose proof (sm_length _ (dlab K) (fun l => 256 * nds l) 0 s ltac:(lia) H2 dlab_length) as X.
    rewrite sm_mul in X. lia. }
  { intros i Hi. rewrite map_length. split; [lia|]. rewrite NB, dlab_length by lia. split; auto.
    rewrite (map_nth' _ _ dr_labels ds i d0) by lia. apply HD. lia. }
  intros r1 [R1 RF]. cbn beta in R1.
  eapply okB_bind; [apply rank_make_ok with (bits := dchl K)|]; auto.
  { intros (Q & _). pose proof (sm_length _ (dchl K) (fun l => 256 * nds l) 0 s ltac:(lia) H2 dchl_length) as X.
    rewrite sm_mul in X. lia. }
  { intros i Hi. rewrite map_length. split; [lia|]. rewrite NB, dchl_length by lia. split; auto.
    rewrite (map_nth' _ _ dr_child ds i d0) by lia. apply HD. lia. }
  intros r2 [R2 _].
  eapply okB_bind; [apply rank_make_ok with (bits := dpre K)|]; auto.
  { intros (Q & _). pose proof (sm_length _ (dpre K) nds 0 s ltac:(lia) H2 dpre_length) as X. lia. }
  { intros i Hi. rewrite map_length. split; [lia|]. rewrite (nth_error_map' _ _ _ _ _ elev) by lia.
    rewrite dpre_length, st_nodes. split; auto.
    rewrite (map_nth' _ _ dr_prefix ds i d0) by lia. apply HD. lia. }
  intros r3 [R3 _].
  eapply okB_bind with (P := fun x => suf_rel x (cc ssfx 0 s)).
  { destruct (cf_type c) eqn:ET in |- *; [cbn [okB]; unfold suf_rel; rewrite ET; reflexivity| | |];
    (rewrite (mapM_map _ _ _ (fun l => length (ssfx l) * cf_len c));
     [|intros x Hx; apply in_seq in Hx; rewrite (vget_ok _ st x elev) by lia; cbn [bind]; rewrite st_sufcount; reflexivity]);
    cbn [bind]; rewrite <- ET; apply suf_make_ok; auto; try lia; try congruence;
    intros i Hi; rewrite (nth_error_map' _ _ _ _ _ 0) by (rewrite seq_length; lia); rewrite seq_nth by lia; reflexivity. }
  intros x X. cbn [okB]. constructor; auto.
Qed.

Lemma slabs_len : forall l, length (slabs l) = length (items l).
Proof. intros. apply map_length. Qed.
Lemma schild_len : forall l, length (schild l) = length (items l).
Proof. intros. apply map_length. Qed.
Lemma slouds_len : forall l, length (slouds l) = length (items l).
Proof. intros. apply map_length. Qed.

Lemma items_fit : forall (A : Type) (lev : nat -> list A) s, s <= height -> (forall l, length (lev l) = length (items l)) ->
  B -> (N.of_nat (1 + length (cc lev s height)) < 4294967296)%N.
Proof.
  intros A lev s Hs H (_ & (Q & _) & _). pose proof (sm_length _ lev _ s height Hs (le_n _) H) as X. lia.
Qed.

Lemma nth_error_items : forall i, i < height ->
  nth_error (map (fun l => length (lv_labels l)) st) i = Some (length (items i)).
Proof.
  intros i Hi. rewrite (nth_error_map' _ _ _ _ _ elev) by lia. destruct (st_level i) as [R _ _ _ _ _ _ _ _].
  rewrite R. cbn [a_labs]. rewrite slabs_len. reflexivity.
Qed.

Lemma foldM_nodes : forall m a, m <= height ->
  foldM (fun acc level => l <- vget st level ;; Ok (acc + lv_nodes l)) (seq 0 m) a = Ok (a + sm nds m).
Proof.
  assert (G : forall m s a, s + m <= height ->
    foldM (fun acc level => l <- vget st level ;; Ok (acc + lv_nodes l)) (seq s m) a = Ok (a + (sm nds (s + m) - sm nds s))).
  { induction m as [|m IH]; intros s a H; cbn [seq foldM].
    - rewrite Nat.add_0_r, Nat.sub_diag, Nat.add_0_r. reflexivity.
    - rewrite (vget_ok _ st s elev) by lia. cbn [bind]. rewrite IH by lia. rewrite st_nodes. f_equal.
      replace (s + S m) with (S s + m) by lia. pose proof (sm_mono nds (S s) (S s + m) ltac:(lia)).
      cbn [sm] in *. lia. }
  intros m a H. rewrite G by lia. cbn [sm Nat.add]. f_equal. lia.
Qed.

Lemma sparse_make_ok : forall s ds, s = s0 -> S s <= height ->
  okB B (sparse_make e (mkBuilder c st ds s)) (fun sp => sparse_ok s sp /\ fresh_alloc s sp).
Proof.
  intros s ds Es H2. unfold sparse_make. cbn [bd_start bd_levels bd_cfg bd_dense].
  rewrite foldM_nodes by lia. cbn [bind].
  assert (CC : (if s =? 0 then Ok 0 else l <- vget st s ;; Ok (0 + sm nds s + lv_nodes l - 1)) = Ok (sm nds (S s) - 1)).
  { destruct (Nat.eqb_spec s 0) as [->|H1].
    - cbn [sm]. pose proof (cn_louds_root K HNE) as R. change (nds 0 = 1) in R. rewrite R. reflexivity.
    - rewrite (vget_ok _ st s elev) by lia. cbn [bind]. rewrite st_nodes. reflexivity. }
  rewrite CC. cbn [bind]. rewrite Hlen.
  eapply okB_bind with (P := fun lv => lv_bytes lv = cc slabs s height ++ [0] /\
     lv_alloc lv = (let m := N.of_nat (1 + length (cc slabs s height)) in wrap32 (m * (m / 64 + 1)))%N /\
     (N.of_nat (length (cc slabs s height)) <= lv_alloc lv)%N /\
     (N.of_nat (1 + length (cc slabs s height)) < 4294967296)%N).
  { unfold lv_make. replace (height =? 0) with false by lia.
    rewrite (mapM_map _ _ _ slabs).
    2:{ intros x Hx. apply in_seq in Hx. rewrite (vget_ok _ _ x []) by (rewrite map_length; lia).
        rewrite (map_nth' _ _ lv_labels st x elev) by lia. destruct (st_level x) as [R _ _ _ _ _ _ _ _].
        rewrite R. reflexivity. }
    cbn [bind]. fold (cc slabs s height).
    pose proof (items_fit _ slabs s ltac:(lia) slabs_len) as QB.
    destruct (fits32 _) eqn:EF.
    - destruct (_ <=? _)%N eqn:EA.
      + cbn [okB lv_bytes lv_alloc]. apply fits32_lt in EF. apply N.leb_le in EA. cbv zeta. auto.
      + cbn [okB]. intros (_ & (_ & X) & _). apply N.leb_gt in EA. subst s0. unfold room_at, labels_from in X. cbv zeta in X. lia.
    - cbn [okB]. intros X. apply QB in X. apply fits32_lt in X. congruence. }
  intros lv (L1 & L2 & L3 & L4).
  eapply okB_bind; [apply rank_make_ok with (bits := schild)|]; try lia.
  { intros X. apply (items_fit _ schild s ltac:(lia) schild_len) in X. lia. }
  { intros i Hi. rewrite map_length. split; [lia|]. rewrite nth_error_items, schild_len by lia. split; auto.
    rewrite (map_nth' _ _ lv_child st i elev) by lia. destruct (st_level i) as [_ _ _ R _ _ _ _ _].
    apply wrepr_lrepr in R. exact R. }
  intros r1 [R1 _].
  eapply okB_bind; [apply select_make_ok with (bits := slouds)|]; try lia.
  { intros X. apply (items_fit _ slouds s ltac:(lia) slouds_len) in X. lia. }
  { intros i Hi. rewrite map_length. split; [lia|]. rewrite nth_error_items, slouds_len by lia. split; auto.
    rewrite (map_nth' _ _ lv_louds st i elev) by lia. destruct (st_level i) as [_ _ _ _ R _ _ _ _].
    apply wrepr_lrepr in R. exact R. }
  intros r2 [R2 R3].
  eapply okB_bind with (P := fun x => suf_rel x (cc ssfx s height)).
  { destruct (cf_type c) eqn:ET in |- *; [cbn [okB]; unfold suf_rel; rewrite ET; reflexivity| | |];
    rewrite <- ET; apply suf_make_ok; auto; try lia; try congruence;
    intros i Hi; rewrite (nth_error_map' _ _ _ _ _ elev) by lia; rewrite st_sufcount; reflexivity. }
  intros x X. cbn [okB]. split; [|exact L2]. constructor; cbn [s_height s_start s_ncount s_ccount s_labels s_child s_louds s_suf s_cuts]; auto.
  { apply Forall_concat. apply Forall_map, Forall_forall. intros l _. apply Forall_map, Forall_forall. intros i _.
    apply lab_byte; auto. }
  f_equal. f_equal. apply list_ext with (d := 0).
  - rewrite skipn_length, !map_length, seq_length. lia.
  - intros j Hj. rewrite skipn_length, map_length, Hlen in Hj.
    rewrite nth_skipn'. rewrite (map_nth' _ _ _ st (s + j) elev) by lia.
    rewrite (map_nth' _ _ _ (seq s (height - s)) j 0) by (rewrite seq_length; lia). rewrite seq_nth by lia.
    destruct (st_level (s + j)) as [R _ _ _ _ _ _ _ _]. rewrite R. apply slabs_len.
Qed.
End St.

(** ** what the constructor builds *)
Theorem create_at : forall keys b, uniq keys = K -> cf_dense c = true -> (1 <= cf_ratio c)%N -> build e c keys = Ok b ->
  okB (fits_at (bd_start b)) (create e c keys) (fun f => 1 <= bd_start b /\ S (bd_start b) <= height /\
    dense_ok (bd_start b) (sf_dense f) /\ sparse_ok (bd_start b) (sf_sparse f) /\ fresh_alloc (bd_start b) (sf_sparse f)).
Proof.
  intros keys b HU Hd Hr EB. unfold create. rewrite EB. cbn [bind]. unfold build in EB.
  assert (KN : keys <> []) by (intros ->; subst K; auto).
  rewrite massert_true in EB by (destruct keys; [congruence|cbn; lia]). cbn [bind] in EB. rewrite Hd in EB.
  pose proof (buildSparse_spec e c K HS HB HE Hshift Hlens keys HU) as BS.
  unfold okp in BS. destruct (buildSparse e c keys) as [st|er]; cbn [bind] in EB; [|discriminate].
  destruct BS as [HL HR]. destruct (cutoff_ok st HR HL Hd Hr) as (s & EC & S1 & S2). rewrite EC in EB. cbn [bind] in EB.
  destruct (buildDense_ok st HR HL s ltac:(lia)) as (ds & ED & L & G). rewrite ED in EB. cbn [bind] in EB. injection EB as <-.
  cbn [bd_start].
  eapply okB_bind; [apply dense_make_ok; auto; lia|]. intros d D. cbn beta in D.
  eapply okB_bind; [apply sparse_make_ok; auto; lia|]. intros sp SP. cbn beta in SP.
  cbn [okB sf_dense sf_sparse]. tauto.
Qed.

(** the same without dense levels *)
Lemma build_bare : forall keys, uniq keys = K -> cf_dense c = false ->
  okp (N.of_nat (n * cf_len c + 64) < 4294967296)%N (build e c keys) (fun b => exists st, b = mkBuilder c st [] 0 /\
    st_rel (cf_len c) st (absl K sv n 0) /\ length st = height).
Proof.
  intros keys HU Hd. unfold build. assert (KN : keys <> []) by (intros ->; subst K; auto).
  rewrite massert_true by (destruct keys; [congruence|cbn; lia]). cbn [bind]. rewrite Hd.
  pose proof (buildSparse_spec e c K HS HB HE Hshift Hlens keys HU) as BS.
  unfold okp in *. destruct (buildSparse e c keys) as [st|[]]; cbn [bind]; try exact BS.
  destruct BS as [HL HR]. exists st. auto.
Qed.

Theorem create_bare : forall keys b, uniq keys = K -> cf_dense c = false -> cf_type c = kNone -> build e c keys = Ok b ->
  okB (fits_at 0) (create e c keys) (fun f => dense_ok 0 (sf_dense f) /\ sparse_ok 0 (sf_sparse f) /\ fresh_alloc 0 (sf_sparse f)).
Proof.
  intros keys b HU Hd Ht EB. unfold create. rewrite EB. pose proof (build_bare keys HU Hd) as Q. rewrite EB in Q.
  cbn [okp] in Q. destruct Q as (st & -> & HR & HL). cbn [bind]. pose proof height_ge2 as H2.
  unfold dense_make. cbn [bd_start bd_dense bd_cfg bd_levels seq mapM bind map]. rewrite Ht.
  assert (R : forall nb, exists r, rank_make e kRankBasicBlockSize [] nb 0 0 = Ok r /\ rank_ok r []).
  { intros. eexists. split; [reflexivity|]. split; [|split; reflexivity]. split; [reflexivity|]. split; [constructor|]. split; [reflexivity|reflexivity]. }
  destruct (R []) as (r1 & E1 & K1), (R (map lv_nodes st)) as (r2 & E2 & K2). change (level_cuts_from 0 []) with (@nil N). rewrite E1, E2. cbn [bind].
  eapply okB_bind; [apply sparse_make_ok; auto; lia|]. intros sp SP. cbn beta in SP.
  cbn [okB sf_dense sf_sparse]. split; [|exact SP]. constructor; cbn [d_height d_labels d_child d_prefix d_suf d_cuts]; try assumption; try reflexivity.
  unfold suf_rel. rewrite Ht. reflexivity.
Qed.

Theorem create_bare_suffix : forall keys f, uniq keys = K -> cf_dense c = false -> cf_type c <> kNone -> create e c keys <> Ok f.
Proof.
  intros keys f HU Hd Ht E. unfold create in E. apply bind_ok in E. destruct E as (b & EB & E).
  pose proof (build_bare keys HU Hd) as Q. rewrite EB in Q.
  cbn [okp] in Q. destruct Q as (st & -> & HR & HL). apply bind_ok in E. destruct E as (d & ED & _). clear EB.
  unfold dense_make in ED. cbn [bd_start bd_dense bd_cfg bd_levels seq mapM bind map] in ED.
  apply bind_ok in ED. destruct ED as (r1 & _ & ED). apply bind_ok in ED. destruct ED as (r2 & _ & ED).
  apply bind_ok in ED. destruct ED as (r3 & _ & ED). apply bind_ok in ED. destruct ED as (sf & ED & _).
  assert (G : forall t hl rl, suf_make e t hl rl (map lv_suf st) [] 0 0 <> Ok sf).
  { intros t hl rl H. unfold suf_make, bv_make in H. apply bind_ok in H. destruct H as (bv & H & _). revert H.
    cbn [Nat.eqb]. rewrite map_length, HL. pose proof height_ge2 as H2. destruct height as [|h]; [lia|].
    unfold totalNumBits. cbn. discriminate. }
  destruct (cf_type c); [congruence| | |]; exact (G _ _ _ ED).
Qed.

Lemma fits_all : sizes_fit -> forall s, s <= height -> fits_at s.
Proof.
  intros (A & Q & D) s Hs. cbv zeta in Q. set (m' := N.of_nat (1 + sm (fun l => length (items l)) height)) in Q.
  assert (G : forall x, (x * 1 <= x * (x / 64 + 1))%N) by (intros; apply N.mul_le_mono_l; lia).
  split; [exact A|]. split; [|exact D]. split; [specialize (G m'); unfold m' in *; lia|].
  assert (X : length (cc slabs s height) <= sm (fun l => length (items l)) height).
  { rewrite cc_length by auto. eapply Nat.le_trans; [apply Nat.le_sub_l|]. apply sm_le. intros l _. unfold slabs. rewrite map_length. auto. }
  unfold room_at, labels_from. cbv zeta. set (m := N.of_nat (1 + length (cc slabs s height))).
  assert (M : (m <= m')%N) by (unfold m, m'; lia).
  assert (D' : (m / 64 <= m' / 64)%N) by (apply N.div_le_mono; lia).
  rewrite wrap32_small; [specialize (G m); unfold m in *; lia|].
  eapply N.le_lt_trans; [|exact Q]. apply N.mul_le_mono; lia.
Qed.

Theorem create_spec : forall keys, uniq keys = K -> cf_dense c = true -> (1 <= cf_ratio c)%N ->
  okB sizes_fit (create e c keys) (fun f => exists st, 1 <= st /\ S st <= height /\
    dense_ok st (sf_dense f) /\ sparse_ok st (sf_sparse f) /\ fresh_alloc st (sf_sparse f)).
Proof.
  intros keys HU Hd Hr. destruct (build e c keys) as [b|er] eqn:EB.
  - pose proof (create_at keys b HU Hd Hr EB) as Q.
    assert (S2 : S (bd_start b) <= height).
    { clear Q. unfold build in EB. apply bind_ok in EB. destruct EB as (x & _ & EB). apply bind_ok in EB. destruct EB as (st & ES & EB).
      pose proof (buildSparse_spec e c K HS HB HE Hshift Hlens keys HU) as BS. rewrite ES in BS. destruct BS as [HL HR].
      rewrite Hd in EB. destruct (cutoff_ok st HR HL Hd Hr) as (s & EC & S1 & S2). rewrite EC in EB. cbn [bind] in EB.
      apply bind_ok in EB. destruct EB as (ds & _ & EB). injection EB as <-. exact S2. }
    destruct (create e c keys) as [f|er]; cbn [okB] in *; [exists (bd_start b); exact Q|].
    intros X. apply Q. apply fits_all; [exact X|lia].
  - unfold create. rewrite EB. cbn [bind okB]. unfold build in EB.
    assert (KN : keys <> []) by (intros ->; subst K; auto).
    rewrite massert_true in EB by (destruct keys; [congruence|cbn; lia]). cbn [bind] in EB. rewrite Hd in EB.
    pose proof (buildSparse_spec e c K HS HB HE Hshift Hlens keys HU) as BS.
    unfold okp in BS. destruct (buildSparse e c keys) as [st|er']; cbn [bind] in EB.
    + destruct BS as [HL HR]. destruct (cutoff_ok st HR HL Hd Hr) as (s & EC & S1 & S2). rewrite EC in EB. cbn [bind] in EB.
      destruct (buildDense_ok st HR HL s ltac:(lia)) as (ds & ED & L & G). rewrite ED in EB. cbn [bind] in EB. discriminate.
    + intros (_ & _ & X). destruct er'; tauto.
Qed.
End Create.

(** ** a bound in terms of the keys that makes everything fit *)
Definition total_bytes : nat := sm (fun i => S (leafl i)) n.

Lemma sm_swap : forall (p : nat -> nat -> bool) h m,
  sm (fun l => cn (p l) m) h = sm (fun i => cn (fun l => p l i) h) m.
Proof.
  intros p h m. induction m as [|m IH].
  - change (sm (fun l => 0) h = 0). clear. induction h as [|h IHh]; [reflexivity|]. cbn [sm]. lia.
  - change (sm (fun l => cn (p l) m + (if p l m then 1 else 0)) h =
      sm (fun i => cn (fun l => p l i) h) m + cn (fun l => p l m) h).
    rewrite <- IH. clear IH. induction h as [|h IHh]; [reflexivity|]. cbn [sm]. rewrite IHh. cbn [cn]. lia.
Qed.

Lemma leafl_le : forall i, leafl i <= length (kk i).
Proof.
  intros i. unfold Trie.leafl, Trie.hi. pose proof (lcp_le_l (kk i) (kk (S i))) as Q.
  assert (lo i <= length (kk i)) by (destruct i; cbn [Trie.lo]; [lia|apply lcp_le_r]). lia.
Qed.

Lemma items_total : sm (fun l => length (items l)) height <= total_bytes.
Proof.
  unfold total_bytes.
  rewrite (sm_ext _ (fun l => cn (item l) n)) by (intros; apply cn_filter).
  rewrite (sm_swap item). apply sm_le. intros i Hi.
  assert (W : forall b p h, (forall l, p l = true -> l < b) -> cn p h <= b).
  { intros b p h Hp. assert (G : forall h, cn p h <= Nat.min h b).
    { intros h'. induction h' as [|h' IH]; cbn [cn]; [lia|]. destruct (p h') eqn:E; [apply Hp in E; lia|lia]. }
    specialize (G h). lia. }
  apply W. intros l Hl. apply item_spec in Hl. unfold Trie.leafl in *. lia.
Qed.

Lemma total_keys : n <= total_bytes.
Proof.
  unfold total_bytes. generalize n. induction n0 as [|m IH]; cbn [sm]; lia.
Qed.

Lemma nds_items : forall l, nds l <= length (items l).
Proof.
  intros l. unfold BuilderFacts.items, DenseBuild.nds. rewrite cn_filter.
  assert (W : forall m, cn (louds l) m <= cn (item l) m).
  { induction m as [|m IH]; cbn [cn]; [lia|]. destruct (louds l m) eqn:E; [rewrite louds_item by auto; lia|].
    destruct (item l m); lia. }
  apply W.
Qed.

Theorem total_fits : (N.of_nat total_bytes <= 524286)%N -> cf_len c <= 64 -> sizes_fit.
Proof.
  intros H HL. pose proof items_total as H1. pose proof total_keys as H2.
  assert (H3 : sm nds height <= total_bytes).
  { eapply Nat.le_trans; [|exact H1]. apply sm_le. intros. apply nds_items. }
  unfold sizes_fit. split; [lia|]. split.
  - cbv zeta. set (m := N.of_nat (1 + sm (fun l => length (items l)) height)).
    assert (M : (m <= 524287)%N) by (unfold m; lia).
    assert (D : (m / 64 <= 524287 / 64)%N) by (apply N.div_le_mono; lia).
    change (524287 / 64)%N with 8191%N in D.
    eapply N.le_lt_trans; [apply N.mul_le_mono; [exact M|apply N.add_le_mono_r; exact D]|reflexivity].
  - assert (Q : n * cf_len c <= total_bytes * 64) by (apply Nat.mul_le_mono; lia). lia.
Qed.
End Struct.
