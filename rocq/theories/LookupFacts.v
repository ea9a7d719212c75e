(** Point lookups. *)
From Coq Require Import Arith List NArith ZArith Bool Lia ZifyN ZifyNat ZifyBool Sorting.Sorted.
From Verif Require Import Res Word Config BitFacts WordFacts Bitvector BitvectorFacts Rank Select
  RankSelectFacts Suffix Spec SuffixFacts Builder KeyFacts Trie BuilderFacts LabelVector LabelFacts
  DenseBuild StructFacts NodeFacts SparseFacts DenseFacts Dense Sparse Surf.
Import ListNotations.

(** ** suffix checks *)

(** the stored suffix of key [k] does not rule out query [q]; [d] is the
    number of bytes kept *)
Definition accepts (c : config) (k q : bytes) (d : nat) : bool :=
  match cf_type c with
  | kNone => true
  | kHash => (hash_val k (cf_hlen c) =? hash_val q (cf_hlen c))%N
  | kReal => (real_val k d (cf_rlen c) =? 0)%N
             || (has_bits q d (cf_rlen c) && (real_val k d (cf_rlen c) =? real_val q d (cf_rlen c))%N)
  | kMixed => (hash_val k (cf_hlen c) =? hash_val q (cf_hlen c))%N
              && (real_val k d (cf_rlen c) =? real_val q d (cf_rlen c))%N
  end.

Lemma accepts_refl : forall c k d, accepts c k k d = true.
Proof.
  intros c k d. unfold accepts. destruct (cf_type c); rewrite ?N.eqb_refl, ?andb_true_r; auto.
  unfold real_val. destruct (has_bits k d (cf_rlen c)); [apply orb_true_r|reflexivity].
Qed.

Lemma mixed_eq : forall h h' r r' p, (r < p)%N -> (r' < p)%N ->
  ((h * p + r =? h' * p + r') = (h =? h') && (r =? r'))%N.
Proof.
  intros h h' r r' p H H'. destruct (N.eqb_spec (h * p + r) (h' * p + r')) as [E|E].
  - assert (p <> 0)%N by lia.
    assert (A : h = h').
    { apply (f_equal (fun x => x / p)%N) in E. rewrite !N.div_add_l, !N.div_small in E by auto. lia. }
    subst h'. assert (r = r') by lia. subst r'. rewrite !N.eqb_refl. reflexivity.
  - destruct (N.eqb_spec h h') as [->|]; [|reflexivity]. destruct (N.eqb_spec r r') as [->|]; [lia|reflexivity].
Qed.

Lemma suf_idx_small : forall s vs i, suf_ok s vs -> i < length vs -> wrap32 (N.of_nat i) = N.of_nat i.
Proof.
  intros s vs i (Hl & _ & _ & Hf) Hi. apply fits32_lt in Hf. apply wrap32_small. nia.
Qed.

Lemma checkEquality_spec : forall c e s vs i k q d, strict_shift e = false ->
  lens_ok (cf_type c) (cf_hlen c) (cf_rlen c) -> is_bytes k -> is_bytes q ->
  suf_rel c s vs -> i < length vs -> nth i vs 0%N = suf_val (cf_type c) k (cf_hlen c) d (cf_rlen c) ->
  checkEquality e s (wrap32 (N.of_nat i)) q d = Ok (accepts c k q d).
Proof.
  intros c e s vs i k q d He Hlen Hk Hq HR Hi HV. unfold suf_rel in HR.
  assert (G : forall t, cf_type c = t -> t <> kNone -> sf_type s = t /\ sf_hlen s = cf_hlen c /\ sf_rlen s = cf_rlen c /\ suf_ok s vs ->
     checkEquality e s (wrap32 (N.of_nat i)) q d = Ok (accepts c k q d)).
  { intros t Ht Hn (E1 & E2 & E3 & E4). rewrite (suf_idx_small s vs i E4 Hi).
    assert (R : suf_read e s (N.of_nat i) = Ok (nth i vs 0%N)) by (apply suf_read_spec; auto; congruence).
    assert (B : (N.of_nat (bv_nbits (sf_bv s)) <=? suf_bitpos s (N.of_nat i))%N = false).
    { rewrite (suf_bitpos_spec s vs i E4) by lia. rewrite (suf_nbits s vs E4). destruct E4 as (L & _).
      apply N.leb_gt. nia. }
    pose proof (suffix_spec e t q (cf_hlen c) d (cf_rlen c) He Hq ltac:(rewrite <- Ht; auto)) as QS.
    unfold checkEquality. rewrite E1, B, R, HV, Ht. cbn [bind]. rewrite E2, E3. unfold accepts. rewrite Ht.
    destruct t; try congruence; cbn [andb]; rewrite QS; cbn [bind suf_val]; auto.
    - fold (has_bits q d (cf_rlen c)).
      replace ((length q <? d) || ((length q - d) * 8 <? cf_rlen c)) with (negb (has_bits q d (cf_rlen c)))
        by (unfold has_bits; apply negb_involutive).
      destruct (real_val k d (cf_rlen c) =? 0)%N; [reflexivity|].
      destruct (has_bits q d (cf_rlen c)); reflexivity.
    - f_equal. apply mixed_eq; apply real_val_bound; auto. }
  destruct (cf_type c) eqn:Ht.
  - subst s. unfold checkEquality, accepts. rewrite Ht. reflexivity.
  - apply (G kHash); auto; congruence.
  - apply (G kReal); auto; congruence.
  - apply (G kMixed); auto; congruence.
Qed.

Lemma nth_error_firstn_lt : forall (A : Type) (l : list A) m i, i < m -> nth_error (firstn m l) i = nth_error l i.
Proof.
  induction l as [|x l IH]; intros m i H; destruct m, i; cbn [firstn nth_error]; try reflexivity; try lia.
  apply IH. lia.
Qed.

Lemma skipn_S_tl : forall (A : Type) (l : list A) m, skipn (S m) l = tl (skipn m l).
Proof.
  induction l as [|x l IH]; intros m; [destruct m; reflexivity|]. destruct m; [reflexivity|]. cbn [skipn]. apply (IH m).
Qed.

(** ** reads at the very end of a vector whose last word is not full *)
Lemma readBit_end : forall e b l, repr b l -> length l < 64 * num_words (length l) ->
  readBit e b (length l) = Ok false.
Proof.
  intros e b l H Hp. assert (Hn : bv_nbits b = length l) by (destruct H; auto).
  assert (Hw : length (bv_words b) = num_words (length l)) by (destruct H as (_ & _ & ? & _); congruence).
  unfold readBit, massert. replace (length l <=? bv_nbits b) with true by lia.
  rewrite andb_false_r. cbn [bind].
  pose proof (Nat.mod_upper_bound (length l) 64 ltac:(lia)) as HM.
  pose proof (Nat.div_mod (length l) 64 ltac:(lia)) as HD.
  rewrite wread_ok by lia. cbn [bind]. rewrite test_msb by lia.
  rewrite <- bits_of_nth, (repr_nth _ _ _ H). rewrite nth_overflow by lia. reflexivity.
Qed.

Lemma firstn_pad : forall (l : list bool) n m, cnt (firstn n (l ++ repeat false m)) = cnt (firstn n l).
Proof.
  intros l n m. rewrite firstn_app, cnt_app.
  assert (X : cnt (firstn (n - length l) (repeat false m)) = 0); [|lia].
  apply cnt_zero_nth. intros i. destruct (lt_dec i (n - length l)) as [L|L].
  - rewrite nth_firstn' by auto. apply nth_repeat.
  - apply nth_overflow. rewrite firstn_length. lia.
Qed.

Lemma rank_end : forall e r l, rank_ok r l -> length l < 64 * num_words (length l) ->
  rank e r (length l) = Ok (cnt l).
Proof.
  intros e r l (H & Hb & Hl) Hp. unfold rank. rewrite Hb, Hl.
  assert (Hn : bv_nbits (rk_bv r) = length l) by (destruct H; auto). rewrite Hn.
  assert (Hw : length (bv_words (rk_bv r)) = num_words (length l)) by (destruct H as (_ & _ & ? & _); congruence).
  unfold massert. replace (length l <=? length l) with true by lia. rewrite andb_false_r. cbn [bind].
  change (512 / 64) with 8.
  pose proof (Nat.div_mod (length l) 512 ltac:(lia)) as HD. pose proof (Nat.mod_upper_bound (length l) 512 ltac:(lia)) as HM.
  rewrite (vget_ok _ _ _ 0) by (rewrite map_length, seq_length; lia).
  rewrite (nth_indep _ 0 (cnt (firstn (512 * 0) l))) by (rewrite map_length, seq_length; lia).
  rewrite (map_nth (fun i => cnt (firstn (512 * i) l))), seq_nth by lia.
  rewrite Nat.add_0_l. cbn [bind].
  rewrite popcountLinear_spec by (try (destruct H as (_ & ? & _); assumption); lia). cbn [bind]. f_equal.
  destruct H as (_ & _ & _ & E). rewrite E.
  replace (64 * (length l / 512 * 8)) with (512 * (length l / 512)) by lia.
  rewrite skipn_app. replace (512 * (length l / 512) - length l) with 0 by lia. cbn [skipn].
  rewrite firstn_pad. rewrite <- cnt_app. rewrite <- firstn_plus. rewrite firstn_all2 by lia. reflexivity.
Qed.

Section Lookup.
Variables (c : config) (K : list bytes).
Notation kk := (kk K). Notation lo := (lo K). Notation hi := (hi K). Notation leafl := (leafl K).
Notation item := (item K). Notation child := (child K). Notation louds := (louds K).
Notation leaf := (leaf K). Notation lab := (lab K). Notation term := (term K). Notation anc := (anc K).
Notation items := (items K). Notation nds := (nds K). Notation height := (height K).
Notation NN := (NN K). Notation same_node := (same_node K).
Let n := length K.
Hypothesis HS : StronglySorted klt K.
Hypothesis HB : Forall is_bytes K.
Hypothesis HE : Forall (fun k => k <> []) K.
Hypothesis HNE : length K <> 0.

(** query [q] follows key [i] down to its leaf *)
Definition mt (q : bytes) (i : nat) : Prop := firstn (S (leafl i)) q = firstn (S (leafl i)) (kk i).

Lemma leafl_dist : forall i i', i < n -> i' < n -> firstn (S (leafl i)) (kk i') = firstn (S (leafl i)) (kk i) -> i' = i.
Proof.
  intros i i' Hi Hi' E. destruct (lt_eq_lt_dec i i') as [[L|L]|L]; auto; exfalso.
  - pose proof (lo_of_prefix K HS (S (leafl i)) i i' L Hi' (eq_sym E) (S i) ltac:(lia)) as Q.
    rewrite <- hi_lo in Q. unfold Trie.leafl in Q. lia.
  - pose proof (lo_of_prefix K HS (S (leafl i)) i' i L Hi E i ltac:(lia)) as Q. unfold Trie.leafl in Q. lia.
Qed.

Lemma mt_unique : forall q i i', i < n -> i' < n -> mt q i -> mt q i' -> i = i'.
Proof.
  assert (G : forall q i i', i < n -> i' < n -> leafl i <= leafl i' -> mt q i -> mt q i' -> i = i').
  { intros q i i' Hi Hi' L M M'. symmetry. apply leafl_dist; auto. unfold mt in *.
    rewrite <- M. symmetry. apply firstn_le_eq with (S (leafl i')); [lia|auto]. }
  intros q i i' Hi Hi' M M'. destruct (le_ge_dec (leafl i) (leafl i')); [|symmetry]; eapply G; eauto.
Qed.

Definition acc (q : bytes) (i : nat) : bool := accepts c (kk i) q (S (leafl i)).
Definition ans (q : bytes) (b : bool) : Prop :=
  (forall i, i < n -> mt q i -> b = acc q i) /\ ((forall i, i < n -> ~ mt q i) -> b = false \/ (cf_type c = kNone /\ In 0 q)).

(** the same without exception *)
Definition xans (q : bytes) (b : bool) : Prop := ans q b /\ ((forall i, i < n -> ~ mt q i) -> b = false).

Lemma ans_mt : forall q i, i < n -> mt q i -> ans q (acc q i).
Proof.
  intros q i Hi M. split.
  - intros i' Hi' M'. rewrite (mt_unique q i i'); auto.
  - intros H. exfalso. apply (H i); auto.
Qed.
Lemma ans_none : forall q, (forall i, i < n -> ~ mt q i) -> ans q false.
Proof. intros q H. split; [|auto]. intros i Hi M. exfalso. apply (H i); auto. Qed.

Lemma xans_mt : forall q i, i < n -> mt q i -> xans q (acc q i).
Proof. intros q i Hi M. split; [apply ans_mt; auto|]. intros H. exfalso. exact (H i Hi M). Qed.

Lemma xans_none : forall q, (forall i, i < n -> ~ mt q i) -> xans q false.
Proof. intros q H. split; [apply ans_none; auto|reflexivity]. Qed.

(** below a node that carries the first bytes of [q], only its own subtree matches *)
Lemma mt_below : forall l j q i, louds l j = true -> firstn l q = firstn l (kk j) -> i < n -> mt q i ->
  l <= leafl i.
Proof.
  intros l j q i HL HP Hi M. destruct (le_lt_dec l (leafl i)) as [|G]; auto. exfalso.
  pose proof (louds_item K l j HL) as HI. pose proof (item_lt K l j HI) as Hj.
  assert (E : j = i).
  { apply leafl_dist; auto. unfold mt in M. rewrite <- M. symmetry. apply firstn_le_eq with l; [lia|auto]. }
  subst i. apply item_spec in HI. unfold Trie.leafl in G. lia.
Qed.

Lemma mt_find : forall l j q i, louds l j = true -> firstn l q = firstn l (kk j) -> i < n -> mt q i ->
  exists i', j <= i' /\ item l i' = true /\ same_node l j i' /\ firstn (S l) (kk i') = firstn (S l) q.
Proof.
  intros l j q i HL HP Hi M. pose proof (mt_below l j q i HL HP Hi M) as B.
  destruct (node_find K HS l j q i HL HP Hi) as (i' & A1 & A2 & A3 & A4).
  - symmetry. apply firstn_le_eq with (S (leafl i)); [lia|auto].
  - exists i'. repeat split; auto; lia.
Qed.

(** one step: the query has a byte at level [l] *)
Lemma step_none : forall l j q b, louds l j = true -> firstn l q = firstn l (kk j) -> nth_error q l = Some b ->
  (forall i, j <= i -> item l i = true -> same_node l j i -> term l i = false -> lab l i <> b) ->
  forall i, i < n -> ~ mt q i.
Proof.
  intros l j q b HL HP HQ H i Hi M.
  destruct (mt_find l j q i HL HP Hi M) as (i' & A1 & A2 & A3 & A4).
  assert (X : nth_error (kk i') l = Some b).
  { assert (E : nth_error (firstn (S l) (kk i')) l = nth_error (firstn (S l) q) l) by (rewrite A4; auto).
    rewrite !nth_error_firstn_lt in E by lia. congruence. }
  assert (T : term l i' = false).
  { unfold Trie.term. apply Nat.leb_gt. apply nth_error_Some. congruence. }
  apply (H i' A1 A2 A3 T). unfold Trie.lab. apply nth_error_nth. auto.
Qed.

Lemma step_some : forall l j q b i, louds l j = true -> firstn l q = firstn l (kk j) -> nth_error q l = Some b ->
  j <= i -> item l i = true -> same_node l j i -> term l i = false -> lab l i = b ->
  firstn (S l) q = firstn (S l) (kk i).
Proof.
  intros l j q b i HL HP HQ A B C D E.
  rewrite (firstn_S_snoc _ q l b HQ).
  assert (X : nth_error (kk i) l = Some b).
  { unfold Trie.term in D. apply Nat.leb_gt in D. rewrite <- E. unfold Trie.lab. apply nth_error_nth'. auto. }
  rewrite (firstn_S_snoc _ (kk i) l b X). f_equal. rewrite HP.
  apply (same_node_prefix K l j i); auto.
Qed.

(** the query ends at level [l] *)
Lemma end_mt : forall l j q, louds l j = true -> firstn l q = firstn l (kk j) -> length q = l -> term l j = true ->
  mt q j /\ leafl j = l.
Proof.
  intros l j q HL HP HQ T. pose proof (louds_item K l j HL) as HI.
  destruct (term_first K HS HE l j HI T) as (_ & F & E & _). apply leaf_spec in F. destruct F as [_ F].
  assert (q = kk j).
  { rewrite firstn_all2 in HP by lia. rewrite firstn_all2 in HP by lia. auto. }
  split; [|auto]. unfold mt. subst q. reflexivity.
Qed.

Lemma end_none : forall l j q, louds l j = true -> firstn l q = firstn l (kk j) -> length q = l -> term l j = false ->
  forall i, i < n -> ~ mt q i.
Proof.
  intros l j q HL HP HQ T i Hi M.
  destruct (mt_find l j q i HL HP Hi M) as (i' & A1 & A2 & A3 & A4).
  rewrite (firstn_all2 q) in A4 by lia.
  assert (X : length (kk i') <= l).
  { pose proof (firstn_length (S l) (kk i')) as Q. rewrite A4 in Q. lia. }
  assert (T' : term l i' = true) by (unfold Trie.term; apply Nat.leb_le; auto).
  destruct (term_first K HS HE l i' A2 T') as (L & _).
  destruct (Nat.eq_dec i' j) as [->|NE]; [congruence|]. rewrite A3 in L by lia. discriminate.
Qed.

(** ** the sparse part *)
Variables (st : nat) (d : dense) (s : sparse) (e : env).

Section SparseLookup.
Context {lb : nat} {Hlb : wide K lb}.
Hypothesis Hst1 : lb <= st.
Hypothesis Hst2 : S st <= height.
Hypothesis HK : sparse_ok c K st s.
Hypothesis Hmem : strict_mem e = false.
Hypothesis Hshift : strict_shift e = false.
Hypothesis Hlens : lens_ok (cf_type c) (cf_hlen c) (cf_rlen c).

Lemma key_ok : forall i, i < n -> is_bytes (kk i).
Proof. intros i Hi. rewrite Forall_forall in HB. apply HB. apply nth_In. auto. Qed.

Lemma s_check : forall l i q, st <= l -> leaf l i = true -> is_bytes q ->
  (sp <- s_getSuffixPos e s (spos K st l i) ;; checkEquality e (s_suf s) sp q (l + 1)) = Ok (acc q i).
Proof.
  intros l i q Hl HF Hq.
  rewrite (s_suffix_pos c K HNE st s e Hst1 Hst2 HK Hmem l i Hl HF).
  cbn [bind]. destruct (ssidx_nth c K HNE st e Hst1 Hst2 Hmem l i Hl HF) as [A B].
  apply leaf_spec in HF. destruct HF as [Hi ->].
  pose proof (sk_suf _ _ _ _ HK) as SR.
  unfold acc. rewrite Nat.add_1_r.
  pose proof (checkEquality_spec c e (s_suf s) _ (ssidx c K st (leafl i) i) (kk i) q (S (leafl i)) Hshift Hlens
     (key_ok i Hi) Hq SR A B) as Q.
  destruct (cf_type c) eqn:ET in |- *.
  - unfold suf_rel in SR. rewrite ET in SR. rewrite SR in *. exact Q.
  - rewrite <- Q. f_equal. symmetry. unfold suf_rel in SR. rewrite ET in SR. eapply suf_idx_small; [apply SR|exact A].
  - rewrite <- Q. f_equal. symmetry. unfold suf_rel in SR. rewrite ET in SR. eapply suf_idx_small; [apply SR|exact A].
  - rewrite <- Q. f_equal. symmetry. unfold suf_rel in SR. rewrite ET in SR. eapply suf_idx_small; [apply SR|exact A].
Qed.

Lemma suf_end : forall q lvl, checkEquality e (s_suf s) (N.of_nat (length (cc (ssfx c K) st height))) q lvl =
  Ok (match cf_type c with kNone => true | _ => false end).
Proof.
  intros q lvl. pose proof (sk_suf _ _ _ _ HK) as SR. unfold suf_rel in SR.
  assert (G : forall t, t <> kNone -> sf_type (s_suf s) = t /\ suf_ok (s_suf s) (cc (ssfx c K) st height) ->
     checkEquality e (s_suf s) (N.of_nat (length (cc (ssfx c K) st height))) q lvl = Ok false).
  { intros t Ht [E1 E2]. unfold checkEquality. rewrite E1.
    rewrite (suf_bitpos_spec _ _ _ E2) by lia. rewrite (suf_nbits _ _ E2).
    replace (N.of_nat (sf_len (s_suf s) * length (cc (ssfx c K) st height)) <=?
      N.of_nat (length (cc (ssfx c K) st height) * sf_len (s_suf s)))%N with true by (symmetry; apply N.leb_le; lia).
    destruct t; congruence. }
  destruct (cf_type c) in *.
  - rewrite SR. reflexivity.
  - eapply G; [|split; apply SR]; congruence.
  - eapply G; [|split; apply SR]; congruence.
  - eapply G; [|split; apply SR]; congruence.
Qed.

Lemma sparse_end : forall q lvl, slen K st < 64 * num_words (slen K st) ->
  (ch <- s_readChild e s (slen K st) ;;
   if negb ch then sp <- s_getSuffixPos e s (slen K st) ;; checkEquality e (s_suf s) sp q lvl
   else (node_num <- s_getChildNodeNum e s (slen K st) ;; Fail OutOfBounds)) =
  Ok (match cf_type c with kNone => true | _ => false end).
Proof.
  intros q lvl H. pose proof (cc_len K st _ (schild K) ltac:(lia) (schild_n K)) as LC.
  unfold s_readChild, s_getSuffixPos.
  pose proof (sk_ch _ _ _ _ HK) as RC. rewrite <- LC in *.
  rewrite (readBit_end e _ _ (proj1 RC)) by auto. cbn [bind negb].
  rewrite (rank_end e _ _ RC) by auto. cbn [bind].
  replace (pos32 (Z.of_nat (length (cc (schild K) st height)) - Z.of_nat (cnt (cc (schild K) st height))))
    with (N.of_nat (length (cc (ssfx c K) st height))); [apply suf_end|].
  assert (SP : length (cc (schild K) st height) - cnt (cc (schild K) st height) = length (cc (ssfx c K) st height)).
  { rewrite LC. unfold slen. rewrite (soff_split c K HNE st e Hst1 Hst2 Hmem height) by lia.
    rewrite cc_cnt by lia. rewrite cc_length by lia. unfold off.
    assert (X : forall m, sm (fun l => cnt (schild K l)) m = sm (fun l => cn (child l) n) m).
    { intros m. apply sm_ext. intros l _. unfold schild, BuilderFacts.items.
      pose proof (cnt_filter_seq (item l) (child l) (length K) (length K) (le_n _)) as Q.
      rewrite firstn_all2 in Q by (rewrite map_length, cn_filter; lia). rewrite Q. apply cn_ext. intros x _. apply ic. }
    rewrite !X. fold n. lia. }
  rewrite <- SP. symmetry. apply pos32_small; [apply cnt_le_length|].
  pose proof (sk_fits _ _ _ _ HK) as FT. rewrite (slabs_total K HNE st Hst1 Hst2) in FT.
  rewrite LC. lia.
Qed.

(** the bytes after the last label are zero, or some key matches *)
Definition zero_end (q : bytes) : Prop :=
  (64 < slen K st -> rd s e (slen K st) = 0 /\ forall x, slen K st <= x < slen K st + 64 -> rd s e x = 0) \/
  exists i, i < n /\ mt q i.

Lemma s_lookup_spec : forall rest l j q, st <= l -> louds l j = true -> firstn l q = firstn l (kk j) ->
  rest = skipn l q -> l <= length q -> is_bytes q -> zero_end q ->
  exists b, s_lookup_loop e s q rest l (spos K st l j) = Ok b /\ ans q b.
Proof.
  induction rest as [|b rest IH]; intros l j q Hl HL HP HR HQ Hb HO; pose proof (louds_item K l j HL) as HI.
  - assert (LQ : length q = l).
    { apply (f_equal (@length nat)) in HR. rewrite skipn_length in HR. cbn [length] in HR. lia. }
    cbn [s_lookup_loop].
    rewrite (s_lab_read c K HNE st s e Hst1 Hst2 HK l j Hl HI). cbn [bind].
    destruct (term l j) eqn:T.
    + destruct (end_mt l j q HL HP LQ T) as [M E]. rewrite (lab_term K l j T).
      change (255 =? kTerminator) with true. cbn match.
      rewrite (s_child_read c K HNE st s e Hst1 Hst2 HK l j Hl HI). cbn [bind].
      rewrite (term_not_child K HS HE l j HI T). cbn [negb].
      destruct (term_first K HS HE l j HI T) as (_ & F & _).
      exists (acc q j). split; [apply s_check; auto|]. apply ans_mt; auto. apply (item_lt K l j HI).
    + exists false. split; [|apply ans_none; apply (end_none l j q); auto].
      destruct (Nat.eqb_spec (lab l j) kTerminator) as [E|E]; [|reflexivity].
      rewrite (s_child_read c K HNE st s e Hst1 Hst2 HK l j Hl HI). cbn [bind].
      destruct (child l j) eqn:EC; [reflexivity|]. exfalso.
      assert (HF : leaf l j = true).
      { unfold Trie.leaf. rewrite HI. unfold Trie.child in EC. rewrite HI in EC. cbn [andb] in *. rewrite EC. reflexivity. }
      destruct (node_two' K l j (wide_level K st l Hst1 Hl) HL HF) as [X1 X2].
      assert (term l j = true); [|congruence].
      apply (term_of_255 K HS HB) with (S j); auto.
      intros m Hm. replace m with (S j) by lia. auto.
  - assert (NQ : nth_error q l = Some b).
    { pose proof (nth_error_skipn _ q l 0) as Q. rewrite <- HR in Q. rewrite Nat.add_0_r in Q. cbn in Q. congruence. }
    assert (LQ : l < length q) by (apply nth_error_Some; congruence).
    cbn [s_lookup_loop].
    destruct (s_nodeSize_spec c K HNE st s e Hst1 Hst2 HK l j Hl HL) as (N & EN & HW). rewrite EN. cbn [bind].
    destruct (existsb (fun i => (j <=? i) && item l i && negb (term l i) && (lab l i =? b)
       && forallb (fun m => negb (louds l m)) (seq (S j) (i - j))) (seq 0 n)) eqn:EX.
    + apply existsb_seq in EX. destruct EX as (i & Hi & EX). apply andb_prop in EX. destruct EX as [EX E5].
      apply andb_prop in EX. destruct EX as [EX E4].
      apply andb_prop in EX. destruct EX as [EX E3]. apply andb_prop in EX. destruct EX as [E1 E2].
      apply Nat.leb_le in E1. apply negb_true_iff in E3. apply Nat.eqb_eq in E4.
      assert (SN : same_node l j i).
      { intros m Hm. rewrite forallb_forall in E5. specialize (E5 m). rewrite negb_true_iff in E5. apply E5.
        apply in_seq. lia. }
      rewrite (search_found c K HS HB HE HNE st s e Hst1 Hst2 HK Hmem l j N Hl HL HW b i E1 E2 SN E3 E4).
      cbn [bind negb].
      rewrite (s_child_read c K HNE st s e Hst1 Hst2 HK l i Hl E2). cbn [bind].
      pose proof (step_some l j q b i HL HP NQ E1 E2 SN E3 E4) as SS.
      destruct (child l i) eqn:EC; cbn [negb].
      * rewrite (s_child_node c K HNE st s e Hst1 Hst2 HK l i Hl EC). cbn [bind].
        assert (EL : louds (S l) i = true) by (rewrite <- child_louds; auto).
        rewrite (s_first_pos c K HNE st s e Hst1 Hst2 HK (S l) i (Nat.le_trans _ _ _ Hl (Nat.le_succ_diag_r l)) EL). cbn [bind].
        apply IH; auto; try lia.
        pose proof (skipn_S_tl _ q l) as Q. rewrite <- HR in Q. rewrite Q. reflexivity.
      * assert (HF : leaf l i = true).
        { unfold Trie.leaf. rewrite E2. unfold Trie.child in EC. rewrite E2 in EC. cbn [andb] in *. rewrite EC. reflexivity. }
        exists (acc q i). split; [apply s_check; auto|]. apply ans_mt; auto.
        apply leaf_spec in HF. destruct HF as [_ HF]. unfold mt. rewrite <- HF. exact SS.
    + assert (NO : forall i, j <= i -> item l i = true -> same_node l j i -> term l i = false -> lab l i <> b).
      { intros i A1 A2 A3 A4 A5.
        match type of EX with ?t = false => assert (X : t = true); [|congruence] end.
        apply existsb_seq. exists i. pose proof (item_lt K l i A2) as Hi. split; auto.
        rewrite A2, A4, A5, Nat.eqb_refl. replace (j <=? i) with true by lia. cbn [andb negb].
        apply forallb_forall. intros m Hm. apply in_seq in Hm. rewrite A3 by lia. reflexivity. }
      pose proof (step_none l j q b HL HP NQ NO) as NM.
      destruct (search_none c K HS HB HE HNE st s e Hst1 Hst2 HK Hmem l j N Hl HL HW b NO) as [E|(E2 & x & E3 & E4 & E6 & E5)].
      * rewrite E. cbn [bind negb]. exists false. split; auto. apply ans_none. auto.
      * destruct HO as [HO|(i & Hi & M)]; [|exfalso; apply (NM i Hi M)].
        destruct (HO E2) as [HO0 HO1]. pose proof (num_words_le (slen K st)) as NW.
        assert (b = 0) by (rewrite <- E4; apply HO1; lia). subst b.
        assert (x = slen K st).
        { destruct (Nat.eq_dec x (slen K st)) as [|NE]; auto. exfalso. apply (E6 (slen K st)); [lia|congruence]. }
        subst x. rewrite E5. cbn [bind negb].
        pose proof (sparse_end q (l + 1) ltac:(lia)) as SE.
        destruct (s_readChild e s (slen K st)) as [[|]|]; cbn [bind negb] in *; try discriminate.
        { destruct (s_getChildNodeNum e s (slen K st)); cbn [bind] in SE; discriminate. }
        eexists. split; [exact SE|]. split.
        { intros i Hi M. exfalso. apply (NM i Hi M). }
        intros _. destruct (cf_type c); auto. right. split; auto. rewrite <- HO0. eapply nth_error_In. exact NQ.
Qed.

End SparseLookup.

(** ** the dense part *)
Hypothesis Hst1 : 1 <= st.
Hypothesis Hst2 : S st <= height.
Hypothesis HD : dense_ok c K st d.
Hypothesis HK : sparse_ok c K st s.
Hypothesis Hmem : strict_mem e = false.
Hypothesis Hshift : strict_shift e = false.
Hypothesis Hlens : lens_ok (cf_type c) (cf_hlen c) (cf_rlen c).
Hypothesis HFF : no_lone_ff K.

Lemma d_check : forall l i q sp, l < st -> leaf l i = true -> is_bytes q ->
  sp = wrap32 (N.of_nat (dsidx c K l i)) ->
  checkEquality e (d_suf d) sp q (l + 1) = Ok (acc q i).
Proof.
  intros l i q sp Hl HF Hq ->.
  destruct (leaf_idx c K HNE st Hst1 l i Hl HF) as [A B].
  apply leaf_spec in HF. destruct HF as [Hi ->]. rewrite Nat.add_1_r.
  apply (checkEquality_spec c e (d_suf d) _ (dsidx c K (leafl i) i) (kk i) q (S (leafl i)) Hshift Hlens
     (key_ok i Hi) Hq (dk_suf _ _ _ _ HD) A B).
Qed.

Lemma d_lookup_spec : forall m l j q, l + m = st -> louds l j = true -> firstn l q = firstn l (kk j) ->
  l <= length q -> is_bytes q ->
  (exists b, d_lookup_loop e d q m l (NN l j) = Ok (b, 0) /\ xans q b) \/
  (exists j', d_lookup_loop e d q m l (NN l j) = Ok (true, NN st j') /\ louds st j' = true /\
     firstn st q = firstn st (kk j') /\ st <= length q).
Proof.
  clear Hst2 HK. induction m as [|m IH]; intros l j q Hm HL HP HQ Hb; pose proof (louds_item K l j HL) as HI; cbn [d_lookup_loop].
  - right. exists j. rewrite Nat.add_0_r in Hm. subst l. auto.
  - assert (Hl : l < st) by lia. destruct (nth_error q l) as [b|] eqn:NQ.
    + assert (LQ : l < length q) by (apply nth_error_Some; congruence).
      assert (Bb : b < 256) by (unfold is_bytes in Hb; rewrite Forall_forall in Hb; apply Hb; eapply nth_error_In; eauto).
      replace (NN l j * kNodeFanout + b) with (dp K l j b) by (unfold dp, kNodeFanout; lia).
      destruct (existsb (fun i => nonterm K l i && (dpl K l i =? 256 * nn K l j + b)) (seq 0 n)) eqn:EX.
      * apply existsb_seq in EX. destruct EX as (i & Hi & E). apply andb_prop in E. destruct E as [E1 E2].
        apply Nat.eqb_eq in E2. pose proof (proj1 (in_node K HB HNE st Hst1 l j b i HL Bb E1) E2) as (F1 & F2 & F3).
        apply nonterm_spec in E1 as E1'. destruct E1' as [I1 I2].
        rewrite <- F3.
        rewrite (readLabel_true c K HS HB HE HNE HFF st d e Hst1 HD l j i) by auto. cbn [bind negb].
        rewrite (readChild_spec c K HS HB HE HNE st d e Hst1 HD l j i) by auto. cbn [bind].
        pose proof (step_some l j q b i HL HP NQ F1 I1 F2 I2 F3) as SS.
        destruct (child l i) eqn:EC; cbn [negb].
        -- rewrite (child_node c K HS HB HE HNE st d e Hst1 HD l j i) by auto. cbn [bind].
           assert (EL : louds (S l) i = true) by (rewrite <- child_louds; auto).
           apply IH; auto; lia.
        -- assert (HF : leaf l i = true).
           { unfold Trie.leaf. rewrite I1. unfold Trie.child in EC. rewrite I1 in EC. cbn [andb] in *. rewrite EC. reflexivity. }
           left. exists (acc q i).
           rewrite (d_suffix_leaf c K HS HB HE HNE HFF st d e Hst1 HD l j i) by auto. cbn [bind].
           rewrite (d_check l i) by auto. cbn [bind]. split; auto.
           apply xans_mt; auto. apply leaf_spec in HF. destruct HF as [_ HF]. unfold mt. rewrite <- HF. exact SS.
      * assert (NO : forall i, j <= i -> item l i = true -> same_node l j i -> term l i = false -> lab l i <> b).
        { intros i A1 A2 A3 A4 A5.
          match type of EX with ?t = false => assert (X : t = true); [|congruence] end.
          apply existsb_seq. exists i. pose proof (item_lt K l i A2) as Hi. split; auto.
          assert (NT : nonterm K l i = true) by (apply nonterm_spec; auto). rewrite NT. cbn [andb].
          apply Nat.eqb_eq. eapply in_node; eauto. }
        rewrite (readLabel_false c K HS HB HE HNE HFF st d e Hst1 HD l j b) by auto. cbn [bind negb].
        left. exists false. split; auto. apply xans_none. apply (step_none l j q b); auto.
    + assert (LQ : length q = l) by (apply nth_error_None in NQ; lia).
      rewrite (readPrefix_spec c K HS HB HE HNE HFF st d e Hst1 HD l j) by auto. cbn [bind]. left.
      destruct (term l j) eqn:T.
      * destruct (end_mt l j q HL HP LQ T) as [M E].
        replace (NN l j * kNodeFanout) with (dp K l j 0) by (unfold dp, kNodeFanout; lia).
        rewrite (d_suffix_term c K HS HB HE HNE HFF st d e Hst1 HD l j 0) by (auto; lia). cbn [bind].
        destruct (term_first K HS HE l j HI T) as (_ & F & _).
        rewrite (d_check l j) by auto. cbn [bind]. exists (acc q j). split; auto.
        apply xans_mt; auto. apply (item_lt K l j HI).
      * exists false. split; auto. apply xans_none. apply (end_none l j q); auto.
Qed.

(** ** SuRF::lookupKey *)
Theorem lookupKey_spec : forall q, is_bytes q -> zero_end q ->
  exists b, lookupKey e (mkSurf d s) q = Ok b /\ ans q b.
Proof.
  intros q Hb HO. unfold lookupKey, d_lookupKey. cbn [sf_dense sf_sparse].
  rewrite (dk_h _ _ _ _ HD).
  assert (N0 : NN 0 0 = 0).
  { unfold SparseFacts.NN. cbn [sm cn]. destruct (louds 0 0); reflexivity. }
  pose proof (d_lookup_spec st 0 0 q ltac:(lia) (louds_root K HNE) eq_refl ltac:(lia) Hb) as Q.
  rewrite N0 in Q.
  destruct Q as [(b & E & A)|(j' & E & A1 & A2 & A3)]; rewrite E; cbn [bind].
  - exists b. split; [destruct b; reflexivity|apply A].
  - cbn [negb]. pose proof (NN_ge K HNE st Hst1 Hst2 st j' ltac:(lia)) as G. pose proof (sm_mono nds 1 st Hst1) as M.
    cbn [sm] in M. pose proof (nds_root K HNE) as R.
    replace (NN st j' =? 0) with false by lia. cbn [negb]. unfold s_lookupKey.
    rewrite (s_first_pos c K HNE st s e Hst1 Hst2 HK st j') by auto. cbn [bind].
    rewrite (sk_st _ _ _ _ HK). apply (s_lookup_spec Hst1 Hst2 HK Hmem Hshift Hlens); auto.
Qed.
End Lookup.
