(** Suffix comparison: what BitvectorSuffix::compare returns, and what that
    says about the order of the keys. *)
From Coq Require Import Arith List NArith ZArith Bool Lia ZifyN ZifyNat ZifyBool.
From Verif Require Import Res Word Config BitFacts WordFacts Bitvector BitvectorFacts Suffix Spec Builder KeyFacts SuffixFacts
  StructFacts LookupFacts Dense IterKey.
Import ListNotations.

(** the comparison of the stored suffix of [k] with query [q]; [d] bytes of the
    key are kept in the trie *)
Definition cmp_val (c : config) (k q : bytes) (d : nat) : Z :=
  if has_real (cf_type c) then
    let a := real_val k d (cf_rlen c) in
    let b := real_val q d (cf_rlen c) in
    if (a =? b)%N then kCouldBePositive
    else if (a =? 0)%N || (a <? b)%N then (-1)%Z else 1%Z
  else kCouldBePositive.

Lemma suf_compare_spec : forall c e s vs i k q q' d d', strict_shift e = false ->
  lens_ok (cf_type c) (cf_hlen c) (cf_rlen c) -> is_bytes k -> is_bytes q' ->
  suf_rel c s vs -> i < length vs -> nth i vs 0%N = suf_val (cf_type c) k (cf_hlen c) d (cf_rlen c) ->
  real_val q' d' (cf_rlen c) = real_val q d (cf_rlen c) ->
  suf_compare e s (wrap32 (N.of_nat i)) q' d' = Ok (cmp_val c k q d).
Proof.
  intros c e s vs i k q q' d d' He Hlen Hk Hq HR Hi HV HQ. unfold suf_rel in HR.
  destruct Hlen as [HL1 HL2]. pose proof (real_val_bound k d (cf_rlen c) Hk) as RB.
  assert (G : forall t, cf_type c = t -> t <> kNone -> sf_type s = t /\ sf_hlen s = cf_hlen c /\ sf_rlen s = cf_rlen c /\ suf_ok s vs ->
     suf_compare e s (wrap32 (N.of_nat i)) q' d' = Ok (cmp_val c k q d)).
  { intros t Ht Hn (E1 & E2 & E3 & E4). rewrite (suf_idx_small s vs i E4 Hi).
    assert (R : suf_read e s (N.of_nat i) = Ok (nth i vs 0%N)) by (apply suf_read_spec; auto; congruence).
    assert (B : (N.of_nat (bv_nbits (sf_bv s)) <=? suf_bitpos s (N.of_nat i))%N = false).
    { rewrite (suf_bitpos_spec s vs i E4) by lia. rewrite (suf_nbits s vs E4). destruct E4 as (L & _).
      apply N.leb_gt. nia. }
    unfold suf_compare. rewrite B, E1, R, HV, E3. unfold cmp_val. rewrite Ht in *.
    destruct t; try congruence; cbn [has_real bind suf_val] in *; auto.
    - rewrite real_suffix_spec by (auto; lia). cbn [bind]. rewrite HQ.
      destruct (N.eqb_spec (real_val k d (cf_rlen c)) 0) as [Z1|Z1].
      + rewrite Z1. destruct (N.eqb_spec (real_val q d (cf_rlen c)) 0) as [Z2|Z2].
        * rewrite Z2. reflexivity.
        * cbn [andb orb]. replace (0 =? real_val q d (cf_rlen c))%N with false by lia. reflexivity.
      + cbn [andb orb]. destruct (N.ltb_spec (real_val k d (cf_rlen c)) (real_val q d (cf_rlen c))) as [L|L].
        * replace (real_val k d (cf_rlen c) =? real_val q d (cf_rlen c))%N with false by lia. reflexivity.
        * destruct (_ =? _)%N; reflexivity.
    - rewrite real_suffix_spec by (auto; lia). cbn [bind]. rewrite HQ.
      pose proof (hash_val_bound k (cf_hlen c)) as HBd.
      rewrite (extract_real e _ _ _ He RB); [|lia|].
      2: { eapply N.lt_le_trans with (2 ^ N.of_nat (cf_hlen c + cf_rlen c))%N.
           - rewrite pow2_add. nia.
           - change (2 ^ 64)%N with (2 ^ N.of_nat 64)%N. apply pow2_le. auto. }
      cbn [bind].
      destruct (N.eqb_spec (real_val k d (cf_rlen c)) 0) as [Z1|Z1].
      + rewrite Z1. destruct (N.eqb_spec (real_val q d (cf_rlen c)) 0) as [Z2|Z2].
        * rewrite Z2. reflexivity.
        * cbn [andb orb]. replace (0 =? real_val q d (cf_rlen c))%N with false by lia. reflexivity.
      + cbn [andb orb]. destruct (N.ltb_spec (real_val k d (cf_rlen c)) (real_val q d (cf_rlen c))) as [L|L].
        * replace (real_val k d (cf_rlen c) =? real_val q d (cf_rlen c))%N with false by lia. reflexivity.
        * destruct (_ =? _)%N; reflexivity. }
  destruct (cf_type c) eqn:Ht.
  - subst s. unfold suf_compare, cmp_val. rewrite Ht. cbn [has_real]. destruct (_ <=? _)%N; reflexivity.
  - apply (G kHash); auto; congruence.
  - apply (G kReal); auto; congruence.
  - apply (G kMixed); auto; congruence.
Qed.

(** ** order *)
Lemma be_val_cons : forall x l, be_val (x :: l) = (N.of_nat x * 256 ^ N.of_nat (length l) + be_val l)%N.
Proof.
  assert (G : forall l a, fold_left (fun s c => (s * 256 + N.of_nat c)%N) l a = (a * 256 ^ N.of_nat (length l) + be_val l)%N).
  { unfold be_val. induction l as [|y l IH]; intros a; cbn [fold_left length].
    - cbn. lia.
    - rewrite IH, (IH (0 * 256 + N.of_nat y)%N). rewrite Nat2N.inj_succ, N.pow_succ_r'. nia. }
  intros x l. unfold be_val at 1. cbn [fold_left]. rewrite G. reflexivity.
Qed.

Lemma be_val_bd : forall l, is_bytes l -> (be_val l < 256 ^ N.of_nat (length l))%N.
Proof.
  induction l as [|x l IH]; intros H; [cbn; lia|]. inversion H; subst. rewrite be_val_cons.
  specialize (IH H3). cbn [length]. rewrite Nat2N.inj_succ, N.pow_succ_r'. nia.
Qed.

Lemma be_val_lt : forall a b, is_bytes a -> is_bytes b -> length a = length b -> (be_val a < be_val b)%N -> klt a b.
Proof.
  induction a as [|x a IH]; intros [|y b] Ha Hb HL H; try discriminate.
  assert (Ha' : is_bytes a) by (inversion Ha; auto). assert (Hb' : is_bytes b) by (inversion Hb; auto).
  cbn [length] in HL. rewrite !be_val_cons in H.
  assert (HL' : length a = length b) by lia. rewrite HL' in H.
  pose proof (be_val_bd a Ha') as B1. pose proof (be_val_bd b Hb') as B2. rewrite HL' in B1.
  cbn [klt]. destruct (lt_eq_lt_dec x y) as [[L|L]|L]; auto.
  - right. split; auto. apply IH; auto. subst y. lia.
  - exfalso. assert (N.of_nat y + 1 <= N.of_nat x)%N by lia. nia.
Qed.

Lemma klt_pre : forall p a b, klt a b -> klt (p ++ a) (p ++ b).
Proof. induction p as [|x p IH]; intros a b H; [exact H|]. cbn [app klt]. right. split; auto. Qed.

Lemma klt_ext : forall a b x y, length a = length b -> klt a b -> klt (a ++ x) (b ++ y).
Proof.
  induction a as [|c a IH]; intros [|d b] x y HL H; cbn [klt] in H; try tauto; try discriminate.
  cbn [app klt]. destruct H as [H|[-> H]]; auto.
Qed.

Lemma real_val_klt : forall k q d len, is_bytes k -> is_bytes q -> firstn d k = firstn d q ->
  has_bits k d len = true -> has_bits q d len = true -> (real_val k d len < real_val q d len)%N -> klt k q.
Proof.
  intros k q d len Hk Hq HP B1 B2 H. unfold real_val in H. rewrite B1, B2 in H.
  unfold has_bits in B1, B2. pose proof (Nat.div_mod (len + 7) 8 ltac:(lia)) as DM.
  pose proof (Nat.mod_upper_bound (len + 7) 8 ltac:(lia)) as MB. set (m := (len + 7) / 8) in *.
  assert (L : (be_val (firstn m (skipn d k)) < be_val (firstn m (skipn d q)))%N).
  { destruct (N.lt_ge_cases (be_val (firstn m (skipn d k))) (be_val (firstn m (skipn d q)))) as [|G]; auto. exfalso.
    pose proof (N.div_le_mono _ _ (2 ^ N.of_nat (8 * m - len))%N ltac:(apply N.pow_nonzero; lia) G). lia. }
  rewrite <- (firstn_skipn d k), <- (firstn_skipn d q). rewrite HP. apply klt_pre.
  rewrite <- (firstn_skipn m (skipn d k)), <- (firstn_skipn m (skipn d q)). apply klt_ext.
  - rewrite !firstn_length, !skipn_length. lia.
  - apply be_val_lt; auto; try (apply is_bytes_firstn, is_bytes_skipn; auto).
    rewrite !firstn_length, !skipn_length. lia.
Qed.

(** a key that ends inside the bits of its real suffix *)
Definition ends_inside (k : bytes) (d len : nat) : Prop := d < length k /\ 8 * (length k - d) < len.

Lemma short_len : forall k d len, len <= 8 -> ~ ends_inside k d len.
Proof. intros k d len H [A B]. lia. Qed.

Lemma no_bits : forall k q d len, firstn d k = firstn d q -> has_bits k d len = false -> ~ ends_inside k d len ->
  has_bits q d len = true -> klt k q.
Proof.
  intros k q d len HP B1 HN B2. unfold has_bits, ends_inside in *.
  apply negb_true_iff, orb_false_iff in B2. destruct B2 as [B2 B3]. apply Nat.ltb_ge in B2, B3.
  apply negb_false_iff, orb_true_iff in B1.
  assert (length k <= d) as L.
  { destruct (Nat.le_gt_cases (length k) d) as [|G]; auto. exfalso. apply HN. split; auto.
    destruct B1 as [B1|B1]; apply Nat.ltb_lt in B1; lia. }
  rewrite (firstn_all2 k L) in HP. assert (LE : length k = Nat.min d (length q)) by (rewrite HP, firstn_length; reflexivity).
  assert (E : length k = d) by lia. apply (klt_of_olab d).
  - rewrite HP. rewrite firstn_firstn. f_equal. lia.
  - assert (Z : olab d k = 0) by (apply olab_zero; lia). rewrite Z.
    assert (len <> 0).
    { intros ->. destruct B1 as [B1|B1]; apply Nat.ltb_lt in B1; lia. }
    destruct (olab d q) eqn:EQ; [|apply Nat.lt_0_succ]. apply olab_zero in EQ. lia.
Qed.

(** the result of the comparison agrees with the order of the keys *)
Theorem cmp_neg : forall c k q d, is_bytes k -> is_bytes q -> firstn d k = firstn d q ->
  cmp_val c k q d = (-1)%Z -> ~ ends_inside k d (cf_rlen c) -> klt k q.
Proof.
  intros c k q d Hk Hq HP H HN. unfold cmp_val in H. destruct (has_real (cf_type c)); [|discriminate].
  destruct (N.eqb_spec (real_val k d (cf_rlen c)) (real_val q d (cf_rlen c))) as [E|E]; [discriminate|].
  assert (L : (real_val k d (cf_rlen c) < real_val q d (cf_rlen c))%N).
  { destruct (N.eqb_spec (real_val k d (cf_rlen c)) 0) as [Z|Z]; [lia|].
    cbn [orb] in H. destruct (N.ltb_spec (real_val k d (cf_rlen c)) (real_val q d (cf_rlen c))); [auto|discriminate]. }
  assert (B2 : has_bits q d (cf_rlen c) = true).
  { destruct (has_bits q d (cf_rlen c)) eqn:B; auto. unfold real_val at 2 in L. rewrite B in L. lia. }
  destruct (has_bits k d (cf_rlen c)) eqn:B1.
  - apply (real_val_klt k q d (cf_rlen c)); auto.
  - apply (no_bits k q d (cf_rlen c)); auto.
Qed.

Theorem cmp_pos : forall c k q d, is_bytes k -> is_bytes q -> firstn d k = firstn d q ->
  cmp_val c k q d = 1%Z -> ~ ends_inside q d (cf_rlen c) -> klt q k.
Proof.
  intros c k q d Hk Hq HP H HN. unfold cmp_val in H. destruct (has_real (cf_type c)); [|discriminate].
  destruct (N.eqb_spec (real_val k d (cf_rlen c)) (real_val q d (cf_rlen c))) as [E|E]; [discriminate|].
  destruct (N.eqb_spec (real_val k d (cf_rlen c)) 0) as [Z|Z]; [discriminate|]. cbn [orb] in H.
  destruct (N.ltb_spec (real_val k d (cf_rlen c)) (real_val q d (cf_rlen c))) as [L|L]; [discriminate|].
  assert (B1 : has_bits k d (cf_rlen c) = true).
  { destruct (has_bits k d (cf_rlen c)) eqn:B; auto. unfold real_val in Z. rewrite B in Z. lia. }
  destruct (has_bits q d (cf_rlen c)) eqn:B2.
  - apply (real_val_klt q k d (cf_rlen c)); auto. lia.
  - apply (no_bits q k d (cf_rlen c)); auto.
Qed.

Lemma cmp_cases : forall c k q d, cmp_val c k q d = kCouldBePositive \/ cmp_val c k q d = (-1)%Z \/ cmp_val c k q d = 1%Z.
Proof. intros. unfold cmp_val. destruct (has_real (cf_type c)); auto.
  destruct (real_val k d (cf_rlen c) =? real_val q d (cf_rlen c))%N; auto. destruct (_ || _); auto. Qed.

Lemma cmp_refl : forall c k d, cmp_val c k k d = kCouldBePositive.
Proof. intros. unfold cmp_val. rewrite N.eqb_refl. destruct (has_real _); reflexivity. Qed.

Lemma skip_skip : forall x y (l : list nat), skipn x (skipn y l) = skipn (x + y) l.
Proof.
  intros x y. induction y as [|y IH]; intros l; [rewrite Nat.add_0_r; reflexivity|].
  rewrite Nat.add_succ_r. destruct l as [|a l]; [destruct x; reflexivity|]. cbn [skipn]. apply IH.
Qed.

(** a query that ends where the suffix starts, or before it *)
Lemma real_val_skip : forall q d st len, st <= d -> st <= length q ->
  real_val (skipn st q) (d - st) len = real_val q d len.
Proof.
  intros q d st len H1 H2. unfold real_val, has_bits. rewrite skipn_length.
  assert (E : skipn (d - st) (skipn st q) = skipn d q).
  { rewrite skip_skip. replace (d - st + st) with d by lia. reflexivity. }
  rewrite E.
  replace (length q - st <? d - st) with (length q <? d).
  2: { destruct (Nat.ltb_spec (length q) d), (Nat.ltb_spec (length q - st) (d - st)); lia. }
  replace (length q - st - (d - st)) with (length q - d) by lia. reflexivity.
Qed.
