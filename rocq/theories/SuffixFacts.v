(** Suffix values: what is constructed, stored and read back. *)
From Coq Require Import Arith List NArith ZArith Bool Lia ZifyN ZifyNat ZifyBool.
From Verif Require Import Res Word Config Hash BitFacts WordFacts Bitvector BitvectorFacts Suffix Spec.
Import ListNotations.

(** big-endian value of a byte string *)
Definition be_val (l : list nat) : N := fold_left (fun s c => (s * 256 + N.of_nat c)%N) l 0%N.

(** bits 7 .. 7+len-1 of the hash; from 58 bits on the shift count wraps and
    only the lowest [len] - 57 bits are left *)
Definition hash_val (k : bytes) (len : nat) : N :=
  if len <=? 57 then ((suffixHash k / 128) mod 2 ^ N.of_nat len)%N
  else ((suffixHash k mod 2 ^ N.of_nat (len - 57)) * 2 ^ 57)%N.

Definition has_bits (k : bytes) (level len : nat) : bool :=
  negb ((length k <? level) || ((length k - level) * 8 <? len)).

(** the first [len] bits of the key from byte [level] on, or 0 *)
Definition real_val (k : bytes) (level len : nat) : N :=
  if has_bits k level len
  then (be_val (firstn ((len + 7) / 8) (skipn level k)) / 2 ^ N.of_nat (8 * ((len + 7) / 8) - len))%N
  else 0%N.

Definition suf_val (t : suffix_type) (k : bytes) (hlen level rlen : nat) : N :=
  match t with
  | kNone => 0%N
  | kHash => hash_val k hlen
  | kReal => real_val k level rlen
  | kMixed => (hash_val k hlen * 2 ^ N.of_nat rlen + real_val k level rlen)%N
  end.

(** suffix lengths for which the constructors are well defined *)
Definition lens_ok (t : suffix_type) (hlen rlen : nat) : Prop :=
  hlen + rlen <= 64 /\
  match t with
  | kNone => True
  | kHash => 1 <= hlen
  | kReal => 1 <= rlen
  | kMixed => 1 <= hlen
  end.

Lemma pow2_pos : forall n, (0 < 2 ^ n)%N.
Proof. intros. pose proof (N.pow_nonzero 2 n). lia. Qed.

Lemma pow2_le : forall a b, a <= b -> (2 ^ N.of_nat a <= 2 ^ N.of_nat b)%N.
Proof. intros. apply N.pow_le_mono_r; lia. Qed.

Lemma pow2_add : forall a b, (2 ^ N.of_nat (a + b) = 2 ^ N.of_nat a * 2 ^ N.of_nat b)%N.
Proof. intros. rewrite Nat2N.inj_add. apply N.pow_add_r. Qed.

Lemma wrap64_id : forall w, word_ok w -> wrap64 w = w.
Proof. intros. unfold wrap64. rewrite two64_pow. apply N.mod_small. auto. Qed.

Lemma word_le : forall w n, n <= 64 -> (w < 2 ^ N.of_nat n)%N -> word_ok w.
Proof.
  intros w n H Hw. unfold word_ok. eapply N.lt_le_trans; [exact Hw|].
  change (2 ^ 64)%N with (2 ^ N.of_nat 64)%N. apply pow2_le. auto.
Qed.

Lemma sub32_ok : forall a b, (b <= a)%N -> (a < two32)%N -> sub32 a b = (a - b)%N.
Proof.
  intros. unfold sub32, wrap32. replace (a + two32 - b)%N with ((a - b) + 1 * two32)%N by lia.
  rewrite N.mod_add by (unfold two32; lia). apply N.mod_small. lia.
Qed.

Lemma hash_suffix_spec : forall e k len, strict_shift e = false -> 1 <= len <= 64 ->
  constructHashSuffix e k len = Ok (hash_val k len).
Proof.
  intros e k len HS H. unfold constructHashSuffix. change (N.of_nat kHashShift) with 7%N.
  rewrite (sub32_ok 64) by (unfold two32; lia). unfold hash_val. destruct (Nat.leb_spec len 57) as [L57|L57].
  - rewrite sub32_ok by (unfold two32; lia).
    unfold shl64. replace (64 - N.of_nat len - 7 <? 64)%N with true by lia. cbn [bind].
    unfold shr64. replace (64 - N.of_nat len <? 64)%N with true by lia. f_equal.
    unfold wrap64. rewrite two64_pow. apply N.bits_inj. intros i.
    rewrite N.shiftr_spec by lia.
    change 128%N with (2 ^ 7)%N. rewrite <- (N.shiftr_div_pow2 _ 7).
    destruct (N.ltb_spec i (N.of_nat len)) as [L|L].
    + rewrite N.mod_pow2_bits_low by lia. rewrite N.mod_pow2_bits_low by lia.
      rewrite N.shiftl_spec_high by lia. rewrite N.shiftr_spec by lia. f_equal. lia.
    + rewrite N.mod_pow2_bits_high by lia. rewrite N.mod_pow2_bits_high by lia. reflexivity.
  - assert (E : sub32 (64 - N.of_nat len) 7 = (two32 - 64 + (121 - N.of_nat len))%N).
    { unfold sub32, wrap32. rewrite N.mod_small by (unfold two32; lia). unfold two32. lia. }
    assert (E2 : ((two32 - 64 + (121 - N.of_nat len)) mod 64 = 121 - N.of_nat len)%N).
    { replace (two32 - 64 + (121 - N.of_nat len))%N with ((121 - N.of_nat len) + 67108863 * 64)%N by (unfold two32; lia).
      rewrite N.mod_add by lia. apply N.mod_small. lia. }
    rewrite E. unfold shl64. rewrite HS, E2.
    replace (two32 - 64 + (121 - N.of_nat len) <? 64)%N with false by (unfold two32; lia). cbn [bind].
    unfold shr64. replace (64 - N.of_nat len <? 64)%N with true by lia. f_equal.
    unfold wrap64. rewrite two64_pow, <- N.shiftl_mul_pow2. apply N.bits_inj. intros i.
    rewrite N.shiftr_spec by lia.
    destruct (N.ltb_spec i (N.of_nat len)) as [L|L].
    + rewrite N.mod_pow2_bits_low by lia. destruct (N.ltb_spec i 57) as [M|M].
      * rewrite !N.shiftl_spec_low by lia. reflexivity.
      * rewrite !N.shiftl_spec_high by lia. rewrite N.mod_pow2_bits_low by lia. f_equal. lia.
    + rewrite N.mod_pow2_bits_high by lia. rewrite N.shiftl_spec_high by lia. rewrite N.mod_pow2_bits_high by lia. reflexivity.
Qed.

Lemma be_val_app : forall a c, be_val (a ++ [c]) = (be_val a * 256 + N.of_nat c)%N.
Proof. intros. unfold be_val. rewrite fold_left_app. reflexivity. Qed.

Lemma be_val_bound : forall l, is_bytes l -> (be_val l < 2 ^ N.of_nat (8 * length l))%N.
Proof.
  intros l. induction l as [|c l IH] using rev_ind; intros H.
  - reflexivity.
  - unfold is_bytes in H. apply Forall_app in H. destruct H as [Hl Hc]. inv Hc.
    rewrite be_val_app, app_length. cbn [length].
    replace (8 * (length l + 1)) with (8 * length l + 8) by lia. rewrite pow2_add.
    change (2 ^ N.of_nat 8)%N with 256%N. specialize (IH Hl). nia.
Qed.

Lemma is_bytes_app : forall a b, is_bytes (a ++ b) <-> is_bytes a /\ is_bytes b.
Proof. intros. apply Forall_app. Qed.

Lemma is_bytes_firstn : forall n k, is_bytes k -> is_bytes (firstn n k).
Proof. intros n k H. rewrite <- (firstn_skipn n k) in H. apply is_bytes_app in H. tauto. Qed.

Lemma is_bytes_skipn : forall n k, is_bytes k -> is_bytes (skipn n k).
Proof. intros n k H. rewrite <- (firstn_skipn n k) in H. apply is_bytes_app in H. tauto. Qed.

Lemma nth_error_skipn : forall (A : Type) (l : list A) n i, nth_error (skipn n l) i = nth_error l (n + i).
Proof.
  induction l as [|x l IH]; intros n i; destruct n; simpl; auto. destruct i; auto.
Qed.

Lemma firstn_S_snoc : forall (A : Type) (l : list A) n x, nth_error l n = Some x ->
  firstn (S n) l = firstn n l ++ [x].
Proof.
  induction l as [|y l IH]; intros n x H; destruct n; simpl in *; try discriminate.
  - inv H. reflexivity.
  - f_equal. apply IH. auto.
Qed.

Lemma real_loop : forall k level m s, is_bytes k -> level + s + m <= length k -> s + m <= 8 ->
  foldM (fun s i => c <- char_at k (level + i) ;;
                    Ok (wrap64 (wrap64 (N.shiftl s 8) + N.of_nat c)))
    (seq s m) (be_val (firstn s (skipn level k)))
  = Ok (be_val (firstn (s + m) (skipn level k))).
Proof.
  intros k level m. induction m as [|m IH]; intros s Hk Hl H8.
  - simpl. rewrite Nat.add_0_r. reflexivity.
  - cbn [seq foldM]. unfold char_at at 1.
    destruct (nth_error k (level + s)) as [c|] eqn:E; [|apply nth_error_None in E; lia].
    cbn [bind].
    assert (E2 : firstn (S s) (skipn level k) = firstn s (skipn level k) ++ [c]).
    { apply firstn_S_snoc. rewrite nth_error_skipn. auto. }
    assert (HB : (be_val (firstn (S s) (skipn level k)) < 2 ^ 64)%N).
    { pose proof (be_val_bound (firstn (S s) (skipn level k)) (is_bytes_firstn _ _ (is_bytes_skipn _ _ Hk))) as B.
      eapply N.lt_le_trans; [exact B|]. change (2 ^ 64)%N with (2 ^ N.of_nat 64)%N. apply pow2_le.
      rewrite firstn_length. lia. }
    rewrite E2, be_val_app in HB.
    replace (wrap64 (wrap64 (N.shiftl (be_val (firstn s (skipn level k))) 8) + N.of_nat c))
      with (be_val (firstn (S s) (skipn level k))).
    + rewrite IH by (auto; lia). replace (S s + m) with (s + S m) by lia. reflexivity.
    + rewrite E2, be_val_app, N.shiftl_mul_pow2. change (2 ^ 8)%N with 256%N.
      set (v := be_val (firstn s (skipn level k))) in *. clearbody v.
      assert (HV : (v * 256 < 2 ^ 64)%N) by lia.
      unfold wrap64. rewrite two64_pow. rewrite (N.mod_small (v * 256)) by exact HV.
      rewrite N.mod_small by exact HB. reflexivity.
Qed.

Lemma real_suffix_spec : forall k level len, is_bytes k -> len <= 64 ->
  constructRealSuffix k level len = Ok (real_val k level len).
Proof.
  intros k level len Hk Hlen. unfold constructRealSuffix, real_val, has_bits.
  destruct ((length k <? level) || ((length k - level) * 8 <? len)) eqn:EB; [reflexivity|].
  cbn [negb]. pose proof (Nat.div_mod len 8 ltac:(lia)) as DM.
  pose proof (Nat.mod_upper_bound len 8 ltac:(lia)) as MB.
  set (m := len / 8) in *. set (o := len mod 8) in *.
  assert (HS : (if 0 <? m then
                 c <- char_at k level ;;
                 foldM (fun s i => c <- char_at k (level + i) ;;
                                   Ok (wrap64 (wrap64 (N.shiftl s 8) + N.of_nat c)))
                   (seq 1 (m - 1)) (N.of_nat c)
               else Ok 0%N) = Ok (be_val (firstn m (skipn level k)))).
  { destruct (Nat.ltb_spec 0 m) as [L|L].
    - unfold char_at at 1. destruct (nth_error k level) as [c|] eqn:E; [|apply nth_error_None in E; lia].
      cbn [bind].
      replace (N.of_nat c) with (be_val (firstn 1 (skipn level k))).
      + rewrite real_loop by (auto; lia). replace (1 + (m - 1)) with m by lia. reflexivity.
      + rewrite (firstn_S_snoc _ _ 0 c) by (rewrite nth_error_skipn, Nat.add_0_r; auto).
        cbn [firstn app]. unfold be_val. cbn [fold_left]. lia.
    - replace m with 0 by lia. reflexivity. }
  rewrite HS. cbn [bind]. clear HS.
  destruct (Nat.ltb_spec 0 o) as [L|L].
  - unfold char_at. destruct (nth_error k (level + m)) as [c|] eqn:E; [|apply nth_error_None in E; lia].
    cbn [bind]. f_equal.
    replace ((len + 7) / 8) with (S m) by (apply Nat.div_unique with (o - 1); lia).
    rewrite (firstn_S_snoc _ _ m c) by (rewrite nth_error_skipn; auto). rewrite be_val_app.
    pose proof (be_val_bound (firstn m (skipn level k)) (is_bytes_firstn _ _ (is_bytes_skipn _ _ Hk))) as B.
    rewrite firstn_length, skipn_length in B. replace (Nat.min m (length k - level)) with m in B by lia.
    assert (Hc : c < 256).
    { apply nth_error_In in E. unfold is_bytes in Hk. rewrite Forall_forall in Hk. apply (Hk c E). }
    set (s := be_val (firstn m (skipn level k))) in *.
    replace (8 * S m - len) with (8 - o) by lia.
    rewrite N.shiftl_mul_pow2, N.shiftr_div_pow2.
    assert (P : (256 = 2 ^ N.of_nat o * 2 ^ N.of_nat (8 - o))%N).
    { rewrite <- pow2_add. replace (o + (8 - o)) with 8 by lia. reflexivity. }
    pose proof (pow2_pos (N.of_nat o)) as Po. pose proof (pow2_pos (N.of_nat (8 - o))) as P8.
    assert (Q : ((s * 256 + N.of_nat c) / 2 ^ N.of_nat (8 - o) =
                s * 2 ^ N.of_nat o + N.of_nat c / 2 ^ N.of_nat (8 - o))%N).
    { rewrite P, N.mul_assoc, N.div_add_l by lia. reflexivity. }
    rewrite Q.
    assert (R : (N.of_nat c / 2 ^ N.of_nat (8 - o) < 2 ^ N.of_nat o)%N).
    { apply N.div_lt_upper_bound; lia. }
    assert (T : (s * 2 ^ N.of_nat o + N.of_nat c / 2 ^ N.of_nat (8 - o) < 2 ^ 64)%N).
    { apply N.lt_le_trans with (2 ^ N.of_nat (8 * m + o))%N; [rewrite pow2_add; nia|].
      change (2 ^ 64)%N with (2 ^ N.of_nat 64)%N. apply pow2_le. lia. }
    assert (T1 : (s * 2 ^ N.of_nat o < 2 ^ 64)%N) by (eapply N.le_lt_trans; [|exact T]; apply N.le_add_r).
    unfold wrap64. rewrite two64_pow, (N.mod_small _ _ T1), (N.mod_small _ _ T). reflexivity.
  - f_equal. replace ((len + 7) / 8) with m by (apply Nat.div_unique with 7; lia).
    replace (8 * m - len) with 0 by lia. change (2 ^ N.of_nat 0)%N with 1%N. rewrite N.div_1_r. reflexivity.
Qed.

Lemma real_val_bound : forall k level len, is_bytes k -> (real_val k level len < 2 ^ N.of_nat len)%N.
Proof.
  intros k level len Hk. unfold real_val. destruct (has_bits k level len) eqn:E; [|apply pow2_pos].
  unfold has_bits in E.
  pose proof (Nat.div_mod (len + 7) 8 ltac:(lia)) as DM.
  pose proof (Nat.mod_upper_bound (len + 7) 8 ltac:(lia)) as MB.
  set (m := (len + 7) / 8) in *.
  pose proof (be_val_bound (firstn m (skipn level k)) (is_bytes_firstn _ _ (is_bytes_skipn _ _ Hk))) as B.
  rewrite firstn_length, skipn_length in B. replace (Nat.min m (length k - level)) with m in B by lia.
  apply N.div_lt_upper_bound; [pose proof (pow2_pos (N.of_nat (8 * m - len))); lia|].
  rewrite <- pow2_add. replace (8 * m - len + len) with (8 * m) by lia. auto.
Qed.

Lemma hash_val_bound : forall k len, (hash_val k len < 2 ^ N.of_nat len)%N.
Proof.
  intros. unfold hash_val. destruct (Nat.leb_spec len 57) as [L|L].
  - apply N.mod_lt. pose proof (pow2_pos (N.of_nat len)). lia.
  - pose proof (N.mod_lt (suffixHash k) (2 ^ N.of_nat (len - 57))) as B.
    pose proof (pow2_pos (N.of_nat (len - 57))) as P. specialize (B ltac:(lia)).
    replace len with ((len - 57) + 57) at 2 by lia. rewrite pow2_add. change (2 ^ N.of_nat 57)%N with (2 ^ 57)%N.
    apply N.mul_lt_mono_pos_r; [reflexivity|exact B].
Qed.

Lemma mixed_suffix_spec : forall e k hl level rl, strict_shift e = false -> is_bytes k -> 1 <= hl -> hl + rl <= 64 ->
  constructMixedSuffix e k hl level rl = Ok (suf_val kMixed k hl level rl).
Proof.
  intros e k hl level rl HS Hk Hh Hr. unfold constructMixedSuffix.
  rewrite hash_suffix_spec, real_suffix_spec by (auto; lia). cbn [bind].
  unfold shl64. replace (N.of_nat rl <? 64)%N with true by lia. cbn [bind]. f_equal.
  pose proof (hash_val_bound k hl) as B1. pose proof (real_val_bound k level rl Hk) as B2.
  cbn [suf_val]. rewrite N.shiftl_mul_pow2.
  assert (T : (hash_val k hl * 2 ^ N.of_nat rl + real_val k level rl < 2 ^ N.of_nat (hl + rl))%N)
    by (rewrite pow2_add; nia).
  assert (T2 : (hash_val k hl * 2 ^ N.of_nat rl + real_val k level rl < 2 ^ 64)%N).
  { apply N.lt_le_trans with (1 := T). change (2 ^ 64)%N with (2 ^ N.of_nat 64)%N. apply pow2_le. lia. }
  assert (T3 : (hash_val k hl * 2 ^ N.of_nat rl < 2 ^ 64)%N) by (eapply N.le_lt_trans; [|exact T2]; apply N.le_add_r).
  unfold wrap64. rewrite two64_pow, (N.mod_small _ _ T3).
  rewrite <- N.lxor_lor, <- N.add_nocarry_lxor; auto.
  - apply N.bits_inj_0. intros i. rewrite N.land_spec.
    destruct (N.ltb_spec i (N.of_nat rl)) as [L|L].
    + rewrite <- N.shiftl_mul_pow2, N.shiftl_spec_low by lia. reflexivity.
    + rewrite (testbit_high_N (real_val k level rl) (N.of_nat rl)) by auto. apply andb_false_r.
  - apply N.bits_inj_0. intros i. rewrite N.land_spec.
    destruct (N.ltb_spec i (N.of_nat rl)) as [L|L].
    + rewrite <- N.shiftl_mul_pow2, N.shiftl_spec_low by lia. reflexivity.
    + rewrite (testbit_high_N (real_val k level rl) (N.of_nat rl)) by auto. apply andb_false_r.
Qed.

Lemma suffix_spec : forall e t k hl level rl, strict_shift e = false -> is_bytes k -> lens_ok t hl rl ->
  constructSuffix e t k hl level rl = Ok (suf_val t k hl level rl).
Proof.
  intros e t k hl level rl HS Hk [H1 H2]. destruct t; cbn [constructSuffix].
  - reflexivity.
  - apply hash_suffix_spec; auto. lia.
  - apply real_suffix_spec; auto. lia.
  - apply mixed_suffix_spec; auto.
Qed.

Lemma suf_val_bound : forall t k hl level rl, is_bytes k ->
  (suf_val t k hl level rl < 2 ^ N.of_nat (hl + rl))%N.
Proof.
  intros t k hl level rl Hk. pose proof (hash_val_bound k hl). pose proof (real_val_bound k level rl Hk).
  rewrite pow2_add. pose proof (pow2_pos (N.of_nat hl)). pose proof (pow2_pos (N.of_nat rl)).
  destruct t; cbn [suf_val]; nia.
Qed.

(** ** bits of sums *)

Lemma word_bits_ext : forall a b, word_ok a -> word_ok b -> bits64 a = bits64 b -> a = b.
Proof. intros. apply (word_ext a b 64); auto. Qed.

Lemma add_disjoint : forall a b, word_ok a -> word_ok b ->
  (forall i, i < 64 -> nth i (bits64 a) false && nth i (bits64 b) false = false) ->
  wrap64 (a + b) = N.lor a b.
Proof.
  intros a b Ha Hb H.
  assert (L : N.land a b = 0%N).
  { apply N.bits_inj_0. intros i. rewrite N.land_spec.
    destruct (N.ltb_spec i 64) as [G|G].
    - specialize (H (63 - N.to_nat i) ltac:(lia)). rewrite !bits64_nth in H by lia.
      replace (N.of_nat (63 - (63 - N.to_nat i))) with i in H by lia. auto.
    - rewrite (testbit_high_N a 64) by auto. reflexivity. }
  rewrite (N.add_nocarry_lxor _ _ L), (N.lxor_lor _ _ L). apply wrap64_id. apply lor_ok; auto.
Qed.

Lemma bits64_small : forall v n, n <= 64 -> (v < 2 ^ N.of_nat n)%N ->
  bits64 v = repeat false (64 - n) ++ bitsn n v.
Proof.
  intros v n H Hv. unfold bits64. replace 64 with ((64 - n) + n) at 1 by lia.
  rewrite bitsn_app. f_equal. rewrite N.shiftr_div_pow2, N.div_small by auto. apply bitsn_zero.
Qed.

(** ** reading *)

(** [s] stores the values [vs], each with the full suffix length *)
Definition suf_ok (s : bvsuffix) (vs : list N) : Prop :=
  let slen := sf_len s in
  1 <= slen <= 64 /\
  Forall (fun v => (v < 2 ^ N.of_nat slen)%N) vs /\
  repr (sf_bv s) (flat_map (bitsn slen) vs) /\
  fits32 (N.of_nat (slen * length vs)) = true.

Lemma flat_bits_length : forall slen vs, length (flat_map (bitsn slen) vs) = slen * length vs.
Proof.
  induction vs as [|v vs IH]; simpl; [lia|]. rewrite app_length, bitsn_length, IH. lia.
Qed.

Lemma flat_bits_nth : forall slen vs i j, i < length vs -> j < slen ->
  nth (i * slen + j) (flat_map (bitsn slen) vs) false = nth j (bitsn slen (nth i vs 0%N)) false.
Proof.
  induction vs as [|v vs IH]; intros i j Hi Hj; simpl in Hi; [lia|].
  cbn [flat_map]. destruct i.
  - rewrite app_nth1 by (rewrite bitsn_length; lia). reflexivity.
  - rewrite app_nth2 by (rewrite bitsn_length; lia). rewrite bitsn_length.
    replace (S i * slen + j - slen) with (i * slen + j) by lia. apply IH; lia.
Qed.

Lemma fits32_lt : forall n, fits32 n = true <-> (n < 4294967296)%N.
Proof. intros. apply N.ltb_lt. Qed.

Lemma wrap32_small : forall n, (n < 4294967296)%N -> wrap32 n = n.
Proof. intros. apply N.mod_small. auto. Qed.

Lemma suf_bitpos_spec : forall s vs i, suf_ok s vs -> i <= length vs ->
  suf_bitpos s (N.of_nat i) = N.of_nat (i * sf_len s).
Proof.
  intros s vs i (Hl & _ & _ & Hf) Hi. unfold suf_bitpos. apply fits32_lt in Hf.
  rewrite <- Nat2N.inj_mul. apply wrap32_small. eapply N.le_lt_trans; [|exact Hf].
  assert (i * sf_len s <= sf_len s * length vs) by nia. lia.
Qed.

Lemma suf_nbits : forall s vs, suf_ok s vs -> bv_nbits (sf_bv s) = sf_len s * length vs.
Proof. intros s vs (_ & _ & (H & _) & _). rewrite H. apply flat_bits_length. Qed.

Lemma suf_read_eq : forall e s idx, sf_type s <> kNone -> suf_read e s idx =
      let suffix_len := N.of_nat (sf_len s) in
      let bit_pos := suf_bitpos s idx in
      if (N.of_nat (bv_nbits (sf_bv s)) <=? bit_pos)%N then Ok 0%N
      else
        let word_id := N.to_nat (bit_pos / 64) in
        let offset := (bit_pos mod 64)%N in
        w <- wread e (bv_words (sf_bv s)) word_id ;;
        ret_word <- shr64 e (wrap64 (N.shiftl w offset)) (sub32 64 suffix_len) ;;
        if (64 <? offset + suffix_len)%N then
          w2 <- wread e (bv_words (sf_bv s)) (word_id + 1) ;;
          r2 <- shr64 e w2 (sub32 (sub32 64 offset) suffix_len) ;;
          Ok (wrap64 (ret_word + r2))
        else Ok ret_word.
Proof. intros e s idx H. unfold suf_read. destruct (sf_type s); congruence. Qed.

Lemma suf_read_spec : forall e s vs i, strict_shift e = false -> sf_type s <> kNone -> suf_ok s vs ->
  i < length vs -> suf_read e s (N.of_nat i) = Ok (nth i vs 0%N).
Proof.
  intros e s vs i He Ht Hok Hi. rewrite suf_read_eq by auto. cbv zeta.
  pose proof (suf_bitpos_spec s vs i Hok ltac:(lia)) as HP.
  pose proof (suf_nbits s vs Hok) as HN.
  destruct Hok as (Hl & Hv & Hr & Hf). set (slen := sf_len s) in *.
  rewrite HP.
  replace (N.of_nat (bv_nbits (sf_bv s)) <=? N.of_nat (i * slen))%N with false by nia.
  pose proof (repr_len _ _ Hr) as HL. rewrite flat_bits_length in HL.
  assert (HI : i * slen + slen <= slen * length vs) by nia.
  assert (HB : forall j, j < slen -> nth (i * slen + j) (bits_of (bv_words (sf_bv s))) false
                = nth j (bitsn slen (nth i vs 0%N)) false)
     by (intros j Hj; rewrite (repr_nth _ _ _ Hr); apply flat_bits_nth; auto).
  set (p := i * slen) in *.
  replace (N.to_nat (N.of_nat p / 64)) with (p / 64) by lia.
  pose proof (Nat.div_mod p 64 ltac:(lia)) as DM.
  pose proof (Nat.mod_upper_bound p 64 ltac:(lia)) as MB.
  replace (N.of_nat p mod 64)%N with (N.of_nat (p mod 64)) by lia.
  set (wi := p / 64) in *. set (o := p mod 64) in *.
  assert (Hwi : wi < length (bv_words (sf_bv s))) by lia.
  assert (Hv1 : (nth i vs 0%N < 2 ^ N.of_nat slen)%N)
     by (rewrite Forall_forall in Hv; apply Hv, nth_In; auto).
  assert (Hok1 : Forall word_ok (bv_words (sf_bv s))) by (destruct Hr as (_ & G & _); exact G).
  rewrite wread_ok by auto. cbn [bind].
  set (w1 := nth wi (bv_words (sf_bv s)) 0%N) in *.
  rewrite (sub32_ok 64) by (unfold two32; lia).
  unfold shr64 at 1. replace (64 - N.of_nat slen <? 64)%N with true by lia. cbn [bind].
  replace (64 - N.of_nat slen)%N with (N.of_nat (64 - slen)) by lia.
  set (r1 := N.shiftr (wrap64 (N.shiftl w1 (N.of_nat o))) (N.of_nat (64 - slen))).
  assert (Hr1 : word_ok r1) by (apply shiftr_ok, wrap64_ok).
  assert (B1 : bits64 r1 = repeat false (64 - slen) ++ firstn slen (skipn o (bits64 w1) ++ repeat false o)).
  { unfold r1. rewrite bits64_shiftr by (try apply wrap64_ok; lia).
    rewrite bits64_shiftl by lia. replace (64 - (64 - slen)) with slen by lia. reflexivity. }
  assert (W1 : forall j, o + j < 64 -> nth (o + j) (bits64 w1) false = nth (p + j) (bits_of (bv_words (sf_bv s))) false).
  { intros j Hj. rewrite bits_of_nth.
    replace ((p + j) / 64) with wi by (apply Nat.div_unique with (o + j); lia).
    replace ((p + j) mod 64) with (o + j) by (apply Nat.mod_unique with wi; lia). reflexivity. }
  clearbody r1 w1.
  destruct (N.ltb_spec 64 (N.of_nat o + N.of_nat slen)) as [G|G].
  2:{ f_equal. apply word_bits_ext; auto; [apply (word_le _ slen); auto; lia|].
    rewrite B1, (bits64_small (nth i vs 0%N) slen) by (auto; lia). f_equal.
    apply list_ext with (d := false);
    [rewrite firstn_length, app_length, skipn_length, bits64_length, repeat_length, bitsn_length; lia|].
    rewrite firstn_length, app_length, skipn_length, bits64_length, repeat_length.
    intros j Hj. rewrite nth_firstn' by lia.
    rewrite app_nth1 by (rewrite skipn_length, bits64_length; lia).
    rewrite nth_skipn', W1 by lia. apply HB. lia. }
  assert (Hw2 : wi + 1 < length (bv_words (sf_bv s))) by lia.
  rewrite wread_ok by auto. cbn [bind].
  assert (Hok2 : word_ok (nth (wi + 1) (bv_words (sf_bv s)) 0%N)) by (apply nth_Forall_ok; auto).
  assert (W2 : forall j, j < 64 -> nth j (bits64 (nth (wi + 1) (bv_words (sf_bv s)) 0%N)) false = nth (p + (64 - o) + j) (bits_of (bv_words (sf_bv s))) false).
  { intros j Hj. rewrite bits_of_nth.
    replace ((p + (64 - o) + j) / 64) with (wi + 1) by (apply Nat.div_unique with j; lia).
    replace ((p + (64 - o) + j) mod 64) with j by (apply Nat.mod_unique with (wi + 1); lia). reflexivity. }
  set (w2 := nth (wi + 1) (bv_words (sf_bv s)) 0%N) in *. clearbody w2.
  rewrite (sub32_ok 64 (N.of_nat o)) by (unfold two32; lia).
  assert (EV : sub32 (64 - N.of_nat o) (N.of_nat slen) = (4294967296 + 64 - N.of_nat o - N.of_nat slen)%N).
  { unfold sub32. change two32 with 4294967296%N. rewrite wrap32_small by lia. lia. }
  rewrite EV. unfold shr64.
  replace (4294967296 + 64 - N.of_nat o - N.of_nat slen <? 64)%N with false by lia.
  rewrite He. cbn [bind].
  replace ((4294967296 + 64 - N.of_nat o - N.of_nat slen) mod 64)%N with (N.of_nat (128 - o - slen)).
  2:{ apply N.mod_unique with 67108863%N; lia. }
  assert (B2 : bits64 (N.shiftr w2 (N.of_nat (128 - o - slen))) =
      repeat false (128 - o - slen) ++ firstn (64 - (128 - o - slen)) (bits64 w2))
      by (apply bits64_shiftr; auto; lia).
  assert (Hr2 : word_ok (N.shiftr w2 (N.of_nat (128 - o - slen)))) by (apply shiftr_ok; auto).
  set (r2 := N.shiftr w2 (N.of_nat (128 - o - slen))) in *. clearbody r2.
  assert (N1 : forall j, j < 64 -> nth j (bits64 r1) false =
      if (64 - slen <=? j) && (j <? 128 - o - slen) then nth (j - (64 - slen)) (bitsn slen (nth i vs 0%N)) false else false).
  { intros j Hj. rewrite B1. destruct (Nat.leb_spec (64 - slen) j) as [J1|J1].
    - rewrite app_nth2 by (rewrite repeat_length; lia). rewrite repeat_length, nth_firstn' by lia.
      destruct (Nat.ltb_spec j (128 - o - slen)) as [J2|J2]; cbn [andb].
      + rewrite app_nth1 by (rewrite skipn_length, bits64_length; lia).
        rewrite nth_skipn', W1 by lia. apply HB. lia.
      + rewrite app_nth2 by (rewrite skipn_length, bits64_length; lia). apply nth_repeat.
    - rewrite app_nth1 by (rewrite repeat_length; lia). apply nth_repeat. }
  assert (N2 : forall j, j < 64 -> nth j (bits64 r2) false =
      if (128 - o - slen <=? j) then nth (j - (64 - slen)) (bitsn slen (nth i vs 0%N)) false else false).
  { intros j Hj. rewrite B2. destruct (Nat.leb_spec (128 - o - slen) j) as [J1|J1].
    - rewrite app_nth2 by (rewrite repeat_length; lia). rewrite repeat_length, nth_firstn' by lia.
      rewrite W2 by lia.
      replace (p + (64 - o) + (j - (128 - o - slen))) with (p + (j - (64 - slen))) by lia.
      apply HB. lia.
    - rewrite app_nth1 by (rewrite repeat_length; lia). apply nth_repeat. }
  f_equal. rewrite add_disjoint; auto.
  - apply word_bits_ext; [apply lor_ok; auto|apply (word_le _ slen); auto; lia|].
    apply list_ext with (d := false); [rewrite !bits64_length; reflexivity|].
    rewrite bits64_length. intros j Hj. rewrite bits64_lor_nth, N1, N2 by auto.
    rewrite (bits64_small (nth i vs 0%N) slen) by (auto; lia).
    destruct (Nat.leb_spec (64 - slen) j) as [J1|J1].
    + rewrite app_nth2 by (rewrite repeat_length; lia). rewrite repeat_length.
      destruct (Nat.ltb_spec j (128 - o - slen)) as [J2|J2], (Nat.leb_spec (128 - o - slen) j) as [J3|J3];
        try lia; cbn [andb orb]; rewrite ?orb_false_r; reflexivity.
    + rewrite app_nth1 by (rewrite repeat_length; lia). rewrite nth_repeat.
      destruct (Nat.leb_spec (128 - o - slen) j) as [J3|J3]; [lia|reflexivity].
  - intros j Hj. rewrite N1, N2 by auto.
    destruct (Nat.ltb_spec j (128 - o - slen)) as [J2|J2], (Nat.leb_spec (128 - o - slen) j) as [J3|J3]; try lia;
    rewrite ?andb_false_r; reflexivity.
Qed.
