(** Round trip of serialization, class by class. *)
From Coq Require Import Arith List NArith Bool Lia.
From Verif Require Import Res Word Config Bitvector Rank Select LabelVector Suffix Builder Dense Sparse Surf Serialize
  Spec WordFacts IntKeys.
Import ListNotations.

(** ** numbers *)
Definition up8 (n : nat) : nat := 8 * ((n + 7) / 8).

Lemma up8_bounds : forall n, n <= up8 n /\ up8 n < n + 8.
Proof. intros n. unfold up8. pose proof (Nat.div_mod (n + 7) 8 ltac:(lia)). pose proof (Nat.mod_upper_bound (n + 7) 8 ltac:(lia)). lia. Qed.
Lemma up8_add : forall m n, up8 (8 * m + n) = 8 * m + up8 n.
Proof. intros m n. unfold up8. replace (8 * m + n + 7) with (n + 7 + m * 8) by lia. rewrite Nat.div_add by lia. lia. Qed.
Lemma up8_mul : forall n, exists m, up8 n = 8 * m.
Proof. intros n. exists ((n + 7) / 8). reflexivity. Qed.
Lemma up8_id : forall m, up8 (8 * m) = 8 * m.
Proof. intros m. pose proof (up8_add m 0) as H. rewrite Nat.add_0_r in H. rewrite H. cbn. lia. Qed.

(** clearing the low three bits *)
Lemma land_low3 : forall w x, (3 <= w)%N -> (x < 2 ^ w)%N -> N.land x (2 ^ w - 8) = (8 * (x / 8))%N.
Proof.
  intros w x Hw Hx. change 8%N with (2 ^ 3)%N at 2 3. rewrite N.mul_comm, <- N.shiftr_div_pow2, <- N.shiftl_mul_pow2.
  assert (E : (2 ^ w - 8 = N.shiftl (N.ones (w - 3)) 3)%N).
  { rewrite N.shiftl_mul_pow2, N.ones_equiv. replace w with ((w - 3) + 3)%N at 1 by lia. rewrite N.pow_add_r.
    change (2 ^ 3)%N with 8%N. pose proof (N.pow_nonzero 2 (w - 3) ltac:(lia)). lia. }
  rewrite E. apply N.bits_inj. intros i. rewrite N.land_spec. destruct (N.lt_ge_cases i 3) as [L|L].
  - rewrite !N.shiftl_spec_low by lia. apply andb_false_r.
  - rewrite !N.shiftl_spec_high by lia. rewrite N.shiftr_spec by lia. replace (i - 3 + 3)%N with i by lia.
    destruct (N.lt_ge_cases i w) as [L2|L2].
    + rewrite N.ones_spec_low by lia. apply andb_true_r.
    + rewrite (N.bits_above_log2 x i).
      * reflexivity.
      * destruct (N.eq_dec x 0) as [->|]; [cbn; lia|]. apply N.log2_lt_pow2; [lia|].
        eapply N.lt_le_trans; [exact Hx|]. apply N.pow_le_mono_r; lia.
Qed.

Lemma up8_N : forall n, N.of_nat (up8 n) = (8 * ((N.of_nat n + 7) / 8))%N.
Proof. intros n. unfold up8. rewrite Nat2N.inj_mul, Nat2N.inj_div, Nat2N.inj_add. reflexivity. Qed.

Lemma wrap32_id : forall n, (n < 4294967296)%N -> wrap32 n = n.
Proof. intros. unfold wrap32, two32. apply N.mod_small. auto. Qed.
Lemma wrap64_id : forall n, (n < two64)%N -> wrap64 n = n.
Proof. intros. unfold wrap64. apply N.mod_small. auto. Qed.

Lemma sizeAlign32_up : forall n, (N.of_nat n + 7 < 4294967296)%N -> sizeAlign32 (N.of_nat n) = N.of_nat (up8 n).
Proof.
  intros n H. unfold sizeAlign32. rewrite wrap32_id by exact H. change (two32 - 8)%N with (2 ^ 32 - 8)%N.
  rewrite land_low3 by (try exact H; discriminate). symmetry. apply up8_N.
Qed.
Lemma sizeAlign64_up : forall n, (N.of_nat n + 7 < two64)%N -> sizeAlign64 (N.of_nat n) = N.of_nat (up8 n).
Proof.
  intros n H. unfold sizeAlign64. rewrite wrap64_id by exact H. change (two64 - 8)%N with (2 ^ 64 - 8)%N.
  rewrite land_low3 by (try exact H; discriminate). symmetry. apply up8_N.
Qed.

Lemma align_off_up : forall a off, (a mod 8 = 0)%N -> (a + N.of_nat off + 8 <= two64)%N -> align_off a off = up8 off.
Proof.
  intros a off Ha H. unfold align_off, align_addr. rewrite (wrap64_id (two64 - 8)) by reflexivity.
  assert (B : (a + N.of_nat off + 7 < two64)%N) by (unfold two64 in *; lia).
  rewrite (wrap64_id (a + N.of_nat off + 7)) by exact B.
  change (two64 - 8)%N with (2 ^ 64 - 8)%N. rewrite land_low3 by (try exact B; discriminate).
  assert (E : a = (8 * (a / 8))%N) by (rewrite (N.div_mod a 8) at 1 by discriminate; rewrite Ha; lia).
  set (b := (a / 8)%N) in *. clearbody b. subst a.
  replace (8 * b + N.of_nat off + 7)%N with (N.of_nat off + 7 + b * 8)%N by lia. rewrite N.div_add by discriminate.
  rewrite wrap64_id.
  - replace (8 * ((N.of_nat off + 7) / 8 + b) - 8 * b)%N with (8 * ((N.of_nat off + 7) / 8))%N by lia.
    rewrite <- up8_N. apply Nat2N.id.
  - pose proof (up8_N off) as U. pose proof (up8_bounds off) as [_ U2]. unfold two64 in *. lia.
Qed.

(** ** arrays *)
Lemma flat_len : forall w l, length (flat_map (le_bytes w) l) = w * length l.
Proof. intros w. induction l as [|x l IH]; cbn [flat_map length]; [lia|]. rewrite app_length, le_bytes_length, IH. lia. Qed.

Lemma unles_flat : forall w l, Forall (fun x => (x < 256 ^ N.of_nat w)%N) l -> unles w (length l) (flat_map (le_bytes w) l) = l.
Proof.
  intros w. induction l as [|x l IH]; intros H; [reflexivity|]. inversion H; subst. cbn [flat_map length unles].
  rewrite firstn_app, skipn_app, le_bytes_length, Nat.sub_diag, firstn_O, app_nil_r, skipn_O.
  rewrite firstn_all2, skipn_all2 by (rewrite le_bytes_length; lia). cbn [app]. rewrite of_le_le, IH by auto. reflexivity.
Qed.

Lemma array_ok : forall w (n : N) l, n = N.of_nat (length l) -> array_bytes w n l = Ok (flat_map (le_bytes w) l).
Proof.
  intros w n l ->. unfold array_bytes. rewrite N.leb_refl, Nat2N.id, firstn_all. reflexivity.
Qed.

Lemma firstn_le_eq : forall {A} (l l' : list A) m n, m <= n -> firstn n l = firstn n l' -> firstn m l = firstn m l'.
Proof.
  intros A l l' m n H E. apply (f_equal (firstn m)) in E. rewrite !firstn_firstn in E. rewrite Nat.min_l in E by lia. exact E.
Qed.

(** ** when each structure fits its fields *)
Definition bv_wf (b : bitvec) : Prop :=
  (N.of_nat (bv_nbits b) < 4294967296)%N /\ length (bv_words b) = num_words (bv_nbits b) /\ Forall word_ok (bv_words b).
Definition lut_wf (l : list nat) : Prop := Forall (fun x => (N.of_nat x < 4294967296)%N) l.

Lemma num_words_le : forall n, num_words n <= n / 64 + 1.
Proof. intros n. unfold num_words. destruct (_ =? 0); lia. Qed.

Lemma div_small : forall n d, (N.of_nat n < 4294967296)%N -> 64 <= d -> (N.of_nat (n / d) <= 67108863)%N.
Proof.
  intros n d H Hd. rewrite Nat2N.inj_div. transitivity (4294967295 / 64)%N; [|reflexivity].
  etransitivity; [apply (N.div_le_mono _ 4294967295); lia|]. apply N.div_le_compat_l. lia.
Qed.
Lemma words_small : forall n, (N.of_nat n < 4294967296)%N -> (N.of_nat (num_words n) <= 67108864)%N.
Proof. intros n H. pose proof (num_words_le n). pose proof (div_small n 64 H ltac:(lia)). lia. Qed.

Lemma bitsSize_eq : forall n, (N.of_nat n < 4294967296)%N -> bitsSize n = N.of_nat (8 * num_words n).
Proof. intros n H. pose proof (words_small n H). unfold bitsSize. rewrite wrap32_id by lia. lia. Qed.

Lemma words_back : forall b, bv_wf b -> mkBV (bv_nbits b) (unles 8 (num_words (bv_nbits b)) (flat_map (le_bytes 8) (bv_words b))) = b.
Proof.
  intros b (B1 & B2 & B3). rewrite <- B2, unles_flat; [destruct b; reflexivity|]. exact B3.
Qed.

Lemma lut_back : forall l n, lut_wf l -> n = length l -> map N.to_nat (unles 4 n (flat_map (le_bytes 4) (map N.of_nat l))) = l.
Proof.
  intros l n H ->. rewrite <- (map_length N.of_nat l). rewrite unles_flat.
  - rewrite map_map. rewrite <- (map_id l) at 2. apply map_ext. intros. apply Nat2N.id.
  - apply Forall_map. exact H.
Qed.

Definition rank_wf (r : bvrank) : Prop :=
  bv_wf (rk_bv r) /\ rk_block r = 512 /\ length (rk_lut r) = bv_nbits (rk_bv r) / 512 + 1 /\ lut_wf (rk_lut r).
Definition rank_bytes (r : bvrank) : nat :=
  up8 (8 + 8 * num_words (bv_nbits (rk_bv r)) + 4 * length (rk_lut r)).

Lemma rankLut_eq : forall r, rank_wf r -> rankLutSize (bv_nbits (rk_bv r)) (rk_block r) = N.of_nat (4 * length (rk_lut r)).
Proof.
  intros r ((B1 & _) & HB & HL0 & _). unfold rankLutSize. rewrite HB, HL0.
  pose proof (div_small _ 512 B1 ltac:(lia)). rewrite wrap32_id by lia. lia.
Qed.

Lemma rank_size_eq : forall r, rank_wf r -> rank_serializedSize r = N.of_nat (rank_bytes r).
Proof.
  intros r H. unfold rank_serializedSize, rank_bytes. cbv zeta. rewrite (rankLut_eq r H).
  destruct H as ((B1 & _) & HB & HL0 & _). rewrite bitsSize_eq by auto.
  pose proof (words_small _ B1). pose proof (div_small _ 512 B1 ltac:(lia)).
  replace (4 + 4 + N.of_nat (8 * num_words (bv_nbits (rk_bv r))) + N.of_nat (4 * length (rk_lut r)))%N
    with (N.of_nat (8 + 8 * num_words (bv_nbits (rk_bv r)) + 4 * length (rk_lut r))) by lia.
  rewrite wrap32_id by lia. apply sizeAlign32_up. lia.
Qed.

Definition select_wf (s : bvselect) : Prop :=
  bv_wf (sl_bv s) /\ sl_interval s = 64 /\ (N.of_nat (sl_ones s) < 4294967296)%N /\
  length (sl_lut s) = sl_ones s / 64 + 1 /\ lut_wf (sl_lut s).
Definition select_bytes (s : bvselect) : nat :=
  up8 (12 + 8 * num_words (bv_nbits (sl_bv s)) + 4 * length (sl_lut s)).

Lemma selectLut_eq : forall s, select_wf s -> selectLutSize (sl_ones s) (sl_interval s) = N.of_nat (4 * length (sl_lut s)).
Proof.
  intros s (_ & HB & B1 & HL0 & _). unfold selectLutSize. rewrite HB, HL0.
  pose proof (div_small _ 64 B1 ltac:(lia)). rewrite wrap32_id by lia. lia.
Qed.

Lemma select_size_eq : forall s, select_wf s -> select_serializedSize s = N.of_nat (select_bytes s).
Proof.
  intros s H. unfold select_serializedSize, select_bytes. rewrite (selectLut_eq s H).
  destruct H as ((B1 & _) & HB & B2 & HL0 & _). rewrite bitsSize_eq by auto.
  pose proof (words_small _ B1). pose proof (div_small _ 64 B2 ltac:(lia)).
  replace (4 + 4 + 4 + N.of_nat (8 * num_words (bv_nbits (sl_bv s))) + N.of_nat (4 * length (sl_lut s)))%N
    with (N.of_nat (12 + 8 * num_words (bv_nbits (sl_bv s)) + 4 * length (sl_lut s))) by lia.
  rewrite wrap32_id by lia. apply sizeAlign32_up. lia.
Qed.

Definition trim_lv (lv : labelvec) : labelvec := mkLV (lv_bytes lv) (N.of_nat (lv_num_bytes lv)).
Definition lv_wf (e : env) (lv : labelvec) : Prop :=
  (N.of_nat (lv_num_bytes lv) + 16 < 4294967296)%N /\
  forall i, i < lv_num_bytes lv -> lv_read e lv i = Ok (nth i (lv_bytes lv) 0).
Definition lv_space (lv : labelvec) : nat := up8 (4 + lv_num_bytes lv).

Lemma skipn_S_tl : forall {A} (l : list A) n, skipn (S n) l = tl (skipn n l).
Proof. intros A l n. revert l. induction n; intros [|x l]; cbn; auto. apply IHn. Qed.

Lemma lv_all : forall e lv, lv_wf e lv -> mapM (lv_read e lv) (seq 0 (lv_num_bytes lv)) = Ok (lv_bytes lv).
Proof.
  intros e lv [_ H]. assert (G : forall n s, s + n <= lv_num_bytes lv -> mapM (lv_read e lv) (seq s n) = Ok (firstn n (skipn s (lv_bytes lv)))).
  { induction n as [|n IH]; intros s Hs; [reflexivity|]. cbn [seq mapM]. rewrite H by lia. cbn [bind]. rewrite IH by lia. cbn [bind].
    f_equal. unfold lv_num_bytes in *. destruct (skipn s (lv_bytes lv)) as [|x t] eqn:E.
    - apply (f_equal (@length nat)) in E. rewrite skipn_length in E. cbn [length] in E. lia.
    - cbn [firstn]. assert (S1 : skipn (S s) (lv_bytes lv) = t).
      { rewrite skipn_S_tl, E. reflexivity. }
      rewrite S1. f_equal. rewrite <- (firstn_skipn s (lv_bytes lv)), app_nth2; rewrite firstn_length, Nat.min_l by lia; [|lia].
      rewrite Nat.sub_diag, E. reflexivity. }
  rewrite G by lia. cbn [skipn]. unfold lv_num_bytes. rewrite firstn_all. reflexivity.
Qed.

Lemma lv_size_eq : forall e lv, lv_wf e lv -> lv_serializedSize lv = N.of_nat (lv_space lv).
Proof.
  intros e lv [B _]. unfold lv_serializedSize, lv_space. replace (4 + N.of_nat (lv_num_bytes lv))%N with (N.of_nat (4 + lv_num_bytes lv)) by lia.
  rewrite wrap32_id by lia. apply sizeAlign32_up. lia.
Qed.

Definition suf_wf (s : bvsuffix) : Prop :=
  bv_wf (sf_bv s) /\ (N.of_nat (sf_hlen s) < 4294967296)%N /\ (N.of_nat (sf_rlen s) < 4294967296)%N /\
  (sf_type s = kNone -> bv_nbits (sf_bv s) = 0).
Definition suf_bytes (s : bvsuffix) : nat := up8 (16 + 8 * num_words (bv_nbits (sf_bv s))).

Lemma code_back : forall t, code_type (type_code t) = Ok t.
Proof. intros []; reflexivity. Qed.
Lemma code_small : forall t, (N.of_nat (type_code t) < 4294967296)%N.
Proof. intros []; reflexivity. Qed.

Lemma suf_size_eq : forall s, suf_wf s -> suf_serializedSize s = N.of_nat (suf_bytes s).
Proof.
  intros s ((B1 & _) & _). unfold suf_serializedSize, suf_bytes. rewrite bitsSize_eq by auto. pose proof (words_small _ B1).
  replace (4 + 4 + 4 + 4 + N.of_nat (8 * num_words (bv_nbits (sf_bv s))))%N with (N.of_nat (16 + 8 * num_words (bv_nbits (sf_bv s)))) by lia.
  rewrite wrap32_id by lia. apply sizeAlign32_up. lia.
Qed.

(** ** the tries *)
Definition cuts_wf (h : nat) (l : list N) : Prop := length l = h /\ Forall (fun x => (x < 4294967296)%N) l.
Lemma cuts_back : forall h l, cuts_wf h l -> unles 4 h (flat_map (le_bytes 4) l) = l.
Proof. intros h l [<- H]. apply unles_flat. exact H. Qed.

Definition dense_wf (d : dense) : Prop :=
  (N.of_nat (d_height d) < 4294967296)%N /\ cuts_wf (d_height d) (d_cuts d) /\
  rank_wf (d_labels d) /\ rank_wf (d_child d) /\ rank_wf (d_prefix d) /\ suf_wf (d_suf d).
Definition dense_bytes (d : dense) : nat :=
  up8 (4 + 4 * d_height d) + rank_bytes (d_labels d) + rank_bytes (d_child d) + rank_bytes (d_prefix d) + suf_bytes (d_suf d).

Definition sparse_wf (e : env) (s : sparse) : Prop :=
  (N.of_nat (s_height s) < 4294967296)%N /\ (N.of_nat (s_start s) < 4294967296)%N /\
  (N.of_nat (s_ncount s) < 4294967296)%N /\ (N.of_nat (s_ccount s) < 4294967296)%N /\
  cuts_wf (s_height s) (s_cuts s) /\
  lv_wf e (s_labels s) /\ rank_wf (s_child s) /\ select_wf (s_louds s) /\ suf_wf (s_suf s).
Definition sparse_bytes (s : sparse) : nat :=
  up8 (16 + 4 * s_height s) + lv_space (s_labels s) + rank_bytes (s_child s) + select_bytes (s_louds s) + suf_bytes (s_suf s).
Definition trim_s (s : sparse) : sparse :=
  mkSparse (s_height s) (s_start s) (s_ncount s) (s_ccount s) (s_cuts s) (trim_lv (s_labels s)) (s_child s) (s_louds s) (s_suf s).

(** from an aligned offset each part takes its own size *)
Lemma part8 : forall m x y, y = 8 * m + x -> up8 y = 8 * m + up8 x.
Proof. intros m x y ->. apply up8_add. Qed.

(** ** writers and readers that fit *)
Section Codec.
Variables (a a' : N) (L : nat).
Hypothesis Ha : (a mod 8 = 0)%N.
Hypothesis Ha' : (a' mod 8 = 0)%N.
Hypothesis HL : (a + N.of_nat L + 8 <= two64)%N.
Hypothesis HL' : (a' + N.of_nat L + 8 <= two64)%N.

Definition codec {A} (w : writer) (r : reader A) (x : A) (sz : nat -> nat) : Prop :=
  (forall off, off <= sz off) /\
  forall buf off, length buf <= L -> sz off <= length buf ->
    exists buf', w (buf, off) = Ok (buf', sz off) /\ length buf' = length buf /\ firstn off buf' = firstn off buf /\
      forall big, firstn (sz off) big = firstn (sz off) buf' -> r big off = Ok (x, sz off).

Lemma codec_ext : forall {A} w (r : reader A) x sz sz', codec w r x sz -> (forall off, sz off = sz' off) -> codec w r x sz'.
Proof.
  intros A w r x sz sz' [C1 C2] E. split; [intros; rewrite <- E; auto|]. intros buf off H1 H2. rewrite <- E in *. apply C2; auto.
Qed.

Lemma codec_seq : forall {A B} w1 w2 (r1 : reader A) (r2 : A -> reader B) x y s1 s2,
  codec w1 r1 x s1 -> codec w2 (r2 x) y s2 -> codec (w1 >> w2) (rbind r1 r2) y (fun off => s2 (s1 off)).
Proof.
  intros A B w1 w2 r1 r2 x y s1 s2 [A1 A2] [B1 B2]. split; [intros off; specialize (A1 off); specialize (B1 (s1 off)); lia|].
  intros buf off Hb Hs. pose proof (B1 (s1 off)) as M1. pose proof (A1 off) as M2.
  destruct (A2 buf off Hb ltac:(lia)) as (b1 & E1 & L1 & F1 & R1).
  destruct (B2 b1 (s1 off) ltac:(lia) ltac:(lia)) as (b2 & E2 & L2 & F2 & R2).
  exists b2. unfold wseq. rewrite E1. cbn [bind]. split; [exact E2|]. split; [congruence|].
  split; [rewrite <- F1; eapply firstn_le_eq; [exact M2|exact F2]|].
  intros big HB. unfold rbind. rewrite (R1 big).
  - cbn [bind]. apply R2. exact HB.
  - rewrite <- F2. eapply firstn_le_eq; [exact M1|exact HB].
Qed.

(** a reader step that writes nothing *)
Lemma codec_ret : forall {A B} w (r1 : reader A) (r2 : A -> reader B) x y s, codec w (r2 x) y s ->
  (forall buf off, r1 buf off = Ok (x, off)) -> codec w (rbind r1 r2) y s.
Proof.
  intros A B w r1 r2 x y s [C1 C2] R. split; auto. intros buf off H1 H2. destruct (C2 buf off H1 H2) as (b & E & Q1 & Q2 & Q3).
  exists b. repeat (split; auto). intros big HB. unfold rbind. rewrite R. cbn [bind]. auto.
Qed.
Lemma codec_end : forall {A} w (r : reader unit) (x : A) s, codec w r tt s -> codec w (rbind r (fun _ => rret x)) x s.
Proof.
  intros A w r x s [C1 C2]. split; auto. intros buf off H1 H2. destruct (C2 buf off H1 H2) as (b & E & Q1 & Q2 & Q3).
  exists b. repeat (split; auto). intros big HB. unfold rbind. rewrite Q3 by auto. reflexivity.
Qed.
Lemma codec_map : forall {A B} w (r : reader A) (g : A -> B) x s, codec w r x s -> codec w (rbind r (fun v => rret (g v))) (g x) s.
Proof.
  intros A B w r g x s [C1 C2]. split; auto. intros buf off H1 H2. destruct (C2 buf off H1 H2) as (b & E & Q1 & Q2 & Q3).
  exists b. repeat (split; auto). intros big HB. unfold rbind. rewrite Q3 by auto. reflexivity.
Qed.

Lemma codec_put : forall bs n, n = N.of_nat (length bs) -> codec (put bs) (get n) bs (fun off => off + length bs).
Proof.
  intros bs n ->. split; [intros; lia|]. intros buf off Hb Hs. unfold put.
  replace (off + length bs <=? length buf) with true by (symmetry; apply Nat.leb_le; lia).
  eexists. split; [reflexivity|]. split.
  - rewrite !app_length, firstn_length, skipn_length. lia.
  - assert (F : length (firstn off buf) = off) by (rewrite firstn_length; lia). split.
    + rewrite firstn_app, F, Nat.sub_diag, firstn_O, app_nil_r, firstn_firstn, Nat.min_id. reflexivity.
    + intros big HB. unfold get. rewrite Nat2N.id.
      assert (LB : off + length bs <= length big).
      { apply (f_equal (@length nat)) in HB. rewrite !firstn_length, !app_length, firstn_length, skipn_length in HB. lia. }
      replace (N.of_nat off + N.of_nat (length bs) <=? N.of_nat (length big))%N with true by (symmetry; apply N.leb_le; lia).
      f_equal. f_equal. rewrite <- (firstn_skipn (off + length bs) big) at 1. rewrite HB.
      rewrite firstn_app, F. rewrite (firstn_all2 (firstn off buf)) by lia.
      replace (off + length bs - off) with (length bs) by lia.
      rewrite firstn_app, Nat.sub_diag, firstn_O, app_nil_r, (firstn_all2 bs) by lia.
      rewrite <- app_assoc, skipn_app, F, Nat.sub_diag, skipn_O.
      rewrite (skipn_all2 (firstn off buf)) by lia. cbn [app].
      rewrite firstn_app, Nat.sub_diag, firstn_O, app_nil_r. apply firstn_all.
Qed.

Lemma codec_put32 : forall v, (N.of_nat v < 4294967296)%N -> codec (put32 v) get32 v (fun off => off + 4).
Proof.
  intros v H. unfold put32, get32.
  replace v with (N.to_nat (of_le_bytes (le_bytes 4 (N.of_nat v)))) at 2 by (rewrite of_le_le by exact H; apply Nat2N.id).
  apply (codec_map _ _ (fun bs => N.to_nat (of_le_bytes bs))). apply (codec_ext _ _ _ _ _ (codec_put (le_bytes 4 (N.of_nat v)) 4 eq_refl)).
  intros off. rewrite le_bytes_length. reflexivity.
Qed.

Lemma codec_wdo : forall m bs n, m = Ok bs -> n = N.of_nat (length bs) -> codec (wdo m) (get n) bs (fun off => off + length bs).
Proof. intros m bs n -> Hn. unfold wdo. cbn [bind]. apply (codec_put bs n Hn). Qed.

Lemma codec_array : forall w n l m, n = N.of_nat (length l) -> m = N.of_nat (w * length l) ->
  codec (wdo (array_bytes w n l)) (get m) (flat_map (le_bytes w) l) (fun off => off + w * length l).
Proof.
  intros w n l m Hn Hm. eapply codec_ext; [apply codec_wdo; [apply array_ok; exact Hn|rewrite flat_len; exact Hm]|].
  intros off. cbn beta. rewrite flat_len. reflexivity.
Qed.

Lemma codec_align : codec (walign a) (ralign a') tt up8.
Proof.
  split; [intros off; apply up8_bounds|]. intros buf off Hb Hs. pose proof (up8_bounds off) as [B _].
  exists buf. unfold walign, ralign. rewrite !align_off_up by (auto; lia). repeat split; auto.
Qed.

Lemma codec_none : codec (fun st => Ok st) (rret (@nil nat)) [] (fun off => off).
Proof. split; auto. intros buf off _ H. exists buf. repeat split; auto. Qed.

(** ** bit vectors *)
Lemma codec_words : forall b, bv_wf b ->
  codec (wdo (array_bytes 8 (bitsSize (bv_nbits b) / 8) (bv_words b))) (get (bitsSize (bv_nbits b)))
    (flat_map (le_bytes 8) (bv_words b)) (fun off => off + 8 * num_words (bv_nbits b)).
Proof.
  intros b (B1 & B2 & B3). rewrite bitsSize_eq by auto. eapply codec_ext.
  - apply codec_array; [|reflexivity || (rewrite B2; reflexivity)]. rewrite B2, Nat2N.inj_mul, N.mul_comm, N.div_mul by discriminate. reflexivity.
  - intros off. cbn beta. rewrite B2. reflexivity.
Qed.

Lemma rank_codec : forall r, rank_wf r ->
  codec (rank_serialize a r) (rank_deSerialize a') r
    (fun off => up8 (off + 4 + 4 + 8 * num_words (bv_nbits (rk_bv r)) + 4 * length (rk_lut r))).
Proof.
  intros r H. pose proof (rankLut_eq r H) as EL. pose proof H as (HB & HK & HN & HT). pose proof HB as (B1 & _).
  unfold rank_serialize, rank_deSerialize. cbv zeta. eapply codec_ext.
  - eapply codec_seq; [apply codec_put32; exact B1|]. eapply codec_seq; [apply codec_put32; rewrite HK; reflexivity|].
    eapply codec_seq; [apply codec_words; exact HB|].
    eapply codec_ret; [|intros; rewrite HK; reflexivity].
    eapply codec_seq; [apply codec_array; [rewrite EL, map_length, Nat2N.inj_mul, N.mul_comm, N.div_mul by discriminate; reflexivity|rewrite map_length; exact EL]|].
    set (x := mkRank _ _ _). assert (X : x = r).
    { unfold x. rewrite words_back by auto. rewrite lut_back; [destruct r; reflexivity|exact HT|].
      rewrite EL, Nat2N.inj_mul, N.mul_comm, N.div_mul, Nat2N.id by discriminate. reflexivity. }
    rewrite X. apply codec_end. exact codec_align.
  - intros off. cbn beta. rewrite map_length. reflexivity.
Qed.

Lemma select_codec : forall s, select_wf s ->
  codec (select_serialize a s) (select_deSerialize a') s
    (fun off => up8 (off + 4 + 4 + 4 + 8 * num_words (bv_nbits (sl_bv s)) + 4 * length (sl_lut s))).
Proof.
  intros s H. pose proof (selectLut_eq s H) as EL. pose proof H as (HB & HK & B2 & HN & HT). pose proof HB as (B1 & _).
  unfold select_serialize, select_deSerialize. cbv zeta. eapply codec_ext.
  - eapply codec_seq; [apply codec_put32; exact B1|]. eapply codec_seq; [apply codec_put32; rewrite HK; reflexivity|].
    eapply codec_seq; [apply codec_put32; exact B2|]. eapply codec_seq; [apply codec_words; exact HB|].
    eapply codec_ret; [|intros; rewrite HK; reflexivity].
    eapply codec_seq; [apply codec_array; [rewrite EL, map_length, Nat2N.inj_mul, N.mul_comm, N.div_mul by discriminate; reflexivity|rewrite map_length; exact EL]|].
    set (x := mkSelect _ _ _ _). assert (X : x = s).
    { unfold x. rewrite words_back by auto. rewrite lut_back; [destruct s; reflexivity|exact HT|].
      rewrite EL, Nat2N.inj_mul, N.mul_comm, N.div_mul, Nat2N.id by discriminate. reflexivity. }
    rewrite X. apply codec_end. exact codec_align.
  - intros off. cbn beta. rewrite map_length. reflexivity.
Qed.

(** ** labels *)
Lemma lv_codec : forall e lv, lv_wf e lv ->
  codec (lv_serialize e a lv) (lv_deSerialize a') (trim_lv lv) (fun off => up8 (off + 4 + lv_num_bytes lv)).
Proof.
  intros e lv H. pose proof H as [B _]. unfold lv_serialize, lv_deSerialize. eapply codec_ext.
  - eapply codec_seq; [apply codec_put32; lia|].
    eapply codec_seq; [apply codec_wdo; [apply lv_all; exact H|reflexivity]|].
    apply codec_end. exact codec_align.
  - reflexivity.
Qed.
(** ** suffixes *)
Lemma suf_codec : forall s, suf_wf s ->
  codec (suf_serialize a s) (suf_deSerialize a') s
    (fun off => up8 (off + 4 + 4 + 4 + 4 + 8 * num_words (bv_nbits (sf_bv s)))).
Proof.
  intros s (HB & H1 & H2 & H0). pose proof HB as (B1 & B2 & _).
  unfold suf_serialize, suf_deSerialize. cbv zeta. eapply codec_ext.
  - eapply codec_seq; [apply codec_put32; exact B1|]. eapply codec_seq; [apply codec_put32; apply code_small|].
    eapply codec_seq; [apply codec_put32; exact H1|]. eapply codec_seq; [apply codec_put32; exact H2|].
    eapply codec_ret; [|intros; unfold rlift; rewrite code_back; reflexivity].
    assert (G : codec (if is_none (sf_type s) then fun st => Ok st else wdo (array_bytes 8 (bitsSize (bv_nbits (sf_bv s)) / 8) (bv_words (sf_bv s))))
      (if is_none (sf_type s) then rret [] else get (bitsSize (bv_nbits (sf_bv s))))
      (flat_map (le_bytes 8) (bv_words (sf_bv s))) (fun off => off + 8 * num_words (bv_nbits (sf_bv s)))).
    { destruct (is_none (sf_type s)) eqn:EN; [|apply codec_words; exact HB].
      assert (ET : sf_type s = kNone) by (destruct (sf_type s); auto; discriminate). specialize (H0 ET). rewrite H0 in *.
      change (num_words 0) with 0 in *. destruct (bv_words (sf_bv s)); [|discriminate]. eapply codec_ext; [exact codec_none|].
      intros off. cbn. lia. }
    eapply codec_seq; [exact G|].
    set (x := mkSuf _ _ _ _). assert (X : x = s).
    { unfold x. clear x G. pose proof (words_back _ HB) as W. destruct (is_none (sf_type s)) eqn:EN; [|rewrite W; destruct s; reflexivity].
      assert (ET : sf_type s = kNone) by (destruct (sf_type s); auto; discriminate). specialize (H0 ET).
      rewrite H0 in *. cbn in W |- *. rewrite W. destruct s; reflexivity. }
    rewrite X. apply codec_end. exact codec_align.
  - reflexivity.
Qed.
Lemma dense_codec : forall d, dense_wf d -> exists sz,
  codec (dense_serialize a d) (dense_deSerialize a') d sz /\ forall m, sz (8 * m) = 8 * m + dense_bytes d.
Proof.
  intros d (H1 & H2 & H3 & H4 & H5 & H6). eexists. split.
  - unfold dense_serialize, dense_deSerialize.
    eapply codec_seq; [apply codec_put32; exact H1|].
    eapply codec_seq; [apply codec_array; [destruct H2 as [<- _]; reflexivity|destruct H2 as [<- _]; lia]|].
    eapply codec_seq; [exact codec_align|]. cbv beta.
    eapply codec_seq; [apply rank_codec; exact H3|]. eapply codec_seq; [apply rank_codec; exact H4|].
    eapply codec_seq; [apply rank_codec; exact H5|]. eapply codec_seq; [apply suf_codec; exact H6|].
    rewrite (cuts_back _ _ H2). replace (mkDense _ _ _ _ _ _) with d by (destruct d; reflexivity).
    apply codec_end. exact codec_align.
  - intros m. cbn beta. destruct H2 as [EC _]. rewrite EC. unfold dense_bytes.
    rewrite (part8 m (4 + 4 * d_height d) (8 * m + 4 + 4 * d_height d)) by lia.
    destruct (up8_mul (4 + 4 * d_height d)) as (m1 & ->). replace (8 * m + 8 * m1) with (8 * (m + m1)) by lia. set (k1 := m + m1).
    rewrite (part8 k1 (8 + 8 * num_words (bv_nbits (rk_bv (d_labels d))) + 4 * length (rk_lut (d_labels d))) (8 * k1 + 4 + 4 + 8 * num_words (bv_nbits (rk_bv (d_labels d))) + 4 * length (rk_lut (d_labels d)))) by lia. fold (rank_bytes (d_labels d)).
    destruct (up8_mul (8 + 8 * num_words (bv_nbits (rk_bv (d_labels d))) + 4 * length (rk_lut (d_labels d)))) as (m2 & E2). fold (rank_bytes (d_labels d)) in E2. rewrite E2.
    replace (8 * k1 + 8 * m2) with (8 * (k1 + m2)) by lia. set (k2 := k1 + m2).
    rewrite (part8 k2 (8 + 8 * num_words (bv_nbits (rk_bv (d_child d))) + 4 * length (rk_lut (d_child d))) (8 * k2 + 4 + 4 + 8 * num_words (bv_nbits (rk_bv (d_child d))) + 4 * length (rk_lut (d_child d)))) by lia. fold (rank_bytes (d_child d)).
    destruct (up8_mul (8 + 8 * num_words (bv_nbits (rk_bv (d_child d))) + 4 * length (rk_lut (d_child d)))) as (m3 & E3). fold (rank_bytes (d_child d)) in E3. rewrite E3.
    replace (8 * k2 + 8 * m3) with (8 * (k2 + m3)) by lia. set (k3 := k2 + m3).
    rewrite (part8 k3 (8 + 8 * num_words (bv_nbits (rk_bv (d_prefix d))) + 4 * length (rk_lut (d_prefix d))) (8 * k3 + 4 + 4 + 8 * num_words (bv_nbits (rk_bv (d_prefix d))) + 4 * length (rk_lut (d_prefix d)))) by lia. fold (rank_bytes (d_prefix d)).
    destruct (up8_mul (8 + 8 * num_words (bv_nbits (rk_bv (d_prefix d))) + 4 * length (rk_lut (d_prefix d)))) as (m4 & E4). fold (rank_bytes (d_prefix d)) in E4. rewrite E4.
    replace (8 * k3 + 8 * m4) with (8 * (k3 + m4)) by lia. set (k4 := k3 + m4).
    rewrite (part8 k4 (16 + 8 * num_words (bv_nbits (sf_bv (d_suf d)))) (8 * k4 + 4 + 4 + 4 + 4 + 8 * num_words (bv_nbits (sf_bv (d_suf d))))) by lia. fold (suf_bytes (d_suf d)).
    destruct (up8_mul (16 + 8 * num_words (bv_nbits (sf_bv (d_suf d))))) as (m5 & E5). fold (suf_bytes (d_suf d)) in E5. rewrite E5.
    replace (8 * k4 + 8 * m5) with (8 * (k4 + m5)) by lia. rewrite up8_id. unfold k4, k3, k2, k1. lia.
Qed.

Lemma sparse_codec : forall e s, sparse_wf e s -> exists sz,
  codec (sparse_serialize e a s) (sparse_deSerialize a') (trim_s s) sz /\ forall m, sz (8 * m) = 8 * m + sparse_bytes s.
Proof.
  intros e s (H1 & H2 & H3 & H4 & H5 & H6 & H7 & H8 & H9). eexists. split.
  - unfold sparse_serialize, sparse_deSerialize.
    eapply codec_seq; [apply codec_put32; exact H1|]. eapply codec_seq; [apply codec_put32; exact H2|].
    eapply codec_seq; [apply codec_put32; exact H3|]. eapply codec_seq; [apply codec_put32; exact H4|].
    eapply codec_seq; [apply codec_array; [destruct H5 as [<- _]; reflexivity|destruct H5 as [<- _]; lia]|].
    eapply codec_seq; [exact codec_align|]. cbv beta.
    eapply codec_seq; [apply lv_codec; exact H6|]. eapply codec_seq; [apply rank_codec; exact H7|].
    eapply codec_seq; [apply select_codec; exact H8|]. eapply codec_seq; [apply suf_codec; exact H9|].
    rewrite (cuts_back _ _ H5). fold (trim_s s).
    apply codec_end. exact codec_align.
  - intros m. cbn beta. destruct H5 as [EC _]. rewrite EC. unfold sparse_bytes.
    rewrite (part8 m (16 + 4 * s_height s) (8 * m + 4 + 4 + 4 + 4 + 4 * s_height s)) by lia.
    destruct (up8_mul (16 + 4 * s_height s)) as (m1 & ->). replace (8 * m + 8 * m1) with (8 * (m + m1)) by lia. set (k1 := m + m1).
    rewrite (part8 k1 (4 + lv_num_bytes (s_labels s)) (8 * k1 + 4 + lv_num_bytes (s_labels s))) by lia. fold (lv_space (s_labels s)).
    destruct (up8_mul (4 + lv_num_bytes (s_labels s))) as (m2 & E2). fold (lv_space (s_labels s)) in E2. rewrite E2.
    replace (8 * k1 + 8 * m2) with (8 * (k1 + m2)) by lia. set (k2 := k1 + m2).
    rewrite (part8 k2 (8 + 8 * num_words (bv_nbits (rk_bv (s_child s))) + 4 * length (rk_lut (s_child s))) (8 * k2 + 4 + 4 + 8 * num_words (bv_nbits (rk_bv (s_child s))) + 4 * length (rk_lut (s_child s)))) by lia. fold (rank_bytes (s_child s)).
    destruct (up8_mul (8 + 8 * num_words (bv_nbits (rk_bv (s_child s))) + 4 * length (rk_lut (s_child s)))) as (m3 & E3). fold (rank_bytes (s_child s)) in E3. rewrite E3.
    replace (8 * k2 + 8 * m3) with (8 * (k2 + m3)) by lia. set (k3 := k2 + m3).
    rewrite (part8 k3 (12 + 8 * num_words (bv_nbits (sl_bv (s_louds s))) + 4 * length (sl_lut (s_louds s))) (8 * k3 + 4 + 4 + 4 + 8 * num_words (bv_nbits (sl_bv (s_louds s))) + 4 * length (sl_lut (s_louds s)))) by lia. fold (select_bytes (s_louds s)).
    destruct (up8_mul (12 + 8 * num_words (bv_nbits (sl_bv (s_louds s))) + 4 * length (sl_lut (s_louds s)))) as (m4 & E4). fold (select_bytes (s_louds s)) in E4. rewrite E4.
    replace (8 * k3 + 8 * m4) with (8 * (k3 + m4)) by lia. set (k4 := k3 + m4).
    rewrite (part8 k4 (16 + 8 * num_words (bv_nbits (sf_bv (s_suf s)))) (8 * k4 + 4 + 4 + 4 + 4 + 8 * num_words (bv_nbits (sf_bv (s_suf s))))) by lia. fold (suf_bytes (s_suf s)).
    destruct (up8_mul (16 + 8 * num_words (bv_nbits (sf_bv (s_suf s))))) as (m5 & E5). fold (suf_bytes (s_suf s)) in E5. rewrite E5.
    replace (8 * k4 + 8 * m5) with (8 * (k4 + m5)) by lia. rewrite up8_id. unfold k4, k3, k2, k1. lia.
Qed.
End Codec.
