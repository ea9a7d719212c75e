(** Reads that never fault: bits just past a vector, suffixes at any index. *)
From Coq Require Import Arith List NArith ZArith Bool Lia.
From Verif Require Import Res Word Config Hash Bitvector Rank Select LabelVector Suffix Builder Spec
  KeyFacts BitFacts WordFacts BitvectorFacts RankSelectFacts SuffixFacts StoreFacts StructFacts LookupFacts.
Import ListNotations.

(** the call succeeds with a result that has property [P] *)
Definition safe {A} (m : res A) (P : A -> Prop) : Prop := exists x, m = Ok x /\ P x.

Lemma safe_ok : forall A (x : A) (P : A -> Prop), P x -> safe (Ok x) P.
Proof. intros A x P H. exists x. auto. Qed.
Lemma safe_bind : forall A B (m : res A) (k : A -> res B) (P : A -> Prop) (Q : B -> Prop),
  safe m P -> (forall x, P x -> safe (k x) Q) -> safe (bind m k) Q.
Proof. intros A B m k P Q (x & -> & H) HK. apply HK. exact H. Qed.
Lemma safe_impl : forall A (m : res A) (P Q : A -> Prop), safe m P -> (forall x, P x -> Q x) -> safe m Q.
Proof. intros A m P Q (x & E & H) HI. exists x. auto. Qed.
Lemma safe_eq : forall A (m : res A) x, m = Ok x -> safe m (eq x).
Proof. intros A m x H. exists x. auto. Qed.

(** ** past the end of a bit vector *)
Definition past (e : env) (n p : nat) : Prop :=
  n <= p /\ p < 64 * num_words n /\ (asserts e = true -> p = n).

Lemma past_massert : forall e n p, past e n p -> massert e (p <=? n) = Ok tt.
Proof.
  intros e n p (A & B & C). unfold massert. destruct (asserts e); [|reflexivity].
  rewrite (C eq_refl), Nat.leb_refl. reflexivity.
Qed.

Lemma readBit_past : forall e b l p, repr b l -> past e (length l) p -> readBit e b p = Ok false.
Proof.
  intros e b l p H HP. assert (Hn : bv_nbits b = length l) by (destruct H; auto).
  assert (Hw : length (bv_words b) = num_words (length l)) by (destruct H as (_ & _ & ? & _); congruence).
  unfold readBit. rewrite Hn, (past_massert _ _ _ HP). destruct HP as (A & B & _). cbn [bind].
  pose proof (Nat.mod_upper_bound p 64 ltac:(lia)) as HM. pose proof (Nat.div_mod p 64 ltac:(lia)) as HD.
  rewrite wread_ok by lia. cbn [bind]. rewrite test_msb by lia.
  rewrite <- bits_of_nth, (repr_nth _ _ _ H). rewrite nth_overflow by lia. reflexivity.
Qed.

Lemma rank_past : forall e r l p, rank_ok r l -> past e (length l) p -> exists m, rank e r p = Ok m.
Proof.
  intros e r l p (H & Hb & Hl) HP. unfold rank. rewrite Hb, Hl.
  assert (Hn : bv_nbits (rk_bv r) = length l) by (destruct H; auto). rewrite Hn.
  assert (Hw : length (bv_words (rk_bv r)) = num_words (length l)) by (destruct H as (_ & _ & ? & _); congruence).
  rewrite (past_massert _ _ _ HP). destruct HP as (A & B & _). cbn [bind]. change (512 / 64) with 8.
  pose proof (Nat.div_mod p 512 ltac:(lia)) as HD. pose proof (Nat.mod_upper_bound p 512 ltac:(lia)) as HM.
  pose proof (Nat.div_mod (length l) 512 ltac:(lia)) as HD'. pose proof (Nat.mod_upper_bound (length l) 512 ltac:(lia)) as HM'.
  pose proof (num_words_bounds (length l)) as [N1 N2].
  rewrite (vget_ok _ _ _ 0) by (rewrite map_length, seq_length; lia). cbn [bind].
  rewrite popcountLinear_spec by (try (destruct H as (_ & ? & _); assumption); lia). cbn [bind]. eauto.
Qed.

(** ** suffixes *)
Section Suf.
Variable e : env.
Hypothesis Hsh : strict_shift e = false.
Hypothesis Hmem : strict_mem e = false.

Lemma shr_total : forall w k, exists v, shr64 e w k = Ok v.
Proof. intros. unfold shr64. rewrite Hsh. destruct (_ <? _)%N; eauto. Qed.
Lemma shl_total : forall w k, exists v, shl64 e w k = Ok v.
Proof. intros. unfold shl64. rewrite Hsh. destruct (_ <? _)%N; eauto. Qed.
Lemma wread_total : forall ws i, i <= length ws -> exists v, wread e ws i = Ok v.
Proof.
  intros ws i H. unfold wread. destruct (nth_error ws i) eqn:E; eauto. rewrite Hmem.
  apply nth_error_None in E. replace (i =? length ws) with true by lia. eauto.
Qed.

Definition suf_fit (s : bvsuffix) : Prop :=
  length (bv_words (sf_bv s)) = num_words (bv_nbits (sf_bv s)) /\ lens_ok (sf_type s) (sf_hlen s) (sf_rlen s).

Lemma suf_read_total : forall s i, suf_fit s -> exists w, suf_read e s i = Ok w.
Proof.
  intros s i (HW & _). unfold suf_read.
  assert (G : exists w, (if (N.of_nat (bv_nbits (sf_bv s)) <=? suf_bitpos s i)%N then Ok 0%N
      else
        w <- wread e (bv_words (sf_bv s)) (N.to_nat (suf_bitpos s i / 64)) ;;
        ret_word <- shr64 e (wrap64 (N.shiftl w (suf_bitpos s i mod 64)%N)) (sub32 64 (N.of_nat (sf_len s))) ;;
        if (64 <? suf_bitpos s i mod 64 + N.of_nat (sf_len s))%N then
          w2 <- wread e (bv_words (sf_bv s)) (N.to_nat (suf_bitpos s i / 64) + 1) ;;
          r2 <- shr64 e w2 (sub32 (sub32 64 (suf_bitpos s i mod 64)) (N.of_nat (sf_len s))) ;;
          Ok (wrap64 (ret_word + r2))
        else Ok ret_word) = Ok w).
  { generalize (suf_bitpos s i). intros p. destruct (N.leb_spec (N.of_nat (bv_nbits (sf_bv s))) p) as [L|L]; [eauto|].
    pose proof (num_words_bounds (bv_nbits (sf_bv s))) as [N1 N2].
    assert (P : N.to_nat (p / 64) < num_words (bv_nbits (sf_bv s))).
    { pose proof (N.div_mod p 64 ltac:(lia)) as DM. pose proof (N.mod_upper_bound p 64 ltac:(lia)). lia. }
    destruct (wread_total (bv_words (sf_bv s)) (N.to_nat (p / 64)) ltac:(lia)) as (w & ->). cbn [bind].
    destruct (shr_total (wrap64 (N.shiftl w (p mod 64)%N)) (sub32 64 (N.of_nat (sf_len s)))) as (v & ->). cbn [bind].
    destruct (_ <? _)%N; [|eauto].
    destruct (wread_total (bv_words (sf_bv s)) (N.to_nat (p / 64) + 1) ltac:(lia)) as (w2 & ->). cbn [bind].
    destruct (shr_total w2 (sub32 (sub32 64 (p mod 64)) (N.of_nat (sf_len s)))) as (v2 & ->). cbn [bind]. eauto. }
  destruct (sf_type s); [eauto|exact G|exact G|exact G].
Qed.

Lemma extract_total : forall w n, exists v, extractRealSuffix e w n = Ok v.
Proof. intros. unfold extractRealSuffix. destruct (shl_total 1 (N.of_nat n)) as (v & ->). cbn [bind]. eauto. Qed.

Lemma suf_readReal_total : forall s i, suf_fit s -> exists w, suf_readReal e s i = Ok w.
Proof.
  intros s i H. unfold suf_readReal. destruct (suf_read_total s i H) as (w & ->). cbn [bind]. apply extract_total.
Qed.

Lemma suf_compare_total : forall s i k l, suf_fit s -> is_bytes k -> exists z, suf_compare e s i k l = Ok z.
Proof.
  intros s i k l H Hk. unfold suf_compare. destruct (_ <=? _)%N; [eauto|].
  destruct (suf_read_total s i H) as (w & E). destruct H as (_ & H & _).
  destruct (sf_type s) eqn:ET; try (eexists; reflexivity); rewrite E; cbn [bind];
    rewrite real_suffix_spec by (auto; lia); cbn [bind].
  - repeat match goal with |- context [if ?b then _ else _] => destruct b end; eexists; reflexivity.
  - destruct (extract_total w (sf_rlen s)) as (v & ->). cbn [bind]. repeat match goal with |- context [if ?b then _ else _] => destruct b end; eexists; reflexivity.
Qed.

Lemma checkEquality_total : forall s i k l, suf_fit s -> is_bytes k -> exists b, checkEquality e s i k l = Ok b.
Proof.
  intros s i k l H Hk. unfold checkEquality. destruct (suf_read_total s i H) as (w & E). destruct H as (_ & H).
  destruct (sf_type s) eqn:ET; try (eexists; reflexivity); (destruct (_ <=? _)%N; [eauto|]); rewrite E; cbn [bind].
  - cbn [andb]. rewrite suffix_spec by auto. cbn [bind]. eauto.
  - cbn [andb]. destruct (w =? 0)%N; [eauto|]. destruct (_ || _); [eauto|]. rewrite suffix_spec by auto. cbn [bind]. eauto.
  - cbn [andb]. rewrite suffix_spec by auto. cbn [bind]. eauto.
Qed.

Lemma suf_rel_fit : forall c s vs, lens_ok (cf_type c) (cf_hlen c) (cf_rlen c) -> suf_rel c s vs -> suf_fit s.
Proof.
  intros c s vs HL HR. unfold suf_rel in HR. destruct (cf_type c) eqn:ET.
  - subst s. split; [reflexivity|]. split; cbn; auto. lia.
  - destruct HR as (A & B & C & _ & _ & (R1 & _ & R2 & _) & _). split; [exact R2|]. rewrite A, B, C. exact HL.
  - destruct HR as (A & B & C & _ & _ & (R1 & _ & R2 & _) & _). split; [exact R2|]. rewrite A, B, C. exact HL.
  - destruct HR as (A & B & C & _ & _ & (R1 & _ & R2 & _) & _). split; [exact R2|]. rewrite A, B, C. exact HL.
Qed.
End Suf.
