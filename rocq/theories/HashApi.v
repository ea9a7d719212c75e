(** The suffix hash has 32 bits: hash suffixes of 25 to 57 bits are the same filter. *)
From Coq Require Import List NArith Arith Bool Lia.
From Verif Require Import Res Word Config Hash Builder Surf Spec SpecApi SpecFilter PointFacts.
Import ListNotations.

Lemma xor_small : forall a n, (a < two32 -> N.lxor a (N.shiftr a n) < two32)%N.
Proof.
  intros a n H. change two32 with (2 ^ 32)%N in *. destruct (N.eq_dec (N.lxor a (N.shiftr a n)) 0) as [->|Z]; [lia|].
  apply N.log2_lt_pow2; [lia|]. eapply N.le_lt_trans; [apply N.log2_lxor|]. rewrite N.log2_shiftr.
  destruct (N.eq_dec a 0) as [->|Z2]; [cbn; lia|]. assert (N.log2 a < 32)%N by (apply N.log2_lt_pow2; lia). lia.
Qed.
Lemma wrap32_lt : forall a, (wrap32 a < two32)%N.
Proof. intros. apply N.mod_lt. discriminate. Qed.
Lemma hash_tail_small : forall h l, (h < two32 -> hash_tail h l < two32)%N.
Proof. intros h [|b t] H; [exact H|]. unfold hash_tail. apply xor_small, wrap32_lt. Qed.
Lemma hash_body_small : forall n l h, length l <= n -> (h < two32 -> hash_body h l < two32)%N.
Proof.
  induction n; intros l h L H; destruct l as [|a [|b [|c [|d t]]]]; try (apply hash_tail_small; exact H).
  - cbn in L. lia.
  - cbn [hash_body]. apply IHn; [cbn in L; lia|]. apply xor_small, wrap32_lt.
Qed.
Lemma suffixHash_small : forall k, (suffixHash k < two32)%N.
Proof. intros. eapply hash_body_small; [apply le_n|apply wrap32_lt]. Qed.

Lemma hash_bits_25 : forall k q n, 25 <= n <= 57 -> hash_bits k n = hash_bits q n <-> hash_bits k 25 = hash_bits q 25.
Proof.
  intros k q n H. unfold hash_bits. destruct (Nat.leb_spec n 57); [|lia]. change (25 <=? 57) with true. cbv iota.
  replace n with (25 + (n - 25)) by lia. rewrite seq_app, !map_app. split; intros E.
  - apply (f_equal (firstn 25)) in E. rewrite !firstn_app, !map_length, !seq_length, Nat.sub_diag, !firstn_O, !app_nil_r in E.
    rewrite !firstn_all2 in E by (rewrite map_length, seq_length; lia). exact E.
  - rewrite E. f_equal. apply map_ext_in. intros i I. apply in_seq in I.
    assert (X : forall s, N.testbit (suffixHash s) (N.of_nat (7 + i)) = false).
    { intros s. pose proof (suffixHash_small s). destruct (N.eq_dec (suffixHash s) 0) as [->|Z]; [apply N.bits_0|]. apply N.bits_above_log2.
      assert (N.log2 (suffixHash s) < 32)%N by (apply N.log2_lt_pow2; [lia|assumption]). lia. }
    rewrite !X. reflexivity.
Qed.

Lemma hash_same : forall e c c' keys f f' q, machine e -> settings c -> settings c' -> good_keys keys -> ~ lone_ff keys ->
  padded e c keys f -> padded e c' keys f' -> filter_of e c keys f -> filter_of e c' keys f' -> is_bytes q ->
  cf_type c = kHash -> cf_type c' = kHash -> 25 <= cf_hlen c <= 57 -> 25 <= cf_hlen c' <= 57 ->
  lookupKey e f q = lookupKey e f' q.
Proof.
  intros e c c' keys f f' q HM HC HC' HG HL P P' F F' Q T T' L L'.
  destruct (point_hash e c keys f q HM HC HG HL P F Q T) as (b & E & B).
  destruct (point_hash e c' keys f' q HM HC' HG HL P' F' Q T') as (b' & E' & B').
  rewrite E, E'. f_equal. apply eq_true_iff_eq. rewrite B, B'. clear - L L'.
  split; intros (k & d & K & D & X & Y); exists k, d; (split; [exact K|]; split; [exact D|]; split; [exact X|]).
  - apply hash_bits_25; [assumption|]. apply (hash_bits_25 k q (cf_hlen c)); assumption.
  - apply hash_bits_25; [assumption|]. apply (hash_bits_25 k q (cf_hlen c')); assumption.
Qed.
