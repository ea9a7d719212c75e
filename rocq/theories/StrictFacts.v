(** Filters of the same keys with different suffixes, compared. *)
From Coq Require Import Arith List NArith Bool Lia.
From Verif Require Import Res Config Hash Spec SpecApi SpecFilter Builder Surf PointFacts.
Import ListNotations.

Section Two.
Variable e : env. Variable keys : list bytes. Variables c c' : config. Variables f f' : surf. Variable q : bytes.
Hypothesis HM : machine e.
Hypothesis HC : settings c. Hypothesis HC' : settings c'.
Hypothesis HG : good_keys keys. Hypothesis HL : ~ lone_ff keys.
Hypothesis HP : padded e c keys f.
Hypothesis HF : filter_of e c keys f. Hypothesis HF' : filter_of e c' keys f'.
Hypothesis HQ : is_bytes q.

Lemma strict_gen : cf_type c <> kNone ->
  (forall k d, In k keys -> dist_len keys k d -> firstn d q = firstn d k -> admits c k q d -> admits c' k q d) ->
  lookupKey e f q = Ok true -> lookupKey e f' q = Ok true.
Proof.
  intros HT H T. destruct (point_sound e c keys f q HM HC HG HL HP HF HQ T) as [(k & Hk & d & D & P & A)|[Z _]]; [|contradiction].
  apply (point_complete e c' keys f' q k HM HC' HG HL HF' HQ Hk). exists d. eauto.
Qed.
End Two.

Lemma next_firstn : forall k d a b x, a <= b -> next_bits k d b = Some x -> next_bits k d a = Some (firstn a x).
Proof.
  unfold next_bits. intros k d a b x L. destruct (b <=? length (key_bits (skipn d k))) eqn:E; [|discriminate].
  intros H. injection H as <-. apply Nat.leb_le in E. replace (a <=? length (key_bits (skipn d k))) with true by (symmetry; apply Nat.leb_le; lia).
  rewrite firstn_firstn. f_equal. f_equal. lia.
Qed.
Lemma zero_firstn : forall b a, all_zero b -> all_zero (firstn a b).
Proof. intros b a H x Hx. apply H. rewrite <- (firstn_skipn a b). apply in_or_app. left. exact Hx. Qed.

Section Kinds.
Variable e : env. Variable keys : list bytes. Variables c c' : config. Variables f f' : surf. Variable q : bytes.
Hypothesis HM : machine e.
Hypothesis HC : settings c. Hypothesis HC' : settings c'.
Hypothesis HG : good_keys keys. Hypothesis HL : ~ lone_ff keys.
Hypothesis HP : padded e c keys f.
Hypothesis HF : filter_of e c keys f. Hypothesis HF' : filter_of e c' keys f'.
Hypothesis HQ : is_bytes q.
Hypothesis HT : lookupKey e f q = Ok true.

Lemma strict_none : cf_type c <> kNone -> cf_type c' = kNone -> lookupKey e f' q = Ok true.
Proof.
  intros T T'. apply (strict_gen e keys c c' f f' q); auto. intros. unfold admits. rewrite T'. exact I.
Qed.

Lemma strict_hash : (cf_type c = kHash \/ cf_type c = kMixed) -> cf_type c' = kHash -> cf_hlen c' <= cf_hlen c <= 57 ->
  lookupKey e f' q = Ok true.
Proof.
  intros T T' L. apply (strict_gen e keys c c' f f' q); auto; [destruct T as [-> | ->]; discriminate|].
  intros k d _ _ _ A. unfold admits in *. rewrite T'.
  assert (H : hash_bits k (cf_hlen c) = hash_bits q (cf_hlen c)) by (destruct T as [T|T]; rewrite T in A; [exact A|apply A]).
  unfold hash_bits in *. destruct (Nat.leb_spec (cf_hlen c) 57); [|lia]. destruct (Nat.leb_spec (cf_hlen c') 57); [|lia].
  apply (f_equal (firstn (cf_hlen c'))) in H. rewrite !firstn_map in H.
  assert (S : firstn (cf_hlen c') (seq 0 (cf_hlen c)) = seq 0 (cf_hlen c')).
  { replace (cf_hlen c) with (cf_hlen c' + (cf_hlen c - cf_hlen c')) by lia. rewrite seq_app, firstn_app, seq_length, Nat.sub_diag, firstn_O, app_nil_r.
    apply firstn_all2. rewrite seq_length. lia. }
  rewrite S in H. exact H.
Qed.

Lemma strict_mixed : cf_type c = kMixed -> cf_type c' = kReal -> cf_rlen c' = cf_rlen c -> lookupKey e f' q = Ok true.
Proof.
  intros T T' L. apply (strict_gen e keys c c' f f' q); auto; [rewrite T; discriminate|].
  intros k d _ _ _ A. unfold admits in *. rewrite T, T', L in *. destruct A as [_ A]. unfold next_bits0 in A.
  destruct (next_bits k d (cf_rlen c)) as [b|]; [|exact I].
  destruct (next_bits q d (cf_rlen c)) as [b'|]; [right; congruence|left].
  rewrite A. intros x X. eapply repeat_spec; eauto.
Qed.

Lemma strict_real : cf_type c = kReal -> cf_type c' = kReal -> cf_rlen c' <= cf_rlen c ->
  (forall k d, In k keys -> dist_len keys k d -> next_bits k d (cf_rlen c) <> None) -> lookupKey e f' q = Ok true.
Proof.
  intros T T' L H. apply (strict_gen e keys c c' f f' q); auto; [rewrite T; discriminate|].
  intros k d K D _ A. unfold admits in *. rewrite T, T' in *. specialize (H k d K D).
  destruct (next_bits k d (cf_rlen c)) as [b|] eqn:E; [|congruence].
  rewrite (next_firstn k d _ _ b L E). destruct A as [A|A]; [left; apply zero_firstn; exact A|right].
  apply (next_firstn q d _ _ b L A).
Qed.
End Kinds.
