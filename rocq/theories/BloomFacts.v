(** Proofs about the Bloom filter. *)
From Coq Require Import Arith List NArith Bool Lia.
From Verif Require Import Res Word Bloom SpecBloom.
Import ListNotations.

Lemma probes_eq : forall x, bloom_k x = probes x.
Proof.
  intros x. unfold bloom_k, probes. destruct (Nat.ltb_spec x 1).
  - assert (x = 0) by lia. subst. reflexivity.
  - destruct (Nat.ltb_spec 30 x); lia.
Qed.

Lemma size_ok : forall b n, bloom_size b n (bloom_bytes (N.of_nat b) (N.of_nat n) * 8).
Proof.
  intros b n. unfold bloom_size, bloom_bytes. rewrite Nat2N.inj_mul.
  set (p := (N.of_nat n * N.of_nat b)%N). cbv zeta.
  exists (((if (p <? 64)%N then 64 else p) + 7) / 8)%N. split; [apply N.mul_comm|].
  assert (Q : ((if (p <? 64)%N then 64 else p) = N.max 64 p)%N) by (destruct (N.ltb_spec p 64); lia). rewrite Q.
  pose proof (N.div_mod (N.max 64 p + 7) 8 ltac:(lia)). pose proof (N.mod_lt (N.max 64 p + 7) 8 ltac:(lia)).
  set (y := ((N.max 64 p + 7) / 8)%N) in *. set (r := ((N.max 64 p + 7) mod 8)%N) in *. clearbody r y p. clear Q. repeat split; lia.
Qed.

Lemma nth_error_firstn : forall {A} n (l : list A) i, nth_error (firstn n l) i = if i <? n then nth_error l i else None.
Proof.
  intros A. induction n as [|n IH]; intros l i; [cbn; destruct i; reflexivity|].
  destruct l, i; cbn [firstn nth_error]; try reflexivity; [destruct (S i <? S n); reflexivity|]. rewrite IH. reflexivity.
Qed.

(** ** the bit array *)
Definition bit_at (a : list N) (p : N) : bool := N.testbit (nth (N.to_nat (p / 8)) a 0%N) (p mod 8).

Lemma pos_eq : forall p q, (p / 8 = q / 8)%N -> (p mod 8 = q mod 8)%N -> p = q.
Proof. intros p q A B. rewrite (N.div_mod p 8), (N.div_mod q 8) by lia. congruence. Qed.

Lemma lset_nth : forall (l : list N) i j x, i < length l -> nth j (lset l i x) 0%N = if j =? i then x else nth j l 0%N.
Proof.
  induction l as [|h t IH]; intros i j x H; cbn [length] in H; [lia|].
  destruct i, j; cbn [lset nth Nat.eqb]; auto. apply IH. lia.
Qed.
Lemma lset_len : forall (l : list N) i x, length (lset l i x) = length l.
Proof. induction l as [|h t IH]; intros [|i] x; cbn [lset length]; auto. Qed.

Lemma step_probe : forall bits h d j, probe bits (wrap32 (h + d), d) j = probe bits (h, d) (S j).
Proof.
  intros bits h d j. unfold probe, wrap32, two32. cbn [fst snd]. f_equal. change 4294967296%N with (2 ^ 32)%N.
  rewrite N.add_mod_idemp_l by discriminate. f_equal. lia.
Qed.

Lemma probe_first : forall bits h d, (h < 2 ^ 32)%N -> probe bits (h, d) 0 = (h mod bits)%N.
Proof. intros bits h d H. unfold probe. cbn [fst snd]. rewrite N.mul_0_l, N.add_0_r. rewrite (N.mod_small h (2 ^ 32)) by exact H. reflexivity. Qed.

Lemma wrap_lt : forall x, (wrap32 x < 2 ^ 32)%N.
Proof. intros. unfold wrap32, two32. apply N.mod_lt. discriminate. Qed.

Section Array.
Variable m : N.
Hypothesis Hm : (0 < m)%N.
Let bits := (m * 8)%N.

Lemma pos_in : forall h, N.to_nat ((h mod bits) / 8) < N.to_nat m.
Proof.
  intros h. pose proof (N.mod_lt h bits ltac:(unfold bits; lia)) as Q.
  pose proof (N.div_lt_upper_bound (h mod bits) 8 m ltac:(lia)) as R. unfold bits in *. lia.
Qed.

Lemma vget_nth : forall (a : list N) i, i < length a -> vget a i = Ok (nth i a 0%N).
Proof. intros a i H. unfold vget. rewrite (nth_error_nth' a 0%N H). reflexivity. Qed.

Lemma set_spec : forall k h d a, (h < 2 ^ 32)%N -> length a = N.to_nat m ->
  exists a', bloom_set bits k h d a = Ok a' /\ length a' = N.to_nat m /\
    forall p, bit_at a' p = true <-> bit_at a p = true \/ exists j, j < k /\ p = probe bits (h, d) j.
Proof.
  induction k as [|k IH]; intros h d a Hh Ha; cbn [bloom_set].
  - exists a. split; auto. split; auto. intros p. split; auto. intros [A|(j & A & _)]; auto. lia.
  - pose proof (pos_in h) as P. rewrite vget_nth by lia. cbn [bind]. unfold vset.
    replace (N.to_nat (h mod bits / 8) <? length a) with true by (symmetry; apply Nat.ltb_lt; lia). cbn [bind].
    set (x := (h mod bits)%N) in *.
    destruct (IH (wrap32 (h + d)) d (lset a (N.to_nat (x / 8)) (N.lor (nth (N.to_nat (x / 8)) a 0%N) (N.shiftl 1 (x mod 8))))
      (wrap_lt _) ltac:(rewrite lset_len; auto)) as (a' & E & L & G).
    exists a'. split; auto. split; auto. intros p. rewrite G.
    assert (Q : bit_at (lset a (N.to_nat (x / 8)) (N.lor (nth (N.to_nat (x / 8)) a 0%N) (N.shiftl 1 (x mod 8)))) p = true <->
      bit_at a p = true \/ p = x).
    { unfold bit_at. rewrite lset_nth by lia. destruct (Nat.eqb_spec (N.to_nat (p / 8)) (N.to_nat (x / 8))) as [E1|N1].
      - apply N2Nat.inj in E1. rewrite E1. rewrite N.lor_spec, orb_true_iff, N.shiftl_1_l, N.pow2_bits_eqb, N.eqb_eq.
        split; intros [A|A]; auto; right; [apply pos_eq; auto|congruence].
      - split; auto. intros [A|A]; auto. subst p. congruence. }
    rewrite Q. split.
    + intros [[A|A]|(j & Hj & A)]; auto.
      * right. exists 0. split; [lia|]. rewrite probe_first by auto. exact A.
      * right. exists (S j). split; [lia|]. rewrite <- step_probe. exact A.
    + intros [A|(j & Hj & A)]; auto. destruct j as [|j].
      * rewrite probe_first in A by auto. auto.
      * right. exists j. split; [lia|]. rewrite step_probe. exact A.
Qed.

Lemma test_spec : forall k h d a rest, (h < 2 ^ 32)%N -> length a = N.to_nat m ->
  exists b, bloom_test bits k h d (a ++ rest) = Ok b /\
    (b = true <-> forall j, j < k -> bit_at a (probe bits (h, d) j) = true).
Proof.
  induction k as [|k IH]; intros h d a rest Hh Ha; cbn [bloom_test].
  - exists true. split; auto. split; auto. intros _ j Hj. lia.
  - pose proof (pos_in h) as P. rewrite vget_nth by (rewrite app_length; lia). cbn [bind]. rewrite app_nth1 by lia.
    set (x := (h mod bits)%N) in *.
    assert (B : (N.land (nth (N.to_nat (x / 8)) a 0%N) (N.shiftl 1 (x mod 8)) =? 0)%N = negb (bit_at a x)).
    { unfold bit_at. rewrite N.shiftl_1_l. set (w := nth (N.to_nat (x / 8)) a 0%N). set (y := (x mod 8)%N).
      destruct (N.testbit w y) eqn:E; cbn [negb].
      - apply N.eqb_neq. intros X. apply (f_equal (fun z => N.testbit z y)) in X.
        rewrite N.land_spec, N.pow2_bits_true, E, N.bits_0 in X. discriminate.
      - apply N.eqb_eq. apply N.bits_inj. intros z. rewrite N.land_spec, N.pow2_bits_eqb, N.bits_0.
        destruct (N.eqb_spec y z) as [<-|]; [rewrite E; reflexivity|apply andb_false_r]. }
    rewrite B. destruct (bit_at a x) eqn:E; cbn [negb].
    + destruct (IH (wrap32 (h + d)) d a rest (wrap_lt _) Ha) as (b & E1 & G). exists b. split; auto. rewrite G. split.
      * intros A [|j] Hj; [rewrite probe_first by auto; exact E|]. rewrite <- step_probe. apply A. lia.
      * intros A j Hj. rewrite step_probe. apply A. lia.
    + exists false. split; auto. split; [discriminate|]. intros A. specialize (A 0 ltac:(lia)). rewrite probe_first in A by auto.
      fold x in A. congruence.
Qed.

Variable K : Type.
Variable hash : K -> N * N.
Hypothesis HH : hash_ok hash.

Lemma fold_spec : forall k keys ixs a, (forall i, In i ixs -> i < length keys) -> length a = N.to_nat m ->
  exists a', foldM (fun a i => key <- vget keys i ;; let '(h, delta) := hash key in bloom_set bits k h delta a) ixs a = Ok a' /\
    length a' = N.to_nat m /\
    forall p, bit_at a' p = true <-> bit_at a p = true \/
      exists i key j, In i ixs /\ nth_error keys i = Some key /\ j < k /\ p = probe bits (hash key) j.
Proof.
  intros k keys. induction ixs as [|i ixs IH]; intros a HI Ha; cbn [foldM].
  - exists a. split; auto. split; auto. intros p. split; auto. intros [A|(i & key & j & [] & _)]; auto.
  - pose proof (HI i (or_introl eq_refl)) as Hi. unfold vget at 1. destruct (nth_error keys i) as [key|] eqn:EN.
    2: { apply nth_error_None in EN. lia. }
    cbn [bind]. destruct (hash key) as [h d] eqn:EH. pose proof (HH key) as [H1 _]. rewrite EH in H1. cbn [fst] in H1.
    destruct (set_spec k h d a H1 Ha) as (a1 & E1 & L1 & G1). rewrite E1. cbn [bind].
    destruct (IH a1 ltac:(intros; apply HI; right; auto) L1) as (a' & E & L & G). exists a'. split; auto. split; auto.
    intros p. rewrite G, G1. split.
    + intros [[A|(j & Hj & A)]|(x & key' & j & A & B)]; auto.
      * right. exists i, key, j. rewrite EH. cbn [In]. auto.
      * right. exists x, key', j. cbn [In]. tauto.
    + intros [A|(x & key' & j & [<-|A] & B & C & D)]; auto.
      * left. right. exists j. split; auto. rewrite EN in B. injection B as <-. rewrite EH in D. exact D.
      * right. exists x, key', j. auto.
Qed.
End Array.

Lemma bit_at_zero : forall n p, bit_at (repeat 0%N n) p = false.
Proof. intros n p. unfold bit_at. rewrite nth_repeat. apply N.bits_0. Qed.

Lemma bloom_exact : forall (K : Type) (hash : K -> N * N) b x keys n dst, hash_ok hash -> n <= length keys ->
  exists flt bits, CreateFilter K hash b x keys n dst = Ok (dst ++ flt) /\ bloom_size b n bits /\ (8 * N.of_nat (length flt) = bits + 8)%N /\
    forall q, exists r, KeyMayMatch K hash q flt = Ok r /\
      (r = true <-> all_hit hash bits (probes x) (firstn n keys) q).
Proof.
  intros K hash b x keys n dst HH Hn. unfold CreateFilter. cbv zeta.
  set (m := bloom_bytes (N.of_nat b) (N.of_nat n)). pose proof (size_ok b n) as S1. fold m in S1.
  assert (Hm : (0 < m)%N) by (destruct S1 as (z & A & B & _); lia).
  destruct (fold_spec m Hm K hash HH (bloom_k x) keys (seq 0 n) (repeat 0%N (N.to_nat m))
    ltac:(intros i Hi; apply in_seq in Hi; lia) ltac:(apply repeat_length)) as (a & E & L & G).
  rewrite E. cbn [bind]. exists (a ++ [N.of_nat (bloom_k x)]), (m * 8)%N. split; auto. split; auto. split; [rewrite app_length, L; cbn [length]; lia|].
  intros q. unfold KeyMayMatch. cbv zeta. rewrite app_length, L. cbn [length].
  replace (N.to_nat m + 1 <? 2) with false by (symmetry; apply Nat.ltb_ge; lia).
  replace (N.to_nat m + 1 - 1) with (N.to_nat m) by lia.
  rewrite vget_nth by (rewrite app_length; cbn [length]; lia). cbn [bind].
  rewrite app_nth2, L, Nat.sub_diag by lia. cbn [nth].
  assert (K30 : bloom_k x <= 30) by (rewrite probes_eq; unfold probes; lia).
  replace (30 <? N.of_nat (bloom_k x))%N with false by (symmetry; apply N.ltb_ge; lia).
  destruct (hash q) as [h d] eqn:EH. pose proof (HH q) as [H1 _]. rewrite EH in H1. cbn [fst] in H1.
  rewrite N2Nat.id, Nat2N.id.
  destruct (test_spec m Hm (bloom_k x) h d a [N.of_nat (bloom_k x)] H1 L) as (r & E1 & G1).
  exists r. split; auto. rewrite G1, <- probes_eq. unfold all_hit. rewrite EH.
  assert (Q : forall p, bit_at a p = true <-> exists key j', In key (firstn n keys) /\ j' < bloom_k x /\ p = probe (m * 8) (hash key) j').
  { intros p. rewrite G, bit_at_zero. split.
    - intros [A|(i & key & j & A & B & C & D)]; [discriminate|]. exists key, j. split; auto. apply in_seq in A.
      apply nth_error_In with (n := i). rewrite nth_error_firstn. replace (i <? n) with true by (symmetry; apply Nat.ltb_lt; lia). exact B.
    - intros (key & j & A & B & C). right. apply In_nth_error in A. destruct A as (i & A). rewrite nth_error_firstn in A.
      destruct (Nat.ltb_spec i n); [|discriminate]. exists i, key, j. split; [apply in_seq; lia|]. auto. }
  split; intros A j Hj; [apply Q|apply Q]; apply A; auto.
Qed.

Lemma bloom_no_miss : forall (K : Type) (hash : K -> N * N) b x keys n dst, hash_ok hash -> n <= length keys ->
  exists flt, CreateFilter K hash b x keys n dst = Ok (dst ++ flt) /\
    forall k, In k (firstn n keys) -> KeyMayMatch K hash k flt = Ok true.
Proof.
  intros K hash b x keys n dst HH Hn. destruct (bloom_exact K hash b x keys n dst HH Hn) as (flt & bits & E & _ & _ & G).
  exists flt. split; auto. intros k Hk. destruct (G k) as (r & E1 & A). rewrite E1. f_equal. apply A.
  intros j Hj. exists k, j. auto.
Qed.
