(** The string hash: equal to the plain definition; what it tells apart. *)
From Coq Require Import List NArith ZArith Arith Bool Lia.
From Verif Require Import Res Word Config Hash Builder Surf Spec SpecApi SpecFilter SpecExact SpecHash BitFacts PointFacts HashApi.
Import ListNotations.
Local Open Scope N_scope.

Lemma bytes_firstn : forall n (l : bytes), is_bytes l -> is_bytes (firstn n l).
Proof. intros n l H. unfold is_bytes in *. rewrite <- (firstn_skipn n l) in H. apply Forall_app in H. apply H. Qed.
Lemma bytes_skipn : forall n (l : bytes), is_bytes l -> is_bytes (skipn n l).
Proof. intros n l H. unfold is_bytes in *. rewrite <- (firstn_skipn n l) in H. apply Forall_app in H. apply H. Qed.
Lemma two32_pow : two32 = 2 ^ 32. Proof. reflexivity. Qed.
Lemma shr_div : forall a n, N.shiftr a n = a / 2 ^ n. Proof. intros. apply N.shiftr_div_pow2. Qed.
Lemma number_le : forall g, of_le_bytes g = number g.
Proof. induction g as [|b g IH]; [reflexivity|]. cbn [of_le_bytes number fold_right]. unfold number in IH. rewrite IH. reflexivity. Qed.

Lemma stir_step : forall s h v, N.lxor (wrap32 (wrap32 (h + v) * hash_m)) (N.shiftr (wrap32 (wrap32 (h + v) * hash_m)) s) = stir s h v.
Proof.
  intros. unfold stir, wrap32, hash_m. rewrite two32_pow, N.mul_mod_idemp_l by discriminate. rewrite shr_div. reflexivity.
Qed.

Lemma tail_stir : forall h g, (1 <= length g <= 3)%nat -> hash_tail h g = stir 24 h (number g).
Proof.
  intros h g L. destruct g as [|b0 [|b1 [|b2 [|b3 t]]]]; cbn [length] in L; try lia; unfold hash_tail.
  - rewrite stir_step. f_equal. cbn. lia.
  - rewrite <- stir_step. unfold wrap32. rewrite two32_pow, !N.add_mod_idemp_l by discriminate.
    replace (h + N.shiftl (N.of_nat b1) 8 + N.of_nat b0) with (h + number [b0; b1]); [reflexivity|].
    rewrite N.shiftl_mul_pow2. cbn [number fold_right]. change (2 ^ 8) with 256. lia.
  - rewrite <- stir_step. unfold wrap32. rewrite two32_pow, !N.add_mod_idemp_l by discriminate.
    replace ((h + N.shiftl (N.of_nat b2) 16) mod 2 ^ 32 + N.shiftl (N.of_nat b1) 8 + N.of_nat b0)
      with ((h + N.shiftl (N.of_nat b2) 16) mod 2 ^ 32 + (N.shiftl (N.of_nat b1) 8 + N.of_nat b0)) by lia.
    rewrite N.add_mod_idemp_l by discriminate.
    replace (h + N.shiftl (N.of_nat b2) 16 + (N.shiftl (N.of_nat b1) 8 + N.of_nat b0)) with (h + number [b0; b1; b2]); [reflexivity|].
    rewrite !N.shiftl_mul_pow2. cbn [number fold_right]. change (2 ^ 8) with 256. change (2 ^ 16) with 65536. lia.
Qed.
Lemma body_step : forall h a b c d t, hash_body h (a :: b :: c :: d :: t) = hash_body (stir 16 h (number [a; b; c; d])) t.
Proof.
  intros. change (hash_body h (a :: b :: c :: d :: t)) with
    (hash_body (N.lxor (wrap32 (wrap32 (h + DecodeFixed32 a b c d) * hash_m)) (N.shiftr (wrap32 (wrap32 (h + DecodeFixed32 a b c d) * hash_m)) 16)) t).
  rewrite stir_step. unfold DecodeFixed32. rewrite number_le. reflexivity.
Qed.
Lemma body_last : forall h g, (1 <= length g <= 4)%nat -> hash_body h g = stir (if (length g =? 4)%nat then 16 else 24) h (number g).
Proof.
  intros h g L. destruct g as [|b0 [|b1 [|b2 [|b3 [|b4 t]]]]]; cbn [length] in L; try lia.
  - apply tail_stir. cbn. lia.
  - apply tail_stir. cbn. lia.
  - apply tail_stir. cbn. lia.
  - rewrite body_step. reflexivity.
Qed.

Lemma body_fold : forall m k h, (length k / 4 = m)%nat ->
  hash_body h k = (let h' := fold_left (fun h i => stir 16 h (number (firstn 4 (skipn (4 * i) k)))) (seq 0 m) h in
                   if (length k mod 4 =? 0)%nat then h' else stir 24 h' (number (skipn (4 * m) k))).
Proof.
  induction m as [|m IH]; intros k h L; cbv zeta.
  - cbn [seq fold_left]. change (4 * 0)%nat with 0%nat. cbn [skipn]. apply Nat.div_small_iff in L; [|lia]. rewrite Nat.mod_small by exact L.
    destruct k as [|b k]; [reflexivity|]. change (length (b :: k) =? 0)%nat with false. cbv iota. rewrite body_last by (cbn [length] in *; lia).
    replace (length (b :: k) =? 4)%nat with false by (symmetry; apply Nat.eqb_neq; lia). reflexivity.
  - destruct k as [|a [|b [|c [|d t]]]]; try (cbn in L; discriminate). rewrite body_step.
    assert (E : length (a :: b :: c :: d :: t) = (length t + 1 * 4)%nat) by (cbn; lia).
    rewrite E in *. rewrite Nat.div_add in L by lia. rewrite Nat.mod_add by lia. rewrite IH by lia. cbv zeta.
    cbn [seq fold_left]. change (4 * 0)%nat with 0%nat. cbn [skipn firstn]. rewrite <- seq_shift.
    assert (F : forall is x, fold_left (fun h i => stir 16 h (number (firstn 4 (skipn (4 * i) t)))) is x =
                        fold_left (fun h i => stir 16 h (number (firstn 4 (skipn (4 * i) (a :: b :: c :: d :: t))))) (map S is) x).
    { induction is as [|i is IHi]; intros x; [reflexivity|]. cbn [map fold_left]. rewrite IHi.
      replace (4 * S i)%nat with (4 + 4 * i)%nat by lia. reflexivity. }
    rewrite F. replace (4 * S m)%nat with (4 + 4 * m)%nat by lia. reflexivity.
Qed.

Lemma mod_mod_pow : forall a, (a mod two64) mod 2 ^ 32 = a mod 2 ^ 32.
Proof.
  intros. change two64 with (2 ^ 64). rewrite <- !N.land_ones. apply N.bits_inj. intros i. rewrite !N.land_spec.
  destruct (N.lt_ge_cases i 32) as [L|L]; [rewrite (N.ones_spec_low 64 i) by lia; rewrite andb_true_r; reflexivity|].
  rewrite (N.ones_spec_high 32 i) by lia. rewrite !andb_false_r. reflexivity.
Qed.
Lemma lxor_mod : forall a b n, N.lxor a b mod 2 ^ n = N.lxor (a mod 2 ^ n) (b mod 2 ^ n).
Proof.
  intros. rewrite <- !N.land_ones. apply N.bits_inj. intros i. rewrite N.lxor_spec, !N.land_spec, N.lxor_spec.
  destruct (N.testbit (N.ones n) i); rewrite ?andb_true_r, ?andb_false_r; reflexivity.
Qed.
Lemma hash_start : forall (k : bytes) seed, wrap32 (N.lxor seed (wrap64 (N.of_nat (length k) * hash_m))) =
  N.lxor seed (N.of_nat (length k) * 0xc6a4a793) mod 2 ^ 32.
Proof.
  intros. unfold wrap32, wrap64, hash_m. rewrite two32_pow, !lxor_mod, mod_mod_pow. reflexivity.
Qed.

Lemma hash_is_leveldb : forall k seed, Hash k seed = leveldb_hash k seed.
Proof. intros. unfold Hash, leveldb_hash. rewrite hash_start. apply body_fold. reflexivity. Qed.

(** * Strings that differ in one group *)

Lemma pow_pos : forall n, 2 ^ n <> 0. Proof. intros. apply N.pow_nonzero. discriminate. Qed.
Lemma xorshift_inj : forall s x x', 16 <= s -> x < 2 ^ 32 -> x' < 2 ^ 32 -> N.lxor x (x / 2 ^ s) = N.lxor x' (x' / 2 ^ s) -> x = x'.
Proof.
  intros s x x' S X X' E.
  assert (T : forall y, y < 2 ^ 32 -> N.lxor y (y / 2 ^ s) / 2 ^ s = y / 2 ^ s).
  { intros y Y. rewrite <- !N.shiftr_div_pow2. rewrite N.shiftr_lxor, N.shiftr_shiftr.
    replace (N.shiftr y (s + s)) with 0; [apply N.lxor_0_r|]. symmetry. rewrite N.shiftr_div_pow2. apply N.div_small.
    eapply N.lt_le_trans; [exact Y|]. apply N.pow_le_mono_r; lia. }
  pose proof (f_equal (fun y => y / 2 ^ s) E) as D. cbv beta in D. rewrite !T in D by assumption.
  rewrite D in E. apply (f_equal (fun y => N.lxor y (x' / 2 ^ s))) in E. rewrite !N.lxor_assoc, N.lxor_nilpotent, !N.lxor_0_r in E. exact E.
Qed.
Lemma mul_inj : forall a b, (a * 0xc6a4a793) mod 2 ^ 32 = (b * 0xc6a4a793) mod 2 ^ 32 -> a mod 2 ^ 32 = b mod 2 ^ 32.
Proof.
  assert (T : forall a, ((a * 0xc6a4a793) mod 2 ^ 32 * 3625553563) mod 2 ^ 32 = a mod 2 ^ 32).
  { intros a. rewrite N.mul_mod_idemp_l by discriminate. rewrite <- N.mul_assoc. rewrite <- N.mul_mod_idemp_r by discriminate.
    replace ((0xc6a4a793 * 3625553563) mod 2 ^ 32) with 1 by (vm_compute; reflexivity). rewrite N.mul_1_r. reflexivity. }
  intros a b E. rewrite <- (T a), <- (T b), E. reflexivity.
Qed.
Lemma stir_lt : forall s h v, stir s h v < 2 ^ 32.
Proof. intros. unfold stir. rewrite <- shr_div. apply xor_small. apply N.mod_lt. discriminate. Qed.
Lemma stir_inj : forall s h v h' v', 16 <= s -> stir s h v = stir s h' v' -> (h + v) mod 2 ^ 32 = (h' + v') mod 2 ^ 32.
Proof.
  intros s h v h' v' S E. unfold stir in E. apply xorshift_inj in E; [apply mul_inj, E|exact S|apply N.mod_lt; discriminate|apply N.mod_lt; discriminate].
Qed.
Lemma add_mod_inj : forall a b c, a < 2 ^ 32 -> b < 2 ^ 32 -> (c + a) mod 2 ^ 32 = (c + b) mod 2 ^ 32 -> a = b.
Proof.
  intros a b c A B E. pose proof (N.div_mod (c + a) (2 ^ 32) (pow_pos _)) as Ea. pose proof (N.div_mod (c + b) (2 ^ 32) (pow_pos _)) as Eb.
  rewrite E in Ea. remember ((c + b) mod 2 ^ 32) as r. remember ((c + a) / 2 ^ 32) as u. remember ((c + b) / 2 ^ 32) as w.
  change (2 ^ 32) with 4294967296 in *. clear - A B Ea Eb. lia.
Qed.
Lemma number_lt : forall g, is_bytes g -> number g < 256 ^ N.of_nat (length g).
Proof.
  induction g as [|b g IH]; intros H; [reflexivity|]. inversion H as [|? ? Hb Hg]; subst. specialize (IH Hg).
  cbn [length]. rewrite Nnat.Nat2N.inj_succ, N.pow_succ_r'. change (number (b :: g)) with (N.of_nat b + 256 * number g). lia.
Qed.
Lemma number_32 : forall g, is_bytes g -> (length g <= 4)%nat -> number g < 2 ^ 32.
Proof.
  intros g H L. eapply N.lt_le_trans; [apply number_lt, H|]. change (2 ^ 32) with (256 ^ 4). apply N.pow_le_mono_r; lia.
Qed.
Lemma number_inj : forall g g', is_bytes g -> is_bytes g' -> length g = length g' -> number g = number g' -> g = g'.
Proof.
  induction g as [|b g IH]; intros [|b' g'] H H' L E; cbn in L; try discriminate; [reflexivity|].
  inversion H; inversion H'; subst. change (number (b :: g)) with (N.of_nat b + 256 * number g) in E.
  change (number (b' :: g')) with (N.of_nat b' + 256 * number g') in E.
  assert (N.of_nat b < 256) by lia. assert (N.of_nat b' < 256) by lia.
  assert (number g = number g') by lia. f_equal; [lia|]. apply IH; auto.
Qed.

Lemma body_inj : forall n k h h', (length k <= n)%nat -> h < 2 ^ 32 -> h' < 2 ^ 32 -> hash_body h k = hash_body h' k -> h = h'.
Proof.
  induction n; intros k h h' L H H' E.
  - destruct k; [exact E|cbn in L; lia].
  - destruct (le_lt_dec (length k) 4) as [S|S].
    + destruct k as [|b k]; [exact E|]. rewrite !body_last in E by (cbn [length] in *; lia). apply stir_inj in E; [|destruct (_ =? _)%nat; lia].
      rewrite (N.add_comm h), (N.add_comm h') in E. apply add_mod_inj in E; assumption.
    + destruct k as [|a [|b [|c [|d t]]]]; cbn in S; try lia. rewrite !body_step in E. apply IHn in E; [|cbn in L; lia|apply stir_lt|apply stir_lt].
      apply stir_inj in E; [|lia]. rewrite (N.add_comm h), (N.add_comm h') in E. apply add_mod_inj in E; assumption.
Qed.
Lemma body_group : forall i k q h, is_bytes k -> is_bytes q -> h < 2 ^ 32 -> length q = length k ->
  firstn (4 * i) q = firstn (4 * i) k -> skipn (4 * i + 4) q = skipn (4 * i + 4) k -> hash_body h q = hash_body h k -> q = k.
Proof.
  induction i; intros k q h K Q H L F SK E.
  - change (4 * 0 + 4)%nat with 4%nat in SK. destruct (le_lt_dec (length k) 4) as [M|M].
    + destruct k as [|b k]; [destruct q; [reflexivity|discriminate]|]. rewrite !body_last in E by (cbn [length] in *; lia). rewrite L in E.
      apply stir_inj in E; [|destruct (_ =? _)%nat; lia]. apply add_mod_inj in E; [|apply number_32; [exact Q|lia]|apply number_32; [exact K|lia]].
      apply number_inj; auto.
    + destruct k as [|a [|b [|c [|d t]]]]; cbn in M; try lia. destruct q as [|a' [|b' [|c' [|d' t']]]]; cbn in L; try lia.
      cbn [skipn] in SK. subst t'. rewrite !body_step in E. apply (body_inj (length t)) in E; [|lia|apply stir_lt|apply stir_lt].
      apply stir_inj in E; [|lia].
      apply (bytes_firstn 4) in K, Q. cbn [firstn] in K, Q. apply add_mod_inj in E; [|apply number_32; [exact Q|cbn; lia]|apply number_32; [exact K|cbn; lia]].
      apply number_inj in E; [injection E as -> -> -> ->; reflexivity|exact Q|exact K|reflexivity].
  - destruct (le_lt_dec (length k) (4 * S i)) as [M|M].
    + rewrite !firstn_all2 in F by lia. exact F.
    + destruct k as [|a [|b [|c [|d t]]]]; cbn in M; try lia. destruct q as [|a' [|b' [|c' [|d' t']]]]; cbn in L; try lia.
      replace (4 * S i)%nat with (S (S (S (S (4 * i))))) in * by lia. cbn [firstn skipn Nat.add] in F, SK. injection F as -> -> -> -> F.
      rewrite !body_step in E. f_equal. f_equal. f_equal. f_equal. inversion K as [|? ? _ K1]; inversion K1 as [|? ? _ K2]; inversion K2 as [|? ? _ K3]; inversion K3; subst.
      inversion Q as [|? ? _ Q1]; inversion Q1 as [|? ? _ Q2]; inversion Q2 as [|? ? _ Q3]; inversion Q3; subst.
      refine (IHi t t' _ _ _ _ _ F SK E); [assumption|assumption|apply stir_lt|lia].
Qed.

Lemma hash_one_group : forall k q seed, is_bytes k -> is_bytes q -> one_group k q -> Hash q seed <> Hash k seed.
Proof.
  intros k q seed K Q (L & NE & i & F & S) E. apply NE. unfold Hash in E. rewrite L in E.
  eapply body_group; try exact E; eauto. apply N.mod_lt. discriminate.
Qed.

(** * A changed byte in the last group *)

Lemma body_prefix : forall a p h, length p = (4 * a)%nat -> h < 2 ^ 32 -> exists h', h' < 2 ^ 32 /\
  forall g, (1 <= length g <= 4)%nat -> hash_body h (p ++ g) = stir (if (length g =? 4)%nat then 16 else 24) h' (number g).
Proof.
  induction a; intros p h L H.
  - destruct p; [|cbn in L; lia]. exists h. split; [exact H|]. intros g G. apply body_last, G.
  - destruct p as [|b0 [|b1 [|b2 [|b3 p]]]]; cbn in L; try lia.
    destruct (IHa p (stir 16 h (number [b0; b1; b2; b3]))) as (h' & H' & E); [lia|apply stir_lt|]. exists h'. split; [exact H'|].
    intros g G. cbn [app]. rewrite body_step. apply E, G.
Qed.

Lemma number_changed : forall g g' i, is_bytes g -> is_bytes g' -> changed_at i g g' -> exists d, 1 <= d <= 255 /\
  (number g' = number g + d * 256 ^ N.of_nat i \/ number g = number g' + d * 256 ^ N.of_nat i).
Proof.
  induction g as [|b g IH]; intros g' i G G' (L & I & NE & O); [cbn in I; lia|].
  destruct g' as [|b' g']; [cbn in L; lia|]. inversion G; inversion G'; subst.
  change (number (b :: g)) with (N.of_nat b + 256 * number g). change (number (b' :: g')) with (N.of_nat b' + 256 * number g').
  destruct i as [|i].
  - assert (g' = g) as ->.
    { apply (nth_ext _ _ 0%nat 0%nat); [cbn in L; lia|]. intros j _. apply (O (S j)). lia. }
    cbn in NE. change (256 ^ N.of_nat 0) with 1. destruct (le_lt_dec b b') as [C|C].
    + exists (N.of_nat (b' - b)). split; [lia|left; lia].
    + exists (N.of_nat (b - b')). split; [lia|right; lia].
  - assert (b' = b) as -> by (apply (O 0%nat); lia).
    destruct (IH g' i) as (d & D & E); try assumption.
    { split; [cbn in L; lia|]. split; [cbn in I; lia|]. split; [exact NE|]. intros j J. apply (O (S j)). lia. }
    exists d. split; [exact D|]. rewrite Nnat.Nat2N.inj_succ, N.pow_succ_r'. destruct E as [E|E]; [left|right]; rewrite E; lia.
Qed.

(** Equal blocks of [G] numbers modulo [M] mean a small difference. *)
Lemma near : forall M G x D, G <> 0 -> G <= D mod M -> D mod M + G <= M -> ((x + D) mod M) / G <> (x mod M) / G.
Proof.
  intros M G x D NG A B E. assert (NM : M <> 0) by lia.
  rewrite N.add_mod in E by exact NM. set (X := x mod M) in *. set (R := D mod M) in *.
  assert (HX : X < M) by (apply N.mod_lt, NM).
  assert (HR : R < M) by (apply N.mod_lt, NM).
  destruct (N.lt_ge_cases (X + R) M) as [C|C].
  - rewrite N.mod_small in E by exact C.
    assert ((X + G) / G <= (X + R) / G) by (apply N.div_le_mono; lia).
    rewrite <- (N.mul_1_l G) in H at 1. rewrite N.div_add in H by exact NG. lia.
  - assert (Q : (X + R) mod M = X + R - M).
    { symmetry. apply (N.mod_unique _ _ 1); lia. }
    rewrite Q in E. assert ((X + R - M + 1 * G) / G <= X / G) by (apply N.div_le_mono; lia).
    rewrite N.div_add in H by exact NG. lia.
Qed.

Definition apart (M G D : N) : bool := (G <=? D mod M) && (D mod M + G <=? M).
Definition bytes_apart (M G : N) (js : list N) : bool :=
  forallb (fun j => forallb (fun d => apart M G (N.of_nat d * 256 ^ j * 0xc6a4a793)) (seq 1 255)) js.
Lemma bytes_apart_in : forall M G js j d, bytes_apart M G js = true -> In j js -> 1 <= d <= 255 ->
  G <= (d * 256 ^ j * 0xc6a4a793) mod M /\ (d * 256 ^ j * 0xc6a4a793) mod M + G <= M.
Proof.
  intros M G js j d H J D. unfold bytes_apart in H. rewrite forallb_forall in H. specialize (H j J). rewrite forallb_forall in H.
  specialize (H (N.to_nat d)). rewrite in_seq in H. specialize (H ltac:(lia)). rewrite Nnat.N2Nat.id in H. unfold apart in H.
  apply andb_true_iff in H. rewrite !N.leb_le in H. exact H.
Qed.
Lemma apart_3 : bytes_apart (2 ^ 24) 256 [0; 1; 2] = true. Proof. vm_compute. reflexivity. Qed.
Lemma apart_4 : bytes_apart (2 ^ 32) 128 [0; 1; 2; 3] = true. Proof. vm_compute. reflexivity. Qed.

Definition raw (h v : N) : N := ((h + v) * 0xc6a4a793) mod 2 ^ 32.
Lemma raw_add : forall h v D, raw h (v + D) = (raw h v + D * 0xc6a4a793) mod 2 ^ 32.
Proof. intros. unfold raw. rewrite N.add_mod_idemp_l by discriminate. f_equal. lia. Qed.
Lemma stir_raw : forall s h v, stir s h v = N.lxor (raw h v) (raw h v / 2 ^ s). Proof. reflexivity. Qed.
Lemma raw_lt : forall h v, raw h v < 2 ^ 32. Proof. intros. apply N.mod_lt. discriminate. Qed.
Lemma high_bit : forall x i, x < 2 ^ 32 -> 32 <= i -> N.testbit x i = false.
Proof.
  intros x i X I. destruct (N.eq_dec x 0) as [->|Z]; [apply N.bits_0|]. apply N.bits_above_log2.
  assert (N.log2 x < 32) by (apply N.log2_lt_pow2; [lia|assumption]). lia.
Qed.

Lemma tail_bits : forall h v v', (forall i, 7 <= i < 24 -> N.testbit (stir 24 h v) i = N.testbit (stir 24 h v') i) ->
  (raw h v mod 2 ^ 24) / 256 = (raw h v' mod 2 ^ 24) / 256.
Proof.
  intros h v v' E. change 256 with (2 ^ 8). rewrite <- !N.shiftr_div_pow2, <- !N.land_ones. apply N.bits_inj. intros i.
  rewrite !N.shiftr_spec', !N.land_spec.
  destruct (N.lt_ge_cases (i + 8) 24) as [L|L]; [|rewrite (N.ones_spec_high 24 (i + 8)) by lia; rewrite !andb_false_r; reflexivity].
  f_equal. specialize (E (i + 8) ltac:(lia)). rewrite !stir_raw, !N.lxor_spec, <- !N.shiftr_div_pow2, !N.shiftr_spec' in E.
  rewrite !(high_bit _ (i + 8 + 24)) in E by (try apply raw_lt; lia). rewrite !xorb_false_r in E. exact E.
Qed.
Lemma group_bits : forall h v v', (forall i, 7 <= i < 32 -> N.testbit (stir 16 h v) i = N.testbit (stir 16 h v') i) ->
  (raw h v mod 2 ^ 32) / 128 = (raw h v' mod 2 ^ 32) / 128.
Proof.
  intros h v v' E. rewrite !N.mod_small by apply raw_lt. change 128 with (2 ^ 7). rewrite <- !N.shiftr_div_pow2. apply N.bits_inj. intros i.
  rewrite !N.shiftr_spec'.
  assert (T : forall i, 7 <= i < 32 -> xorb (N.testbit (raw h v) i) (N.testbit (raw h v) (i + 16)) = xorb (N.testbit (raw h v') i) (N.testbit (raw h v') (i + 16))).
  { intros j J. specialize (E j J). rewrite !stir_raw, !N.lxor_spec, <- !N.shiftr_div_pow2, !N.shiftr_spec' in E. exact E. }
  assert (U : forall i, 16 <= i -> N.testbit (raw h v) i = N.testbit (raw h v') i).
  { intros j J. destruct (N.lt_ge_cases j 32) as [L|L]; [|rewrite !high_bit by (try apply raw_lt; lia); reflexivity].
    specialize (T j ltac:(lia)). rewrite !(high_bit _ (j + 16)) in T by (try apply raw_lt; lia). rewrite !xorb_false_r in T. exact T. }
  destruct (N.lt_ge_cases (i + 7) 16) as [L|L]; [|apply U; lia].
  specialize (T (i + 7) ltac:(lia)). rewrite (U (i + 7 + 16)) in T by lia.
  destruct (N.testbit (raw h v) (i + 7)), (N.testbit (raw h v') (i + 7)), (N.testbit (raw h v') (i + 7 + 16)); cbn in T; congruence.
Qed.

Lemma changed_sym : forall i k q, changed_at i k q -> changed_at i q k.
Proof. intros i k q (L & I & NE & O). split; [lia|]. split; [lia|]. split; [congruence|]. intros j J. symmetry. apply O, J. Qed.

Lemma hash_bits_testbit : forall k q n i, (n <= 57)%nat -> (i < n)%nat -> hash_bits k n = hash_bits q n ->
  N.testbit (suffixHash k) (N.of_nat (7 + i)) = N.testbit (suffixHash q) (N.of_nat (7 + i)).
Proof.
  intros k q n i N I E. unfold hash_bits in E. destruct (Nat.leb_spec n 57); [|lia].
  assert (T : forall x, nth i (map (fun i => N.testbit (suffixHash x) (N.of_nat (7 + i))) (seq 0 n)) false = N.testbit (suffixHash x) (N.of_nat (7 + i))).
  { intros x. rewrite (nth_indep _ false (N.testbit (suffixHash x) (N.of_nat (7 + 0)))) by (rewrite map_length, seq_length; exact I).
    rewrite (map_nth (fun i => N.testbit (suffixHash x) (N.of_nat (7 + i)))). rewrite seq_nth by exact I. reflexivity. }
  rewrite <- (T k), <- (T q), E. reflexivity.
Qed.

Lemma changed_bits : forall i k q n, is_bytes k -> is_bytes q -> changed_at i k q -> in_last_group k i -> (n <= 57)%nat ->
  (25 <= n \/ 17 <= n /\ length k mod 4 <> 0)%nat -> hash_bits k n <> hash_bits q n.
Proof.
  intros i k q n K Q C LG N57 W E. pose proof C as (L & I & NE & O). unfold in_last_group in LG.
  set (a := ((length k - 1) / 4)%nat) in *.
  pose proof (Nat.div_mod (length k - 1) 4 ltac:(lia)) as DM. fold a in DM.
  pose proof (Nat.mod_upper_bound (length k - 1) 4 ltac:(lia)) as MU.
  assert (P : firstn (4 * a) q = firstn (4 * a) k).
  { apply (nth_ext _ _ 0%nat 0%nat); [rewrite !firstn_length; lia|]. intros j J. rewrite firstn_length in J.
    rewrite !nth_firstn' by lia. apply O. lia. }
  set (p := firstn (4 * a) k) in *. set (g := skipn (4 * a) k). set (g' := skipn (4 * a) q).
  assert (Ek : k = p ++ g) by (symmetry; apply firstn_skipn).
  assert (Eq : q = p ++ g') by (rewrite <- P; symmetry; apply firstn_skipn).
  assert (Lg : length g = (length k - 4 * a)%nat) by apply skipn_length.
  assert (Lg' : length g' = length g) by (unfold g'; rewrite skipn_length; lia).
  assert (Gb : is_bytes g) by (apply bytes_skipn, K).
  assert (Gb' : is_bytes g') by (apply bytes_skipn, Q).
  assert (Cg : changed_at (i - 4 * a) g g').
  { split; [exact Lg'|]. split; [lia|]. split.
    - unfold g, g'. rewrite !nth_skipn'. replace (4 * a + (i - 4 * a))%nat with i by lia. exact NE.
    - intros j J. unfold g, g'. rewrite !nth_skipn'. apply O. lia. }
  destruct (body_prefix a p (wrap32 (N.lxor 0xbc9f1d34 (wrap64 (N.of_nat (length k) * hash_m))))) as (h & Hh & HB).
  { unfold p. rewrite firstn_length. lia. } { apply N.mod_lt. discriminate. }
  assert (Sk : suffixHash k = stir (if (length g =? 4)%nat then 16 else 24) h (number g)).
  { unfold suffixHash, Hash. rewrite Ek at 2. apply HB. lia. }
  assert (Sq : suffixHash q = stir (if (length g =? 4)%nat then 16 else 24) h (number g')).
  { unfold suffixHash, Hash. rewrite L. rewrite Eq at 1. rewrite HB by lia. rewrite Lg'. reflexivity. }
  assert (B : forall j, 7 <= j < 7 + N.of_nat n -> N.testbit (suffixHash k) j = N.testbit (suffixHash q) j).
  { intros j J. pose proof (hash_bits_testbit k q n (N.to_nat j - 7) N57 ltac:(lia) E) as T.
    replace (N.of_nat (7 + (N.to_nat j - 7))) with j in T by lia. exact T. }
  rewrite Sk, Sq in B.
  (* which of the two numbers is larger does not matter *)
  assert (Main : forall v v' d, 1 <= d <= 255 -> v' = v + d * 256 ^ N.of_nat (i - 4 * a) ->
    (forall j, 7 <= j < 7 + N.of_nat n -> N.testbit (stir (if (length g =? 4)%nat then 16 else 24) h v) j =
                                        N.testbit (stir (if (length g =? 4)%nat then 16 else 24) h v') j) -> False).
  { intros v v' d D V T. destruct (Nat.eqb_spec (length g) 4) as [F|F].
    - assert (M0 : (length k mod 4 = 0)%nat) by (replace (length k) with (0 + (a + 1) * 4)%nat by lia; apply Nat.mod_add; lia).
      assert (25 <= n)%nat by (destruct W as [W|[_ W]]; [exact W|contradiction]).
      assert (X : (raw h v mod 2 ^ 32) / 128 = (raw h v' mod 2 ^ 32) / 128) by (apply group_bits; intros j J; apply T; lia).
      rewrite V, raw_add in X. rewrite N.mod_mod in X by discriminate.
      destruct (bytes_apart_in _ _ _ (N.of_nat (i - 4 * a)) d apart_4) as (A1 & A2); [|exact D|].
      + assert ((i - 4 * a = 0 \/ i - 4 * a = 1 \/ i - 4 * a = 2 \/ i - 4 * a = 3)%nat) as [->|[->|[->| ->]]] by lia; cbn; tauto.
      + symmetry in X. revert X. apply near; [discriminate|exact A1|exact A2].
    - assert (17 <= n)%nat by lia.
      assert (X : (raw h v mod 2 ^ 24) / 256 = (raw h v' mod 2 ^ 24) / 256) by (apply tail_bits; intros j J; apply T; lia).
      rewrite V, raw_add in X.
      assert (MM : forall y, (y mod 2 ^ 32) mod 2 ^ 24 = y mod 2 ^ 24).
      { intros y. rewrite <- !N.land_ones. rewrite <- N.land_assoc. f_equal. }
      rewrite MM in X.
      destruct (bytes_apart_in _ _ _ (N.of_nat (i - 4 * a)) d apart_3) as (A1 & A2); [|exact D|].
      + assert ((i - 4 * a = 0 \/ i - 4 * a = 1 \/ i - 4 * a = 2)%nat) as [->|[->| ->]] by lia; cbn; tauto.
      + symmetry in X. revert X. apply near; [discriminate|exact A1|exact A2]. }
  destruct (number_changed g g' _ Gb Gb' Cg) as (d & D & [V|V]).
  - exact (Main _ _ d D V B).
  - apply (Main _ _ d D V). intros j J. symmetry. apply B, J.
Qed.

Lemma hash_rejects : forall e c keys f, machine e -> settings c -> good_keys keys -> ~ lone_ff keys ->
  padded e c keys f -> filter_of e c keys f -> cf_type c = kHash \/ cf_type c = kMixed ->
  forall k q i, In k keys -> is_bytes q -> SpecExact.follows keys k q -> changed_at i k q -> in_last_group k i -> (cf_hlen c <= 57)%nat ->
  (25 <= cf_hlen c \/ 17 <= cf_hlen c /\ length k mod 4 <> 0)%nat -> lookupKey e f q = Ok false.
Proof.
  intros e c keys f HM HC HG HL HZ HF HT k q i K Q FO C LG H57 W.
  destruct (point_exact e c keys f q HM HC HG HL HZ HF Q) as (b & E & H); [left; destruct HT as [-> | ->]; discriminate|].
  rewrite E. f_equal. destruct b; [exfalso|reflexivity]. destruct (proj1 H eq_refl) as (k' & K' & d & D & F & A).
  assert (k' = k) as -> by (eapply follows_unique; eauto; exists d; split; [exact D|exact F]).
  assert (KB : is_bytes k) by (destruct HG as (_ & FB & _); rewrite Forall_forall in FB; apply FB, K).
  apply (changed_bits i k q (cf_hlen c) KB Q C LG H57 W). unfold admits in A. destruct HT as [T|T]; rewrite T in A; [exact A|apply A].
Qed.
