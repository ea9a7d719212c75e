(** MurmurHash3_x86_128 reads only the bytes of the key and returns 32-bit words. *)
From Coq Require Import Arith List NArith Bool Lia.
From Verif Require Import Res Word Config Bloom Murmur Spec SpecBloom BloomFacts.
Import ListNotations.

Lemma wrap_lt : forall n, (wrap32 n < 2 ^ 32)%N.
Proof. intros n. unfold wrap32, two32. apply N.mod_lt. discriminate. Qed.

Lemma vget_some : forall A (l : list A) i, i < length l -> exists x, vget l i = Ok x.
Proof.
  intros A l i H. unfold vget. destruct (nth_error l i) as [x|] eqn:E; [eauto|]. apply nth_error_None in E. lia.
Qed.

Lemma getblock_total : forall d i, 4 * i + 4 <= length d -> exists w, getblock32 d i = Ok w.
Proof.
  intros d i H. unfold getblock32.
  destruct (vget_some _ d (4 * i)) as (a & ->); [lia|]. destruct (vget_some _ d (4 * i + 1)) as (b & ->); [lia|].
  destruct (vget_some _ d (4 * i + 2)) as (c & ->); [lia|]. destruct (vget_some _ d (4 * i + 3)) as (x & ->); [lia|].
  cbn [bind]. eauto.
Qed.

Lemma rounds_total : forall d l st, (forall i, In i l -> 16 * i + 16 <= length d) -> exists st', foldM (mur_round d) l st = Ok st'.
Proof.
  intros d. induction l as [|i l IH]; intros [[[h1 h2] h3] h4] H; cbn [foldM]; [eauto|].
  assert (Hi : 16 * i + 16 <= length d) by (apply H; left; auto). unfold mur_round.
  destruct (getblock_total d (4 * i)) as (k1 & ->); [lia|]. destruct (getblock_total d (4 * i + 1)) as (k2 & ->); [lia|].
  destruct (getblock_total d (4 * i + 2)) as (k3 & ->); [lia|]. destruct (getblock_total d (4 * i + 3)) as (k4 & ->); [lia|].
  cbn [bind]. apply IH. intros j Hj. apply H. right; auto.
Qed.

Lemma word_total : forall t a m, a + m <= length t -> exists w, mur_word t a m = Ok w.
Proof.
  intros t a m H. unfold mur_word. assert (G : forall i, In i (rev (seq 0 m)) -> i < m).
  { intros i Hi. apply in_rev in Hi. apply in_seq in Hi. lia. }
  revert G. generalize (rev (seq 0 m)) as l. generalize 0%N as k.
  intros k l. revert k. induction l as [|i l IH]; intros k G; cbn [foldM]; [eauto|].
  destruct (vget_some _ t (a + i)) as (b & ->); [specialize (G i (or_introl eq_refl)); lia|]. cbn [bind].
  apply IH. intros j Hj. apply G. right; auto.
Qed.

Lemma tail_total : forall t n st, n <= length t -> n <= 15 -> exists st', mur_tail t n st = Ok st'.
Proof.
  intros t n [[[h1 h2] h3] h4] H H15. unfold mur_tail.
  assert (W : forall (b : bool) a m (g : N -> N) h, (b = true -> a + m <= length t) ->
    exists w, (if b then k <- mur_word t a m ;; Ok (g k) else Ok h) = Ok w).
  { intros [] a m g h Hb; [|eauto]. destruct (word_total t a m (Hb eq_refl)) as (w & ->). cbn [bind]. eauto. }
  destruct (W (12 <? n) 12 (n - 12) (fun k4 => N.lxor h4 (scramble k4 mc4 18 mc1)) h4) as (w4 & ->); [intros X; apply Nat.ltb_lt in X; lia|].
  cbn [bind].
  destruct (W (8 <? n) 8 (Nat.min 4 (n - 8)) (fun k3 => N.lxor h3 (scramble k3 mc3 17 mc4)) h3) as (w3 & ->); [intros X; apply Nat.ltb_lt in X; lia|].
  cbn [bind].
  destruct (W (4 <? n) 4 (Nat.min 4 (n - 4)) (fun k2 => N.lxor h2 (scramble k2 mc2 16 mc3)) h2) as (w2 & ->); [intros X; apply Nat.ltb_lt in X; lia|].
  cbn [bind].
  destruct (W (0 <? n) 0 (Nat.min 4 n) (fun k1 => N.lxor h1 (scramble k1 mc1 15 mc2)) h1) as (w1 & ->); [intros X; apply Nat.ltb_lt in X; lia|].
  cbn [bind]. eauto.
Qed.

Lemma mur_total : forall d seed, exists h1 h2 h3 h4, MurmurHash3_x86_128 d seed = Ok (h1, h2, h3, h4) /\
  (h1 < 2 ^ 32 /\ h2 < 2 ^ 32 /\ h3 < 2 ^ 32 /\ h4 < 2 ^ 32)%N.
Proof.
  intros d seed. unfold MurmurHash3_x86_128. cbv zeta. pose proof (Nat.div_mod_eq (length d) 16) as Q. pose proof (Nat.mod_upper_bound (length d) 16 ltac:(lia)) as R.
  destruct (rounds_total d (seq 0 (length d / 16)) (seed, seed, seed, seed)) as (st & ->).
  { intros i Hi. apply in_seq in Hi. lia. }
  cbn [bind]. destruct (tail_total (skipn (16 * (length d / 16)) d) (length d mod 16) st) as ([[[h1 h2] h3] h4] & ->).
  { rewrite skipn_length. lia. } { lia. }
  cbn [bind]. destruct (mur_mix _) as [[[g1 g2] g3] g4]. unfold mur_mix.
  do 4 eexists. split; [reflexivity|]. unfold add32. repeat split; apply wrap_lt.
Qed.

Lemma bloomhash_total : forall k, exists h d, BloomHash k = Ok (h, d) /\ (h < 2 ^ 32 /\ d < 2 ^ 32)%N.
Proof.
  intros k. unfold BloomHash. destruct (mur_total k 0xbc9f1d34) as (h1 & h2 & h3 & h4 & -> & A & B & _).
  cbn [bind]. eauto.
Qed.
