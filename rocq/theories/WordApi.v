(** The word helpers in the vocabulary of SpecBits.v, and deciders for the
    sample data of PropBits.v. *)
From Coq Require Import Arith List NArith ZArith Bool Lia ZifyN ZifyNat ZifyBool.
From Verif Require Import Res Word BitFacts WordFacts SpecBits BitsApi Swar.
Import ListNotations.

Lemma holds_check : forall ws n, forallb (fun w => (w <? 2 ^ 64)%N) ws && (n <=? 64 * length ws)
  && forallb negb (skipn n (vec_bits ws)) = true -> holds ws n.
Proof.
  intros ws n H. rewrite !andb_true_iff in H. destruct H as [[A B] C]. rewrite !forallb_forall in *. split; [|split].
  - apply Forall_forall. intros w Hw. apply N.ltb_lt. auto.
  - apply Nat.leb_le. auto.
  - intros i Hi. destruct (lt_dec i (length (vec_bits ws))) as [L|L]; [|apply nth_overflow; lia].
    specialize (C (nth i (vec_bits ws) false)). destruct (nth i (vec_bits ws) false) eqn:E; auto.
    exfalso. assert (Q : negb true = true); [|discriminate]. apply C.
    replace i with (n + (i - n)) in E by lia. rewrite <- nth_skipn_add in E. rewrite <- E.
    apply nth_In. rewrite skipn_length. lia.
Qed.

Fixpoint ascb (l : list nat) : bool :=
  match l with x :: t => match t with y :: _ => (x <? y) && ascb t | [] => true end | [] => true end.
Lemma ascb_ok : forall l, ascb l = true -> forall x y, x < y -> y < length l -> nth x l 0 < nth y l 0.
Proof.
  induction l as [|a l IH]; intros H x y H1 H2; [cbn in H2; lia|]. destruct l as [|b l]; [cbn in H2; lia|].
  cbn [ascb] in H. apply andb_prop in H. destruct H as [HA HB]. apply Nat.ltb_lt in HA. specialize (IH HB).
  destruct y as [|y]; [lia|]. destruct x as [|x].
  - cbn [nth]. destruct y as [|y]; [cbn; auto|]. pose proof (IH 0 (S y) ltac:(lia) ltac:(cbn in *; lia)) as Q. cbn [nth] in Q. cbn [nth]. lia.
  - cbn [nth]. change (nth x (b :: l) 0 < nth y (b :: l) 0). apply IH; cbn in *; lia.
Qed.
Lemma node_sorted_check : forall labels pos n,
  (pos + n <=? length labels) && ascb (firstn (pos + n - first_label labels pos n) (skipn (first_label labels pos n) labels)) = true ->
  node_sorted labels pos n.
Proof.
  intros labels pos n H. apply andb_prop in H. destruct H as [A B]. apply Nat.leb_le in A. split; auto.
  set (p := first_label labels pos n) in *. intros x y H1 H2 H3.
  assert (P : forall z, p <= z -> z < pos + n -> nth z labels 0 = nth (z - p) (firstn (pos + n - p) (skipn p labels)) 0).
  { intros z Z1 Z2. rewrite nth_firstn' by lia. rewrite nth_skipn_add. f_equal. lia. }
  rewrite (P x), (P y) by lia. apply ascb_ok; auto; [lia|]. rewrite firstn_length, skipn_length. lia.
Qed.

Theorem api_suxpopcount : forall x, (x < 2 ^ 64)%N -> suxpopcount x = N.of_nat (ones (word_bits x)).
Proof. intros x H. rewrite suxpopcount_spec by auto. f_equal. rewrite ones_cnt. apply popcnt_bits64. exact H. Qed.
Theorem api_popcountLinear : forall e ws x n, Forall (fun w => (w < 2 ^ 64)%N) ws -> 64 * x + n <= 64 * length ws ->
  popcountLinear e ws x n = Ok (ones (firstn n (skipn (64 * x) (vec_bits ws)))).
Proof. intros. rewrite ones_cnt, vec_bits_eq. apply popcountLinear_spec; auto. Qed.
Theorem api_select64 : forall x k, (x < 2 ^ 64)%N -> 1 <= k <= ones (word_bits x) -> exists p,
  select64_naive x (Z.of_nat k) = Z.of_nat p /\ select64_popcount_search x (Z.of_nat k) = Z.of_nat p /\
  select64 x (Z.of_nat k) = Z.of_nat p /\
  p < 64 /\ nth p (word_bits x) false = true /\ ones (firstn p (word_bits x)) = k - 1.
Proof.
  intros x k Hx Hk. rewrite ones_cnt in Hk. rewrite word_bits_eq in *. exists (sel k (bits64 x)).
  split; [apply select64_naive_spec; auto|]. split; [apply select64_spec; auto; lia|]. split; [apply select64_spec; auto; lia|].
  rewrite ones_cnt. pose proof (sel_spec (bits64 x) k ltac:(lia) ltac:(lia)) as Q. rewrite bits64_length in Q. exact Q.
Qed.
Lemma avail_block : forall ws en p, avail ws en p = firstn (64 * (en - p)) (skipn (64 * p) (vec_bits ws)).
Proof. intros. unfold avail. rewrite (vec_bits_eq ws). rewrite <- bits_of_firstn, <- bits_of_skipn. reflexivity. Qed.
Theorem api_select512 : forall e ws x k, Forall (fun w => (w < 2 ^ 64)%N) ws -> x + 8 <= length ws -> 1 <= k ->
  let block := firstn 512 (skipn (64 * x) (vec_bits ws)) in
  if k <=? ones block
  then exists p, select512 e ws x (Z.of_nat k) = Ok (Z.of_nat p) /\
    p < 512 /\ nth p block false = true /\ ones (firstn p block) = k - 1
  else select512 e ws x (Z.of_nat k) = Ok (-1)%Z.
Proof.
  intros e ws x k HW Hx Hk block. rewrite (select512_spec e ws HW x k Hx Hk).
  assert (E : avail ws (x + 8) x = block). { rewrite avail_block. unfold block. f_equal. lia. }
  rewrite E, ones_cnt. destruct (Nat.leb_spec k (cnt block)) as [L|L]; [|reflexivity].
  exists (sel k block). split; [reflexivity|]. rewrite ones_cnt.
  pose proof (sel_spec block k Hk L) as (A & B & C). split; auto.
  unfold block in A. rewrite firstn_length in A. fold block in A. lia.
Qed.
Lemma naive_none : forall n x k i c, ones (bitsn n x) < k -> i = n - 1 -> select64_naive_loop n x (Z.of_nat k) i c = (-1)%Z.
Proof.
  induction n as [|n IH]; intros x k i c H Hi; [reflexivity|]. rewrite ones_cnt in H.
  cbn [select64_naive_loop]. replace i with n by lia. rewrite N.shiftl_1_l, land_pow2_test.
  cbn [bitsn] in *. destruct (N.testbit x (N.of_nat n)); cbn [cnt] in *.
  - destruct k as [|k]; [lia|]. replace (Z.of_nat (S k) - 1)%Z with (Z.of_nat k) by lia.
    destruct (Z.eqb_spec (Z.of_nat k) 0) as [E|E]; [lia|]. apply IH; [rewrite ones_cnt; lia|reflexivity].
  - apply IH; [rewrite ones_cnt; lia|reflexivity].
Qed.
Theorem api_naive_none : forall x k, (x < 2 ^ 64)%N -> ones (word_bits x) < k -> select64_naive x (Z.of_nat k) = (-1)%Z.
Proof. intros x k Hx H. rewrite word_bits_eq in H. apply (naive_none 64); [exact H|reflexivity]. Qed.
Theorem api_selectLinear_none : forall e ws k, Forall (fun w => (w < 2 ^ 64)%N) ws -> ws <> [] -> ones (vec_bits ws) < k ->
  selectLinear e ws (length ws) 0 (Z.of_nat k) = Ok None.
Proof.
  intros e ws k HW Hn H. apply (selectLinear_none e ws HW).
  - destruct ws; [congruence|cbn [length]; lia].
  - rewrite avail_block, firstn_all2 by (rewrite skipn_length, vec_bits_eq, WordFacts.bits_of_length; lia). cbn [Nat.mul skipn]. rewrite <- ones_cnt. exact H.
Qed.
Theorem api_selectLinear : forall e ws x k, Forall (fun w => (w < 2 ^ 64)%N) ws -> x < length ws ->
  let rest := skipn (64 * x) (vec_bits ws) in 1 <= k <= ones rest ->
  exists p, selectLinear e ws (length ws) x (Z.of_nat k) = Ok (Some (Z.of_nat p)) /\
    p < length rest /\ nth p rest false = true /\ ones (firstn p rest) = k - 1.
Proof.
  intros e ws x k HW Hx rest Hk.
  assert (E : avail ws (length ws) x = rest).
  { rewrite avail_block. unfold rest. apply firstn_all2. rewrite skipn_length, vec_bits_eq, WordFacts.bits_of_length. lia. }
  rewrite ones_cnt in Hk. exists (sel k rest). rewrite ones_cnt. rewrite (selectLinear_spec e ws HW x k Hx); rewrite E; auto.
  split; [reflexivity|]. apply sel_spec; lia.
Qed.
