(** Integer keys: uint64ToString and stringToUint64. *)
From Coq Require Import Arith List NArith Bool Lia ZifyN ZifyNat ZifyBool.
From Verif Require Import Res Word Config Spec.
Import ListNotations.

Lemma le_bytes_length : forall n w, length (le_bytes n w) = n.
Proof. induction n as [|n IH]; intros w; cbn [le_bytes length]; auto. Qed.
Lemma le_bytes_ok : forall n w, is_bytes (le_bytes n w).
Proof.
  unfold is_bytes. induction n as [|n IH]; intros w; cbn [le_bytes]; constructor; auto.
  pose proof (N.mod_lt w 256 ltac:(lia)). lia.
Qed.
Lemma of_le_le : forall n w, (w < 256 ^ N.of_nat n)%N -> of_le_bytes (le_bytes n w) = w.
Proof.
  induction n as [|n IH]; intros w H; cbn [le_bytes of_le_bytes].
  - cbn in H. lia.
  - rewrite Nat2N.inj_succ, N.pow_succ_r' in H. rewrite IH by (apply N.div_lt_upper_bound; lia).
    rewrite N2Nat.id. pose proof (N.div_mod w 256 ltac:(lia)). lia.
Qed.
Lemma le_of_le : forall l, is_bytes l -> le_bytes (length l) (of_le_bytes l) = l.
Proof.
  induction l as [|b l IH]; intros H; [reflexivity|]. unfold is_bytes in H. apply Forall_cons_iff in H. destruct H as [H1 H2].
  cbn [length le_bytes of_le_bytes]. rewrite (N.mul_comm 256), N.mod_add, N.div_add by lia.
  rewrite N.mod_small, N.div_small by lia. rewrite Nat2N.id, N.add_0_l, IH by auto. reflexivity.
Qed.
Lemma of_le_bound : forall l, is_bytes l -> (of_le_bytes l < 256 ^ N.of_nat (length l))%N.
Proof.
  induction l as [|b l IH]; intros H; [reflexivity|]. unfold is_bytes in H. apply Forall_cons_iff in H. destruct H as [H1 H2].
  cbn [length of_le_bytes]. rewrite Nat2N.inj_succ, N.pow_succ_r'. specialize (IH H2). lia.
Qed.
Lemma is_bytes_rev : forall l, is_bytes l -> is_bytes (rev l).
Proof. unfold is_bytes. intros l H. apply Forall_rev. auto. Qed.

Lemma u64_eq : forall w, uint64ToString w = rev (le_bytes 8 w).
Proof.
  intros w. unfold uint64ToString, bswap64.
  pose proof (le_of_le (rev (le_bytes 8 w)) (is_bytes_rev _ (le_bytes_ok 8 w))) as H.
  rewrite rev_length, le_bytes_length in H. exact H.
Qed.

Theorem u64_shape : forall w, length (uint64ToString w) = 8 /\ is_bytes (uint64ToString w).
Proof.
  intros w. rewrite u64_eq. split; [rewrite rev_length; apply le_bytes_length|apply is_bytes_rev, le_bytes_ok].
Qed.

Theorem u64_roundtrip : forall w, (w < 2 ^ 64)%N -> stringToUint64 (uint64ToString w) = Ok w.
Proof.
  intros w H. unfold stringToUint64. destruct (u64_shape w) as [L B]. rewrite L. cbn [Nat.leb].
  rewrite firstn_app, L. rewrite Nat.sub_diag, firstn_O, app_nil_r, firstn_all2 by lia.
  f_equal. unfold bswap64. rewrite u64_eq in *. rewrite <- L at 1. rewrite le_of_le by auto. rewrite rev_involutive.
  apply of_le_le. exact H.
Qed.

(** Any string: its first eight bytes, the end of a string of seven read as 0. *)
Lemma be_le : forall l, of_le_bytes (rev l) = fold_left (fun v b => (256 * v + N.of_nat b)%N) l 0%N.
Proof.
  intros l. rewrite <- fold_left_rev_right.
  generalize (rev l). induction l0 as [|b r IH]; [reflexivity|]. cbn [of_le_bytes fold_right]. rewrite IH. lia.
Qed.
Theorem u64_any : forall s, is_bytes s ->
  (length s < 7 -> stringToUint64 s = Fail OutOfBounds) /\
  (7 <= length s -> stringToUint64 s = Ok (fold_left (fun v b => (256 * v + N.of_nat b)%N) (firstn 8 (s ++ [0])) 0%N)).
Proof.
  intros s HB. unfold stringToUint64. split; intros HL; destruct (Nat.leb_spec 7 (length s)); try lia; [reflexivity|].
  f_equal. unfold bswap64.
  assert (L : length (firstn 8 (s ++ [0])) = 8) by (rewrite firstn_length, app_length; cbn [length]; lia).
  assert (B : is_bytes (firstn 8 (s ++ [0]))).
  { unfold is_bytes. apply Forall_forall. intros x X. assert (In x (s ++ [0])) as Y by (rewrite <- (firstn_skipn 8 (s ++ [0])); apply in_or_app; left; exact X).
    apply in_app_or in Y. unfold is_bytes in HB. rewrite Forall_forall in HB. destruct Y as [Y|[<-|[]]]; [apply HB, Y|lia]. }
  rewrite <- L at 1. rewrite le_of_le by exact B. apply be_le.
Qed.

Theorem u64_string_roundtrip : forall s, is_bytes s -> length s = 8 ->
  exists w, (w < 2 ^ 64)%N /\ stringToUint64 s = Ok w /\ uint64ToString w = s.
Proof.
  intros s HB HL. exists (of_le_bytes (rev s)). split; [|split].
  - pose proof (of_le_bound (rev s) (is_bytes_rev _ HB)) as Q. rewrite rev_length, HL in Q. exact Q.
  - unfold stringToUint64. rewrite HL. cbn [Nat.leb].
    rewrite firstn_app, HL. rewrite Nat.sub_diag, firstn_O, app_nil_r, firstn_all2 by lia.
    unfold bswap64. rewrite <- HL at 1. rewrite le_of_le by auto. reflexivity.
  - rewrite u64_eq. rewrite <- HL. rewrite <- (rev_length s). rewrite le_of_le by (apply is_bytes_rev; auto). apply rev_involutive.
Qed.

Lemma klt_snoc : forall a b x y, length a = length b -> (klt (a ++ [x]) (b ++ [y]) <-> klt a b \/ (a = b /\ x < y)).
Proof.
  induction a as [|p a IH]; intros [|q b] x y H; cbn in H; try discriminate; cbn [app klt].
  - split; [intros [H1|[_ []]]; right; auto|]. intros [[]|[_ H1]]; auto.
  - injection H as H. rewrite (IH b x y H). split.
    + intros [A|(-> & [A|[-> A]])]; auto.
    + intros [[A|[A B]]|[A B]]; auto. injection A as -> ->. auto.
Qed.

Lemma le_inj : forall n a b, (a < 256 ^ N.of_nat n)%N -> (b < 256 ^ N.of_nat n)%N -> le_bytes n a = le_bytes n b -> a = b.
Proof. intros n a b Ha Hb E. rewrite <- (of_le_le n a Ha), <- (of_le_le n b Hb), E. reflexivity. Qed.

Lemma le_order : forall n a b, (a < 256 ^ N.of_nat n)%N -> (b < 256 ^ N.of_nat n)%N ->
  (klt (rev (le_bytes n a)) (rev (le_bytes n b)) <-> (a < b)%N).
Proof.
  induction n as [|n IH]; intros a b Ha Hb.
  - cbn in *. split; [tauto|]. lia.
  - cbn [le_bytes rev]. rewrite Nat2N.inj_succ, N.pow_succ_r' in Ha, Hb.
    assert (Qa : (a / 256 < 256 ^ N.of_nat n)%N) by (apply N.div_lt_upper_bound; lia).
    assert (Qb : (b / 256 < 256 ^ N.of_nat n)%N) by (apply N.div_lt_upper_bound; lia).
    rewrite klt_snoc by (rewrite !rev_length, !le_bytes_length; reflexivity). rewrite IH by auto.
    pose proof (N.div_mod a 256 ltac:(lia)) as Da. pose proof (N.div_mod b 256 ltac:(lia)) as Db.
    pose proof (N.mod_lt a 256 ltac:(lia)) as Ma. pose proof (N.mod_lt b 256 ltac:(lia)) as Mb.
    split.
    + intros [A|[A B]]; [lia|]. apply (f_equal (@rev nat)) in A. rewrite !rev_involutive in A. apply le_inj in A; auto. lia.
    + intros A. destruct (N.lt_trichotomy (a / 256) (b / 256)) as [L|[L|L]]; [left; auto| |lia].
      right. split; [rewrite L; reflexivity|]. lia.
Qed.

Theorem u64_order : forall a b, (a < 2 ^ 64)%N -> (b < 2 ^ 64)%N ->
  (klt (uint64ToString a) (uint64ToString b) <-> (a < b)%N).
Proof. intros a b Ha Hb. rewrite !u64_eq. apply le_order; auto. Qed.
