(** Sample data for approxCount. *)
From Coq Require Import Arith List NArith Bool Lia.
From Verif Require Import Res Config Builder Dense Sparse Surf Spec SpecApi SpecIter SpecRange SpecCount Samples SamplesIter SamplesRange.
Import ListNotations.

Definition counted (e : env) (c : config) (keys : list bytes) (l r : bytes) : res N :=
  f <- create e c keys ;; approxCount e f l r.

(** from the first key, [n] steps on, to the first key, [m] steps on *)
Definition counted_it (e : env) (c : config) (keys : list bytes) (n m : nat) : res N :=
  f <- create e c keys ;; a <- moveToFirst e f ;; a <- run e f (repeat Fwd n) a ;;
  b <- moveToFirst e f ;; b <- run e f (repeat Fwd m) b ;; approxCount_it e f a b.

(** "a", "ab", "b1", "b2", "b3", "cat", "dxa", "dxb": one dense level *)
Definition keys_c : list bytes :=
  [[97]; [97; 98]; [98; 49]; [98; 50]; [98; 51]; [99; 97; 116]; [100; 120; 97]; [100; 120; 98]].
(** two dense levels and nothing below them; "b" is a prefix of other keys, "c" is the last key *)
Definition keys_w : list bytes := map (fun i => [97; i]) (seq 1 210) ++ [[98]] ++ map (fun i => [98; i]) (seq 1 210) ++ [[99]].
(** the same with bytes 0, and short keys between *)
Definition keys_0 : list bytes :=
  [[96]] ++ map (fun i => [97; i]) (seq 0 210) ++ [[98]] ++ map (fun i => [99; i]) (seq 0 210).

Lemma keys_c_good : good_keys keys_c. Proof. apply good_keysb_ok. reflexivity. Qed.
Lemma keys_c_not_ff : ~ lone_ff keys_c.
Proof. intros (k & _ & H). specialize (H [97] ltac:(left; reflexivity)). discriminate. Qed.
Lemma keys_w_good : good_keys keys_w. Proof. apply good_keysb_ok. vm_compute. reflexivity. Qed.
Lemma keys_0_good : good_keys keys_0. Proof. apply good_keysb_ok. vm_compute. reflexivity. Qed.

(** checks for the hypotheses *)
Definition plainb (keys : list bytes) : bool := forallb (forallb (fun b => (0 <? b) && (b <? 255))) keys.
Lemma plain_check : forall keys h, plainb keys = true -> plain_top keys h.
Proof.
  intros keys h H k d I _. unfold plainb in H. rewrite forallb_forall in H. specialize (H k I). rewrite forallb_forall in H.
  apply Forall_forall. intros b B.
  assert (B' : In b k) by (rewrite <- (firstn_skipn (Nat.min h d) k); apply in_or_app; auto).
  specialize (H b B'). apply andb_prop in H. destruct H as [H1 H2]. apply Nat.ltb_lt in H1, H2. auto.
Qed.

(** [d] bytes tell [k] from the other keys *)
Definition tells (keys : list bytes) (k : bytes) (d : nat) : bool :=
  forallb (fun x => keqb x k || negb (keqb (firstn d x) (firstn d k))) keys.
Lemma tells_bound : forall keys k d dx, 1 <= d -> tells keys k d = true -> dist_len keys k dx -> dx <= d.
Proof.
  intros keys k d dx D T (_ & _ & M). destruct (le_lt_dec dx d) as [H|H]; [exact H|exfalso].
  destruct (M d ltac:(lia)) as (x & X1 & X2 & X3). unfold tells in T. rewrite forallb_forall in T. specialize (T x X1).
  apply orb_prop in T. destruct T as [T|T]; [apply keqb_ok in T; auto|].
  rewrite X3, keqb_refl in T. discriminate.
Qed.

Definition dist_lenb (keys : list bytes) (k : bytes) (d : nat) : bool :=
  (1 <=? d) && tells keys k d &&
  forallb (fun i => existsb (fun x => negb (keqb x k) && keqb (firstn i x) (firstn i k)) keys) (seq 1 (d - 1)).
Lemma dist_len_check : forall keys k d, dist_lenb keys k d = true -> dist_len keys k d.
Proof.
  intros keys k d H. unfold dist_lenb in H. apply andb_prop in H. destruct H as [H H3]. apply andb_prop in H. destruct H as [H1 H2].
  apply Nat.leb_le in H1. split; [exact H1|]. split.
  - intros x I Ne E. unfold tells in H2. rewrite forallb_forall in H2. specialize (H2 x I). apply orb_prop in H2.
    destruct H2 as [H2|H2]; [apply keqb_ok in H2; auto|]. rewrite E, keqb_refl in H2. discriminate.
  - intros i I. rewrite forallb_forall in H3. specialize (H3 i ltac:(apply in_seq; lia)). apply existsb_exists in H3.
    destruct H3 as (x & X1 & X2). apply andb_prop in X2. destruct X2 as [X2 X3]. exists x. split; [exact X1|].
    apply keqb_ok in X3. split; [|exact X3]. intros E. subst x. rewrite keqb_refl in X2. discriminate.
Qed.

(** no key lies between two others *)
Lemma klt_kltb : forall a b, klt a b -> kltb a b = true.
Proof.
  induction a as [|x a IH]; intros [|y b]; cbn [kltb klt]; intros H; try contradiction; auto.
  destruct H as [H|[H1 H2]]; [apply Nat.ltb_lt in H; rewrite H; reflexivity|].
  subst y. rewrite Nat.eqb_refl, (IH b H2). rewrite orb_true_r. reflexivity.
Qed.
Lemma neighbours_check : forall keys l r, forallb (fun x => negb (kltb l x && kltb x r)) keys = true ->
  forall x, In x keys -> ~ (klt l x /\ klt x r).
Proof.
  intros keys l r H x I [A B]. rewrite forallb_forall in H. specialize (H x I).
  rewrite (klt_kltb l x A), (klt_kltb x r B) in H. discriminate.
Qed.
