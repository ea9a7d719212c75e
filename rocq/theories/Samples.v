(** Concrete machines, settings and key lists for the examples and
    counterexamples next to the property theorems. *)
From Coq Require Import List NArith Bool Arith Lia Sorting.Sorted.
From Verif Require Import Res Config Builder Dense Sparse Surf Spec SpecApi PointFacts.
Import ListNotations.

(** asserts on; stray reads yield 0 *)
Definition e0 : env := mkEnv true false false (fun _ => 0%N) (fun _ _ => 0).
(** every shift and every access checked *)
Definition e_strict : env := mkEnv true true true (fun _ => 0%N) (fun _ _ => 0).

Definition c_none : config := mkCfg true 16 kNone 0 0.
Definition c_none1 : config := mkCfg true 1 kNone 0 0.
Definition c_real : config := mkCfg true 16 kReal 0 8.
Definition c_hash : config := mkCfg true 16 kHash 8 0.
Definition c_mixed : config := mkCfg true 1 kMixed 4 12.
Definition c_nodense : config := mkCfg false 16 kNone 0 0.
Definition c_nodense_real : config := mkCfg false 16 kReal 0 8.

(** "a", "ab", "b1", "b2", "b2", "cat" *)
Definition keys1 : list bytes := [[97]; [97; 98]; [98; 49]; [98; 50]; [98; 50]; [99; 97; 116]].
(** "b" followed by one byte from 1 to 100 *)
Definition keys2 : list bytes := map (fun i => [98; i]) (seq 1 100).
(** five nodes below "b"; the last one has 64 labels *)
Definition keys3 : list bytes :=
  flat_map (fun j => map (fun i => [98; j; i]) (seq 1 208)) [1; 2; 3; 4] ++ map (fun i => [98; 5; i]) (seq 1 64).
Definition keys_ff : list bytes := [[255; 1]; [255; 1]].

Definition answer (e : env) (c : config) (keys : list bytes) (q : bytes) : res bool :=
  f <- create e c keys ;; lookupKey e f q.

(** deciders, to check sample data *)
Fixpoint kltb (a b : bytes) : bool :=
  match a, b with
  | _, [] => false
  | [], _ :: _ => true
  | x :: a', y :: b' => (x <? y) || ((x =? y) && kltb a' b')
  end.
Fixpoint keqb (a b : bytes) : bool :=
  match a, b with [], [] => true | x :: a', y :: b' => (x =? y) && keqb a' b' | _, _ => false end.
Fixpoint sortedb (l : list bytes) : bool :=
  match l with
  | a :: t => match t with b :: _ => (kltb a b || keqb a b) && sortedb t | [] => true end
  | [] => true
  end.
Definition good_keysb (l : list bytes) : bool :=
  negb (length l =? 0) && forallb (forallb (fun b => b <? 256)) l && forallb (fun k => negb (length k =? 0)) l && sortedb l.

Lemma kltb_ok : forall a b, kltb a b = true -> klt a b.
Proof.
  induction a as [|x a IH]; intros [|y b]; cbn [kltb klt]; intros H; try discriminate; auto.
  apply orb_prop in H. destruct H as [H|H]; [left; apply Nat.ltb_lt; auto|].
  apply andb_prop in H. destruct H as [H1 H2]. right. split; [apply Nat.eqb_eq; auto|auto].
Qed.
Lemma keqb_ok : forall a b, keqb a b = true -> a = b.
Proof.
  induction a as [|x a IH]; intros [|y b]; cbn [keqb]; intros H; try discriminate; auto.
  apply andb_prop in H. destruct H as [H1 H2]. apply Nat.eqb_eq in H1. f_equal; auto.
Qed.
Lemma klt_tr : forall a b c, klt a b -> klt b c -> klt a c.
Proof.
  induction a as [|x a IH]; intros [|y b] [|z c]; cbn [klt]; try tauto.
  intros [H|[-> H]] [H'|[-> H']]; [left; lia|left; lia|left; lia|right; split; eauto].
Qed.
Lemma sortedb_ok : forall l, sortedb l = true -> StronglySorted kle l.
Proof.
  intros l H. apply Sorted_StronglySorted.
  - intros a b c [A| ->] [B| ->]; unfold kle; [left; eapply klt_tr; eauto|auto|auto|auto].
  - induction l as [|a [|b t] IH]; [constructor|constructor; [constructor|constructor]|].
    cbn [sortedb] in H. apply andb_prop in H. destruct H as [H1 H2]. constructor; [apply IH; exact H2|].
    constructor. apply orb_prop in H1. destruct H1; [left; apply kltb_ok; auto|right; apply keqb_ok; auto].
Qed.
Lemma good_keysb_ok : forall l, good_keysb l = true -> good_keys l.
Proof.
  intros l H. unfold good_keysb in H. apply andb_prop in H. destruct H as [H H4]. apply andb_prop in H. destruct H as [H H3].
  apply andb_prop in H. destruct H as [H1 H2]. split; [intros ->; discriminate|]. split; [|split].
  - rewrite forallb_forall in H2. apply Forall_forall. intros k Hk. specialize (H2 k Hk). rewrite forallb_forall in H2.
    apply Forall_forall. intros b Hb. apply Nat.ltb_lt. auto.
  - rewrite forallb_forall in H3. apply Forall_forall. intros k Hk E. specialize (H3 k Hk). subst k. discriminate.
  - apply sortedb_ok. auto.
Qed.

Lemma e0_machine : machine e0. Proof. split; reflexivity. Qed.
Lemma e0_quiet : quiet e0. Proof. intros l i. reflexivity. Qed.
Lemma keys1_good : good_keys keys1. Proof. apply good_keysb_ok. reflexivity. Qed.
Lemma keys2_good : good_keys keys2. Proof. apply good_keysb_ok. reflexivity. Qed.
Lemma keys3_good : good_keys keys3. Proof. apply good_keysb_ok. vm_compute. reflexivity. Qed.
Lemma keys_ff_good : good_keys keys_ff. Proof. apply good_keysb_ok. reflexivity. Qed.
Lemma keys1_small : small keys1. Proof. apply (small_len _ keys1_good). vm_compute. discriminate. Qed.
Lemma keys2_small : small keys2. Proof. apply (small_len _ keys2_good). vm_compute. discriminate. Qed.
Lemma keys1_not_ff : ~ lone_ff keys1.
Proof. intros (k & _ & H). specialize (H [97] ltac:(left; reflexivity)). discriminate. Qed.
Lemma keys2_not_ff : ~ lone_ff keys2.
Proof. intros (k & _ & H). specialize (H [98; 1] ltac:(left; reflexivity)). discriminate. Qed.
Lemma keys3_not_ff : ~ lone_ff keys3.
Proof. intros (k & _ & H). specialize (H [98; 1; 1] ltac:(left; reflexivity)). discriminate. Qed.
Lemma c_none_settings : settings c_none. Proof. unfold settings; cbn; repeat split; lia. Qed.
Lemma c_none1_settings : settings c_none1. Proof. unfold settings; cbn; repeat split; lia. Qed.
Lemma c_real_settings : settings c_real. Proof. unfold settings; cbn; repeat split; lia. Qed.
Lemma c_hash_settings : settings c_hash. Proof. unfold settings; cbn; repeat split; lia. Qed.
Lemma c_mixed_settings : settings c_mixed. Proof. unfold settings; cbn; repeat split; lia. Qed.
