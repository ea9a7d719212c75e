(** Sample data for the iterator properties. *)
From Coq Require Import Arith List NArith Bool Lia.
From Verif Require Import Res Config Builder Dense Sparse Surf Spec SpecApi SpecIter Samples.
Import ListNotations.

Definition listing (e : env) (c : config) (keys : list bytes) (m : move) : res (list bytes) :=
  f <- create e c keys ;;
  it <- match m with Fwd => moveToFirst e f | Bwd => moveToLast e f end ;;
  collect e f m (length (uniq keys)) it.

Definition e_ndebug : env := mkEnv false false false (fun _ => 0%N) (fun _ _ => 0).

(** "\000a", "\000b", "a", "b" *)
Definition keys_z : list bytes := [[0; 97]; [0; 98]; [97]; [98]].
Lemma keys_z_good : good_keys keys_z. Proof. apply good_keysb_ok. reflexivity. Qed.
Lemma keys_z_not_ff : ~ lone_ff keys_z.
Proof. intros (k & _ & H). specialize (H [97] ltac:(right; right; left; reflexivity)). discriminate. Qed.

(** "\000" and "\000", j, i *)
Definition keys_zz : list bytes := [0] :: flat_map (fun j => map (fun i => [0; j; i]) (seq 1 200)) [1; 2; 3; 4; 5].
Lemma keys_zz_good : good_keys keys_zz. Proof. apply good_keysb_ok. vm_compute. reflexivity. Qed.

Lemma listed : forall k (r : res (list bytes)), match r with Ok l => existsb (keqb k) l | Fail _ => false end = true ->
  match r with Ok l => In k l | Fail _ => False end.
Proof.
  intros k [l|] T; [|discriminate]. apply existsb_exists in T. destruct T as (x & H1 & H2). apply keqb_ok in H2. subst x. exact H1.
Qed.
Lemma not_listed : forall k (r : res (list bytes)), match r with Ok l => existsb (keqb k) l | Fail _ => true end = false ->
  match r with Ok l => ~ In k l | Fail _ => False end.
Proof.
  intros k [l|] T; [|discriminate]. intros H.
  assert (E : existsb (keqb k) l = true).
  { apply existsb_exists. exists k. split; [exact H|]. clear. induction k as [|x k IH]; [reflexivity|]. cbn. rewrite Nat.eqb_refl. exact IH. }
  congruence.
Qed.

Definition c_real64 : config := mkCfg true 16 kReal 0 64.
(** "a123456789", "b" *)
Definition keys_long : list bytes := [[97; 49; 50; 51; 52; 53; 54; 55; 56; 57]; [98]].
