(** Sample data for the seek and range properties. *)
From Coq Require Import Arith List NArith ZArith Bool Lia.
From Verif Require Import Res Config Builder Dense Sparse Surf Spec SpecApi SpecIter SpecRange Samples SamplesIter.
Import ListNotations.

Definition ranged (e : env) (c : config) (keys : list bytes) (l : bytes) (li : bool) (r : bytes) (ri : bool) : res bool :=
  f <- create e c keys ;; lookupRange e f l li r ri.
(** validity, flag and key of the iterator returned by a seek *)
Definition at_gt (e : env) (c : config) (keys : list bytes) (q : bytes) (incl : bool) : res (bool * bool * bytes) :=
  f <- create e c keys ;; it <- moveToKeyGreaterThan e f q incl ;; k <- it_getKey it ;; Ok (it_valid it, it_fp it, k).
Definition at_lt (e : env) (c : config) (keys : list bytes) (q : bytes) (incl : bool) : res (bool * bool * bytes) :=
  f <- create e c keys ;; it <- moveToKeyLessThan e f q incl ;; k <- it_getKey it ;; Ok (it_valid it, it_fp it, k).
Definition cmp_last (e : env) (c : config) (keys : list bytes) (q : bytes) : res Z :=
  f <- create e c keys ;; it <- moveToLast e f ;; it_compare e f it q.
Definition cmp_first (e : env) (c : config) (keys : list bytes) (q : bytes) : res Z :=
  f <- create e c keys ;; it <- moveToFirst e f ;; it_compare e f it q.

Definition c_real16 : config := mkCfg true 16 kReal 0 16.
Definition c_real1 : config := mkCfg true 1 kReal 0 8.
(** "p", "pa", "pc", "pe", "pg" *)
Definition keys_p : list bytes := [[112]; [112; 97]; [112; 99]; [112; 101]; [112; 103]].
(** "b" followed by an even byte from 2 to 200 *)
Definition keys_even : list bytes := map (fun i => [98; 2 * i]) (seq 1 100).
(** a filter with two dense levels *)
Definition keys_deep : list bytes := flat_map (fun j => map (fun i => [98; j; i]) (seq 1 150)) [1; 2] ++ [[99; 255]].
(** two keys whose common prefix has 2020 bytes *)
Definition keys_far : list bytes := [repeat 120 2020 ++ [97]; repeat 120 2020 ++ [98]].

Lemma keys_p_good : good_keys keys_p. Proof. apply good_keysb_ok. reflexivity. Qed.
Lemma keys_even_good : good_keys keys_even. Proof. apply good_keysb_ok. vm_compute. reflexivity. Qed.
Lemma keys_deep_good : good_keys keys_deep. Proof. apply good_keysb_ok. vm_compute. reflexivity. Qed.
Lemma keys_far_good : good_keys keys_far. Proof. apply good_keysb_ok. vm_compute. reflexivity. Qed.

(** a simple sufficient check for the absence of traps *)
Definition inb (k : bytes) (l : list bytes) : bool := existsb (keqb k) l.
Lemma keqb_refl : forall k, keqb k k = true.
Proof. induction k as [|x k IH]; [reflexivity|]. cbn. rewrite Nat.eqb_refl. exact IH. Qed.
Lemma inb_in : forall k l, inb k l = true -> In k l.
Proof. intros k l H. apply existsb_exists in H. destruct H as (x & A & B). apply keqb_ok in B. subst. auto. Qed.
Lemma in_inb : forall k l, In k l -> inb k l = true.
Proof. intros k l H. apply existsb_exists. exists k. split; auto. apply keqb_refl. Qed.

Definition no_trapb (c : config) (keys : list bytes) (h : nat) (q : bytes) : bool :=
  (h <=? length q) && (cf_rlen c <=? 8) && (total_len keys <=? 64) && forallb (fun i => negb (inb (firstn i q) keys)) (seq h (length q - h)).

Lemma short_suffix_whole : forall c x d, cf_rlen c <= 8 -> whole c x d.
Proof. intros c x d H _ L. lia. Qed.

Lemma no_trap_check : forall e c keys h q, no_trapb c keys h q = true -> ~ trap e c keys h q.
Proof.
  intros e c keys h q H. unfold no_trapb in H. apply andb_prop in H. destruct H as [H H4]. apply andb_prop in H. destruct H as [H H3].
  apply andb_prop in H. destruct H as [H1 H2]. apply Nat.leb_le in H1, H2, H3. rewrite forallb_forall in H4.
  intros [(A & _)|[(p & b & r & E & L & _ & (k & K1 & K2 & K3) & _)|[(p & b & r & _ & _ & _ & _ & A & _)|(_ & k & d & _ & _ & _ & A & _)]]].
  - lia.
  - apply nth_error_None in K3. rewrite firstn_all2 in K2 by exact K3. subst k.
    specialize (H4 (length p)). rewrite E in H4. rewrite firstn_app, Nat.sub_diag, firstn_all in H4. cbn [firstn] in H4. rewrite app_nil_r in H4.
    rewrite (in_inb p keys K1) in H4. assert (X : negb true = true); [|discriminate]. apply H4. apply in_seq. rewrite app_length. cbn [length]. lia.
  - lia.
  - apply A. apply short_suffix_whole. auto.
Qed.

Lemma no_stray_check : forall e c keys h q, no_trapb c keys h q = true -> ~ stray e keys h q.
Proof. intros e c keys h q H X. apply (no_trap_check e c keys h q H). unfold trap. unfold stray in X. tauto. Qed.

Lemma short_bound_check : forall c keys r, cf_rlen c <= 8 -> ~ short_bound c keys r.
Proof. intros c keys r H (_ & k & d & _ & _ & _ & A & _). apply A. apply short_suffix_whole. auto. Qed.

Lemma made : forall e c keys h, match create e c keys with Ok f => getSparseStartLevel f =? h | Fail _ => false end = true ->
  exists f, create e c keys = Ok f /\ getSparseStartLevel f = h.
Proof. intros e c keys h H. destruct (create e c keys) as [f|]; [|discriminate]. exists f. split; [reflexivity|]. apply Nat.eqb_eq. exact H. Qed.
