(** Which key lists the constructor can handle, by the size of the label array. *)
From Coq Require Import Arith List NArith Bool Lia ZifyN ZifyNat ZifyBool Sorting.Sorted.
From Verif Require Import Res Word Config Spec SpecApi SpecTrie SuffixFacts Builder KeyFacts Trie BuilderFacts DenseBuild StructFacts FilterFacts PointFacts
  Surf TrieApi.
Import ListNotations.

Lemma told_mono : forall keys a b, told_apart keys a -> (a <= b)%N -> told_apart keys b.
Proof. intros keys a b (ks & ds & A & B & C) H. exists ks, ds. split; [exact A|]. split; [exact B|]. lia. Qed.

Section Exact.
Variable keys : list bytes.
Hypothesis HG : good_keys keys.
Variables (e : env) (c : config).
Hypothesis HM : machine e.
Hypothesis HC : settings c.
Hypothesis HT : told_apart keys 8388607.
Notation K := (uniq keys).

Lemma builds : exists b, build e c keys = Ok b.
Proof.
  destruct (good_uniq keys HG) as (HS & _). apply build_exists; auto. pose proof (told_total keys HS _ HT). pose proof (total_keys K). lia.
Qed.

Lemma create_room : forall b, build e c keys = Ok b -> ((exists f, create e c keys = Ok f) <-> room_at K (bd_start b)).
Proof.
  intros b EB. destruct (good_uniq keys HG) as (HS & HB & HE & HN). pose proof HM as [M1 M2]. pose proof HC as (C1 & C2 & C3 & C4).
  assert (LE : lens_ok (cf_type c) (cf_hlen c) (cf_rlen c)) by (split; auto).
  pose proof (create_at c K e HS HB HE HN M1 M2 LE keys b eq_refl C1 C2 EB) as Q. split.
  - intros (f & E). rewrite E in Q. destruct Q as (_ & _ & _ & S & F). unfold room_at, labels_from.
    pose proof (sk_room _ _ _ _ S) as R. unfold fresh_alloc in F. rewrite F in R. exact R.
  - intros R. destruct (create e c keys) as [f|er]; [eauto|]. exfalso. apply Q. clear Q.
    pose proof (told_total keys HS _ HT) as T. pose proof (items_total K) as T1. pose proof (total_keys K) as T2.
    assert (T3 : sm (nds K) (height K) <= total_bytes K).
    { eapply Nat.le_trans; [|exact T1]. apply sm_le. intros. apply nds_items. }
    split; [lia|]. split; [split; [lia|exact R]|].
    assert (CL : cf_len c <= 64) by exact C3.
    assert (length K * cf_len c <= total_bytes K * 64) by (apply Nat.mul_le_mono; [exact T2|exact CL]). lia.
Qed.

Lemma cn_sum : forall (nl : nat -> nat) s m, (forall l, length (items K l) = nl l) ->
  sum_to (fun i => N.of_nat (nl (s + i))) m = N.of_nat (sm (fun l => length (items K l)) (s + m) - sm (fun l => length (items K l)) s).
Proof.
  intros nl s m H. induction m as [|m IH]; cbn [sum_to]; [rewrite Nat.add_0_r, Nat.sub_diag; reflexivity|].
  rewrite IH, <- H. rewrite Nat.add_succ_r. cbn [sm]. pose proof (sm_mono (fun l => length (items K l)) s (s + m) ltac:(lia)). lia.
Qed.

Theorem create_exact : forall nl nn nf, (forall l, level_shape keys l (nl l) (nn l) (nf l)) ->
  forall s h, (forall k d, In k keys -> dist_len keys k d -> d < h) -> (exists k d, In k keys /\ dist_len keys k d /\ h = S d) ->
  let slen := cf_hlen c + cf_rlen c in
  (sparse_cost nl nf slen s h <= dense_cost nn nf slen s * cf_ratio c)%N ->
  (forall s', s' < s -> (dense_cost nn nf slen s' * cf_ratio c < sparse_cost nl nf slen s' h)%N) ->
  let n := label_count nl s h in
  (exists f, create e c keys = Ok f) <-> (n <= ((n + 1) * ((n + 1) / 64 + 1)) mod 2 ^ 32)%N.
Proof.
  intros nl nn nf SH s h H1 H2 slen G1 G2 n. destruct builds as (b & EB).
  destruct (good_uniq keys HG) as (HS & HB & HE & HN).
  destruct (build_ok keys HG e c HM HC b EB) as ([L1 _] & _ & S1 & S2 & _).
  destruct (cutoff_build keys HG e c HM HC b EB HT nl nn nf SH) as [Q1 Q2]. cbv zeta in Q1, Q2. fold slen in Q1, Q2.
  assert (EH : h = height K).
  { destruct H2 as (k & d & A & B & ->). apply Nat.le_antisymm.
    - destruct (in_kk keys k A) as (i & Hi & <-). rewrite (dist_kk keys HG i d Hi B).
      pose proof (LEN_leafl K (length K) i Hi). unfold height. lia.
    - destruct (LEN_max K (length K)) as (m & A' & B'); [lia|].
      specialize (H1 (kk K m) (S (leafl K m)) (kk_in keys m A') ltac:(apply dist_uniq; apply dist_leafl; auto)).
      unfold height. rewrite B'. lia. }
  rewrite L1, <- EH in Q1, Q2.
  assert (ES : s = bd_start b).
  { destruct (lt_eq_lt_dec s (bd_start b)) as [[L|]|L]; auto; exfalso.
    - specialize (Q2 s L). apply N.le_ngt in G1. contradiction.
    - specialize (G2 _ L). apply N.le_ngt in Q1. contradiction. }
  assert (EN : n = N.of_nat (labels_from K s)).
  { unfold n, label_count, labels_from. rewrite (cn_sum nl s (h - s)).
    - rewrite cc_length by lia. replace (s + (h - s)) with h by lia. rewrite EH. f_equal. f_equal; apply sm_ext; intros; unfold slabs; rewrite map_length; reflexivity.
    - intros l. symmetry. apply (shape_fun keys l _ _ _ _ _ _ (SH l) (shape_items keys HG l)). }
  rewrite (create_room b EB), <- ES, EN. unfold room_at. cbv zeta. unfold wrap32, two32.
  replace (N.of_nat (1 + labels_from K s)) with (N.of_nat (labels_from K s) + 1)%N by lia. reflexivity.
Qed.
End Exact.

(** ** two keys with a long common prefix *)
Section Chain.
Variable L : nat.
Hypothesis HL : 1 <= L.
Definition chain : list bytes := [repeat 0 L ++ [1]; repeat 0 L ++ [2]].

Lemma lcp_repeat : forall m a b, lcp (repeat 0 m ++ a) (repeat 0 m ++ b) = m + lcp a b.
Proof. induction m as [|m IH]; intros a b; cbn [repeat app]; [reflexivity|]. cbn [lcp]. rewrite Nat.eqb_refl, IH. reflexivity. Qed.

Lemma klt_repeat : forall m a b, klt a b -> klt (repeat 0 m ++ a) (repeat 0 m ++ b).
Proof. induction m as [|m IH]; intros a b H; cbn [repeat app]; [exact H|]. cbn. right. split; [reflexivity|]. apply IH. exact H. Qed.

Lemma chain_ne : repeat 0 L ++ [1] <> repeat 0 L ++ [2].
Proof. intros E. apply app_inv_head in E. discriminate. Qed.

Lemma chain_good : good_keys chain.
Proof.
  assert (B : forall x, x < 256 -> is_bytes (repeat 0 L ++ [x])).
  { intros x Hx. apply Forall_app. split; [|constructor; [exact Hx|constructor]]. apply Forall_forall. intros y Hy. apply repeat_spec in Hy. subst. lia. }
  split; [discriminate|]. split; [constructor; [apply B; lia|constructor; [apply B; lia|constructor]]|]. split; [repeat constructor; intros E; apply app_eq_nil in E; destruct E; discriminate|].
  constructor; [repeat constructor|]. constructor; [|constructor]. left. apply klt_repeat. cbn. left. lia.
Qed.

Lemma chain_uniq : uniq chain = chain.
Proof. unfold chain. cbn [uniq]. destruct (list_eq_dec _ _ _) as [E|]; [destruct (chain_ne E)|reflexivity]. Qed.

Lemma chain_lo0 : lo chain 0 = 0. Proof. reflexivity. Qed.
Lemma chain_hi0 : hi chain 0 = L.
Proof. unfold hi, kk, chain. cbn [nth]. rewrite lcp_repeat. cbn. lia. Qed.
Lemma chain_lo1 : lo chain 1 = L.
Proof. unfold lo, kk, chain. cbn [nth]. rewrite lcp_repeat. cbn. lia. Qed.
Lemma chain_hi1 : hi chain 1 = 0.
Proof. unfold hi, kk, chain. cbn [nth]. apply lcp_nil_r. Qed.
Lemma chain_leaf0 : leafl chain 0 = L. Proof. unfold leafl. rewrite chain_lo0, chain_hi0. lia. Qed.
Lemma chain_leaf1 : leafl chain 1 = L. Proof. unfold leafl. rewrite chain_lo1, chain_hi1. lia. Qed.

Lemma chain_labels : forall l, length (items chain l) = if l <? L then 1 else if l =? L then 2 else 0.
Proof.
  intros l. unfold items. rewrite cn_filter. change (length chain) with 2. cbn [cn]. unfold item. rewrite chain_lo0, chain_leaf0, chain_lo1, chain_leaf1.
  change (length chain) with 2. destruct (l <? L) eqn:A; [|destruct (l =? L) eqn:B]; 
    repeat match goal with |- context [if ?b then _ else _] => destruct b eqn:? end; lia.
Qed.
Lemma chain_nodes : forall l, nds chain l = if l <=? L then 1 else 0.
Proof.
  intros l. unfold nds. change (length chain) with 2. cbn [cn]. unfold louds, item. rewrite chain_lo0, chain_leaf0, chain_lo1, chain_leaf1.
  change (length chain) with 2.
  repeat match goal with |- context [if ?b then _ else _] => destruct b eqn:? end; lia.
Qed.

Definition cl (l : nat) : nat := if l <? L then 1 else if l =? L then 2 else 0.
Definition cd (l : nat) : nat := if l <=? L then 1 else 0.
Lemma chain_shape : forall l, level_shape chain l (cl l) (cd l) (cn (Trie.leaf chain l) 2).
Proof.
  intros l. pose proof (shape_items chain chain_good l) as Q. rewrite chain_uniq in Q. rewrite chain_labels, chain_nodes in Q. exact Q.
Qed.

Lemma chain_dist : forall k d, In k chain -> dist_len chain k d -> d = S L.
Proof.
  intros k d Hk D. pose proof (in_kk chain k Hk) as (i & Hi & E). subst k. pose proof (dist_kk chain chain_good i d Hi D) as Q.
  rewrite chain_uniq in *. change (length chain) with 2 in Hi. destruct i as [|[|i]]; [rewrite chain_leaf0 in Q|rewrite chain_leaf1 in Q|lia]; exact Q.
Qed.

Lemma chain_height : exists k d, In k chain /\ dist_len chain k d /\ S (S L) = S d.
Proof.
  destruct (dist_exists chain chain_good (repeat 0 L ++ [1])) as (d & D); [left; reflexivity|].
  exists (repeat 0 L ++ [1]), d. split; [left; reflexivity|]. split; [exact D|].
  f_equal. symmetry. eapply chain_dist; [|exact D]. left. reflexivity.
Qed.

Lemma chain_dense : forall nf s, s <= S L -> (dense_cost cd nf 0 s = 513 * N.of_nat s - 1)%N.
Proof.
  intros nf s Hs. unfold dense_cost. induction s as [|s IH]; [reflexivity|]. cbn [sum_to]. rewrite IH by lia.
  rewrite N.mul_0_r. change (0 / 8)%N with 0%N. unfold cd at 1. replace (s <=? L) with true by lia.
  destruct s as [|s]; [reflexivity|]. unfold cd. replace (s <=? L) with true by lia. change (N.of_nat 1 / 8 + 1)%N with 1%N. lia.
Qed.

Lemma chain_level : forall nf s i, (N.of_nat (cl (s + i)) + 2 * N.of_nat (cl (s + i)) / 8 + 1 + N.of_nat (nf (s + i)%nat) * 0 / 8)%N = N.of_nat (S (cl (s + i))).
Proof.
  intros nf s i. rewrite N.mul_0_r. change (0 / 8)%N with 0%N.
  assert (A : (2 * N.of_nat (cl (s + i)) / 8 = 0)%N) by (apply N.div_small; unfold cl; repeat match goal with |- context [if ?b then _ else _] => destruct b end; lia).
  rewrite A. lia.
Qed.

Lemma chain_sum : forall s m (g : nat -> N), s + m <= L -> (forall i, s + i < L -> g i = g 0) -> sum_to g m = (N.of_nat m * g O)%N.
Proof.
  intros s m g H G. induction m as [|m IH]; [reflexivity|]. cbn [sum_to]. rewrite IH by lia. rewrite (G m) by lia. lia.
Qed.

Lemma chain_sparse : forall nf s, s < L -> (sparse_cost cl nf 0 s (S (S L)) = 2 * N.of_nat (L - s) + 4)%N.
Proof.
  intros nf s Hs. unfold sparse_cost. replace (S (S L) - s) with (S (S (L - s))) by lia. cbn [sum_to]. change (N.of_nat 0) with 0%N. rewrite !chain_level.
  rewrite (chain_sum s); [|lia|].
  - rewrite chain_level. unfold cl. replace (s + (L - s)) with L by lia. replace (s + S (L - s)) with (S L) by lia.
    replace (s + 0 <? L) with true by lia. replace (L <? L) with false by lia. rewrite Nat.eqb_refl.
    replace (S L <? L) with false by lia. replace (S L =? L) with false by lia. lia.
  - intros i Hi. rewrite !chain_level. unfold cl. replace (s + i <? L) with true by lia. replace (s + 0 <? L) with true by lia. reflexivity.
Qed.

Lemma chain_count : forall s, s < L -> (label_count cl s (S (S L)) = N.of_nat (L - s) + 2)%N.
Proof.
  intros s Hs. unfold label_count. replace (S (S L) - s) with (S (S (L - s))) by lia. cbn [sum_to].
  rewrite (chain_sum s); [|lia|].
  - unfold cl. replace (s + (L - s)) with L by lia. replace (s + S (L - s)) with (S L) by lia.
    replace (s + 0 <? L) with true by lia. replace (L <? L) with false by lia. rewrite Nat.eqb_refl.
    replace (S L <? L) with false by lia. replace (S L =? L) with false by lia. lia.
  - intros i Hi. unfold cl. replace (s + i <? L) with true by lia. replace (s + 0 <? L) with true by lia. reflexivity.
Qed.

Lemma chain_len : total_len chain = 2 * (L + 2).
Proof. unfold total_len, chain. cbn [map list_sum fold_right]. rewrite !app_length, !repeat_length. cbn [length]. lia. Qed.

Lemma chain_create : forall e c s, machine e -> settings c -> cf_hlen c = 0 -> cf_rlen c = 0 -> (N.of_nat L <= 4000000)%N -> s < L ->
  (2 * N.of_nat (L - s) + 4 <= (513 * N.of_nat s - 1) * cf_ratio c)%N ->
  (forall s', s' < s -> ((513 * N.of_nat s' - 1) * cf_ratio c < 2 * N.of_nat (L - s') + 4)%N) ->
  let n := (N.of_nat (L - s) + 2)%N in
  (exists f, create e c chain = Ok f) <-> (n <= ((n + 1) * ((n + 1) / 64 + 1)) mod 2 ^ 32)%N.
Proof.
  intros e c s HM HC H0 R0 HL' Hs G1 G2 n.
  assert (T : told_apart chain 8388607).
  { eapply told_mono; [apply (told_len chain chain_good)|]. rewrite chain_len. lia. }
  pose proof (create_exact chain chain_good e c HM HC T cl cd _ chain_shape s (S (S L))) as Q. cbv zeta in Q.
  rewrite H0, R0, Nat.add_0_l in Q. rewrite chain_count in Q by exact Hs. apply Q; clear Q.
  - intros k d Hk D. rewrite (chain_dist k d Hk D). lia.
  - apply chain_height.
  - rewrite chain_dense, chain_sparse by lia. exact G1.
  - intros s' Hs'. rewrite chain_dense, chain_sparse by lia. apply G2. exact Hs'.
Qed.
End Chain.

(** the prefix of 741,618 bytes makes the size of the array wrap *)
Lemma chain_wraps : forall e f, machine e -> create e (mkCfg true 16 kNone 0 0) (chain (N.to_nat 741618)) <> Ok f.
Proof.
  intros e f HM E. assert (HC : settings (mkCfg true 16 kNone 0 0)) by (unfold settings; cbn; repeat split; lia).
  set (L := N.to_nat 741618) in *. assert (EL : N.of_nat L = 741618%N) by apply N2Nat.id. clearbody L.
  pose proof (chain_create L ltac:(lia) e _ 181 HM HC eq_refl eq_refl ltac:(lia) ltac:(lia)) as Q. cbn [cf_ratio] in Q.
  replace (N.of_nat (L - 181)) with 741437%N in Q by lia.
  assert (X : (741437 + 2 <= ((741437 + 2 + 1) * ((741437 + 2 + 1) / 64 + 1)) mod 2 ^ 32)%N).
  { apply Q; [vm_compute; discriminate| |eauto]. intros s' Hs'. lia. }
  vm_compute in X. apply X. reflexivity.
Qed.
