(** The choice of the first sparse level (surf_builder.hpp:319-351). *)
From Coq Require Import Arith List NArith ZArith Bool Lia ZifyN ZifyNat ZifyBool.
From Verif Require Import Res Word Config WordFacts Builder BuilderFacts BitvectorFacts SuffixFacts.
Import ListNotations.

Lemma foldM_sum : forall (A : Type) (f : A -> res N) (g : A -> N) xs a,
  (forall x, In x xs -> f x = Ok (g x)) ->
  foldM (fun acc x => m <- f x ;; Ok (acc + m)%N) xs a = Ok (fold_left N.add (map g xs) a).
Proof.
  induction xs as [|x xs IH]; intros a H; [reflexivity|]. cbn [foldM map fold_left].
  rewrite H by (left; auto). cbn [bind]. apply IH. intros. apply H. right. auto.
Qed.

Lemma fold_add_ge : forall xs a, (a <= fold_left N.add xs a)%N.
Proof.
  induction xs as [|x xs IH]; intros a; cbn [fold_left]; [lia|]. specialize (IH (a + x)%N). lia.
Qed.

Lemma fold_add_acc : forall xs a, fold_left N.add xs a = (a + fold_left N.add xs 0)%N.
Proof.
  induction xs as [|x xs IH]; intros a; cbn [fold_left]; [lia|].
  rewrite (IH (a + x)%N), (IH (0 + x)%N). lia.
Qed.

(** memory in bytes as computed from the per-level counts *)
Definition lv_dmem (slen : nat) (st : levels) (level : nat) : N :=
  let l := nth level st elev in
  (wrap32 (512 * N.of_nat (lv_nodes l)) +
   (match level with O => 0 | S p => N.of_nat (lv_nodes (nth p st elev)) / 8 + 1 end) +
   wrap32 (N.of_nat (lv_sufcount l) * N.of_nat slen) / 8)%N.
Definition lv_smem (slen : nat) (st : levels) (level : nat) : N :=
  let l := nth level st elev in
  let n := N.of_nat (length (lv_labels l)) in
  (wrap32 (n + wrap32 (2 * n) / 8 + 1) + wrap32 (N.of_nat (lv_sufcount l) * N.of_nat slen) / 8)%N.
Definition dense_mem (slen : nat) (st : levels) (c : nat) : N :=
  fold_left N.add (map (lv_dmem slen st) (seq 0 c)) 0%N.
Definition sparse_mem (slen : nat) (st : levels) (c : nat) : N :=
  fold_left N.add (map (lv_smem slen st) (seq c (length st - c))) 0%N.

Lemma computeDenseMem_spec : forall e slen st c, c <= length st ->
  computeDenseMem e slen st c = Ok (dense_mem slen st c).
Proof.
  intros e slen st c H. unfold computeDenseMem. rewrite massert_true by lia. cbn [bind].
  apply foldM_sum. intros x Hx. apply in_seq in Hx. unfold level_dense_mem, lv_dmem.
  rewrite (vget_ok _ st x elev) by lia. cbn [bind]. destruct x as [|p]; [reflexivity|].
  rewrite (vget_ok _ st p elev) by lia. reflexivity.
Qed.

Lemma computeSparseMem_spec : forall slen st c,
  computeSparseMem slen st c = Ok (sparse_mem slen st c).
Proof.
  intros slen st c. unfold computeSparseMem.
  apply foldM_sum. intros x Hx. apply in_seq in Hx. unfold level_sparse_mem, lv_smem.
  rewrite (vget_ok _ st x elev) by lia. reflexivity.
Qed.

Lemma cutoff_loop_spec : forall fuel e slen ratio st c,
  c <= length st -> length st - c <= fuel ->
  exists s, cutoff_loop e fuel slen ratio st c (dense_mem slen st c) (sparse_mem slen st c) = Ok s /\
    c <= s <= length st /\
    (forall c', c <= c' < s -> (dense_mem slen st c' * ratio < sparse_mem slen st c')%N) /\
    (s < length st -> (sparse_mem slen st s <= dense_mem slen st s * ratio)%N).
Proof.
  induction fuel as [|f IH]; intros e slen ratio st c Hc Hf; cbn [cutoff_loop].
  - replace (c <? length st) with false by lia. cbn [andb]. exists c. split; auto. split; [lia|]. split; intros; lia.
  - destruct ((c <? length st) && (dense_mem slen st c * ratio <? sparse_mem slen st c)%N) eqn:E.
    + rewrite computeDenseMem_spec, computeSparseMem_spec by lia. cbn [bind].
      destruct (IH e slen ratio st (S c)) as (s & A & B & C & D); [lia|lia|].
      exists s. split; auto. split; [lia|]. split; auto. intros c' Hc'.
      destruct (Nat.eq_dec c' c) as [->|]; [lia|]. apply C. lia.
    + exists c. split; auto. split; [lia|]. split; intros; lia.
Qed.

Theorem determineCutoffLevel_spec : forall e c st,
  exists s, determineCutoffLevel e c st = Ok s /\ s <= length st /\
    (forall c', c' < s -> (dense_mem (cf_len c) st c' * cf_ratio c < sparse_mem (cf_len c) st c')%N) /\
    (s < length st -> (sparse_mem (cf_len c) st s <= dense_mem (cf_len c) st s * cf_ratio c)%N).
Proof.
  intros e c st. unfold determineCutoffLevel.
  rewrite computeDenseMem_spec, computeSparseMem_spec by lia. cbn [bind].
  destruct (cutoff_loop_spec (length st) e (cf_len c) (cf_ratio c) st 0) as (s & A & B & C & D); [lia|lia|].
  exists s. split; auto. split; [lia|]. split; auto. intros. apply C. lia.
Qed.

(** at least one and not all levels are dense *)
Theorem cutoff_bounds : forall slen ratio st s, 2 <= length st -> (1 <= ratio)%N ->
  lv_nodes (nth 0 st elev) = 1 ->
  lv_labels (nth (length st - 1) st elev) = [] ->
  lv_sufcount (nth (length st - 1) st elev) = 0 ->
  s <= length st ->
  (forall c', c' < s -> (dense_mem slen st c' * ratio < sparse_mem slen st c')%N) ->
  (s < length st -> (sparse_mem slen st s <= dense_mem slen st s * ratio)%N) ->
  1 <= s <= length st - 1.
Proof.
  intros slen ratio st s HL Hr Hn Hlab Hsuf Hs H1 H2.
  assert (SL : lv_smem slen st (length st - 1) = 1%N).
  { unfold lv_smem. rewrite Hlab, Hsuf. reflexivity. }
  split.
  - destruct s; [|lia]. specialize (H2 ltac:(lia)). exfalso.
    assert (1 <= sparse_mem slen st 0)%N; [|unfold dense_mem in H2; cbn [seq map fold_left] in H2; lia].
    unfold sparse_mem. rewrite Nat.sub_0_r. replace (length st) with (S (length st - 1)) by lia.
    rewrite seq_snoc, map_app, fold_left_app. cbn [map fold_left]. rewrite Nat.add_0_l.
    replace (S (length st - 1) - 1) with (length st - 1) by lia. rewrite SL. lia.
  - destruct (Nat.eq_dec s (length st)) as [E|]; [|lia]. exfalso.
    specialize (H1 (length st - 1) ltac:(lia)).
    assert (S1 : sparse_mem slen st (length st - 1) = 1%N).
    { unfold sparse_mem. replace (length st - (length st - 1)) with 1 by lia.
      cbn [seq map fold_left]. rewrite SL. reflexivity. }
    rewrite S1 in H1.
    assert (512 <= dense_mem slen st (length st - 1))%N; [|nia].
    unfold dense_mem. destruct (length st - 1) as [|m] eqn:EM; [lia|].
    cbn [seq map fold_left]. eapply N.le_trans; [|apply fold_add_ge].
    unfold lv_dmem. rewrite Hn. change (wrap32 (512 * N.of_nat 1)) with 512%N. lia.
Qed.
