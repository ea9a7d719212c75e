(** LoudsSparse and LoudsDense alone, written and read back. *)
From Coq Require Import Arith List NArith ZArith Bool Lia ZifyN ZifyNat ZifyBool.
From Verif Require Import Res Word Config Bitvector Rank Select LabelVector Suffix Builder Spec KeyFacts Trie BuilderFacts
  Dense Sparse Surf StructFacts SpecApi Serialize SpecFilter SpecIter SpecSession SpecAlone SpecDAlone SpecParts
  SerialFacts FilterFacts TrimFacts PointFacts SerialApi AloneFacts DAloneFacts.
Import ListNotations.

Section SparsePart.
Variables (e : env) (c : config) (keys : list bytes) (s : sparse).
Hypothesis HG : good_keys keys.
Hypothesis HM : machine e.
Hypothesis HC : sparse_settings c.
Hypothesis HA : s_part e c keys s.

Lemma part_wf : storable e keys -> sparse_wf e s.
Proof. intros T. destruct (s_part_ok keys HG e c HM HC s HA) as (S & R). exact (alone_wf keys HG e c HM HC s S R T). Qed.

Lemma part_written : storable e keys -> forall a mem, N.of_nat (length mem) = sparse_serializedSize s -> block a (length mem) ->
  exists buf, sparse_serialize e a s (mem, 0) = Ok (buf, length mem) /\ length buf = length mem /\
  exists s', s_part e c keys s' /\
    forall a' rest, block a' (length mem) -> sparse_deSerialize a' (buf ++ rest) 0 = Ok (s', length mem).
Proof.
  intros T a mem L A. pose proof (part_wf T) as W. destruct (sparse_round keys HG e c HM HC s W a a mem [] L A A) as (buf & E1 & E2 & E3).
  exists buf. split; [exact E1|]. split; [exact E2|]. exists (trim_s s). split.
  - apply (sp_restored e c keys s); auto. exists a, a, mem, buf, [], (length mem), (length mem). auto.
  - intros a' rest A'. destruct (sparse_round keys HG e c HM HC s W a a' mem rest L A A') as (buf' & E1' & _ & E3').
    rewrite E1 in E1'. injection E1' as <-. exact E3'.
Qed.

Lemma part_figures : storable e keys -> forall s', s_restored e s s' ->
  s_height s' = s_height s /\ s_start s' = s_start s /\ sparse_serializedSize s' = sparse_serializedSize s /\
  sparse_getMemoryUsage s' = sparse_getMemoryUsage s /\ (forall a st, sparse_serialize e a s' st = sparse_serialize e a s st).
Proof.
  intros T s' R. pose proof (part_wf T) as W. rewrite (s_restored_trim keys HG e c HM HC s s' W R). repeat split.
  intros a st. unfold sparse_serialize, trim_s. cbn [s_height s_start s_ncount s_ccount s_cuts s_labels s_child s_louds s_suf].
  assert (L : lv_serialize e a (trim_lv (s_labels s)) = lv_serialize e a (s_labels s)).
  { unfold lv_serialize. destruct W as (_ & _ & _ & _ & _ & W & _). change (lv_num_bytes (trim_lv (s_labels s))) with (lv_num_bytes (s_labels s)).
    rewrite (lv_all e _ W). pose proof (lv_all e (trim_lv (s_labels s))) as Q.
    change (lv_num_bytes (trim_lv (s_labels s))) with (lv_num_bytes (s_labels s)) in Q. rewrite Q; [reflexivity|].
    destruct W as [W1 W2]. split; [exact W1|]. intros i Hi. unfold lv_read, trim_lv. cbn [lv_alloc lv_bytes].
    change (lv_num_bytes (trim_lv (s_labels s))) with (lv_num_bytes (s_labels s)) in Hi.
    replace (_ <? _)%N with true by lia. reflexivity. }
  rewrite L. reflexivity.
Qed.

Section Answers.
Hypothesis HQ : quiet e.
Hypothesis HZ : small keys.
Let RD : forall i, le (lv_read e (trim_lv (s_labels s)) i) (lv_read e (s_labels s) i).
Proof.
  destruct (s_part_ok keys HG e c HM HC s HA) as (S & R). specialize (R HZ).
  apply (trim_read e HQ (mkSurf no_dense s)). cbn [sf_sparse]. unfold lv_num_bytes.
  rewrite (sk_lab _ _ _ _ S), app_length. cbn [length]. lia.
Qed.

Lemma part_step : forall its cl, le (s_step e (trim_s s) its cl) (s_step e s its cl).
Proof.
  pose proof RD as RD'. clear RD HA. destruct s as [h st nc cc cuts lv ch ld sf]. unfold trim_s. cbn in RD' |- *.
  intros its cl. destruct cl; cbn [s_step].
  - apply le_bind; [|intros; apply le_refl]. unfold s_lookupKey. apply le_bind; [exact (le_refl _ _)|]. intros. apply lookup_le. exact RD'.
  - apply le_bind; [|intros; apply le_refl]. unfold s_first. apply le_bind; [|intros; apply left_le; exact RD'].
    unfold si_setToFirstLabelInRoot. apply le_bind; [exact (le_refl _ _)|]. intros. apply le_bind; [exact (le_refl _ _)|]. intros.
    apply le_bind; [apply RD'|]. intros. apply le_refl.
  - apply le_bind; [|intros; apply le_refl]. unfold s_last. apply le_bind; [|intros; apply right_le; exact RD'].
    unfold si_setToLastLabelInRoot. apply le_bind; [exact (le_refl _ _)|]. intros. apply le_bind; [exact (le_refl _ _)|]. intros.
    apply le_bind; [exact (le_refl _ _)|]. intros. apply le_bind; [apply RD'|]. intros. apply le_refl.
  - apply le_bind; [|intros [fp it]; apply le_refl]. apply s_gt_le. exact RD'.
  - destruct (nth_error its i) as [it|]; [|apply le_refl]. apply le_bind; [|intros; apply le_refl].
    destruct m; cbn [s_move]; [apply s_next_le|apply s_prev_le]; exact RD'.
  - destruct (nth_error its i) as [it|]; exact (le_refl _ _).
  - destruct (nth_error its i) as [it|]; exact (le_refl _ _).
  - destruct (nth_error its i) as [a|]; [|apply le_refl]. destruct (nth_error its j) as [b|]; [|apply le_refl].
    apply le_bind; [|intros; apply le_refl]. unfold s_approxCount, s_extendPosList.
    repeat first [mono0 | apply extend_le | apply count_loop_le | exact (le_refl _ _)].
Qed.

Lemma part_play : forall cs its, le (s_play e (trim_s s) its cs) (s_play e s its cs).
Proof.
  induction cs as [|x cs IH]; intros its; cbn [s_play]; [apply le_refl|]. apply le_bind; [apply part_step|]. intros [a its'].
  apply le_bind; [apply IH|intros; apply le_refl].
Qed.

Lemma part_answers : forall s' cs l, s_restored e s s' -> s_answers e s' cs = Ok l -> s_answers e s cs = Ok l.
Proof.
  intros s' cs l R E. rewrite (s_restored_trim keys HG e c HM HC s s' (part_wf (or_introl HZ)) R) in E. exact (part_play cs [] l E).
Qed.
End Answers.
End SparsePart.

Section DensePart.
Variables (e : env) (c : config) (keys : list bytes) (d : dense).
Hypothesis HG : good_keys keys.
Hypothesis HM : machine e.
Hypothesis HC : dense_settings c.
Hypothesis HA : d_part e c keys d.
Hypothesis HT : storable e keys.

Lemma dpart_wf : dense_wf d.
Proof.
  exact (d_alone_wf keys HG e c HM HC d (d_alone_parts keys HG e c HM HC d (d_part_built keys HG e c HM HC d HA)) HT).
Qed.

Lemma dpart_written : forall a mem, N.of_nat (length mem) = dense_serializedSize d -> block a (length mem) ->
  exists buf, dense_serialize a d (mem, 0) = Ok (buf, length mem) /\ length buf = length mem /\
  forall a' rest, block a' (length mem) -> dense_deSerialize a' (buf ++ rest) 0 = Ok (d, length mem).
Proof.
  intros a mem L A. destruct (dense_round keys HG e c HM HC d dpart_wf a a mem [] L A A) as (buf & E1 & E2 & E3).
  exists buf. split; [exact E1|]. split; [exact E2|]. intros a' rest A'.
  destruct (dense_round keys HG e c HM HC d dpart_wf a a' mem rest L A A') as (buf' & E1' & _ & E3'). rewrite E1 in E1'. injection E1' as <-. exact E3'.
Qed.

Lemma dpart_same : forall d', d_restored d d' -> d' = d.
Proof. intros d' R. exact (d_restored_same keys HG e c HM HC d d' dpart_wf R). Qed.
End DensePart.
