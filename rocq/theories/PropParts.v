(** LoudsSparse and LoudsDense alone, written and read back, as their unit tests
    do: C51.  Only property theorems, examples and counterexamples. *)
From Coq Require Import Arith List NArith ZArith Bool Lia.
From Verif Require Import Res Config Builder Dense Sparse Surf Serialize Spec SpecApi SpecFilter SpecIter SpecAlone SpecDAlone SpecSession SpecParts
  PartApi Samples SamplesIter SamplesRange SamplesSerial.
Import ListNotations.

(** build, write at 4096, read back at 8192 *)
Definition s_round (e : env) (c : config) (keys : list bytes) : res (sparse * list nat * nat * sparse * nat) :=
  b <- build e c keys ;; s <- sparse_make e b ;;
  '(buf, n) <- sparse_serialize e 4096 s (repeat 170 (N.to_nat (sparse_serializedSize s)), 0) ;;
  '(s', n') <- sparse_deSerialize 8192 buf 0 ;; Ok (s, buf, n, s', n').
Definition d_round (e : env) (c : config) (keys : list bytes) : res (dense * list nat * nat * dense * nat) :=
  b <- build e c keys ;; d <- dense_make e b ;;
  '(buf, n) <- dense_serialize 4096 d (repeat 170 (N.to_nat (dense_serializedSize d)), 0) ;;
  '(d', n') <- dense_deSerialize 8192 buf 0 ;; Ok (d, buf, n, d', n').

Lemma s_round_restored : forall e c keys s buf n s' n', s_round e c keys = Ok (s, buf, n, s', n') ->
  sparse_serializedSize s = N.of_nat (length buf) -> length buf <= 5000 -> alone e c keys s /\ s_restored e s s'.
Proof.
  intros e c keys s buf n s' n' H HS HL. unfold s_round in H. unfold alone. destruct (build e c keys) as [b|]; [|discriminate]. cbn [bind] in H |- *.
  destruct (sparse_make e b) as [s0|]; [|discriminate]. cbn [bind] in H.
  destruct (sparse_serialize e 4096 s0 (repeat 170 (N.to_nat (sparse_serializedSize s0)), 0)) as [[b1 m]|] eqn:E; [|discriminate]. cbn [bind] in H.
  destruct (sparse_deSerialize 8192 b1 0) as [[s1 n1]|] eqn:E'; [|discriminate]. cbn [bind] in H. injection H as <- <- <- <- <-.
  split; [reflexivity|]. exists 4096%N, 8192%N, (repeat 170 (N.to_nat (sparse_serializedSize s0))), b1, [], m, n1.
  assert (L : length (repeat 170 (N.to_nat (sparse_serializedSize s0))) = length b1) by (rewrite repeat_length, HS; lia).
  rewrite L. split; [rewrite HS; reflexivity|]. split; [split; [reflexivity|clear - HL; lia]|]. split; [split; [reflexivity|clear - HL; lia]|].
  split; [exact E|]. rewrite app_nil_r. exact E'.
Qed.
Lemma d_round_restored : forall e c keys d buf n d' n', d_round e c keys = Ok (d, buf, n, d', n') ->
  dense_serializedSize d = N.of_nat (length buf) -> length buf <= 5000 -> d_alone e c keys d /\ d_restored d d'.
Proof.
  intros e c keys d buf n d' n' H HS HL. unfold d_round in H. unfold d_alone. destruct (build e c keys) as [b|]; [|discriminate]. cbn [bind] in H |- *.
  destruct (dense_make e b) as [s0|]; [|discriminate]. cbn [bind] in H.
  destruct (dense_serialize 4096 s0 (repeat 170 (N.to_nat (dense_serializedSize s0)), 0)) as [[b1 m]|] eqn:E; [|discriminate]. cbn [bind] in H.
  destruct (dense_deSerialize 8192 b1 0) as [[s1 n1]|] eqn:E'; [|discriminate]. cbn [bind] in H. injection H as <- <- <- <- <-.
  split; [reflexivity|]. exists 4096%N, 8192%N, (repeat 170 (N.to_nat (dense_serializedSize s0))), b1, [], m, n1.
  assert (L : length (repeat 170 (N.to_nat (dense_serializedSize s0))) = length b1) by (rewrite repeat_length, HS; lia).
  rewrite L. split; [rewrite HS; reflexivity|]. split; [split; [reflexivity|clear - HL; lia]|]. split; [split; [reflexivity|clear - HL; lia]|].
  split; [exact E|]. rewrite app_nil_r. exact E'.
Qed.

(** * C51 *)

(** LoudsSparse: serialize fills exactly serializedSize() bytes, and from them
    deSerialize makes a LoudsSparse that C46 and C48 hold for; it reads no more
    than these bytes. *)
Theorem C51_sparse_written : forall e c keys s, good_keys keys -> machine e -> sparse_settings c -> s_part e c keys s -> storable e keys ->
  forall a mem, N.of_nat (length mem) = sparse_serializedSize s -> block a (length mem) ->
  exists buf, sparse_serialize e a s (mem, 0) = Ok (buf, length mem) /\ length buf = length mem /\
  exists s', s_part e c keys s' /\
    forall a' rest, block a' (length mem) -> sparse_deSerialize a' (buf ++ rest) 0 = Ok (s', length mem).
Proof. exact part_written. Qed.
Print Assumptions C51_sparse_written.

(** It has the same height, start level, sizes and bytes. *)
Theorem C51_sparse_figures : forall e c keys s, good_keys keys -> machine e -> sparse_settings c -> s_part e c keys s -> storable e keys ->
  forall s', s_restored e s s' ->
  s_height s' = s_height s /\ s_start s' = s_start s /\ sparse_serializedSize s' = sparse_serializedSize s /\
  sparse_getMemoryUsage s' = sparse_getMemoryUsage s /\ (forall a st, sparse_serialize e a s' st = sparse_serialize e a s st).
Proof. exact part_figures. Qed.
Print Assumptions C51_sparse_figures.

(** Whatever it answers to a sequence of calls, the first one answers too. *)
Theorem C51_sparse_answers : forall e c keys s, good_keys keys -> machine e -> sparse_settings c -> s_part e c keys s ->
  quiet e -> small keys -> forall s' cs l, s_restored e s s' -> s_answers e s' cs = Ok l -> s_answers e s cs = Ok l.
Proof. exact part_answers. Qed.
Print Assumptions C51_sparse_answers.

Definition c_sp : config := mkCfg false 0 kReal 0 8.
Definition calls1 : list s_call :=
  [SLookup [98; 50]; SLookup [99; 117; 116]; SGreater [97; 97] true; SMove 0 Fwd; SLook 0; SCompare 0 [98; 49; 1]; SLast; SMove 1 Bwd; SLook 1; SFirst; SCount 2 2].

(** keys "a", "ab", "b1", "b2", "cat" with suffixes: 120 bytes *)
Example C51_sparse_ex : exists s s' l, good_keys keys1 /\ machine e0 /\ quiet e0 /\ small keys1 /\ sparse_settings c_sp /\
  alone e0 c_sp keys1 s /\ s_restored e0 s s' /\ sparse_serializedSize s = 120%N /\
  s_answers e0 s' calls1 = Ok l /\ length l = 11.
Proof.
  assert (T : match s_round e0 c_sp keys1 with
    | Ok (s, buf, n, s', n') => sparse_serializedSize s = 120%N /\ length buf = 120 /\ exists l, s_answers e0 s' calls1 = Ok l /\ length l = 11
    | Fail _ => False end).
  { vm_compute. split; [reflexivity|]. split; [reflexivity|]. eexists. split; reflexivity. }
  destruct (s_round e0 c_sp keys1) as [[[[[s buf] n] s'] n']|] eqn:E; [|contradiction]. destruct T as (T1 & T2 & l & T3 & T4).
  destruct (s_round_restored _ _ _ _ _ _ _ _ E) as (A & R); [rewrite T1, T2; reflexivity|rewrite T2; apply Nat.leb_le; reflexivity|].
  exists s, s', l. split; [exact keys1_good|]. split; [exact e0_machine|]. split; [intros ? ?; reflexivity|]. split; [exact keys1_small|].
  split; [split; [reflexivity|]; split; cbn; lia|]. auto.
Qed.

(** If the memory behind the copy is not zero a lookup changes its answer. *)
Theorem C51_same_lookup_refuted : exists keys q s s', good_keys keys /\ sparse_settings c_nodense /\
  alone e_x c_nodense keys s /\ s_restored e_x s s' /\ s_lookupKey e_x s q 0 = Ok false /\ s_lookupKey e_x s' q 0 = Ok true.
Proof.
  assert (T : match s_round e_x c_nodense keys_even with
    | Ok (s, buf, n, s', n') => sparse_serializedSize s = N.of_nat (length buf) /\ length buf <= 5000 /\
        s_lookupKey e_x s [98; 121] 0 = Ok false /\ s_lookupKey e_x s' [98; 121] 0 = Ok true
    | Fail _ => False end).
  { vm_compute. split; [reflexivity|]. split; [apply Nat.leb_le; reflexivity|split; reflexivity]. }
  destruct (s_round e_x c_nodense keys_even) as [[[[[s buf] n] s'] n']|] eqn:E; [|contradiction]. destruct T as (T1 & T2 & T3 & T4).
  destruct (s_round_restored _ _ _ _ _ _ _ _ E T1 T2) as (A & R).
  exists keys_even, [98; 121], s, s'. split; [exact keys_even_good|]. split; [split; [reflexivity|]; split; [cbn; lia|exact I]|]. auto.
Qed.
Print Assumptions C51_same_lookup_refuted.

(** LoudsDense: the bytes are exactly serializedSize() many, *)
Theorem C51_dense_written : forall e c keys d, good_keys keys -> machine e -> dense_settings c -> d_part e c keys d -> storable e keys ->
  forall a mem, N.of_nat (length mem) = dense_serializedSize d -> block a (length mem) ->
  exists buf, dense_serialize a d (mem, 0) = Ok (buf, length mem) /\ length buf = length mem /\
  forall a' rest, block a' (length mem) -> dense_deSerialize a' (buf ++ rest) 0 = Ok (d, length mem).
Proof. exact dpart_written. Qed.
Print Assumptions C51_dense_written.

(** and what is read back is the same in every field. *)
Theorem C51_dense_same : forall e c keys d, good_keys keys -> machine e -> dense_settings c -> d_part e c keys d -> storable e keys ->
  forall d', d_restored d d' -> d' = d.
Proof. exact dpart_same. Qed.
Print Assumptions C51_dense_same.

Definition c_de : config := mkCfg true 0 kReal 0 8.
Example C51_dense_ex : exists d d', good_keys keys1 /\ machine e0 /\ storable e0 keys1 /\ dense_settings c_de /\
  d_alone e0 c_de keys1 d /\ d_restored d d' /\ dense_serializedSize d = 288%N.
Proof.
  assert (T : match d_round e0 c_de keys1 with
    | Ok (d, buf, n, d', n') => dense_serializedSize d = 288%N /\ length buf = 288
    | Fail _ => False end).
  { vm_compute. split; reflexivity. }
  destruct (d_round e0 c_de keys1) as [[[[[d buf] n] d'] n']|] eqn:E; [|contradiction]. destruct T as (T1 & T2).
  destruct (d_round_restored _ _ _ _ _ _ _ _ E) as (A & R); [rewrite T1, T2; reflexivity|rewrite T2; apply Nat.leb_le; reflexivity|].
  exists d, d'. split; [exact keys1_good|]. split; [exact e0_machine|]. split; [left; exact keys1_small|].
  split; [split; [reflexivity|]; split; [reflexivity|]; split; cbn; lia|]. auto.
Qed.
