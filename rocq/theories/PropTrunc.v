(** How much of its buffer deSerialize reads (C59). *)
From Coq Require Import Arith List NArith Bool Lia.
From Verif Require Import Res Config Builder Dense Sparse Surf Spec SpecApi Serialize SpecFilter SpecSession Samples SamplesRange SamplesSerial
  TruncFacts.
Import ListNotations.

(** * C59 *)
(** Whatever the bytes are: a filter read from them takes the reported number of
    bytes, fewer do not suffice and those behind do not matter. *)
Theorem C59_bytes_used : forall a buf f n, block a (length buf) -> deSerialize a buf = Ok (f, n) ->
  n <= length buf /\
  (forall j, j < n -> deSerialize a (firstn j buf) = Fail OutOfBounds) /\
  (forall rest, deSerialize a (firstn n buf ++ rest) = Ok (f, n)).
Proof. exact deSerialize_needs. Qed.
Print Assumptions C59_bytes_used.

(** a filter followed by three more bytes *)
Example C59_bytes_used_ex : exists f buf g n, round e0 c_real keys1 4096 8192 = Ok (f, buf, g, n) /\
  block 8192 (length (buf ++ [1; 2; 3])) /\ deSerialize 8192 (buf ++ [1; 2; 3]) = Ok (g, 272) /\ length (buf ++ [1; 2; 3]) = 275.
Proof.
  assert (T : match round e0 c_real keys1 4096 8192 with Ok (f, buf, g, n) => n = 272 /\ length buf = 272 | Fail _ => False end)
    by (vm_compute; auto).
  assert (D : forall f buf g n, round e0 c_real keys1 4096 8192 = Ok (f, buf, g, n) -> deSerialize 8192 buf = Ok (g, n)).
  { intros f buf g n H. unfold round in H. destruct (create e0 c_real keys1) as [f'|]; [|discriminate]. cbn [bind] in H.
    destruct (serialize_into _ _ _ _) as [[b m]|]; [|discriminate]. cbn [bind] in H.
    destruct (deSerialize 8192 b) as [[g' n']|] eqn:E; [|discriminate]. cbn [bind] in H. injection H as <- <- <- <-. exact E. }
  destruct (round e0 c_real keys1 4096 8192) as [[[[f buf] g] n]|] eqn:E; [|contradiction]. destruct T as [-> L]. exists f, buf, g, 272.
  split; [reflexivity|]. rewrite app_length, L. split; [split; vm_compute; congruence|]. split; [|reflexivity].
  apply deSerialize_stays, (D _ _ _ _ eq_refl).
Qed.

(** Whatever the bytes are, the only things that can go wrong are reading past
    them and a value that no suffix type or block size has. *)
Theorem C59_faults : forall a buf x, deSerialize a buf = Fail x -> x = OutOfBounds \/ x = BadValue.
Proof. exact deSerialize_errors. Qed.
Print Assumptions C59_faults.

(** both happen *)
Example C59_faults_ex : deSerialize 8192 [1; 0; 0] = Fail OutOfBounds /\ deSerialize 8192 (repeat 0 100) = Fail BadValue.
Proof. split; vm_compute; reflexivity. Qed.

(** No proper part of what serialize wrote is taken for a filter. *)
Theorem C59_cut_short : forall e c keys f,
  machine e -> any_settings c -> good_keys keys -> filter_of e c keys f -> storable e keys ->
  forall a mem buf n, N.of_nat (length mem) = serializedSize f -> block a (length mem) -> serialize_into e a mem f = Ok (buf, n) ->
  forall a' j, block a' (length mem) -> j < length buf -> deSerialize a' (firstn j buf) = Fail OutOfBounds.
Proof. exact cut_written. Qed.
Print Assumptions C59_cut_short.

Example C59_cut_short_ex : exists f buf n, create e0 c_real keys1 = Ok f /\ storable e0 keys1 /\
  N.of_nat (length (repeat 0 272)) = serializedSize f /\ block 4096 (length (repeat 0 272)) /\ block 8200 (length (repeat 0 272)) /\
  serialize_into e0 4096 (repeat 0 272) f = Ok (buf, n) /\ 271 < length buf.
Proof.
  assert (T : match f <- create e0 c_real keys1 ;; '(buf, n) <- serialize_into e0 4096 (repeat 0 272) f ;; Ok (f, buf) with
    | Ok (f, buf) => serializedSize f = 272%N /\ length buf = 272 | Fail _ => False end) by (vm_compute; auto).
  destruct (create e0 c_real keys1) as [f|]; [|contradiction]. cbn [bind] in T.
  destruct (serialize_into e0 4096 (repeat 0 272) f) as [[buf n]|] eqn:E; [|contradiction]. cbn [bind] in T. destruct T as [T L].
  exists f, buf, n. split; [reflexivity|]. split; [left; exact keys1_small|]. split; [rewrite T; reflexivity|].
  split; [split; vm_compute; congruence|]. split; [split; vm_compute; congruence|]. split; [exact E|]. rewrite L. lia.
Qed.

(** Other damage can go unnoticed: with the label '2' changed to '3', the bytes
    are read as another filter of the same size, without the key "b2". *)
Theorem C59_damage_refuted : exists buf buf' f f' n, length buf = length buf' /\
  buf' = map (fun x => if x =? 50 then 51 else x) buf /\
  deSerialize 8192 buf = Ok (f, n) /\ deSerialize 8192 buf' = Ok (f', n) /\
  lookupKey e0 f [98; 50] = Ok true /\ lookupKey e0 f' [98; 50] = Ok false.
Proof.
  assert (T : match round e0 c_real keys1 4096 8192 with
    | Ok (_, buf, _, _) =>
        match deSerialize 8192 buf, deSerialize 8192 (map (fun x => if x =? 50 then 51 else x) buf) with
        | Ok (f, n), Ok (f', n') => n = n' /\ lookupKey e0 f [98; 50] = Ok true /\ lookupKey e0 f' [98; 50] = Ok false
        | _, _ => False
        end
    | Fail _ => False end) by (vm_compute; auto).
  destruct (round e0 c_real keys1 4096 8192) as [[[[f0 buf] g] m]|]; [|contradiction]. exists buf, (map (fun x => if x =? 50 then 51 else x) buf).
  destruct (deSerialize 8192 buf) as [[f n]|]; [|contradiction].
  destruct (deSerialize 8192 (map _ buf)) as [[f' n']|]; [|contradiction]. destruct T as (<- & T1 & T2). exists f, f', n.
  rewrite map_length. repeat (split; auto).
Qed.
Print Assumptions C59_damage_refuted.
