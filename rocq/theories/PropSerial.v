(** Serialization and memory: C13, C14, C15, C33, C34.
    Only property theorems, examples and counterexamples. *)
From Coq Require Import Arith List NArith ZArith Bool Lia.
From Verif Require Import Res Config Builder Dense Sparse Surf Spec SpecApi LabelVector Serialize SpecFilter SpecIter SpecSession Heap PointFacts SerialApi
  Samples SamplesIter SamplesRange SamplesSerial.
Import ListNotations.

(** * C13 *)
Theorem C13_round_trip : forall e c keys f,
  machine e -> any_settings c -> good_keys keys -> filter_of e c keys f -> storable e keys ->
  forall g, restored e f g ->
  (~ lone_ff keys -> forall k, In k keys -> lookupKey e g k = Ok true) /\
  getHeight g = getHeight f /\ getSparseStartLevel g = getSparseStartLevel f /\ serializedSize g = serializedSize f /\
  (forall sz, getMemoryUsage sz g = getMemoryUsage sz f) /\
  (forall a mem, serialize_into e a mem g = serialize_into e a mem f).
Proof. exact round_trip_figures. Qed.
Print Assumptions C13_round_trip.

Theorem C13_same_answers : forall e c keys f,
  machine e -> quiet e -> any_settings c -> good_keys keys -> small keys -> filter_of e c keys f ->
  forall g cs l, restored e f g -> answers e g cs = Ok l -> answers e f cs = Ok l.
Proof. exact round_trip_answers. Qed.
Print Assumptions C13_same_answers.

(** keys "a", "ab", "b1", "b2", "cat" written at 4096 and read back at 8192; a
    program of ten calls *)
Example C13_ex : exists f g l, create e0 c_real keys1 = Ok f /\ restored e0 f g /\ small keys1 /\ quiet e0 /\
  answers e0 g program1 = Ok l /\ length l = 10.
Proof.
  assert (T : match round e0 c_real keys1 4096 8192 with
    | Ok (f, buf, g, n) => (serializedSize f = 272%N /\ length buf = 272 /\ exists l, answers e0 g program1 = Ok l /\ length l = 10)
    | Fail _ => False end).
  { vm_compute. split; [reflexivity|]. split; [reflexivity|]. eexists. split; reflexivity. }
  destruct (round e0 c_real keys1 4096 8192) as [[[[f buf] g] n]|] eqn:E; [|contradiction].
  destruct T as (T1 & T2 & l & T3 & T4). exists f, g, l. split; [exact (round_create _ _ _ _ _ _ _ _ _ E)|]. split.
  - eapply round_restored; [exact E| | |rewrite T1, T2; reflexivity]; rewrite T2; split; vm_compute; congruence.
  - split; [exact keys1_small|]. repeat split; auto.
Qed.

(** The label array of a restored filter lacks the constructor's zeroed spare
    room.  If the memory behind it is not zero a lookup changes its answer; with
    checked memory it faults. *)
Theorem C13_same_lookup_refuted : exists keys q,
  good_keys keys /\
  match round e_x c_none keys 4096 8192 with
  | Ok (f, _, g, _) => create e_x c_none keys = Ok f /\ restored e_x f g /\ lookupKey e_x f q = Ok false /\ lookupKey e_x g q = Ok true
  | Fail _ => False
  end /\
  match round e_mem c_none keys 4096 8192 with
  | Ok (f, _, g, _) => lookupKey e_mem f q = Ok false /\ lookupKey e_mem g q = Fail OutOfBounds
  | Fail _ => False
  end.
Proof.
  exists keys_even, [98; 121]. split; [exact keys_even_good|]. split; [|vm_compute; auto].
  assert (T : match round e_x c_none keys_even 4096 8192 with
    | Ok (f, buf, g, n) => serializedSize f = N.of_nat (length buf) /\ length buf <= 2000 /\
        lookupKey e_x f [98; 121] = Ok false /\ lookupKey e_x g [98; 121] = Ok true
    | Fail _ => False end).
  { vm_compute. split; [reflexivity|]. split; [apply Nat.leb_le; reflexivity|split; reflexivity]. }
  destruct (round e_x c_none keys_even 4096 8192) as [[[[f buf] g] n]|] eqn:E; [|contradiction].
  destruct T as (T2 & T3 & T4 & T5). split; [exact (round_create _ _ _ _ _ _ _ _ _ E)|]. split; [|split; assumption].
  eapply round_restored; [exact E| | |exact T2]; (split; [reflexivity|]); change (2 ^ 64)%N with 18446744073709551616%N; lia.
Qed.
Print Assumptions C13_same_lookup_refuted.

(** * C14 *)
Theorem C14_exact_size : forall e c keys f,
  machine e -> any_settings c -> good_keys keys -> filter_of e c keys f -> storable e keys ->
  forall a mem, N.of_nat (length mem) = serializedSize f -> block a (length mem) ->
  exists buf, serialize_into e a mem f = Ok (buf, length mem) /\ length buf = length mem /\
    forall a', block a' (length mem) -> exists g, deSerialize a' buf = Ok (g, length mem).
Proof. exact exact_size. Qed.
Print Assumptions C14_exact_size.

Example C14_exact_size_ex : exists f, create e0 c_real keys1 = Ok f /\ storable e0 keys1 /\ serializedSize f = 272%N /\
  block 4096 (length (repeat 0 272)).
Proof.
  assert (T : match create e0 c_real keys1 with Ok f => serializedSize f = 272%N | Fail _ => False end) by (vm_compute; reflexivity).
  destruct (create e0 c_real keys1) as [f|]; [|contradiction]. exists f. split; [reflexivity|]. split; [left; exact keys1_small|].
  split; [exact T|]. split; vm_compute; congruence.
Qed.

(** serialize into memory that is not 8-byte aligned overruns it. *)
Theorem C14_unaligned_refuted : exists keys f, good_keys keys /\ create e0 c_real keys = Ok f /\
  forall a, In a [4097; 4098; 4099; 4100; 4101; 4102; 4103]%N ->
    serialize_into e0 a (repeat 0 (N.to_nat (serializedSize f))) f = Fail OutOfBounds.
Proof.
  exists keys1. destruct (create e0 c_real keys1) as [f|] eqn:E; [|vm_compute in E; discriminate]. exists f. split; [apply good_keysb_ok; reflexivity|].
  split; [reflexivity|]. vm_compute in E. injection E as <-. intros a H. cbn [In] in H.
  repeat (destruct H as [<-|H]; [vm_compute; reflexivity|]). contradiction.
Qed.
Print Assumptions C14_unaligned_refuted.

(** * C15 *)
Theorem C15_any_aligned_address : forall e c keys f,
  machine e -> any_settings c -> good_keys keys -> filter_of e c keys f -> storable e keys ->
  forall a mem buf n, N.of_nat (length mem) = serializedSize f -> block a (length mem) -> serialize_into e a mem f = Ok (buf, n) ->
  exists g, forall a' rest, block a' (length mem) -> deSerialize a' (buf ++ rest) = Ok (g, length buf).
Proof. exact any_aligned. Qed.
Print Assumptions C15_any_aligned_address.

Example C15_any_aligned_address_ex : exists f buf n, create e0 c_real keys1 = Ok f /\ storable e0 keys1 /\
  N.of_nat (length (repeat 0 272)) = serializedSize f /\ block 4096 (length (repeat 0 272)) /\ block 8200 (length (repeat 0 272)) /\
  serialize_into e0 4096 (repeat 0 272) f = Ok (buf, n).
Proof.
  assert (T : match f <- create e0 c_real keys1 ;; '(buf, n) <- serialize_into e0 4096 (repeat 0 272) f ;; Ok (f, n) with
    | Ok (f, n) => serializedSize f = 272%N | Fail _ => False end) by (vm_compute; reflexivity).
  destruct (create e0 c_real keys1) as [f|]; [|contradiction]. cbn [bind] in T.
  destruct (serialize_into e0 4096 (repeat 0 272) f) as [[buf n]|] eqn:E; [|contradiction]. cbn [bind] in T.
  exists f, buf, n. split; [reflexivity|]. split; [left; exact keys1_small|]. split; [rewrite T; reflexivity|].
  split; [split; vm_compute; congruence|]. split; [split; vm_compute; congruence|exact E].
Qed.

(** The same bytes cannot be read at any other address: align() rounds the
    address, not the offset. *)
Theorem C15_unaligned_refuted : exists keys, good_keys keys /\
  match round e0 c_real keys 4096 8192 with
  | Ok (_, buf, _, _) => forall a, In a [8193; 8194; 8195; 8196; 8197; 8198; 8199]%N -> exists x, deSerialize a buf = Fail x
  | Fail _ => False
  end.
Proof.
  exists keys1. split; [apply good_keysb_ok; reflexivity|].
  assert (T : match round e0 c_real keys1 4096 8192 with
    | Ok (_, buf, _, _) => forallb (fun a => match deSerialize a buf with Fail _ => true | Ok _ => false end) [8193; 8194; 8195; 8196; 8197; 8198; 8199]%N = true
    | Fail _ => False end) by (vm_compute; reflexivity).
  destruct (round e0 c_real keys1 4096 8192) as [[[[f buf] g] n]|]; [|exact T]. rewrite forallb_forall in T. intros a H. specialize (T a H).
  destruct (deSerialize a buf) as [x|x]; [discriminate|]. exists x. reflexivity.
Qed.
Print Assumptions C15_unaligned_refuted.

(** * C33 *)
(** The report leaves out the level_cuts_ arrays and the spare room behind the
    labels, which has n * (n / 64) bytes for n labels; it adds 296 bytes for the
    objects. *)
Theorem C33_report_built : forall e c keys f,
  machine e -> any_settings c -> good_keys keys -> filter_of e c keys f -> create e c keys = Ok f -> small keys ->
  forall sz, (sz <= 4294967295)%N ->
  let n := N.of_nat (lv_num_bytes (s_labels (sf_sparse f))) in
  (getMemoryUsage sz f + 4 * N.of_nat (getSparseStartLevel f) + 4 * N.of_nat (getHeight f) + n * (n / 64) = sz + 296 + held f)%N.
Proof. exact memory_built. Qed.
Print Assumptions C33_report_built.
Theorem C33_report_restored : forall e c keys f,
  machine e -> any_settings c -> good_keys keys -> filter_of e c keys f -> storable e keys ->
  forall g, restored e f g -> forall sz, (sz <= 4294967295)%N ->
  (getMemoryUsage sz g + 4 * N.of_nat (getSparseStartLevel g) + 4 * N.of_nat (getHeight g) = sz + 296 + held g)%N.
Proof. exact memory_restored. Qed.
Print Assumptions C33_report_restored.

Example C33_ex : exists f, create e0 c_real keys_even = Ok f /\ small keys_even /\ lv_num_bytes (s_labels (sf_sparse f)) = 101 /\
  held f = 446%N /\ getMemoryUsage 360 f = 985%N.
Proof.
  assert (T : match create e0 c_real keys_even with Ok f => Ok (lv_num_bytes (s_labels (sf_sparse f)), held f, getMemoryUsage 360 f) | Fail x => Fail x end
    = Ok (101, 446%N, 985%N)) by (vm_compute; reflexivity).
  destruct (create e0 c_real keys_even) as [f|]; [|discriminate]. injection T as T1 T2 T3. exists f. split; [reflexivity|]. split; [apply (small_len _ keys_even_good); vm_compute; discriminate|auto].
Qed.

(** A filter of 800 keys of three bytes holds 5000 bytes more than the report
    says, even if a SuRF object has 1000 bytes. *)
Theorem C33_refuted : exists keys f, good_keys keys /\ create e0 c_none keys = Ok f /\ (getMemoryUsage 1000 f + 5000 < held f)%N.
Proof.
  exists keys_wide. assert (T : match create e0 c_none keys_wide with Ok f => ((getMemoryUsage 1000 f + 5000 <? held f) = true)%N | Fail _ => False end)
    by (vm_compute; reflexivity).
  destruct (create e0 c_none keys_wide) as [f|]; [|contradiction]. exists f. split; [apply good_keysb_ok; vm_compute; reflexivity|].
  split; [reflexivity|]. apply N.ltb_lt. exact T.
Qed.
Print Assumptions C33_refuted.

(** * C34 *)
(** destroy() deletes every array of the filter once and no other array, except
    that it forgets the level_cuts_ array of the dense part. *)
Theorem C34_destroy : forall e c keys f,
  machine e -> any_settings c -> good_keys keys -> filter_of e c keys f ->
  forall h p h1, fresh_heap h -> surf_arrays f h = (p, h1) ->
  exists h2, surf_destroy p h1 = Some h2 /\ hp_live h2 = (dp_cuts (fst p), (4 * N.of_nat (getSparseStartLevel f))%N) :: hp_live h.
Proof. exact destroy_all_but_cuts. Qed.
Print Assumptions C34_destroy.

(** a heap that already holds two arrays *)
Example C34_destroy_ex : exists f p h1, create e0 c_real keys1 = Ok f /\ fresh_heap (mkHeap 7 [(6, 40%N); (2, 8%N)]) /\
  surf_arrays f (mkHeap 7 [(6, 40%N); (2, 8%N)]) = (p, h1) /\ length (hp_live h1) = 17.
Proof.
  assert (T : match create e0 c_real keys1 with Ok f => length (hp_live (snd (surf_arrays f (mkHeap 7 [(6, 40%N); (2, 8%N)])))) = 17 | Fail _ => False end)
    by (vm_compute; reflexivity).
  destruct (create e0 c_real keys1) as [f|]; [|contradiction]. destruct (surf_arrays f _) as [p h1] eqn:E. exists f, p, h1.
  split; [reflexivity|]. split; [intros q m [H|[H|[]]]; injection H as <- <-; cbn; lia|]. split; [exact E|exact T].
Qed.

(** The forgotten array is never empty. *)
Theorem C34_refuted : exists keys f p h1 h2, good_keys keys /\ create e0 c_real keys = Ok f /\
  surf_arrays f (mkHeap 0 []) = (p, h1) /\ surf_destroy p h1 = Some h2 /\ live_bytes h2 = 4%N.
Proof.
  exists keys1. assert (T : match create e0 c_real keys1 with Ok f => match surf_destroy (fst (surf_arrays f (mkHeap 0 []))) (snd (surf_arrays f (mkHeap 0 []))) with
    Some h2 => live_bytes h2 = 4%N | None => False end | Fail _ => False end) by (vm_compute; reflexivity).
  destruct (create e0 c_real keys1) as [f|]; [|contradiction]. destruct (surf_arrays f (mkHeap 0 [])) as [p h1] eqn:EA. cbn [fst snd] in T.
  destruct (surf_destroy p h1) as [h2|] eqn:E; [|contradiction]. exists f, p, h1, h2. split; [apply good_keysb_ok; reflexivity|]. repeat (split; auto).
Qed.
Print Assumptions C34_refuted.
