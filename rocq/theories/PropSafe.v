(** Absence of faults: C28, the rest of C29 and of C13.
    Only property theorems, examples and counterexamples. *)
From Coq Require Import Arith List NArith ZArith Bool Lia.
From Verif Require Import Res Config Builder Dense Sparse Surf Spec SpecApi Serialize SpecFilter SpecIter SpecSession SafeApi
  Samples SamplesIter SamplesRange SamplesSerial SamplesSafe.
Import ListNotations.

(** * C28 *)
Theorem C28_no_fault : forall keys e c f,
  good_keys keys -> machine e -> settings c -> filter_of e c keys f -> ~ lone_ff keys -> padded e c keys f ->
  forall cs, Forall (sound_call e) cs -> exists l, answers e f cs = Ok l /\ length l = length cs.
Proof. exact session_total. Qed.
Print Assumptions C28_no_fault.

Theorem C28_lookup_no_fault : forall keys e c f,
  good_keys keys -> machine e -> settings c -> filter_of e c keys f -> ~ lone_ff keys ->
  asserts e = false \/ padded e c keys f ->
  forall q, is_bytes q -> exists b, lookupKey e f q = Ok b.
Proof. exact lookup_total. Qed.
Print Assumptions C28_lookup_no_fault.

Example C28_no_fault_ex : exists f, create e0 c_real keys1 = Ok f /\ machine e0 /\ settings c_real /\ good_keys keys1 /\ ~ lone_ff keys1 /\
  padded e0 c_real keys1 f /\ Forall (sound_call e0) program2 /\ length program2 = 18.
Proof.
  destruct (create e0 c_real keys1) as [f|] eqn:E; [|vm_compute in E; discriminate]. exists f.
  split; [reflexivity|]. split; [split; reflexivity|]. split; [exact c_real_settings|]. split; [exact keys1_good|].
  split; [exact keys1_not_ff|]. split; [left; split; [exact keys1_small|exact E]|]. split; [|reflexivity].
  exact program2_sound.
Qed.

(** Memory checked to the byte: a 16-byte load runs past a label array of 22
    bytes during a plain lookup of a stored key. *)
Theorem C28_label_overread_refuted : exists keys q, good_keys keys /\ In q keys /\
  run e0 c_none keys [CLookup q] = Ok [ABool true] /\ run e_mem c_none keys [CLookup q] = Fail OutOfBounds.
Proof. exists keys_20, [98; 20]. split; [apply good_keysb_ok; reflexivity|]. split; [cbn; tauto|]. vm_compute. auto. Qed.
Print Assumptions C28_label_overread_refuted.

(** Building any filter without suffixes shifts a word by 64; so does a lookup
    with suffixes of 33 bits. *)
Theorem C28_shift_refuted : exists keys q, good_keys keys /\ In q keys /\
  create e_shift c_none keys = Fail WideShift /\
  run e_shift c_mixed_33 keys [CLookup q] = Fail WideShift /\ run e_shift c_mixed_33 keys [] = Ok [].
Proof. exists keys1, [97; 98]. split; [exact keys1_good|]. split; [cbn; tauto|]. vm_compute. auto. Qed.
Print Assumptions C28_shift_refuted.

(** approxCount asks for the position of a node that does not exist. *)
Theorem C28_count_refuted : exists keys l r, good_keys keys /\ ~ lone_ff keys /\ In l keys /\ In r keys /\
  run e0 c_none keys [CCount l r] = Fail OutOfBounds /\ run e_ndebug c_none keys [CCount l r] = Fail OutOfBounds.
Proof.
  exists keys1, [97], [98; 50]. split; [exact keys1_good|]. split; [exact keys1_not_ff|]. split; [cbn; tauto|]. split; [cbn; tauto|].
  vm_compute. auto.
Qed.
Print Assumptions C28_count_refuted.

(** Stepping through a filter of one key that starts with 0xFF. *)
Theorem C28_lone_ff_refuted : exists keys, good_keys keys /\ lone_ff keys /\
  run e0 c_none keys [CFirst; CMove 0 Fwd] = Fail AssertFail /\ run e_ndebug c_none keys [CFirst; CMove 0 Fwd; CLook 0] = Fail OutOfBounds.
Proof.
  exists keys_ff. split; [apply good_keysb_ok; reflexivity|]. split; [|vm_compute; auto].
  exists [1]. split; [left; reflexivity|]. intros k [<-|[<-|[]]]; reflexivity.
Qed.
Print Assumptions C28_lone_ff_refuted.

(** Seeking to the empty key. *)
Theorem C28_empty_seek_refuted : exists keys, good_keys keys /\ ~ lone_ff keys /\
  run e0 c_none keys [CGreater [] true] = Fail AssertFail /\ run e0 c_none keys [CRange [] true [97] true] = Fail AssertFail.
Proof. exists keys1. split; [exact keys1_good|]. split; [exact keys1_not_ff|]. vm_compute. auto. Qed.
Print Assumptions C28_empty_seek_refuted.

(** A restored filter followed by memory that is not zero. *)
Theorem C28_restored_refuted : exists keys q, good_keys keys /\
  match round e_xa c_none keys 4096 8192 with
  | Ok (f, _, g, _) => restored e_xa f g /\ lookupKey e_xa f q = Ok false /\ lookupKey e_xa g q = Fail AssertFail /\
      (exists it, moveToKeyGreaterThan e_xa f q true = Ok it) /\ moveToKeyGreaterThan e_xa g q true = Fail AssertFail
  | Fail _ => False
  end.
Proof.
  exists keys_even, [98; 121]. split; [exact keys_even_good|].
  assert (T : match round e_xa c_none keys_even 4096 8192 with
    | Ok (f, buf, g, n) => serializedSize f = N.of_nat (length buf) /\ length buf <= 2000 /\
        lookupKey e_xa f [98; 121] = Ok false /\ lookupKey e_xa g [98; 121] = Fail AssertFail /\
        (exists it, moveToKeyGreaterThan e_xa f [98; 121] true = Ok it) /\ moveToKeyGreaterThan e_xa g [98; 121] true = Fail AssertFail
    | Fail _ => False end).
  { vm_compute. split; [reflexivity|]. split; [apply Nat.leb_le; reflexivity|]. split; [reflexivity|]. split; [reflexivity|]. split; [eexists|]; reflexivity. }
  destruct (round e_xa c_none keys_even 4096 8192) as [[[[f buf] g] n]|] eqn:E; [|contradiction].
  destruct T as (T2 & T3 & T4). split; [|exact T4].
  eapply round_restored; [exact E| | |exact T2]; (split; [reflexivity|]); change (2 ^ 64)%N with 18446744073709551616%N; lia.
Qed.
Print Assumptions C28_restored_refuted.

(** * C29, every later call *)
(** A model function that ran out of fuel would return [Fail NoFuel]. *)
Theorem C29_program_returns : forall e c keys,
  machine e -> settings c -> good_keys keys -> ~ lone_ff keys -> small keys ->
  forall cs, Forall (sound_call e) cs ->
  exists f l, create e c keys = Ok f /\ answers e f cs = Ok l /\ length l = length cs.
Proof. exact program_runs. Qed.
Print Assumptions C29_program_returns.

Example C29_program_returns_ex : machine e0 /\ settings c_hash /\ good_keys keys2 /\ ~ lone_ff keys2 /\ small keys2 /\ Forall (sound_call e0) program2.
Proof.
  split; [exact e0_machine|]. split; [exact c_hash_settings|]. split; [exact keys2_good|]. split; [exact keys2_not_ff|]. split; [exact keys2_small|].
  exact program2_sound.
Qed.

(** * C13, programs *)
Theorem C13_same_program : forall e c keys f,
  machine e -> quiet e -> settings c -> good_keys keys -> ~ lone_ff keys -> small keys -> filter_of e c keys f ->
  forall g cs, restored e f g -> Forall (sound_call e) cs ->
  exists l, answers e f cs = Ok l /\ answers e g cs = Ok l /\ length l = length cs.
Proof. exact same_answers_total. Qed.
Print Assumptions C13_same_program.

Example C13_same_program_ex : exists f g, create e0 c_real keys1 = Ok f /\ restored e0 f g /\ small keys1 /\ quiet e0 /\ ~ lone_ff keys1 /\
  Forall (sound_call e0) program2.
Proof.
  assert (T : match round e0 c_real keys1 4096 8192 with
    | Ok (f, buf, g, n) => serializedSize f = 272%N /\ length buf = 272
    | Fail _ => False end) by (vm_compute; split; reflexivity).
  destruct (round e0 c_real keys1 4096 8192) as [[[[f buf] g] n]|] eqn:E; [|contradiction].
  destruct T as (T1 & T2). exists f, g. split; [exact (round_create _ _ _ _ _ _ _ _ _ E)|]. split.
  - eapply round_restored; [exact E| | |rewrite T1, T2; reflexivity]; rewrite T2; split; vm_compute; congruence.
  - split; [exact keys1_small|]. split; [intros ? ?; reflexivity|]. split; [exact keys1_not_ff|].
    exact program2_sound.
Qed.
