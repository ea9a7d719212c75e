(** Concurrent use of one filter: C25.
    Only property theorems, examples and counterexamples. *)
From Coq Require Import Arith List NArith ZArith Bool Lia.
From Verif Require Import Res Config Builder Dense Sparse Surf Spec SpecApi SpecFilter SpecIter SpecSession Threads ThreadFacts
  Samples SamplesIter SamplesSafe SamplesThreads.
Import ListNotations.

(** * C25 *)
(** Any number of threads, of which at most one calls lookupRange or approxCount
    on keys: under every schedule each thread gets the answers it would get
    alone, and it has all of them after at most 14 steps for each call. *)
Theorem C25_readers : forall e f ps ls,
  Forall2 (fun p l => answers e f p = Ok l) ps ls ->
  (forall i j p q, nth_error ps i = Some p -> nth_error ps j = Some q -> existsb uses_member p = true -> existsb uses_member q = true -> i = j) ->
  forall sched, exists sh ts, run_programs e f ps sched = Ok (sh, ts) /\ length ts = length ps /\
  forall i p t l, nth_error ps i = Some p -> nth_error ts i = Some t -> nth_error ls i = Some l ->
    (exists l', th_out t ++ l' = l) /\ (14 * length p <= count_occ Nat.eq_dec sched i -> th_out t = l).
Proof. exact readers. Qed.
Print Assumptions C25_readers.

Theorem C25_no_fault : forall keys e c f,
  good_keys keys -> machine e -> settings c -> filter_of e c keys f -> ~ lone_ff keys -> padded e c keys f ->
  forall ps, Forall (Forall (sound_call e)) ps ->
  (forall i j p q, nth_error ps i = Some p -> nth_error ps j = Some q -> existsb uses_member p = true -> existsb uses_member q = true -> i = j) ->
  forall sched, exists sh ts, run_programs e f ps sched = Ok (sh, ts) /\ length ts = length ps /\
  forall i p t, nth_error ps i = Some p -> nth_error ts i = Some t ->
    exists l, answers e f p = Ok l /\ (exists l', th_out t ++ l' = l) /\ (14 * length p <= count_occ Nat.eq_dec sched i -> th_out t = l).
Proof. exact readers_total. Qed.
Print Assumptions C25_no_fault.

(** three threads, one of which looks a range up *)
Example C25_ex : exists f, create e0 c_real keys1 = Ok f /\ padded e0 c_real keys1 f /\ Forall (Forall (sound_call e0)) programs3 /\
  (forall i j p q, nth_error programs3 i = Some p -> nth_error programs3 j = Some q ->
     existsb uses_member p = true -> existsb uses_member q = true -> i = j) /\
  race e0 c_real keys1 programs3 [0; 1; 0; 1; 2; 1; 0; 0; 1; 1; 2; 2; 1; 1; 0; 1; 1] = Ok [[ABool true]; []; [AIter true false]].
Proof.
  destruct (create e0 c_real keys1) as [f|] eqn:E; [|vm_compute in E; discriminate]. exists f. split; [reflexivity|].
  split; [left; split; [exact keys1_small|exact E]|]. split; [|split; [|vm_compute; reflexivity]].
  - unfold programs3. repeat (apply Forall_cons || apply Forall_nil); cbn [sound_call]; unfold is_bytes; auto; try lia.
    split; [|split; [left; discriminate|]]; repeat (apply Forall_cons || apply Forall_nil); lia.
  - exact programs3_one.
Qed.

(** Two threads that look ranges up: one can miss a stored key, or fail an
    assertion. *)
Theorem C25_two_ranges_refuted : exists keys a b, good_keys keys /\ ~ lone_ff keys /\ In a keys /\ In b keys /\
  let p k := [CRange k true k true] in
  run e0 c_none keys (p a) = Ok [ABool true] /\ run e0 c_none keys (p b) = Ok [ABool true] /\
  (exists sched, race e0 c_none keys [p a; p b] sched = Ok [[ABool false]; [ABool true]]) /\
  (exists sched, race e0 c_none keys [p a; p b] sched = Fail AssertFail).
Proof.
  exists keys2, [98; 49], [98; 60]. split; [exact keys2_good|]. split; [exact keys2_not_ff|].
  split; [apply in_map_iff; exists 49; split; [reflexivity|apply in_seq; lia]|].
  split; [apply in_map_iff; exists 60; split; [reflexivity|apply in_seq; lia]|]. cbv zeta.
  split; [vm_compute; reflexivity|]. split; [vm_compute; reflexivity|].
  split; [exists (repeat 0 5 ++ repeat 1 14 ++ repeat 0 14)|exists (repeat 0 2 ++ repeat 1 14 ++ repeat 0 14)]; vm_compute; reflexivity.
Qed.
Print Assumptions C25_two_ranges_refuted.
