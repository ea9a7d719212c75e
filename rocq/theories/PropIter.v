(** Iteration: C06, C07, C10, C12.  Only property theorems, examples and
    counterexamples. *)
From Coq Require Import Arith List NArith Bool Lia.
From Verif Require Import Res Config Builder Dense Sparse Surf Spec SpecApi SpecFilter SpecIter SpecRange IterApi RangeApi Samples SamplesIter SamplesRange.
Import ListNotations.

(** * C06 *)
Theorem C06_forward_visits_all : forall e c keys f,
  machine e -> settings c -> good_keys keys -> ~ lone_ff keys -> filter_of e c keys f ->
  exists it out, moveToFirst e f = Ok it /\ collect e f Fwd (length (uniq keys)) it = Ok out /\
    Forall2 (shown keys) (uniq keys) out.
Proof. exact iter_forward. Qed.
Print Assumptions C06_forward_visits_all.

(** "a" is a prefix of "ab"; "cat" is cut to "c". *)
Example C06_forward_visits_all_ex :
  machine e0 /\ settings c_mixed /\ good_keys keys1 /\ ~ lone_ff keys1 /\ (exists f, create e0 c_mixed keys1 = Ok f) /\
  listing e0 c_mixed keys1 Fwd = Ok [[97]; [97; 98]; [98; 49]; [98; 50]; [99]].
Proof.
  split; [exact e0_machine|]. split; [exact c_mixed_settings|]. split; [exact keys1_good|]. split; [exact keys1_not_ff|].
  split; [eexists; vm_compute; reflexivity|vm_compute; reflexivity].
Qed.

(** In the two excepted situations nothing is visited: the lone key that starts
    with byte 255 and a filter without dense levels. *)
Theorem C06_lone_ff_refuted : exists keys, good_keys keys /\ listing e0 c_none keys Fwd = Fail AssertFail /\
  listing e_ndebug c_none keys Fwd = Fail OutOfBounds.
Proof. exists keys_ff. split; [exact keys_ff_good|]. split; vm_compute; reflexivity. Qed.
Theorem C06_without_dense_refuted : exists keys, good_keys keys /\ listing e0 c_nodense keys Fwd = Ok [] /\
  listing e0 c_nodense keys Bwd = Ok [].
Proof. exists keys1. split; [exact keys1_good|]. split; vm_compute; reflexivity. Qed.
Print Assumptions C06_lone_ff_refuted.
Print Assumptions C06_without_dense_refuted.

(** * C07 *)
Theorem C07_backward_visits_all : forall e c keys f,
  machine e -> settings c -> good_keys keys -> ~ lone_ff keys -> filter_of e c keys f ->
  (forall k, In k keys -> ~ zero_start k) ->
  exists it out, moveToLast e f = Ok it /\ collect e f Bwd (length (uniq keys)) it = Ok out /\
    Forall2 (shown keys) (rev (uniq keys)) out.
Proof. exact iter_backward_all. Qed.
Print Assumptions C07_backward_visits_all.

Example C07_backward_visits_all_ex :
  (exists f, create e0 c_real keys1 = Ok f) /\ (forall k, In k keys1 -> ~ zero_start k) /\
  listing e0 c_real keys1 Bwd = Ok [[99]; [98; 50]; [98; 49]; [97; 98]; [97]].
Proof.
  split; [eexists; vm_compute; reflexivity|]. split; [|vm_compute; reflexivity].
  intros k H (r & ->). cbn in H. repeat (destruct H as [H|H]; [discriminate|]). destruct H.
Qed.

(** Whenever some key does not start with byte 0, exactly the keys that do not
    are visited. *)
Theorem C07_backward_skips_zero : forall e c keys f,
  machine e -> settings c -> good_keys keys -> ~ lone_ff keys -> filter_of e c keys f ->
  (exists k, In k keys /\ ~ zero_start k) ->
  exists it out, moveToLast e f = Ok it /\ collect e f Bwd (length (uniq keys)) it = Ok out /\
    Forall2 (shown keys) (rev (filter (fun k => negb (starts_zero k)) (uniq keys))) out.
Proof. exact iter_backward. Qed.
Print Assumptions C07_backward_skips_zero.

Example C07_backward_skips_zero_ex :
  good_keys keys_z /\ ~ lone_ff keys_z /\ (exists f, create e0 c_real keys_z = Ok f) /\
  (exists k, In k keys_z /\ ~ zero_start k).
Proof.
  split; [exact keys_z_good|]. split; [exact keys_z_not_ff|]. split; [eexists; vm_compute; reflexivity|].
  exists [97]. split; [right; right; left; reflexivity|intros (r & E); discriminate].
Qed.

Theorem C07_zero_byte_refuted : exists keys, good_keys keys /\ ~ lone_ff keys /\
  listing e0 c_none keys Fwd = Ok [[0; 97]; [0; 98]; [97]; [98]] /\ listing e0 c_none keys Bwd = Ok [[98]; [97]].
Proof. exists keys_z. split; [exact keys_z_good|]. split; [exact keys_z_not_ff|]. split; vm_compute; reflexivity. Qed.
Print Assumptions C07_zero_byte_refuted.

(** If all keys start with byte 0, all are visited, except that the key "\000"
    is left out when the dense part has more than one level. *)
Theorem C07_backward_all_zero : forall e c keys f,
  machine e -> settings c -> good_keys keys -> ~ lone_ff keys -> filter_of e c keys f ->
  (forall k, In k keys -> zero_start k) ->
  exists it out, moveToLast e f = Ok it /\ collect e f Bwd (length (uniq keys)) it = Ok out /\
    (In [0] keys /\ 1 < getSparseStartLevel f /\ 1 < length (uniq keys) -> Forall2 (shown keys) (rev (tl (uniq keys))) out) /\
    (~ (In [0] keys /\ 1 < getSparseStartLevel f /\ 1 < length (uniq keys)) -> Forall2 (shown keys) (rev (uniq keys)) out).
Proof. exact iter_backward_zero. Qed.
Print Assumptions C07_backward_all_zero.

Example C07_backward_all_zero_ex :
  good_keys keys_zz /\ ~ lone_ff keys_zz /\ (forall k, In k keys_zz -> zero_start k) /\ In [0] keys_zz /\
  1 < length (uniq keys_zz) /\ exists f, create e0 c_none1 keys_zz = Ok f /\ getSparseStartLevel f = 3.
Proof.
  split; [exact keys_zz_good|]. split.
  { intros (k & _ & H). specialize (H [0] ltac:(left; reflexivity)). discriminate. }
  split; [intros k H; apply starts_zero_iff; revert k H; apply forallb_forall; vm_compute; reflexivity|].
  split; [left; reflexivity|]. split; [apply Nat.ltb_lt; vm_compute; reflexivity|].
  assert (T : match create e0 c_none1 keys_zz with Ok f => getSparseStartLevel f =? 3 | Fail _ => false end = true)
    by (vm_compute; reflexivity).
  destruct (create e0 c_none1 keys_zz) as [f|]; [|discriminate]. exists f. split; [reflexivity|]. apply Nat.eqb_eq. exact T.
Qed.

Theorem C07_all_zero_refuted : exists keys, good_keys keys /\ ~ lone_ff keys /\ In [0] keys /\
  match listing e0 c_none1 keys Fwd with Ok l => In [0] l | Fail _ => False end /\
  match listing e0 c_none1 keys Bwd with Ok l => ~ In [0] l | Fail _ => False end.
Proof.
  exists keys_zz. split; [exact keys_zz_good|]. split.
  { intros (k & _ & H). specialize (H [0] ltac:(left; reflexivity)). discriminate. }
  split; [left; reflexivity|].
  split; [apply listed; vm_compute; reflexivity|apply not_listed; vm_compute; reflexivity].
Qed.
Print Assumptions C07_all_zero_refuted.

(** * C10 *)

(** Any sequence of moves from either end leads to the key, or off the end, that
    stepping through the sorted list of distinct keys leads to; [stuck] is the
    one exception. *)
Theorem C10_moves_exact : forall e c keys f,
  machine e -> settings c -> good_keys keys -> ~ lone_ff keys -> filter_of e c keys f -> forall ms,
  (exists it it' p v, moveToFirst e f = Ok it /\ run e f ms it = Ok it' /\
     path keys (getSparseStartLevel f) ms (Some 0) p /\ look e f it' = Ok v /\ view_at c keys p v) /\
  (exists it it' p v, moveToLast e f = Ok it /\ run e f ms it = Ok it' /\
     path keys (getSparseStartLevel f) ms (Some (length (uniq keys) - 1)) p /\ look e f it' = Ok v /\ view_at c keys p v).
Proof. exact iter_moves. Qed.
Print Assumptions C10_moves_exact.

Theorem C10_next_then_prev : forall e c keys f it it1,
  machine e -> settings c -> good_keys keys -> ~ lone_ff keys -> filter_of e c keys f ->
  (forall k, In k keys -> ~ zero_start k) ->
  gotten e f keys it -> it_next e f it = Ok (true, it1) ->
  exists it2, it_prev e f it1 = Ok (true, it2) /\ same_view e f it2 it.
Proof. exact gotten_next_prev_plain. Qed.
Print Assumptions C10_next_then_prev.

Theorem C10_prev_then_next : forall e c keys f it it1,
  machine e -> settings c -> good_keys keys -> ~ lone_ff keys -> filter_of e c keys f ->
  gotten e f keys it -> it_prev e f it = Ok (true, it1) ->
  exists it2, it_next e f it1 = Ok (true, it2) /\ same_view e f it2 it.
Proof. exact gotten_prev_next. Qed.
Print Assumptions C10_prev_then_next.

(** Keys that start with byte 0 included. *)
Theorem C10_next_then_prev_exact : forall e c keys f it it1,
  machine e -> settings c -> good_keys keys -> ~ lone_ff keys -> filter_of e c keys f ->
  gotten e f keys it -> it_next e f it = Ok (true, it1) ->
  exists k k' o o', In k keys /\ In k' keys /\ it_getKey it = Ok o /\ shown keys k o /\ it_getKey it1 = Ok o' /\ shown keys k' o' /\
    (exists b it2, it_prev e f it1 = Ok (b, it2) /\
      ((stuck keys (getSparseStartLevel f) k k' /\ b = false /\ it_valid it2 = false) \/
       (~ stuck keys (getSparseStartLevel f) k k' /\ b = true /\ same_view e f it2 it))).
Proof. exact gotten_next_prev. Qed.
Print Assumptions C10_next_then_prev_exact.

Example C10_ex : exists f it it1 it2, create e0 c_mixed keys1 = Ok f /\ gotten e0 f keys1 it /\
  it_next e0 f it = Ok (true, it1) /\ it_prev e0 f it1 = Ok (true, it2) /\
  it_getKey it = Ok [97] /\ it_getKey it1 = Ok [97; 98] /\ it_getKey it2 = Ok [97].
Proof.
  destruct (create e0 c_mixed keys1) as [f|] eqn:E; [|vm_compute in E; discriminate].
  vm_compute in E. injection E as <-. do 4 eexists. split; [reflexivity|].
  split; [apply got_first; vm_compute; reflexivity|]. split; [vm_compute; reflexivity|].
  split; [vm_compute; reflexivity|]. repeat split; vm_compute; reflexivity.
Qed.

(** the same after a seek: ">= b0x", back from "b1" to "ab" and forth *)
Example C10_seek_ex : exists f it it1 it2, create e0 c_real keys1 = Ok f /\ gotten e0 f keys1 it /\
  it_prev e0 f it = Ok (true, it1) /\ it_next e0 f it1 = Ok (true, it2) /\
  it_getKey it = Ok [98; 49] /\ it_getKey it1 = Ok [97; 98] /\ it_getKey it2 = Ok [98; 49].
Proof.
  destruct (create e0 c_real keys1) as [f|] eqn:E; [|vm_compute in E; discriminate].
  vm_compute in E. injection E as <-. do 4 eexists. split; [reflexivity|].
  split; [apply (got_gt _ _ _ [98; 48; 120] true); [repeat constructor; lia|apply (no_stray_check _ c_real); reflexivity|vm_compute; reflexivity]|].
  split; [vm_compute; reflexivity|]. split; [vm_compute; reflexivity|]. repeat split; vm_compute; reflexivity.
Qed.

Theorem C10_zero_byte_refuted : exists keys f it it1 it2, good_keys keys /\ ~ lone_ff keys /\ create e0 c_none keys = Ok f /\
  gotten e0 f keys it /\ it_next e0 f it = Ok (true, it1) /\ it_prev e0 f it1 = Ok (false, it2) /\ it_valid it2 = false.
Proof.
  exists [[0]; [1]]. destruct (create e0 c_none [[0]; [1]]) as [f|] eqn:E; [|vm_compute in E; discriminate].
  vm_compute in E. injection E as <-. do 4 eexists. split; [apply good_keysb_ok; reflexivity|].
  split; [intros (k & _ & H); specialize (H [0] ltac:(left; reflexivity)); discriminate|]. split; [reflexivity|].
  split; [apply got_first; vm_compute; reflexivity|]. split; [vm_compute; reflexivity|]. split; vm_compute; reflexivity.
Qed.
Print Assumptions C10_zero_byte_refuted.

(** * C12 *)
Theorem C12_suffix_bits : forall e c keys f it,
  machine e -> settings c -> good_keys keys -> ~ lone_ff keys -> filter_of e c keys f ->
  cf_rlen c <= 63 -> gotten e f keys it -> it_valid it = true ->
  exists k d s ks, In k keys /\ dist_len keys k d /\ it_getKey it = Ok (firstn d k) /\
    it_getSuffix e f it = Ok s /\ good_suffix c k d s /\ it_getKeyWithSuffix e f it = Ok ks /\ good_keysuf c k d ks.
Proof. exact gotten_suffix. Qed.
Print Assumptions C12_suffix_bits.

(** "cat" with 12 bits: "c", then "a" and the first half of "t". *)
Example C12_suffix_bits_ex : exists f it, create e0 c_mixed keys1 = Ok f /\ cf_rlen c_mixed <= 63 /\ gotten e0 f keys1 it /\
  it_valid it = true /\ it_getKey it = Ok [99] /\ it_getSuffix e0 f it = Ok (12, Some (97 * 16 + 7)%N) /\
  it_getKeyWithSuffix e0 f it = Ok ([99; 97; 112], 4).
Proof.
  destruct (create e0 c_mixed keys1) as [f|] eqn:E; [|vm_compute in E; discriminate].
  vm_compute in E. injection E as <-. do 2 eexists. split; [reflexivity|]. split; [cbn; lia|].
  split; [apply got_last; vm_compute; reflexivity|]. repeat split; vm_compute; reflexivity.
Qed.

(** With 64 bits the suffix is lost: getSuffix returns 0 and getKeyWithSuffix
    adds nothing. *)
Theorem C12_full_word_lost : forall e c keys f it,
  machine e -> settings c -> good_keys keys -> ~ lone_ff keys -> filter_of e c keys f ->
  cf_type c = kReal -> cf_rlen c = 64 -> gotten e f keys it -> it_valid it = true ->
  exists o, it_getKey it = Ok o /\ it_getSuffix e f it = Ok (64, Some 0%N) /\ it_getKeyWithSuffix e f it = Ok (o, 0).
Proof. exact gotten_suffix64. Qed.
Print Assumptions C12_full_word_lost.

Theorem C12_full_word_refuted : exists keys f it k, good_keys keys /\ settings c_real64 /\ ~ lone_ff keys /\
  create e0 c_real64 keys = Ok f /\ gotten e0 f keys it /\ it_valid it = true /\
  In k keys /\ it_getKey it = Ok (firstn 1 k) /\ dist_len keys k 1 /\
  it_getSuffix e0 f it = Ok (64, Some 0%N) /\ bits_value (next_bits0 k 1 64) <> 0%N.
Proof.
  exists keys_long. destruct (create e0 c_real64 keys_long) as [f|] eqn:E; [|vm_compute in E; discriminate].
  vm_compute in E. injection E as <-. do 2 eexists. exists [97; 49; 50; 51; 52; 53; 54; 55; 56; 57].
  split; [apply good_keysb_ok; reflexivity|]. split; [unfold settings; cbn; repeat split; lia|].
  split; [intros (k & _ & H); specialize (H [98] ltac:(right; left; reflexivity)); discriminate|]. split; [reflexivity|].
  split; [apply got_first; vm_compute; reflexivity|]. split; [vm_compute; reflexivity|]. split; [left; reflexivity|].
  split; [vm_compute; reflexivity|]. split.
  - split; [lia|]. split; [|intros d' H; lia]. intros k' [<-|[<-|[]]] N; [congruence|]. cbn. congruence.
  - split; [vm_compute; reflexivity|]. vm_compute. discriminate.
Qed.
Print Assumptions C12_full_word_refuted.
