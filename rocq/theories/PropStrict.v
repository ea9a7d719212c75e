(** Filters of the same keys with different suffixes: C53.  Only property
    theorems, examples and counterexamples. *)
From Coq Require Import Arith List NArith Bool Lia.
From Verif Require Import Res Config Builder Surf Spec SpecApi SpecFilter PointFacts StrictFacts Samples.
Import ListNotations.

(** What a filter with suffixes accepts, a filter without suffixes accepts. *)
Theorem C53_none : forall e keys c c' f f' q,
  machine e -> settings c -> settings c' -> good_keys keys -> ~ lone_ff keys -> padded e c keys f ->
  filter_of e c keys f -> filter_of e c' keys f' -> is_bytes q ->
  lookupKey e f q = Ok true -> cf_type c <> kNone -> cf_type c' = kNone -> lookupKey e f' q = Ok true.
Proof. exact strict_none. Qed.
Print Assumptions C53_none.

(** What a hash suffix accepts, alone or mixed, a hash suffix at most as long accepts. *)
Theorem C53_hash : forall e keys c c' f f' q,
  machine e -> settings c -> settings c' -> good_keys keys -> ~ lone_ff keys -> padded e c keys f ->
  filter_of e c keys f -> filter_of e c' keys f' -> is_bytes q ->
  lookupKey e f q = Ok true -> cf_type c = kHash \/ cf_type c = kMixed -> cf_type c' = kHash ->
  cf_hlen c' <= cf_hlen c <= 57 -> lookupKey e f' q = Ok true.
Proof. exact strict_hash. Qed.
Print Assumptions C53_hash.

(** What a mixed suffix accepts, its real part accepts. *)
Theorem C53_mixed : forall e keys c c' f f' q,
  machine e -> settings c -> settings c' -> good_keys keys -> ~ lone_ff keys -> padded e c keys f ->
  filter_of e c keys f -> filter_of e c' keys f' -> is_bytes q ->
  lookupKey e f q = Ok true -> cf_type c = kMixed -> cf_type c' = kReal -> cf_rlen c' = cf_rlen c ->
  lookupKey e f' q = Ok true.
Proof. exact strict_mixed. Qed.
Print Assumptions C53_mixed.

(** What a real suffix accepts, a shorter one accepts, if every key has all the
    bits of the longer one after its distinguishing prefix. *)
Theorem C53_real : forall e keys c c' f f' q,
  machine e -> settings c -> settings c' -> good_keys keys -> ~ lone_ff keys -> padded e c keys f ->
  filter_of e c keys f -> filter_of e c' keys f' -> is_bytes q ->
  lookupKey e f q = Ok true -> cf_type c = kReal -> cf_type c' = kReal -> cf_rlen c' <= cf_rlen c ->
  (forall k d, In k keys -> dist_len keys k d -> next_bits k d (cf_rlen c) <> None) ->
  lookupKey e f' q = Ok true.
Proof. exact strict_real. Qed.
Print Assumptions C53_real.

(** Keys with two bytes after the first, which tells them apart. *)
Example C53_ex :
  good_keys [[97; 98; 99]; [98; 98; 99]] /\ small [[97; 98; 99]; [98; 98; 99]] /\
  (exists f, create e0 (mkCfg true 16 kReal 0 16) [[97; 98; 99]; [98; 98; 99]] = Ok f) /\
  (forall k d, In k [[97; 98; 99]; [98; 98; 99]] -> dist_len [[97; 98; 99]; [98; 98; 99]] k d -> next_bits k d 16 <> None) /\
  answer e0 (mkCfg true 16 kReal 0 16) [[97; 98; 99]; [98; 98; 99]] [97; 98; 99; 1] = Ok true /\
  answer e0 (mkCfg true 16 kReal 0 8) [[97; 98; 99]; [98; 98; 99]] [97; 98; 99; 1] = Ok true /\
  answer e0 (mkCfg true 16 kReal 0 16) [[97; 98; 99]; [98; 98; 99]] [97; 98; 1] = Ok false /\
  answer e0 (mkCfg true 16 kReal 0 8) [[97; 98; 99]; [98; 98; 99]] [97; 98; 1] = Ok true /\
  answer e0 (mkCfg true 16 kReal 0 8) [[97; 98; 99]; [98; 98; 99]] [97; 1; 1] = Ok false /\
  answer e0 c_none [[97; 98; 99]; [98; 98; 99]] [97; 1; 1] = Ok true.
Proof.
  assert (G : good_keys [[97; 98; 99]; [98; 98; 99]]) by (apply good_keysb_ok; reflexivity).
  split; [exact G|]. split; [apply (small_len _ G); vm_compute; discriminate|]. split; [eexists; vm_compute; reflexivity|].
  split; [|repeat split; vm_compute; reflexivity].
  - intros k d K (D1 & D2 & D3). assert (d <= 1).
    { destruct (le_lt_dec d 1) as [|N]; [assumption|exfalso]. destruct (D3 1) as (k' & K' & NE & E); [lia|].
      destruct K as [<-|[<-|[]]]; destruct K' as [<-|[<-|[]]]; cbn in E; congruence. }
    destruct K as [<-|[<-|[]]]; destruct d as [|[|]]; try lia; vm_compute; discriminate.
Qed.

(** In general it does not: "cat" has 16 bits after "c".  A suffix of 8 bits
    rejects "cb"; a suffix of 24 bits is stored as zero and accepts it. *)
Theorem C53_longer_real_refuted : exists keys f f' q,
  good_keys keys /\ small keys /\ ~ lone_ff keys /\
  create e0 (mkCfg true 16 kReal 0 24) keys = Ok f /\ create e0 (mkCfg true 16 kReal 0 8) keys = Ok f' /\
  is_bytes q /\ lookupKey e0 f q = Ok true /\ lookupKey e0 f' q = Ok false.
Proof.
  exists keys1. destruct (create e0 (mkCfg true 16 kReal 0 24) keys1) as [f|] eqn:E; [|vm_compute in E; discriminate].
  destruct (create e0 (mkCfg true 16 kReal 0 8) keys1) as [f'|] eqn:E'; [|vm_compute in E'; discriminate].
  exists f, f', [99; 98]. split; [exact keys1_good|]. split; [exact keys1_small|]. split; [exact keys1_not_ff|].
  split; [reflexivity|]. split; [reflexivity|]. split; [repeat constructor; lia|].
  vm_compute in E, E'. injection E as <-. injection E' as <-. split; vm_compute; reflexivity.
Qed.
Print Assumptions C53_longer_real_refuted.
