(** Point lookups: C01, C02, C03, C22, C31, C32, and the part of C29 about
    construction.  Only property theorems, examples and counterexamples. *)
From Coq Require Import Arith List NArith Bool Lia.
From Verif Require Import Res Config Hash Builder Dense Sparse Surf Spec SpecApi SpecFilter PointFacts HashApi Samples.
Import ListNotations.

(** * C01 *)

(** Every stored key is found, for every suffix type and every ratio, unless
    the only distinct key starts with byte 255. *)
Theorem C01_stored_keys_found : forall e c keys f k,
  machine e -> settings c -> good_keys keys -> ~ lone_ff keys ->
  filter_of e c keys f -> In k keys -> lookupKey e f k = Ok true.
Proof. exact point_stored. Qed.
Print Assumptions C01_stored_keys_found.

Example C01_stored_keys_found_ex :
  machine e0 /\ settings c_mixed /\ good_keys keys1 /\ ~ lone_ff keys1 /\
  (exists f, create e0 c_mixed keys1 = Ok f) /\ In [97] keys1 /\ answer e0 c_mixed keys1 [97] = Ok true.
Proof.
  split; [exact e0_machine|]. split; [exact c_mixed_settings|]. split; [exact keys1_good|].
  split; [exact keys1_not_ff|]. split; [eexists; vm_compute; reflexivity|]. split; [left; reflexivity|vm_compute; reflexivity].
Qed.

(** In the excepted case every stored key is lost. *)
Theorem C01_lone_ff_lost : forall e c keys f k,
  machine e -> settings c -> good_keys keys -> lone_ff keys ->
  filter_of e c keys f -> In k keys -> lookupKey e f k = Ok false.
Proof. exact point_lone_ff. Qed.
Print Assumptions C01_lone_ff_lost.

Example C01_lone_ff_lost_ex : good_keys keys_ff /\ lone_ff keys_ff /\ (exists f, create e0 c_real keys_ff = Ok f).
Proof.
  split; [exact keys_ff_good|]. split; [|eexists; vm_compute; reflexivity].
  exists [1]. split; [left; reflexivity|]. intros k' [<-|[<-|[]]]; reflexivity.
Qed.

Theorem C01_refuted : exists e c keys f k, machine e /\ settings c /\ good_keys keys /\
  create e c keys = Ok f /\ In k keys /\ lookupKey e f k = Ok false.
Proof.
  exists e0, c_real, keys_ff.
  destruct (create e0 c_real keys_ff) as [f|] eqn:E; [|vm_compute in E; discriminate].
  exists f, [255; 1]. split; [exact e0_machine|]. split; [exact c_real_settings|]. split; [exact keys_ff_good|].
  split; [reflexivity|]. split; [left; reflexivity|].
  apply (point_lone_ff e0 c_real keys_ff f [255; 1] e0_machine c_real_settings keys_ff_good); [|exact (fo_built _ _ _ _ E)|left; reflexivity].
  exists [1]. split; [left; reflexivity|]. intros k' [<-|[<-|[]]]; reflexivity.
Qed.
Print Assumptions C01_refuted.

(** Without dense levels every lookup is answered true, for any string. *)
Theorem C01_without_dense : forall e c keys f q,
  cf_dense c = false -> create e c keys = Ok f -> lookupKey e f q = Ok true.
Proof. exact point_no_dense. Qed.
Print Assumptions C01_without_dense.

Example C01_without_dense_ex : exists f, create e0 c_nodense keys1 = Ok f.
Proof. eexists. vm_compute. reflexivity. Qed.

(** A real suffix of zero bits loses the stored keys. *)
Theorem C01_zero_length_suffix_refuted : exists keys k, good_keys keys /\ In k keys /\
  answer e0 (mkCfg true 16 kReal 0 0) keys k = Ok false.
Proof.
  exists keys1, [97]. split; [exact keys1_good|]. split; [left; reflexivity|vm_compute; reflexivity].
Qed.

(** * C02 *)

(** A lookup is answered true exactly for the strings that agree with a stored
    key on its shortest distinguishing prefix and that its suffix admits.  The
    only exception is a query with a zero byte on a filter without suffixes. *)
Theorem C02_lookup_exact : forall e c keys f q,
  machine e -> settings c -> good_keys keys -> ~ lone_ff keys -> padded e c keys f ->
  filter_of e c keys f -> is_bytes q -> cf_type c <> kNone \/ ~ In 0 q ->
  exists b, lookupKey e f q = Ok b /\ (b = true <-> exists k, In k keys /\ matches c keys k q).
Proof. exact point_exact. Qed.
Print Assumptions C02_lookup_exact.

Theorem C02_lookup_true_only_on_match : forall e c keys f q,
  machine e -> settings c -> good_keys keys -> ~ lone_ff keys -> padded e c keys f ->
  filter_of e c keys f -> is_bytes q -> lookupKey e f q = Ok true ->
  (exists k, In k keys /\ matches c keys k q) \/ (cf_type c = kNone /\ In 0 q).
Proof. exact point_sound. Qed.
Print Assumptions C02_lookup_true_only_on_match.

Theorem C02_lookup_true_on_match : forall e c keys f q k,
  machine e -> settings c -> good_keys keys -> ~ lone_ff keys ->
  filter_of e c keys f -> is_bytes q -> In k keys -> matches c keys k q -> lookupKey e f q = Ok true.
Proof. exact point_complete. Qed.
Print Assumptions C02_lookup_true_on_match.

(** "cap" is rejected with suffixes, accepted without: it agrees with "cat" on
    the distinguishing prefix "c". *)
Example C02_lookup_exact_ex :
  small keys1 /\ is_bytes [99; 97; 112] /\ cf_type c_real <> kNone /\
  (exists f, create e0 c_real keys1 = Ok f) /\
  answer e0 c_real keys1 [99; 97; 112] = Ok true /\ answer e0 c_real keys1 [99; 98; 112] = Ok false /\
  answer e0 c_none keys1 [99; 98; 112] = Ok true /\ answer e0 c_none keys1 [100] = Ok false.
Proof.
  split; [exact keys1_small|]. split; [repeat constructor|]. split; [discriminate|].
  split; [eexists; vm_compute; reflexivity|]. repeat split; vm_compute; reflexivity.
Qed.

(** The exception: "b\000" follows no stored key but is answered true. *)
Theorem C02_zero_byte_refuted : exists keys f q,
  good_keys keys /\ small keys /\ ~ lone_ff keys /\ create e0 c_none keys = Ok f /\ is_bytes q /\
  lookupKey e0 f q = Ok true /\ ~ exists k, In k keys /\ matches c_none keys k q.
Proof.
  exists keys2. destruct (create e0 c_none keys2) as [f|] eqn:E; [|vm_compute in E; discriminate].
  exists f, [98; 0]. split; [exact keys2_good|]. split; [exact keys2_small|]. split; [exact keys2_not_ff|].
  split; [reflexivity|]. split; [repeat constructor; lia|]. split.
  - vm_compute in E. injection E as <-. vm_compute. reflexivity.
  - intros (k & Hk & d & (D1 & D2 & D3) & M & _).
    apply in_map_iff in Hk. destruct Hk as (i & <- & Hi). apply in_seq in Hi.
    assert (H2 : d <> 1).
    { intros ->. destruct (Nat.eq_dec i 1) as [->|N].
      - apply (D2 [98; 2]); [right; left; reflexivity|discriminate|reflexivity].
      - apply (D2 [98; 1]); [left; reflexivity|intros X; injection X; lia|reflexivity]. }
    destruct d as [|[|d]]; [lia|lia|]. cbn [firstn] in M. inversion M. lia.
Qed.
Print Assumptions C02_zero_byte_refuted.

(** * C03 *)
Theorem C03_split_invisible : forall e c c' keys f f' q,
  machine e -> settings c -> settings c' -> good_keys keys -> ~ lone_ff keys -> padded e c keys f -> padded e c' keys f' ->
  filter_of e c keys f -> filter_of e c' keys f' ->
  cf_type c' = cf_type c -> cf_hlen c' = cf_hlen c -> cf_rlen c' = cf_rlen c ->
  is_bytes q -> cf_type c <> kNone \/ ~ In 0 q -> lookupKey e f q = lookupKey e f' q.
Proof. exact point_split. Qed.
Print Assumptions C03_split_invisible.

(** Two ratios that put the cut at different levels. *)
Example C03_split_invisible_ex :
  settings c_none /\ settings c_none1 /\ good_keys keys3 /\ ~ lone_ff keys3 /\ quiet e0 /\
  exists f f', create e0 c_none keys3 = Ok f /\ create e0 c_none1 keys3 = Ok f' /\
               getSparseStartLevel f <> getSparseStartLevel f'.
Proof.
  split; [exact c_none_settings|]. split; [exact c_none1_settings|]. split; [exact keys3_good|].
  split; [exact keys3_not_ff|]. split; [exact e0_quiet|].
  assert (T : match create e0 c_none keys3, create e0 c_none1 keys3 with
              | Ok f, Ok f' => negb (getSparseStartLevel f =? getSparseStartLevel f')
              | _, _ => false end = true) by (vm_compute; reflexivity).
  destruct (create e0 c_none keys3) as [f|]; [|discriminate].
  destruct (create e0 c_none1 keys3) as [f'|]; [|discriminate].
  exists f, f'. split; [reflexivity|]. split; [reflexivity|]. intros X. rewrite X, Nat.eqb_refl in T. discriminate.
Qed.

(** The split shows for a query with a zero byte, and without dense levels. *)
Theorem C03_zero_byte_refuted : exists keys q, good_keys keys /\ is_bytes q /\
  answer e0 c_none keys q = Ok true /\ answer e0 c_none1 keys q = Ok false.
Proof.
  exists keys3, [98; 5; 0]. split; [exact keys3_good|]. split; [repeat constructor; lia|].
  split; vm_compute; reflexivity.
Qed.
Print Assumptions C03_zero_byte_refuted.

Theorem C03_without_dense_refuted : exists keys q, good_keys keys /\ is_bytes q /\ ~ In 0 q /\
  answer e0 c_none keys q = Ok false /\ answer e0 c_nodense keys q = Ok true.
Proof.
  exists keys1, [100]. split; [exact keys1_good|]. split; [repeat constructor; lia|].
  split; [intros [H|[]]; discriminate|]. split; vm_compute; reflexivity.
Qed.
Print Assumptions C03_without_dense_refuted.

(** * C22 *)
Theorem C22_duplicates_ignored : forall e c keys, create e c keys = create e c (uniq keys).
Proof. exact create_uniq. Qed.
Print Assumptions C22_duplicates_ignored.

Example C22_duplicates_ignored_ex : uniq keys1 <> keys1 /\ exists f, create e0 c_real keys1 = Ok f.
Proof. split; [discriminate|]. eexists. vm_compute. reflexivity. Qed.

(** * C29, construction *)
Theorem C29_create_succeeds : forall keys, good_keys keys -> forall e c,
  machine e -> settings c -> small keys -> exists f, create e c keys = Ok f.
Proof. exact create_exists. Qed.
Print Assumptions C29_create_succeeds.

Example C29_create_succeeds_ex : good_keys keys2 /\ machine e0 /\ settings c_hash /\ small keys2.
Proof. split; [exact keys2_good|]. split; [exact e0_machine|]. split; [exact c_hash_settings|exact keys2_small]. Qed.

(** [small] holds for keys of up to 524,286 bytes with their ends, and however
    long the keys are if the parts that tell them apart are short. *)
Theorem C29_small_total : forall keys, good_keys keys -> (N.of_nat (total_len keys) <= 524286)%N -> small keys.
Proof. exact small_len. Qed.
Print Assumptions C29_small_total.
Theorem C29_small_tails : forall keys, (N.of_nat (length keys) <= 524286)%N ->
  (forall k k', In k keys -> In k' keys -> k <> k' -> firstn 1 k <> firstn 1 k') -> small keys.
Proof. exact small_tails. Qed.
Print Assumptions C29_small_tails.

(** Two keys of more than 600,000 bytes. *)
Example C29_small_tails_ex : let t := repeat 7 (N.to_nat 600000) in let keys := [97 :: t; 98 :: t] in
  (forall k k', In k keys -> In k' keys -> k <> k' -> firstn 1 k <> firstn 1 k') /\ (600000 < N.of_nat (total_len keys))%N.
Proof.
  intros t keys. split.
  - intros k k' [<-|[<-|[]]] [<-|[<-|[]]] H; try congruence; discriminate.
  - unfold total_len, keys. cbn [map list_sum fold_right length]. replace (length t) with (N.to_nat 600000) by (symmetry; apply repeat_length). lia.
Qed.

(** Suffixes without dense levels, and ratio 0, make construction read outside
    an array. *)
Theorem C29_suffix_without_dense_refuted : exists keys, good_keys keys /\ small keys /\
  create e0 c_nodense_real keys = Fail OutOfBounds.
Proof. exists keys1. split; [exact keys1_good|]. split; [exact keys1_small|vm_compute; reflexivity]. Qed.
Theorem C29_ratio_zero_refuted : exists keys, good_keys keys /\ small keys /\
  create e0 (mkCfg true 0 kNone 0 0) keys = Fail OutOfBounds.
Proof. exists keys1. split; [exact keys1_good|]. split; [exact keys1_small|vm_compute; reflexivity]. Qed.
Print Assumptions C29_suffix_without_dense_refuted.
Print Assumptions C29_ratio_zero_refuted.

(** * C31 *)
Theorem C31_hash_suffix_exact : forall e c keys f q,
  machine e -> settings c -> good_keys keys -> ~ lone_ff keys -> padded e c keys f ->
  filter_of e c keys f -> is_bytes q -> cf_type c = kHash ->
  exists b, lookupKey e f q = Ok b /\
    (b = true <-> exists k d, In k keys /\ dist_len keys k d /\ firstn d q = firstn d k /\
                              hash_bits k (cf_hlen c) = hash_bits q (cf_hlen c)).
Proof. exact point_hash. Qed.
Print Assumptions C31_hash_suffix_exact.

Example C31_hash_suffix_exact_ex :
  settings c_hash /\ good_keys keys1 /\ ~ lone_ff keys1 /\ small keys1 /\
  (exists f, create e0 c_hash keys1 = Ok f) /\ cf_type c_hash = kHash /\
  answer e0 c_hash keys1 [99; 97; 116] = Ok true /\ answer e0 c_hash keys1 [99; 97; 117] = Ok false.
Proof.
  split; [exact c_hash_settings|]. split; [exact keys1_good|]. split; [exact keys1_not_ff|]. split; [exact keys1_small|].
  split; [eexists; vm_compute; reflexivity|]. repeat split; vm_compute; reflexivity.
Qed.

(** The test vectors of LevelDB's hash_test.cc for this hash function. *)
Example C31_leveldb_vectors :
  suffixHash [] = 0xbc9f1d34%N /\ suffixHash [0x62] = 0xef1345c4%N /\ suffixHash [0xc3; 0x97] = 0x5b663814%N /\
  suffixHash [0xe2; 0x99; 0xa5] = 0x323c078f%N /\ suffixHash [0xe1; 0x80; 0xb9; 0x32] = 0xed21633a%N /\
  Hash ([0x01; 0xc0] ++ repeat 0 14 ++ [0x14; 0; 0; 0; 0; 0; 0x04; 0; 0; 0; 0; 0x14; 0; 0; 0; 0x18; 0x28; 0; 0; 0; 0; 0; 0; 0; 0x02] ++ repeat 0 7)
    0x12345678 = 0xf333dabb%N.
Proof. repeat split; vm_compute; reflexivity. Qed.

(** The hash has 32 bits, so the suffix has no more than 25: the other bits of
    a hash suffix of 26 to 57 bits are always 0. *)
Theorem C31_no_more_than_25 : forall e c c' keys f f' q,
  machine e -> settings c -> settings c' -> good_keys keys -> ~ lone_ff keys ->
  padded e c keys f -> padded e c' keys f' -> filter_of e c keys f -> filter_of e c' keys f' -> is_bytes q ->
  cf_type c = kHash -> cf_type c' = kHash -> 25 <= cf_hlen c <= 57 -> 25 <= cf_hlen c' <= 57 ->
  lookupKey e f q = lookupKey e f' q.
Proof. exact hash_same. Qed.
Print Assumptions C31_no_more_than_25.

Example C31_no_more_than_25_ex : let c := mkCfg true 16 kHash 25 0 in let c' := mkCfg true 16 kHash 57 0 in
  settings c /\ settings c' /\ (exists f, create e0 c keys1 = Ok f) /\ (exists f, create e0 c' keys1 = Ok f) /\
  answer e0 c keys1 [99; 97; 117] = Ok false /\ answer e0 c' keys1 [99; 97; 117] = Ok false.
Proof.
  cbv zeta. split; [repeat split; cbn; lia|]. split; [repeat split; cbn; lia|]. split; [eexists; vm_compute; reflexivity|].
  split; [eexists; vm_compute; reflexivity|]. split; vm_compute; reflexivity.
Qed.

(** With 58 bits or more the shift count 64 - len - 7 is negative.  On x86 only
    len - 57 bits of the hash are left: with 58 bits "cau" passes for "cat",
    with 57 bits it does not.  As C++ it is undefined. *)
Theorem C31_long_hash_refuted : exists keys q, good_keys keys /\ ~ lone_ff keys /\ ~ In q keys /\
  answer e0 (mkCfg true 16 kHash 57 0) keys q = Ok false /\ answer e0 (mkCfg true 16 kHash 58 0) keys q = Ok true /\
  answer e_strict (mkCfg true 16 kHash 57 0) keys q = Ok false /\ answer e_strict (mkCfg true 16 kHash 58 0) keys q = Fail WideShift.
Proof.
  exists keys1, [99; 97; 117]. split; [exact keys1_good|]. split; [exact keys1_not_ff|].
  split; [intros H; repeat (destruct H as [H|H]; [discriminate|]); destruct H|]. repeat split; vm_compute; reflexivity.
Qed.
Print Assumptions C31_long_hash_refuted.

(** * C32 *)
Theorem C32_real_suffix_exact : forall e c keys f q,
  machine e -> settings c -> good_keys keys -> ~ lone_ff keys -> padded e c keys f ->
  filter_of e c keys f -> is_bytes q -> cf_type c = kReal ->
  exists b, lookupKey e f q = Ok b /\
    (b = true <-> exists k d, In k keys /\ dist_len keys k d /\ firstn d q = firstn d k /\
       (all_zero (next_bits0 k d (cf_rlen c)) \/
        exists s, next_bits k d (cf_rlen c) = Some s /\ next_bits q d (cf_rlen c) = Some s)).
Proof. exact point_real. Qed.
Print Assumptions C32_real_suffix_exact.

Example C32_real_suffix_exact_ex :
  settings c_real /\ good_keys keys1 /\ ~ lone_ff keys1 /\ small keys1 /\
  (exists f, create e0 c_real keys1 = Ok f) /\ cf_type c_real = kReal /\
  dist_len keys1 [99; 97; 116] 1 /\ next_bits [99; 97; 116] 1 8 = Some [false; true; true; false; false; false; false; true] /\
  answer e0 c_real keys1 [99; 97] = Ok true /\ answer e0 c_real keys1 [99; 98] = Ok false.
Proof.
  split; [exact c_real_settings|]. split; [exact keys1_good|]. split; [exact keys1_not_ff|]. split; [exact keys1_small|].
  split; [eexists; vm_compute; reflexivity|]. split; [reflexivity|]. split.
  - split; [lia|]. split; [|intros d' H; lia].
    intros k' H N. cbn in H. repeat (destruct H as [<-|H]; [cbn; congruence|]). destruct H.
  - repeat split; vm_compute; reflexivity.
Qed.
