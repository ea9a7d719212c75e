(** Keys of one length and integer keys: C38.
    Only property theorems, examples and counterexamples. *)
From Coq Require Import Arith List NArith ZArith Bool Lia Sorting.Sorted.
From Verif Require Import Res Config Builder Dense Sparse Surf Spec SpecApi SpecFilter SpecIter SpecRange SpecCount SpecFixed FixedApi Samples SamplesIter SamplesRange SamplesCount SamplesFixed.
Import ListNotations.

(** * C38 *)
Theorem C38_integer_lookup : forall e c ks f,
  machine e -> settings c -> good_ints ks -> ~ lone_big ks -> filter_of e c (int_keys ks) f ->
  forall w, In w ks -> lookupKey e f (uint64ToString w) = Ok true.
Proof. exact int_lookup. Qed.
Print Assumptions C38_integer_lookup.

Theorem C38_integer_range : forall e c ks f,
  machine e -> settings c -> good_ints ks -> ~ lone_big ks -> filter_of e c (int_keys ks) f ->
  forall it a b w, member_iter e f it -> (a < 2 ^ 64)%N -> (b < 2 ^ 64)%N ->
  ~ at_last_node (int_keys ks) (getSparseStartLevel f) (uint64ToString a) ->
  In w ks -> (a <= w <= b)%N -> range_after e f it (uint64ToString a) true (uint64ToString b) true = Ok true.
Proof. exact int_range. Qed.
Print Assumptions C38_integer_range.

Theorem C38_fixed_range : forall e c n keys f,
  machine e -> settings c -> good_keys keys -> fixed n keys -> ~ lone_ff keys -> filter_of e c keys f ->
  forall it l li r ri k, member_iter e f it -> is_bytes l -> is_bytes r -> length l = n -> length r = n ->
  ~ at_last_node keys (getSparseStartLevel f) l ->
  In k keys -> above li l k -> below ri k r -> range_after e f it l li r ri = Ok true.
Proof. exact fixed_range. Qed.
Print Assumptions C38_fixed_range.

Theorem C38_fixed_seek : forall e c n keys f,
  machine e -> settings c -> good_keys keys -> fixed n keys -> ~ lone_ff keys -> filter_of e c keys f ->
  forall q incl, is_bytes q -> length q = n -> ~ at_last_node keys (getSparseStartLevel f) q -> exists it p,
  moveToKeyGreaterThan e f q incl = Ok it /\ stands e c f keys it p /\
  gt_place c keys (getSparseStartLevel f) q incl (it_fp it) p.
Proof. exact fixed_seek. Qed.
Print Assumptions C38_fixed_seek.

Theorem C38_fixed_count : forall e c n keys f,
  machine e -> settings c -> good_keys keys -> fixed n keys -> ~ lone_ff keys -> filter_of e c keys f ->
  forall l r, In l keys -> In r keys -> kle l r -> plain_top keys (getSparseStartLevel f) ->
  forall k, approxCount e f l r = Ok k -> exists xs, lists keys xs (fun x => klt l x /\ klt x r) /\ k = N.of_nat (length xs).
Proof. exact fixed_count. Qed.
Print Assumptions C38_fixed_count.

(** The integers 5, 300, 70000, 70001, 2^40: 300 is in [6, 400]. *)
Example C38_integers_ex : exists f, create e0 c_real (int_keys ints1) = Ok f /\ good_ints ints1 /\ ~ lone_big ints1 /\
  ~ at_last_node (int_keys ints1) (getSparseStartLevel f) (uint64ToString 6) /\ In 300%N ints1 /\ (6 <= 300 <= 400)%N.
Proof.
  destruct (made e0 c_real (int_keys ints1) 1 ltac:(vm_compute; reflexivity)) as (f & E & H). exists f. split; [exact E|]. rewrite H.
  split; [exact ints1_good|]. split; [exact ints1_lone|]. split.
  - intros X. apply (no_trap_check e0 c_real (int_keys ints1) 1 (uint64ToString 6)); [vm_compute; reflexivity|]. right; right; left; exact X.
  - split; [cbn; auto|lia].
Qed.

(** Keys "aac", "abc", "abd", "bcd" of three bytes, and bounds not stored. *)
Example C38_fixed_ex : exists f, create e0 c_real keys_3 = Ok f /\ good_keys keys_3 /\ fixed 3 keys_3 /\ ~ lone_ff keys_3 /\
  ~ at_last_node keys_3 (getSparseStartLevel f) [97; 98; 98] /\ In [97; 98; 99] keys_3 /\
  above false [97; 98; 98] [97; 98; 99] /\ below true [97; 98; 99] [97; 99; 99] /\
  plain_top keys_3 (getSparseStartLevel f).
Proof.
  destruct (made e0 c_real keys_3 1 ltac:(vm_compute; reflexivity)) as (f & E & H). exists f. split; [exact E|]. rewrite H.
  split; [apply good_keysb_ok; reflexivity|]. split; [exact keys_3_fixed|]. split; [exact keys_3_lone|]. split.
  - intros X. apply (no_trap_check e0 c_real keys_3 1 [97; 98; 98]); [vm_compute; reflexivity|]. right; right; left; exact X.
  - split; [apply inb_in; reflexivity|]. split; [left; apply kltb_ok; reflexivity|]. split; [left; apply kltb_ok; reflexivity|].
    apply keys_3_plain.
Qed.

(** The exception is real: of the integers 2, 4, ..., 200 none is found in
    [199, 200], nor in [193, 194]. *)
Theorem C38_last_node_refuted : exists ks a b w, good_ints ks /\ ~ lone_big ks /\ In w ks /\ (a <= w <= b)%N /\
  ranged e0 c_real (int_keys ks) (uint64ToString a) true (uint64ToString b) true = Ok false /\
  ranged e0 c_none (int_keys ks) (uint64ToString 193) true (uint64ToString 194) true = Ok false.
Proof.
  exists ints_even, 199%N, 200%N, 200%N. split; [exact ints_even_good|]. split; [exact ints_even_lone|].
  split; [apply (nth_In ints_even 0%N (n := 99)); vm_compute; lia|]. split; [lia|]. split; vm_compute; reflexivity.
Qed.
Print Assumptions C38_last_node_refuted.
(** A lone integer with top byte 255 is lost. *)
Theorem C38_lone_refuted : exists ks w, good_ints ks /\ In w ks /\
  answer e0 c_none (int_keys ks) (uint64ToString w) = Ok false.
Proof.
  exists [(2 ^ 64 - 1)%N], (2 ^ 64 - 1)%N. split; [|split; [left; reflexivity|vm_compute; reflexivity]].
  split; [discriminate|]. split; repeat constructor.
Qed.
Print Assumptions C38_lone_refuted.
