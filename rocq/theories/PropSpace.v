(** The size of a filter: C56.  Only property theorems and examples. *)
From Coq Require Import Arith List NArith Bool Lia.
From Verif Require Import Res Config Builder Surf Serialize Spec SpecApi SpecFilter SpecTrie SpecSpace SpaceFacts BuilderFacts TrieApi Samples.
Import ListNotations.

(** * C56 *)

(** serializedSize() from the numbers of nodes, labels and leaves on each level
    of the trie of the keys. *)
Theorem C56_size : forall e c keys f,
  machine e -> any_settings c -> good_keys keys -> filter_of e c keys f -> storable e keys ->
  forall nl nn nf, (forall l, level_shape keys l (nl l) (nn l) (nf l)) ->
  let s := getSparseStartLevel f in let h := getHeight f in let x := suffix_bits c in
  serializedSize f = written (N.of_nat s) (N.of_nat h) (over nn 0 s) (over nl s h) (over nn s h) (x * over nf 0 s) (x * over nf s h).
Proof. exact size_written. Qed.
Print Assumptions C56_size.

(** getMemoryUsage() with sizeof(SuRF) = [sz]. *)
Theorem C56_memory : forall e c keys f,
  machine e -> any_settings c -> good_keys keys -> filter_of e c keys f -> storable e keys ->
  forall nl nn nf, (forall l, level_shape keys l (nl l) (nn l) (nf l)) ->
  forall sz, (sz <= 4294967295)%N ->
  let s := getSparseStartLevel f in let h := getHeight f in let x := suffix_bits c in
  getMemoryUsage sz f = (sz + 296 + contents (over nn 0 s) (over nl s h) (over nn s h) (x * over nf 0 s) (x * over nf s h))%N.
Proof. intros e c keys f HM HC HG HF HT nl nn nf SH. exact (memory_contents e c keys f HM HC HG HF HT nl nn nf SH). Qed.
Print Assumptions C56_memory.

(** Every distinct key is one leaf, and a sparse node has at least one label. *)
Theorem C56_leaves : forall e c keys f, machine e -> any_settings c -> good_keys keys -> filter_of e c keys f ->
  forall nl nn nf, (forall l, level_shape keys l (nl l) (nn l) (nf l)) -> forall m, card (fun k => In k keys) m ->
  let s := getSparseStartLevel f in let h := getHeight f in
  (over nf 0 s + over nf s h)%N = N.of_nat m /\ (over nn s h <= over nl s h)%N.
Proof. exact leaves_are_keys. Qed.
Print Assumptions C56_leaves.

(** At most 545 1/16 bits per dense node, 10 1/16 bits per sparse label, half a
    bit per sparse node, the suffix length per distinct key, 32 bits per level and
    32 more per dense level, and 1969 bits. *)
Theorem C56_bound : forall e c keys f, machine e -> any_settings c -> good_keys keys -> filter_of e c keys f -> storable e keys ->
  forall nl nn nf, (forall l, level_shape keys l (nl l) (nn l) (nf l)) -> forall m, card (fun k => In k keys) m ->
  let s := getSparseStartLevel f in let h := getHeight f in
  (16 * (8 * serializedSize f) <= 8721 * over nn 0 s + 161 * over nl s h + 8 * over nn s h + 16 * (suffix_bits c * N.of_nat m) +
     512 * (N.of_nat s + N.of_nat h) + 31504)%N.
Proof. exact size_bound. Qed.
Print Assumptions C56_bound.

(** Without dense levels: three nodes with seven labels. *)
Example C56_bare_ex : exists f nl nn nf, any_settings c_nodense /\ create e0 c_nodense keys1 = Ok f /\
  (forall l, level_shape keys1 l (nl l) (nn l) (nf l)) /\ getSparseStartLevel f = 0 /\ getHeight f = 3 /\
  over nl 0 3 = 7%N /\ over nn 0 3 = 3%N /\ written 0 3 0 7 3 0 0 = 184%N /\ serializedSize f = 184%N.
Proof.
  assert (T : match create e0 c_nodense keys1 with Ok f => getSparseStartLevel f = 0 /\ getHeight f = 3 /\ serializedSize f = 184%N | Fail _ => False end)
    by (vm_compute; auto).
  destruct (create e0 c_nodense keys1) as [f|]; [|contradiction]. exists f. do 3 eexists.
  split; [right; split; [reflexivity|]; split; [reflexivity|cbn; lia]|]. split; [reflexivity|].
  split; [intros l; apply (shape_items keys1 keys1_good)|]. destruct T as (A & B & C). split; [exact A|]. split; [exact B|].
  do 3 (split; [vm_compute; reflexivity|]). exact C.
Qed.

(** "a", "ab", "b1", "b2", "cat": one dense node, two sparse nodes with four
    labels, one key ends in the dense level. *)
Example C56_ex : exists f nl nn nf, create e0 c_real keys1 = Ok f /\ storable e0 keys1 /\
  (forall l, level_shape keys1 l (nl l) (nn l) (nf l)) /\ getSparseStartLevel f = 1 /\ getHeight f = 3 /\
  over nn 0 1 = 1%N /\ over nl 1 3 = 4%N /\ over nn 1 3 = 2%N /\ over nf 0 1 = 1%N /\ over nf 1 3 = 4%N /\
  written 1 3 1 4 2 8 32 = 272%N /\ serializedSize f = 272%N.
Proof.
  assert (T : match create e0 c_real keys1 with Ok f => getSparseStartLevel f = 1 /\ getHeight f = 3 /\ serializedSize f = 272%N | Fail _ => False end)
    by (vm_compute; auto).
  destruct (create e0 c_real keys1) as [f|]; [|contradiction]. exists f. do 3 eexists. split; [reflexivity|]. split; [left; exact keys1_small|].
  split; [intros l; apply (shape_items keys1 keys1_good)|]. destruct T as (A & B & C). split; [exact A|]. split; [exact B|].
  do 6 (split; [vm_compute; reflexivity|]). exact C.
Qed.
