(** The encoding of the trie: C23 and C30.  Only property theorems, examples
    and counterexamples. *)
From Coq Require Import Arith List NArith Bool Lia Sorting.Sorted.
From Verif Require Import Res Config Builder Dense Sparse Surf Spec SpecApi SpecBits SpecTrie TrieApi SizeFacts Samples.
Import ListNotations.

(** * C23 *)

(** Every level holds one label per branch, in key order, a child bit exactly
    where two or more keys share the branch and a start bit exactly on the
    first branch of a node; below the last level there are no branches. *)
Theorem C23_levels : forall keys, good_keys keys -> forall e c, machine e -> settings c ->
  forall b, build e c keys = Ok b ->
  (forall l lv, nth_error (bd_levels b) l = Some lv ->
     let m := length (lv_labels lv) in
     holds (lv_child lv) m /\ holds (lv_louds lv) m /\
     encodes keys l (lv_labels lv) (firstn m (vec_bits (lv_child lv))) (firstn m (vec_bits (lv_louds lv))) /\
     level_shape keys l m (lv_nodes lv) (lv_sufcount lv)) /\
  (forall l p, length (bd_levels b) <= l -> ~ branch keys l p).
Proof. exact levels_encode. Qed.
Print Assumptions C23_levels.

Example C23_levels_ex : good_keys keys1 /\ machine e0 /\ settings c_mixed /\
  exists b, build e0 c_mixed keys1 = Ok b /\
    map lv_labels (bd_levels b) = [[97; 98; 99]; [255; 98; 49; 50]; []].
Proof.
  split; [exact keys1_good|]. split; [exact e0_machine|]. split; [exact c_mixed_settings|].
  eexists. split; vm_compute; reflexivity.
Qed.

(** The builder returns on up to 67,108,862 different keys of any length. *)
Theorem C23_builder_returns : forall keys, good_keys keys -> forall e c, machine e -> settings c ->
  (N.of_nat (length (uniq keys)) <= 67108862)%N -> exists b, build e c keys = Ok b.
Proof. exact build_exists. Qed.
Print Assumptions C23_builder_returns.

(** The bitmaps of the dense levels describe the same branches: 256 bits per
    node and one prefix bit per node, nodes in key order. *)
Theorem C23_dense_levels : forall keys, good_keys keys -> forall e c, machine e -> settings c -> ~ lone_ff keys ->
  forall b, build e c keys = Ok b -> length (bd_dense b) = bd_start b /\
  forall l d, nth_error (bd_dense b) l = Some d -> exists xs,
    StronglySorted klt xs /\ (forall x, In x xs <-> exists p, branch keys l p /\ x = firstn l p) /\
    holds (dr_labels d) (256 * length xs) /\ holds (dr_child d) (256 * length xs) /\ holds (dr_prefix d) (length xs) /\
    forall m x, nth_error xs m = Some x ->
      (nth m (vec_bits (dr_prefix d)) false = true <-> branch keys l (x ++ [0])) /\
      forall a, a < 256 ->
        (nth (256 * m + a) (vec_bits (dr_labels d)) false = true <-> branch keys l (x ++ [S a])) /\
        (nth (256 * m + a) (vec_bits (dr_child d)) false = true <-> branch keys l (x ++ [S a]) /\ shared keys (x ++ [S a])).
Proof. exact dense_encode. Qed.
Print Assumptions C23_dense_levels.

Example C23_dense_levels_ex : good_keys keys1 /\ ~ lone_ff keys1 /\
  exists b, build e0 c_none keys1 = Ok b /\ bd_start b = 1 /\
    forallb (fun a => eqb (nth a (vec_bits (dr_labels (nth 0 (bd_dense b) (mkDenseRec [] [] [])))) false)
                          ((97 <=? a) && (a <=? 99))) (seq 0 256) = true.
Proof.
  split; [exact keys1_good|]. split; [exact keys1_not_ff|].
  eexists. split; [vm_compute; reflexivity|]. split; vm_compute; reflexivity.
Qed.

(** With the lone key 255,1 the label is taken for a terminator. *)
Theorem C23_lone_ff_refuted : exists b d, build e0 c_none keys_ff = Ok b /\ nth_error (bd_dense b) 0 = Some d /\
  branch keys_ff 0 [256] /\ nth 255 (vec_bits (dr_labels d)) false = false /\
  nth 0 (vec_bits (dr_prefix d)) false = true.
Proof.
  eexists. eexists. split; [vm_compute; reflexivity|]. split; [vm_compute; reflexivity|]. split.
  - exists [255; 1]. split; [left; reflexivity|]. split; [reflexivity|left; reflexivity].
  - split; vm_compute; reflexivity.
Qed.
Print Assumptions C23_lone_ff_refuted.

(** * C30 *)

Theorem C30_height : forall keys, good_keys keys -> forall e c, machine e -> settings c ->
  forall f, create e c keys = Ok f ->
  (forall k d, In k keys -> dist_len keys k d -> d < getHeight f) /\
  (exists k d, In k keys /\ dist_len keys k d /\ getHeight f = S d) /\
  1 <= getSparseStartLevel f /\ getSparseStartLevel f < getHeight f.
Proof. exact height_dist. Qed.
Print Assumptions C30_height.

Example C30_height_ex : good_keys keys1 /\
  exists f, create e0 c_mixed keys1 = Ok f /\ getHeight f = 3 /\ getSparseStartLevel f = 1.
Proof.
  split; [exact keys1_good|]. eexists.
  split; [vm_compute; reflexivity|]. split; reflexivity.
Qed.

(** The cut-off is the first level at which the dense levels are no longer
    below 1/ratio of the sparse ones. *)
Theorem C30_cutoff : forall keys, good_keys keys -> forall e c, machine e -> settings c ->
  forall f, create e c keys = Ok f -> told_apart keys 8388607 ->
  forall nl nn nf, (forall l, level_shape keys l (nl l) (nn l) (nf l)) ->
  let s := getSparseStartLevel f in let h := getHeight f in let slen := cf_hlen c + cf_rlen c in
  (sparse_cost nl nf slen s h <= dense_cost nn nf slen s * cf_ratio c)%N /\
  forall s', s' < s -> (dense_cost nn nf slen s' * cf_ratio c < sparse_cost nl nf slen s' h)%N.
Proof. exact cutoff_costs. Qed.
Print Assumptions C30_cutoff.

Example C30_cutoff_ex : told_apart keys1 8388607 /\ exists nl nn nf, forall l, level_shape keys1 l (nl l) (nn l) (nf l).
Proof. split; [eapply told_mono; [exact keys1_small|discriminate]|]. do 3 eexists. intros l. apply shape_items. exact keys1_good. Qed.

(** So the dense levels do not stay below the configured fraction. *)
Theorem C30_fraction_refuted : exists f nl nn nf, create e0 c_none keys1 = Ok f /\
  (forall l, level_shape keys1 l (nl l) (nn l) (nf l)) /\
  ~ (dense_cost nn nf 0 (getSparseStartLevel f) * 16 < sparse_cost nl nf 0 (getSparseStartLevel f) (getHeight f))%N.
Proof.
  destruct (create e0 c_none keys1) as [f|] eqn:E; [|vm_compute in E; discriminate].
  exists f. do 3 eexists. split; [reflexivity|]. split; [intros l; apply shape_items; exact keys1_good|].
  apply N.le_ngt.
  exact (proj1 (C30_cutoff keys1 keys1_good e0 c_none e0_machine c_none_settings f E (proj1 C30_cutoff_ex) _ _ _
    (fun l => shape_items keys1 keys1_good l))).
Qed.
Print Assumptions C30_fraction_refuted.

Theorem C30_without_dense : forall e c keys f, cf_dense c = false -> create e c keys = Ok f ->
  getSparseStartLevel f = 0.
Proof. exact start_no_dense. Qed.
Print Assumptions C30_without_dense.

Example C30_without_dense_ex : exists f, create e0 c_nodense keys1 = Ok f.
Proof. eexists. vm_compute. reflexivity. Qed.
