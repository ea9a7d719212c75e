(** Which key lists are too large: C29.  Only property theorems, examples and
    counterexamples. *)
From Coq Require Import Arith List NArith Bool Lia.
From Verif Require Import Res Config Builder Surf Spec SpecApi SpecTrie SizeFacts Samples.
Import ListNotations.

(** * C29 *)

(** [create] succeeds exactly if the label array, whose size is computed in 32
    bits, can hold the labels of the levels from the cut-off [s] to the height
    [h]. *)
Theorem C29_create_exact : forall keys, good_keys keys -> forall e c, machine e -> settings c -> told_apart keys 8388607 ->
  forall nl nn nf, (forall l, level_shape keys l (nl l) (nn l) (nf l)) ->
  forall s h, (forall k d, In k keys -> dist_len keys k d -> d < h) -> (exists k d, In k keys /\ dist_len keys k d /\ h = S d) ->
  let slen := cf_hlen c + cf_rlen c in
  (sparse_cost nl nf slen s h <= dense_cost nn nf slen s * cf_ratio c)%N ->
  (forall s', s' < s -> (dense_cost nn nf slen s' * cf_ratio c < sparse_cost nl nf slen s' h)%N) ->
  let n := label_count nl s h in
  (exists f, create e c keys = Ok f) <-> (n <= ((n + 1) * ((n + 1) / 64 + 1)) mod 2 ^ 32)%N.
Proof. exact create_exact. Qed.
Print Assumptions C29_create_exact.

(** Keys 0 0 0 1 and 0 0 0 2: cut-off 1, height 5, four labels from level 1
    on. *)
Example C29_create_exact_ex : let keys := [[0; 0; 0; 1]; [0; 0; 0; 2]] in exists nl nn nf,
  good_keys keys /\ told_apart keys 8388607 /\ (forall l, level_shape keys l (nl l) (nn l) (nf l)) /\
  (forall k d, In k keys -> dist_len keys k d -> d < 5) /\ (exists k d, In k keys /\ dist_len keys k d /\ 5 = S d) /\
  (sparse_cost nl nf 0 1 5 <= dense_cost nn nf 0 1 * 16)%N /\ (dense_cost nn nf 0 0 * 16 < sparse_cost nl nf 0 0 5)%N /\
  label_count nl 1 5 = 4%N.
Proof.
  assert (H3 : 1 <= 3) by lia. intros keys. exists (cl 3), (cd 3), (fun l => Trie.cn (Trie.leaf keys l) 2).
  split; [exact (chain_good 3 H3)|]. split; [eapply told_mono; [apply (PointFacts.told_len keys (chain_good 3 H3))|vm_compute; discriminate]|].
  split; [exact (chain_shape 3 H3)|]. split.
  - intros k d A B. rewrite (chain_dist 3 H3 k d A B). lia.
  - split; [exact (chain_height 3 H3)|]. split; [vm_compute; discriminate|]. split; vm_compute; reflexivity.
Qed.

(** Two keys that share a prefix of 741,618 bytes: the size wraps to less than
    the number of labels and the constructor writes outside the array. *)
Theorem C29_long_prefix_refuted : exists keys, good_keys keys /\ length keys = 2 /\
  forall e f, machine e -> create e c_none keys <> Ok f.
Proof. exists (chain (N.to_nat 741618)). split; [apply chain_good; lia|]. split; [reflexivity|]. exact chain_wraps. Qed.
Print Assumptions C29_long_prefix_refuted.
