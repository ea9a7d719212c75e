(** What the answers of range queries depend on: C55.  Only property theorems,
    examples and counterexamples. *)
From Coq Require Import Arith List NArith ZArith Bool Lia.
From Verif Require Import Res Config Builder Dense Sparse Surf Spec SpecApi SpecFilter SpecIter SpecRange SpecExact SpecDepend DependFacts Samples SamplesIter SamplesRange.
Import ListNotations.

(** Neither the cut between dense and sparse levels (if no key is a proper prefix
    of another one) nor hash suffixes have an effect. *)
Theorem C55_same : forall keys, good_keys keys -> forall e1 e2 c1 c2 f1 f2,
  machine e1 -> machine e2 -> settings c1 -> settings c2 -> ~ lone_ff keys -> filter_of e1 c1 keys f1 -> filter_of e2 c2 keys f2 ->
  forall it1 it2 l li r ri, member_iter e1 f1 it1 -> member_iter e2 f2 it2 -> is_bytes l -> is_bytes r ->
  ~ stray e1 keys (getSparseStartLevel f1) l -> ~ stray e2 keys (getSparseStartLevel f2) l -> no_clash keys r ->
  same_part keys (getSparseStartLevel f1) (getSparseStartLevel f2) -> same_real c1 c2 ->
  range_after e1 f1 it1 l li r ri = range_after e2 f2 it2 l li r ri.
Proof. exact depend_same. Qed.
Print Assumptions C55_same.

(** Real suffixes only turn positive answers into negative ones. *)
Theorem C55_fewer : forall keys, good_keys keys -> forall e1 e2 c1 c2 f1 f2,
  machine e1 -> machine e2 -> settings c1 -> settings c2 -> ~ lone_ff keys -> filter_of e1 c1 keys f1 -> filter_of e2 c2 keys f2 ->
  forall it1 it2 l li r ri, member_iter e1 f1 it1 -> member_iter e2 f2 it2 -> is_bytes l -> is_bytes r ->
  ~ stray e1 keys (getSparseStartLevel f1) l -> ~ stray e2 keys (getSparseStartLevel f2) l -> no_clash keys r ->
  same_part keys (getSparseStartLevel f1) (getSparseStartLevel f2) -> ~ keeps_real c2 -> kle l r ->
  range_after e1 f1 it1 l li r ri = Ok true -> range_after e2 f2 it2 l li r ri = Ok true.
Proof. exact depend_fewer. Qed.
Print Assumptions C55_fewer.

(** So do longer ones, if no key and no end stops inside the suffix. *)
Theorem C55_longer : forall keys, good_keys keys -> forall e1 e2 c1 c2 f1 f2,
  machine e1 -> machine e2 -> settings c1 -> settings c2 -> ~ lone_ff keys -> filter_of e1 c1 keys f1 -> filter_of e2 c2 keys f2 ->
  forall it1 it2 l li r ri, member_iter e1 f1 it1 -> member_iter e2 f2 it2 -> is_bytes l -> is_bytes r ->
  ~ stray e1 keys (getSparseStartLevel f1) l -> ~ stray e2 keys (getSparseStartLevel f2) l -> no_clash keys r ->
  same_part keys (getSparseStartLevel f1) (getSparseStartLevel f2) -> longer_real c1 c2 -> kle l r ->
  not_short c1 keys l -> not_short c1 keys r -> (forall k d, In k keys -> dist_len keys k d -> whole c1 k d) ->
  range_after e1 f1 it1 l li r ri = Ok true -> range_after e2 f2 it2 l li r ri = Ok true.
Proof. exact depend_longer. Qed.
Print Assumptions C55_longer.

(** Keys "a", "ab", "b1", "b2", "cat" with 8 real bits and without: ["cb", "cd"]
    is empty for the first only, ["ca", "cd"] for neither. *)
Example C55_ex : exists f1 f2, create e0 c_real keys1 = Ok f1 /\ create e0 c_none keys1 = Ok f2 /\
  getSparseStartLevel f1 = getSparseStartLevel f2 /\
  ~ stray e0 keys1 (getSparseStartLevel f1) [99; 98] /\ ~ stray e0 keys1 (getSparseStartLevel f2) [99; 98] /\
  kle [99; 98] [99; 100] /\ ~ keeps_real c_none /\
  not_short c_real keys1 [99; 98] /\ (forall k d, In k keys1 -> dist_len keys1 k d -> whole c_real k d) /\
  ranged e0 c_real keys1 [99; 98] true [99; 100] true = Ok false /\ ranged e0 c_none keys1 [99; 98] true [99; 100] true = Ok true /\
  ranged e0 c_real keys1 [99; 97] true [99; 100] true = Ok true /\ ranged e0 c_none keys1 [99; 97] true [99; 100] true = Ok true.
Proof.
  destruct (made e0 c_real keys1 1 ltac:(vm_compute; reflexivity)) as (f1 & E1 & H1).
  destruct (made e0 c_none keys1 1 ltac:(vm_compute; reflexivity)) as (f2 & E2 & H2).
  exists f1, f2. split; [exact E1|]. split; [exact E2|]. rewrite H1, H2. split; [reflexivity|].
  split; [apply (no_stray_check _ c_real); reflexivity|]. split; [apply (no_stray_check _ c_real); reflexivity|]. split; [left; apply kltb_ok; reflexivity|].
  split; [intros [X|X]; discriminate|].
  split; [intros k d _ _ _; apply short_suffix_whole; cbn; lia|]. split; [intros k d _ _; apply short_suffix_whole; cbn; lia|].
  split; [|split; [|split]]; vm_compute; reflexivity.
Qed.

(** The exceptions.  A stored left end that is a prefix of other keys: it depends
    on the ratio whether the exclusive seek leaves it. *)
Theorem C55_split_refuted : exists keys k, good_keys keys /\ In k keys /\
  ranged e0 c_none keys k false k true = Ok false /\ ranged e0 c_none1 keys k false k true = Ok true.
Proof.
  exists ([98] :: keys3), [98]. split; [apply good_keysb_ok; vm_compute; reflexivity|]. split; [left; reflexivity|].
  split; vm_compute; reflexivity.
Qed.
Print Assumptions C55_split_refuted.

(** Ends in the wrong order. *)
Theorem C55_order_refuted : exists keys l r, good_keys keys /\ klt r l /\
  ranged e0 c_real1 keys l true r true = Ok true /\ ranged e0 c_none1 keys l true r true = Ok false.
Proof.
  exists ([97; 122] :: [98] :: keys3), [97; 126], [32; 32]. split; [apply good_keysb_ok; vm_compute; reflexivity|].
  split; [apply kltb_ok; reflexivity|]. split; vm_compute; reflexivity.
Qed.
Print Assumptions C55_order_refuted.

(** Keys "ab", "b": in ["ac", "ad"] 8 suffix bits find nothing, 16 do. *)
Theorem C55_longer_refuted : exists keys l r, good_keys keys /\ klt l r /\ (forall k, In k keys -> ~ (kle l k /\ kle k r)) /\
  ranged e0 c_real keys l true r true = Ok false /\ ranged e0 c_real16 keys l true r true = Ok true.
Proof.
  exists [[97; 98]; [98]], [97; 99], [97; 100]. split; [apply good_keysb_ok; vm_compute; reflexivity|].
  split; [apply kltb_ok; reflexivity|]. split; [|split; vm_compute; reflexivity].
  intros k [<-|[<-|[]]] [[A|A] [B|B]]; try discriminate; cbn in A, B; lia.
Qed.
Print Assumptions C55_longer_refuted.
