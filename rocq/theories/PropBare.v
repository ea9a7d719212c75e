(** Filters built with include_dense = false: C45.  Only property theorems,
    examples and counterexamples. *)
From Coq Require Import Arith List NArith ZArith Bool Lia.
From Verif Require Import Res Config Builder Dense Sparse Surf Spec SpecApi Serialize SpecFilter SpecIter SpecRange SpecTrie SpecBare BareFacts
  Samples SamplesIter SamplesRange SamplesSerial SizeFacts.
Import ListNotations.

Ltac bytes_ok := repeat (apply Forall_cons; [lia|]); apply Forall_nil.

(** * C45 *)

(** With any suffix the constructor never succeeds. *)
Theorem C45_suffix_fault : forall e c keys f, good_keys keys -> machine e -> cf_dense c = false -> with_suffix c ->
  create e c keys <> Ok f.
Proof. exact bare_suffixes. Qed.
Print Assumptions C45_suffix_fault.

Example C45_suffix_fault_ex : good_keys keys1 /\ machine e0 /\ with_suffix c_nodense_real /\
  create e0 c_nodense_real keys1 = Fail OutOfBounds.
Proof.
  split; [exact keys1_good|]. split; [exact e0_machine|]. split; [unfold with_suffix; cbn; lia|vm_compute; reflexivity].
Qed.

(** Without suffix it succeeds exactly if the label array, whose size is
    computed in 32 bits, can hold all labels. *)
Theorem C45_create_exact : forall keys, good_keys keys -> forall e c, machine e -> bare_settings c -> told_apart keys 8388607 ->
  forall nl nn nf, (forall l, level_shape keys l (nl l) (nn l) (nf l)) ->
  forall h, (forall k d, In k keys -> dist_len keys k d -> d < h) -> (exists k d, In k keys /\ dist_len keys k d /\ h = S d) ->
  let n := label_count nl 0 h in
  (exists f, create e c keys = Ok f) <-> (n <= ((n + 1) * ((n + 1) / 64 + 1)) mod 2 ^ 32)%N.
Proof. exact bare_exact. Qed.
Print Assumptions C45_create_exact.

Example C45_create_exact_ex : let keys := [[0; 0; 0; 1]; [0; 0; 0; 2]] in exists nl nn nf,
  good_keys keys /\ told_apart keys 8388607 /\ (forall l, level_shape keys l (nl l) (nn l) (nf l)) /\
  (forall k d, In k keys -> dist_len keys k d -> d < 5) /\ (exists k d, In k keys /\ dist_len keys k d /\ 5 = S d) /\
  label_count nl 0 5 = 5%N.
Proof.
  assert (H3 : 1 <= 3) by lia. intros keys. exists (cl 3), (cd 3), (fun l => Trie.cn (Trie.leaf keys l) 2).
  split; [exact (chain_good 3 H3)|]. split; [eapply told_mono; [apply (PointFacts.told_len keys (chain_good 3 H3))|vm_compute; discriminate]|].
  split; [exact (chain_shape 3 H3)|]. split.
  - intros k d A B. rewrite (chain_dist 3 H3 k d A B). lia.
  - split; [exact (chain_height 3 H3)|vm_compute; reflexivity].
Qed.

(** Both ends give an iterator that is not valid. *)
Theorem C45_ends : forall e c keys f, good_keys keys -> machine e -> bare_settings c -> two_keys keys -> filter_of e c keys f ->
  (exists it, moveToFirst e f = Ok it /\ it_valid it = false) /\ (exists it, moveToLast e f = Ok it /\ it_valid it = false).
Proof. exact bare_ends. Qed.
Print Assumptions C45_ends.

Lemma c_nodense_bare : bare_settings c_nodense.
Proof. split; [reflexivity|]. split; [reflexivity|cbn; lia]. Qed.
Lemma keys1_two : two_keys keys1.
Proof. exists [97], [97; 98]. split; [apply inb_in; reflexivity|]. split; [apply inb_in; reflexivity|discriminate]. Qed.

Example C45_ends_ex : good_keys keys1 /\ machine e0 /\ bare_settings c_nodense /\ two_keys keys1 /\ exists f, create e0 c_nodense keys1 = Ok f.
Proof.
  split; [exact keys1_good|]. split; [exact e0_machine|]. split; [exact c_nodense_bare|]. split; [exact keys1_two|].
  eexists. vm_compute. reflexivity.
Qed.

(** A seek finds its place and the iterator steps on as it should, until it
    leaves the keys; if there is no place, and on leaving the keys, it is a
    fault. *)
Theorem C45_seek : forall e c keys f, good_keys keys -> machine e -> bare_settings c -> two_keys keys -> filter_of e c keys f ->
  forall q incl, is_bytes q -> ~ trap e c keys 0 q -> exists fp p, gt_place c keys 0 q incl fp p /\
  match p with
  | Some i => exists it, moveToKeyGreaterThan e f q incl = Ok it /\ it_fp it = fp /\ stands_bare e c f keys it i
  | None => moveToKeyGreaterThan e f q incl = Fail (off_end e)
  end.
Proof. exact bare_seek_stands. Qed.
Print Assumptions C45_seek.

(** "b" leads to "b1", "d" to a fault; "cb" extends "c", the part of "cat" that is
    stored. *)
Example C45_seek_ex : (forall q, In q [[98]; [100]; [99; 98]] -> is_bytes q /\ ~ trap e0 c_nodense keys1 0 q) /\
  at_gt e0 c_nodense keys1 [98] true = Ok (true, false, [98; 49]) /\ at_gt e0 c_nodense keys1 [100] true = Fail AssertFail /\
  at_gt e_ndebug c_nodense keys1 [100] true = Fail OutOfBounds /\ at_gt e0 c_nodense keys1 [99; 98] true = Ok (true, true, [99]).
Proof.
  split; [intros q [<-|[<-|[<-|[]]]]; (split; [bytes_ok|apply no_trap_check; reflexivity])|].
  repeat split; vm_compute; reflexivity.
Qed.

(** A seek for a smaller key leads one key too low: it steps back twice from
    the next larger key, since every lookup is answered true. *)
Theorem C45_seek_less : forall e c keys f, good_keys keys -> machine e -> bare_settings c -> two_keys keys -> filter_of e c keys f ->
  forall q incl, is_bytes q -> ~ trap e c keys 0 q -> exists fp p, gt_place c keys 0 q false fp p /\
  match p with
  | Some i =>
      if fp then exists it, moveToKeyLessThan e f q incl = Ok it /\ stands_bare e c f keys it i
      else match i with
           | S (S j) => exists it, moveToKeyLessThan e f q incl = Ok it /\ stands_bare e c f keys it j
           | _ => moveToKeyLessThan e f q incl = Fail (off_end e)
           end
  | None => moveToKeyLessThan e f q incl = Fail (off_end e)
  end.
Proof. exact bare_less_stands. Qed.
Print Assumptions C45_seek_less.

(** The key below "bz" is "b2", but the iterator is at "b1". *)
Theorem C45_less_refuted : exists keys q k, good_keys keys /\ is_bytes q /\ ~ trap e0 c_nodense keys 0 q /\ In k keys /\ klt k q /\
  (forall x, In x keys -> klt x q -> kle x k) /\
  exists k', at_lt e0 c_nodense keys q false = Ok (true, false, k') /\ klt k' k.
Proof.
  exists keys1, [98; 122], [98; 50]. split; [exact keys1_good|]. split; [bytes_ok|]. split; [apply no_trap_check; reflexivity|].
  split; [apply inb_in; reflexivity|]. split; [apply kltb_ok; reflexivity|]. split.
  - intros x Hx Hlt. cbn in Hx. destruct Hx as [<-|[<-|[<-|[<-|[<-|[<-|[]]]]]]]; try (left; apply kltb_ok; reflexivity); try (right; reflexivity).
    exfalso. cbn in Hlt. lia.
  - exists [98; 49]. split; [vm_compute; reflexivity|apply kltb_ok; reflexivity].
Qed.
Print Assumptions C45_less_refuted.

(** A range query after any earlier calls on the filter finds a stored key. *)
Theorem C45_range_finds_key : forall e c keys f, good_keys keys -> machine e -> bare_settings c -> two_keys keys -> filter_of e c keys f ->
  forall it l li r ri, member_iter e f it -> is_bytes l -> is_bytes r -> ~ trap e c keys 0 l ->
  forall k, In k keys -> above li l k -> below ri k r -> range_after e f it l li r ri = Ok true.
Proof. exact bare_ranges. Qed.
Print Assumptions C45_range_finds_key.

Example C45_range_finds_key_ex : is_bytes [98] /\ is_bytes [98; 57] /\ ~ trap e0 c_nodense keys1 0 [98] /\ In [98; 49] keys1 /\
  above true [98] [98; 49] /\ below true [98; 49] [98; 57] /\ ranged e0 c_nodense keys1 [98] true [98; 57] true = Ok true.
Proof.
  split; [bytes_ok|]. split; [bytes_ok|]. split; [apply no_trap_check; reflexivity|].
  split; [apply inb_in; reflexivity|]. split; [left; apply kltb_ok; reflexivity|]. split; [left; apply kltb_ok; reflexivity|vm_compute; reflexivity].
Qed.

(** An answer true has a cause: the first key not clearly below the interval is
    inside it or could be taken for one of its ends. *)
Theorem C45_range_cause : forall e c keys f, good_keys keys -> machine e -> bare_settings c -> two_keys keys -> filter_of e c keys f ->
  forall it l li r ri, member_iter e f it -> is_bytes l -> is_bytes r -> ~ trap e c keys 0 l ->
  range_after e f it l li r ri = Ok true ->
  exists k, In k keys /\ (forall x, In x keys -> klt x k -> kle x l) /\
    (klt l k \/ (exists d, dist_len keys k d /\ firstn d l = firstn d k)) /\
    (klt k r \/ (exists d, dist_len keys k d /\ firstn d r = firstn d k) \/
     (length k < length r /\ exists k', In k' keys /\ k' <> k /\ firstn (length k) k' = k) \/
     (firstn (length r) k = r /\ exists d, dist_len keys k d /\ length r + 2018 <= d)).
Proof. exact bare_causes. Qed.
Print Assumptions C45_range_cause.

Example C45_range_cause_ex : ranged e0 c_nodense keys1 [98] true [98; 57] true = Ok true /\
  ranged e0 c_nodense keys1 [98; 51] true [98; 57] true = Ok false.
Proof. split; vm_compute; reflexivity. Qed.

(** The query answers or it is the fault of a step off the end; it is that fault
    whenever all keys are clearly below the interval. *)
Theorem C45_range_fault : forall e c keys f, good_keys keys -> machine e -> bare_settings c -> two_keys keys -> filter_of e c keys f ->
  forall it l li r ri, member_iter e f it -> is_bytes l -> is_bytes r -> ~ trap e c keys 0 l ->
  ((exists b, range_after e f it l li r ri = Ok b) \/ range_after e f it l li r ri = Fail (off_end e)) /\
  ((forall k, In k keys -> klt k l) -> (forall k d, In k keys -> dist_len keys k d -> firstn d l <> firstn d k) ->
   range_after e f it l li r ri = Fail (off_end e)).
Proof. exact bare_faults. Qed.
Print Assumptions C45_range_fault.

Example C45_range_fault_ex : is_bytes [100] /\ ~ trap e0 c_nodense keys1 0 [100] /\ (forall k, In k keys1 -> klt k [100]) /\
  ranged e0 c_nodense keys1 [100] true [101] true = Fail AssertFail /\ ranged e_ndebug c_nodense keys1 [100] true [101] true = Fail OutOfBounds.
Proof.
  split; [bytes_ok|]. split; [apply no_trap_check; reflexivity|]. split.
  - intros k Hk. cbn in Hk. destruct Hk as [<-|[<-|[<-|[<-|[<-|[<-|[]]]]]]]; apply kltb_ok; reflexivity.
  - split; vm_compute; reflexivity.
Qed.

(** approxCount never succeeds. *)
Theorem C45_count_fault : forall e c keys f l r v, cf_dense c = false -> create e c keys = Ok f -> approxCount e f l r <> Ok v.
Proof. exact bare_count. Qed.
Print Assumptions C45_count_fault.

(** So it is after any number of restorations, and every lookup is answered
    true. *)
Theorem C45_restored : forall e c keys f, good_keys keys -> machine e -> bare_settings c -> filter_of e c keys f ->
  (forall q, lookupKey e f q = Ok true) /\ (forall l r v, approxCount e f l r <> Ok v) /\ getSparseStartLevel f = 0.
Proof. exact bare_count_restored. Qed.
Print Assumptions C45_restored.

Example C45_restored_ex : exists f g, create e0 c_nodense keys1 = Ok f /\ restored e0 f g /\ filter_of e0 c_nodense keys1 g /\
  serializedSize f = 184%N.
Proof.
  assert (T : match round e0 c_nodense keys1 4096 8192 with
    | Ok (f, buf, g, n) => serializedSize f = 184%N /\ length buf = 184
    | Fail _ => False end) by (vm_compute; split; reflexivity).
  destruct (round e0 c_nodense keys1 4096 8192) as [[[[f buf] g] n]|] eqn:E; [|contradiction].
  destruct T as (T1 & T2). exists f, g. pose proof (round_create _ _ _ _ _ _ _ _ _ E) as EC.
  assert (R : restored e0 f g) by (eapply round_restored; [exact E| | |rewrite T1, T2; reflexivity]; rewrite T2; split; vm_compute; congruence).
  split; [exact EC|]. split; [exact R|]. split; [|exact T1]. eapply fo_restored; [apply fo_built; exact EC|left; exact keys1_small|exact R].
Qed.

Example C45_count_fault_ex : exists f, create e0 c_nodense keys1 = Ok f /\ approxCount e0 f [97] [98; 50] = Fail OutOfBounds.
Proof. eexists. split; [vm_compute; reflexivity|vm_compute; reflexivity]. Qed.
