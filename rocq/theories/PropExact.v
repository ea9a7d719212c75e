(** The exact outcome of seeks, comparisons and range queries: C54.  Only
    property theorems and examples. *)
From Coq Require Import Arith List NArith ZArith Bool Lia.
From Verif Require Import Res Config Builder Dense Sparse Surf Spec SpecApi SpecFilter SpecIter SpecRange SpecExact ExactFacts Samples SamplesIter SamplesRange.
Import ListNotations.

(** The seek leads to the first key it does not go past; its flag is known. *)
Theorem C54_seek : forall e c keys f,
  machine e -> settings c -> good_keys keys -> ~ lone_ff keys -> filter_of e c keys f ->
  forall q incl, is_bytes q -> ~ stray e keys (getSparseStartLevel f) q -> exists it p,
  moveToKeyGreaterThan e f q incl = Ok it /\ stands e c f keys it p /\
  seek_at c keys (getSparseStartLevel f) q incl p /\
  (forall i, p = Some i -> it_fp it = true <-> flagged keys (getSparseStartLevel f) q (nth i (uniq keys) [])).
Proof. exact seek_exact. Qed.
Print Assumptions C54_seek.

(** So does moveToKeyLessThan; whether the argument inclusive is set makes no
    difference. *)
Theorem C54_less : forall e c keys f,
  machine e -> settings c -> good_keys keys -> ~ lone_ff keys -> filter_of e c keys f ->
  forall q incl b, is_bytes q -> ~ stray e keys (getSparseStartLevel f) q -> lookupKey e f q = Ok b -> exists it p,
  moveToKeyLessThan e f q incl = Ok it /\ stands e c f keys it p /\ less_at c keys (getSparseStartLevel f) q b p.
Proof. exact less_exact. Qed.
Print Assumptions C54_less.

Theorem C54_compare : forall e c keys f,
  machine e -> settings c -> good_keys keys -> ~ lone_ff keys -> filter_of e c keys f ->
  forall it q, gotten e f keys it -> is_bytes q -> it_valid it = true -> exists i z,
  stands e c f keys it (Some i) /\ i < length (uniq keys) /\ it_compare e f it q = Ok z /\
  cmp_exact c keys (getSparseStartLevel f) (nth i (uniq keys) []) q z.
Proof. exact compare_exact. Qed.
Print Assumptions C54_compare.

(** The answer of a range query is known for every history. *)
Theorem C54_range : forall e c keys f,
  machine e -> settings c -> good_keys keys -> ~ lone_ff keys -> filter_of e c keys f ->
  forall it l li r ri, member_iter e f it -> is_bytes l -> is_bytes r ->
  ~ stray e keys (getSparseStartLevel f) l -> no_clash keys r ->
  exists b, range_after e f it l li r ri = Ok b /\
    (b = true <-> exists i, seek_at c keys (getSparseStartLevel f) l li (Some i) /\
                            reaches c keys (getSparseStartLevel f) (nth i (uniq keys) []) r).
Proof. exact range_exact. Qed.
Print Assumptions C54_range.

(** There is only one place. *)
Theorem C54_one_place : forall keys, good_keys keys -> forall c h q incl p p',
  seek_at c keys h q incl p -> seek_at c keys h q incl p' -> p = p'.
Proof. exact seek_at_unique. Qed.
Print Assumptions C54_one_place.

(** Keys "a", "ab", "b1", "b2", "cat" with 8 bits after the distinguishing
    prefix: "cat" is told apart by "c" and keeps "a".  The seek for "cb" goes
    past it, and ["cb", "cd"] is empty; without suffixes it is not. *)
Example C54_ex : exists f, create e0 c_real keys1 = Ok f /\
  ~ stray e0 keys1 (getSparseStartLevel f) [99; 98] /\ is_bytes [99; 98] /\ is_bytes [99; 100] /\ no_clash keys1 [99; 100] /\
  ranged e0 c_real keys1 [99; 98] true [99; 100] true = Ok false /\
  ranged e0 c_none keys1 [99; 98] true [99; 100] true = Ok true /\
  ranged e0 c_real keys1 [99; 96] true [99; 97] true = Ok true /\
  ranged e0 c_real keys1 [99; 95] true [99; 96] true = Ok false.
Proof.
  destruct (made e0 c_real keys1 1 ltac:(vm_compute; reflexivity)) as (f & E & H). exists f. split; [exact E|]. rewrite H.
  split; [apply (no_stray_check _ c_real); reflexivity|]. split; [repeat constructor; lia|]. split; [repeat constructor; lia|].
  split; [|repeat split; vm_compute; reflexivity].
  intros k d K (D1 & D2 & D3). destruct (le_lt_dec d 10) as [L|L]; [cbn [length]; lia|exfalso].
  destruct (D3 10) as (k' & K' & NE & EQ); [lia|]. apply NE.
  assert (S : forall x, In x keys1 -> firstn 10 x = x) by (intros x [<-|[<-|[<-|[<-|[<-|[<-|[]]]]]]]; reflexivity).
  rewrite (S k K), (S k' K') in EQ. exact EQ.
Qed.

(** The same keys: below "cb" stands the last key, below "ba" one step back from
    "cat", and for the stored "b2" the key itself with its flag raised.  Keys
    "a", "ca", "d" with 16 real bits: "ca" keeps zero, as it ends inside its
    suffix, so the seek for "cZx" goes past it, lookupKey finds it all the same,
    and moveToKeyLessThan takes two steps back, to "a". *)
Example C54_less_ex :
  at_lt e0 c_real keys1 [99; 98] true = Ok (true, false, [99]) /\
  at_lt e0 c_real keys1 [98; 97] true = Ok (true, false, [98; 50]) /\
  at_lt e0 c_real keys1 [98; 50] true = Ok (true, true, [98; 50]) /\
  ~ stray e0 keys1 1 [99; 98] /\ ~ stray e0 keys1 1 [98; 97] /\ ~ stray e0 keys1 1 [98; 50] /\
  exists f, create e0 c_real16 [[97]; [99; 97]; [100]] = Ok f /\ getSparseStartLevel f = 1 /\
  ~ stray e0 [[97]; [99; 97]; [100]] 1 [99; 90; 120] /\ klt [99; 90; 120] [99; 97] /\
  lookupKey e0 f [99; 90; 120] = Ok true /\
  at_gt e0 c_real16 [[97]; [99; 97]; [100]] [99; 90; 120] false = Ok (true, false, [100]) /\
  at_lt e0 c_real16 [[97]; [99; 97]; [100]] [99; 90; 120] true = Ok (true, false, [97]).
Proof.
  do 3 (split; [vm_compute; reflexivity|]).
  do 3 (split; [apply (no_stray_check _ c_real); reflexivity|]).
  destruct (create e0 c_real16 [[97]; [99; 97]; [100]]) as [f|] eqn:E; [|vm_compute in E; discriminate].
  exists f. vm_compute in E. injection E as <-. split; [reflexivity|]. split; [vm_compute; reflexivity|].
  split; [apply (no_stray_check _ c_real); reflexivity|]. split; [apply kltb_ok; reflexivity|].
  repeat split; vm_compute; reflexivity.
Qed.
