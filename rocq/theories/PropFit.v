(** How the answers of one filter fit together: C60.  Only property theorems,
    examples and counterexamples. *)
From Coq Require Import Arith List NArith ZArith Bool Lia.
From Verif Require Import Res Config Builder Dense Sparse Surf Spec SpecApi SpecFilter SpecIter SpecRange SpecExact SpecDepend
  FitFacts Samples SamplesIter SamplesRange SamplesCount.
Import ListNotations.

(** * C60 *)
(** A range found empty in two parts is found empty as a whole. *)
Theorem C60_split : forall e c keys f,
  machine e -> settings c -> good_keys keys -> ~ lone_ff keys -> filter_of e c keys f ->
  forall it1 it2 it3 l li r ri m mi, member_iter e f it1 -> member_iter e f it2 -> member_iter e f it3 ->
  is_bytes l -> is_bytes r -> is_bytes m -> ~ stray e keys (getSparseStartLevel f) l -> ~ stray e keys (getSparseStartLevel f) m ->
  no_clash keys r -> no_clash keys m -> kle l r ->
  (not_short c keys l /\ not_short c keys r) \/ (forall k, In k keys -> inner keys k -> length k < length r -> kle k r) ->
  range_after e f it1 l li r ri = Ok true ->
  range_after e f it2 l li m mi = Ok true \/ range_after e f it3 m true r ri = Ok true.
Proof. exact fit_split. Qed.
Print Assumptions C60_split.

(** A larger range is not found empty if a smaller one is not. *)
Theorem C60_larger : forall e c keys f,
  machine e -> settings c -> good_keys keys -> ~ lone_ff keys -> filter_of e c keys f ->
  forall it1 it2 l li r ri l' li' r' ri', member_iter e f it1 -> member_iter e f it2 ->
  is_bytes l -> is_bytes r -> is_bytes l' -> is_bytes r' ->
  ~ stray e keys (getSparseStartLevel f) l -> ~ stray e keys (getSparseStartLevel f) l' -> no_clash keys r -> no_clash keys r' ->
  kle l' l -> kle l r -> kle r r' -> (l' = l -> li = true -> li' = true) ->
  (forall x, In x [l; r; l'; r'] -> not_short c keys x) ->
  (forall k, In k keys -> inner keys k -> length k < length r -> kle k r') ->
  range_after e f it1 l li r ri = Ok true -> range_after e f it2 l' li' r' ri' = Ok true.
Proof. exact fit_larger. Qed.
Print Assumptions C60_larger.

(** A range around a string that lookupKey takes for a key is not found empty. *)
Theorem C60_point : forall e c keys f,
  machine e -> settings c -> good_keys keys -> ~ lone_ff keys -> filter_of e c keys f ->
  forall it q l li r ri, member_iter e f it -> padded e c keys f ->
  is_bytes q -> is_bytes l -> is_bytes r -> ~ stray e keys (getSparseStartLevel f) l -> no_clash keys r ->
  kle l q -> kle q r -> (l = q -> li = true) ->
  (forall x, In x [l; q; r] -> not_short c keys x) ->
  cf_type c <> kNone \/ ~ In 0 q ->
  (cf_type c = kReal -> forall k d, In k keys -> dist_len keys k d -> firstn d q = firstn d k ->
     all_zero (next_bits0 k d (cf_rlen c)) -> all_zero (next_bits0 q d (cf_rlen c))) ->
  lookupKey e f q = Ok true -> range_after e f it l li r ri = Ok true.
Proof. exact fit_point. Qed.
Print Assumptions C60_point.

(** A seek for a higher bound leads to the same key or a later one. *)
Theorem C60_seek : forall e c keys f,
  machine e -> settings c -> good_keys keys -> ~ lone_ff keys -> filter_of e c keys f ->
  forall q incl q' incl', is_bytes q -> is_bytes q' ->
  ~ stray e keys (getSparseStartLevel f) q -> ~ stray e keys (getSparseStartLevel f) q' ->
  kle q q' -> (q = q' -> incl = false -> incl' = false) -> not_short c keys q -> not_short c keys q' ->
  exists it it' p p', moveToKeyGreaterThan e f q incl = Ok it /\ stands e c f keys it p /\
    moveToKeyGreaterThan e f q' incl' = Ok it' /\ stands e c f keys it' p' /\ no_later p p'.
Proof. exact fit_seek. Qed.
Print Assumptions C60_seek.

(** Seeking what getKey shows leads back to where the iterator stands. *)
Theorem C60_resume : forall e c keys f,
  machine e -> settings c -> good_keys keys -> ~ lone_ff keys -> filter_of e c keys f ->
  forall it q, gotten e f keys it -> it_valid it = true -> it_getKey it = Ok q ->
  exists i it', stands e c f keys it (Some i) /\ moveToKeyGreaterThan e f q true = Ok it' /\ stands e c f keys it' (Some i).
Proof. exact fit_resume. Qed.
Print Assumptions C60_resume.

(** Keys "a", "ab", "b1", "b2", "cat" with 8 real bits.  ["b2", "cap"] is not
    empty, nor are ["b2", "ba"] and ["b1", "cd"].  "cap" is taken for "cat", and
    ["ca", "cb"] is not empty. *)
Lemma keys1_clash : forall r, no_clash keys1 r.
Proof.
  intros r k d K (D1 & D2 & D3). destruct (le_lt_dec d 10) as [L|L]; [lia|exfalso].
  destruct (D3 10) as (k' & K' & NE & EQ); [lia|]. apply NE.
  assert (S : forall x, In x keys1 -> firstn 10 x = x) by (intros x [<-|[<-|[<-|[<-|[<-|[<-|[]]]]]]]; reflexivity).
  rewrite (S k K), (S k' K') in EQ. exact EQ.
Qed.
Example C60_ex : exists f, create e0 c_real keys1 = Ok f /\ small keys1 /\
  (forall q, In q [[98; 50]; [98; 97]; [98; 49]; [99; 97]] -> ~ stray e0 keys1 (getSparseStartLevel f) q) /\
  (forall r, no_clash keys1 r) /\ (forall x, not_short c_real keys1 x) /\
  (forall k, In k keys1 -> inner keys1 k -> kle k [99; 97; 112]) /\
  ranged e0 c_real keys1 [98; 50] true [99; 97; 112] true = Ok true /\
  ranged e0 c_real keys1 [98; 50] true [98; 97] true = Ok true /\
  ranged e0 c_real keys1 [98; 49] true [99; 100] true = Ok true /\
  lookupKey e0 f [99; 97; 112] = Ok true /\ ~ In [99; 97; 112] keys1 /\
  (forall k d, In k keys1 -> dist_len keys1 k d -> firstn d [99; 97; 112] = firstn d k -> ~ all_zero (next_bits0 k d 8)) /\
  ranged e0 c_real keys1 [99; 97] true [99; 98] true = Ok true.
Proof.
  destruct (made e0 c_real keys1 1 ltac:(vm_compute; reflexivity)) as (f & E & H). exists f. split; [exact E|].
  split; [exact keys1_small|]. split.
  { rewrite H. intros q [<-|[<-|[<-|[<-|[]]]]]; apply (no_stray_check _ c_real); reflexivity. }
  split; [exact keys1_clash|]. split; [intros x k d _ _ _; apply short_suffix_whole; cbn; lia|]. split.
  { intros k [<-|[<-|[<-|[<-|[<-|[<-|[]]]]]]] I; try (left; apply kltb_ok; reflexivity).
    destruct I as (k' & [<-|[<-|[<-|[<-|[<-|[<-|[]]]]]]] & N & P); try discriminate P. destruct N. reflexivity. }
  split; [vm_compute; reflexivity|]. split; [vm_compute; reflexivity|]. split; [vm_compute; reflexivity|].
  split. { clear H. assert (T : answer e0 c_real keys1 [99; 97; 112] = Ok true) by (vm_compute; reflexivity).
    unfold answer in T. rewrite E in T. exact T. }
  split; [intros [X|[X|[X|[X|[X|[X|[]]]]]]]; discriminate X|]. split; [|vm_compute; reflexivity].
  intros k d K D F. assert (k = [99; 97; 116]) as ->.
  { destruct D as (D1 & _). destruct d as [|d]; [lia|]. destruct K as [<-|[<-|[<-|[<-|[<-|[<-|[]]]]]]]; try discriminate F. reflexivity. }
  assert (d = 1) as ->.
  { apply (dist_one keys1 [99; 97; 116]); [exact D|]. apply dist_len_check. vm_compute. reflexivity. }
  intros Z. specialize (Z true). discriminate Z. vm_compute. auto.
Qed.

(** The exceptions.  Keys "a", "baa0", "baa1xyz", "bcdef", "bcdefg", "c" with 24
    real bits: ["baa1yzz", "baa1zz"] is not found empty, but both parts up to and
    from "baa1z" are; "baa1zz" ends inside a suffix and is longer than "bcdef". *)
Theorem C60_split_refuted : exists keys l m r, good_keys keys /\ klt l m /\ klt m r /\
  ranged e0 (mkCfg true 16 kReal 0 24) keys l true r true = Ok true /\
  ranged e0 (mkCfg true 16 kReal 0 24) keys l true m true = Ok false /\
  ranged e0 (mkCfg true 16 kReal 0 24) keys m true r true = Ok false.
Proof.
  exists [[97]; [98; 97; 97; 48]; [98; 97; 97; 49; 120; 121; 122]; [98; 99; 100; 101; 102]; [98; 99; 100; 101; 102; 103]; [99]],
    [98; 97; 97; 49; 121; 122; 122], [98; 97; 97; 49; 122], [98; 97; 97; 49; 122; 122].
  split; [apply good_keysb_ok; vm_compute; reflexivity|]. split; [apply kltb_ok; reflexivity|]. split; [apply kltb_ok; reflexivity|].
  repeat split; vm_compute; reflexivity.
Qed.
Print Assumptions C60_split_refuted.

(** "bcd" is a prefix of "bcde": ["baa", "baaa"] is not found empty, ["baa", "bb"]
    is. *)
Theorem C60_larger_prefix_refuted : exists keys l r r', good_keys keys /\ klt l r /\ klt r r' /\
  ranged e0 c_none keys l true r true = Ok true /\ ranged e0 c_none keys l true r' true = Ok false.
Proof.
  exists [[97]; [98; 99; 100]; [98; 99; 100; 101]; [98; 99; 100; 102]; [98; 99; 101]; [98; 100]; [99]], [98; 97; 97], [98; 97; 97; 97], [98; 98].
  split; [apply good_keysb_ok; vm_compute; reflexivity|]. split; [apply kltb_ok; reflexivity|]. split; [apply kltb_ok; reflexivity|].
  repeat split; vm_compute; reflexivity.
Qed.
Print Assumptions C60_larger_prefix_refuted.

(** Keys "a", "cat", "d" with 16 bits: the stored "cat" is found in ["cat",
    "cat"], but not in ["cat", "cb"], as "cb" ends inside the suffix. *)
Theorem C60_larger_short_refuted : exists keys l r', good_keys keys /\ In l keys /\ klt l r' /\
  ranged e0 c_real16 keys l true l true = Ok true /\ ranged e0 c_real16 keys l true r' true = Ok false.
Proof.
  exists [[97]; [99; 97; 116]; [100]], [99; 97; 116], [99; 98]. split; [apply good_keysb_ok; vm_compute; reflexivity|].
  split; [right; left; reflexivity|]. split; [apply kltb_ok; reflexivity|]. split; vm_compute; reflexivity.
Qed.
Print Assumptions C60_larger_short_refuted.

(** Keys "a", "ca", "d" with 16 bits: "ca" keeps zero, lookupKey takes "cZx" for
    it, the range from "cZx" to itself is found empty. *)
Theorem C60_point_refuted : exists keys q, good_keys keys /\ not_short c_real16 keys q /\
  answer e0 c_real16 keys q = Ok true /\ ranged e0 c_real16 keys q true q true = Ok false.
Proof.
  exists [[97]; [99; 97]; [100]], [99; 90; 120]. split; [apply good_keysb_ok; vm_compute; reflexivity|]. split.
  - intros k d K D F. assert (d = 1) as ->; [|intros _ _; cbn; lia].
    assert (k = [99; 97]) as -> by (destruct D as (D1 & _); destruct d as [|d]; [lia|]; destruct K as [<-|[<-|[<-|[]]]]; try discriminate; reflexivity).
    apply (dist_one [[97]; [99; 97]; [100]] [99; 97]); [exact D|]. apply dist_len_check. vm_compute. reflexivity.
  - split; vm_compute; reflexivity.
Qed.
Print Assumptions C60_point_refuted.

(** The same keys with 8 real bits: seeks for "b1" and "cap" lead to "b1" and
    "cat", whose key is shown as "c", and a seek for "c" leads there too.  "ab"
    is shown whole, and a seek for it leads back. *)
Example C60_seek_ex :
  klt [98; 49] [99; 97; 112] /\ at_gt e0 c_real keys1 [98; 49] true = Ok (true, true, [98; 49]) /\
  at_gt e0 c_real keys1 [99; 97; 112] false = Ok (true, true, [99]) /\ at_gt e0 c_real keys1 [99] true = Ok (true, true, [99]) /\
  at_gt e0 c_real keys1 [97; 98] true = Ok (true, true, [97; 98]) /\ at_gt e0 c_real keys1 [97] true = Ok (true, false, [97]) /\
  (exists f it, create e0 c_real keys1 = Ok f /\ moveToLast e0 f = Ok it /\ gotten e0 f keys1 it /\ it_valid it = true /\ it_getKey it = Ok [99]) /\
  forall x, not_short c_real keys1 x.
Proof.
  split; [apply kltb_ok; reflexivity|]. do 5 (split; [vm_compute; reflexivity|]). split.
  - assert (T : match create e0 c_real keys1 with
      | Ok f => match moveToLast e0 f with Ok it => it_valid it && match it_getKey it with Ok k => if list_eq_dec Nat.eq_dec k [99] then true else false | _ => false end | _ => false end
      | _ => false end = true) by (vm_compute; reflexivity).
    destruct (create e0 c_real keys1) as [f|]; [|discriminate T]. exists f.
    destruct (moveToLast e0 f) as [it|] eqn:L; [|discriminate T]. exists it. apply andb_prop in T. destruct T as [T1 T2].
    split; [reflexivity|]. split; [reflexivity|]. split; [apply got_last; exact L|]. split; [exact T1|].
    destruct (it_getKey it) as [k|]; [|discriminate T2].
    destruct (list_eq_dec Nat.eq_dec k [99]) as [->|]; [reflexivity|discriminate T2].
  - intros x k d _ _ _. apply short_suffix_whole. cbn. lia.
Qed.

(** Keys "a", "cat", "d" with 16 bits: a seek for "cbx" leads to "d", one for the
    higher "cc", which ends inside the suffix, back to "cat". *)
Theorem C60_seek_refuted : exists keys q q', good_keys keys /\ klt q q' /\
  at_gt e0 c_real16 keys q true = Ok (true, false, [100]) /\ at_gt e0 c_real16 keys q' true = Ok (true, true, [99]).
Proof.
  exists [[97]; [99; 97; 116]; [100]], [99; 98; 120], [99; 99]. split; [apply good_keysb_ok; vm_compute; reflexivity|].
  split; [apply kltb_ok; reflexivity|]. split; vm_compute; reflexivity.
Qed.
Print Assumptions C60_seek_refuted.
