(** Seeks, comparisons and range queries: C04, C05, C08, C09, C11, C24, C37.
    Only property theorems, examples and counterexamples. *)
From Coq Require Import Arith List NArith ZArith Bool Lia.
From Verif Require Import Res Config Builder Dense Sparse Surf Spec SpecApi SpecFilter SpecIter SpecRange RangeApi CountApi Samples SamplesIter SamplesRange.
Import ListNotations.

(** * C04 *)
Theorem C04_range_finds_key : forall e c keys f,
  machine e -> settings c -> good_keys keys -> ~ lone_ff keys -> filter_of e c keys f ->
  forall it l li r ri k, member_iter e f it -> is_bytes l -> is_bytes r ->
  ~ trap e c keys (getSparseStartLevel f) l -> ~ short_bound c keys r ->
  In k keys -> above li l k -> below ri k r -> range_after e f it l li r ri = Ok true.
Proof. exact range_true. Qed.
Print Assumptions C04_range_finds_key.

(** Keys "a", "ab", "b1", "b2", "cat"; "b2" lies in ("b0x", "b2"]. *)
Example C04_range_finds_key_ex : exists f, create e0 c_real keys1 = Ok f /\
  ~ trap e0 c_real keys1 (getSparseStartLevel f) [98; 48; 120] /\ ~ short_bound c_real keys1 [98; 50] /\
  In [98; 50] keys1 /\ above false [98; 48; 120] [98; 50] /\ below true [98; 50] [98; 50] /\
  ~ In [98; 48; 120] keys1.
Proof.
  destruct (made e0 c_real keys1 1 ltac:(vm_compute; reflexivity)) as (f & E & H). exists f. split; [exact E|]. rewrite H.
  split; [apply no_trap_check; reflexivity|]. split; [apply short_bound_check; cbn; lia|].
  split; [apply inb_in; reflexivity|]. split; [left; apply kltb_ok; reflexivity|]. split; [right; auto|].
  intros X. apply in_inb in X. vm_compute in X. discriminate.
Qed.

(** Each exception is a false negative of the code. *)

(** keys "p", "pa", "pc", "pe", "pg": "pg" is not found in ["pf", "pg"] *)
Theorem C04_past_prefix_key_refuted : exists keys l r k, good_keys keys /\ In k keys /\ above true l k /\ below true k r /\
  ranged e0 c_none keys l true r true = Ok false.
Proof.
  exists keys_p, [112; 102], [112; 103], [112; 103]. split; [exact keys_p_good|]. split; [apply inb_in; reflexivity|].
  split; [left; apply kltb_ok; reflexivity|]. split; [right; auto|vm_compute; reflexivity].
Qed.
(** keys "b" followed by an even byte from 2 to 200: nothing is found in
    ["b\199", "b\200"] *)
Theorem C04_last_node_refuted : exists keys l r k, good_keys keys /\ In k keys /\ above true l k /\ below true k r /\
  ranged e0 c_none keys l true r true = Ok false.
Proof.
  exists keys_even, [98; 199], [98; 200], [98; 200]. split; [exact keys_even_good|]. split; [apply inb_in; vm_compute; reflexivity|].
  split; [left; apply kltb_ok; vm_compute; reflexivity|]. split; [right; auto|vm_compute; reflexivity].
Qed.
(** two dense levels: nothing is found in ["b", "b\001\001"], and an empty left
    end violates an assertion *)
Theorem C04_ends_early_refuted : exists keys l r k, good_keys keys /\ In k keys /\ above true l k /\ below true k r /\
  ranged e0 c_real1 keys l true r true = Ok false /\ ranged e0 c_real1 keys [] true r true = Fail AssertFail /\
  ranged e_ndebug c_real1 keys [] true r true = Ok false.
Proof.
  exists keys_deep, [98], [98; 1; 1], [98; 1; 1]. split; [exact keys_deep_good|]. split; [apply inb_in; vm_compute; reflexivity|].
  split; [left; apply kltb_ok; vm_compute; reflexivity|]. split; [right; auto|]. repeat split; vm_compute; reflexivity.
Qed.
(** keys "ab", "b", 16 suffix bits: "ab" is not found in ["aaa", "ac"] *)
Theorem C04_short_key_refuted : exists keys l r k, good_keys keys /\ In k keys /\ above true l k /\ below true k r /\
  ranged e0 c_real16 keys l true r true = Ok false.
Proof.
  exists [[97; 98]; [98]], [97; 97; 97], [97; 99], [97; 98]. split; [apply good_keysb_ok; reflexivity|]. split; [apply inb_in; reflexivity|].
  split; [left; apply kltb_ok; reflexivity|]. split; [left; apply kltb_ok; reflexivity|vm_compute; reflexivity].
Qed.
(** keys "abcd", "b", 16 suffix bits: "abcd" is not found in ["ab", "ac"] *)
Theorem C04_short_bound_refuted : exists keys l r k, good_keys keys /\ In k keys /\ above true l k /\ below true k r /\
  ranged e0 c_real16 keys l true r true = Ok false.
Proof.
  exists [[97; 98; 99; 100]; [98]], [97; 98], [97; 99], [97; 98; 99; 100]. split; [apply good_keysb_ok; reflexivity|].
  split; [apply inb_in; reflexivity|]. split; [left; apply kltb_ok; reflexivity|]. split; [left; apply kltb_ok; reflexivity|vm_compute; reflexivity].
Qed.
Theorem C04_lone_ff_refuted : exists keys l r k, good_keys keys /\ In k keys /\ above true l k /\ below true k r /\
  ranged e0 c_none keys l true r true = Ok false.
Proof.
  exists keys_ff, [255], [255; 2], [255; 1]. split; [exact keys_ff_good|]. split; [apply inb_in; reflexivity|].
  split; [left; apply kltb_ok; vm_compute; reflexivity|]. split; [left; apply kltb_ok; vm_compute; reflexivity|vm_compute; reflexivity].
Qed.
Print Assumptions C04_past_prefix_key_refuted.
Print Assumptions C04_last_node_refuted.
Print Assumptions C04_ends_early_refuted.
Print Assumptions C04_short_key_refuted.
Print Assumptions C04_short_bound_refuted.
Print Assumptions C04_lone_ff_refuted.

(** * C05 *)
Theorem C05_stored_ends : forall e c keys f,
  machine e -> settings c -> good_keys keys -> ~ lone_ff keys -> filter_of e c keys f ->
  forall it l r ri, member_iter e f it -> In l keys -> In r keys -> kle l r ->
  range_after e f it l true r ri = Ok true.
Proof. exact range_stored. Qed.
Print Assumptions C05_stored_ends.

Example C05_stored_ends_ex : exists f, create e0 c_mixed keys1 = Ok f /\ member_iter e0 f (iter_new f) /\
  In [97; 98] keys1 /\ In [99; 97; 116] keys1 /\ kle [97; 98] [99; 97; 116].
Proof.
  destruct (made e0 c_mixed keys1 1 ltac:(vm_compute; reflexivity)) as (f & E & H). exists f. split; [exact E|].
  split; [constructor|]. split; [apply inb_in; reflexivity|]. split; [apply inb_in; reflexivity|left; apply kltb_ok; reflexivity].
Qed.

Theorem C05_lone_ff_refuted : exists keys k, good_keys keys /\ In k keys /\ ranged e0 c_none keys k true k true = Ok false.
Proof. exists keys_ff, [255; 1]. split; [exact keys_ff_good|]. split; [apply inb_in; reflexivity|vm_compute; reflexivity]. Qed.
Print Assumptions C05_lone_ff_refuted.

(** * C08 *)
Theorem C08_seek_greater : forall e c keys f,
  machine e -> settings c -> good_keys keys -> ~ lone_ff keys -> filter_of e c keys f ->
  forall q incl, is_bytes q -> ~ trap e c keys (getSparseStartLevel f) q -> exists it p,
  moveToKeyGreaterThan e f q incl = Ok it /\ stands e c f keys it p /\
  gt_place c keys (getSparseStartLevel f) q incl (it_fp it) p.
Proof. exact seek_gt_place. Qed.
Print Assumptions C08_seek_greater.

(** ">= b0x" with keys "a", "ab", "b1", "b2", "cat" *)
Example C08_seek_greater_ex : exists f, create e0 c_real keys1 = Ok f /\
  ~ trap e0 c_real keys1 (getSparseStartLevel f) [98; 48; 120] /\ is_bytes [98; 48; 120] /\
  at_gt e0 c_real keys1 [98; 48; 120] true = Ok (true, false, [98; 49]).
Proof.
  destruct (made e0 c_real keys1 1 ltac:(vm_compute; reflexivity)) as (f & E & H). exists f. split; [exact E|]. rewrite H.
  split; [apply no_trap_check; reflexivity|]. split; [repeat constructor; lia|vm_compute; reflexivity].
Qed.

(** An inclusive seek for a stored key stands at it. *)
Theorem C08_seek_stored : forall e c keys f,
  machine e -> settings c -> good_keys keys -> ~ lone_ff keys -> filter_of e c keys f ->
  forall q, In q keys -> exists it j, moveToKeyGreaterThan e f q true = Ok it /\ gotten e f keys it /\
  stands e c f keys it (Some j) /\ j < length (uniq keys) /\ nth j (uniq keys) [] = q.
Proof. exact seek_stored. Qed.
Print Assumptions C08_seek_stored.

Example C08_seek_stored_ex : In [98; 49] keys1 /\ at_gt e0 c_real keys1 [98; 49] true = Ok (true, true, [98; 49]).
Proof. split; [apply inb_in; reflexivity|vm_compute; reflexivity]. Qed.

(** "> ac" with keys "a", "ab", "b1", "b2", "cat" leads to no stored key *)
Theorem C08_past_prefix_key_refuted : exists keys q, good_keys keys /\ at_gt e0 c_none keys q true = Ok (true, false, [97; 50]) /\
  forall k, In k keys -> firstn 2 k <> [97; 50].
Proof.
  exists keys1, [97; 99]. split; [exact keys1_good|]. split; [vm_compute; reflexivity|].
  intros k H. cbn in H. repeat (destruct H as [H|H]; [subst k; discriminate|]). destruct H.
Qed.
(** a query that ends in the dense part: the iterator shows a cut key *)
Theorem C08_ends_early_refuted : exists keys q, good_keys keys /\ at_gt e0 c_real1 keys q true = Ok (true, true, [98; 1]) /\
  (exists k k', In k keys /\ In k' keys /\ k <> k' /\ firstn 2 k = [98; 1] /\ firstn 2 k' = [98; 1]).
Proof.
  exists keys_deep, [98]. split; [exact keys_deep_good|]. split; [vm_compute; reflexivity|].
  exists [98; 1; 1], [98; 1; 2]. split; [apply inb_in; vm_compute; reflexivity|]. split; [apply inb_in; vm_compute; reflexivity|].
  split; [discriminate|auto].
Qed.
(** keys "ab", "b", 16 suffix bits: ">= aaa" skips "ab" *)
Theorem C08_short_key_refuted : exists keys q k, good_keys keys /\ In k keys /\ klt q k /\ klt k [98] /\
  at_gt e0 c_real16 keys q true = Ok (true, false, [98]).
Proof.
  exists [[97; 98]; [98]], [97; 97; 97], [97; 98]. split; [apply good_keysb_ok; reflexivity|]. split; [apply inb_in; reflexivity|].
  split; [apply kltb_ok; reflexivity|]. split; [apply kltb_ok; reflexivity|vm_compute; reflexivity].
Qed.
(** "> b" stays at the stored key "b", with the flag set *)
Theorem C08_exclusive_refuted : exists keys q, good_keys keys /\ In q keys /\ at_gt e0 c_none keys q false = Ok (true, true, q).
Proof. exists [[97]; [98]], [98]. split; [apply good_keysb_ok; reflexivity|]. split; [apply inb_in; reflexivity|vm_compute; reflexivity]. Qed.
Print Assumptions C08_past_prefix_key_refuted.
Print Assumptions C08_ends_early_refuted.
Print Assumptions C08_short_key_refuted.
Print Assumptions C08_exclusive_refuted.

(** * C09 *)
Theorem C09_seek_less : forall e c keys f,
  machine e -> settings c -> good_keys keys -> ~ lone_ff keys -> filter_of e c keys f ->
  forall q incl, padded e c keys f -> is_bytes q -> ~ trap e c keys (getSparseStartLevel f) q -> exists it0 it b p,
  moveToKeyGreaterThan e f q false = Ok it0 /\ lookupKey e f q = Ok b /\ moveToKeyLessThan e f q incl = Ok it /\
  stands e c f keys it p /\ lt_place c keys (getSparseStartLevel f) q (it_fp it0) b p.
Proof. exact seek_lt_place. Qed.
Print Assumptions C09_seek_less.

(** With the flag off and a negative lookupKey the iterator stands at the last
    key below the query, if [--] finds the way. *)
Theorem C09_seek_less_exact : forall e c keys f,
  machine e -> settings c -> good_keys keys -> ~ lone_ff keys -> filter_of e c keys f ->
  forall q incl it0, is_bytes q -> ~ trap e c keys (getSparseStartLevel f) q ->
  moveToKeyGreaterThan e f q false = Ok it0 -> it_fp it0 = false -> lookupKey e f q = Ok false -> exists it p,
  moveToKeyLessThan e f q incl = Ok it /\ stands e c f keys it p /\
  match p with
  | Some i => last_below keys q i
  | None => (forall k, In k keys -> klt q k) \/
            exists i, last_below keys q i /\ S i < length (uniq keys) /\
              stuck keys (getSparseStartLevel f) (nth i (uniq keys) []) (nth (S i) (uniq keys) [])
  end.
Proof. exact seek_lt_exact. Qed.
Print Assumptions C09_seek_less_exact.

(** "<= bz" with keys "a", "ab", "b1", "b2", "cat" *)
Example C09_seek_less_ex : exists f it0, create e0 c_real keys1 = Ok f /\
  ~ trap e0 c_real keys1 (getSparseStartLevel f) [98; 122] /\ is_bytes [98; 122] /\ small keys1 /\
  moveToKeyGreaterThan e0 f [98; 122] false = Ok it0 /\ it_fp it0 = false /\ lookupKey e0 f [98; 122] = Ok false /\
  at_lt e0 c_real keys1 [98; 122] true = Ok (true, false, [98; 50]).
Proof.
  destruct (made e0 c_real keys1 1 ltac:(vm_compute; reflexivity)) as (f & E & H). exists f.
  assert (T : match f' <- create e0 c_real keys1 ;; it <- moveToKeyGreaterThan e0 f' [98; 122] false ;; b <- lookupKey e0 f' [98; 122] ;; Ok (it, b) with
    Ok (it, b) => negb (it_fp it) && negb b | Fail _ => false end = true) by (vm_compute; reflexivity).
  rewrite E in T. cbn [bind] in T. destruct (moveToKeyGreaterThan e0 f [98; 122] false) as [it0|]; [|discriminate].
  cbn [bind] in T. destruct (lookupKey e0 f [98; 122]) as [b|]; [|discriminate]. cbn [bind] in T. apply andb_prop in T. destruct T as [T1 T2].
  exists it0. split; [exact E|]. rewrite H. split; [apply no_trap_check; reflexivity|]. split; [repeat constructor; lia|].
  split; [exact keys1_small|]. split; [reflexivity|]. split; [destruct (it_fp it0); [discriminate|reflexivity]|].
  split; [destruct b; [discriminate|reflexivity]|vm_compute; reflexivity].
Qed.

(** keys "a", "b", 8 suffix bits: "<= ax" steps back twice *)
Theorem C09_two_steps_refuted : exists keys q k, good_keys keys /\ In k keys /\ klt k q /\
  at_lt e0 c_real keys q true = Ok (false, false, []).
Proof.
  exists [[97]; [98]], [97; 120], [97]. split; [apply good_keysb_ok; reflexivity|]. split; [apply inb_in; reflexivity|].
  split; [apply kltb_ok; reflexivity|vm_compute; reflexivity].
Qed.
(** keys "az", "b", 8 suffix bits: "< ax" gives "az", with the flag set *)
Theorem C09_above_refuted : exists keys q, good_keys keys /\ (forall k, In k keys -> klt q k) /\
  at_lt e0 c_real keys q false = Ok (true, true, [97]).
Proof.
  exists [[97; 122]; [98]], [97; 120]. split; [apply good_keysb_ok; reflexivity|]. split; [|vm_compute; reflexivity].
  intros k [<-|[<-|[]]]; apply kltb_ok; reflexivity.
Qed.
(** "< b" stays at the stored key "b", with the flag set *)
Theorem C09_exclusive_refuted : exists keys q, good_keys keys /\ In q keys /\ at_lt e0 c_none keys q false = Ok (true, true, q).
Proof. exists [[97]; [98]], [98]. split; [apply good_keysb_ok; reflexivity|]. split; [apply inb_in; reflexivity|vm_compute; reflexivity]. Qed.
Print Assumptions C09_two_steps_refuted.
Print Assumptions C09_above_refuted.
Print Assumptions C09_exclusive_refuted.

(** * C11 *)
Theorem C11_compare_sound : forall e c keys f,
  machine e -> settings c -> good_keys keys -> ~ lone_ff keys -> filter_of e c keys f ->
  forall it q, gotten e f keys it -> is_bytes q -> it_valid it = true -> exists i z,
  stands e c f keys it (Some i) /\ i < length (uniq keys) /\ it_compare e f it q = Ok z /\
  cmp_sound c keys (nth i (uniq keys) []) q z.
Proof. exact compare_sound. Qed.
Print Assumptions C11_compare_sound.

Example C11_compare_sound_ex : exists f it, create e0 c_mixed keys1 = Ok f /\ gotten e0 f keys1 it /\ it_valid it = true /\
  cmp_first e0 c_mixed keys1 [98] = Ok (-1)%Z /\ cmp_last e0 c_mixed keys1 [98] = Ok 1%Z /\ cmp_last e0 c_mixed keys1 [99; 97; 116] = Ok 2018%Z.
Proof.
  destruct (made e0 c_mixed keys1 1 ltac:(vm_compute; reflexivity)) as (f & E & H). exists f.
  assert (T : match f' <- create e0 c_mixed keys1 ;; moveToFirst e0 f' with Ok it => it_valid it | Fail _ => false end = true)
    by (vm_compute; reflexivity).
  rewrite E in T. cbn [bind] in T. destruct (moveToFirst e0 f) as [it|] eqn:EF; [|discriminate]. exists it. split; [exact E|].
  split; [apply got_first; exact EF|]. split; [exact T|]. repeat split; vm_compute; reflexivity.
Qed.

(** at the key "bc", a prefix of "bcd", "bbb" counts as larger *)
Theorem C11_prefix_key_refuted : exists keys k q, good_keys keys /\ klt q k /\ hd [] keys = k /\ cmp_first e0 c_none keys q = Ok (-1)%Z.
Proof.
  exists [[98; 99]; [98; 99; 100]], [98; 99], [98; 98; 98]. split; [apply good_keysb_ok; reflexivity|].
  split; [apply kltb_ok; reflexivity|]. split; [reflexivity|vm_compute; reflexivity].
Qed.
(** keys "ab", "b", 16 suffix bits: "ab" counts as smaller than "aaa" *)
Theorem C11_short_key_refuted : exists keys k q, good_keys keys /\ klt q k /\ hd [] keys = k /\ cmp_first e0 c_real16 keys q = Ok (-1)%Z.
Proof.
  exists [[97; 98]; [98]], [97; 98], [97; 97; 97]. split; [apply good_keysb_ok; reflexivity|].
  split; [apply kltb_ok; reflexivity|]. split; [reflexivity|vm_compute; reflexivity].
Qed.
Print Assumptions C11_prefix_key_refuted.
Print Assumptions C11_short_key_refuted.

(** * C24 *)
Theorem C24_range_ignores_history : forall e f it l li r ri, member_iter e f it ->
  range_after e f it l li r ri = lookupRange e f l li r ri.
Proof. exact range_history. Qed.
Print Assumptions C24_range_ignores_history.

(** an iterator left behind by a range query and by a count *)
Example C24_range_ignores_history_ex : exists f it it', create e0 c_real keys1 = Ok f /\ member_iter e0 f it /\ member_iter e0 f it' /\
  it <> iter_new f /\ it' <> iter_new f.
Proof.
  assert (T : match f <- create e0 c_real keys1 ;; '(_, it) <- lookupRange_st e0 f (iter_new f) [97] true [98] true ;;
    it' <- moveToKeyGreaterThan e0 f [98; 49] true ;; Ok (it, it') with Ok (it, it') => it_valid it && it_valid it' | Fail _ => false end = true)
    by (vm_compute; reflexivity).
  destruct (create e0 c_real keys1) as [f|] eqn:E; [|discriminate]. cbn [bind] in T.
  destruct (lookupRange_st e0 f (iter_new f) [97] true [98] true) as [[b it]|] eqn:E1; [|discriminate]. cbn [bind] in T.
  destruct (moveToKeyGreaterThan e0 f [98; 49] true) as [it'|] eqn:E2; [|discriminate]. cbn [bind] in T. apply andb_prop in T. destruct T as [T1 T2].
  exists f, it, it'. split; [reflexivity|]. split; [eapply mi_range; [apply mi_new|exact E1]|]. split; [eapply mi_count; exact E2|].
  split; intros X; subst; discriminate.
Qed.

(** * C37 *)
Theorem C37_range_has_cause : forall e c keys f,
  machine e -> settings c -> good_keys keys -> ~ lone_ff keys -> filter_of e c keys f ->
  forall it l li r ri, member_iter e f it -> is_bytes l -> is_bytes r -> ~ trap e c keys (getSparseStartLevel f) l ->
  range_after e f it l li r ri = Ok true ->
  exists k, In k keys /\ (forall x, In x keys -> klt x k -> kle x l) /\
    (klt l k \/ (exists d, dist_len keys k d /\ firstn d l = firstn d k)) /\
    (klt k r \/ (exists d, dist_len keys k d /\ firstn d r = firstn d k) \/
     (length k < length r /\ exists k', In k' keys /\ k' <> k /\ firstn (length k) k' = k) \/
     (firstn (length r) k = r /\ exists d, dist_len keys k d /\ length r + 2018 <= d)).
Proof. exact range_cause. Qed.
Print Assumptions C37_range_has_cause.

Example C37_range_has_cause_ex : exists f, create e0 c_real keys1 = Ok f /\
  ~ trap e0 c_real keys1 (getSparseStartLevel f) [98; 48; 120] /\ is_bytes [98; 48; 120] /\ is_bytes [98; 49; 120] /\
  range_after e0 f (iter_new f) [98; 48; 120] true [98; 49; 120] true = Ok true /\
  range_after e0 f (iter_new f) [98; 48; 120] true [98; 48; 121] true = Ok false.
Proof.
  destruct (made e0 c_real keys1 1 ltac:(vm_compute; reflexivity)) as (f & E & H). exists f. split; [exact E|]. rewrite H.
  split; [apply no_trap_check; reflexivity|]. split; [repeat constructor; lia|]. split; [repeat constructor; lia|].
  assert (T : (f' <- create e0 c_real keys1 ;; a <- range_after e0 f' (iter_new f') [98; 48; 120] true [98; 49; 120] true ;;
    b <- range_after e0 f' (iter_new f') [98; 48; 120] true [98; 48; 121] true ;; Ok (a, b)) = Ok (true, false)) by (vm_compute; reflexivity).
  rewrite E in T. cbn [bind] in T. destruct (range_after e0 f (iter_new f) [98; 48; 120] true [98; 49; 120] true); [|discriminate].
  cbn [bind] in T. destruct (range_after e0 f (iter_new f) [98; 48; 120] true [98; 48; 121] true); [|discriminate].
  cbn [bind] in T. injection T as -> ->. auto.
Qed.

(** The last alternative occurs: a length difference of 2018 is read as "could
    be".  All keys are far above the interval. *)
Theorem C37_code_clash_refuted : exists keys l r, good_keys keys /\ (forall k, In k keys -> klt r k /\ length r + 2018 <= length k) /\
  ranged e0 c_none keys l true r true = Ok true.
Proof.
  exists keys_far, [97], [120; 120; 120]. split; [exact keys_far_good|]. split; [|vm_compute; reflexivity].
  intros k [<-|[<-|[]]]; (split; [apply kltb_ok; vm_compute; reflexivity|apply Nat.leb_le; vm_compute; reflexivity]).
Qed.
Print Assumptions C37_code_clash_refuted.
