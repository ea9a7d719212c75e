(** Counts: C26.  Only property theorems, examples and counterexamples. *)
From Coq Require Import Arith List NArith Bool Lia.
From Verif Require Import Res Config Builder Dense Sparse Surf Spec SpecApi SpecFilter SpecIter SpecRange SpecCount CountApi Samples SamplesIter SamplesRange SamplesCount.
Import ListNotations.

(** * C26 *)
Theorem C26_count_within_two : forall e c keys f,
  machine e -> settings c -> good_keys keys -> ~ lone_ff keys -> filter_of e c keys f ->
  forall l r, In l keys -> is_bytes r -> kle l r -> ~ trap e c keys (getSparseStartLevel f) r ->
  plain_top keys (getSparseStartLevel f) ->
  reaches keys (getSparseStartLevel f) r \/ ~ last_level_prefix keys (getSparseStartLevel f) ->
  (forall k, approxCount e f l r = Ok k -> exists xs,
     lists keys xs (fun x => kle l x /\ kle x r) /\ (k <= N.of_nat (length xs) <= k + 2)%N) /\
  (room keys (getSparseStartLevel f) l r -> exists k, approxCount e f l r = Ok k).
Proof. exact count_bounds. Qed.
Print Assumptions C26_count_within_two.

(** Keys "a", "ab", "b1", "b2", "b3", "cat", "dxa", "dxb", interval "a" to "c":
    five keys, and the answer is 4. *)
Example C26_count_within_two_ex : exists f, create e0 c_none keys_c = Ok f /\ In [97] keys_c /\ kle [97] [99] /\
  ~ trap e0 c_none keys_c (getSparseStartLevel f) [99] /\ plain_top keys_c (getSparseStartLevel f) /\
  reaches keys_c (getSparseStartLevel f) [99] /\ room keys_c (getSparseStartLevel f) [97] [99] /\
  approxCount e0 f [97] [99] = Ok 4%N.
Proof.
  destruct (made e0 c_none keys_c 1 ltac:(vm_compute; reflexivity)) as (f & E & H). exists f. split; [exact E|]. rewrite H.
  split; [apply inb_in; reflexivity|]. split; [left; apply kltb_ok; reflexivity|].
  split; [apply no_trap_check; reflexivity|]. split; [apply plain_check; reflexivity|].
  split; [exists [99; 97; 116], 1; split; [apply inb_in; reflexivity|]; split; [left; left; apply kltb_ok; reflexivity|];
          split; [apply dist_len_check; reflexivity|auto]|].
  split.
  - right. exists 2, [99; 97; 116], [100; 120; 97], 3. split; [auto|]. split; [apply inb_in; reflexivity|].
    split; [left; apply kltb_ok; reflexivity|]. split; [apply inb_in; reflexivity|]. split; [apply kltb_ok; reflexivity|].
    split; [apply dist_len_check; reflexivity|]. split; [auto|].
    intros x dx I _ Hi. cbn in I.
    repeat (destruct I as [I|I]; [subst x; apply tells_bound; [auto|reflexivity]|]).
    destruct I as [I|[I|[]]]; subst x; exfalso; clear - Hi; (destruct Hi as [Hi|Hi]; cbn in Hi; [lia|discriminate]).
  - assert (X : counted e0 c_none keys_c [97] [99] = Ok 4%N) by (vm_compute; reflexivity).
    unfold counted, bind in X. rewrite E in X. exact X.
Qed.

Theorem C26_count_stored_exact : forall e c keys f,
  machine e -> settings c -> good_keys keys -> ~ lone_ff keys -> filter_of e c keys f ->
  forall l r, In l keys -> In r keys -> kle l r ->
  plain_top keys (getSparseStartLevel f) ->
  reaches keys (getSparseStartLevel f) r \/ ~ last_level_prefix keys (getSparseStartLevel f) ->
  forall k, approxCount e f l r = Ok k -> exists xs,
    lists keys xs (fun x => klt l x /\ klt x r) /\ k = N.of_nat (length xs).
Proof. exact count_stored. Qed.
Print Assumptions C26_count_stored_exact.

(** From "ab" to "dxa": "b1", "b2", "b3" and "cat" lie between. *)
Example C26_count_stored_exact_ex : exists f, create e0 c_none keys_c = Ok f /\ In [97; 98] keys_c /\ In [100; 120; 97] keys_c /\
  kle [97; 98] [100; 120; 97] /\ plain_top keys_c (getSparseStartLevel f) /\
  ~ last_level_prefix keys_c (getSparseStartLevel f) /\
  approxCount e0 f [97; 98] [100; 120; 97] = Ok 4%N.
Proof.
  destruct (made e0 c_none keys_c 1 ltac:(vm_compute; reflexivity)) as (f & E & H). exists f. split; [exact E|]. rewrite H.
  split; [apply inb_in; reflexivity|]. split; [apply inb_in; reflexivity|]. split; [left; apply kltb_ok; reflexivity|].
  split; [apply plain_check; reflexivity|].
  split.
  - intros (k & k' & I & _ & _ & L & _). destruct k; [|discriminate]. apply in_inb in I. discriminate.
  - assert (X : counted e0 c_none keys_c [97; 98] [100; 120; 97] = Ok 4%N) by (vm_compute; reflexivity).
    unfold counted, bind in X. rewrite E in X. exact X.
Qed.

(** The left iterator from a seek for a stored key, the right one from anywhere. *)
Theorem C26_count_iterators : forall e c keys f,
  machine e -> settings c -> good_keys keys -> ~ lone_ff keys -> filter_of e c keys f ->
  forall l a j b, In l keys -> moveToKeyGreaterThan e f l true = Ok a ->
  gotten e f keys b -> stands e c f keys b (Some j) -> j < length (uniq keys) -> kle l (nth j (uniq keys) []) ->
  plain_top keys (getSparseStartLevel f) ->
  reaches keys (getSparseStartLevel f) (nth j (uniq keys) []) \/ ~ last_level_prefix keys (getSparseStartLevel f) ->
  (forall k, approxCount_it e f a b = Ok k -> exists xs,
     lists keys xs (fun x => klt l x /\ klt x (nth j (uniq keys) [])) /\ k = N.of_nat (length xs)) /\
  (room keys (getSparseStartLevel f) l (nth j (uniq keys) []) -> exists k, approxCount_it e f a b = Ok k).
Proof. exact count_iters. Qed.
Print Assumptions C26_count_iterators.

(** From ">= ab" to ">= dxa". *)
Example C26_count_iterators_ex : exists f a b j, create e0 c_none keys_c = Ok f /\ In [97; 98] keys_c /\
  moveToKeyGreaterThan e0 f [97; 98] true = Ok a /\ moveToKeyGreaterThan e0 f [100; 120; 97] true = Ok b /\
  gotten e0 f keys_c b /\ stands e0 c_none f keys_c b (Some j) /\ nth j (uniq keys_c) [] = [100; 120; 97] /\
  kle [97; 98] [100; 120; 97] /\ approxCount_it e0 f a b = Ok 4%N.
Proof.
  destruct (made e0 c_none keys_c 1 ltac:(vm_compute; reflexivity)) as (f & E & H). exists f.
  assert (FO : filter_of e0 c_none keys_c f) by (constructor; exact E).
  destruct (seek_stored e0 c_none keys_c f e0_machine c_none_settings keys_c_good keys_c_not_ff FO [97; 98] ltac:(apply inb_in; reflexivity))
    as (a & _ & EA & _).
  destruct (seek_stored e0 c_none keys_c f e0_machine c_none_settings keys_c_good keys_c_not_ff FO [100; 120; 97] ltac:(apply inb_in; reflexivity))
    as (b & j & EB & GB & SB & _ & EJ).
  exists a, b, j. split; [exact E|]. split; [apply inb_in; reflexivity|]. split; [exact EA|]. split; [exact EB|]. split; [exact GB|].
  split; [exact SB|]. split; [exact EJ|]. split; [left; apply kltb_ok; reflexivity|].
  assert (X : (f <- create e0 c_none keys_c ;; a <- moveToKeyGreaterThan e0 f [97; 98] true ;;
    b <- moveToKeyGreaterThan e0 f [100; 120; 97] true ;; approxCount_it e0 f a b) = Ok 4%N) by (vm_compute; reflexivity).
  unfold bind in X. rewrite E, EA, EB in X. exact X.
Qed.

(** Each condition is needed. *)

(** no dense levels: an access out of bounds *)
Theorem C26_no_dense_refuted : exists keys l r, good_keys keys /\ In l keys /\ In r keys /\ kle l r /\
  counted e0 c_nodense keys l r = Fail OutOfBounds.
Proof.
  exists keys_c, [97], [98; 51]. split; [exact keys_c_good|]. split; [apply inb_in; reflexivity|]. split; [apply inb_in; reflexivity|].
  split; [left; apply kltb_ok; reflexivity|vm_compute; reflexivity].
Qed.
(** keys "a", "ab", "b1", "b2", "cat": counting from "a" to "b2" is an access
    out of bounds, as no key after "b2" is as deep *)
Theorem C26_no_room_refuted : exists keys l r, good_keys keys /\ In l keys /\ In r keys /\ kle l r /\
  counted e0 c_none keys l r = Fail OutOfBounds.
Proof.
  exists keys1, [97], [98; 50]. split; [exact keys1_good|]. split; [apply inb_in; reflexivity|]. split; [apply inb_in; reflexivity|].
  split; [left; apply kltb_ok; reflexivity|vm_compute; reflexivity].
Qed.
(** a left end that is not stored: from "`" to "b3" there are 5 keys, and the
    answer is 2^32 + 2 *)
Theorem C26_left_not_stored_refuted : exists keys l r, good_keys keys /\ In r keys /\ kle l r /\ ~ In l keys /\ length keys = 8 /\
  counted e0 c_none keys l r = Ok 4294967298%N.
Proof.
  exists keys_c, [96], [98; 51]. split; [exact keys_c_good|]. split; [apply inb_in; reflexivity|].
  split; [left; apply kltb_ok; reflexivity|]. split; [intros I; apply in_inb in I; discriminate|]. split; [reflexivity|vm_compute; reflexivity].
Qed.
(** a left iterator that was stepped to, or that moveToFirst returned, instead of
    sought: from the first to the third of 8 keys the answer is 2^32, from the
    second to the third 2^32 - 1 *)
Theorem C26_left_not_sought_refuted : exists keys, good_keys keys /\ length keys = 8 /\
  counted_it e0 c_none keys 0 2 = Ok 4294967296%N /\ counted_it e0 c_none keys 1 2 = Ok 4294967295%N.
Proof. exists keys_c. split; [exact keys_c_good|]. split; [reflexivity|]. split; vm_compute; reflexivity. Qed.
(** two dense levels, no key below them: "b\210" and "c" are the last keys, and
    the answer for them is 2^32 - 1 *)
Theorem C26_last_level_prefix_refuted : exists keys l r, good_keys keys /\ In l keys /\ In r keys /\ kle l r /\ length keys = 422 /\
  counted e0 c_none1 keys l r = Ok 4294967295%N.
Proof.
  exists keys_w, [98; 210], [99]. split; [exact keys_w_good|]. split; [apply inb_in; vm_compute; reflexivity|].
  split; [apply inb_in; vm_compute; reflexivity|]. split; [left; apply kltb_ok; vm_compute; reflexivity|].
  split; [reflexivity|vm_compute; reflexivity].
Qed.
(** a byte 0 in the dense part: "`", "a\000" and "a\001" are three keys, and the
    answer is 0; "a\209" and "b" are neighbours, and the answer is 1 *)
Theorem C26_byte_zero_refuted : exists keys l m r l' r', good_keys keys /\ In l keys /\ In m keys /\ In r keys /\ klt l m /\ klt m r /\
  counted e0 c_none1 keys l r = Ok 0%N /\
  In l' keys /\ In r' keys /\ klt l' r' /\ (forall x, In x keys -> ~ (klt l' x /\ klt x r')) /\
  counted e0 c_none1 keys l' r' = Ok 1%N.
Proof.
  exists keys_0, [96], [97; 0], [97; 1], [97; 209], [98]. split; [exact keys_0_good|].
  do 3 (split; [apply inb_in; vm_compute; reflexivity|]). do 2 (split; [apply kltb_ok; vm_compute; reflexivity|]).
  split; [vm_compute; reflexivity|]. do 2 (split; [apply inb_in; vm_compute; reflexivity|]).
  split; [apply kltb_ok; vm_compute; reflexivity|]. split; [|vm_compute; reflexivity].
  apply (neighbours_check keys_0 [97; 209] [98]). vm_compute. reflexivity.
Qed.
(** a byte 255 in the dense part: keys "a", "b", "\255"; nothing lies between
    "b" and "\255", and the answer is 1 *)
Theorem C26_byte_ff_refuted : exists keys l r, good_keys keys /\ In l keys /\ In r keys /\ klt l r /\
  (forall x, In x keys -> ~ (klt l x /\ klt x r)) /\ counted e0 c_none keys l r = Ok 1%N.
Proof.
  exists [[97]; [98]; [255]], [98], [255]. split; [apply good_keysb_ok; vm_compute; reflexivity|]. do 2 (split; [apply inb_in; vm_compute; reflexivity|]).
  split; [apply kltb_ok; vm_compute; reflexivity|]. split; [|vm_compute; reflexivity].
  apply neighbours_check. vm_compute. reflexivity.
Qed.
Print Assumptions C26_no_dense_refuted.
Print Assumptions C26_no_room_refuted.
Print Assumptions C26_left_not_stored_refuted.
Print Assumptions C26_left_not_sought_refuted.
Print Assumptions C26_last_level_prefix_refuted.
Print Assumptions C26_byte_zero_refuted.
Print Assumptions C26_byte_ff_refuted.

(** Behind the last key there is nothing to count. *)
Theorem C26_count_past_end : forall e c keys f,
  machine e -> settings c -> good_keys keys -> ~ lone_ff keys -> filter_of e c keys f ->
  forall l r, is_bytes l -> ~ trap e c keys (getSparseStartLevel f) l ->
  (forall k d, In k keys -> dist_len keys k d -> klt k l /\ firstn d l <> firstn d k) ->
  approxCount e f l r = Ok 0%N.
Proof. exact count_past. Qed.
Theorem C26_count_invalid : forall e c keys f a b,
  stands e c f keys a None \/ stands e c f keys b None -> approxCount_it e f a b = Ok 0%N.
Proof. exact count_end. Qed.
Print Assumptions C26_count_past_end.
Print Assumptions C26_count_invalid.

(** From "z" on; and an iterator there. *)
Example C26_count_past_end_ex : exists f it, create e0 c_none keys_c = Ok f /\
  ~ trap e0 c_none keys_c (getSparseStartLevel f) [122] /\
  (forall k d, In k keys_c -> dist_len keys_c k d -> klt k [122] /\ firstn d [122] <> firstn d k) /\
  moveToKeyGreaterThan e0 f [122] true = Ok it /\ stands e0 c_none f keys_c it None.
Proof.
  destruct (made e0 c_none keys_c 1 ltac:(vm_compute; reflexivity)) as (f & E & H). exists f.
  assert (FO : filter_of e0 c_none keys_c f) by (constructor; exact E).
  assert (NT : ~ trap e0 c_none keys_c (getSparseStartLevel f) [122]) by (rewrite H; apply no_trap_check; reflexivity).
  assert (A : forall k d, In k keys_c -> dist_len keys_c k d -> klt k [122] /\ firstn d [122] <> firstn d k).
  { intros k d I (D & _). destruct d as [|d]; [lia|].
    assert (X : forallb (fun k => match k with b :: _ => b <? 122 | [] => false end) keys_c = true) by reflexivity.
    rewrite forallb_forall in X. specialize (X k I). destruct k as [|b k]; [discriminate|]. apply Nat.ltb_lt in X.
    split; [left; exact X|]. cbn [firstn]. intros Q. injection Q as Q _. lia. }
  destruct (RangeApi.seek_gt_place e0 c_none keys_c f e0_machine c_none_settings keys_c_good keys_c_not_ff FO [122] true
    ltac:(repeat constructor; lia) NT) as (it & p & EI & S & P).
  exists it. split; [exact E|]. split; [exact NT|]. split; [exact A|]. split; [exact EI|].
  destruct p as [i|]; [exfalso|exact S].
  apply stands_valid in S.
  assert (V : (f <- create e0 c_none keys_c ;; it <- moveToKeyGreaterThan e0 f [122] true ;; Ok (it_valid it)) = Ok false) by (vm_compute; reflexivity).
  rewrite E in V. cbv beta iota delta [bind] in V. rewrite EI, S in V. clear - V. discriminate V.
Qed.
