(** approxCount from right to left: C50.  Only property theorems, examples and
    counterexamples. *)
From Coq Require Import Arith List NArith Bool Lia.
From Verif Require Import Res Config Builder Dense Sparse Surf Spec SpecApi SpecFilter SpecIter SpecRange SpecCount CountApi BackApi Samples SamplesIter SamplesRange SamplesCount.
Import ListNotations.

(** Iterators from anywhere. *)
Theorem C50_iterators : forall e c keys f,
  machine e -> settings c -> good_keys keys -> ~ lone_ff keys -> filter_of e c keys f -> plain_top keys (getSparseStartLevel f) ->
  forall a i b j, gotten e f keys a -> stands e c f keys a (Some i) ->
  gotten e f keys b -> stands e c f keys b (Some j) -> i < length (uniq keys) -> j <= i ->
  (forall k, approxCount_it e f a b = Ok k -> k = 0%N) /\
  (room keys (getSparseStartLevel f) (nth j (uniq keys) []) (nth i (uniq keys) []) -> approxCount_it e f a b = Ok 0%N).
Proof. exact back_iters. Qed.
Print Assumptions C50_iterators.

(** From ">= dxa" to ">= ab". *)
Example C50_iterators_ex : exists f a i b j, create e0 c_none keys_c = Ok f /\
  gotten e0 f keys_c a /\ stands e0 c_none f keys_c a (Some i) /\ nth i (uniq keys_c) [] = [100; 120; 97] /\
  gotten e0 f keys_c b /\ stands e0 c_none f keys_c b (Some j) /\ nth j (uniq keys_c) [] = [97; 98] /\
  approxCount_it e0 f a b = Ok 0%N.
Proof.
  destruct (made e0 c_none keys_c 1 ltac:(vm_compute; reflexivity)) as (f & E & H). exists f.
  assert (FO : filter_of e0 c_none keys_c f) by (constructor; exact E).
  destruct (seek_stored e0 c_none keys_c f e0_machine c_none_settings keys_c_good keys_c_not_ff FO [100; 120; 97] ltac:(apply inb_in; reflexivity))
    as (a & i & EA & GA & SA & _ & EI).
  destruct (seek_stored e0 c_none keys_c f e0_machine c_none_settings keys_c_good keys_c_not_ff FO [97; 98] ltac:(apply inb_in; reflexivity))
    as (b & j & EB & GB & SB & _ & EJ).
  exists a, i, b, j. split; [exact E|]. do 6 (split; [assumption|]).
  assert (X : (f <- create e0 c_none keys_c ;; a <- moveToKeyGreaterThan e0 f [100; 120; 97] true ;;
    b <- moveToKeyGreaterThan e0 f [97; 98] true ;; approxCount_it e0 f a b) = Ok 0%N) by (vm_compute; reflexivity).
  unfold bind in X. rewrite E, EA, EB in X. exact X.
Qed.

(** Two strings in the wrong order with a stored key between them. *)
Theorem C50_keys : forall e c keys f,
  machine e -> settings c -> good_keys keys -> ~ lone_ff keys -> filter_of e c keys f -> plain_top keys (getSparseStartLevel f) ->
  forall l r, is_bytes l -> is_bytes r ->
  ~ trap e c keys (getSparseStartLevel f) l -> ~ trap e c keys (getSparseStartLevel f) r ->
  (exists k, In k keys /\ kle r k /\ kle k l) ->
  (forall k, approxCount e f l r = Ok k -> k = 0%N) /\
  (forall k0, In k0 keys -> kle k0 r -> room keys (getSparseStartLevel f) k0 l -> approxCount e f l r = Ok 0%N).
Proof. exact back_keys. Qed.
Print Assumptions C50_keys.

(** From "c" to "b": "b1", "b2" and "b3" lie between. *)
Example C50_keys_ex : exists f, create e0 c_none keys_c = Ok f /\ ~ In [99] keys_c /\ ~ In [98] keys_c /\
  ~ trap e0 c_none keys_c (getSparseStartLevel f) [99] /\ ~ trap e0 c_none keys_c (getSparseStartLevel f) [98] /\
  plain_top keys_c (getSparseStartLevel f) /\
  (exists k, In k keys_c /\ kle [98] k /\ kle k [99]) /\
  In [97] keys_c /\ kle [97] [98] /\ room keys_c (getSparseStartLevel f) [97] [99] /\
  approxCount e0 f [99] [98] = Ok 0%N.
Proof.
  destruct (made e0 c_none keys_c 1 ltac:(vm_compute; reflexivity)) as (f & E & H). exists f. split; [exact E|]. rewrite H.
  split; [intros I; apply in_inb in I; discriminate|]. split; [intros I; apply in_inb in I; discriminate|].
  split; [apply no_trap_check; reflexivity|]. split; [apply no_trap_check; reflexivity|]. split; [apply plain_check; reflexivity|].
  split; [exists [98; 49]; split; [apply inb_in; reflexivity|]; split; left; apply kltb_ok; reflexivity|].
  split; [apply inb_in; reflexivity|]. split; [left; apply kltb_ok; reflexivity|]. split.
  - right. exists 2, [99; 97; 116], [100; 120; 97], 3. split; [auto|]. split; [apply inb_in; reflexivity|].
    split; [left; apply kltb_ok; reflexivity|]. split; [apply inb_in; reflexivity|]. split; [apply kltb_ok; reflexivity|].
    split; [apply dist_len_check; reflexivity|]. split; [auto|].
    intros x dx I _ Hi. cbn in I.
    repeat (destruct I as [I|I]; [subst x; apply tells_bound; [auto|reflexivity]|]).
    destruct I as [I|[I|[]]]; subst x; exfalso; clear - Hi; (destruct Hi as [Hi|Hi]; cbn in Hi; [lia|discriminate]).
  - assert (X : counted e0 c_none keys_c [99] [98] = Ok 0%N) by (vm_compute; reflexivity).
    unfold counted, bind in X. rewrite E in X. exact X.
Qed.

(** Without room: from "b2" back to "a" the call reads out of bounds. *)
Theorem C50_no_room_refuted : exists keys l r, good_keys keys /\ In l keys /\ In r keys /\ klt r l /\
  counted e0 c_none keys l r = Fail OutOfBounds.
Proof.
  exists keys1, [98; 50], [97]. split; [exact keys1_good|]. split; [apply inb_in; reflexivity|]. split; [apply inb_in; reflexivity|].
  split; [apply kltb_ok; reflexivity|vm_compute; reflexivity].
Qed.
(** A misled seek: nothing lies between "\002\255\255\001\001" and the smaller
    "\001\255", and the answer is 1. *)
Theorem C50_trap_refuted : exists keys l r, good_keys keys /\ In l keys /\ is_bytes r /\ klt r l /\
  counted e0 c_none keys l r = Ok 1%N.
Proof.
  exists [[0];[0;0];[0;0;0];[0;0;255];[0;255];[0;255;255;1];[1];[1;0;0];[1;0;0;0];[2;255;255;1;1];[255];[255;0];[255;0;0;0];[255;0;0;1]],
    [2; 255; 255; 1; 1], [1; 255].
  split; [apply good_keysb_ok; vm_compute; reflexivity|]. split; [apply inb_in; vm_compute; reflexivity|].
  split; [repeat constructor; lia|]. split; [apply kltb_ok; reflexivity|vm_compute; reflexivity].
Qed.
Print Assumptions C50_no_room_refuted.
Print Assumptions C50_trap_refuted.
