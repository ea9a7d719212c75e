(** approxCount from a key of the greatest depth: C26, C48.  Only property theorems
    and examples. *)
From Coq Require Import Arith List NArith Bool Lia.
From Verif Require Import Res Config Builder Dense Sparse Surf Spec SpecApi SpecFilter SpecIter SpecRange SpecCount SpecBare SpecAlone SpecCountAlone PointFacts CountApi CountFault
  Samples SamplesIter SamplesRange SamplesCount.
Import ListNotations.

(** Where the memory behind an array is zero, approxCount from a key whose
    distinguishing prefix is the longest of all to a later key that reaches the
    sparse levels never returns. *)
Theorem C26_deepest_faults : forall e c keys f,
  machine e -> (forall ws, junk e ws = 0%N) -> settings c -> good_keys keys -> ~ lone_ff keys -> filter_of e c keys f ->
  forall l r d dr, In l keys -> In r keys -> klt l r -> dist_len keys l d -> (forall k d', In k keys -> dist_len keys k d' -> d' <= d) ->
  dist_len keys r dr -> getSparseStartLevel f < dr ->
  forall m, approxCount e f l r <> Ok m.
Proof. exact count_deepest. Qed.
Print Assumptions C26_deepest_faults.

Definition keys_df : list bytes := [[97; 120; 99; 97]; [97; 120; 99; 98]; [98; 120; 97]; [98; 120; 98]; [99]].
(** "axca" and "bxa" among "axca", "axcb", "bxa", "bxb", "c". *)
Example C26_deepest_faults_ex :
  machine e0 /\ (forall ws, junk e0 ws = 0%N) /\ settings c_none /\ good_keys keys_df /\ ~ lone_ff keys_df /\
  klt [97; 120; 99; 97] [98; 120; 97] /\ dist_len keys_df [97; 120; 99; 97] 4 /\
  (forall k d', In k keys_df -> dist_len keys_df k d' -> d' <= 4) /\ dist_len keys_df [98; 120; 97] 3 /\
  (exists f, create e0 c_none keys_df = Ok f /\ getSparseStartLevel f = 1) /\
  counted e0 c_none keys_df [97; 120; 99; 97] [98; 120; 97] = Fail OutOfBounds.
Proof.
  split; [split; reflexivity|]. split; [reflexivity|]. split; [exact c_none_settings|]. split; [apply good_keysb_ok; vm_compute; reflexivity|].
  split; [intros (k & _ & H); specialize (H [99] ltac:(apply inb_in; reflexivity)) as H1; specialize (H [98; 120; 97] ltac:(apply inb_in; reflexivity)) as H2; congruence|].
  split; [apply kltb_ok; reflexivity|]. split; [apply dist_len_check; reflexivity|].
  split.
  { intros k d' I D. repeat (destruct I as [<-|I];
      [first [rewrite (dist_fun _ _ _ 1 D); [lia|apply dist_len_check; reflexivity]
             |rewrite (dist_fun _ _ _ 3 D); [lia|apply dist_len_check; reflexivity]
             |rewrite (dist_fun _ _ _ 4 D); [lia|apply dist_len_check; reflexivity]]|]). destruct I. }
  split; [apply dist_len_check; reflexivity|].
  split; [|vm_compute; reflexivity]. apply made. vm_compute. reflexivity.
Qed.

(** The same for two iterators, wherever they come from. *)
Theorem C26_deepest_iterators_fault : forall e c keys f,
  machine e -> (forall ws, junk e ws = 0%N) -> settings c -> good_keys keys -> ~ lone_ff keys -> filter_of e c keys f ->
  forall a i b j d dr, gotten e f keys a -> stands e c f keys a (Some i) -> gotten e f keys b -> stands e c f keys b (Some j) ->
  i < j -> j < length (uniq keys) -> dist_len keys (nth i (uniq keys) []) d -> (forall k d', In k keys -> dist_len keys k d' -> d' <= d) ->
  dist_len keys (nth j (uniq keys) []) dr -> getSparseStartLevel f < dr ->
  forall m, approxCount_it e f a b <> Ok m.
Proof. exact iters_deepest. Qed.
Print Assumptions C26_deepest_iterators_fault.

(** From the first key to ">= bxa". *)
Example C26_deepest_iterators_fault_ex : exists f a b j, create e0 c_none keys_df = Ok f /\
  gotten e0 f keys_df a /\ moveToFirst e0 f = Ok a /\ nth 0 (uniq keys_df) [] = [97; 120; 99; 97] /\
  gotten e0 f keys_df b /\ stands e0 c_none f keys_df b (Some j) /\ nth j (uniq keys_df) [] = [98; 120; 97] /\
  approxCount_it e0 f a b = Fail OutOfBounds.
Proof.
  destruct (made e0 c_none keys_df 1 ltac:(vm_compute; reflexivity)) as (f & E & H). exists f.
  assert (FO : filter_of e0 c_none keys_df f) by (constructor; exact E).
  assert (KG : good_keys keys_df) by (apply good_keysb_ok; reflexivity).
  assert (KF : ~ lone_ff keys_df).
  { intros (k & _ & G). specialize (G [99] ltac:(apply inb_in; reflexivity)) as H1. specialize (G [98; 120; 97] ltac:(apply inb_in; reflexivity)) as H2. congruence. }
  destruct (seek_stored e0 c_none keys_df f e0_machine c_none_settings KG KF FO [98; 120; 97] ltac:(apply inb_in; reflexivity))
    as (b & j & EB & GB & SB & _ & EJ).
  assert (X : (f <- create e0 c_none keys_df ;; a <- moveToFirst e0 f ;;
    b <- moveToKeyGreaterThan e0 f [98; 120; 97] true ;; approxCount_it e0 f a b) = Fail OutOfBounds) by (vm_compute; reflexivity).
  assert (A : exists a, moveToFirst e0 f = Ok a).
  { assert (Y : exists a, (f <- create e0 c_none keys_df ;; moveToFirst e0 f) = Ok a) by (eexists; vm_compute; reflexivity).
    rewrite E in Y. exact Y. }
  destruct A as (a & EA). unfold bind in X. rewrite E, EA, EB in X.
  exists a, b, j. split; [exact E|]. split; [apply got_first; exact EA|]. split; [exact EA|]. split; [reflexivity|].
  do 3 (split; [assumption|]). exact X.
Qed.

(** The same for LoudsSparse alone, and any later key. *)
Theorem C48_sparse_deepest_faults : forall e c keys, good_keys keys -> machine e -> (forall ws, junk e ws = 0%N) ->
  forall s, sparse_settings c -> two_keys keys -> s_part e c keys s ->
  forall a i b j d, s_shows e c s keys a i -> s_shows e c s keys b j -> i < j -> dist_len keys (nth i (uniq keys) []) d ->
  (forall k d', In k keys -> dist_len keys k d' -> d' <= d) ->
  forall m, s_approxCount e s a b (Some 0) (Some 0) <> Ok m.
Proof. exact alone_deepest. Qed.
Print Assumptions C48_sparse_deepest_faults.

(** From "axca" to "c", the first and the last of the keys above. *)
Example C48_sparse_deepest_faults_ex : exists s x y, good_keys keys_df /\ machine e0 /\ (forall ws, junk e0 ws = 0%N) /\
  sparse_settings c_nodense /\ two_keys keys_df /\ alone e0 c_nodense keys_df s /\
  s_first e0 s = Ok x /\ s_last e0 s = Ok y /\
  nth 0 (uniq keys_df) [] = [97; 120; 99; 97] /\ nth 4 (uniq keys_df) [] = [99] /\ dist_len keys_df [97; 120; 99; 97] 4 /\
  s_approxCount e0 s x y (Some 0) (Some 0) = Fail OutOfBounds.
Proof.
  destruct (b <- build e0 c_nodense keys_df ;; sparse_make e0 b) as [s|] eqn:E; [|vm_compute in E; discriminate].
  destruct (s_first e0 s) as [x|] eqn:X; [|vm_compute in E; injection E as <-; vm_compute in X; discriminate].
  destruct (s_last e0 s) as [y|] eqn:Y; [|vm_compute in E; injection E as <-; vm_compute in Y; discriminate].
  exists s, x, y. split; [apply good_keysb_ok; reflexivity|]. split; [split; reflexivity|]. split; [reflexivity|].
  split; [split; [reflexivity|]; split; [cbn; lia|exact I]|].
  split; [exists [99], [98; 120; 97]; split; [apply inb_in; reflexivity|]; split; [apply inb_in; reflexivity|discriminate]|].
  split; [exact E|]. split; [exact X|]. split; [exact Y|]. split; [reflexivity|]. split; [reflexivity|]. split; [apply dist_len_check; reflexivity|].
  vm_compute in E. injection E as <-. vm_compute in X, Y. injection X as <-. injection Y as <-. vm_compute. reflexivity.
Qed.
