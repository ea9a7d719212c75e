(** approxCount of LoudsSparse and LoudsDense used alone, as their unit tests
    do: C48.  Only property theorems, examples and counterexamples. *)
From Coq Require Import Arith List NArith ZArith Bool Lia.
From Verif Require Import Res Config Builder Dense Sparse Surf Spec SpecApi SpecIter SpecRange SpecBare SpecTrie SpecAlone SpecDAlone
  SpecCount SpecCountAlone CountAlone Samples SamplesIter SamplesRange SamplesCount.
Import ListNotations.

Definition c_all : config := mkCfg true 0 kNone 0 0.

(** seeks for two keys, and the count between *)
Definition s_counted (keys : list bytes) (l r : bytes) : res N :=
  b <- build e0 c_nodense keys ;; s <- sparse_make e0 b ;;
  '(_, x) <- s_moveToKeyGreaterThan e0 s l true (siter_new s) ;; '(_, y) <- s_moveToKeyGreaterThan e0 s r true (siter_new s) ;;
  s_approxCount e0 s x y (Some 0) (Some 0).
Definition d_counted (keys : list bytes) (l r : bytes) : res N :=
  b <- build e0 c_all keys ;; d <- dense_make e0 b ;;
  '(_, x) <- d_moveToKeyGreaterThan e0 d l true (diter_new d) ;; '(_, y) <- d_moveToKeyGreaterThan e0 d r true (diter_new d) ;;
  '(n, _, _) <- d_approxCount e0 d x y ;; Ok n.

(** * C48 *)

(** A seek for a stored key shows that key, *)
Theorem C48_sparse_seek : forall e c keys, good_keys keys -> machine e -> forall s, sparse_settings c -> two_keys keys -> s_part e c keys s ->
  forall q, In q keys -> exists fp it i, s_moveToKeyGreaterThan e s q true (siter_new s) = Ok (fp, it) /\
  s_shows e c s keys it i /\ nth i (uniq keys) [] = q.
Proof. exact sw_sought. Qed.
Print Assumptions C48_sparse_seek.

(** and between two iterators that show keys LoudsSparse counts exactly, however
    they got there; it does not fault if the second leaves room. *)
Theorem C48_sparse_count : forall e c keys, good_keys keys -> machine e -> forall s, sparse_settings c -> two_keys keys -> s_part e c keys s ->
  forall a i b j, s_shows e c s keys a i -> s_shows e c s keys b j -> i <= j ->
  (forall k, s_approxCount e s a b (Some 0) (Some 0) = Ok k -> exists xs,
     lists keys xs (fun x => klt (nth i (uniq keys) []) x /\ klt x (nth j (uniq keys) [])) /\ k = N.of_nat (length xs)) /\
  (room keys 0 (nth i (uniq keys) []) (nth j (uniq keys) []) -> exists k, s_approxCount e s a b (Some 0) (Some 0) = Ok k).
Proof. exact sw_count. Qed.
Print Assumptions C48_sparse_count.

(** From "ab" to "cat" there are "b1", "b2" and "b3"; "dxa" goes deeper than all
    keys up to "cat". *)
Example C48_sparse_ex : good_keys keys_c /\ machine e0 /\ sparse_settings c_nodense /\ two_keys keys_c /\
  (exists s, alone e0 c_nodense keys_c s) /\ In [97; 98] keys_c /\ In [99; 97; 116] keys_c /\
  room keys_c 0 [97; 98] [99; 97; 116] /\ s_counted keys_c [97; 98] [99; 97; 116] = Ok 3%N.
Proof.
  split; [exact keys_c_good|]. split; [exact e0_machine|]. split; [split; [reflexivity|]; split; [cbn; lia|exact I]|].
  split; [exists [97], [97; 98]; split; [apply inb_in; reflexivity|]; split; [apply inb_in; reflexivity|discriminate]|].
  split; [eexists; vm_compute; reflexivity|]. split; [apply inb_in; reflexivity|]. split; [apply inb_in; reflexivity|].
  split; [|vm_compute; reflexivity]. right. exists 2, [99; 97; 116], [100; 120; 97], 3. split; [lia|].
  split; [apply inb_in; reflexivity|]. split; [right; reflexivity|]. split; [apply inb_in; reflexivity|].
  split; [apply kltb_ok; reflexivity|]. split; [apply dist_len_check; reflexivity|]. split; [lia|].
  intros x dx H _ LE. cbn [keys_c In] in H.
  repeat (destruct H as [H|H]; [subst x; first [apply tells_bound; [auto|reflexivity]
    |exfalso; destruct LE as [LE|LE]; [apply klt_kltb in LE; discriminate|discriminate]]|]). contradiction.
Qed.

(** Up to the last key there is no room: an access out of bounds. *)
Theorem C48_sparse_room_refuted : exists keys l r, good_keys keys /\ two_keys keys /\ In l keys /\ In r keys /\ klt l r /\
  s_counted keys l r = Fail OutOfBounds.
Proof.
  exists keys_c, [97; 98], [100; 120; 98]. split; [exact keys_c_good|].
  split; [exists [97], [97; 98]; split; [apply inb_in; reflexivity|]; split; [apply inb_in; reflexivity|discriminate]|].
  split; [apply inb_in; reflexivity|]. split; [apply inb_in; reflexivity|]. split; [apply kltb_ok; reflexivity|vm_compute; reflexivity].
Qed.
Print Assumptions C48_sparse_room_refuted.

(** The same for LoudsDense, which needs no room, but *)
Theorem C48_dense_seek : forall e c keys, good_keys keys -> machine e -> forall d, dense_settings c -> ~ lone_ff keys -> d_part e c keys d ->
  forall q, In q keys -> exists fp it i, d_moveToKeyGreaterThan e d q true (diter_new d) = Ok (fp, it) /\
  d_shows e c d keys it i /\ nth i (uniq keys) [] = q.
Proof. exact dw_sought. Qed.
Print Assumptions C48_dense_seek.

(** no byte 0 or 255 in the stored part of a key, and no key of all but one of
    the levels that is a prefix of another. *)
Theorem C48_dense_count : forall e c keys, good_keys keys -> machine e -> forall d, dense_settings c -> ~ lone_ff keys -> d_part e c keys d ->
  forall a i b j, d_shows e c d keys a i -> d_shows e c d keys b j -> i <= j -> plain_top keys (d_height d - 1) ->
  reaches keys (d_height d - 1) (nth j (uniq keys) []) \/ ~ last_level_prefix keys (d_height d - 1) -> exists xs,
  lists keys xs (fun x => klt (nth i (uniq keys) []) x /\ klt x (nth j (uniq keys) [])) /\
  d_approxCount e d a b = Ok (N.of_nat (length xs), None, None).
Proof. exact dw_count. Qed.
Print Assumptions C48_dense_count.

(** Three levels with keys and an empty one. *)
Example C48_dense_ex : exists d, good_keys keys_c /\ machine e0 /\ dense_settings c_all /\ ~ lone_ff keys_c /\
  d_alone e0 c_all keys_c d /\ d_height d = 4 /\ plain_top keys_c 3 /\ reaches keys_c 3 [100; 120; 98] /\
  d_counted keys_c [97; 98] [100; 120; 98] = Ok 5%N.
Proof.
  destruct (b <- build e0 c_all keys_c ;; dense_make e0 b) as [d|] eqn:E; [|vm_compute in E; discriminate]. exists d.
  split; [exact keys_c_good|]. split; [exact e0_machine|]. split; [split; [reflexivity|]; split; [reflexivity|]; split; [cbn; lia|exact I]|].
  split; [exact keys_c_not_ff|]. split; [exact E|]. split; [vm_compute in E; injection E as <-; reflexivity|].
  split; [apply plain_check; reflexivity|]. split; [|vm_compute; reflexivity].
  exists [100; 120; 98], 3. split; [apply inb_in; reflexivity|]. split; [left; right; reflexivity|]. split; [apply dist_len_check; reflexivity|lia].
Qed.

(** "a", "b", "\255": from "b" to "\255" the answer is 1 *)
Theorem C48_dense_last_byte_refuted : exists keys l r, good_keys keys /\ In l keys /\ In r keys /\
  (forall x, In x keys -> ~ (klt l x /\ klt x r)) /\ d_counted keys l r = Ok 1%N.
Proof.
  exists [[97]; [98]; [255]], [98], [255]. split; [apply good_keysb_ok; reflexivity|]. split; [apply inb_in; reflexivity|].
  split; [apply inb_in; reflexivity|]. split; [apply neighbours_check; reflexivity|vm_compute; reflexivity].
Qed.
(** "`", "a\000", "a\001", "b": from "`" to "b" the answer is 1 *)
Theorem C48_dense_zero_byte_refuted : exists keys l r, good_keys keys /\ In l keys /\ In r keys /\
  lists keys [[97; 0]; [97; 1]] (fun x => klt l x /\ klt x r) /\ d_counted keys l r = Ok 1%N.
Proof.
  exists [[96]; [97; 0]; [97; 1]; [98]], [96], [98]. split; [apply good_keysb_ok; reflexivity|]. split; [apply inb_in; reflexivity|].
  split; [apply inb_in; reflexivity|]. split; [|vm_compute; reflexivity].
  split; [constructor; [intros [X|[]]; discriminate|constructor; [intros []|constructor]]|]. intros x. split.
  - intros [<-|[<-|[]]]; (split; [apply inb_in; reflexivity|split; apply kltb_ok; reflexivity]).
  - intros [H [A B]]. apply klt_kltb in A, B. destruct H as [<-|[<-|[<-|[<-|[]]]]]; try discriminate; cbn; auto.
Qed.
(** "a", "a\001", "b", "c": from "a" to "c" the answer is 1 *)
Theorem C48_dense_prefix_refuted : exists keys l r, good_keys keys /\ In l keys /\ In r keys /\
  lists keys [[97; 1]; [98]] (fun x => klt l x /\ klt x r) /\ d_counted keys l r = Ok 1%N.
Proof.
  exists [[97]; [97; 1]; [98]; [99]], [97], [99]. split; [apply good_keysb_ok; reflexivity|]. split; [apply inb_in; reflexivity|].
  split; [apply inb_in; reflexivity|]. split; [|vm_compute; reflexivity].
  split; [constructor; [intros [X|[]]; discriminate|constructor; [intros []|constructor]]|]. intros x. split.
  - intros [<-|[<-|[]]]; (split; [apply inb_in; reflexivity|split; apply kltb_ok; reflexivity]).
  - intros [H [A B]]. apply klt_kltb in A, B. destruct H as [<-|[<-|[<-|[<-|[]]]]]; try discriminate; cbn; auto.
Qed.
