(** Filters of one distinct key that starts with byte 255: C49.  Only property
    theorems, examples and counterexamples. *)
From Coq Require Import Arith List NArith ZArith Bool Lia.
From Verif Require Import Res Config Builder Dense Sparse Surf Spec SpecApi SpecFilter LoneFacts Samples SamplesIter.
Import ListNotations.

(** ones behind the arrays, no assertions *)
Definition e_ones : env := mkEnv false false false (fun _ => 18446744073709551615%N) (fun _ _ => 255).

(** * C49 *)

(** One dense level, one empty sparse level. *)
Theorem C49_height : forall e c keys f, machine e -> settings c -> good_keys keys -> lone_ff keys -> filter_of e c keys f ->
  getHeight f = 2 /\ getSparseStartLevel f = 1.
Proof. exact lw_height. Qed.
Print Assumptions C49_height.

(** No key is found, *)
Theorem C49_lookup : forall e c keys f, machine e -> settings c -> good_keys keys -> lone_ff keys -> filter_of e c keys f ->
  forall q, is_bytes q -> q <> [] -> lookupKey e f q = Ok false.
Proof. exact lw_lookup. Qed.
Print Assumptions C49_lookup.

(** but the empty string can be. *)
Theorem C49_empty : forall e c keys f, machine e -> settings c -> good_keys keys -> lone_ff keys -> filter_of e c keys f ->
  exists b k, In k keys /\ lookupKey e f [] = Ok b /\ (b = true <-> admits c k [] 1).
Proof. exact lw_empty. Qed.
Print Assumptions C49_empty.

(** Every range is empty and has no keys in it, *)
Theorem C49_range : forall e c keys f, machine e -> settings c -> good_keys keys -> lone_ff keys -> filter_of e c keys f ->
  forall l li r ri, is_bytes l -> l <> [] -> lookupRange e f l li r ri = Ok false.
Proof. exact lw_range. Qed.
Print Assumptions C49_range.
Theorem C49_count : forall e c keys f, machine e -> settings c -> good_keys keys -> lone_ff keys -> filter_of e c keys f ->
  forall l r, is_bytes l -> l <> [] -> approxCount e f l r = Ok 0%N.
Proof. exact lw_count. Qed.
Print Assumptions C49_count.

(** and no key is at or above any bound. *)
Theorem C49_greater : forall e c keys f, machine e -> settings c -> good_keys keys -> lone_ff keys -> filter_of e c keys f ->
  forall q incl, is_bytes q -> q <> [] -> exists it, moveToKeyGreaterThan e f q incl = Ok it /\ it_valid it = false.
Proof. exact lw_greater. Qed.
Print Assumptions C49_greater.

(** moveToLast and moveToKeyLessThan show the key "\000", which is not stored;
    it is the only one. *)
Theorem C49_last : forall e c keys f, machine e -> settings c -> good_keys keys -> lone_ff keys -> filter_of e c keys f ->
  exists it, moveToLast e f = Ok it /\ it_valid it = true /\ it_getKey it = Ok [0] /\
  (exists it', it_next e f it = Ok (false, it') /\ it_valid it' = false) /\
  (exists it', it_prev e f it = Ok (false, it') /\ it_valid it' = false).
Proof. exact lw_last. Qed.
Print Assumptions C49_last.
Theorem C49_less : forall e c keys f, machine e -> settings c -> good_keys keys -> lone_ff keys -> filter_of e c keys f ->
  forall q incl, is_bytes q -> q <> [] -> exists it, moveToKeyLessThan e f q incl = Ok it /\ it_valid it = true /\ it_getKey it = Ok [0] /\
  (exists it', it_next e f it = Ok (false, it') /\ it_valid it' = false) /\
  (exists it', it_prev e f it = Ok (false, it') /\ it_valid it' = false).
Proof. exact lw_less. Qed.
Print Assumptions C49_less.

(** moveToFirst shows a key that starts with byte 0, if it shows one; *)
Theorem C49_first : forall e c keys f, machine e -> settings c -> good_keys keys -> lone_ff keys -> filter_of e c keys f ->
  forall it k, moveToFirst e f = Ok it -> it_valid it = true -> it_getKey it = Ok k -> exists t, k = 0 :: t.
Proof. exact lw_first. Qed.
Print Assumptions C49_first.

Example C49_ex : good_keys keys_ff /\ lone_ff keys_ff /\ settings c_none /\ machine e0 /\ (exists f, create e0 c_none keys_ff = Ok f) /\
  (f <- create e0 c_none keys_ff ;; lookupKey e0 f []) = Ok true /\ (f <- create e0 c_none keys_ff ;; lookupKey e0 f [255; 1]) = Ok false /\
  (f <- create e0 c_none keys_ff ;; it <- moveToFirst e0 f ;; it_getKey it) = Ok [0].
Proof.
  split; [exact keys_ff_good|]. split; [exists [1]; split; [left; reflexivity|intros k [<-|[<-|[]]]; reflexivity]|].
  split; [exact c_none_settings|]. split; [exact e0_machine|]. split; [eexists; vm_compute; reflexivity|].
  split; [vm_compute; reflexivity|]. split; vm_compute; reflexivity.
Qed.

(** it depends on the word behind a bitmap, and can be an access out of bounds. *)
Theorem C49_first_refuted : exists keys, good_keys keys /\ lone_ff keys /\ machine e0 /\ machine e_ones /\
  (f <- create e0 c_none keys ;; it <- moveToFirst e0 f ;; it_getKey it) = Ok [0] /\
  (f <- create e_ones c_none keys ;; moveToFirst e_ones f) = Fail OutOfBounds.
Proof.
  exists keys_ff. split; [exact keys_ff_good|]. split; [exists [1]; split; [left; reflexivity|intros k [<-|[<-|[]]]; reflexivity]|].
  split; [exact e0_machine|]. split; [split; reflexivity|]. split; vm_compute; reflexivity.
Qed.
Print Assumptions C49_first_refuted.
