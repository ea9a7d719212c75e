(** LoudsDense used alone over all levels, as its unit tests do: C47.  Only
    property theorems, examples and counterexamples. *)
From Coq Require Import Arith List NArith ZArith Bool Lia.
From Verif Require Import Res Config Builder Dense Surf Spec SpecApi SpecIter SpecRange SpecTrie SpecDAlone DAloneFacts
  Samples SamplesIter SamplesRange.
Import ListNotations.

Ltac bytes_ok := repeat (apply Forall_cons; [lia|]); apply Forall_nil.

Definition c_all : config := mkCfg true 0 kNone 0 0.
Definition c_all_real : config := mkCfg true 0 kReal 0 8.
Definition c_all_real16 : config := mkCfg true 0 kReal 0 16.

Definition on_dense {A} (c : config) (keys : list bytes) (k : dense -> res A) : res A :=
  b <- build e0 c keys ;; d <- dense_make e0 b ;; k d.

Lemma c_all_ok : dense_settings c_all.
Proof. split; [reflexivity|]. split; [reflexivity|]. split; [cbn; lia|exact I]. Qed.
Lemma c_all_real_ok : dense_settings c_all_real.
Proof. split; [reflexivity|]. split; [reflexivity|]. split; cbn; lia. Qed.
Lemma keys1_no_ff : ~ lone_ff keys1.
Proof. intros (k & H & _). apply in_inb in H. discriminate. Qed.

(** * C47 *)

(** It can be built, with any suffix. *)
Theorem C47_create : forall keys, good_keys keys -> forall e c, machine e -> dense_settings c -> told_apart keys 8388607 ->
  exists d, d_alone e c keys d.
Proof. exact d_alone_create. Qed.
Print Assumptions C47_create.

(** It has all levels: one more than the longest distinguishing prefix. *)
Theorem C47_height : forall keys, good_keys keys -> forall e c, machine e -> dense_settings c -> forall d, d_part e c keys d ->
  (forall k x, In k keys -> dist_len keys k x -> x < d_height d) /\
  (exists k x, In k keys /\ dist_len keys k x /\ d_height d = S x).
Proof. exact d_alone_height. Qed.
Print Assumptions C47_height.

(** A filter with these settings cannot be created (C29), this part of it can. *)
Example C47_create_ex : exists d, good_keys keys1 /\ dense_settings c_all_real /\ told_apart keys1 8388607 /\
  d_alone e0 c_all_real keys1 d /\ d_height d = 3 /\ (exists x, create e0 c_all_real keys1 = Fail x).
Proof.
  destruct (b <- build e0 c_all_real keys1 ;; dense_make e0 b) as [d|] eqn:E; [|vm_compute in E; discriminate]. exists d.
  split; [exact keys1_good|]. split; [exact c_all_real_ok|].
  split; [eapply SizeFacts.told_mono; [apply (PointFacts.told_len keys1 keys1_good)|vm_compute; discriminate]|].
  split; [exact E|]. split; [vm_compute in E; injection E as <-; reflexivity|]. eexists. vm_compute. reflexivity.
Qed.

(** lookupKey finds every stored key, *)
Theorem C47_stored_found : forall e c keys d, good_keys keys -> machine e -> dense_settings c -> ~ lone_ff keys -> d_part e c keys d ->
  forall k, In k keys -> d_lookupKey e d k = Ok (true, 0).
Proof. exact dw_stored. Qed.
Print Assumptions C47_stored_found.

(** answers true to a string that extends the distinguishing prefix of a key
    exactly if the suffix of that key admits it, *)
Theorem C47_admits : forall e c keys d, good_keys keys -> machine e -> dense_settings c -> ~ lone_ff keys -> d_part e c keys d ->
  forall k q x, In k keys -> is_bytes q -> dist_len keys k x -> firstn x q = firstn x k ->
  exists b, d_lookupKey e d q = Ok (b, 0) /\ (b = true <-> admits c k q x).
Proof. exact dw_admits. Qed.
Print Assumptions C47_admits.

(** and false to any other string.  The second result, the node to go on from
    in the sparse levels, is always 0. *)
Theorem C47_rejects : forall e c keys d, good_keys keys -> machine e -> dense_settings c -> ~ lone_ff keys -> d_part e c keys d ->
  forall q, is_bytes q -> (forall k x, In k keys -> dist_len keys k x -> firstn x q <> firstn x k) -> d_lookupKey e d q = Ok (false, 0).
Proof. exact dw_rejects. Qed.
Print Assumptions C47_rejects.

(** "cat" is kept as "c" and the suffix "a": "can" is taken for it, "cut" is
    not, "d" does not extend any prefix. *)
Example C47_lookup_ex : good_keys keys1 /\ machine e0 /\ dense_settings c_all_real /\ ~ lone_ff keys1 /\
  (exists d, d_alone e0 c_all_real keys1 d) /\
  map (fun q => on_dense c_all_real keys1 (fun d => d_lookupKey e0 d q)) [[99; 97; 116]; [99; 97; 110]; [99; 117; 116]; [100]] =
    [Ok (true, 0); Ok (true, 0); Ok (false, 0); Ok (false, 0)].
Proof.
  split; [exact keys1_good|]. split; [exact e0_machine|]. split; [exact c_all_real_ok|]. split; [exact keys1_no_ff|].
  split; [eexists; vm_compute; reflexivity|vm_compute; reflexivity].
Qed.

(** one key, first byte 255: it is not found *)
Theorem C47_lone_ff_refuted : exists keys k, good_keys keys /\ In k keys /\
  on_dense c_all keys (fun d => d_lookupKey e0 d k) = Ok (false, 0).
Proof.
  exists [[255; 98]], [255; 98]. split; [apply good_keysb_ok; reflexivity|]. split; [left; reflexivity|vm_compute; reflexivity].
Qed.
Print Assumptions C47_lone_ff_refuted.

(** A seek finds its place; the iterator then is complete, steps on, shows and
    compares its keys as it should, and is invalid off the ends, at a stuck
    place and if there is no place. *)
Theorem C47_seek : forall e c keys d, good_keys keys -> machine e -> dense_settings c -> ~ lone_ff keys -> d_part e c keys d ->
  forall q incl, is_bytes q -> ~ d_trap e c keys q -> exists fp it p,
  d_moveToKeyGreaterThan e d q incl (diter_new d) = Ok (fp, it) /\ gt_place c keys (d_height d) q incl fp p /\
  match p with Some i => d_stands e c d keys it i | None => di_valid it = false end.
Proof. exact dw_seek. Qed.
Print Assumptions C47_seek.

(** From the first and the last label in the root it gets to the first and the
    last key. *)
Theorem C47_ends : forall e c keys d, good_keys keys -> machine e -> dense_settings c -> ~ lone_ff keys -> d_part e c keys d ->
  (exists it, d_first e d = Ok it /\ d_stands e c d keys it 0) /\
  (exists it, d_last e d = Ok it /\ d_stands e c d keys it (length (uniq keys) - 1)).
Proof. exact dw_ends. Qed.
Print Assumptions C47_ends.

(** "pf" leads past the stored "p" to "pg", where the sparse levels go wrong
    (C46).  From the first key it is two steps to "b1"; "d" is off the end. *)
Example C47_seek_ex : (forall q, In q [[112; 102]; [100]] -> is_bytes q /\ forall keys, ~ d_trap e0 c_all keys q) /\
  on_dense c_all keys_p (fun d => '(_, it) <- d_moveToKeyGreaterThan e0 d [112; 102] true (diter_new d) ;; d_look e0 d it) =
    Ok (mkView true [112; 103] (0, Some 0%N) ([112; 103], 0)) /\
  on_dense c_all_real keys1 (fun d => it <- d_first e0 d ;; it <- d_run e0 d [Fwd; Fwd] it ;; d_look e0 d it) =
    Ok (mkView true [98; 49] (8, Some 0%N) ([98; 49], 0)) /\
  on_dense c_all_real keys1 (fun d => '(_, it) <- d_moveToKeyGreaterThan e0 d [100] true (diter_new d) ;; Ok (di_valid it)) = Ok false.
Proof.
  split; [|vm_compute; auto]. intros q Hq. split; [destruct Hq as [<-|[<-|[]]]; bytes_ok|].
  intros keys [(X & _)|(_ & k & x & _ & _ & _ & W & _)]; [destruct Hq as [<-|[<-|[]]]; discriminate|].
  apply W. intros [X|X]; discriminate.
Qed.

(** The seek for the empty string fails its assertion. *)
Theorem C47_empty_refuted : exists keys, good_keys keys /\ ~ lone_ff keys /\
  on_dense c_all keys (fun d => d_moveToKeyGreaterThan e0 d [] true (diter_new d)) = Fail AssertFail.
Proof. exists keys1. split; [exact keys1_good|]. split; [exact keys1_no_ff|]. vm_compute. reflexivity. Qed.
Print Assumptions C47_empty_refuted.

(** "ba" is stored, "b" distinguishes it, and its suffix of 16 bits is cut
    short: the seek for "b`c" passes it. *)
Theorem C47_short_key_refuted : exists keys q k, good_keys keys /\ ~ lone_ff keys /\ In k keys /\ klt q k /\
  on_dense c_all_real16 keys (fun d => '(_, it) <- d_moveToKeyGreaterThan e0 d q true (diter_new d) ;; Ok (di_valid it)) = Ok false.
Proof.
  exists [[97]; [98; 97]], [98; 96; 99], [98; 97]. split; [apply good_keysb_ok; reflexivity|].
  split; [intros (k & [X|[X|[]]] & _); discriminate|]. split; [right; left; reflexivity|].
  split; [apply kltb_ok; reflexivity|vm_compute; reflexivity].
Qed.
Print Assumptions C47_short_key_refuted.

(** The step back from "a" does not find the stored "\000b". *)
Theorem C47_stuck_refuted : exists keys, good_keys keys /\ ~ lone_ff keys /\ klt [0; 98] [97] /\ In [0; 98] keys /\
  on_dense c_all keys (fun d => '(_, it) <- d_moveToKeyGreaterThan e0 d [97] true (diter_new d) ;; k <- di_getKey it ;;
    it <- di_prev e0 d it ;; Ok (k, di_valid it)) = Ok ([97], false).
Proof.
  exists keys_z. split; [apply good_keysb_ok; reflexivity|]. split; [intros (k & H & _); apply in_inb in H; discriminate|].
  split; [apply kltb_ok; reflexivity|]. split; [right; left; reflexivity|vm_compute; reflexivity].
Qed.
Print Assumptions C47_stuck_refuted.
