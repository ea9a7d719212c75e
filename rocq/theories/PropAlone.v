(** LoudsSparse used alone over all levels, as its unit tests do: C46.  Only
    property theorems, examples and counterexamples. *)
From Coq Require Import Arith List NArith ZArith Bool Lia.
From Verif Require Import Res Config Builder Dense Sparse Surf Spec SpecApi SpecIter SpecRange SpecTrie SpecBare SpecAlone AloneFacts
  Samples SamplesIter SamplesRange SizeFacts.
Import ListNotations.

Ltac bytes_ok := repeat (apply Forall_cons; [lia|]); apply Forall_nil.

Definition on_alone {A} (c : config) (keys : list bytes) (k : sparse -> res A) : res A :=
  b <- build e0 c keys ;; s <- sparse_make e0 b ;; k s.

Lemma c_nodense_sparse : sparse_settings c_nodense.
Proof. split; [reflexivity|]. split; [cbn; lia|exact I]. Qed.
Lemma c_nodense_real_sparse : sparse_settings c_nodense_real.
Proof. split; [reflexivity|]. split; cbn; lia. Qed.
Lemma keys1_two : two_keys keys1.
Proof. exists [97], [97; 98]. split; [apply inb_in; reflexivity|]. split; [apply inb_in; reflexivity|discriminate]. Qed.

(** * C46 *)

(** It can be built, with any suffix, exactly if the label array, whose size is
    computed in 32 bits, can hold all labels. *)
Theorem C46_create_exact : forall keys, good_keys keys -> forall e c, machine e -> sparse_settings c -> told_apart keys 8388607 ->
  forall nl nn nf, (forall l, level_shape keys l (nl l) (nn l) (nf l)) ->
  forall h, (forall k d, In k keys -> dist_len keys k d -> d < h) -> (exists k d, In k keys /\ dist_len keys k d /\ h = S d) ->
  let n := label_count nl 0 h in
  (exists s, alone e c keys s) <-> (n <= ((n + 1) * ((n + 1) / 64 + 1)) mod 2 ^ 32)%N.
Proof. exact alone_exact. Qed.
Print Assumptions C46_create_exact.

(** A filter with these settings cannot be created (C45), this part of it can. *)
Example C46_create_exact_ex : let keys := [[0; 0; 0; 1]; [0; 0; 0; 2]] in exists nl nn nf s,
  good_keys keys /\ told_apart keys 8388607 /\ (forall l, level_shape keys l (nl l) (nn l) (nf l)) /\
  (forall k d, In k keys -> dist_len keys k d -> d < 5) /\ (exists k d, In k keys /\ dist_len keys k d /\ 5 = S d) /\
  label_count nl 0 5 = 5%N /\ sparse_settings c_nodense_real /\ alone e0 c_nodense_real keys s /\
  create e0 c_nodense_real keys = Fail OutOfBounds.
Proof.
  assert (H3 : 1 <= 3) by lia. intros keys. exists (cl 3), (cd 3), (fun l => Trie.cn (Trie.leaf keys l) 2).
  destruct (b <- build e0 c_nodense_real keys ;; sparse_make e0 b) as [s|] eqn:E; [|vm_compute in E; discriminate]. exists s.
  split; [exact (chain_good 3 H3)|]. split; [eapply told_mono; [apply (PointFacts.told_len keys (chain_good 3 H3))|vm_compute; discriminate]|].
  split; [exact (chain_shape 3 H3)|]. split; [|split; [exact (chain_height 3 H3)|]].
  - intros k d A B. rewrite (chain_dist 3 H3 k d A B). lia.
  - split; [vm_compute; reflexivity|]. split; [exact c_nodense_real_sparse|]. split; [exact E|vm_compute; reflexivity].
Qed.

(** lookupKey(k, 0) finds every stored key, *)
Theorem C46_stored_found : forall e c keys s, good_keys keys -> machine e -> sparse_settings c -> two_keys keys -> s_part e c keys s ->
  forall k, In k keys -> s_lookupKey e s k 0 = Ok true.
Proof. exact w_stored. Qed.
Print Assumptions C46_stored_found.

(** answers true to a string that extends the distinguishing prefix of a key
    exactly if the suffix of that key admits it, *)
Theorem C46_admits : forall e c keys s, good_keys keys -> machine e -> sparse_settings c -> two_keys keys -> s_part e c keys s ->
  forall k q d, In k keys -> is_bytes q -> dist_len keys k d -> firstn d q = firstn d k ->
  exists b, s_lookupKey e s q 0 = Ok b /\ (b = true <-> admits c k q d).
Proof. exact w_admits. Qed.
Print Assumptions C46_admits.

(** and false to any other string, except without suffix for one with a zero
    byte. *)
Theorem C46_rejects : forall e c keys s, good_keys keys -> machine e -> sparse_settings c -> two_keys keys -> s_part e c keys s ->
  (small keys /\ alone e c keys s) \/ quiet e -> forall q, is_bytes q ->
  (forall k d, In k keys -> dist_len keys k d -> firstn d q <> firstn d k) ->
  exists b, s_lookupKey e s q 0 = Ok b /\ (b = true -> cf_type c = kNone /\ In 0 q).
Proof. exact w_unfollowed. Qed.
Print Assumptions C46_rejects.

(** "cat" is kept as "c" and the suffix "a": "can" is taken for it, "cut" is
    not, "d" does not extend any prefix. *)
Example C46_lookup_ex : good_keys keys1 /\ machine e0 /\ sparse_settings c_nodense_real /\ two_keys keys1 /\ small keys1 /\
  (exists s, alone e0 c_nodense_real keys1 s) /\
  map (fun q => on_alone c_nodense_real keys1 (fun s => s_lookupKey e0 s q 0)) [[99; 97; 116]; [99; 97; 110]; [99; 117; 116]; [100]] =
    [Ok true; Ok true; Ok false; Ok false].
Proof.
  split; [exact keys1_good|]. split; [exact e0_machine|]. split; [exact c_nodense_real_sparse|]. split; [exact keys1_two|].
  split; [exact keys1_small|]. split; [eexists; vm_compute; reflexivity|vm_compute; reflexivity].
Qed.

(** one key, first byte 255, no suffix: the empty string is taken for it *)
Theorem C46_one_key_refuted : exists keys q, good_keys keys /\ small keys /\ ~ In 0 q /\
  (forall k d, In k keys -> dist_len keys k d -> firstn d q <> firstn d k) /\
  on_alone c_nodense keys (fun s => s_lookupKey e0 s q 0) = Ok true.
Proof.
  exists [[255; 98]], []. assert (HG : good_keys [[255; 98]]) by (apply good_keysb_ok; reflexivity). split; [exact HG|].
  split; [apply PointFacts.small_len; [exact HG|vm_compute; discriminate]|]. split; [intros []|]. split; [|vm_compute; reflexivity].
  intros k d [<-|[]] (D & _). destruct d; [lia|]. discriminate.
Qed.
Print Assumptions C46_one_key_refuted.

(** 100 keys "b\001" to "b\100", no suffix: "b\000" is found *)
Theorem C46_zero_byte_refuted : exists keys q, good_keys keys /\ small keys /\ two_keys keys /\
  (forall k d, In k keys -> dist_len keys k d -> firstn d q <> firstn d k) /\
  on_alone c_nodense keys (fun s => s_lookupKey e0 s q 0) = Ok true.
Proof.
  exists keys2, [98; 0]. split; [exact keys2_good|]. split; [exact keys2_small|].
  split; [exists [98; 1], [98; 2]; split; [left; reflexivity|]; split; [right; left; reflexivity|discriminate]|].
  split; [|vm_compute; reflexivity].
  intros k d Hk (D1 & D2 & D3) M.
  apply in_map_iff in Hk. destruct Hk as (i & <- & Hi). apply in_seq in Hi.
  assert (H2 : d <> 1).
  { intros ->. destruct (Nat.eq_dec i 1) as [->|N].
    - apply (D2 [98; 2]); [right; left; reflexivity|discriminate|reflexivity].
    - apply (D2 [98; 1]); [left; reflexivity|intros X; injection X; lia|reflexivity]. }
  destruct d as [|[|d]]; [lia|lia|]. cbn [firstn] in M. inversion M. lia.
Qed.
Print Assumptions C46_zero_byte_refuted.

(** A seek finds its place; the iterator then steps on, shows and compares its
    keys as it should, and is invalid off the ends and if there is no place. *)
Theorem C46_seek : forall e c keys s, good_keys keys -> machine e -> sparse_settings c -> two_keys keys -> s_part e c keys s ->
  forall q incl, is_bytes q -> ~ trap e c keys 0 q -> exists fp it p,
  s_moveToKeyGreaterThan e s q incl (siter_new s) = Ok (fp, it) /\ gt_place c keys 0 q incl fp p /\
  match p with Some i => stands_alone e c s keys it i | None => si_valid it = false end.
Proof. exact w_seek. Qed.
Print Assumptions C46_seek.

(** From the first and the last label in the root it gets to the first and the
    last key. *)
Theorem C46_ends : forall e c keys s, good_keys keys -> machine e -> sparse_settings c -> two_keys keys -> s_part e c keys s ->
  (exists it, s_first e s = Ok it /\ stands_alone e c s keys it 0) /\
  (exists it, s_last e s = Ok it /\ stands_alone e c s keys it (length (uniq keys) - 1)).
Proof. exact w_ends. Qed.
Print Assumptions C46_ends.

(** "b" leads to "b1", two steps on is "c" with suffix "a", one more is off the
    end, as is a seek for "d". *)
Example C46_seek_ex : (forall q, In q [[98]; [100]] -> is_bytes q /\ ~ trap e0 c_nodense_real keys1 0 q) /\
  (forall ms v, In (ms, v)
     [([], mkView true [98; 49] (8, Some 0%N) ([98; 49], 0)); ([Fwd; Fwd], mkView true [99] (8, Some 97%N) ([99; 97], 0));
      ([Fwd; Fwd; Fwd], mkView false [] (0, None) ([], 0))] ->
   on_alone c_nodense_real keys1 (fun s => '(_, it) <- s_moveToKeyGreaterThan e0 s [98] true (siter_new s) ;;
     it <- s_run e0 s ms it ;; s_look e0 s it) = Ok v) /\
  on_alone c_nodense_real keys1 (fun s => '(_, it) <- s_moveToKeyGreaterThan e0 s [100] true (siter_new s) ;; Ok (si_valid it)) = Ok false.
Proof.
  split; [intros q [<-|[<-|[]]]; (split; [bytes_ok|apply no_trap_check; reflexivity])|]. split; [|vm_compute; reflexivity].
  intros ms v [E|[E|[E|[]]]]; injection E as <- <-; vm_compute; reflexivity.
Qed.

(** the seek for "pf" misses the stored "pg" *)
Theorem C46_past_prefix_key_refuted : exists keys q k, good_keys keys /\ two_keys keys /\ In k keys /\ klt q k /\
  on_alone c_nodense keys (fun s => '(_, it) <- s_moveToKeyGreaterThan e0 s q true (siter_new s) ;; Ok (si_valid it)) = Ok false.
Proof.
  exists keys_p, [112; 102], [112; 103]. split; [exact keys_p_good|]. split.
  - exists [112], [112; 103]. split; [apply inb_in; reflexivity|]. split; [apply inb_in; reflexivity|discriminate].
  - split; [apply inb_in; reflexivity|]. split; [apply kltb_ok; reflexivity|vm_compute; reflexivity].
Qed.
Print Assumptions C46_past_prefix_key_refuted.
