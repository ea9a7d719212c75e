(** What the hash of the baseline Bloom filter tells apart: C65.  Only property
    theorems, examples and counterexamples. *)
From Coq Require Import Arith List NArith Bool Lia.
From Verif Require Import Res Word Config Spec SpecMurmur Murmur Bench MurmurInj.
Import ListNotations.

Theorem C65_one_block : forall k q seed, is_bytes k -> is_bytes q -> (seed < 2 ^ 32)%N -> one_block k q ->
  MurmurHash3_x86_128 q seed <> MurmurHash3_x86_128 k seed.
Proof. exact mur_one_block. Qed.
Print Assumptions C65_one_block.

Theorem C65_short : forall k q seed, is_bytes k -> is_bytes q -> (seed < 2 ^ 32)%N -> length q = length k -> length k <= 16 -> q <> k ->
  MurmurHash3_x86_128 q seed <> MurmurHash3_x86_128 k seed.
Proof. exact mur_short. Qed.
Print Assumptions C65_short.

Theorem C65_seed : forall k s s', is_bytes k -> (s < 2 ^ 32)%N -> (s' < 2 ^ 32)%N -> s <> s' ->
  MurmurHash3_x86_128 k s <> MurmurHash3_x86_128 k s'.
Proof. exact mur_seed. Qed.
Print Assumptions C65_seed.

Theorem C65_integers : forall w w' seed, (w < 2 ^ 64)%N -> (w' < 2 ^ 64)%N -> (seed < 2 ^ 32)%N -> w <> w' ->
  MurmurHash3_x86_128 (le_bytes 8 w) seed <> MurmurHash3_x86_128 (le_bytes 8 w') seed.
Proof. exact mur_ints. Qed.
Print Assumptions C65_integers.

(** Strings of whole blocks that collide do so with any common end. *)
Theorem C65_append : forall k q t seed m, is_bytes k -> is_bytes q -> is_bytes t -> (seed < 2 ^ 32)%N -> length k = 16 * m -> length q = 16 * m ->
  MurmurHash3_x86_128 q seed = MurmurHash3_x86_128 k seed -> MurmurHash3_x86_128 (q ++ t) seed = MurmurHash3_x86_128 (k ++ t) seed.
Proof. exact mur_app. Qed.
Print Assumptions C65_append.

(** A change of whole blocks can always be undone in the block after them. *)
Theorem C65_undo : forall p p' b seed m, is_bytes p -> is_bytes p' -> is_bytes b -> (seed < 2 ^ 32)%N -> length p = 16 * m -> length p' = 16 * m -> length b = 16 ->
  exists b', is_bytes b' /\ length b' = 16 /\ MurmurHash3_x86_128 (p' ++ b') seed = MurmurHash3_x86_128 (p ++ b) seed.
Proof. exact mur_undo. Qed.
Print Assumptions C65_undo.

(** Strings with one hash are one string to the Bloom filter. *)
Theorem C65_same_hash : forall k q keys e, BloomHash q = BloomHash k -> In k keys ->
  exists d, newFilterBloom keys = Ok (FBloom d) /\ lookup e (FBloom d) q = Ok true.
Proof. exact bloom_same. Qed.
Print Assumptions C65_same_hash.

(** Thirty-five bytes and the same with byte 20 changed; and with byte 33
    changed, which lies in the tail. *)
Definition m_key : bytes := seq 60 35.
Definition m_mid : bytes := firstn 20 m_key ++ 200 :: skipn 21 m_key.
Definition m_end : bytes := firstn 33 m_key ++ 200 :: skipn 34 m_key.
Example C65_ex : is_bytes m_key /\ is_bytes m_mid /\ is_bytes m_end /\ one_block m_key m_mid /\ one_block m_key m_end.
Proof.
  split; [|split; [|split]]; try (unfold is_bytes; apply Forall_forall; intros x H; cbn in H; repeat (destruct H as [<-|H]; [lia|]); destruct H).
  split; (split; [reflexivity|split; [discriminate|]]); [exists 1|exists 2]; split; reflexivity.
Qed.

Example C65_ex_short : MurmurHash3_x86_128 [97; 98; 99; 100; 101; 102; 103; 104] 0xbc9f1d34 <> MurmurHash3_x86_128 [97; 98; 99; 100; 101; 102; 103; 105] 0xbc9f1d34.
Proof. vm_compute. discriminate. Qed.

Definition m_host : bytes := [99; 111; 109; 46; 101; 120; 97; 109; 112; 108; 101; 46; 104; 111; 115; 116; 47; 105; 110; 100; 101; 120; 46; 104; 116; 109; 108; 63; 105; 100; 61; 55].
Definition m_most : bytes := [99; 111; 109; 46; 101; 120; 97; 109; 112; 108; 101; 46; 109; 111; 115; 116; 47; 105; 110; 100; 101; 120; 46; 104; 55; 28; 65; 233; 207; 136; 3; 246].
(** Two blocks are enough to make two strings collide: the second block undoes
    the change of the first.  "com.example.host/index.html?id=7" and a string
    that begins "com.example.most/index.h", with the seed of the Bloom filter. *)
Theorem C65_two_blocks_refuted : exists k q, is_bytes k /\ is_bytes q /\ length q = length k /\ length k = 32 /\ q <> k /\
  MurmurHash3_x86_128 q 0xbc9f1d34 = MurmurHash3_x86_128 k 0xbc9f1d34 /\ BloomHash q = BloomHash k.
Proof.
  exists m_host, m_most.
  split; [|split]; try (unfold is_bytes; apply Forall_forall; intros x H; cbn in H; repeat (destruct H as [<-|H]; [lia|]); destruct H).
  split; [reflexivity|]. split; [reflexivity|]. split; [discriminate|]. split; vm_compute; reflexivity.
Qed.
Print Assumptions C65_two_blocks_refuted.

Example C65_ex_append : length m_host = 16 * 2 /\ length m_most = 16 * 2 /\ MurmurHash3_x86_128 m_most 0xbc9f1d34 = MurmurHash3_x86_128 m_host 0xbc9f1d34 /\
  MurmurHash3_x86_128 m_host 0xbc9f1d34 <> MurmurHash3_x86_128 (m_host ++ [38; 120; 61; 49]) 0xbc9f1d34.
Proof. repeat split; try (vm_compute; reflexivity). vm_compute. discriminate. Qed.

Example C65_ex_same_hash : BloomHash m_most = BloomHash m_host /\ In m_host [m_key; m_host].
Proof. split; [vm_compute; reflexivity|right; left; reflexivity]. Qed.

Example C65_ex_integers : MurmurHash3_x86_128 (le_bytes 8 (2 ^ 40)) 0 <> MurmurHash3_x86_128 (le_bytes 8 (2 ^ 40 + 1)) 0 /\ (2 ^ 40 + 1 < 2 ^ 64)%N.
Proof. split; [vm_compute; discriminate|reflexivity]. Qed.

(** The block that [C65_undo] promises for "com.example.most" *)
Example C65_ex_undo : length (firstn 16 m_host) = 16 * 1 /\ length (firstn 16 m_most) = 16 * 1 /\ length (skipn 16 m_host) = 16 /\
  firstn 16 m_most <> firstn 16 m_host /\
  MurmurHash3_x86_128 (firstn 16 m_most ++ skipn 16 m_most) 0xbc9f1d34 = MurmurHash3_x86_128 (firstn 16 m_host ++ skipn 16 m_host) 0xbc9f1d34.
Proof. repeat split; try (vm_compute; reflexivity). discriminate. Qed.
