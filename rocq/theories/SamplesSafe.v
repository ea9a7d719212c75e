(** Environments and programs for the examples and counterexamples about
    faults. *)
From Coq Require Import List NArith ZArith Bool Arith Lia.
From Verif Require Import Res Config Builder Dense Sparse Surf Spec SpecApi SpecIter SpecSession Samples.
Import ListNotations.

(** a shift by 64 or more faults *)
Definition e_shift : env := mkEnv true true false (fun _ => 0%N) (fun _ _ => 0).
(** asserts on; whatever follows an array is the byte 121 *)
Definition e_xa : env := mkEnv true false false (fun _ => 0%N) (fun _ _ => 121).

Definition run (e : env) (c : config) (keys : list bytes) (cs : list call) : res (list SpecSession.answer) :=
  f <- create e c keys ;; answers e f cs.

(** "b" and one of 20 bytes: 21 labels *)
Definition keys_20 : list bytes := map (fun i => [98; i]) (seq 1 20).
Definition c_mixed_33 : config := mkCfg true 16 kMixed 20 13.

(** every kind of call of the safety theorem, several iterators *)
Definition program2 : list call :=
  [CLookup [97]; CLookup []; CLast; CMove 0 Fwd; CMove 0 Fwd; CLook 0; CFirst; CMove 1 Bwd; CMove 1 Bwd; CLook 1;
   CGreater [97; 98] false; CCompare 2 [97; 97]; CLess [255; 255] true; CMove 3 Fwd; CCompare 3 []; CRange [98] true [] false;
   CMove 9 Fwd; CLook 2].

Lemma program2_sound : Forall (sound_call e0) program2.
Proof.
  unfold program2. repeat (apply Forall_cons || apply Forall_nil); cbn [sound_call]; unfold is_bytes;
    repeat match goal with |- True => exact I | |- _ /\ _ => split | |- _ \/ _ => left; discriminate | |- Forall _ [] => apply Forall_nil
    | |- Forall _ (_ :: _) => apply Forall_cons; [lia|] end; try lia.
Qed.
