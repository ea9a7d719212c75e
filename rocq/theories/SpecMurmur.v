(** Vocabulary for what MurmurHash3 tells apart.  Nothing of the model is used. *)
From Coq Require Import Arith List.
From Verif Require Import Spec.
Import ListNotations.

(** Two strings of one length that differ in one block of sixteen bytes only. *)
Definition one_block (k q : bytes) : Prop :=
  length q = length k /\ q <> k /\
  exists i, firstn (16 * i) q = firstn (16 * i) k /\ skipn (16 * i + 16) q = skipn (16 * i + 16) k.
