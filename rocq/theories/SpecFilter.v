(** The filters a program can hold: built from keys, or restored from the bytes
    another one was written to. *)
From Coq Require Import Arith List NArith Bool.
From Verif Require Import Res Config Spec SpecApi Builder Surf Serialize.
Import ListNotations.

(** [n] bytes at the 8-byte aligned address [a] (which is what new and malloc
    return) *)
Definition block (a : N) (n : nat) : Prop := (a mod 8 = 0 /\ a + N.of_nat n + 8 <= 2 ^ 64)%N.

(** [g] is what deSerialize makes of the bytes that serialize wrote for [f],
    copied to some block [a'] that may be longer. *)
Definition restored (e : env) (f g : surf) : Prop :=
  exists a a' mem buf rest n n',
    N.of_nat (length mem) = serializedSize f /\ block a (length mem) /\ block a' (length mem) /\
    serialize_into e a mem f = Ok (buf, n) /\ deSerialize a' (buf ++ rest) = Ok (g, n').

(** Small enough to be written: nothing wraps 32 bits. *)
Definition storable (e : env) (keys : list bytes) : Prop :=
  small keys \/ (quiet e /\ told_apart keys 4000000000).

(** [f] was built from [keys], or restored any number of times since. *)
Inductive filter_of (e : env) (c : config) (keys : list bytes) : surf -> Prop :=
| fo_built : forall f, create e c keys = Ok f -> filter_of e c keys f
| fo_restored : forall f g, filter_of e c keys f -> storable e keys -> restored e f g -> filter_of e c keys g.

(** At least 64 bytes after the last label read as zero: the constructor
    allocates them, a restored filter depends on what follows its buffer. *)
Definition padded (e : env) (c : config) (keys : list bytes) (f : surf) : Prop :=
  (small keys /\ create e c keys = Ok f) \/ quiet e.
