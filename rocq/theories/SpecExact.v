(** Vocabulary for the exact outcome of seeks, comparisons and range queries. *)
From Coq Require Import Arith List NArith ZArith Bool.
From Verif Require Import Res Config Builder Surf Spec SpecApi SpecIter SpecRange.
Import ListNotations.

(** [k] is a proper prefix of another stored key. *)
Definition inner (keys : list bytes) (k : bytes) : Prop :=
  exists k', In k' keys /\ k' <> k /\ firstn (length k) k' = k.

(** [q] agrees with [k] on the part that tells [k] from the other keys. *)
Definition follows (keys : list bytes) (k q : bytes) : Prop :=
  exists d, dist_len keys k d /\ firstn d q = firstn d k.

(** The real suffixes of [k] and [q] after byte [d], as numbers. *)
Definition suffix_number (c : config) (k : bytes) (d : nat) : N := bits_value (next_bits0 k d (cf_rlen c)).

(** A seek for [q] goes past [k]: [k] is below [q] and not followed by it; or it
    is followed, but its real suffix is smaller; or it is [q] itself, [q] is not
    wanted, and it is stored at an inner node of the sparse levels. *)
Definition passed (c : config) (keys : list bytes) (h : nat) (q : bytes) (incl : bool) (k : bytes) : Prop :=
  (klt k q /\ ~ follows keys k q) \/
  (keeps_real c /\ exists d, dist_len keys k d /\ firstn d q = firstn d k /\ (suffix_number c k d < suffix_number c q d)%N) \/
  (k = q /\ incl = false /\ inner keys k /\ h <= length q).

(** The place of a seek: the first key it does not go past. *)
Definition seek_at (c : config) (keys : list bytes) (h : nat) (q : bytes) (incl : bool) (p : option nat) : Prop :=
  match p with
  | Some i => i < length (uniq keys) /\ ~ passed c keys h q incl (nth i (uniq keys) []) /\
              forall x, x < i -> passed c keys h q incl (nth x (uniq keys) [])
  | None => forall k, In k keys -> passed c keys h q incl k
  end.

(** The flag is raised at a followed key, unless it is [q] itself at an inner
    node of the sparse levels; and if [q] ends inside the dense levels. *)
Definition flagged (keys : list bytes) (h : nat) (q k : bytes) : Prop :=
  (follows keys k q /\ ~ (k = q /\ inner keys k /\ h <= length q)) \/
  (~ follows keys k q /\ length q < h /\ firstn (length q) k = q).

(** The place of moveToKeyLessThan, if lookupKey answers [b] for [q]: the place
    of the exclusive seek above [q] if its flag is raised there; otherwise one
    step back from it, and a second one if [b]; the last key if that seek passes
    all keys. *)
Definition less_at (c : config) (keys : list bytes) (h : nat) (q : bytes) (b : bool) (p : option nat) : Prop :=
  exists p0, seek_at c keys h q false p0 /\
    match p0 with
    | None => p = Some (length (uniq keys) - 1)
    | Some i =>
        (flagged keys h q (nth i (uniq keys) []) -> p = Some i) /\
        (~ flagged keys h q (nth i (uniq keys) []) ->
           exists p1, ahead keys Bwd h (Some i) p1 /\ (if b then ahead keys Bwd h p1 p else p = p1))
    end.

(** [k] is stored at an inner node, and [q] goes on beyond its length.  In the
    dense levels [q] need not even start with [k], in the sparse levels only
    with its first [h] bytes. *)
Definition cut_off (keys : list bytes) (h : nat) (k q : bytes) : Prop :=
  inner keys k /\ length k < length q /\ (h <= length k -> firstn h q = firstn h k).

(** The value of a comparison of the iterator at [k] with [q]. *)
Definition cmp_exact (c : config) (keys : list bytes) (h : nat) (k q : bytes) (z : Z) : Prop :=
  (cut_off keys h k q -> z = (-1)%Z) /\
  (~ cut_off keys h k q -> forall d, dist_len keys k d ->
    (firstn d q = firstn d k -> ~ keeps_real c -> z = 2018%Z) /\
    (firstn d q = firstn d k -> keeps_real c ->
       ((suffix_number c k d = suffix_number c q d)%N -> z = 2018%Z) /\
       ((suffix_number c k d < suffix_number c q d)%N -> z = (-1)%Z) /\
       ((suffix_number c q d < suffix_number c k d)%N -> z = 1%Z)) /\
    (firstn d q <> firstn d k ->
       (klt (firstn d k) q -> z = (-1)%Z) /\
       (klt q (firstn d k) -> (0 < z)%Z /\ (z = 2018%Z -> length q + 2018 <= d)))).

(** The key [k] under the iterator counts as not above the right end [r]. *)
Definition reaches (c : config) (keys : list bytes) (h : nat) (k r : bytes) : Prop :=
  cut_off keys h k r \/
  exists d, dist_len keys k d /\
    ((firstn d r = firstn d k /\ (keeps_real c -> (suffix_number c k d <= suffix_number c r d)%N)) \/
     (firstn d r <> firstn d k /\ klt (firstn d k) r)).

(** No distinguishing prefix is longer than [r] by 2018 bytes or more: then no
    length difference is taken for the code "could be". *)
Definition no_clash (keys : list bytes) (r : bytes) : Prop :=
  forall k d, In k keys -> dist_len keys k d -> d < length r + 2018.
