(** Vocabulary for the seek and range properties.  Of the model it uses only
    the public calls. *)
From Coq Require Import Arith List NArith ZArith Bool.
From Verif Require Import Res Config Builder Dense Sparse Surf Spec SpecApi SpecIter.
Import ListNotations.

(** ** Which seeks go wrong *)

(** The stored keys that start with [p] continue with byte [b] ([Some b]) or end
    there ([None]). *)
Definition branch (keys : list bytes) (p : bytes) (o : option nat) : Prop :=
  exists k, In k keys /\ firstn (length p) k = p /\ nth_error k (length p) = o.

(** Two stored keys start with [p]. *)
Definition shared (keys : list bytes) (p : bytes) : Prop :=
  exists k k', In k keys /\ In k' keys /\ k <> k' /\ firstn (length p) k = p /\ firstn (length p) k' = p.

(** [k] is the first stored key above [q]. *)
Definition next_key (keys : list bytes) (q k : bytes) : Prop :=
  In k keys /\ klt q k /\ forall x, In x keys -> klt q x -> kle k x.

(** [q] is shorter than the dense part is high ([h] levels), not stored, and the
    next stored key extends [q] and shares its first [h] bytes with another one;
    or [q] is empty and assertions are on. *)
Definition ends_early (e : env) (keys : list bytes) (h : nat) (q : bytes) : Prop :=
  length q < h /\
  ((q = [] /\ asserts e = true) \/
   (~ In q keys /\ exists k k', next_key keys q k /\ firstn (length q) k = q /\
      In k' keys /\ k' <> k /\ firstn h k' = firstn h k)).

(** [q] leaves the trie, in the sparse levels, after a prefix [p] that is itself
    stored, and fewer than two different bytes above the one in [q] follow. *)
Definition past_prefix_key (keys : list bytes) (h : nat) (q : bytes) : Prop :=
  exists p b r, q = p ++ b :: r /\ h <= length p /\ shared keys p /\ branch keys p None /\ ~ branch keys p (Some b) /\
    ~ exists b1 b2, b < b1 /\ b1 < b2 /\ branch keys p (Some b1) /\ branch keys p (Some b2).

(** [q] leaves the trie at the last node: [p] is the last shared prefix by
    length, then order.  This only matters if that node has three branches or
    more and the keys are not tiny. *)
Definition at_last_node (keys : list bytes) (h : nat) (q : bytes) : Prop :=
  exists p b r, q = p ++ b :: r /\ h <= length p /\ shared keys p /\ ~ branch keys p (Some b) /\
    64 < total_len keys /\
    (exists o1 o2 o3, o1 <> o2 /\ o1 <> o3 /\ o2 <> o3 /\ branch keys p o1 /\ branch keys p o2 /\ branch keys p o3) /\
    forall p', shared keys p' -> length p' < length p \/ (length p' = length p /\ kle p' p).

(** [x] does not end inside the real suffix that follows the first [d] bytes. *)
Definition whole (c : config) (x : bytes) (d : nat) : Prop :=
  keeps_real c -> d < length x -> cf_rlen c <= 8 * (length x - d).

(** [q] is not stored but could be taken for a stored key above it that ends
    inside its own suffix, and [q] goes on with bits that are not all zero. *)
Definition meets_short_key (c : config) (keys : list bytes) (q : bytes) : Prop :=
  ~ In q keys /\ exists k d, In k keys /\ dist_len keys k d /\ firstn d q = firstn d k /\ ~ whole c k d /\
    klt q k /\ ~ all_zero (next_bits0 q d (cf_rlen c)).

Definition trap (e : env) (c : config) (keys : list bytes) (h : nat) (q : bytes) : Prop :=
  ends_early e keys h q \/ past_prefix_key keys h q \/ at_last_node keys h q \/ meets_short_key c keys q.

(** The traps that have nothing to do with suffixes. *)
Definition stray (e : env) (keys : list bytes) (h : nat) (q : bytes) : Prop :=
  ends_early e keys h q \/ past_prefix_key keys h q \/ at_last_node keys h q.

(** [r] is not stored and ends inside the suffix of a stored key below it that
    it could be taken for, and that suffix is not zero. *)
Definition short_bound (c : config) (keys : list bytes) (r : bytes) : Prop :=
  ~ In r keys /\ exists k d, In k keys /\ dist_len keys k d /\ firstn d r = firstn d k /\ ~ whole c r d /\
    klt k r /\ ~ all_zero (next_bits0 k d (cf_rlen c)).

(** ** Intervals *)
Definition above (incl : bool) (l k : bytes) : Prop := klt l k \/ (incl = true /\ k = l).
Definition below (incl : bool) (k r : bytes) : Prop := klt k r \/ (incl = true /\ k = r).

(** ** Where a seek should lead *)

(** The real suffix kept for [k] is not below the bits of [q] at the same place. *)
Definition suffix_not_below (c : config) (k q : bytes) (d : nat) : Prop :=
  keeps_real c -> (bits_value (next_bits0 q d (cf_rlen c)) <= bits_value (next_bits0 k d (cf_rlen c)))%N.

(** No key above [q] comes before the place.  Flag [fp] off: the key at the
    place is above [q], or [q] itself if that is asked for.  Flag on: [q] extends
    the distinguishing prefix of the key at the place, or it is a prefix of that
    key that ends in the dense part. *)
Definition gt_place (c : config) (keys : list bytes) (h : nat) (q : bytes) (incl fp : bool) (p : option nat) : Prop :=
  let i := match p with Some i => i | None => length (uniq keys) end in
  (forall x, x < i -> klt (nth x (uniq keys) []) q \/ (nth x (uniq keys) [] = q /\ incl = false)) /\
  match p with
  | None => True
  | Some i =>
      let k := nth i (uniq keys) [] in
      i < length (uniq keys) /\
      if fp then (exists d, dist_len keys k d /\ firstn d q = firstn d k /\ suffix_not_below c k q d) \/
                 (length q < h /\ klt q k /\ firstn (length q) k = q)
      else klt q k \/ (k = q /\ incl = true)
  end.

(** The place of the exclusive seek above [q], flag [fp]; with the flag off, one
    step back, and a second one if lookupKey answers [b] = true for [q]; the last
    place if no key is above [q]. *)
Definition lt_place (c : config) (keys : list bytes) (h : nat) (q : bytes) (fp b : bool) (p : option nat) : Prop :=
  exists p0, gt_place c keys h q false fp p0 /\
    match p0 with
    | None => p = Some (length (uniq keys) - 1)
    | Some i =>
        if fp then p = Some i
        else exists p1, ahead keys Bwd h (Some i) p1 /\ (if b then ahead keys Bwd h p1 p else p = p1)
    end.

(** The last stored key below [q], at index [i]. *)
Definition last_below (keys : list bytes) (q : bytes) (i : nat) : Prop :=
  i < length (uniq keys) /\ klt (nth i (uniq keys) []) q /\
  forall k, In k keys -> klt k q -> kle k (nth i (uniq keys) []).

(** An iterator at a place: whatever moves follow, the views are those of the
    places they lead to. *)
Definition stands (e : env) (c : config) (f : surf) (keys : list bytes) (it : iter) (p : option nat) : Prop :=
  forall ms p', path keys (getSparseStartLevel f) ms p p' ->
    exists it' v, run e f ms it = Ok it' /\ look e f it' = Ok v /\ view_at c keys p' v.

(** ** Histories *)

(** What the filter's own iterator can be after any calls. *)
Inductive member_iter (e : env) (f : surf) : iter -> Prop :=
| mi_new : member_iter e f (iter_new f)
| mi_range : forall it l li r ri b it', member_iter e f it -> lookupRange_st e f it l li r ri = Ok (b, it') -> member_iter e f it'
| mi_count : forall l it, moveToKeyGreaterThan e f l true = Ok it -> member_iter e f it.

(** The answer of a range query after a history. *)
Definition range_after (e : env) (f : surf) (it : iter) (l : bytes) (li : bool) (r : bytes) (ri : bool) : res bool :=
  '(b, _) <- lookupRange_st e f it l li r ri ;; Ok b.

(** Iterators a caller can get hold of by any calls that do not run into a trap;
    suffixes are no traps here. *)
Inductive gotten (e : env) (f : surf) (keys : list bytes) : iter -> Prop :=
| got_first : forall it, moveToFirst e f = Ok it -> gotten e f keys it
| got_last : forall it, moveToLast e f = Ok it -> gotten e f keys it
| got_gt : forall q incl it, is_bytes q -> ~ stray e keys (getSparseStartLevel f) q ->
    moveToKeyGreaterThan e f q incl = Ok it -> gotten e f keys it
| got_lt : forall q incl it, is_bytes q -> ~ stray e keys (getSparseStartLevel f) q ->
    moveToKeyLessThan e f q incl = Ok it -> gotten e f keys it
| got_move : forall m b it it', gotten e f keys it -> do_move e f m it = Ok (b, it') -> gotten e f keys it'.

(** A comparison value read as C++ code does: negative, positive, or the code
    2018 for "could be". *)
Definition cmp_sound (c : config) (keys : list bytes) (k q : bytes) (z : Z) : Prop :=
  ((z < 0)%Z -> klt k q \/
     (length k < length q /\ exists k', In k' keys /\ k' <> k /\ firstn (length k) k' = k) \/
     (exists d, dist_len keys k d /\ firstn d q = firstn d k /\ ~ whole c k d)) /\
  ((0 < z)%Z -> z <> 2018%Z -> klt q k \/
     (exists d, dist_len keys k d /\ firstn d q = firstn d k /\ ~ whole c q d)) /\
  (z = 2018%Z -> klt q k \/ exists d, dist_len keys k d /\ firstn d q = firstn d k) /\
  z <> 0%Z.
