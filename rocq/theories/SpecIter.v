(** Vocabulary for the iterator properties: sequences of moves, what a caller
    sees at an iterator, and where a sequence of moves should lead.  Of the
    model it uses only the public calls. *)
From Coq Require Import Arith List NArith Bool.
From Verif Require Import Res Config Builder Dense Sparse Surf Spec SpecApi.
Import ListNotations.

Inductive move := Fwd | Bwd.
Definition do_move (e : env) (f : surf) (m : move) (it : iter) : res (bool * iter) :=
  match m with Fwd => it_next e f it | Bwd => it_prev e f it end.

Fixpoint run (e : env) (f : surf) (ms : list move) (it : iter) : res iter :=
  match ms with
  | [] => Ok it
  | m :: r => '(_, it') <- do_move e f m it ;; run e f r it'
  end.

(** What a caller can read off an iterator. *)
Record view := mkView { vw_valid : bool; vw_key : bytes; vw_suffix : nat * option N; vw_keysuf : bytes * nat }.
Definition look (e : env) (f : surf) (it : iter) : res view :=
  if it_valid it then
    k <- it_getKey it ;; s <- it_getSuffix e f it ;; ks <- it_getKeyWithSuffix e f it ;;
    Ok (mkView true k s ks)
  else Ok (mkView false [] (0, None) ([], 0)).

(** Two iterators no caller can tell apart by moving and looking. *)
Definition same_view (e : env) (f : surf) (a b : iter) : Prop :=
  forall ms, (it <- run e f ms a ;; look e f it) = (it <- run e f ms b ;; look e f it).

(** [while (it.isValid()) { out(it.getKey()); it++; }], at most [fuel] rounds *)
Fixpoint collect (e : env) (f : surf) (m : move) (fuel : nat) (it : iter) : res (list bytes) :=
  if it_valid it then
    match fuel with
    | O => Fail NoFuel
    | S fl => k <- it_getKey it ;; '(_, it') <- do_move e f m it ;; r <- collect e f m fl it' ;; Ok (k :: r)
    end
  else Ok [].

(** The prefix of a stored key that the filter keeps. *)
Definition shown (keys : list bytes) (k o : bytes) : Prop := exists d, dist_len keys k d /\ o = firstn d k.

(** First byte. *)
Definition zero_start (k : bytes) : Prop := exists r, k = 0 :: r.

(** The one defect of [--]: it does not find the way back from [k] to the key
    [k'] before it if only [k'] starts with byte 0, or if all keys do, [k'] is
    the one-byte string and the dense part has two levels ([h]) or more. *)
Definition stuck (keys : list bytes) (h : nat) (k' k : bytes) : Prop :=
  (zero_start k' /\ ~ zero_start k) \/
  (k' = [0] /\ (forall x, In x keys -> zero_start x) /\ 1 < h).

(** Place in the list of distinct keys: an index, or none. *)
Definition ahead (keys : list bytes) (m : move) (h : nat) (p p' : option nat) : Prop :=
  match p with
  | None => p' = None
  | Some i =>
      match m with
      | Fwd => p' = if S i <? length (uniq keys) then Some (S i) else None
      | Bwd =>
          match i with
          | O => p' = None
          | S j => (stuck keys h (nth j (uniq keys) []) (nth i (uniq keys) []) /\ p' = None) \/
                   (~ stuck keys h (nth j (uniq keys) []) (nth i (uniq keys) []) /\ p' = Some j)
          end
      end
  end.

(** What [it_getSuffix] and [it_getKeyWithSuffix] should give for key [k] cut
    after [d] bytes. *)
Definition bits_value (b : list bool) : N := fold_left (fun a (x : bool) => (2 * a + (if x then 1 else 0))%N) b 0%N.

Definition keeps_real (c : config) : Prop := cf_type c = kReal \/ cf_type c = kMixed.

Definition good_suffix (c : config) (k : bytes) (d : nat) (s : nat * option N) : Prop :=
  (keeps_real c -> s = (cf_rlen c, Some (bits_value (next_bits0 k d (cf_rlen c))))) /\
  (~ keeps_real c -> s = (0, Some 0%N)).

(** The prefix, extended by the suffix bits and filled up with zero bits to a
    whole byte; the number is that of the bits in use in the last byte (0 when
    all are).  Nothing is added if the bits are all zero. *)
Definition good_keysuf (c : config) (k : bytes) (d : nat) (s : bytes * nat) : Prop :=
  (keeps_real c -> ~ all_zero (next_bits0 k d (cf_rlen c)) ->
     exists ext pad, s = (firstn d k ++ ext, cf_rlen c mod 8) /\ is_bytes ext /\ pad < 8 /\
       key_bits ext = next_bits0 k d (cf_rlen c) ++ repeat false pad) /\
  (~ keeps_real c \/ all_zero (next_bits0 k d (cf_rlen c)) -> s = (firstn d k, 0)).

(** The view of a stored key. *)
Definition view_of (c : config) (keys : list bytes) (k : bytes) (v : view) : Prop :=
  exists d, dist_len keys k d /\ vw_valid v = true /\ vw_key v = firstn d k /\
    (cf_rlen c <= 63 -> good_suffix c k d (vw_suffix v) /\ good_keysuf c k d (vw_keysuf v)).

(** Where a sequence of moves leads. *)
Inductive path (keys : list bytes) (h : nat) : list move -> option nat -> option nat -> Prop :=
| path_nil : forall p, path keys h [] p p
| path_cons : forall m ms p q r, ahead keys m h p q -> path keys h ms q r -> path keys h (m :: ms) p r.

(** The view at a place. *)
Definition view_at (c : config) (keys : list bytes) (p : option nat) (v : view) : Prop :=
  match p with
  | Some i => i < length (uniq keys) /\ view_of c keys (nth i (uniq keys) []) v
  | None => v = mkView false [] (0, None) ([], 0)
  end.

Definition starts_zero (k : bytes) : bool := match k with 0 :: _ => true | _ => false end.
