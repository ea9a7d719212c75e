(** Vocabulary for the benchmark program.  Of its model it uses only the
    calls of the filter classes. *)
From Coq Require Import Arith List NArith Bool String Sorting.Sorted Permutation.
From Verif Require Import Res Config Builder Surf Spec SpecApi SpecRange Bench.
Import ListNotations.
Open Scope nat_scope.

(** [n] elements of the list satisfy [P]. *)
Inductive tally {A : Type} (P : A -> Prop) : list A -> nat -> Prop :=
| tally_nil : tally P [] 0
| tally_yes : forall x l n, P x -> tally P l n -> tally P (x :: l) (S n)
| tally_no : forall x l n, ~ P x -> tally P l n -> tally P (x :: l) n.

(** The names of the filters and what they stand for; no settings for the Bloom
    filter.  "ARF" stands for SuRF with real suffixes. *)
Definition names (name : bytes) (len : nat) (o : option config) : Prop :=
  (name = str "SuRF" /\ o = Some (mkCfg true 16 kNone 0 0)) \/
  (name = str "SuRFHash" /\ o = Some (mkCfg true 16 kHash len 0)) \/
  (name = str "SuRFReal" /\ o = Some (mkCfg true 16 kReal 0 len)) \/
  (name = str "SuRFMixed" /\ o = Some (mkCfg true 16 kMixed len len)) \/
  (name = str "Bloom" /\ o = None) \/
  (name = str "ARF" /\ o = Some (mkCfg true 16 kReal 0 len)).

(** [keys] is the given percentage of the shuffled keys, in order. *)
Definition taken (shuffled : list bytes) (percent : nat) (keys : list bytes) : Prop :=
  StronglySorted kle keys /\ Permutation keys (firstn (List.length shuffled * percent / 100) shuffled).

(** The queries of a run. *)
Inductive query := Point (q : bytes) | Range (q : bytes).
Fixpoint mixed (point : bool) (txn : list bytes) : list query :=
  match txn with
  | [] => []
  | q :: t => (if point then Point q else Range q) :: mixed (negb point) t
  end.
Definition queries (kind : bytes) (txn : list bytes) (qs : list query) : Prop :=
  (kind = str "point" /\ qs = map Point txn) \/
  (kind = str "range" /\ qs = map Range txn) \/
  (kind = str "mix" /\ qs = mixed true txn).

(** The upper end of the range that starts at [q]: 128 is added to the last byte
    of a string, 92233697311 to an integer; both wrap. *)
Definition upper (key_type q u : bytes) : Prop :=
  (key_type = str "email" /\ exists p b, q = p ++ [b] /\ u = p ++ [(b + 128) mod 256]) \/
  (key_type <> str "email" /\ exists w, (w < 2 ^ 64)%N /\ q = uint64ToString w /\
     u = uint64ToString ((w + 92233697311) mod 2 ^ 64)).

(** The right answer: [q] is a key; some key is at least [q] and below the
    upper end. *)
Definition right (key_type : bytes) (keys : list bytes) (x : query) : Prop :=
  match x with
  | Point q => In q keys
  | Range q => exists u k, upper key_type q u /\ In k keys /\ kle q k /\ klt k u
  end.

(** The filter answers "yes". *)
Definition yes (e : env) (key_type : bytes) (flt : filter) (x : query) : Prop :=
  match x with
  | Point q => lookup e flt q = Ok true
  | Range q => exists u flt', upper key_type q u /\ lookupRange e flt q u = Ok (true, flt')
  end.

(** A query the filter can be asked. *)
Definition proper (key_type : bytes) (x : query) : Prop :=
  match x with
  | Point q => is_bytes q
  | Range q => is_bytes q /\ exists u, upper key_type q u
  end.

(** A range query with a key in its range runs into none of the exceptions of
    C04, and does not go to a Bloom filter. *)
Definition fair (e : env) (key_type : bytes) (keys : list bytes) (o : option config) (flt : filter) (x : query) : Prop :=
  match x with
  | Point _ => True
  | Range q => right key_type keys x -> exists c f it, o = Some c /\ flt = FSurf f it /\
      ~ trap e c keys (getSparseStartLevel f) q /\ forall u, upper key_type q u -> ~ short_bound c keys u
  end.

(** The arguments the program runs with; all others end it with code -1.  "mixed"
    and every unknown workload type are accepted, "alterByte" is not. *)
Definition accepted (a : args) : Prop :=
  In (a_filter a) (map str ["SuRF"; "SuRFHash"; "SuRFReal"; "SuRFMixed"; "Bloom"; "ARF"]%string) /\
  1 <= a_len a <= 64 /\ a_workload a <> str "alterByte" /\ a_percent a <= 100 /\
  In (a_key a) (map str ["randint"; "timestamp"; "email"]%string) /\
  In (a_query a) (map str ["point"; "range"; "mix"; "count-long"; "count-short"]%string) /\
  In (a_dist a) (map str ["uniform"; "zipfian"; "latest"]%string).

(** The intervals of the counting queries: two consecutive keys in order, or a
    key and its upper end. *)
Definition intervals (kind key_type : bytes) (txn : list bytes) (ps : list (bytes * bytes)) : Prop :=
  (kind = str "count-long" /\ List.length ps = List.length txn - 1 /\
   forall i a b, nth_error txn i = Some a -> nth_error txn (S i) = Some b ->
     exists l r, nth_error ps i = Some (l, r) /\ kle l r /\ ((l = a /\ r = b) \/ (l = b /\ r = a))) \/
  (kind = str "count-short" /\ Forall2 (fun q p => fst p = q /\ upper key_type q (snd p)) txn ps).

(** The count of the interval is not zero. *)
Definition counted (e : env) (flt : filter) (p : bytes * bytes) : Prop :=
  exists f it n, flt = FSurf f it /\ Surf.approxCount e f (fst p) (snd p) = Ok n /\ n <> 0%N.
