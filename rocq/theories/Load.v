(** bench.hpp: reading the key files; workload.cpp from the file contents on.

    The streams are those of libstdc++ in the classic locale.  Simplified: a
    file is its contents, reading never fails half way, and of the state of a
    stream only good() is kept. *)
From Coq Require Import Arith List NArith Bool String.
From Verif Require Import Res Word Config Bench.
Import ListNotations.
Open Scope nat_scope.

Record stream := mkStream { st_rest : list nat; st_good : bool }.

(** std::isspace: tab, newline, vertical tab, form feed, return, space *)
Definition isspace (b : nat) : bool := ((9 <=? b) && (b <=? 13)) || (b =? 32).

Fixpoint skip_spaces (l : list nat) : list nat :=
  match l with
  | b :: t => if isspace b then skip_spaces t else l
  | [] => []
  end.
Fixpoint take_while (p : nat -> bool) (l : list nat) : list nat * list nat :=
  match l with
  | b :: t => if p b then let '(x, y) := take_while p t in (b :: x, y) else ([], l)
  | [] => ([], [])
  end.
Definition at_end (l : list nat) : bool := match l with [] => true | _ => false end.

(** operator>> for std::string: if only spaces are left, eofbit and failbit are
    set and the string stays as it was; eofbit is set by a word that ends with
    the file *)
Definition read_string (s : stream) (k : key) : stream * key :=
  if negb (st_good s) then (s, k)
  else
    let l := skip_spaces (st_rest s) in
    if at_end l then (mkStream [] false, k)
    else let '(w, r) := take_while (fun b => negb (isspace b)) l in (mkStream r (negb (at_end r)), w).

Definition isdigit (b : nat) : bool := (48 <=? b) && (b <=? 57).
Definition digits_value (l : list nat) : N := fold_left (fun a b => (10 * a + N.of_nat (b - 48))%N) l 0%N.

(** operator>> for uint64_t: a sign, then digits; no digits give 0 and failbit,
    too large a number gives 2^64-1 and failbit.  If only spaces are left the
    variable stays as it was. *)
Definition read_uint64 (s : stream) (v : N) : stream * N :=
  if negb (st_good s) then (s, v)
  else
    let l := skip_spaces (st_rest s) in
    if at_end l then (mkStream [] false, v)
    else
      let '(negative, l) := match l with
                            | b :: t => if b =? 45 then (true, t) else if b =? 43 then (false, t) else (false, l)
                            | [] => (false, l)
                            end in
      let '(ds, r) := take_while isdigit l in
      let n := digits_value ds in
      if at_end ds then (mkStream r false, 0%N)
      else if (two64 <=? n)%N then (mkStream r false, (two64 - 1)%N)
      else (mkStream r (negb (at_end r)), if negative then wrap64 (two64 - n) else n).

(** bench.hpp:22-23 *)
Definition kNumIntRecords : N := 100000000.
Definition kNumEmailRecords : N := 25000000.

(** bench.hpp:68-72; [k] is the variable key, which is empty at first *)
Fixpoint load_strings (fuel : nat) (count : N) (s : stream) (k : key) : res (list key) :=
  match fuel with
  | O => Fail NoFuel
  | S fuel =>
      if (count <? kNumEmailRecords)%N && st_good s then
        let '(s, k) := read_string s k in
        l <- load_strings fuel (count + 1) s k ;; Ok (k :: l)
      else Ok []
  end.

(** bench.hpp:60-66; int_key is not initialised, [stale] is what it holds in a
    round that does not set it *)
Fixpoint load_ints (fuel : nat) (count : N) (s : stream) (stale : N) : res (list key) :=
  match fuel with
  | O => Fail NoFuel
  | S fuel =>
      if (count <? kNumIntRecords)%N && st_good s then
        let '(s, v) := read_uint64 s stale in
        l <- load_ints fuel (count + 1) s stale ;; Ok (uint64ToString v :: l)
      else Ok []
  end.

(** bench.hpp:54-74; None is a file that cannot be opened *)
Definition loadKeysFromFile (file : option (list nat)) (is_key_int : bool) (stale : N) : res (list key) :=
  let s := match file with None => mkStream [] false | Some l => mkStream l true end in
  if is_key_int then load_ints (2 + List.length (st_rest s)) 0 s stale
  else load_strings (2 + List.length (st_rest s)) 0 s [].

(** workload.cpp:4-237 with the contents of the two files *)
Definition workload (e : env) (sz : N) (shuffle : list key -> list key) (a : args)
  (load_file txn_file : option (list nat)) (stale1 stale2 : N) : res (option report) :=
  if negb (check_args a) then Ok None
  else
    load <- loadKeysFromFile load_file (negb (is (a_key a) "email")) stale1 ;;
    txn <- loadKeysFromFile txn_file (negb (is (a_key a) "email")) stale2 ;;
    main e sz shuffle a load txn.
