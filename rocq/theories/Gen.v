(** bench/workload_gen/gen_load.py and gen_txn.py (Python 2).

    YCSB, which the scripts start, is not part of the repository: what it prints
    is the argument [log].  A file is its contents and can be opened.  Not
    modelled: the messages, the files removed at the end, what is already written
    when an exception ends a script, the carriage returns of other systems. *)
From Coq Require Import Arith List NArith ZArith Bool String.
From Verif Require Import Res Config Bench Load.
Import ListNotations.
Open Scope nat_scope.

Inductive py_error := IndexError | ZeroDivisionError | KeyError | ValueError.
Inductive py (A : Type) := Done (a : A) | Raise (x : py_error).
Arguments Done {A} a.
Arguments Raise {A} x.

(** "for line in file", readlines(): each line with its newline, the last one
    perhaps without *)
Fixpoint lines_from (cur l : list nat) : list (list nat) :=
  match l with
  | [] => match cur with [] => [] | _ => [rev cur] end
  | b :: t => if b =? 10 then rev (b :: cur) :: lines_from [] t else lines_from (b :: cur) t
  end.
Definition lines (l : list nat) : list (list nat) := lines_from [] l.

(** str.split() *)
Fixpoint cols_from (fuel : nat) (l : list nat) : list (list nat) :=
  match fuel with
  | O => []
  | S fuel =>
      let l := skip_spaces l in
      if at_end l then []
      else let '(w, r) := take_while (fun b => negb (isspace b)) l in w :: cols_from fuel r
  end.
Definition cols (l : list nat) : list (list nat) := cols_from (S (List.length l)) l.

(** str.partition(c) *)
Fixpoint partition (c : nat) (l : list nat) : list nat * list nat * list nat :=
  match l with
  | [] => ([], [], [])
  | b :: t => if b =? c then ([], [c], t) else let '(x, s, y) := partition c t in (b :: x, s, y)
  end.
(** str.split(c) *)
Fixpoint split_on (c : nat) (l : list nat) : list (list nat) :=
  match l with
  | [] => [[]]
  | b :: t =>
      if b =? c then [] :: split_on c t
      else match split_on c t with x :: r => (b :: x) :: r | [] => [[b]] end
  end.

(** int() of a column *)
Definition py_int (w : list nat) : option Z :=
  let '(negative, l) := match w with
                        | b :: t => if b =? 45 then (true, t) else if b =? 43 then (false, t) else (false, w)
                        | [] => (false, w)
                        end in
  if at_end l || negb (forallb isdigit l) then None
  else Some (if negative then - Z.of_N (digits_value l) else Z.of_N (digits_value l))%Z.

(** gen_load.py:16-22, gen_txn.py:16-22 *)
Definition reverseHostName (email : list nat) : list nat :=
  let '(name, sep, host) := partition 64 email in
  let hostparts := split_on 46 (removelast host) in
  fold_left (fun r part => part ++ [46] ++ r) hostparts [] ++ sep ++ name.

(** gen_load.py:49-55, gen_txn.py:49-55 *)
Definition gen_args (key_type dist : key) : bool :=
  (is key_type "randint" || is key_type "timestamp" || is key_type "email") &&
  (is dist "uniform" || is dist "zipfian" || is dist "latest").

(** gen_load.py:69-72, gen_txn.py:69-72: the file of YCSB keys *)
Definition ycsb_keys (verb : list nat) (log : list nat) : list nat :=
  flat_map (fun line => match cols line with
                        | c0 :: _ :: c2 :: _ => if str_eq c0 verb then skipn 4 c2 ++ [10] else []
                        | _ => []
                        end) (lines log).

(** gen_load.py:97-102, 121-126: the load file and the key map *)
Fixpoint rows (pick : nat -> py (list nat)) (keys : list (list nat)) (count : nat) : py (list nat * list nat) :=
  match keys with
  | [] => Done ([], [])
  | line :: t =>
      match pick count with
      | Raise x => Raise x
      | Done item =>
          match cols line with
          | [] => Raise IndexError
          | c0 :: _ =>
              match rows pick t (S count) with
              | Raise x => Raise x
              | Done (load, keymap) => Done (item ++ load, c0 ++ [32] ++ item ++ keymap)
              end
          end
      end
  end.
Definition item_at (l : list (list nat)) (i : nat) : py (list nat) :=
  match nth_error l i with Some x => Done x | None => Raise IndexError end.

(** gen_load.py:43 *)
Definition email_list_size : N := 27549660.

(** gen_load.py; None is an early exit, the key map None is one not written *)
Definition gen_load (key_type dist : key) (log emails timestamps : list nat) : py (option (list nat * option (list nat))) :=
  if negb (gen_args key_type dist) then Done None
  else
    let keys := lines (ycsb_keys (str "INSERT") log) in
    let some r := match r with Raise x => Raise x | Done (load, keymap) => Done (Some (load, Some keymap)) end in
    if is key_type "randint" then Done (Some (List.concat keys, None))
    else if is key_type "timestamp" then some (rows (item_at (lines timestamps)) keys 0)
    else
      let sample_size := List.length keys in
      if sample_size =? 0 then Raise ZeroDivisionError
      else
        let gap := N.to_nat (email_list_size / N.of_nat sample_size) in
        some (rows (fun count => match item_at (lines emails) (count * gap) with
                                 | Raise x => Raise x
                                 | Done x => Done (reverseHostName x ++ [10])
                                 end) keys 0).

(** gen_txn.py:90-92, 106-108: the dictionary, the last entry first *)
Fixpoint read_map (m : list (list nat)) (d : list (Z * list nat)) : py (list (Z * list nat)) :=
  match m with
  | [] => Done d
  | line :: t =>
      match cols line with
      | c0 :: c1 :: _ => match py_int c0 with Some v => read_map t ((v, c1) :: d) | None => Raise ValueError end
      | _ => Raise IndexError
      end
  end.
Fixpoint look (d : list (Z * list nat)) (v : Z) : option (list nat) :=
  match d with
  | [] => None
  | (x, s) :: t => if (x =? v)%Z then Some s else look t v
  end.
(** gen_txn.py:97-100, 113-116 *)
Fixpoint queries (d : list (Z * list nat)) (keys : list (list nat)) : py (list nat) :=
  match keys with
  | [] => Done []
  | line :: t =>
      match cols line with
      | [] => queries d t
      | c0 :: _ =>
          match py_int c0 with
          | None => Raise ValueError
          | Some v =>
              match look d v with
              | None => Raise KeyError
              | Some s => match queries d t with Raise x => Raise x | Done q => Done (s ++ [10] ++ q) end
              end
          end
      end
  end.

(** gen_txn.py; [keymap] is the file of the key type *)
Definition gen_txn (key_type dist : key) (log keymap : list nat) : py (option (list nat)) :=
  if negb (gen_args key_type dist) then Done None
  else
    let keys := lines (ycsb_keys (str "READ") log) in
    if is key_type "randint" then Done (Some (List.concat keys))
    else
      match read_map (lines keymap) [] with
      | Raise x => Raise x
      | Done d => match queries d keys with Raise x => Raise x | Done q => Done (Some q) end
      end.
