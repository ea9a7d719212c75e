(** * Model of simple_example.cpp: the example program. *)
From Coq Require Import List NArith Arith Bool String Ascii.
From Verif Require Import Res Word Config Suffix Builder Surf.
Import ListNotations.
Local Open Scope string_scope.

(** ** The two short constructors of SuRF
    config.hpp:21-23 kIncludeDense, kSparseDenseRatio;
    surf.hpp:59-61 SuRF(keys) and surf.hpp:63-66 SuRF(keys, type, hash, real). *)
Definition kIncludeDense : bool := true.
Definition kSparseDenseRatio : N := 16.
Definition surf_plain (e : env) (keys : list key) : res surf :=
  create e (mkCfg kIncludeDense kSparseDenseRatio kNone 0 0) keys.
Definition surf_suffix (e : env) (keys : list key) (t : suffix_type) (h r : nat) : res surf :=
  create e (mkCfg kIncludeDense kSparseDenseRatio t h r) keys.

(** The bytes of a string literal. *)
Fixpoint lit (s : string) : key :=
  match s with EmptyString => [] | String c t => nat_of_ascii c :: lit t end.

(** simple_example.cpp:36-55, the line one point query prints. *)
Definition point_line (found : bool) (k name : string) : string :=
  if found then "False Positive: " ++ k ++ " found in " ++ name
  else "Correct: " ++ k ++ " NOT found in " ++ name.

(** simple_example.cpp:65-91, the line one range query prints. *)
Definition range_line (found : bool) (l r name : string) : string :=
  (if found then "False Positive: There exist key(s) within range ["
   else "Correct: No key exists within range [")
  ++ l ++ ", " ++ r ++ ") " ++ "according to " ++ name.

(** simple_example.cpp:8-94 main(): what it writes to std::cout, line by line.
    The keys are a parameter here so that the theorems can say what they matter
    for; main() is [example e example_keys]. *)
Definition example_keys : list key :=
  map lit ["f"; "far"; "fast"; "s"; "top"; "toy"; "trie"].

Definition example (e : env) (keys : list key) : res (list string) :=
  surf_basic <- surf_plain e keys ;;
  surf_hash <- surf_suffix e keys kHash 8 0 ;;
  surf_real <- surf_suffix e keys kReal 0 8 ;;
  surf_mixed <- create e (mkCfg true 16 kMixed 4 4) keys ;;
  let key := "fase" in
  p1 <- lookupKey e surf_basic (lit key) ;;
  p2 <- lookupKey e surf_hash (lit key) ;;
  p3 <- lookupKey e surf_real (lit key) ;;
  p4 <- lookupKey e surf_mixed (lit key) ;;
  let l := "fare" in let r := "fase" in
  r1 <- lookupRange e surf_basic (lit l) true (lit r) false ;;
  r2 <- lookupRange e surf_hash (lit l) true (lit r) false ;;
  r3 <- lookupRange e surf_real (lit l) true (lit r) false ;;
  r4 <- lookupRange e surf_mixed (lit l) true (lit r) false ;;
  Ok ["Point Query Example: fase";
      point_line p1 key "basic SuRF"; point_line p2 key "SuRF hash";
      point_line p3 key "SuRF real"; point_line p4 key "SuRF mixed";
      ""; "Range Query Example: [fare, fase)";
      range_line r1 l r "basic SuRF"; range_line r2 l r "SuRF hash";
      range_line r3 l r "SuRF real"; range_line r4 l r "SuRF mixed"].
