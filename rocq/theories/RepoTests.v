(** The tests of the repository, run on the model with less data: a check that
    the model gives what the authors expect, not part of any proof. *)
From Coq Require Import Arith List NArith ZArith Bool String.
From Verif Require Import Res Config Builder IntKeys Bench Dense Sparse Surf Samples.
Import ListNotations.
Open Scope nat_scope.

(** The keys of the example in the paper, used by all three tests *)
Definition paper : list key :=
  map str ["f"; "far"; "fas"; "fast"; "fat"; "s"; "top"; "toy"; "trie"; "trip"; "try"]%string.

(** test_surf_small.cpp:24-50 *)
Definition surf_small (e : env) : res (list bool) :=
  f <- create e (mkCfg true 16 kReal 0 8) paper ;;
  a <- lookupRange e f (str "top") false (str "toyy") false ;;
  b <- lookupRange e f (str "toq") false (str "toyy") false ;;
  c <- lookupRange e f (str "trie") false (str "tripp") false ;;
  it <- moveToKeyGreaterThan e f (str "t") true ;;
  '(_, it2) <- it_next e f it ;;
  Ok [a; b; c; it_valid it; it_valid it2].
Example surf_small_passes : surf_small e0 = Ok [true; true; true; true; true].
Proof. vm_compute. reflexivity. Qed.

(** test_louds_sparse_small.cpp:26-52: asserted are a valid iterator, "top", "toy" *)
Definition sparse_small (e : env) : res (bool * key * key) :=
  b <- build e (mkCfg false 0 kReal 0 8) paper ;;
  s <- sparse_make e b ;;
  '(_, it) <- s_moveToKeyGreaterThan e s (str "to") true (siter_new s) ;;
  k1 <- si_getKey it ;;
  it2 <- si_next e s it ;;
  k2 <- si_getKey it2 ;;
  Ok (si_valid it, k1, k2).
Example sparse_small_passes : sparse_small e0 = Ok (true, str "top", str "toy").
Proof. vm_compute. reflexivity. Qed.

(** test_louds_dense_small.cpp:26-56: "top", "toy"; after clear(), "fas" *)
Definition dense_small (e : env) : res (bool * key * key * bool * key) :=
  b <- build e (mkCfg true 0 kReal 0 8) paper ;;
  d <- dense_make e b ;;
  '(_, it) <- d_moveToKeyGreaterThan e d (str "to") true (diter_new d) ;;
  k1 <- di_getKey it ;;
  it2 <- di_next e d it ;;
  k2 <- di_getKey it2 ;;
  '(_, it3) <- d_moveToKeyGreaterThan e d (str "fas") true (diter_clear it2) ;;
  k3 <- di_getKey it3 ;;
  Ok (di_valid it, k1, k2, di_valid it3, k3).
Example dense_small_passes : dense_small e0 = Ok (true, str "top", str "toy", true, str "fas").
Proof. vm_compute. reflexivity. Qed.

(** ** test_surf.cpp, on some lines of words.txt and fewer integers *)
Definition words_txt : list key := map str
  ["a"; "aa"; "aal"; "aalii"; "aam"; "aani"; "aardvark"; "aardwolf"; "aaron"; "aaronic"; "aaronical"; "aaronite"; "aaronitic"; "aaru"; "ab"; "aba"; "amphibiously"; "berossos"; "chondriomere"; "deceivableness"; "epictetian"; "glaciomarine"; "immergent"; "lepidopterid"; "mossless"; "outsnore"; "plasmolytically"; "quinoidine"; "scullful"; "storekeeping"; "tonguey"; "unintrospective"; "windermost"]%string.

(** test_surf.cpp:62-75 isEqual (the masks are on non-negative characters) *)
Definition isEqual (a b : key) (bitlen : nat) : bool :=
  if bitlen =? 0 then str_eq a b
  else str_eq (removelast a) (removelast b) && (last a 0 / 2 ^ (8 - bitlen) =? last b 0 / 2 ^ (8 - bitlen)).
Definition shows (e : env) (f : surf) (it : iter) (w : key) : res bool :=
  if negb (it_valid it) then Ok false
  else '(k, bitlen) <- it_getKeyWithSuffix e f it ;; Ok (isEqual (firstn (List.length k) w) k bitlen).
Fixpoint allM (l : list (res bool)) : res bool :=
  match l with
  | [] => Ok true
  | x :: t => b <- x ;; r <- allM t ;; Ok (b && r)
  end.
Definition expect (b : bool) (x : res bool) : res bool := v <- x ;; Ok (Bool.eqb v b).
(** 3, 8 and 26 are left out *)
Definition lens : list nat := [1; 7; 13].
Definition settings_list : list config :=
  map (fun n => mkCfg true 16 kNone 0 0) [1] ++ map (fun n => mkCfg true 16 kHash n 0) lens ++
  map (fun n => mkCfg true 16 kReal 0 n) lens ++ map (fun n => mkCfg true 16 kMixed n n) lens.
Definition real_list : list config := skipn 4 settings_list.
Definition mixed_list : list config := skipn 7 settings_list.
Definition set_at (l : key) (j b : nat) : key := firstn j l ++ b :: skipn (S j) l.
Fixpoint common (a b : key) : nat :=
  match a, b with
  | x :: a, y :: b => if x =? y then S (common a b) else 0
  | _, _ => 0
  end.
(** test_surf.cpp:104-124 truncateWordSuffixes: the length, without the terminator *)
Definition trunc (ws : list key) (i : nat) : nat :=
  let w := nth i ws [] in
  let c := Nat.max (if i =? 0 then 0 else common (nth (i - 1) ws []) w) (if S i =? List.length ws then 0 else common w (nth (S i) ws [])) in
  Nat.min (S c) (List.length w).
Definition with_filter (e : env) (ws : list key) (c : config) (t : surf -> res bool) : res bool := f <- create e c ws ;; t f.

(** test_surf.cpp:137-155 testLookupWord *)
Definition lookupWordTest (e : env) (ws : list key) (c : config) : res bool :=
  with_filter e ws c (fun f =>
    a <- allM (map (lookupKey e f) ws) ;;
    match cf_type c with
    | kNone => Ok a
    | _ => b <- allM (flat_map (fun i => map (fun j => expect false (lookupKey e f (set_at (nth i ws []) j 65))) (seq 0 (trunc ws i)))
                       (seq 0 (List.length ws))) ;; Ok (a && b)
    end).
(** test_surf.cpp:202-292 moveToKeyGreaterThanWordTest, but for getSuffix *)
Definition greaterWordTest (e : env) (ws : list key) (c : config) : res bool :=
  with_filter e ws c (fun f =>
    let n := List.length ws in
    a <- (it <- moveToFirst e f ;; shows e f it (nth 0 ws [])) ;;
    b <- (it <- moveToLast e f ;; shows e f it (nth (n - 1) ws [])) ;;
    r <- allM (flat_map (fun incl => map (fun j =>
           it <- moveToKeyGreaterThan e f (nth j ws []) incl ;;
           if (S j =? n) && negb (it_fp it) then Ok (negb (it_valid it))
           else shows e f it (nth (if it_fp it then j else S j) ws [])) (seq 0 n)) [true; false]) ;;
    Ok (a && b && r)).
(** test_surf.cpp:338-376 moveToKeyLessThanWordTest *)
Definition lessWordTest (e : env) (ws : list key) (c : config) : res bool :=
  with_filter e ws c (fun f =>
    allM (flat_map (fun incl => map (fun j =>
      it <- moveToKeyLessThan e f (nth j ws []) incl ;;
      if (j =? 0) && negb (it_fp it) then Ok (negb (it_valid it))
      else shows e f it (nth (if it_fp it then j else j - 1) ws [])) (seq 0 (List.length ws))) [true; false])).
(** test_surf.cpp:415-437, 463-485 *)
Fixpoint walk (e : env) (f : surf) (step : iter -> res (bool * iter)) (it : iter) (l : list key) : res bool :=
  match l with
  | [] => '(_, it) <- step it ;; Ok (negb (it_valid it))
  | w :: t => '(_, it) <- step it ;; a <- shows e f it w ;; b <- walk e f step it t ;; Ok (a && b)
  end.
Definition incrementWordTest (e : env) (ws : list key) (c : config) : res bool :=
  with_filter e ws c (fun f => it <- moveToKeyGreaterThan e f (nth 0 ws []) true ;; walk e f (it_next e f) it (skipn 1 ws)).
Definition decrementWordTest (e : env) (ws : list key) (c : config) : res bool :=
  with_filter e ws c (fun f => it <- moveToKeyGreaterThan e f (last ws []) true ;; walk e f (it_prev e f) it (skipn 1 (rev ws))).
(** test_surf.cpp:512-540 lookupRangeWordTest *)
Definition rangeWordTest (e : env) (ws : list key) (c : config) : res bool :=
  with_filter e ws c (fun f =>
    allM ([lookupRange e f [1] true (nth 0 ws []) true; lookupRange e f [1] true (nth 0 ws []) false;
           lookupRange e f (last ws []) true (str "zzzzzzzz") false; lookupRange e f (last ws []) false (str "zzzzzzzz") false] ++
          flat_map (fun i => flat_map (fun li => map (fun ri => lookupRange e f (nth i ws []) li (nth (S i) ws []) ri) [true; false]) [true; false])
            (seq 0 (List.length ws - 1)))).

Definition all_ok (l : list (res bool)) : bool := forallb (fun r => match r with Ok b => b | Fail _ => false end) l.
Example lookupWordTest_passes : all_ok (map (lookupWordTest e0 words_txt) settings_list) = true.
Proof. vm_compute. reflexivity. Qed.
Example greaterWordTest_passes : all_ok (map (greaterWordTest e0 words_txt) real_list) = true.
Proof. vm_compute. reflexivity. Qed.
Example lessWordTest_passes : all_ok (map (lessWordTest e0 words_txt) mixed_list) = true.
Proof. vm_compute. reflexivity. Qed.
Example incrementWordTest_passes : all_ok (map (incrementWordTest e0 words_txt) settings_list) = true.
Proof. vm_compute. reflexivity. Qed.
Example decrementWordTest_passes : all_ok (map (decrementWordTest e0 words_txt) settings_list) = true.
Proof. vm_compute. reflexivity. Qed.
Example rangeWordTest_passes : all_ok (map (rangeWordTest e0 words_txt) settings_list) = true.
Proof. vm_compute. reflexivity. Qed.

(** test_surf.cpp:572-591 approxCountWordTest, from every start.  Where nothing
    behind the interval is as deep as the interval, the call reads out of
    bounds (DESIGN.md, finding 20): the test of the repository does so too. *)
Definition countWords (e : env) (ws : list key) (f : surf) (s j : nat) : res bool :=
  a <- moveToKeyGreaterThan e f (nth s ws []) true ;;
  b <- moveToKeyGreaterThan e f (nth j ws []) true ;;
  n <- approxCount_it e f a b ;; Ok (N.eqb n (N.of_nat (if s <? j then j - s - 1 else 0))).
Definition countWordTest (e : env) (ws : list key) (n : nat) (c : config) : res bool :=
  with_filter e ws c (fun f => allM (flat_map (fun s => map (countWords e ws f s) (seq s (n - s))) (seq 0 n))).
Example countWordTest_passes : all_ok (map (countWordTest e0 words_txt 10) [mkCfg true 16 kReal 0 8]) = true.
Proof. vm_compute. reflexivity. Qed.
Example countWordTest_reads_outside :
  match create e0 (mkCfg true 16 kReal 0 8) words_txt with
  | Ok f => match countWords e0 words_txt f 0 10 with Fail _ => true | Ok _ => false end
  | Fail _ => false
  end = true.
Proof. vm_compute. reflexivity. Qed.

(** kIntTestBound is 1000001 in the source and 301 here *)
Definition bound : nat := 301.
Definition skip : nat := 10.
Definition int_key (n : nat) : key := uint64ToString (N.of_nat n).
Definition ints : list key := map (fun i => int_key (i * skip)) (seq 0 31).
Definition down (j : nat) : nat := j - j mod skip.
Definition int_mixed : list config := map (fun n => mkCfg true 16 kMixed n n) [13].
(** test_surf.cpp:185-199 lookupIntTest, here also for the integers between *)
Definition lookupIntTest (e : env) (c : config) : res bool :=
  with_filter e ints c (fun f =>
    allM (map (fun i => expect (i mod skip =? 0) (lookupKey e f (int_key i))) (seq 0 bound))).
(** test_surf.cpp:295-336 moveToKeyGreaterThanIntTest *)
Definition greaterIntTest (e : env) (c : config) : res bool :=
  with_filter e ints c (fun f =>
    allM (flat_map (fun incl => map (fun j =>
      it <- moveToKeyGreaterThan e f (int_key j) incl ;;
      if (S j =? bound) && negb (it_fp it) then Ok (negb (it_valid it))
      else shows e f it (int_key (if it_fp it then down j else down j + skip))) (seq 0 bound)) [true; false])).
(** test_surf.cpp:378-412 moveToKeyLessThanIntTest *)
Definition lessIntTest (e : env) (c : config) : res bool :=
  with_filter e ints c (fun f =>
    allM (flat_map (fun incl => map (fun j =>
      it <- moveToKeyLessThan e f (int_key j) incl ;;
      if (j =? 0) && negb (it_fp it) then Ok (negb (it_valid it))
      else shows e f it (int_key (down j))) (0 :: seq skip (bound - skip))) [true; false])).
(** test_surf.cpp:542-570 lookupRangeIntTest *)
Definition rangeIntTest (e : env) (c : config) : res bool :=
  with_filter e ints c (fun f =>
    allM (flat_map (fun i =>
      expect (i mod skip =? 0) (lookupRange e f (int_key i) true (int_key i) true) ::
      map (fun j =>
        expect ((i mod skip =? 0) || ((i <? bound - 1) && ((i / skip <? (i + j) / skip) || ((i + j) mod skip =? 0))))
          (lookupRange e f (int_key i) false (int_key (i + j)) true)) (seq 1 (skip + 1))) (seq 0 bound))).
(** test_surf.cpp:593-612 approxCountIntTest.  All keys are equally deep and
    the trie has one more level, which is empty (builder: insertSuffix), so the
    count asks for a node behind the last one: finding 20 again.  Here are
    301 integers and the ratio is 1, for two dense levels. *)
Definition countInts (e : env) (f : surf) (s j : nat) : res N :=
  a <- moveToKeyGreaterThan e f (int_key s) true ;;
  b <- moveToKeyGreaterThan e f (int_key j) true ;;
  approxCount_it e f a b.
Definition countIntTest (e : env) : res (list (res N)) :=
  f <- create e (mkCfg true 1 kReal 0 8) (map (fun i => int_key (i * skip)) (seq 0 301)) ;;
  Ok [countInts e f 0 0; countInts e f 0 10; countInts e f 0 1500; countInts e f 750 3000].
Example lookupIntTest_passes : all_ok (map (lookupIntTest e0) int_mixed) = true.
Proof. vm_compute. reflexivity. Qed.
Example greaterIntTest_passes : all_ok (map (greaterIntTest e0) int_mixed) = true.
Proof. vm_compute. reflexivity. Qed.
Example lessIntTest_passes : all_ok (map (lessIntTest e0) int_mixed) = true.
Proof. vm_compute. reflexivity. Qed.
Example rangeIntTest_passes : all_ok (map (rangeIntTest e0) int_mixed) = true.
Proof. vm_compute. reflexivity. Qed.
Example countIntTest_reads_outside :
  countIntTest e0 = Ok [Ok 0%N; Fail OutOfBounds; Fail OutOfBounds; Fail OutOfBounds].
Proof. vm_compute. reflexivity. Qed.
