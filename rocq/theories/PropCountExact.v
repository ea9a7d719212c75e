(** What approxCount counts between a stored key and any string: C26.  Only
    property theorems and examples. *)
From Coq Require Import Arith List NArith Bool Lia.
From Verif Require Import Res Config Builder Dense Sparse Surf Spec SpecApi SpecFilter SpecIter SpecRange SpecCount SpecExact CountExact
  Samples SamplesIter SamplesRange SamplesCount.
Import ListNotations.

(** [k] is the key the seek for [r] leads to, the last one if there is none. *)
Theorem C26_count_exact : forall e c keys f,
  machine e -> settings c -> good_keys keys -> ~ lone_ff keys -> filter_of e c keys f -> plain_top keys (getSparseStartLevel f) ->
  forall l r p, In l keys -> is_bytes r -> ~ stray e keys (getSparseStartLevel f) r ->
  seek_at c keys (getSparseStartLevel f) r true p ->
  let k := nth (match p with Some i => i | None => length (uniq keys) - 1 end) (uniq keys) [] in
  SpecCount.reaches keys (getSparseStartLevel f) k \/ ~ last_level_prefix keys (getSparseStartLevel f) ->
  (forall m, approxCount e f l r = Ok m -> exists xs, lists keys xs (fun x => klt l x /\ klt x k) /\ m = N.of_nat (length xs)) /\
  ((kle l k -> room keys (getSparseStartLevel f) l k) -> (klt k l -> room keys (getSparseStartLevel f) k l) -> exists m, approxCount e f l r = Ok m).
Proof. exact count_exact. Qed.
Print Assumptions C26_count_exact.

(** Keys "a", "ab", "b1", "b2", "b3", "cat", "dxa", "dxb" and the count from "a" to
    "cb".  Without suffixes the right seek stays at "cat": 4 keys lie between.
    With 8 real bits it goes past "cat" to "dxa": 5. *)
Example C26_count_exact_ex :
  counted e0 c_none keys_c [97] [99; 98] = Ok 4%N /\ counted e0 c_real keys_c [97] [99; 98] = Ok 5%N /\
  seek_at c_none keys_c 1 [99; 98] true (Some 5) /\
  exists f, create e0 c_none keys_c = Ok f /\ getSparseStartLevel f = 1 /\ plain_top keys_c 1 /\ ~ stray e0 keys_c 1 [99; 98] /\
  SpecCount.reaches keys_c 1 [99; 97; 116].
Proof.
  split; [vm_compute; reflexivity|]. split; [vm_compute; reflexivity|].
  assert (D : dist_len keys_c [99; 97; 116] 1) by (apply dist_len_check; reflexivity).
  split.
  { assert (U : uniq keys_c = keys_c) by (vm_compute; reflexivity). unfold seek_at. rewrite U.
    split; [cbn; lia|]. split.
    - intros [(L & NF)|[(KR & _)|(X & _)]]; [apply NF; exists 1; split; [exact D|reflexivity]|destruct KR as [KR|KR]; discriminate|discriminate].
    - intros x X. left. assert (P : forall y, In y (firstn 5 keys_c) -> klt y [99; 98] /\ ~ follows keys_c y [99; 98]).
      { intros y Y. split; [repeat (destruct Y as [<-|Y]; [apply kltb_ok; reflexivity|]); destruct Y|].
        intros (d & (D1 & _) & F). destruct d; [lia|]. destruct d;
        repeat (destruct Y as [<-|Y]; [discriminate F|]); destruct Y. }
      apply P. do 5 (destruct x; [apply inb_in; reflexivity|]). lia. }
  destruct (made e0 c_none keys_c 1 ltac:(vm_compute; reflexivity)) as (f & E & H). exists f. split; [exact E|]. split; [exact H|].
  split; [apply plain_check; reflexivity|]. split; [apply (no_stray_check _ c_none); reflexivity|].
  exists [99; 97; 116], 1. split; [apply inb_in; reflexivity|]. split; [left; right; reflexivity|]. split; [exact D|auto].
Qed.
