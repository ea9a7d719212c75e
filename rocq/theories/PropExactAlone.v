(** The exact outcome of seeks and comparisons of LoudsSparse and LoudsDense
    alone, and of filters without dense levels: C57.  Only property theorems and
    examples. *)
From Coq Require Import Arith List NArith ZArith Bool Lia.
From Verif Require Import Res Config Builder Dense Sparse Surf Spec SpecApi SpecFilter SpecIter SpecRange SpecBare SpecAlone SpecDAlone SpecCountAlone
  SpecExact ExactAlone Samples SamplesIter SamplesRange.
Import ListNotations.

Theorem C57_sparse_seek : forall e c keys s,
  good_keys keys -> machine e -> sparse_settings c -> two_keys keys -> s_part e c keys s ->
  forall q incl, is_bytes q -> ~ stray e keys 0 q -> exists fp it p,
  s_moveToKeyGreaterThan e s q incl (siter_new s) = Ok (fp, it) /\ seek_at c keys 0 q incl p /\
  match p with
  | Some i => stands_alone e c s keys it i /\ (fp = true <-> flagged keys 0 q (nth i (uniq keys) []))
  | None => si_valid it = false
  end.
Proof. exact sparse_seek_exact. Qed.
Print Assumptions C57_sparse_seek.

Theorem C57_sparse_compare : forall e c keys s,
  good_keys keys -> machine e -> sparse_settings c -> two_keys keys -> s_part e c keys s ->
  forall it i q, s_shows e c s keys it i -> is_bytes q -> exists z,
  si_compare e s it q = Ok z /\ cmp_exact c keys 0 (nth i (uniq keys) []) q z.
Proof. exact sparse_compare_exact. Qed.
Print Assumptions C57_sparse_compare.

Theorem C57_dense_seek : forall e c keys d,
  good_keys keys -> machine e -> dense_settings c -> ~ lone_ff keys -> d_part e c keys d ->
  forall q incl, is_bytes q -> ~ (q = [] /\ asserts e = true) -> exists fp it p,
  d_moveToKeyGreaterThan e d q incl (diter_new d) = Ok (fp, it) /\ seek_at c keys (d_height d) q incl p /\
  match p with
  | Some i => d_stands e c d keys it i /\ (fp = true <-> flagged keys (d_height d) q (nth i (uniq keys) []))
  | None => di_valid it = false
  end.
Proof. exact dense_seek_exact. Qed.
Print Assumptions C57_dense_seek.

Theorem C57_dense_compare : forall e c keys d,
  good_keys keys -> machine e -> dense_settings c -> ~ lone_ff keys -> d_part e c keys d ->
  forall it i q, d_shows e c d keys it i -> is_bytes q -> exists z,
  di_compare e d it q = Ok z /\ cmp_exact c keys (d_height d) (nth i (uniq keys) []) q z.
Proof. exact dense_compare_exact. Qed.
Print Assumptions C57_dense_compare.

Theorem C57_bare_seek : forall e c keys f,
  good_keys keys -> machine e -> bare_settings c -> two_keys keys -> filter_of e c keys f ->
  forall q incl, is_bytes q -> ~ stray e keys 0 q -> exists p, seek_at c keys 0 q incl p /\
  match p with
  | Some i => exists it, moveToKeyGreaterThan e f q incl = Ok it /\ stands_bare e c f keys it i /\
                         (it_fp it = true <-> flagged keys 0 q (nth i (uniq keys) []))
  | None => moveToKeyGreaterThan e f q incl = Fail (off_end e)
  end.
Proof. exact bare_seek_exact. Qed.
Print Assumptions C57_bare_seek.

Theorem C57_bare_less : forall e c keys f,
  good_keys keys -> machine e -> bare_settings c -> two_keys keys -> filter_of e c keys f ->
  forall q incl, is_bytes q -> ~ stray e keys 0 q -> exists p, seek_at c keys 0 q false p /\
  match p with
  | Some i =>
      (flagged keys 0 q (nth i (uniq keys) []) -> exists it, moveToKeyLessThan e f q incl = Ok it /\ stands_bare e c f keys it i) /\
      (~ flagged keys 0 q (nth i (uniq keys) []) ->
         match i with
         | S (S j) => exists it, moveToKeyLessThan e f q incl = Ok it /\ stands_bare e c f keys it j
         | _ => moveToKeyLessThan e f q incl = Fail (off_end e)
         end)
  | None => moveToKeyLessThan e f q incl = Fail (off_end e)
  end.
Proof. exact bare_less_exact. Qed.
Print Assumptions C57_bare_less.

Theorem C57_bare_range : forall e c keys f,
  good_keys keys -> machine e -> bare_settings c -> two_keys keys -> filter_of e c keys f ->
  forall it l li r ri, member_iter e f it -> is_bytes l -> is_bytes r -> ~ stray e keys 0 l -> no_clash keys r ->
  exists p, seek_at c keys 0 l li p /\
  match p with
  | Some i => exists b, range_after e f it l li r ri = Ok b /\ (b = true <-> reaches c keys 0 (nth i (uniq keys) []) r)
  | None => range_after e f it l li r ri = Fail (off_end e)
  end.
Proof. exact bare_range_exact. Qed.
Print Assumptions C57_bare_range.

(** Keys "ca" and "d" with 16 real bits: "ca" is told apart by "c", ends inside
    its suffix and so keeps zero.  The seek for "cZx" goes past it to "d" in both
    classes, although "ca" is above "cZx"; the seek for "cZ" has suffix zero as
    well and stays at "ca" with its flag raised.  A comparison of the first key
    with "cZx" says it is smaller. *)
Definition keys_cd : list bytes := [[99; 97]; [100]].
Example C57_ex :
  let cs := mkCfg false 16 kReal 0 16 in let cd := mkCfg true 0 kReal 0 16 in
  let on_s := fun A (k : sparse -> res A) => b <- build e0 cs keys_cd ;; s <- sparse_make e0 b ;; k s in
  let on_d := fun A (k : dense -> res A) => b <- build e0 cd keys_cd ;; d <- dense_make e0 b ;; k d in
  good_keys keys_cd /\ two_keys keys_cd /\ ~ lone_ff keys_cd /\ sparse_settings cs /\ dense_settings cd /\
  ~ stray e0 keys_cd 0 [99; 90; 120] /\ klt [99; 90; 120] [99; 97] /\
  on_s _ (fun s => '(fp, it) <- s_moveToKeyGreaterThan e0 s [99; 90; 120] true (siter_new s) ;; k <- si_getKey it ;; Ok (fp, k)) = Ok (false, [100]) /\
  on_s _ (fun s => '(fp, it) <- s_moveToKeyGreaterThan e0 s [99; 90] true (siter_new s) ;; k <- si_getKey it ;; Ok (fp, k)) = Ok (true, [99]) /\
  on_s _ (fun s => it <- s_first e0 s ;; si_compare e0 s it [99; 90; 120]) = Ok (-1)%Z /\
  on_d _ (fun d => '(fp, it) <- d_moveToKeyGreaterThan e0 d [99; 90; 120] true (diter_new d) ;; k <- di_getKey it ;; Ok (fp, k)) = Ok (false, [100]) /\
  on_d _ (fun d => '(fp, it) <- d_moveToKeyGreaterThan e0 d [99; 90] true (diter_new d) ;; k <- di_getKey it ;; Ok (fp, k)) = Ok (true, [99]) /\
  on_d _ (fun d => it <- d_first e0 d ;; di_compare e0 d it [99; 90; 120]) = Ok (-1)%Z.
Proof.
  cbv zeta. split; [apply good_keysb_ok; reflexivity|].
  split; [exists [99; 97], [100]; split; [left; reflexivity|]; split; [right; left; reflexivity|discriminate]|].
  split; [intros (k & H & _); apply in_inb in H; discriminate|].
  split; [repeat split; cbn; lia|]. split; [repeat split; cbn; lia|].
  split; [apply (no_stray_check _ c_none); reflexivity|]. split; [apply kltb_ok; reflexivity|].
  repeat split; vm_compute; reflexivity.
Qed.

(** Keys "a", "ab", "b1", "b2", "cat" without dense levels and suffixes. *)
Example C57_bare_ex : bare_settings c_nodense /\ two_keys keys1 /\ ~ stray e0 keys1 0 [98] /\ ~ stray e0 keys1 0 [100] /\ no_clash keys1 [98; 48] /\
  ranged e0 c_nodense keys1 [98] true [98; 48] true = Ok false /\
  ranged e0 c_nodense keys1 [98] true [98; 49] true = Ok true /\
  ranged e0 c_nodense keys1 [100] true [101] true = Fail AssertFail /\ off_end e0 = AssertFail /\
  at_lt e0 c_nodense keys1 [98; 120] true = Ok (true, false, [98; 49]) /\ at_lt e0 c_nodense keys1 [99; 98] true = Ok (true, true, [99]) /\
  at_lt e0 c_nodense keys1 [97; 97] true = Fail AssertFail.
Proof.
  split; [repeat split; cbn; lia|].
  split; [exists [97], [97; 98]; split; [apply inb_in; reflexivity|]; split; [apply inb_in; reflexivity|discriminate]|].
  split; [apply (no_stray_check _ c_none); reflexivity|]. split; [apply (no_stray_check _ c_none); reflexivity|].
  split; [|repeat split; vm_compute; reflexivity].
  intros k d K (D1 & D2 & D3). destruct (le_lt_dec d 10) as [L|L]; [cbn [length]; lia|exfalso].
  destruct (D3 10) as (k' & K' & NE & EQ); [lia|]. apply NE.
  assert (S : forall x, In x keys1 -> firstn 10 x = x) by (intros x [<-|[<-|[<-|[<-|[<-|[<-|[]]]]]]]; reflexivity).
  rewrite (S k K), (S k' K') in EQ. exact EQ.
Qed.
