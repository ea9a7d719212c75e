(** approxCount between a stored key and any string, from the exact place of the
    right seek. *)
From Coq Require Import Arith List NArith Bool Lia.
From Verif Require Import Res Config Builder Dense Sparse Surf Spec SpecApi SpecFilter SpecIter SpecRange SpecCount SpecExact
  KeyFacts PointFacts IterApi RangeApi CountApi BackApi ExactFacts.
Import ListNotations.

Lemma count_exact : forall e c keys f,
  machine e -> settings c -> good_keys keys -> ~ lone_ff keys -> filter_of e c keys f -> plain_top keys (getSparseStartLevel f) ->
  forall l r p, In l keys -> is_bytes r -> ~ stray e keys (getSparseStartLevel f) r ->
  seek_at c keys (getSparseStartLevel f) r true p ->
  let k := nth (match p with Some i => i | None => length (uniq keys) - 1 end) (uniq keys) [] in
  SpecCount.reaches keys (getSparseStartLevel f) k \/ ~ last_level_prefix keys (getSparseStartLevel f) ->
  (forall m, approxCount e f l r = Ok m -> exists xs, lists keys xs (fun x => klt l x /\ klt x k) /\ m = N.of_nat (length xs)) /\
  ((kle l k -> room keys (getSparseStartLevel f) l k) -> (klt k l -> room keys (getSparseStartLevel f) k l) -> exists m, approxCount e f l r = Ok m).
Proof.
  intros e c keys f HM HC HG HL HF PT l r p Hl Hr NS SA k RE.
  destruct (seek_exact e c keys f HM HC HG HL HF r true Hr NS) as (b0 & p' & EB & SB & SA' & _).
  assert (p' = p) as -> by (eapply seek_at_unique; eauto).
  destruct (seek_stored e c keys f HM HC HG HL HF l Hl) as (a & s & EA & GA & TA & Hs & ES).
  set (j := match p with Some i => i | None => length (uniq keys) - 1 end) in *.
  assert (Hn : 0 < length (uniq keys)) by lia.
  assert (B : exists b, (if negb (it_valid b0) then moveToLast e f else Ok b0) = Ok b /\ gotten e f keys b /\
                        stands e c f keys b (Some j) /\ j < length (uniq keys)).
  { unfold j. destruct p as [i|].
    - rewrite (stands_valid _ _ _ _ _ _ SB). exists b0. split; [reflexivity|]. split; [apply (got_gt e f keys r true); auto|].
      split; [exact SB|]. apply SA.
    - rewrite (stands_end _ _ _ _ _ SB). cbn [negb]. destruct (last_at keys HG e c f HM HC HF HL) as (it & E & A).
      exists it. split; [exact E|]. split; [apply got_last, E|]. split; [|lia].
      apply (placed_stands keys HG e c f HM HC HF HL). split; [lia|exact A]. }
  destruct B as (b & EL & GB & TB & Hj).
  assert (X : approxCount e f l r = approxCount_it e f a b).
  { unfold approxCount. rewrite EA. cbn [bind]. rewrite (stands_valid _ _ _ _ _ _ TA). cbn [negb]. rewrite EB. cbn [bind]. rewrite EL. reflexivity. }
  rewrite X. destruct (klt_total l k) as [C|[C|C]].
  1, 2: assert (LE : kle l k) by (red; tauto);
    destruct (count_iters e c keys f HM HC HG HL HF l a j b Hl EA GB TB Hj LE PT RE) as (C1 & C2);
    (split; [exact C1|]); intros R _; apply C2, R, LE.
  assert (JS : j <= s).
  { destruct (le_lt_dec j s) as [L|L]; [exact L|exfalso]. rewrite <- ES in C. pose proof (kk_lt keys HG s j L Hj) as Q. exact (klt_asym _ _ C Q). }
  destruct (back_iters e c keys f HM HC HG HL HF PT a s b j GA TA GB TB Hs JS) as (C1 & C2). rewrite ES in C2. split.
  - intros m E. exists []. split; [|rewrite (C1 m E); reflexivity]. split; [constructor|]. intros x. split; [intros []|].
    intros (_ & Q1 & Q2). exact (klt_asym _ _ C (klt_trans _ _ _ Q1 Q2)).
  - intros _ R. exists 0%N. apply C2, R, C.
Qed.
