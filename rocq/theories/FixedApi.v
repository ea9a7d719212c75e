(** Keys of one length, integers in particular. *)
From Coq Require Import Arith List NArith ZArith Bool Lia Sorting.Sorted.
From Verif Require Import Res Config Builder Dense Sparse Surf Spec SpecApi SpecFilter SpecIter SpecRange SpecCount SpecFixed KeyFacts PointFacts RangeApi CountApi IntKeys.
Import ListNotations.

Lemma byte_bits_length : forall b, length (byte_bits b) = 8.
Proof. reflexivity. Qed.
Lemma key_bits_length : forall k, length (key_bits k) = 8 * length k.
Proof.
  induction k as [|b k IH]; [reflexivity|]. cbn [key_bits flat_map]. rewrite app_length, byte_bits_length.
  change (flat_map byte_bits k) with (key_bits k). rewrite IH. cbn [length]. lia.
Qed.

Lemma cut_zero : forall c x d, ~ whole c x d -> all_zero (next_bits0 x d (cf_rlen c)).
Proof.
  intros c x d H y Hy. unfold next_bits0, next_bits in Hy. rewrite key_bits_length, skipn_length in Hy.
  destruct (Nat.leb_spec (cf_rlen c) (8 * (length x - d))) as [L|L].
  - exfalso. apply H. intros _ _. exact L.
  - apply repeat_spec in Hy. exact Hy.
Qed.

Lemma whole_len : forall c x y d, length x = length y -> whole c x d -> whole c y d.
Proof. intros c x y d E H A B. rewrite <- E in *. auto. Qed.

Section Fixed.
Variables (n : nat) (keys : list bytes).
Hypothesis HX : fixed n keys.
Hypothesis HG : good_keys keys.

Lemma fixed_prefix : forall k q, In k keys -> length q = n -> firstn (length q) k = q -> k = q.
Proof. intros k q Hk Hq H. rewrite firstn_all2 in H by (rewrite (HX k Hk), Hq; auto). exact H. Qed.

Lemma fixed_trap : forall e c h q, length q = n -> trap e c keys h q -> at_last_node keys h q.
Proof.
  intros e c h q Hq [(_ & [(H & _)|(_ & k & k' & (H1 & H2 & _) & H3 & _)])|[(p & b & r & E & _ & _ & (k & K1 & K2 & K3) & _)|[H|H]]].
  - exfalso. destruct HG as (G1 & _ & G3 & _). destruct keys as [|k ks]; [congruence|]. rewrite Forall_forall in G3.
    apply (G3 k); [left; auto|]. pose proof (HX k (or_introl eq_refl)) as L. subst q. cbn in Hq. subst n. destruct k; [reflexivity|discriminate].
  - exfalso. apply (fixed_prefix k q H1 Hq) in H3. subst k. exact (klt_irrefl _ H2).
  - exfalso. apply nth_error_None in K3. pose proof (HX k K1) as L. rewrite E, app_length in Hq. cbn in Hq. lia.
  - exact H.
  - exfalso. destruct H as (_ & k & d & K1 & _ & _ & NW & _ & NZ). apply NZ, cut_zero. intros W. apply NW.
    apply (whole_len c q k d); auto. rewrite (HX k K1). exact Hq.
Qed.

Lemma fixed_bound : forall c r, length r = n -> ~ short_bound c keys r.
Proof.
  intros c r Hr (_ & k & d & K1 & _ & _ & NW & _ & NZ). apply NZ, cut_zero. intros W. apply NW.
  apply (whole_len c k r d); auto. rewrite (HX k K1). auto.
Qed.

Lemma fixed_no_prefix : forall h, ~ last_level_prefix keys h.
Proof.
  intros h (k & k' & K1 & K2 & N & _ & P). apply N. symmetry. apply fixed_prefix; auto.
Qed.
End Fixed.

Theorem fixed_range : forall e c n keys f,
  machine e -> settings c -> good_keys keys -> fixed n keys -> ~ lone_ff keys -> filter_of e c keys f ->
  forall it l li r ri k, member_iter e f it -> is_bytes l -> is_bytes r -> length l = n -> length r = n ->
  ~ at_last_node keys (getSparseStartLevel f) l ->
  In k keys -> above li l k -> below ri k r -> range_after e f it l li r ri = Ok true.
Proof.
  intros e c n keys f HM HC HG HX HL HF it l li r ri k MI Hl Hr Ll Lr NT Hk HA HB.
  apply (range_true e c keys f HM HC HG HL HF it l li r ri k); auto.
  - intros T. apply NT. exact (fixed_trap n keys HX HG e c _ l Ll T).
  - apply (fixed_bound n keys HX c r Lr).
Qed.

Theorem fixed_seek : forall e c n keys f,
  machine e -> settings c -> good_keys keys -> fixed n keys -> ~ lone_ff keys -> filter_of e c keys f ->
  forall q incl, is_bytes q -> length q = n -> ~ at_last_node keys (getSparseStartLevel f) q -> exists it p,
  moveToKeyGreaterThan e f q incl = Ok it /\ stands e c f keys it p /\
  gt_place c keys (getSparseStartLevel f) q incl (it_fp it) p.
Proof.
  intros e c n keys f HM HC HG HX HL HF q incl Hq Lq NT.
  apply (seek_gt_place e c keys f HM HC HG HL HF q incl Hq).
  intros T. apply NT. exact (fixed_trap n keys HX HG e c _ q Lq T).
Qed.

Theorem fixed_count : forall e c n keys f,
  machine e -> settings c -> good_keys keys -> fixed n keys -> ~ lone_ff keys -> filter_of e c keys f ->
  forall l r, In l keys -> In r keys -> kle l r -> plain_top keys (getSparseStartLevel f) ->
  forall k, approxCount e f l r = Ok k -> exists xs, lists keys xs (fun x => klt l x /\ klt x r) /\ k = N.of_nat (length xs).
Proof.
  intros e c n keys f HM HC HG HX HL HF l r Hl Hr LE PT.
  apply (count_stored e c keys f HM HC HG HL HF l r Hl Hr LE PT). right. apply (fixed_no_prefix n keys HX).
Qed.

(** integers *)
Lemma int_fixed : forall ks, fixed 8 (int_keys ks).
Proof. intros ks k H. apply in_map_iff in H. destruct H as (w & <- & _). apply u64_shape. Qed.

Lemma u64_le : forall a b, (a < 2 ^ 64)%N -> (b < 2 ^ 64)%N -> (a <= b)%N -> kle (uint64ToString a) (uint64ToString b).
Proof.
  intros a b Ha Hb L. destruct (N.eq_dec a b) as [->|N]; [right; reflexivity|left]. apply u64_order; auto. lia.
Qed.

Lemma int_good : forall ks, good_ints ks -> good_keys (int_keys ks).
Proof.
  intros ks (H1 & H2 & H3). split; [|split; [|split]].
  - intros E. apply H1. destruct ks; [reflexivity|discriminate].
  - apply Forall_forall. intros k H. apply in_map_iff in H. destruct H as (w & <- & _). apply u64_shape.
  - apply Forall_forall. intros k H E. pose proof (int_fixed ks k H) as L. subst k. discriminate.
  - induction H3 as [|w ks H3 IH F]; [constructor|]. apply Forall_cons_iff in H2. destruct H2 as [A B]. cbn [int_keys map]. constructor.
    + destruct ks; [constructor|]. apply IH; auto. discriminate.
    + apply Forall_forall. intros k H. apply in_map_iff in H. destruct H as (v & <- & I).
      rewrite Forall_forall in F, B. apply u64_le; auto.
Qed.

Lemma u64_top : forall w r, (w < 2 ^ 64)%N -> uint64ToString w = 255 :: r -> (255 * 2 ^ 56 <= w)%N.
Proof.
  intros w r Hw E. destruct (N.lt_ge_cases w (255 * 2 ^ 56)) as [L|L]; [|exact L]. exfalso.
  apply (u64_order w (255 * 2 ^ 56)) in L; [|exact Hw|reflexivity]. rewrite E in L.
  replace (uint64ToString (255 * 2 ^ 56)) with [255; 0; 0; 0; 0; 0; 0; 0] in L by (vm_compute; reflexivity).
  pose proof (proj1 (u64_shape w)) as S. rewrite E in S. cbn [length] in S.
  do 7 (destruct r as [|? r]; [discriminate|]). destruct r; [|discriminate]. cbn [klt] in L. clear - L. intuition lia.
Qed.
Lemma u64_inj : forall a b, (a < 2 ^ 64)%N -> (b < 2 ^ 64)%N -> uint64ToString a = uint64ToString b -> a = b.
Proof.
  intros a b Ha Hb E. destruct (N.lt_trichotomy a b) as [L|[L|L]]; auto; exfalso;
    apply u64_order in L; auto; rewrite E in L; exact (klt_irrefl _ L).
Qed.
Lemma int_lone : forall ks, good_ints ks -> ~ lone_big ks -> ~ lone_ff (int_keys ks).
Proof.
  intros ks (_ & HB & _) H (k & A & B). apply in_map_iff in A. destruct A as (w & E & I). rewrite Forall_forall in HB. apply H. exists w.
  split; [exact I|]. split; [exact (u64_top w k (HB w I) E)|]. intros v J. apply u64_inj; auto.
  rewrite E. apply B. apply in_map. exact J.
Qed.

Theorem int_lookup : forall e c ks f,
  machine e -> settings c -> good_ints ks -> ~ lone_big ks -> filter_of e c (int_keys ks) f ->
  forall w, In w ks -> lookupKey e f (uint64ToString w) = Ok true.
Proof.
  intros e c ks f HM HC HI HL HF w Hw.
  apply (point_stored e c (int_keys ks) f (uint64ToString w) HM HC (int_good ks HI) (int_lone ks HI HL) HF). apply in_map. exact Hw.
Qed.

Theorem int_range : forall e c ks f,
  machine e -> settings c -> good_ints ks -> ~ lone_big ks -> filter_of e c (int_keys ks) f ->
  forall it a b w, member_iter e f it -> (a < 2 ^ 64)%N -> (b < 2 ^ 64)%N ->
  ~ at_last_node (int_keys ks) (getSparseStartLevel f) (uint64ToString a) ->
  In w ks -> (a <= w <= b)%N -> range_after e f it (uint64ToString a) true (uint64ToString b) true = Ok true.
Proof.
  intros e c ks f HM HC HI HL HF it a b w MI Ha Hb NT Hw LE.
  assert (Hw' : (w < 2 ^ 64)%N) by (destruct HI as (_ & X & _); rewrite Forall_forall in X; auto).
  apply (fixed_range e c 8 (int_keys ks) f HM HC (int_good ks HI) (int_fixed ks) (int_lone ks HI HL) HF it _ _ _ _ (uint64ToString w)); auto;
    try apply u64_shape; [apply in_map; exact Hw| |].
  - destruct (u64_le a w Ha Hw' ltac:(lia)) as [X|X]; [left; exact X|right; auto].
  - destruct (u64_le w b Hw' Hb ltac:(lia)) as [X|X]; [left; exact X|right; auto].
Qed.
