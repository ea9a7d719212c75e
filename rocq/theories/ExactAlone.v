(** The exact outcome of seeks and comparisons of LoudsSparse and LoudsDense
    alone, and of filters without dense levels. *)
From Coq Require Import Arith List NArith ZArith Bool Lia ZifyN ZifyNat ZifyBool Sorting.Sorted.
From Verif Require Import Res Config Spec Builder KeyFacts Trie BuilderFacts StructFacts SparseFacts Dense Sparse Surf
  IterSparse SeekDense SeekSparse CompareFacts SpecApi SpecFilter SpecIter SpecRange SpecBare SpecAlone SpecDAlone SpecCountAlone SpecExact
  PointFacts RangeApi BareFacts AloneFacts DAloneFacts CountAlone ExactFacts.
Import ListNotations.

Section Sparse.
Variables (e : env) (c : config) (keys : list bytes) (s : sparse).
Hypothesis HG : good_keys keys.
Hypothesis HM : machine e.
Hypothesis HC : sparse_settings c.
Hypothesis HT : two_keys keys.
Hypothesis HA : s_part e c keys s.
Let HK : sparse_ok c (uniq keys) 0 s := proj1 (s_part_ok keys HG e c HM HC s HA).
Let H2 : 2 <= length (uniq keys) := two_uniq keys HT.
Let Hlens := proj2 HC.

Lemma sparse_seek_exact : forall q incl, is_bytes q -> ~ stray e keys 0 q -> exists fp it p,
  s_moveToKeyGreaterThan e s q incl (siter_new s) = Ok (fp, it) /\ seek_at c keys 0 q incl p /\
  match p with
  | Some i => stands_alone e c s keys it i /\ (fp = true <-> flagged keys 0 q (nth i (uniq keys) []))
  | None => si_valid it = false
  end.
Proof.
  intros q incl Hq NT. destruct (alone_seek keys e c s HG HM Hlens HK H2 q Hq NT incl (siter_new s)) as (fp & it & i & E & LA & G).
  { unfold SeekSparse.sidle0. cbn [siter_new si_valid si_len si_atterm si_key si_pos].
    rewrite !repeat_length, (sk_h _ _ _ _ HK), (sk_st _ _ _ _ HK). auto. }
  { reflexivity. }
  destruct (landed_exact keys HG c 0 q incl i fp Hq LA) as [A B]. exists fp, it, (opt keys i). split; [exact E|]. split; [exact A|].
  unfold opt. destruct (Nat.ltb_spec i (length (uniq keys))) as [L|L]; [|exact G]. split; [|apply B; exact L].
  apply (alone_stands keys e c s HG HM Hlens HK H2); auto.
Qed.

Lemma sparse_compare_exact : forall it i q, s_shows e c s keys it i -> is_bytes q -> exists z,
  si_compare e s it q = Ok z /\ cmp_exact c keys 0 (nth i (uniq keys) []) q z.
Proof.
  intros it i q SH Hq. destruct (sg_at keys e c s HG HM Hlens HK H2 it i SH) as (Hi & SA).
  destruct (alone_cmp_at keys e c s HG HM Hlens HK H2 i it q Hi Hq SA) as (z & E & CA).
  exists z. split; [exact E|]. exact (cmp_at_exact keys HG c 0 i q z Hi Hq CA).
Qed.
End Sparse.

Section Dense.
Variables (e : env) (c : config) (keys : list bytes) (d : dense).
Hypothesis HG : good_keys keys.
Hypothesis HM : machine e.
Hypothesis HC : dense_settings c.
Hypothesis HL : ~ lone_ff keys.
Hypothesis HA : d_part e c keys d.
Let HD : dense_ok c (uniq keys) (height (uniq keys)) d := d_alone_parts keys HG e c HM HC d (d_part_built keys HG e c HM HC d HA).
Let Hlens := proj2 (proj2 HC).
Let HH : d_height d = height (uniq keys).
Proof. pose proof HD as [X _ _ _ _ _]. exact X. Qed.

Lemma dense_seek_exact : forall q incl, is_bytes q -> ~ (q = [] /\ asserts e = true) -> exists fp it p,
  d_moveToKeyGreaterThan e d q incl (diter_new d) = Ok (fp, it) /\ seek_at c keys (d_height d) q incl p /\
  match p with
  | Some i => d_stands e c d keys it i /\ (fp = true <-> flagged keys (d_height d) q (nth i (uniq keys) []))
  | None => di_valid it = false
  end.
Proof.
  intros q incl Hq NT. destruct (d_seek_at keys e c d HG HM Hlens HL HD q incl Hq NT) as (fp & it & i & E & LA & G).
  destruct (landed_exact keys HG c _ q incl i fp Hq LA) as [A B]. rewrite HH. exists fp, it, (opt keys i). split; [exact E|]. split; [exact A|].
  unfold opt. destruct (Nat.ltb_spec i (length (uniq keys))) as [L|L]; [|exact G]. split; [|apply B; exact L].
  apply (d_standing keys e c d HG HM Hlens HL HD); auto.
Qed.

Lemma dense_compare_exact : forall it i q, d_shows e c d keys it i -> is_bytes q -> exists z,
  di_compare e d it q = Ok z /\ cmp_exact c keys (d_height d) (nth i (uniq keys) []) q z.
Proof.
  intros it i q SH Hq. destruct (dg_at keys e c d HG HM Hlens HL HD it i SH) as (Hi & SA).
  destruct (d_cmp_at keys e c d HG HM Hlens HL HD i it q Hi Hq SA) as (z & E & CA). rewrite HH.
  exists z. split; [exact E|]. exact (cmp_at_exact keys HG c _ i q z Hi Hq CA).
Qed.
End Dense.

Section Bare.
Variables (e : env) (c : config) (keys : list bytes) (f : surf).
Hypothesis HG : good_keys keys.
Hypothesis HM : machine e.
Hypothesis HC : bare_settings c.
Hypothesis HT : two_keys keys.
Hypothesis HF : filter_of e c keys f.
Let H2 : 2 <= length (uniq keys) := two_uniq keys HT.

Lemma bare_seek_exact : forall q incl, is_bytes q -> ~ stray e keys 0 q -> exists p, seek_at c keys 0 q incl p /\
  match p with
  | Some i => exists it, moveToKeyGreaterThan e f q incl = Ok it /\ stands_bare e c f keys it i /\
                         (it_fp it = true <-> flagged keys 0 q (nth i (uniq keys) []))
  | None => moveToKeyGreaterThan e f q incl = Fail (off_end e)
  end.
Proof.
  intros q incl Hq NT. destruct (bare_gt keys e c f HG HM HC HF H2 q Hq NT incl) as (fp & i & LA & G).
  destruct (landed_exact keys HG c 0 q incl i fp Hq LA) as [A B]. exists (opt keys i). split; [exact A|].
  unfold opt. destruct (Nat.ltb_spec i (length (uniq keys))) as [L|L]; [|exact G]. destruct G as (it & E & <- & BA).
  exists it. split; [exact E|]. split; [apply bat_stands; auto|]. apply B. exact L.
Qed.

Lemma bare_less_exact : forall q incl, is_bytes q -> ~ stray e keys 0 q -> exists p, seek_at c keys 0 q false p /\
  match p with
  | Some i =>
      (flagged keys 0 q (nth i (uniq keys) []) -> exists it, moveToKeyLessThan e f q incl = Ok it /\ stands_bare e c f keys it i) /\
      (~ flagged keys 0 q (nth i (uniq keys) []) ->
         match i with
         | S (S j) => exists it, moveToKeyLessThan e f q incl = Ok it /\ stands_bare e c f keys it j
         | _ => moveToKeyLessThan e f q incl = Fail (off_end e)
         end)
  | None => moveToKeyLessThan e f q incl = Fail (off_end e)
  end.
Proof.
  intros q incl Hq NT. destruct (bare_gt keys e c f HG HM HC HF H2 q Hq NT false) as (fp & i & LA & G).
  destruct (landed_exact keys HG c 0 q false i fp Hq LA) as [A B]. exists (opt keys i). split; [exact A|].
  unfold opt, moveToKeyLessThan. destruct (Nat.ltb_spec i (length (uniq keys))) as [L|L]; [|rewrite G; reflexivity].
  destruct G as (it & E & FP & BA). specialize (B L). rewrite E. cbn [bind]. rewrite (bat_valid keys i it BA), FP. cbn [negb].
  split; intros FL.
  - apply B in FL. rewrite FL. cbn [negb]. exists it. split; [reflexivity|]. apply bat_stands; auto.
  - destruct fp; [exfalso; apply FL, B; reflexivity|]. cbn [negb].
    pose proof (bat_prev keys e c f HG HM HC HF H2 i it L BA) as P1. destruct i as [|i]; [rewrite P1; reflexivity|].
    destruct P1 as (it1 & E1 & A1). rewrite E1. cbn [bind]. rewrite (bare_lookup keys e c f HG HM HC HF). cbn [bind].
    pose proof (bat_prev keys e c f HG HM HC HF H2 i it1 ltac:(lia) A1) as P2. destruct i as [|i]; [rewrite P2; reflexivity|].
    destruct P2 as (it2 & E2 & A2). rewrite E2. cbn [bind]. exists it2. split; [reflexivity|]. apply bat_stands; auto. lia.
Qed.

Lemma bare_range_exact : forall it l li r ri, member_iter e f it -> is_bytes l -> is_bytes r -> ~ stray e keys 0 l -> no_clash keys r ->
  exists p, seek_at c keys 0 l li p /\
  match p with
  | Some i => exists b, range_after e f it l li r ri = Ok b /\ (b = true <-> reaches c keys 0 (nth i (uniq keys) []) r)
  | None => range_after e f it l li r ri = Fail (off_end e)
  end.
Proof.
  intros it l li r ri MI Hl Hr NT NC. destruct (bare_range keys e c f HG HM HC HF H2 it l li r ri MI Hl Hr NT) as (fp & i & LA & G).
  destruct (landed_exact keys HG c 0 l li i fp Hl LA) as [A _]. exists (opt keys i). split; [exact A|].
  unfold opt. destruct (Nat.ltb_spec i (length (uniq keys))) as [L|L]; [|exact G]. destruct G as (z & CA & E).
  eexists. split; [exact E|]. exact (reaches_iff keys HG c 0 i r z L Hr NC CA).
Qed.
End Bare.
