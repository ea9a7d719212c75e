(** approxCount of an empty interval, in the vocabulary of approxCount. *)
From Coq Require Import Arith List NArith ZArith Bool Lia ZifyN ZifyNat ZifyBool Sorting.Sorted.
From Verif Require Import Res Word Config BitFacts WordFacts BitvectorFacts Suffix Spec SpecApi SpecFilter SerialFacts FilterFacts SuffixFacts Builder KeyFacts Trie
  BuilderFacts DenseBuild StructFacts NodeFacts SparseFacts DenseFacts Dense Sparse Surf LookupFacts PointFacts IterTrie IterDense IterDMove IterSparse
  IterFacts IterKey SpecIter IterApi SeekOrder SuffixOrder SeekDense SeekSparse SeekFacts CompareFacts IterSim SpecRange RangeApi
  CountTrie CountSparse CountDense CountDLoop CountSeek CountIt SpecCount CountApi CountAlone CountBack.
Import ListNotations.

Section BA.
Variables (e : env) (c : config) (keys : list bytes) (f : surf).
Hypothesis HM : machine e.
Hypothesis HC : settings c.
Hypothesis HG : good_keys keys.
Hypothesis HL : ~ lone_ff keys.
Hypothesis HF : filter_of e c keys f.
Notation st := (getSparseStartLevel f).
Hypothesis HT : plain_top keys st.
Notation K := (uniq keys).
Notation n := (length K).
Let HS : StronglySorted klt K := proj1 (good_uniq keys HG).
Let HB : Forall is_bytes K := proj1 (proj2 (good_uniq keys HG)).
Let HE : Forall (fun k => k <> []) K := proj1 (proj2 (proj2 (good_uniq keys HG))).
Let HN : length K <> 0 := proj2 (proj2 (proj2 (good_uniq keys HG))).
Let Hst1 : 1 <= st := proj1 (built_st keys HG e c f HM HC HF).
Let Hst2 : S st <= height K := proj1 (proj2 (built_st keys HG e c f HM HC HF)).
Let HD : dense_ok c K st (sf_dense f) := proj1 (proj2 (proj2 (built_st keys HG e c f HM HC HF))).
Let HK : sparse_ok c K st (sf_sparse f) := proj2 (proj2 (proj2 (built_st keys HG e c f HM HC HF))).
Let Hmem : strict_mem e = false := proj2 HM.

Lemma back_at : forall s t a b, t <= s -> s < n -> it_at K st s a -> it_at K st t b ->
  okB (CountIt.room K st t s) (approxCount_it e f a b) (fun k => k = 0%N).
Proof.
  intros s t a b Hts Hs A B.
  apply (count_back c K HS HB HE HN st e Hst1 Hst2 Hmem s t Hts Hs f HD HK (plain_lab keys HG st HT)); auto.
Qed.

Theorem back_iters : forall a i b j, gotten e f keys a -> stands e c f keys a (Some i) ->
  gotten e f keys b -> stands e c f keys b (Some j) -> i < n -> j <= i ->
  (forall k, approxCount_it e f a b = Ok k -> k = 0%N) /\
  (room keys st (nth j K []) (nth i K []) -> approxCount_it e f a b = Ok 0%N).
Proof.
  intros a i b j GA SA GB SB Hi Hji. assert (Hj : j < n) by (clear - Hi Hji; lia).
  pose proof (stands_placed keys HG e c f HM HC HF HL a i GA SA Hi) as A.
  pose proof (stands_placed keys HG e c f HM HC HF HL b j GB SB Hj) as B.
  pose proof (back_at i j a b Hji Hi A B) as C.
  destruct (approxCount_it e f a b) as [k|er]; cbn [okB] in C.
  - split; [intros k' [= <-]; exact C|]. intros _. rewrite C. reflexivity.
  - split; [discriminate|]. intros R. destruct C.
    exact (stop_room keys HG st e Hst1 Hst2 Hmem j i (kk K i) (stop_self keys i HG Hi) Hji Hj R).
Qed.

Theorem back_keys : forall l r, is_bytes l -> is_bytes r -> ~ trap e c keys st l -> ~ trap e c keys st r ->
  (exists k, In k keys /\ kle r k /\ kle k l) ->
  (forall k, approxCount e f l r = Ok k -> k = 0%N) /\
  (forall k0, In k0 keys -> kle k0 r -> room keys st k0 l -> approxCount e f l r = Ok 0%N).
Proof.
  intros l r Bl Br Tl Tr (k & Ik & K1 & K2).
  destruct (in_kk keys k Ik) as (u & Hu & EU). rewrite <- EU in K1, K2. clear k Ik EU.
  destruct (seek_gt keys HG e c f HM HC HF HL l Bl (trap_stray e c keys f l Tl) true) as (a & i & EA & P & LA).
  destruct (right_at keys HG e c f HM HC HF HL r Br Tr) as (b & b' & t & EB & EB' & B1 & ST).
  unfold approxCount. rewrite EA. cbn [bind]. unfold SeekFacts.placed in P. destruct (Nat.ltb_spec i n) as [Hi|Hi].
  2: { rewrite P. cbn [negb]. split; [intros k [= <-]; reflexivity|reflexivity]. }
  rewrite (it_at_valid K st i a P). cbn [negb]. rewrite EB. cbn [bind]. rewrite EB'. cbn [bind].
  assert (NO : forall x y : bytes, kle x y -> klt y x -> False).
  { intros x y [Q|Q] L; [exact (klt_asym _ _ Q L)|rewrite Q in L; exact (klt_irrefl _ L)]. }
  assert (UI : u <= i).
  { destruct LA as (_ & _ & LA & _). specialize (LA Hi). destruct (le_lt_dec u i) as [|G]; auto. exfalso.
    pose proof (kk_lt keys HG i u G Hu) as IU.
    assert (IL : klt (kk K i) l) by (destruct K2 as [Q|Q]; [exact (klt_trans _ _ _ IU Q)|rewrite <- Q; exact IU]).
    destruct (it_fp a).
    - destruct LA as [(M & _)|(_ & M & _)]; [|exact (klt_asym _ _ IL M)].
      exact (NO _ _ K2 (mt_after K HS HN l i u Hi M G Hu)).
    - destruct LA as [M|(M & _)]; [exact (klt_asym _ _ IL M)|rewrite M in IL; exact (klt_irrefl _ IL)]. }
  assert (TU : t <= u).
  { destruct (le_lt_dec t u) as [|G]; auto. exfalso. destruct ST as (_ & ST & _). exact (NO _ _ K1 (ST u G)). }
  assert (TI : t <= i) by (clear - UI TU; lia).
  pose proof (back_at i t a b' TI Hi P B1) as C.
  assert (STL : stop keys l i).
  { split; [exact Hi|]. pose proof (landed_below keys HG c l (trap_cut e c keys f HG l Bl Tl) _ _ _ _ LA) as L2.
    destruct LA as (_ & _ & L3 & _). split.
    - intros x Hx. destruct (L2 x Hx) as [G|(_ & G)]; [auto|discriminate].
    - specialize (L3 Hi). intros x Hx Hn. destruct (it_fp a).
      + destruct L3 as [(M & _)|(_ & M & _)]; [apply (mt_after K HS HN l i x); auto|].
        exact (klt_trans _ _ _ M (kk_lt keys HG i x Hx Hn)).
      + destruct L3 as [M|(M & _)]; [exact (klt_trans _ _ _ M (kk_lt keys HG i x Hx Hn))|]. rewrite <- M. apply (kk_lt keys HG); auto. }
  destruct (approxCount_it e f a b') as [m|er]; cbn [okB] in C.
  - split; [intros k' [= <-]; exact C|]. intros k0 _ _ _. rewrite C. reflexivity.
  - split; [discriminate|]. intros k0 I0 L0 R. destruct C.
    destruct (in_kk keys k0 I0) as (v & Hv & EV). rewrite <- EV in L0, R. clear k0 I0 EV.
    assert (VT : v <= t).
    { destruct (le_lt_dec v t) as [|G]; auto. exfalso. destruct ST as (_ & _ & ST). exact (NO _ _ L0 (ST v G Hv)). }
    pose proof (stop_room keys HG st e Hst1 Hst2 Hmem v i l STL ltac:(clear - VT TI; lia) Hv R) as [Q|(M & M1 & M2 & M3 & M4 & M5 & M6)];
      [left; exact Q|right].
    exists M. split; [exact M1|]. split; [exact M2|]. split; [|split; [exact M4|split; [|exact M6]]].
    + destruct (Nat.eq_dec v t) as [<-|NE]; [exact M3|].
      destruct (le_lt_dec M (leafl K t)) as [G|G]; [exfalso|exact G].
      pose proof (anc_item K M t (proj1 ST) G) as I. pose proof (anc_le K M t) as AL.
      assert (AR : v < anc K M t) by (apply (anc_right K HN st e Hst1 Hst2 Hmem t v VT (proj1 ST)); [clear - VT NE; lia|exact M3]).
      rewrite (M5 _ AR ltac:(clear - AL TI; lia)) in I. discriminate.
    + intros x X1 X2. apply M5; [clear - X1 VT; lia|exact X2].
Qed.
End BA.
