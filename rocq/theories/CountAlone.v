(** approxCount of LoudsSparse and LoudsDense objects used alone. *)
From Coq Require Import Arith List NArith ZArith Bool Lia ZifyN ZifyNat ZifyBool Sorting.Sorted.
From Verif Require Import Res Word Config BitFacts WordFacts Bitvector BitvectorFacts Rank Select
  RankSelectFacts LabelVector LabelFacts Suffix Spec SuffixFacts Builder KeyFacts Trie BuilderFacts
  DenseBuild StructFacts NodeFacts SparseFacts Dense Sparse DenseFacts LookupFacts FilterFacts
  Surf IterTrie IterDense IterDMove IterSparse IterFacts IterKey SeekOrder SuffixOrder SeekDense SeekSparse SeekFacts CompareFacts IterSim
  SpecApi SpecFilter SpecIter SpecRange SpecBare SpecAlone SpecDAlone SpecCount SpecCountAlone SpecTrie IterApi RangeApi PointFacts TrieApi SizeFacts
  CountBits CountTrie CountSparse CountDense CountDLoop CountIt CountApi BareFacts AloneFacts DAloneFacts.
Import ListNotations.

(** a view shows one key only *)
Lemma view_inj : forall c keys i j v, good_keys keys -> view_at c keys (Some i) v -> view_at c keys (Some j) v -> i = j.
Proof.
  intros c keys i j v HG (Hi & d' & D' & _ & VK' & _) (Hj & d & D & _ & VK & _).
  destruct (Nat.eq_dec i j) as [|NE]; auto. exfalso. rewrite VK in VK'. fold (kk (uniq keys) j) in *. fold (kk (uniq keys) i) in *.
  assert (NK : kk (uniq keys) i <> kk (uniq keys) j) by (apply (kk_neq keys HG); auto).
  destruct (le_ge_dec d d') as [L|L].
  - destruct D as (_ & D & _). apply (D (kk (uniq keys) i) (kk_in keys i Hi) NK).
    replace d with (Nat.min d d') at 1 by (clear - L; lia).
    rewrite <- firstn_firstn, <- VK', firstn_firstn. f_equal. clear. lia.
  - destruct D' as (_ & D' & _). apply (D' (kk (uniq keys) j) (kk_in keys j Hj)); [congruence|].
    replace d' with (Nat.min d' d) at 1 by (clear - L; lia).
    rewrite <- firstn_firstn, VK', firstn_firstn. f_equal. clear. lia.
Qed.

Lemma stop_self : forall keys t, good_keys keys -> t < length (uniq keys) -> stop keys (kk (uniq keys) t) t.
Proof.
  intros keys t HG Ht. split; auto. split; [intros x Hx; apply (kk_lt keys HG); auto|]. intros x H1 H2. apply (kk_lt keys HG); auto.
Qed.

Section SCount.
Variables (keys : list bytes) (e : env) (c : config) (s : sparse).
Hypothesis HG : good_keys keys.
Hypothesis HM : machine e.
Hypothesis Hlens : lens_ok (cf_type c) (cf_hlen c) (cf_rlen c).
Notation K := (uniq keys).
Notation n := (length K).
Notation leafl := (leafl K). Notation height := (height K). Notation sat := (sat K 0).
Hypothesis HK : sparse_ok c K 0 s.
Hypothesis H2 : 2 <= n.
Let HN : length K <> 0 := proj2 (proj2 (proj2 (good_uniq keys HG))).
Let Hmem : strict_mem e = false := proj2 HM.
Let Hshift : strict_shift e = false := proj1 HM.

Lemma sg_placed : forall it, s_gotten e s keys it -> si_valid it = false \/ exists i, i < n /\ sat i it.
Proof.
  intros it H. induction H as [it E|it E|q incl fp it Hq NT E|m it it' H IH V E].
  - destruct (alone_first keys e c s HG HM HK H2) as (x & E' & SA). rewrite E in E'. injection E' as <-. right. exists 0. split; [lia|exact SA].
  - destruct (alone_last keys e c s HG HM HK H2) as (x & E' & SA). rewrite E in E'. injection E' as <-. right. exists (n - 1). split; [lia|exact SA].
  - destruct (alone_seek keys e c s HG HM Hlens HK H2 q Hq NT incl (siter_new s)) as (fp' & x & i & E' & _ & G).
    { unfold SeekSparse.sidle0. cbn [siter_new si_valid si_len si_atterm si_key si_pos].
      rewrite !repeat_length, (sk_h _ _ _ _ HK), (sk_st _ _ _ _ HK). auto. }
    { reflexivity. }
    rewrite E in E'. injection E' as <- <-. destruct (Nat.ltb_spec i n) as [L|L]; [right; exists i; auto|left; exact G].
  - destruct IH as [IH|(i & Hi & SA)]; [congruence|]. destruct m; cbn [s_move] in E.
    + destruct (alone_next keys e c s HG HM HK H2 i it Hi SA) as (x & E' & G). rewrite E in E'. injection E' as <-.
      destruct (Nat.ltb_spec (S i) n) as [L|L]; [right; exists (S i); auto|left; exact G].
    + destruct (alone_prev keys e c s HG HM HK H2 i it Hi SA) as (x & E' & G). rewrite E in E'. injection E' as <-.
      destruct i as [|i]; [left; exact G|right; exists i; split; [lia|exact G]].
Qed.

Lemma sg_at : forall it i, s_shows e c s keys it i -> i < n /\ sat i it.
Proof.
  intros it i (GO & v & L & V). destruct (sg_placed it GO) as [X|(j & Hj & SA)].
  - exfalso. unfold s_look in L. rewrite X in L. injection L as <-. destruct V as (_ & x & _ & V & _). discriminate V.
  - destruct (alone_look keys e c s HG HM Hlens HK H2 j it Hj SA) as (v' & L' & V'). rewrite L in L'. injection L' as <-.
    rewrite (view_inj c keys i j v HG V V'). auto.
Qed.

Local Instance wide_00 : wide K 0.
Proof. right. exact H2. Qed.

Let Hst2 : 1 <= height.
Proof. pose proof (height_ge2 K e HN Hshift Hmem). lia. Qed.
Let Z0 : 0 <= 0 := le_n 0.

Lemma s_leafl : forall i, i < n -> leafl i < height.
Proof. intros i Hi. pose proof (LEN_leafl K n i Hi) as Q. unfold StructFacts.height. lia. Qed.

Lemma s_keys_64 : (N.of_nat n < two64)%N.
Proof.
  pose proof (leaf_sum K HN s_leafl n (Nat.le_refl n)) as S1.
  pose proof (sk_fits c K 0 _ HK) as F2. rewrite (cc_len K 0 nat (slabs K)) in F2; [|lia|intros; apply slabs_n].
  assert (LV : forall m, cn (leaf K m) n <= nit K m).
  { intros m. unfold nit. clear. induction n as [|j IH]; [apply Nat.le_refl|]. cbn [cn].
    destruct (leaf K m j) eqn:L, (item K m j) eqn:I; try (clear - IH; lia). unfold leaf in L. rewrite I in L. discriminate. }
  assert (Q : forall m, sm (fun l => cn (leaf K l) n) m <= sm (nit K) m) by (intros m; apply sm_le; auto).
  specialize (Q height). unfold slen, soff in F2. cbn [sm] in F2. unfold two64. clear - S1 F2 Q. lia.
Qed.

Lemma root_items : 0 < nit K 0.
Proof.
  pose proof (louds_item K 0 0 (louds_root K HN)) as I. pose proof (cn_lt (item K 0) 0 n I ltac:(lia)). unfold nit. lia.
Qed.

Lemma sg_count : forall a i b j, s_shows e c s keys a i -> s_shows e c s keys b j -> i <= j ->
  (forall k, s_approxCount e s a b (Some 0) (Some 0) = Ok k -> k = N.of_nat (j - i - 1)) /\
  (SpecCount.room keys 0 (nth i K []) (nth j K []) -> exists k, s_approxCount e s a b (Some 0) (Some 0) = Ok k).
Proof.
  intros a i b j SA SB Hij. apply sg_at in SA, SB. destruct SA as (Hi & _ & A1 & _ & A2), SB as (Hj & _ & B1 & _ & B2).
  pose proof (lvl_sum K HN s_leafl i j Hij ltac:(lia)) as SUM.
  pose proof (s_count_ok c K HN 0 s e Z0 Hst2 HK Hmem root_items i j Hij Hj (SpecCount.room keys 0 (kk K i) (kk K j))) as SC.
  assert (RM : SpecCount.room keys 0 (kk K i) (kk K j) -> exists M : nat, 0 <= M /\ M < height /\ leafl i < M /\ leafl j < M /\
     (forall x, i < x -> x <= j -> item K M x = false) /\ E K 0 M j <> None).
  { intros R. apply (stop_room keys HG 0 e Z0 Hst2 Hmem i j (kk K j) (stop_self keys j HG Hj) Hij Hi) in R.
    destruct R as [R|R]; [|exact R]. pose proof root_items. lia. }
  specialize (SC RM a b (Some 0) (Some 0)). unfold path in SC.
  specialize (SC ltac:(rewrite SUM; pose proof s_keys_64; lia) A1 A2 ltac:(discriminate) ltac:(intros; lia) ltac:(discriminate) ltac:(intros; lia)
    (or_introl (conj B1 B2))).
  cbn [sm] in SC. rewrite Nat.sub_0_r, SUM in SC. fold (kk K i) (kk K j).
  destruct (s_approxCount e s a b (Some 0) (Some 0)) as [k|er]; cbn [okB] in SC.
  - split; [intros k' Ek; injection Ek as <-; exact SC|eauto].
  - split; [discriminate|]. intros R. destruct (SC R).
Qed.
End SCount.

(** A LoudsDense over all levels is one without the last level, which is empty,
    as far as its bits go. *)
Section DCount.
Variables (keys : list bytes) (e : env) (c : config) (d : dense).
Hypothesis HG : good_keys keys.
Hypothesis HM : machine e.
Hypothesis Hlens : lens_ok (cf_type c) (cf_hlen c) (cf_rlen c).
Hypothesis HL : ~ lone_ff keys.
Notation K := (uniq keys).
Notation n := (length K).
Notation leafl := (leafl K). Notation height := (height K). Notation dat := (dat K height). Notation nds := (nds K).
Notation item := (item K). Notation leaf := (leaf K). Notation louds := (louds K).
Hypothesis HD : dense_ok c K height d.
Let HS : StronglySorted klt K := proj1 (good_uniq keys HG).
Let HB : Forall is_bytes K := proj1 (proj2 (good_uniq keys HG)).
Let HE : Forall (fun k => k <> []) K := proj1 (proj2 (proj2 (good_uniq keys HG))).
Let HN : length K <> 0 := proj2 (proj2 (proj2 (good_uniq keys HG))).
Let Hmem : strict_mem e = false := proj2 HM.
Let Hshift : strict_shift e = false := proj1 HM.
Let HFF : no_lone_ff K := lone_ff_iff keys HG HL.
Let Hge : 2 <= height := height_ge2 K e HN Hshift Hmem.

Lemma dg_placed : forall it, d_gotten e d keys it -> di_valid it = false \/ exists i, i < n /\ dat i it.
Proof.
  intros it H. induction H as [it E|it E|q incl fp it Hq NT E|m it it' H IH V E].
  - destruct (d_at_first keys e c d HG HM HL HD) as (x & E' & SA). rewrite E in E'. injection E' as <-. right. exists 0. split; [lia|exact SA].
  - destruct (d_at_last keys e c d HG HM HL HD) as (x & E' & SA). rewrite E in E'. injection E' as <-. right. exists (n - 1). split; [lia|exact SA].
  - destruct (d_seek_at keys e c d HG HM Hlens HL HD q incl Hq NT) as (fp' & x & i & E' & _ & G).
    rewrite E in E'. injection E' as <- <-. destruct (Nat.ltb_spec i n) as [L|L]; [right; exists i; auto|left; exact G].
  - destruct IH as [IH|(i & Hi & SA)]; [congruence|]. destruct m; cbn [d_move] in E.
    + destruct (d_step_next keys e c d HG HM HL HD i it Hi SA) as (x & E' & G). rewrite E in E'. injection E' as <-.
      destruct (Nat.ltb_spec (S i) n) as [L|L]; [right; exists (S i); auto|left; exact G].
    + destruct (d_step_prev keys e c d HG HM HL HD i it Hi SA) as (x & E' & G). rewrite E in E'. injection E' as <-.
      destruct i as [|i]; [left; exact G|]. destruct G as [(_ & G)|(_ & G)]; [left; exact G|right; exists i; split; [lia|exact G]].
Qed.

Lemma dg_at : forall it i, d_shows e c d keys it i -> i < n /\ dat i it.
Proof.
  intros it i (GO & v & L & V). destruct (dg_placed it GO) as [X|(j & Hj & SA)].
  - exfalso. unfold d_look in L. rewrite X in L. injection L as <-. destruct V as (_ & x & _ & V & _). discriminate V.
  - destruct (d_looks keys e c d HG HM Hlens HL HD j it Hj SA) as (v' & L' & V'). rewrite L in L'. injection L' as <-.
    rewrite (view_inj c keys i j v HG V V'). auto.
Qed.

Let st := height - 1.
Let d' := mkDense st (firstn st (d_cuts d)) (d_labels d) (d_child d) (d_prefix d) (d_suf d).
Let Est : height = S st. Proof. unfold st. lia. Qed.
Let Hst1 : 1 <= st. Proof. unfold st. lia. Qed.
Let Hst2 : S st <= height. Proof. unfold st. lia. Qed.

Lemma below : forall i, i < n -> leafl i < st.
Proof. intros i Hi. pose proof (LEN_leafl K n i Hi) as Q. unfold st, StructFacts.height. lia. Qed.
Lemma last_items : forall x, item st x = false.
Proof.
  intros x. destruct (item st x) eqn:I; auto. exfalso. pose proof (item_lt K st x I) as Hx. pose proof (below x Hx) as B.
  apply item_spec in I. unfold Trie.leafl in B. lia.
Qed.
Lemma last_louds : forall x, cn (louds st) x = 0.
Proof.
  induction x as [|x IH]; [reflexivity|]. cbn [cn]. rewrite IH. destruct (louds st x) eqn:L; auto. apply louds_item in L.
  rewrite last_items in L. discriminate.
Qed.
Lemma last_nds : nds st = 0.
Proof.
  destruct (Nat.eq_dec (nds st) 0) as [|N]; auto. exfalso. pose proof (last_louds n) as Q. 
  unfold DenseBuild.nds in N. lia.
Qed.

Lemma cuts_at : forall m, m < height -> cut_at (d_cuts d) m = Ok (N.of_nat (256 * sm nds (S m) - 1)).
Proof. apply (d_cut c K HN height d); [lia|exact HD]. Qed.
Lemma cuts_len : length (d_cuts d) = height.
Proof.
  rewrite (dk_cuts c K height d HD). assert (G : forall l b, length (level_cuts_from b l) = length l).
  { induction l as [|x l IH]; intros b; cbn [level_cuts_from length]; auto. }
  rewrite G, map_length, seq_length. reflexivity.
Qed.

Lemma cut_same : forall m, m < st -> cut_at (d_cuts d') m = cut_at (d_cuts d) m.
Proof. intros m Hm. unfold cut_at, vget, d'. cbn [d_cuts]. rewrite LookupFacts.nth_error_firstn_lt by exact Hm. reflexivity. Qed.

Lemma cc_less : forall A (lev : nat -> list A), lev st = [] -> cc lev 0 height = cc lev 0 st.
Proof. intros A lev H. rewrite Est, cc_snoc, H, app_nil_r by lia. reflexivity. Qed.

Lemma less_ok : dense_ok c K st d'.
Proof.
  pose proof (dk_h c K height d HD) as E1. pose proof (dk_lab c K height d HD) as E2. pose proof (dk_ch c K height d HD) as E3.
  pose proof (dk_pre c K height d HD) as E4. pose proof (dk_suf c K height d HD) as E5. pose proof (dk_fits c K height d HD) as E6.
  assert (B : forall p g l, bm p g l (256 * nds st) = []) by (intros; rewrite last_nds; reflexivity).
  rewrite (cc_less bool (dlab K)) in E2, E6 by apply B. rewrite (cc_less bool (dchl K)) in E3 by apply B.
  rewrite (cc_less bool (dpre K)) in E4 by (unfold dpre; rewrite last_nds; reflexivity).
  rewrite (cc_less N (ssfx c K)) in E5.
  2: { unfold ssfx. replace (filter (leaf st) (seq 0 n)) with (@nil nat); [reflexivity|]. symmetry.
       induction (seq 0 n) as [|x l IH]; [reflexivity|]. cbn [filter]. unfold Trie.leaf. rewrite last_items. exact IH. }
  constructor; unfold d'; cbn [d_height d_cuts d_labels d_child d_prefix d_suf]; auto.
  rewrite (dk_cuts c K height d HD), Est. rewrite seq_S, map_app. cbn [map].
  assert (G : forall l x b, firstn (length l) (level_cuts_from b (l ++ [x])) = level_cuts_from b l).
  { induction l as [|y l IH]; intros x b; [reflexivity|]. cbn [app length level_cuts_from firstn]. rewrite IH. reflexivity. }
  pose proof (G (map (fun l => 256 * nds l) (seq 0 st)) (256 * nds (0 + st)) 0%N) as Q. rewrite map_length, seq_length in Q. exact Q.
Qed.

Lemma ext_more : forall k i pos acc lst last, i + k = st -> d_extend_loop e d' k i pos acc = Ok (lst, last) ->
  (forall p, last = Some p -> exists a b, d_getChildNodeNum e d p = Ok a /\ d_readChild e d p = Ok b /\
     (if b : bool then a else S a) = sm nds st) ->
  d_extend_loop e d (S k) i pos acc = Ok (lst ++ [None], None).
Proof.
  induction k as [|k IH]; intros i pos acc lst last Hi H HP.
  - cbn [d_extend_loop] in H. injection H as <- <-. destruct (HP pos eq_refl) as (a & b & E1 & E2 & E3). cbn [d_extend_loop].
    rewrite E1. cbn [bind]. rewrite E2. cbn [bind]. rewrite E3. rewrite Nat.add_0_r in Hi. subst i.
    rewrite cuts_at by lia. cbn [bind sm]. rewrite last_nds, Nat.add_0_r.
    pose proof (nds_pos K HN (st - 1)) as P. replace (S (st - 1)) with st in P by lia. change kNodeFanout with 256.
    replace (N.of_nat (256 * sm nds st - 1) <? N.of_nat (sm nds st * 256))%N with true by lia. reflexivity.
  - cbn [d_extend_loop] in H. change (d_getChildNodeNum e d' pos) with (d_getChildNodeNum e d pos) in H.
    change (d_readChild e d' pos) with (d_readChild e d pos) in H. rewrite cut_same in H by lia.
    remember (S k) as k1 eqn:EK. cbn [d_extend_loop].
    destruct (d_getChildNodeNum e d pos) as [a|]; cbn [bind] in *; [|discriminate].
    destruct (d_readChild e d pos) as [b|]; cbn [bind] in *; [|discriminate].
    destruct (cut_at (d_cuts d) i) as [ct|]; cbn [bind] in *; [|discriminate].
    destruct (ct <? _)%N.
    + injection H as <- <-. subst k1. do 2 f_equal. rewrite <- app_assoc. f_equal. apply (repeat_cons (S k) (@None nat)).
    + subst k1. apply (IH (S i) _ _ _ last); [lia|exact H|exact HP].
Qed.

Lemma ext_list : forall l lst out, length l <= st -> d_extendPosList e d' l = Ok (lst, out) ->
  (forall a, out = Some a -> a = sm nds st) -> d_extendPosList e d l = Ok (lst ++ [None], None).
Proof.
  intros l lst out HLn H HO. unfold d_extendPosList in *. destruct (pred_idx (length l)) as [i|]; cbn [bind] in *; [|discriminate].
  destruct (vget l i) as [pos|]; cbn [bind] in *; [|discriminate]. change (d_height d') with st in H.
  rewrite (dk_h c K height d HD). replace (height - length l) with (S (st - length l)) by lia.
  destruct (d_extend_loop e d' (st - length l) (length l) pos (map Some l)) as [[lst' last]|] eqn:EL; cbn [bind] in *; [|discriminate].
  rewrite (ext_more (st - length l) (length l) pos (map Some l) lst' last); [| lia|exact EL|].
  - cbn [bind]. destruct last as [p|]; [|injection H as <- <-; reflexivity].
    destruct (d_getChildNodeNum e d' p); cbn [bind] in *; [|discriminate]. destruct (d_readChild e d' p); cbn [bind] in *; [|discriminate].
    injection H as <- _. reflexivity.
  - intros p ->. change (d_getChildNodeNum e d' p) with (d_getChildNodeNum e d p) in H. change (d_readChild e d' p) with (d_readChild e d p) in H.
    destruct (d_getChildNodeNum e d p) as [a|]; cbn [bind] in *; [|discriminate]. destruct (d_readChild e d p) as [b|]; cbn [bind] in *; [|discriminate].
    injection H as <- <-. exists a, b. split; [reflexivity|]. split; [reflexivity|]. apply HO. reflexivity.
Qed.

Lemma level_same : forall a b ol or i l r, i < st -> d_count_level e d a b ol or i l r = d_count_level e d' a b ol or i l r.
Proof.
  intros a b ol or i l r Hi. unfold d_count_level. rewrite cut_same by exact Hi.
  assert (P1 : pred_idx (d_height d) = Ok st) by (rewrite (dk_h c K height d HD), Est; reflexivity).
  assert (P2 : pred_idx (d_height d') = Ok (st - 1)).
  { change (d_height d') with st. clear - Hst1. destruct st; [lia|]. cbn [pred_idx]. f_equal. lia. }
  assert (P3 : cut_at (d_cuts d) st = cut_at (d_cuts d') (st - 1)).
  { rewrite cut_same, !cuts_at by lia. replace (S (st - 1)) with st by lia. replace (sm nds (S st)) with (sm nds st) by (cbn [sm]; rewrite last_nds; lia). reflexivity. }
  rewrite P1, P2. cbn [bind]. rewrite P3. reflexivity.
Qed.

Lemma loop_more : forall a b ol or ls rs i cnt r, length ls = length rs -> i + length ls <= st ->
  d_count_loop e d' a b ol or i ls rs cnt = Ok r -> d_count_loop e d a b ol or i (ls ++ [None]) (rs ++ [None]) cnt = Ok r.
Proof.
  intros a b ol or. induction ls as [|l ls IH]; intros [|x rs] i cnt r H1 H2 H; cbn [length] in *; try discriminate; [exact H|].
  cbn [app d_count_loop] in *. destruct l as [l|]; [|exact H]. rewrite level_same by lia.
  destruct (d_count_level e d' a b ol or i l x) as [m|]; cbn [bind] in *; [|discriminate]. apply IH; auto; lia.
Qed.

Lemma d_keys_64 : (N.of_nat n < two64)%N.
Proof.
  assert (Hh : forall i, i < n -> leafl i < height) by (intros i Hi; pose proof (below i Hi); lia).
  pose proof (leaf_sum K HN Hh n (Nat.le_refl n)) as S1.
  pose proof (dk_fits c K height _ HD) as F1. rewrite (len_dlab K HN height) in F1 by lia.
  assert (D : sm (fun l => cn (leaf l) n) height <= 257 * sm nds height).
  { rewrite <- sm_mul. apply sm_le. intros l _. apply (leaf_level keys HG). }
  unfold two64. clear - S1 F1 D. lia.
Qed.

Lemma dg_count : forall a i b j, d_shows e c d keys a i -> d_shows e c d keys b j -> i <= j ->
  plain_top keys (d_height d - 1) ->
  reaches keys (d_height d - 1) (nth j K []) \/ ~ last_level_prefix keys (d_height d - 1) ->
  d_approxCount e d a b = Ok (N.of_nat (j - i - 1), None, None).
Proof.
  intros a i b j SA SB Hij. rewrite (dk_h c K height d HD). fold st. intros PT RE. apply dg_at in SA, SB.
  destruct SA as (Hi & A), SB as (Hj & B).
  assert (Hh : forall x, x < n -> leafl x < height) by (intros x Hx; pose proof (below x Hx); lia).
  pose proof (lvl_sum K HN Hh i j Hij ltac:(lia)) as SUM. rewrite Est in SUM. cbn [sm] in SUM.
  rewrite (lvl_none K HN Hh i j st) in SUM by (auto using below, last_items). rewrite Nat.add_0_r in SUM.
  pose proof (plain_lab keys HG st PT) as Hlab.
  pose proof (stop_has keys HG st e Hst2 Hmem Hst1 PT (kk K j) j (stop_self keys j HG Hj) RE) as HP.
  assert (OR : forall x, x < n -> orig K height x = orig K st x) by (intros x Hx; pose proof (below x Hx); unfold orig; lia).
  assert (PR : forall x, x < n -> pre K height x = pre K st x).
  { intros x Hx. pose proof (below x Hx) as Q. unfold pre. replace (leafl x <? st) with true by lia. replace (leafl x <? height) with true by lia. reflexivity. }
  destruct (d_list K HS HE height i a Hi A) as (LA & PA). destruct (d_list K HS HE height j b Hj B) as (LB & PB).
  rewrite OR in LA, LB by auto. rewrite PR in PA, PB by auto.
  assert (SE : di_search a = (leafl i <? st)).
  { replace (leafl i <? st) with true by (pose proof (below i Hi); lia). destruct A as (_ & A). replace (leafl i <? height) with true in A by (specialize (Hh i Hi); lia).
    apply A. }
  destruct (d_ext c K HS HB HE HN st d' e Hst1 Hst2 less_ok Hmem Hlab i Hi) as (outl & XL & _ & OL).
  destruct (d_ext c K HS HB HE HN st d' e Hst1 Hst2 less_ok Hmem Hlab j Hj) as (outr & XR & _ & ORR).
  assert (NO : forall x, CountSparse.nodeno K st x = sm nds st) by (intros x; unfold CountSparse.nodeno; rewrite last_louds; apply Nat.add_0_r).
  pose proof (d_loop c K HS HB HE HN HFF st d' e Hst1 Hst2 less_ok Hmem Hlab a b i j Hij Hj PA PB SE HP st 0 0%N eq_refl) as LO.
  cbn [sm] in LO. rewrite Nat.sub_0_r, SUM, N.add_0_l in LO. specialize (LO ltac:(pose proof d_keys_64 as Q; clear - Q Hj; lia)).
  unfold d_approxCount. rewrite LA. cbn [bind].
  rewrite (ext_list _ (map (DD K i) (seq 0 st)) outl); [|rewrite map_length, seq_length; unfold orig; apply Nat.le_min_r|exact XL|intros x Hx; rewrite (OL x Hx (below i Hi)); apply NO].
  cbn [bind]. rewrite LB. cbn [bind].
  rewrite (ext_list _ (map (DD K j) (seq 0 st)) outr); [|rewrite map_length, seq_length; unfold orig; apply Nat.le_min_r|exact XR|intros x Hx; rewrite (ORR x Hx (below j Hj)); apply NO].
  cbn [bind]. rewrite !map_length, !seq_length.
  rewrite (loop_more a b _ _ _ _ 0 0%N (N.of_nat (j - i - 1))); [reflexivity|rewrite !map_length; reflexivity|rewrite map_length, seq_length; apply le_n|exact LO].
Qed.
End DCount.

(** ** in the words of the properties *)
Section CWords.
Variables (e : env) (c : config) (keys : list bytes).
Hypothesis HG : good_keys keys.
Hypothesis HM : machine e.
Let HS : StronglySorted klt (uniq keys) := proj1 (good_uniq keys HG).
Let HN : length (uniq keys) <> 0 := proj2 (proj2 (proj2 (good_uniq keys HG))).

Lemma stored_bytes : forall q, In q keys -> is_bytes q.
Proof. intros q Hq. pose proof HG as (_ & HB & _). rewrite Forall_forall in HB. auto. Qed.

Lemma between : forall i j, i <= j -> j < length (uniq keys) -> exists xs,
  lists keys xs (fun x => klt (nth i (uniq keys) []) x /\ klt x (nth j (uniq keys) [])) /\ length xs = j - i - 1.
Proof.
  intros i j H Hj. apply (sect keys HG (S i)); [clear - H Hj HN; lia|]. intros x Hx. split.
  - intros [Q1 Q2]. apply (keys_lt keys HG) in Q1, Q2; auto; [|clear - H Hj; lia]. clear - Q1 Q2. lia.
  - intros Q. split; apply (kk_lt keys HG); auto; clear - Q Hx; lia.
Qed.

Section WSparse.
Variable s : sparse.
Hypothesis HC : sparse_settings c.
Hypothesis HT : two_keys keys.
Hypothesis HA : s_part e c keys s.
Let HK : sparse_ok c (uniq keys) 0 s := proj1 (s_part_ok keys HG e c HM HC s HA).
Let H2 : 2 <= length (uniq keys) := two_uniq keys HT.
Let Hlens : lens_ok (cf_type c) (cf_hlen c) (cf_rlen c) := proj2 HC.

Lemma sw_sought : forall q, In q keys -> exists fp it i, s_moveToKeyGreaterThan e s q true (siter_new s) = Ok (fp, it) /\
  s_shows e c s keys it i /\ nth i (uniq keys) [] = q.
Proof.
  intros q Hq. destruct (in_kk keys q Hq) as (i & Hi & EQ).
  assert (NT : ~ stray e keys 0 q).
  { rewrite <- (sk_st _ _ _ _ HK). apply (trap_stray e c keys (mkSurf no_dense s)). exact (stored_no_trap e c keys (mkSurf no_dense s) HG q Hq). }
  destruct (alone_seek keys e c s HG HM Hlens HK H2 q (stored_bytes q Hq) NT true (siter_new s)) as (fp & it & x & E & LA & G).
  { unfold SeekSparse.sidle0. cbn [siter_new si_valid si_len si_atterm si_key si_pos].
    rewrite !repeat_length, (sk_h _ _ _ _ HK), (sk_st _ _ _ _ HK). auto. }
  { reflexivity. }
  rewrite <- EQ in LA. apply (CountSeek.landed_self c _ HS HN 0 i Hi) in LA. subst x.
  replace (i <? length (uniq keys)) with true in G by lia. exists fp, it, i. split; [exact E|]. split; [|exact EQ].
  split; [apply (s_got_gt e s keys q true fp); auto using stored_bytes|].
  destruct (alone_look keys e c s HG HM Hlens HK H2 i it Hi G) as (v & L & V). eauto.
Qed.

Lemma sw_count : forall a i b j, s_shows e c s keys a i -> s_shows e c s keys b j -> i <= j ->
  (forall k, s_approxCount e s a b (Some 0) (Some 0) = Ok k -> exists xs,
     lists keys xs (fun x => klt (nth i (uniq keys) []) x /\ klt x (nth j (uniq keys) [])) /\ k = N.of_nat (length xs)) /\
  (SpecCount.room keys 0 (nth i (uniq keys) []) (nth j (uniq keys) []) -> exists k, s_approxCount e s a b (Some 0) (Some 0) = Ok k).
Proof.
  intros a i b j SA SB H. destruct (sg_count keys e c s HG HM Hlens HK H2 a i b j SA SB H) as (A & B). split; [|exact B].
  intros k E. rewrite (A k E). assert (Hj : j < length (uniq keys)) by (destruct SB as (_ & v & _ & V); destruct V; auto).
  destruct (between i j H Hj) as (xs & X & L). exists xs. rewrite L. auto.
Qed.
End WSparse.

Section WDense.
Variable d : dense.
Hypothesis HC : dense_settings c.
Hypothesis HL : ~ lone_ff keys.
Hypothesis HA : d_part e c keys d.
Let HD : dense_ok c (uniq keys) (height (uniq keys)) d := d_alone_parts keys HG e c HM HC d (d_part_built keys HG e c HM HC d HA).
Let Hlens : lens_ok (cf_type c) (cf_hlen c) (cf_rlen c) := proj2 (proj2 HC).

Lemma dw_sought : forall q, In q keys -> exists fp it i, d_moveToKeyGreaterThan e d q true (diter_new d) = Ok (fp, it) /\
  d_shows e c d keys it i /\ nth i (uniq keys) [] = q.
Proof.
  intros q Hq. destruct (in_kk keys q Hq) as (i & Hi & EQ).
  assert (NT : ~ (q = [] /\ asserts e = true)).
  { intros (X & _). pose proof HG as (_ & _ & A & _). rewrite Forall_forall in A. exact (A q Hq X). }
  destruct (d_seek_at keys e c d HG HM Hlens HL HD q true (stored_bytes q Hq) NT) as (fp & it & x & E & LA & G).
  rewrite <- EQ in LA. apply (CountSeek.landed_self c _ HS HN _ i Hi) in LA. subst x.
  replace (i <? length (uniq keys)) with true in G by lia. exists fp, it, i. split; [exact E|]. split; [|exact EQ].
  split; [apply (d_got_gt e d keys q true fp); auto using stored_bytes|].
  destruct (d_looks keys e c d HG HM Hlens HL HD i it Hi G) as (v & L & V). eauto.
Qed.

Lemma dw_count : forall a i b j, d_shows e c d keys a i -> d_shows e c d keys b j -> i <= j ->
  plain_top keys (d_height d - 1) ->
  reaches keys (d_height d - 1) (nth j (uniq keys) []) \/ ~ last_level_prefix keys (d_height d - 1) -> exists xs,
  lists keys xs (fun x => klt (nth i (uniq keys) []) x /\ klt x (nth j (uniq keys) [])) /\
  d_approxCount e d a b = Ok (N.of_nat (length xs), None, None).
Proof.
  intros a i b j SA SB H P R. rewrite (dg_count keys e c d HG HM Hlens HL HD a i b j SA SB H P R).
  assert (Hj : j < length (uniq keys)) by (destruct SB as (_ & v & _ & V); destruct V; auto).
  destruct (between i j H Hj) as (xs & X & L). exists xs. rewrite L. auto.
Qed.
End WDense.
End CWords.
