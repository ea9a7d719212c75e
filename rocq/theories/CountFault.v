(** approxCount from a key of the greatest depth reads past the bits of the
    sparse part. *)
From Coq Require Import Arith List NArith ZArith Bool Lia ZifyN ZifyNat ZifyBool Sorting.Sorted.
From Verif Require LookupFacts.
From Verif Require Import Res Word Config BitFacts WordFacts Bitvector BitvectorFacts Rank Select RankSelectFacts
  Suffix Spec SpecApi SpecFilter SerialFacts FilterFacts SuffixFacts Builder KeyFacts Trie
  BuilderFacts DenseBuild StructFacts NodeFacts SparseFacts DenseFacts Dense Sparse Surf PointFacts IterTrie IterDense IterDMove IterSparse
  IterFacts IterApi RangeApi CountBits CountTrie CountSparse CountDense CountDLoop CountSeek CountIt SpecCount CountApi
  SpecIter SpecRange SpecBare SpecAlone SpecCountAlone BareFacts AloneFacts CountAlone.
Import ListNotations.

(** ** select of a bit that is not there, with zeros behind the array *)
Section Past.
Variable e : env.
Hypothesis Hmem : strict_mem e = false.
Hypothesis Hz : forall ws, junk e ws = 0%N.

Lemma cnt_zero : cnt (bits64 0) = 0.
Proof. reflexivity. Qed.
Lemma more_nth : forall ws, nth (length ws) (more e ws) 0%N = 0%N.
Proof. intros ws. unfold more. rewrite app_nth2, Nat.sub_diag by lia. cbn [nth]. rewrite Hz. reflexivity. Qed.

Lemma loop_none : forall ws, Forall word_ok ws -> forall fuel wid word rl r, wid <= length ws -> word_ok word ->
  cnt (bits64 word ++ skipn (64 * S wid) (bits_of ws)) < rl ->
  select_loop e fuel ws wid word (popcnt word) rl <> Ok r.
Proof.
  intros ws Hok. induction fuel as [|f IH]; intros wid word rl r Hw Hwo H2 H; cbn [select_loop] in H;
    rewrite (popcnt_bits64 word) in H by auto; rewrite cnt_app in H2; replace (cnt (bits64 word) <? rl) with true in H by lia; [discriminate|].
  destruct (wread e ws (S wid)) as [w|] eqn:EW; [|discriminate]. cbn [bind] in H.
  destruct (Nat.eq_dec wid (length ws)) as [->|NE].
  { unfold wread in EW. rewrite (proj2 (nth_error_None ws (S (length ws)))) in EW by lia. rewrite Hmem in EW.
    replace (S (length ws) =? length ws) with false in EW by lia. discriminate. }
  rewrite wread_more in EW by (auto; lia). injection EW as <-.
  revert H. apply IH; auto; try lia.
  - apply nth_Forall_ok. apply more_ok. auto.
  - destruct (Nat.eq_dec (S wid) (length ws)) as [E|NE2].
    + rewrite E, more_nth, cnt_app, cnt_zero. rewrite (skipn_all2 (bits_of ws)) by (rewrite bits_of_length; lia). cbn [cnt]. lia.
    + rewrite words_split in H2 by (auto; lia). rewrite cnt_app in H2.
      unfold more. rewrite app_nth1 by lia. rewrite cnt_app. lia.
Qed.

Lemma select_none : forall s l p, select_ok s l -> nth 0 l false = true -> select e s (S (cnt l)) <> Ok p.
Proof.
  intros s l p (H & Hint & Hones & Hlut) H0. unfold select, massert.
  replace (0 <? S (cnt l)) with true by lia. replace (S (cnt l) <=? sl_ones s + 1) with true by lia.
  rewrite andb_false_r. cbn [bind]. set (k := S (cnt l)). set (iv := sl_interval s) in *.
  assert (C1 : 1 <= cnt l) by (destruct l as [|[] l]; cbn in *; try discriminate; lia).
  pose proof (Nat.div_mod k iv ltac:(lia)) as HD. pose proof (Nat.mod_upper_bound k iv ltac:(lia)) as HM.
  pose proof (Nat.div_mod (cnt l) iv ltac:(lia)) as HD'. pose proof (Nat.mod_upper_bound (cnt l) iv ltac:(lia)) as HM'.
  assert (Hex : forall rl v, (if k / iv =? 0 then pred_idx (k mod iv) else Ok (k mod iv)) = Ok rl ->
     vget (sl_lut s) (k / iv) = Ok v -> 1 <= rl /\ rl < k /\ v = sel (k - rl) l).
  { intros rl v E1 E2. destruct (Nat.eqb_spec (k / iv) 0) as [E|E].
    - rewrite E in *. rewrite Nat.mul_0_r, Nat.add_0_l in HD. rewrite <- HD in E1. unfold k in E1. cbn [pred_idx] in E1.
      injection E1 as <-. split; [lia|]. split; [unfold k; lia|]. rewrite Hlut in E2. unfold vget in E2. cbn [nth_error] in E2.
      injection E2 as <-. unfold k. replace (S (cnt l) - cnt l) with 1 by lia. destruct l as [|[] l]; cbn in *; auto; discriminate.
    - injection E1 as <-. rewrite Hlut in E2. destruct (k / iv) as [|q] eqn:Eq; [lia|].
      unfold vget in E2. cbn [nth_error] in E2.
      destruct (nth_error (map (fun j => sel (j * iv) l) (seq 1 (cnt l / iv))) q) as [y|] eqn:EN; [|discriminate].
      assert (L : q < cnt l / iv).
      { assert (X : nth_error (map (fun j => sel (j * iv) l) (seq 1 (cnt l / iv))) q <> None) by congruence.
        apply nth_error_Some in X. rewrite map_length, seq_length in X. auto. }
      rewrite (nth_error_nth' _ (sel (0 * iv) l)) in EN by (rewrite map_length, seq_length; lia).
      rewrite (map_nth (fun j => sel (j * iv) l)), seq_nth in EN by lia.
      assert (iv * S q <= iv * (cnt l / iv)) by (apply Nat.mul_le_mono_l; lia).
      split; [unfold k in *; lia|]. split; [unfold k in *; nia|].
      injection E2 as <-. injection EN as <-. f_equal. lia. }
  destruct (if k / iv =? 0 then pred_idx (k mod iv) else Ok (k mod iv)) as [rl|] eqn:E1; [|discriminate]. cbn [bind].
  destruct (vget (sl_lut s) (k / iv)) as [v|] eqn:E2; [|discriminate]. cbn [bind].
  destruct (Hex rl v eq_refl eq_refl) as (R1 & R2 & ->). clear Hex.
  destruct (Nat.eqb_spec rl 0) as [Z|Z]; [lia|].
  set (ws := bv_words (sl_bv s)). set (L := bits_of ws).
  assert (Hok : Forall word_ok ws) by (destruct H as (_ & ? & _); auto).
  pose proof (repr_len _ _ H) as HLn. fold ws in HLn.
  set (r0 := k - rl) in *.
  assert (HcL : cnt L = cnt l) by (apply repr_cnt; auto).
  rewrite <- (repr_sel _ l r0 H) by lia. fold ws L.
  destruct (sel_spec L r0) as (P1 & P2 & P3); try lia.
  remember (sel r0 L) as q eqn:Eq.
  pose proof (Nat.div_mod q 64 ltac:(lia)) as HDp. pose proof (Nat.mod_upper_bound q 64 ltac:(lia)) as HMp.
  assert (Hc1 : cnt (firstn (S q) L) = r0) by (rewrite cnt_firstn_S by auto; rewrite P2; lia).
  set (wid := if q mod 64 =? 63 then S (q / 64) else q / 64).
  set (off := if q mod 64 =? 63 then 0 else S (q mod 64)).
  assert (Hpos : 64 * wid + off = S q /\ off < 64) by (unfold wid, off; destruct (Nat.eqb_spec (q mod 64) 63); lia).
  assert (HLlen : length L = 64 * length ws) by apply bits_of_length.
  assert (Hrest : cnt (skipn (S q) L) = cnt l - r0).
  { pose proof (firstn_skipn (S q) L) as F. rewrite <- F in HcL at 1. rewrite cnt_app in HcL. lia. }
  assert (Hwid : wid <= length ws) by lia.
  rewrite wread_more by auto. cbn [bind].
  set (w := nth wid (more e ws) 0%N). assert (Hw : word_ok w) by (apply nth_Forall_ok, more_ok; auto).
  set (word := N.shiftr (wrap64 (N.shiftl w (N.of_nat off))) (N.of_nat off)).
  assert (Hword : word_ok word) by (apply shiftr_ok, wrap64_ok).
  destruct (select_loop e (S (length ws)) ws wid word (popcnt word) rl) as [[[a b] c]|] eqn:ES; [|discriminate].
  exfalso. revert ES. apply loop_none; auto.
  destruct (Nat.eq_dec wid (length ws)) as [E|NE].
  - rewrite cnt_app. rewrite (skipn_all2 (bits_of ws)) by (rewrite bits_of_length; lia). unfold word, w. rewrite E, more_nth, N.shiftl_0_l. cbn [wrap64]. change (wrap64 0) with 0%N. rewrite N.shiftr_0_l, cnt_zero. cbn [cnt]. lia.
  - assert (Ew : w = nth wid ws 0%N) by (unfold w, more; rewrite app_nth1; auto; lia).
    assert (Hwb : bits64 word = repeat false off ++ skipn off (bits64 w)).
    { unfold word. rewrite bits64_shiftr by (try apply wrap64_ok; lia). f_equal.
      rewrite bits64_shiftl by lia. rewrite firstn_app, skipn_length, bits64_length.
      rewrite Nat.sub_diag, firstn_O, app_nil_r. apply firstn_all2. rewrite skipn_length, bits64_length. lia. }
    assert (Hsplit : skipn (S q) L = skipn off (bits64 w) ++ skipn (64 * S wid) L).
    { destruct Hpos as [Hp1 Hp2]. rewrite <- Hp1, <- skipn_skipn'. unfold L. rewrite words_split by (auto; lia). rewrite <- Ew.
      rewrite skipn_app, bits64_length. replace (off - 64) with 0 by lia. reflexivity. }
    fold L. rewrite Hwb, <- app_assoc, cnt_app, cnt_repeat_false, <- Hsplit. unfold k in *. lia.
Qed.
End Past.

(** ** the sparse part *)
Section DeepS.
Variables (c : config) (K : list bytes).
Notation leafl := (leafl K). Notation height := (height K). Notation item := (item K). Notation anc := (anc K).
Let n := length K.
Hypothesis HNE : length K <> 0.
Variables (st : nat) (s : sparse) (e : env).
Context {lb : nat} {Hlb : wide K lb}.
Hypothesis Hst1 : lb <= st.
Hypothesis Hst2 : S st <= height.
Hypothesis HK : sparse_ok c K st s.
Hypothesis Hmem : strict_mem e = false.
Hypothesis Hz : forall ws, junk e ws = 0%N.

Lemma first_fails : forall i p, i < n -> 0 < nit K st -> s_getFirstLabelPos e s (nodeno K (height - 1) i) <> Ok p.
Proof.
  intros i p Hi Hpos. unfold s_getFirstLabelPos. rewrite (sk_nc c K st s HK).
  assert (Hh : forall i, i < length K -> leafl i < height) by (intros; apply (leafl_h K HNE st e Hst1 Hst2 Hmem); auto).
  pose proof (E_top K HNE st e Hst1 Hst2 Hmem i Hi) as ET. apply (E_none K HNE st e Hst1 Hst2 Hmem) in ET; auto. destruct ET as [_ ET].
  pose proof (sm_mono (nds K) st (height - 1) ltac:(lia)) as M. unfold nodeno. rewrite (none_louds K HNE Hh (height - 1) i Hi ET).
  set (a := sm (nds K) (height - 1)) in *. set (b := cn (louds K (height - 1)) (length K)).
  replace (a + b + 1 <? sm (nds K) st) with false by lia.
  set (L := cc (slouds K) st height).
  pose proof (slen_pos K HNE st e Hst1 Hst2 Hmem Hpos) as SP.
  pose proof (s_first_louds K HNE st Hst1 Hst2 SP) as F. pose proof (sk_ld c K st s HK) as SO. fold L in F, SO.
  pose proof (s_louds_cnt K HNE st Hst1 Hst2 (height - 1) (length K) ltac:(lia) ltac:(lia) ltac:(lia)) as C. fold L a b in C.
  assert (SN : soff K st (height - 1) + cn (item (height - 1)) (length K) = slen K st).
  { unfold SparseFacts.slen. pose proof (soff_S K HNE st e Hst1 Hst2 Hmem (height - 1) ltac:(lia)) as X.
    replace (S (height - 1)) with height in X by lia. symmetry. exact X. }
  rewrite SN in C. pose proof (louds_slen K HNE st e Hst1 Hst2 Hmem) as LL. fold L in LL. rewrite firstn_all2 in C by lia.
  replace (a + b + 1 - sm (nds K) st) with (S (cnt L)) by lia. apply select_none; auto.
Qed.

Variables (i j : nat) (x y : siter).
Hypothesis Hij : i < j.
Hypothesis Hj : j < n.
Hypothesis Hi2 : leafl i + 2 = height.
Hypothesis Hj2 : st <= leafl j.
Hypothesis Hdeep : st <= leafl i.

Lemma nit_pos : 0 < nit K st.
Proof.
  pose proof (anc_item K st i ltac:(lia) Hdeep) as I. pose proof (cn_item_lt K st (anc st i) I) as Q. lia.
Qed.

Lemma at_list : forall k it, k < n -> si_len it = CountSparse.path K st k -> slpre K st k (CountSparse.path K st k) (si_key it) (si_pos it) ->
  exists p, mapM (vget (si_pos it)) (seq 0 (si_len it)) = Ok p /\ length p = CountSparse.path K st k /\ CountSparse.ents K st k (map Some p).
Proof.
  intros k it Hk A1 A2. pose proof (leafl_height K HNE st Hst1 Hst2 k Hk) as LH.
  pose proof A2 as (_ & A3 & _). unfold CountSparse.path in A1.
  rewrite mapM_vget by lia. cbn [skipn]. eexists. split; [reflexivity|]. split; [rewrite firstn_length; unfold CountSparse.path; lia|].
  rewrite A1. apply (CountSparse.ents_slpre K HNE st e Hst1 Hst2 Hmem nit_pos i j ltac:(lia) Hj) with (k := si_key it); auto; unfold CountSparse.path; lia.
Qed.

(** the left list is extended only at the last level, which is empty *)
Lemma loop_fails : forall k lev ll rl rp rd r, lev + k = height - st -> 1 <= lev -> lev <= height - 1 - st -> length ll = height - 1 - st ->
  CountSparse.side K st false lev j rl rp rd -> s_extend_loop e s k lev ll rl (Some (spos K st (height - 2) i)) rp false rd <> Ok r.
Proof.
  pose proof nit_pos as NP. assert (Hin : i < n) by lia.
  assert (EE : E K st (height - 2) i = Some (spos K st (height - 2) i)).
  { unfold E, ep, xi. replace (height - 2 <=? leafl i) with true by lia. cbn [orb]. unfold SparseFacts.spos. do 3 f_equal.
    replace (height - 2) with (leafl i) by lia. exact (proj1 (anc_leaf K i ltac:(lia))). }
  assert (I : item (height - 2) i = true).
  { replace (height - 2) with (leafl i) by lia. pose proof (anc_item K (leafl i) i ltac:(lia) (le_n _)) as I. rewrite (proj1 (anc_leaf K i ltac:(lia))) in I. exact I. }
  induction k as [|k IH]; intros lev ll rl rp rd r HK0 L1 L2 LL SR; [lia|]. cbn [s_extend_loop].
  assert (NE : optnat_eqb (Some (spos K st (height - 2) i)) rp = false).
  { destruct rp as [q|]; [|reflexivity]. cbn [optnat_eqb]. apply Nat.eqb_neq. intros <-.
    destruct SR as (_ & B2 & _ & _ & B5 & _ & _ & B8).
    pose proof (CountSparse.E_level K HNE st e Hst1 Hst2 Hmem NP i j ltac:(lia) Hj (st + length rl - 1) j _ ltac:(lia) Hj B5) as R2.
    pose proof (CountSparse.E_level K HNE st e Hst1 Hst2 Hmem NP i j ltac:(lia) Hj (height - 2) i _ ltac:(lia) Hin EE) as R1.
    destruct (Nat.eq_dec (st + length rl - 1) (height - 2)) as [G|G].
    - rewrite G in B5. destruct (CountSparse.E_item K HNE st e Hst1 Hst2 Hmem _ _ _ Hj B5) as (z & Z1 & Z2 & Z3).
      assert (i < z).
      { destruct Z3 as [[-> Z3]|[[Z3 _] _]]; [|lia]. pose proof (leafl_height K HNE st Hst1 Hst2 j Hj).
        replace (height - 2) with (leafl j) by lia. rewrite (proj1 (anc_leaf K j Hj)). exact Hij. }
      unfold SparseFacts.spos in Z2. pose proof (cn_lt (item (height - 2)) i z I H). lia.
    - pose proof (CountSparse.soff_mono K HNE st e Hst1 Hst2 Hmem (S (st + length rl - 1)) (height - 2) ltac:(lia)). lia. }
  rewrite NE. unfold s_extend_one at 1. cbn [negb andb]. rewrite LL.
  destruct (Nat.leb_spec (height - 1 - st) lev) as [G|G].
  - pose proof (s_step c K HNE st s e Hst1 Hst2 HK Hmem (height - 2) i _ ltac:(lia) ltac:(lia) ltac:(lia) EE) as ST.
    destruct (s_getChildNodeNum e s (spos K st (height - 2) i)) as [nn|]; [|discriminate]. cbn [bind] in *.
    destruct (s_readChild e s (spos K st (height - 2) i)) as [cb|]; [|discriminate]. cbn [bind] in *. injection ST as ST. rewrite ST.
    replace (S (height - 2)) with (height - 1) by lia. unfold s_appendToPosList at 1.
    destruct (s_getFirstLabelPos e s (nodeno K (height - 1) i)) as [v|] eqn:FF; [|discriminate].
    exfalso. exact (first_fails i v ltac:(lia) NP FF).
  - cbn [bind].
    pose proof (CountSparse.extend_one c K HNE st s e Hst1 Hst2 HK Hmem NP i j ltac:(lia) Hj False ltac:(intros []) false lev j rl rp rd L1 ltac:(lia)
      (or_intror eq_refl) ltac:(intros _ []) SR) as SX.
    destruct (s_extend_one e s rl rp lev false rd) as [[[rl' rp'] rd']|]; [|discriminate]. cbn [okB fst snd] in SX. cbn [bind].
    apply IH; auto; lia.
Qed.

Lemma s_fails : forall a inr m, si_len x = CountSparse.path K st i -> slpre K st i (CountSparse.path K st i) (si_key x) (si_pos x) ->
  si_len y = CountSparse.path K st j -> slpre K st j (CountSparse.path K st j) (si_key y) (si_pos y) ->
  inr <> None -> s_approxCount e s x y (Some a) inr <> Ok m.
Proof.
  intros a inr m X X' Y Y' NR. destruct inr as [b|]; [|congruence]. unfold s_approxCount.
  destruct (at_list i x ltac:(lia) X X') as (p & -> & P1 & P2). destruct (at_list j y Hj Y Y') as (q & EQ & Q1 & Q2).
  rewrite EQ. cbn [bind]. pose proof nit_pos as NP.
  pose proof (leafl_height K HNE st Hst1 Hst2 j Hj) as LJ.
  assert (PL : forall k l, k < n -> st <= leafl k -> length l = CountSparse.path K st k -> CountSparse.ents K st k (map Some l) ->
    last_pos (map Some l) = Ok (Some (spos K st (leafl k) k)) /\ nth_error (map Some l) (CountSparse.path K st k - 1) = Some (Some (spos K st (leafl k) k))).
  { intros k l Hk Dk L EN. pose proof (leafl_height K HNE st Hst1 Hst2 k Hk) as LK.
    assert (G : nth_error (map Some l) (CountSparse.path K st k - 1) = Some (Some (spos K st (leafl k) k))).
    { rewrite EN by (rewrite ?map_length; unfold CountSparse.path in *; lia). unfold CountSparse.path. replace (st + (S (leafl k) - st - 1)) with (leafl k) by lia.
      unfold E, ep, xi. rewrite Nat.leb_refl. cbn [orb]. rewrite (proj1 (anc_leaf K k Hk)). reflexivity. }
    split; auto. apply (last_nth K HNE st e Hst1 Hst2 Hmem NP i j); [lia|exact Hj|]. rewrite map_length, L. exact G. }
  unfold s_extendPosList. rewrite !map_length, P1, Q1.
  destruct (PL i p ltac:(lia) Hdeep P1 P2) as [LP _]. destruct (PL j q Hj Hj2 Q1 Q2) as [LQ NQ].
  assert (PJ : Nat.min (CountSparse.path K st i) (CountSparse.path K st j) = CountSparse.path K st j) by (unfold CountSparse.path; lia). rewrite PJ.
  replace (CountSparse.path K st j =? 0) with false by (unfold CountSparse.path; lia). cbn [bind]. rewrite LP, LQ. cbn [bind].
  rewrite (sk_h c K st s HK), (sk_st c K st s HK).
  destruct (s_extend_loop _ _ _ _ _ _ _ _ _ _) as [r|] eqn:XL; [|discriminate]. exfalso. revert XL.
  replace (leafl i) with (height - 2) by lia.
  apply loop_fails; try (unfold CountSparse.path; lia); [rewrite map_length, P1; unfold CountSparse.path; lia|].
  apply (CountSparse.side_nth K HNE st e Hst1 Hst2 Hmem NP i j); rewrite ?map_length, ?Q1; auto; try (unfold CountSparse.path; lia).
Qed.

End DeepS.

Section Deep.
Variables (c : config) (K : list bytes).
Notation leafl := (leafl K). Notation height := (height K).
Let n := length K.
Hypothesis HS : StronglySorted klt K.
Hypothesis HE : Forall (fun k => k <> []) K.
Hypothesis HNE : length K <> 0.
Variables (st : nat) (f : surf) (e : env).
Hypothesis Hst1 : 1 <= st.
Hypothesis Hst2 : S st <= height.
Hypothesis HD : dense_ok c K st (sf_dense f).
Hypothesis HK : sparse_ok c K st (sf_sparse f).
Hypothesis Hmem : strict_mem e = false.
Hypothesis Hz : forall ws, junk e ws = 0%N.
Variables (i j : nat) (x y : iter).
Hypothesis Hij : i < j.
Hypothesis Hj : j < n.
Hypothesis Hi2 : leafl i + 2 = height.
Hypothesis Hj2 : st <= leafl j.
Hypothesis Hdeep : st <= leafl i.

Lemma at_sparse : forall k it, st <= leafl k -> it_at K st k it ->
  si_len (it_s it) = CountSparse.path K st k /\ slpre K st k (CountSparse.path K st k) (si_key (it_s it)) (si_pos (it_s it)).
Proof. intros k it D [_ A]. replace (leafl k <? st) with false in A by lia. destruct A as (_ & A1 & _ & A2). split; auto. Qed.

Lemma out_some : forall k it l r, k = i \/ k = j -> it_at K st k it ->
  mapM (vget (di_pos (it_d it))) (seq 0 (di_len (it_d it))) = Ok l -> d_extendPosList e (sf_dense f) l = Ok r -> snd r <> None.
Proof.
  intros k it l r Hk [A _] L X. assert (D : st <= leafl k /\ k < n) by (destruct Hk as [->| ->]; lia). destruct D as (D1 & D3).
  rewrite (proj1 (d_list K HS HE st k (it_d it) D3 A)) in L. injection L as <-.
  unfold d_extendPosList in X. rewrite map_length, seq_length in X. unfold orig in X. replace (Nat.min (S (leafl k)) st) with st in X by lia.
  destruct (pred_idx st) as [z|]; [|discriminate]. cbn [bind] in X. destruct (vget _ z) as [pos|]; [|discriminate]. cbn [bind] in X.
  rewrite (dk_h c K st _ HD), Nat.sub_diag in X. cbn [d_extend_loop bind] in X.
  destruct (d_getChildNodeNum e (sf_dense f) pos) as [o|]; [|discriminate]. cbn [bind] in X.
  destruct (d_readChild e (sf_dense f) pos) as [cb|]; [|discriminate]. cbn [bind] in X. injection X as <-. discriminate.
Qed.

Lemma count_fails : forall m, it_at K st i x -> it_at K st j y -> approxCount_it e f x y <> Ok m.
Proof.
  intros m X Y. unfold approxCount_it. rewrite (it_at_valid K st _ _ X), (it_at_valid K st _ _ Y). cbn [negb orb].
  unfold d_approxCount. destruct (mapM (vget (di_pos (it_d x))) _) as [l|] eqn:L; [|discriminate]. cbn [bind].
  destruct (d_extendPosList e (sf_dense f) l) as [[ls outl]|] eqn:XL; [|discriminate]. cbn [bind].
  destruct (mapM (vget (di_pos (it_d y))) _) as [r|] eqn:R; [|discriminate]. cbn [bind].
  destruct (d_extendPosList e (sf_dense f) r) as [[rs outr]|] eqn:XR; [|discriminate]. cbn [bind].
  destruct (d_count_loop _ _ _ _ _ _ _ _ _ _) as [cnt0|]; [|discriminate]. cbn [bind].
  pose proof (out_some i x l _ (or_introl eq_refl) X L XL) as OL. pose proof (out_some j y r _ (or_intror eq_refl) Y R XR) as OR. cbn [snd] in OL, OR.
  destruct outl as [a|]; [|congruence].
  destruct (s_approxCount e (sf_sparse f) (it_s x) (it_s y) (Some a) outr) as [c2|] eqn:SC; [|discriminate].
  destruct (at_sparse i x Hdeep X) as [X1 X2]. destruct (at_sparse j y Hj2 Y) as [Y1 Y2].
  exfalso. exact (s_fails c K HNE st (sf_sparse f) e Hst1 Hst2 HK Hmem Hz i j (it_s x) (it_s y) Hij Hj Hi2 Hj2 Hdeep a outr c2 X1 X2 Y1 Y2 OR SC).
Qed.
End Deep.

Theorem count_deepest : forall e c keys f,
  machine e -> (forall ws, junk e ws = 0%N) -> settings c -> good_keys keys -> ~ lone_ff keys -> filter_of e c keys f ->
  forall l r d dr, In l keys -> In r keys -> klt l r -> dist_len keys l d -> (forall k d', In k keys -> dist_len keys k d' -> d' <= d) ->
  dist_len keys r dr -> getSparseStartLevel f < dr ->
  forall m, approxCount e f l r <> Ok m.
Proof.
  intros e c keys f HM HZ HC HG HL HF l r d dr Hl Hr LT DL MAX DR SL m.
  destruct (in_kk keys l Hl) as (i & Hi & <-). destruct (in_kk keys r Hr) as (j & Hj & <-).
  pose proof (keys_lt keys HG i j Hi Hj LT) as IJ.
  destruct (built_st keys HG e c f HM HC HF) as (S1 & S2 & D & K').
  destruct (left_at keys HG e c f HM HC HF HL i Hi) as (x & EX & X & _). destruct (left_at keys HG e c f HM HC HF HL j Hj) as (y & EY & Y & _).
  pose proof (dist_fun keys _ _ _ DL (dist_at keys HG i Hi)) as DI. pose proof (dist_fun keys _ _ _ DR (dist_at keys HG j Hj)) as DJ.
  assert (HT : height (uniq keys) = S d).
  { destruct (LEN_max (uniq keys) (length (uniq keys))) as (w & W1 & W2); [lia|]. fold (height (uniq keys)) in W2.
    pose proof (MAX _ _ (kk_in keys w W1) (dist_at keys HG w W1)) as MW.
    pose proof (leafl_height (uniq keys) ltac:(lia) (getSparseStartLevel f) S1 S2 i Hi) as LI. lia. }
  pose proof (MAX _ _ Hr DR) as DD.
  unfold approxCount. rewrite EX. cbn [bind]. rewrite (it_at_valid _ _ _ _ X). cbn [negb]. rewrite EY. cbn [bind]. rewrite (it_at_valid _ _ _ _ Y). cbn [negb bind].
  pose proof (good_uniq keys HG) as (U1 & U2 & U3 & U4).
  apply (count_fails c (uniq keys)) with (st := getSparseStartLevel f) (i := i) (j := j); auto; try lia. apply (proj2 HM).
Qed.

(** LoudsSparse alone *)
Theorem alone_deepest : forall e c keys, good_keys keys -> machine e -> (forall ws, junk e ws = 0%N) ->
  forall s, sparse_settings c -> two_keys keys -> s_part e c keys s ->
  forall a i b j d, s_shows e c s keys a i -> s_shows e c s keys b j -> i < j -> dist_len keys (nth i (uniq keys) []) d ->
  (forall k d', In k keys -> dist_len keys k d' -> d' <= d) ->
  forall m, s_approxCount e s a b (Some 0) (Some 0) <> Ok m.
Proof.
  intros e c keys HG HM HZ s HC HT HA a i b j d SA SB Hij DL MAX m.
  pose proof (proj1 (s_part_ok keys HG e c HM HC s HA)) as HK. pose proof (two_uniq keys HT) as H2.
  apply (sg_at keys e c s HG HM (proj2 HC) HK H2) in SA, SB. destruct SA as (Hi & _ & A1 & _ & A2), SB as (Hj & _ & B1 & _ & B2).
  pose proof (good_uniq keys HG) as (U1 & U2 & U3 & U4).
  pose proof (height_ge2 (uniq keys) e U4 (proj1 HM) (proj2 HM)) as G2.
  assert (Hlb : wide (uniq keys) 0) by (right; exact H2).
  pose proof (dist_fun keys _ _ _ DL (dist_at keys HG i Hi)) as DI.
  assert (HTT : height (uniq keys) = S d).
  { destruct (LEN_max (uniq keys) (length (uniq keys))) as (w & W1 & W2); [lia|]. fold (height (uniq keys)) in W2.
    pose proof (MAX _ _ (kk_in keys w W1) (dist_at keys HG w W1)) as MW.
    pose proof (LEN_leafl (uniq keys) (length (uniq keys)) i Hi) as LI. fold (height (uniq keys)) in LI. lia. }
  apply (s_fails c (uniq keys) U4 0 s e (le_n 0) ltac:(lia) HK (proj2 HM) HZ i j); auto; try lia. discriminate.
Qed.

(** iterators from anywhere *)
Theorem iters_deepest : forall e c keys f,
  machine e -> (forall ws, junk e ws = 0%N) -> settings c -> good_keys keys -> ~ lone_ff keys -> filter_of e c keys f ->
  forall a i b j d dr, gotten e f keys a -> stands e c f keys a (Some i) -> gotten e f keys b -> stands e c f keys b (Some j) ->
  i < j -> j < length (uniq keys) -> dist_len keys (nth i (uniq keys) []) d -> (forall k d', In k keys -> dist_len keys k d' -> d' <= d) ->
  dist_len keys (nth j (uniq keys) []) dr -> getSparseStartLevel f < dr ->
  forall m, approxCount_it e f a b <> Ok m.
Proof.
  intros e c keys f HM HZ HC HG HL HF a i b j d dr GA SA GB SB IJ Hj DL MAX DR SL m. assert (Hi : i < length (uniq keys)) by lia.
  destruct (built_st keys HG e c f HM HC HF) as (S1 & S2 & D & K').
  pose proof (stands_placed keys HG e c f HM HC HF HL a i GA SA Hi) as X.
  pose proof (stands_placed keys HG e c f HM HC HF HL b j GB SB Hj) as Y.
  pose proof (dist_fun keys _ _ _ DL (dist_at keys HG i Hi)) as DI. pose proof (dist_fun keys _ _ _ DR (dist_at keys HG j Hj)) as DJ.
  assert (HT : height (uniq keys) = S d).
  { destruct (LEN_max (uniq keys) (length (uniq keys))) as (w & W1 & W2); [lia|]. fold (height (uniq keys)) in W2.
    pose proof (MAX _ _ (kk_in keys w W1) (dist_at keys HG w W1)) as MW.
    pose proof (leafl_height (uniq keys) ltac:(lia) (getSparseStartLevel f) S1 S2 i Hi) as LI. lia. }
  pose proof (MAX _ _ (kk_in keys j Hj) DR) as DD.
  pose proof (good_uniq keys HG) as (U1 & U2 & U3 & U4).
  apply (count_fails c (uniq keys)) with (st := getSparseStartLevel f) (i := i) (j := j); auto; try lia. apply (proj2 HM).
Qed.
