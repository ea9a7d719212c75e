(** Ranks and selects at and beyond the end of a bit vector, as approxCount
    uses them. *)
From Coq Require Import Arith List NArith ZArith Bool Lia ZifyN ZifyNat ZifyBool.
From Verif Require Import Res Word BitFacts WordFacts Bitvector BitvectorFacts Rank Select RankSelectFacts.
Import ListNotations.

Definition b2n (b : bool) : nat := if b then 1 else 0.

Section Past.
Variable e : env.
Hypothesis Hmem : strict_mem e = false.

(** the words together with the one that follows them in memory *)
Definition more (ws : list N) : list N := ws ++ [wrap64 (junk e ws)].

Lemma wread_more : forall ws i, i <= length ws -> wread e ws i = Ok (nth i (more ws) 0%N).
Proof.
  intros ws i H. unfold wread, more. destruct (Nat.eq_dec i (length ws)) as [->|N].
  - rewrite (proj2 (nth_error_None ws (length ws))) by lia. rewrite Hmem, Nat.eqb_refl.
    rewrite app_nth2, Nat.sub_diag by lia. reflexivity.
  - rewrite (nth_error_nth' ws 0%N) by lia. rewrite app_nth1 by lia. reflexivity.
Qed.
Lemma more_length : forall ws, length (more ws) = S (length ws).
Proof. intros. unfold more. rewrite app_length. cbn. lia. Qed.
Lemma more_ok : forall ws, Forall word_ok ws -> Forall word_ok (more ws).
Proof. intros ws H. apply Forall_app. split; auto. constructor; auto. apply wrap64_ok. Qed.

Lemma foldM_same : forall (A B : Type) (f g : B -> A -> res B) xs b, (forall b x, In x xs -> f b x = g b x) ->
  foldM f xs b = foldM g xs b.
Proof.
  induction xs as [|x xs IH]; intros b H; [reflexivity|]. cbn [foldM]. rewrite (H b x) by (left; auto).
  destruct (g b x); cbn [bind]; auto. apply IH. intros. apply H. right. auto.
Qed.

Lemma popcountLinear_more : forall ws x n, 64 * x + n <= 64 * length ws + 64 ->
  popcountLinear e ws x n = popcountLinear e (more ws) x n.
Proof.
  intros ws x [|m] H; [reflexivity|]. unfold popcountLinear.
  pose proof (Nat.div_mod m 64 ltac:(lia)) as DM. pose proof (Nat.mod_upper_bound m 64 ltac:(lia)) as MB.
  rewrite (foldM_same nat nat _ (fun acc i => w <- wread e (more ws) (x + i);; Ok (acc + popcnt w))).
  - rewrite wread_more by lia. rewrite (wread_ok e (more ws)) by (rewrite more_length; lia). reflexivity.
  - intros b y Hy. apply in_seq in Hy. rewrite wread_more by lia. rewrite (wread_ok e (more ws)) by (rewrite more_length; lia). reflexivity.
Qed.

Lemma rank_excl : forall r l p, rank_ok r l -> p <= length l ->
  exists b, readBit e (rk_bv r) p = Ok b /\ rank e r p = Ok (cnt (firstn p l) + b2n b).
Proof.
  intros r l p H Hp. pose proof H as (HR & Hb & Hl).
  destruct (Nat.eq_dec p (length l)) as [->|NE].
  2: { exists (nth p l false). split; [apply readBit_spec; auto; lia|]. rewrite (rank_spec e r l) by (auto; lia).
       rewrite cnt_firstn_S by lia. reflexivity. }
  assert (Hn : bv_nbits (rk_bv r) = length l) by (destruct HR; auto).
  assert (Hw : length (bv_words (rk_bv r)) = num_words (length l)) by (destruct HR as (_ & _ & ? & _); congruence).
  pose proof (num_words_bounds (length l)) as [N1 N2].
  set (ws := bv_words (rk_bv r)) in *.
  pose proof (Nat.div_mod (length l) 64 ltac:(lia)) as D6. pose proof (Nat.mod_upper_bound (length l) 64 ltac:(lia)) as M6.
  assert (I : length l / 64 <= length ws) by lia.
  exists (nth (length l) (bits_of (more ws)) false). split.
  - unfold readBit. rewrite Hn. unfold massert. rewrite Nat.leb_refl, andb_false_r. cbn [bind]. fold ws.
    rewrite wread_more by auto. cbn [bind]. rewrite test_msb by auto. rewrite bits_of_nth. reflexivity.
  - unfold rank. rewrite Hb, Hl, Hn. unfold massert. rewrite Nat.leb_refl, andb_false_r. cbn [bind].
    change (512 / 64) with 8.
    pose proof (Nat.div_mod (length l) 512 ltac:(lia)) as HD. pose proof (Nat.mod_upper_bound (length l) 512 ltac:(lia)) as HM.
    rewrite (vget_ok _ _ _ 0) by (rewrite map_length, seq_length; lia).
    rewrite (nth_indep _ 0 (cnt (firstn (512 * 0) l))) by (rewrite map_length, seq_length; lia).
    rewrite (map_nth (fun i => cnt (firstn (512 * i) l))), seq_nth by lia.
    rewrite Nat.add_0_l. cbn [bind]. fold ws.
    rewrite popcountLinear_more by lia.
    assert (Hok : Forall word_ok ws) by (destruct HR as (_ & ? & _); auto).
    rewrite popcountLinear_spec by (try (apply more_ok; auto); rewrite more_length; lia). cbn [bind]. f_equal.
    assert (F : firstn (length l) (bits_of (more ws)) = l).
    { unfold more. rewrite bits_of_app. destruct HR as (_ & _ & _ & E). fold ws in E. rewrite E, <- app_assoc.
      rewrite firstn_app, Nat.sub_diag, firstn_O, app_nil_r. apply firstn_all. }
    assert (G : forall a, a <= length l -> firstn a l = firstn a (bits_of (more ws))).
    { intros a Ha. transitivity (firstn a (firstn (length l) (bits_of (more ws)))); [rewrite F; reflexivity|].
      rewrite firstn_firstn, Nat.min_l by lia. reflexivity. }
    replace (cnt (firstn (length l) l)) with (cnt (firstn (length l) (bits_of (more ws)))) by (rewrite F, firstn_all; reflexivity).
    unfold b2n. rewrite <- cnt_firstn_S by (rewrite bits_of_length, more_length; lia).
    replace (64 * (length l / 512 * 8)) with (512 * (length l / 512)) by lia.
    replace (S (length l)) with (512 * (length l / 512) + (length l mod 512 + 1)) by lia.
    rewrite (firstn_plus _ (bits_of (more ws)) (512 * (length l / 512))), cnt_app. rewrite G by lia. reflexivity.
Qed.

Lemma select_loop_past : forall ws, Forall word_ok ws ->
  forall fuel wid word rl a b c, wid <= length ws -> word_ok word -> 1 <= rl ->
  (wid < length ws -> cnt (bits64 word ++ skipn (64 * S wid) (bits_of ws)) < rl) ->
  select_loop e fuel ws wid word (popcnt word) rl = Ok (a, b, c) ->
  length ws <= a /\ word_ok b /\ 1 <= c <= cnt (bits64 b).
Proof.
  intros ws Hok. induction fuel as [|f IH]; intros wid word rl a b c Hw Hwo H1 H2 H; cbn [select_loop] in H.
  - rewrite popcnt_bits64 in H by auto. destruct (Nat.ltb_spec (cnt (bits64 word)) rl) as [G|G]; [discriminate|].
    injection H as <- <- <-. split; [|split; auto].
    destruct (Nat.eq_dec wid (length ws)); [lia|]. specialize (H2 ltac:(lia)). rewrite cnt_app in H2. lia.
  - rewrite (popcnt_bits64 word) in H by auto. destruct (Nat.ltb_spec (cnt (bits64 word)) rl) as [G|G].
    + destruct (wread e ws (S wid)) as [w|] eqn:EW; [|discriminate]. cbn [bind] in H.
      destruct (Nat.eq_dec wid (length ws)) as [->|NE].
      { unfold wread in EW. rewrite (proj2 (nth_error_None ws (S (length ws)))) in EW by lia. rewrite Hmem in EW.
        replace (S (length ws) =? length ws) with false in EW by lia. discriminate. }
      rewrite wread_more in EW by lia. injection EW as <-.
      apply IH in H; auto; try lia.
      * apply nth_Forall_ok. apply more_ok. auto.
      * intros L. specialize (H2 ltac:(lia)). rewrite cnt_app, words_split, cnt_app in H2 by auto.
        unfold more. rewrite app_nth1 by auto. rewrite cnt_app. lia.
    + injection H as <- <- <-. split; [|split; auto].
      destruct (Nat.eq_dec wid (length ws)); [lia|]. specialize (H2 ltac:(lia)). rewrite cnt_app in H2. lia.
Qed.

Lemma select_past : forall s l p, select_ok s l -> nth 0 l false = true ->
  select e s (S (cnt l)) = Ok p -> length l <= p.
Proof.
  intros s l p (H & Hint & Hones & Hlut) H0. unfold select, massert.
  replace (0 <? S (cnt l)) with true by lia. replace (S (cnt l) <=? sl_ones s + 1) with true by lia.
  rewrite andb_false_r. cbn [bind]. set (k := S (cnt l)). set (iv := sl_interval s) in *.
  assert (C1 : 1 <= cnt l) by (destruct l as [|[] l]; cbn in *; try discriminate; lia).
  pose proof (Nat.div_mod k iv ltac:(lia)) as HD. pose proof (Nat.mod_upper_bound k iv ltac:(lia)) as HM.
  pose proof (Nat.div_mod (cnt l) iv ltac:(lia)) as HD'. pose proof (Nat.mod_upper_bound (cnt l) iv ltac:(lia)) as HM'.
  assert (Hex : forall rl v, (if k / iv =? 0 then pred_idx (k mod iv) else Ok (k mod iv)) = Ok rl ->
     vget (sl_lut s) (k / iv) = Ok v -> 1 <= rl /\ rl < k /\ v = sel (k - rl) l).
  { intros rl v E1 E2. destruct (Nat.eqb_spec (k / iv) 0) as [E|E].
    - rewrite E in *. rewrite Nat.mul_0_r, Nat.add_0_l in HD. rewrite <- HD in E1. unfold k in E1. cbn [pred_idx] in E1.
      injection E1 as <-. split; [lia|]. split; [unfold k; lia|]. rewrite Hlut in E2. unfold vget in E2. cbn [nth_error] in E2.
      injection E2 as <-. unfold k. replace (S (cnt l) - cnt l) with 1 by lia. destruct l as [|[] l]; cbn in *; auto; discriminate.
    - injection E1 as <-. rewrite Hlut in E2. destruct (k / iv) as [|q] eqn:Eq; [lia|].
      unfold vget in E2. cbn [nth_error] in E2.
      destruct (nth_error (map (fun j => sel (j * iv) l) (seq 1 (cnt l / iv))) q) as [y|] eqn:EN; [|discriminate].
      assert (L : q < cnt l / iv).
      { assert (X : nth_error (map (fun j => sel (j * iv) l) (seq 1 (cnt l / iv))) q <> None) by congruence.
        apply nth_error_Some in X. rewrite map_length, seq_length in X. auto. }
      rewrite (nth_error_nth' _ (sel (0 * iv) l)) in EN by (rewrite map_length, seq_length; lia).
      rewrite (map_nth (fun j => sel (j * iv) l)), seq_nth in EN by lia.
      assert (iv * S q <= iv * (cnt l / iv)) by (apply Nat.mul_le_mono_l; lia).
      split; [unfold k in *; lia|]. split; [unfold k in *; nia|].
      injection E2 as <-. injection EN as <-. f_equal. lia. }
  destruct (if k / iv =? 0 then pred_idx (k mod iv) else Ok (k mod iv)) as [rl|] eqn:E1; [|discriminate]. cbn [bind].
  destruct (vget (sl_lut s) (k / iv)) as [v|] eqn:E2; [|discriminate]. cbn [bind].
  destruct (Hex rl v eq_refl eq_refl) as (R1 & R2 & ->). clear Hex.
  destruct (Nat.eqb_spec rl 0) as [Z|Z]; [lia|].
  set (ws := bv_words (sl_bv s)). set (L := bits_of ws).
  assert (Hok : Forall word_ok ws) by (destruct H as (_ & ? & _); auto).
  pose proof (repr_len _ _ H) as HLn. fold ws in HLn.
  set (r0 := k - rl) in *.
  assert (HcL : cnt L = cnt l) by (apply repr_cnt; auto).
  rewrite <- (repr_sel _ l r0 H) by lia. fold ws L.
  destruct (sel_spec L r0) as (P1 & P2 & P3); try lia.
  remember (sel r0 L) as q eqn:Eq.
  pose proof (Nat.div_mod q 64 ltac:(lia)) as HDp. pose proof (Nat.mod_upper_bound q 64 ltac:(lia)) as HMp.
  assert (Hc1 : cnt (firstn (S q) L) = r0) by (rewrite cnt_firstn_S by auto; rewrite P2; lia).
  set (wid := if q mod 64 =? 63 then S (q / 64) else q / 64).
  set (off := if q mod 64 =? 63 then 0 else S (q mod 64)).
  assert (Hpos : 64 * wid + off = S q /\ off < 64) by (unfold wid, off; destruct (Nat.eqb_spec (q mod 64) 63); lia).
  assert (HLlen : length L = 64 * length ws) by apply bits_of_length.
  assert (Hrest : cnt (skipn (S q) L) = cnt l - r0).
  { pose proof (firstn_skipn (S q) L) as F. rewrite <- F in HcL at 1. rewrite cnt_app in HcL. lia. }
  assert (Hwid : wid <= length ws) by lia.
  rewrite wread_more by auto. cbn [bind].
  set (w := nth wid (more ws) 0%N). assert (Hw : word_ok w) by (apply nth_Forall_ok, more_ok; auto).
  set (word := N.shiftr (wrap64 (N.shiftl w (N.of_nat off))) (N.of_nat off)).
  assert (Hword : word_ok word) by (apply shiftr_ok, wrap64_ok).
  destruct (select_loop e (S (length ws)) ws wid word (popcnt word) rl) as [[[a b] c]|] eqn:ES; [|discriminate].
  cbn [bind]. intros EP. injection EP as <-.
  apply select_loop_past in ES; auto.
  - destruct ES as (A & B & C). rewrite select64_spec by (auto; lia). lia.
  - intros LW. assert (Ew : w = nth wid ws 0%N) by (unfold w, more; rewrite app_nth1; auto).
    assert (Hwb : bits64 word = repeat false off ++ skipn off (bits64 w)).
    { unfold word. rewrite bits64_shiftr by (try apply wrap64_ok; lia). f_equal.
      rewrite bits64_shiftl by lia. rewrite firstn_app, skipn_length, bits64_length.
      rewrite Nat.sub_diag, firstn_O, app_nil_r. apply firstn_all2. rewrite skipn_length, bits64_length. lia. }
    assert (Hsplit : skipn (S q) L = skipn off (bits64 w) ++ skipn (64 * S wid) L).
    { destruct Hpos as [Hp1 Hp2]. rewrite <- Hp1, <- skipn_skipn'. unfold L. rewrite words_split by auto. rewrite <- Ew.
      rewrite skipn_app, bits64_length. replace (off - 64) with 0 by lia. reflexivity. }
    fold L. rewrite Hwb, <- app_assoc, cnt_app, cnt_repeat_false, <- Hsplit. unfold k in *. lia.
Qed.
End Past.
