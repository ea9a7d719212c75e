(** The bit-vector, label and suffix lemmas in the vocabulary of SpecBits.v. *)
From Coq Require Import Arith List NArith ZArith Bool Lia ZifyN ZifyNat ZifyBool.
From Verif Require Import Res Word BitFacts WordFacts Bitvector BitvectorFacts Rank Select RankSelectFacts
  LabelVector LabelFacts SuffixFacts SpecBits.
Import ListNotations.

Lemma ones_cnt : forall l, ones l = cnt l.
Proof.
  induction l as [|b l IH]; [reflexivity|]. unfold ones in *. cbn [count_occ cnt].
  destruct b; destruct (bool_dec _ true); try congruence; rewrite IH; reflexivity.
Qed.

Lemma word_bits_eq : forall w, word_bits w = bits64 w.
Proof. intros w. reflexivity. Qed.
Lemma vec_bits_eq : forall ws, vec_bits ws = bits_of ws.
Proof. intros ws. unfold vec_bits, bits_of. induction ws as [|w ws IH]; [reflexivity|]. cbn [flat_map]. rewrite IH. reflexivity. Qed.

Lemma bits_of_length : forall ws, length (bits_of ws) = 64 * length ws.
Proof.
  induction ws as [|w ws IH]; [reflexivity|]. unfold bits_of in *. cbn [flat_map length]. rewrite app_length, bits64_length, IH. lia.
Qed.

Lemma holds_lrepr : forall ws n, holds ws n -> lrepr ws (firstn n (vec_bits ws)).
Proof.
  intros ws n (H1 & H2 & H3). rewrite vec_bits_eq in *.
  assert (LF : length (firstn n (bits_of ws)) = n) by (rewrite firstn_length, bits_of_length; lia).
  split; [exact H1|]. rewrite LF. split; auto.
  apply list_ext with (d := false).
  - rewrite app_length, LF, repeat_length, bits_of_length. lia.
  - intros i Hi. destruct (lt_dec i n) as [L|L].
    + rewrite app_nth1 by lia. rewrite nth_firstn' by auto. reflexivity.
    + rewrite app_nth2 by lia. rewrite nth_repeat. apply H3. lia.
Qed.

Section Levels.
Variables (e : env) (per_level : list (list N)) (nbits : list nat) (s en : nat).
Hypothesis Hmem : strict_mem e = false.
Let en' := end_level per_level en.
Hypothesis HL : levels_hold per_level nbits s en'.
Notation l := (all_bits per_level nbits s en').

Lemma levels_pre : forall i, s <= i < en' -> i < length per_level /\
  nth_error nbits i = Some (length (level_bits per_level nbits i)) /\
  lrepr (nth i per_level []) (level_bits per_level nbits i).
Proof.
  intros i Hi. destruct (HL i Hi) as (ws & n & A & B & C). split; [apply nth_error_Some; congruence|].
  unfold level_bits. rewrite (nth_error_nth _ _ _ A), (nth_error_nth _ _ _ B). split.
  - rewrite B. f_equal. rewrite firstn_length, vec_bits_eq, bits_of_length. destruct C as (_ & C & _). lia.
  - apply holds_lrepr. auto.
Qed.

Lemma fits_fits32 : forall n, fits n -> fits32 (N.of_nat n) = true.
Proof. intros n H. unfold fits in H. change (2 ^ 32)%N with 4294967296%N in H. apply fits32_lt. auto. Qed.
Lemma fits32_fits : forall n, fits32 (N.of_nat n) = true -> fits n.
Proof. intros n H. unfold fits. change (2 ^ 32)%N with 4294967296%N. apply fits32_lt. auto. Qed.

Lemma bv_make_ok : fits (length l) -> exists b, bv_make e per_level nbits s en = Ok b /\ repr b l.
Proof.
  intros H. pose proof (bv_make_spec e per_level nbits (level_bits per_level nbits) s en Hmem levels_pre) as Q.
  cbv zeta in Q. fold (end_level per_level en) in Q. fold en' in Q. change (concat _) with l in Q.
  rewrite (fits_fits32 _ H) in Q. exact Q.
Qed.
Lemma bv_make_inv : forall b, bv_make e per_level nbits s en = Ok b -> repr b l.
Proof.
  intros b E. pose proof (bv_make_spec e per_level nbits (level_bits per_level nbits) s en Hmem levels_pre) as Q.
  cbv zeta in Q. fold (end_level per_level en) in Q. fold en' in Q. change (concat _) with l in Q.
  destruct (fits32 _) in Q; [destruct Q as (b' & E' & R)|]; congruence.
Qed.
Lemma rank_make_ok : fits (length l) -> exists b, rank_make e 512 per_level nbits s en = Ok b.
Proof.
  intros H. pose proof (rank_make_spec e per_level nbits (level_bits per_level nbits) s en Hmem levels_pre) as Q.
  cbv zeta in Q. fold (end_level per_level en) in Q. fold en' in Q. change (concat _) with l in Q.
  rewrite (fits_fits32 _ H) in Q. destruct Q as (r & E & _). eauto.
Qed.
Lemma rank_make_inv : forall b, rank_make e 512 per_level nbits s en = Ok b -> rank_ok b l.
Proof.
  intros b E. pose proof (rank_make_spec e per_level nbits (level_bits per_level nbits) s en Hmem levels_pre) as Q.
  cbv zeta in Q. fold (end_level per_level en) in Q. fold en' in Q. change (concat _) with l in Q.
  destruct (fits32 _) in Q; [destruct Q as (b' & E' & R)|]; congruence.
Qed.
Lemma select_make_ok : forall i, 1 <= i -> fits (length l) -> exists b, select_make e i per_level nbits s en = Ok b.
Proof.
  intros i Hi H. pose proof (select_make_spec e i per_level nbits (level_bits per_level nbits) s en Hmem Hi levels_pre) as Q.
  cbv zeta in Q. fold (end_level per_level en) in Q. fold en' in Q. change (concat _) with l in Q.
  rewrite (fits_fits32 _ H) in Q. destruct Q as (r & E & _). eauto.
Qed.
Lemma select_make_inv : forall i b, 1 <= i -> select_make e i per_level nbits s en = Ok b -> select_ok b l.
Proof.
  intros i b Hi E. pose proof (select_make_spec e i per_level nbits (level_bits per_level nbits) s en Hmem Hi levels_pre) as Q.
  cbv zeta in Q. fold (end_level per_level en) in Q. fold en' in Q. change (concat _) with l in Q.
  destruct (fits32 _) in Q; [destruct Q as (b' & E' & R)|]; congruence.
Qed.
End Levels.

Theorem api_concat : forall e per_level nbits s en,
  strict_mem e = false -> levels_hold per_level nbits s (end_level per_level en) ->
  let l := all_bits per_level nbits s (end_level per_level en) in fits (length l) ->
  exists b, bv_make e per_level nbits s en = Ok b /\ bv_nbits b = length l /\
    forall pos, pos < length l -> readBit e b pos = Ok (nth pos l false).
Proof.
  intros e pl nb s en He HL l HF. destruct (bv_make_ok e pl nb s en He HL HF) as (b & E & R). fold l in R.
  exists b. split; auto. split; [destruct R; auto|]. intros. apply readBit_spec; auto.
Qed.

Theorem api_rank : forall e per_level nbits s en,
  strict_mem e = false -> levels_hold per_level nbits s (end_level per_level en) ->
  let l := all_bits per_level nbits s (end_level per_level en) in fits (length l) ->
  exists r, rank_make e 512 per_level nbits s en = Ok r /\
    forall pos, pos < length l -> rank e r pos = Ok (ones (firstn (S pos) l)).
Proof.
  intros e pl nb s en He HL l HF. destruct (rank_make_ok e pl nb s en He HL HF) as (r & E).
  exists r. split; auto. intros pos Hp. rewrite ones_cnt. apply rank_spec; auto. eapply rank_make_inv; eauto.
Qed.

Theorem api_select : forall e interval per_level nbits s en,
  strict_mem e = false -> 1 <= interval -> levels_hold per_level nbits s (end_level per_level en) ->
  let l := all_bits per_level nbits s (end_level per_level en) in fits (length l) -> nth 0 l false = true ->
  exists r, select_make e interval per_level nbits s en = Ok r /\
    forall k, 1 <= k <= ones l -> exists p, select e r k = Ok p /\
      p < length l /\ nth p l false = true /\ ones (firstn p l) = k - 1.
Proof.
  intros e i pl nb s en He Hi HL l HF H0. destruct (select_make_ok e pl nb s en He HL i Hi HF) as (r & E).
  exists r. split; auto. intros k Hk. rewrite ones_cnt in Hk. exists (sel k l). split.
  - apply select_spec; auto; try lia. eapply select_make_inv; eauto.
  - rewrite ones_cnt. apply sel_spec; lia.
Qed.

(** next and previous set bit *)
Lemma nth_skipn_add : forall (A : Type) (d : A) k i l, nth i (skipn k l) d = nth (k + i) l d.
Proof. intros A d k i l. apply nth_skipn'. Qed.

Theorem api_next : forall e per_level nbits s en b,
  strict_mem e = false -> levels_hold per_level nbits s (end_level per_level en) ->
  bv_make e per_level nbits s en = Ok b ->
  let l := all_bits per_level nbits s (end_level per_level en) in
  forall pos, S pos < length l -> exists d, distanceToNextSetBit e b pos = Ok d /\ 1 <= d /\
    (forall i, pos < i < pos + d -> nth i l false = false) /\
    (nth (pos + d) l false = true \/
     ((forall i, pos < i -> nth i l false = false) /\
      pos + d = if S pos / 64 =? (length l - 1) / 64 then length l else 64 * ((length l + 63) / 64))).
Proof.
  intros e pl nb s en b He HL HM l pos Hp.
  pose proof (bv_make_inv e pl nb s en He HL b HM) as R. fold l in R.
  rewrite (dnext_spec e b l pos R Hp). eexists. split; [reflexivity|].
  destruct (Nat.eqb_spec (cnt (skipn (S pos) l)) 0) as [Z|Z].
  - assert (Z' : forall i, pos < i -> nth i l false = false).
    { intros i Hi. pose proof (proj1 (cnt_zero_nth (skipn (S pos) l)) Z (i - S pos)) as Q.
      rewrite nth_skipn_add in Q. replace (S pos + (i - S pos)) with i in Q by lia. auto. }
    assert (E : pos + next_end (length l) (S pos) =
      if S pos / 64 =? (length l - 1) / 64 then length l else 64 * ((length l + 63) / 64)).
    { unfold next_end, num_words. set (n := length l) in *.
      pose proof (Nat.div_mod n 64 ltac:(lia)) as D1. pose proof (Nat.mod_upper_bound n 64 ltac:(lia)) as D2.
      pose proof (Nat.div_mod (n - 1) 64 ltac:(lia)) as D3. pose proof (Nat.mod_upper_bound (n - 1) 64 ltac:(lia)) as D4.
      pose proof (Nat.div_mod (n + 63) 64 ltac:(lia)) as D5. pose proof (Nat.mod_upper_bound (n + 63) 64 ltac:(lia)) as D6.
      destruct (Nat.eqb_spec (n mod 64) 0) as [M|M].
      - assert (Q1 : (n - 1) / 64 + 1 = n / 64) by nia. assert (Q2 : (n + 63) / 64 = n / 64) by nia.
        destruct (Nat.eqb_spec (S pos / 64 + 1) (n / 64)); destruct (Nat.eqb_spec (S pos / 64) ((n - 1) / 64)); lia.
      - assert (Q1 : (n - 1) / 64 = n / 64) by nia. assert (Q2 : (n + 63) / 64 = n / 64 + 1) by nia.
        destruct (Nat.eqb_spec (S pos / 64 + 1) (n / 64 + 1)); destruct (Nat.eqb_spec (S pos / 64) ((n - 1) / 64)); lia. }
    split; [|split; [intros; apply Z'; lia|right; split; auto]].
    destruct (S pos / 64 =? (length l - 1) / 64); [lia|].
    pose proof (Nat.div_mod (length l + 63) 64 ltac:(lia)) as D5. pose proof (Nat.mod_upper_bound (length l + 63) 64 ltac:(lia)) as D6. lia.
  - destruct (first_true_spec _ Z) as (A & B & C). rewrite nth_skipn_add in B. split; [lia|]. split.
    + intros i Hi. specialize (C (i - S pos) ltac:(lia)). rewrite nth_skipn_add in C.
      replace (S pos + (i - S pos)) with i in C by lia. auto.
    + left. rewrite <- B. f_equal. lia.
Qed.

Theorem api_prev : forall e per_level nbits s en b,
  strict_mem e = false -> levels_hold per_level nbits s (end_level per_level en) ->
  bv_make e per_level nbits s en = Ok b ->
  let l := all_bits per_level nbits s (end_level per_level en) in
  forall pos, pos <= length l -> exists d, distanceToPrevSetBit e b pos = Ok d /\
    match pos with
    | O => d = 0
    | S _ => 1 <= d <= pos /\ nth (pos - d) l false = true /\ (forall i, pos - d < i < pos -> nth i l false = false)
             \/ d = S pos /\ (forall i, i < pos -> nth i l false = false)
    end.
Proof.
  intros e pl nb s en b He HL HM l pos Hp.
  pose proof (bv_make_inv e pl nb s en He HL b HM) as R. fold l in R.
  rewrite (dprev_spec e b l pos R Hp). eexists. split; [reflexivity|].
  destruct pos as [|p]; [reflexivity|]. cbn [Nat.eqb]. set (m := S p) in *.
  assert (LR : length (rev (firstn m l)) = m) by (rewrite rev_length, firstn_length; lia).
  assert (N : forall i, i < m -> nth i (rev (firstn m l)) false = nth (m - S i) l false).
  { intros i Hi. rewrite rev_nth by (rewrite firstn_length; lia).
    replace (length (firstn m l)) with m by (rewrite firstn_length; lia). rewrite nth_firstn' by lia. reflexivity. }
  destruct (Nat.eq_dec (cnt (rev (firstn m l))) 0) as [Z|Z].
  - right. rewrite first_true_none by auto. rewrite LR. split; [lia|]. intros i Hi.
    pose proof (proj1 (cnt_zero_nth _) Z (m - S i)) as Q. rewrite N in Q by lia.
    replace (m - S (m - S i)) with i in Q by lia. auto.
  - left. destruct (first_true_spec _ Z) as (A & B & C). rewrite LR in A. split; [lia|]. split.
    + rewrite <- B, N by lia. reflexivity.
    + intros i Hi. specialize (C (m - S i) ltac:(lia)). rewrite N in C by lia.
      replace (m - S (m - S i)) with i in C by lia. auto.
Qed.

(** label searches *)
Lemma mapM_vget_inv : forall (A : Type) (d : A) (v : list A) xs ys, mapM (vget v) xs = Ok ys -> ys = map (fun i => nth i v d) xs.
Proof.
  intros A d v. induction xs as [|x xs IH]; intros ys H; cbn [mapM map] in *.
  - injection H as <-. reflexivity.
  - unfold vget in H at 1. destruct (nth_error v x) as [a|] eqn:E; cbn [bind] in H; [|discriminate].
    destruct (mapM (vget v) xs) as [zs|] eqn:E2; cbn [bind] in H; [|discriminate]. injection H as <-.
    rewrite (IH zs eq_refl), (nth_error_nth _ _ _ E). reflexivity.
Qed.

Definition lv_build (data : list nat) : res labelvec :=
  let num_bytes := N.of_nat (1 + length data) in
  if fits32 num_bytes then
    let alloc_bytes := wrap32 (num_bytes * (num_bytes / 64 + 1))%N in
    if (N.of_nat (length data) <=? alloc_bytes)%N
    then Ok (mkLV (data ++ [0]) alloc_bytes)
    else Fail OutOfBounds
  else Fail PosOverflow.

Lemma lv_build_inv : forall data lv, lv_build data = Ok lv ->
  lv_bytes lv = data ++ [0] /\ (N.of_nat (length data) <= lv_alloc lv)%N /\
  lv_alloc lv = wrap32 (N.of_nat (S (length data)) * (N.of_nat (S (length data)) / 64 + 1)).
Proof.
  intros data lv. unfold lv_build. cbv zeta. change (1 + length data) with (S (length data)).
  generalize (N.of_nat (S (length data))). intros nb.
  destruct (fits32 nb); [|discriminate].
  generalize (wrap32 (nb * (nb / 64 + 1))). intros al.
  destruct (N.leb_spec (N.of_nat (length data)) al) as [L|L]; [|discriminate].
  intros H. injection H as <-. cbn [lv_bytes lv_alloc]. auto.
Qed.

Lemma lv_make_eq : forall levels s en, lv_make levels s en =
  (ls <- mapM (vget levels) (seq s ((if en =? 0 then length levels else en) - s)) ;; lv_build (concat ls)).
Proof. intros. unfold lv_make. cbv zeta. unfold lv_build. cbv zeta. match goal with |- ?a = ?b => constr_eq a b end. exact eq_refl. Qed.

Lemma bind_inv : forall (A B : Type) (m : res A) (f : A -> res B) y, bind m f = Ok y -> exists x, m = Ok x /\ f x = Ok y.
Proof. intros A B [x|x] f y H; [eauto|discriminate]. Qed.

Lemma lv_make_gen : forall levels s en lv, lv_make levels s en = Ok lv ->
  let labels := concat (map (fun l => nth l levels []) (seq s ((if en =? 0 then length levels else en) - s))) in
  lv_bytes lv = labels ++ [0] /\ (N.of_nat (length labels) <= lv_alloc lv)%N /\
  lv_alloc lv = wrap32 (N.of_nat (S (length labels)) * (N.of_nat (S (length labels)) / 64 + 1)).
Proof.
  intros levels s en lv H labels. rewrite lv_make_eq in H. apply bind_inv in H. destruct H as (ls & E & H).
  apply (mapM_vget_inv _ []) in E. apply lv_build_inv in H. subst ls. exact H.
Qed.

Section Labels.
Variables (e : env) (levels : list (list nat)) (s en : nat) (lv : labelvec).
Hypothesis HM : lv_make levels s en = Ok lv.
Let en' := if en =? 0 then length levels else en.
Notation labels := (concat (map (fun l => nth l levels []) (seq s (en' - s)))).


Lemma lv_make_inv : lv_bytes lv = labels ++ [0] /\ (N.of_nat (length labels) <= lv_alloc lv)%N /\
  lv_alloc lv = wrap32 (N.of_nat (S (length labels)) * (N.of_nat (S (length labels)) / 64 + 1)).
Proof.
  destruct (lv_make_gen _ _ _ _ HM) as (A & B & C). fold en' in A, B, C. auto.
Qed.

Definition rlab (i : nat) : nat :=
  if (N.of_nat i <? lv_alloc lv)%N then nth i (lv_bytes lv) 0 else junkb e (lv_bytes lv) i mod 256.

Lemma rlab_in : forall i, i < length labels -> rlab i = nth i labels 0.
Proof.
  intros i Hi. destruct lv_make_inv as (A & B & _). unfold rlab.
  destruct (N.ltb_spec (N.of_nat i) (lv_alloc lv)); [|lia]. rewrite A, app_nth1 by auto. reflexivity.
Qed.

Lemma rlab_read : exists M, (forall i, i < M -> lv_read e lv i = Ok (rlab i)) /\
  ((strict_mem e = false \/ 63 <= length labels /\ fits (S (length labels) * (S (length labels) / 64 + 1))) -> length labels + 15 <= M) /\ length labels <= M.
Proof.
  destruct lv_make_inv as (A & B & C).
  exists (N.to_nat (lv_alloc lv) + (if strict_mem e then 0 else 80)). split; [|split].
  - intros i Hi. unfold lv_read, rlab. destruct (N.ltb_spec (N.of_nat i) (lv_alloc lv)); auto.
    destruct (strict_mem e); [lia|]. destruct (N.ltb_spec (N.of_nat i) (lv_alloc lv + 80)); [reflexivity|lia].
  - intros [D|[D F]]; [rewrite D; lia|].
    set (n := S (length labels)) in *. assert (lv_alloc lv = N.of_nat (n * (n / 64 + 1))).
    { rewrite C. replace (N.of_nat n * (N.of_nat n / 64 + 1))%N with (N.of_nat (n * (n / 64 + 1))).
      - apply wrap32_small. exact F.
      - rewrite Nat2N.inj_mul, Nat2N.inj_add. f_equal. f_equal. pose proof (Nat2N.inj_div n 64) as Q.
        change (N.of_nat 64) with 64%N in Q. exact Q. }
    assert (64 <= n) by lia. pose proof (Nat.div_le_mono 64 n 64 ltac:(lia) H0). change (64 / 64) with 1 in H1.
    assert (2 * n <= n * (n / 64 + 1)) by nia. lia.
  - lia.
Qed.

Lemma skips_term : forall pos n, pos + n <= length labels -> skips rlab pos n = has_term labels pos n.
Proof.
  intros pos n H. unfold skips, has_term. destruct (Nat.ltb_spec 1 n); [|reflexivity]. rewrite rlab_in by lia. reflexivity.
Qed.

Lemma api_search_gen : (strict_mem e = false \/ 63 <= length labels /\ fits (S (length labels) * (S (length labels) / 64 + 1))) ->
  forall pos n t, node_sorted labels pos n -> exists p,
  (exists x, lv_search e lv t pos n = Ok (true, x) /\ in_node labels pos n x /\ nth x labels 0 = t) \/
  (lv_search e lv t pos n = Ok (false, p) /\ forall x, in_node labels pos n x -> nth x labels 0 <> t).
Proof.
  intros HS pos n t [HW HI]. destruct rlab_read as (M & R & RM & _). specialize (RM HS).
  pose proof (lv_search_spec e lv rlab M R t pos n ltac:(lia)) as Q. cbv zeta in Q. rewrite skips_term in Q by auto.
  unfold in_node, first_label in *.
  set (p := if has_term labels pos n then S pos else pos) in *.
  set (m := if has_term labels pos n then n - 1 else n) in *.
  assert (PM : p + m = pos + n).
  { unfold p, m, has_term. destruct (Nat.ltb_spec 1 n); cbn [andb]; [|reflexivity]. destruct (nth pos labels 0 =? 255); lia. }
  rewrite Q; clear Q.
  - exists p. destruct (ff _ p m) as [x|] eqn:F; cbn [res_of].
    + apply ff_some in F. destruct F as (A & B & _). left. exists x. split; auto.
      apply Nat.eqb_eq in B. rewrite rlab_in in B by lia. split; [lia|auto].
    + right. split; auto. intros x Hx E. assert (G := proj1 (ff_none _ _ _) F x ltac:(lia)). cbv beta in G.
      rewrite rlab_in in G by lia. apply Nat.eqb_neq in G. congruence.
  - intros _ x y X1 X2 X3. rewrite !rlab_in by lia. apply HI; lia.
Qed.

Lemma api_searchgt_gen : forall pos n t, node_sorted labels pos n -> exists p,
  (exists x, lv_searchGreaterThan e lv t pos n = Ok (true, x) /\ in_node labels pos n x /\ t < nth x labels 0 /\
    forall y, in_node labels pos n y -> y < x -> nth y labels 0 <= t) \/
  (lv_searchGreaterThan e lv t pos n = Ok (false, p) /\ forall x, in_node labels pos n x -> nth x labels 0 <= t).
Proof.
  intros pos n t [HW HI]. destruct rlab_read as (M & R & _ & RM).
  pose proof (lv_searchGreaterThan_spec e lv rlab M R t pos n ltac:(lia)) as Q. cbv zeta in Q. rewrite skips_term in Q by auto.
  unfold in_node, first_label in *.
  set (p := if has_term labels pos n then S pos else pos) in *.
  set (m := if has_term labels pos n then n - 1 else n) in *.
  assert (PM : p + m = pos + n).
  { unfold p, m, has_term. destruct (Nat.ltb_spec 1 n); cbn [andb]; [|reflexivity]. destruct (nth pos labels 0 =? 255); lia. }
  rewrite Q; clear Q.
  - exists p. destruct (ff _ p m) as [x|] eqn:F; cbn [res_of].
    + apply ff_some in F. destruct F as (A & B & C). left. exists x. split; auto.
      apply Nat.ltb_lt in B. rewrite rlab_in in B by lia. split; [lia|]. split; auto.
      intros y Hy Hyx. specialize (C y ltac:(lia)). cbv beta in C. rewrite rlab_in in C by lia. apply Nat.ltb_ge in C. auto.
    + right. split; auto. intros x Hx. assert (G := proj1 (ff_none _ _ _) F x ltac:(lia)). cbv beta in G.
      rewrite rlab_in in G by lia. apply Nat.ltb_ge in G. auto.
  - intros x y X1 X2 X3. rewrite !rlab_in by lia. apply HI; lia.
Qed.

(** the three searches return the same on any sorted stretch of labels *)
Lemma api_agree_gen : (strict_mem e = false \/ 63 <= length labels /\ fits (S (length labels) * (S (length labels) / 64 + 1))) ->
  forall pos n t, pos + n <= length labels ->
  (forall x y, pos <= x -> x < y -> y < pos + n -> nth x labels 0 < nth y labels 0) ->
  binarySearch e lv t pos n = linearSearch e lv t pos n /\
  simdSearch e lv t pos n = linearSearch e lv t pos n.
Proof.
  intros HS pos n t HW HI. destruct rlab_read as (M & R & RM & _). specialize (RM HS).
  unfold binarySearch, simdSearch, linearSearch.
  rewrite (linear_spec e lv rlab M R) by lia. rewrite (simd_spec e lv rlab M R) by lia. rewrite !Nat.add_0_r.
  split; auto. apply (binary_spec e lv rlab M R); try lia; auto.
  intros x y X1 X2 X3. rewrite !rlab_in by lia. apply HI; lia.
Qed.
Lemma api_agree_gt_gen : forall pos n t, pos + n <= length labels -> 1 <= n ->
  (forall x y, pos <= x -> x < y -> y < pos + n -> nth x labels 0 < nth y labels 0) ->
  binarySearchGreaterThan e lv t pos n = linearSearchGreaterThan e lv t pos n.
Proof.
  intros pos n t HW Hn HI. destruct rlab_read as (M & R & _ & RM).
  unfold binarySearchGreaterThan, linearSearchGreaterThan.
  rewrite (linear_gt_spec e lv rlab M R) by lia. rewrite !Nat.add_0_r.
  apply (binary_gt_spec e lv rlab M R); try lia; auto.
  intros x y X1 X2 X3. rewrite !rlab_in by lia. apply HI; lia.
Qed.
End Labels.
