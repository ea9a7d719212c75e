(** storeSuffix appends the bits of the suffix to the suffix bits of its level. *)
From Coq Require Import Arith List NArith ZArith Bool Lia ZifyN ZifyNat ZifyBool.
From Verif Require Import Res Word Config Hash BitFacts WordFacts Bitvector BitvectorFacts Suffix Spec
  SuffixFacts Builder.
Import ListNotations.

(** the words [ws] hold the values [vs], [slen] bits each, then zeros *)
Definition srepr (slen : nat) (ws : list N) (vs : list N) : Prop :=
  lrepr ws (flat_map (bitsn slen) vs) /\
  (slen = 0 \/ length ws = num_words (slen * length vs)).

Definition store_words (e : env) (slen pos : nat) (suf : list N) (suffix : N) : res (list N) :=
  let words := if pos =? length suf * 64 then suf ++ [0%N] else suf in
  let word_id := pos / 64 in
  let offset := pos mod 64 in
  let word_remaining_len := 64 - offset in
    (if slen <=? word_remaining_len then
       sh <- shl64 e suffix (N.of_nat (word_remaining_len - slen)) ;;
       w <- vget words word_id ;;
       vset words word_id (wrap64 (w + sh))
     else
       left <- shr64 e suffix (N.of_nat (slen - word_remaining_len)) ;;
       w <- vget words word_id ;;
       words <- vset words word_id (wrap64 (w + left)) ;;
       let words := words ++ [0%N] in
       right <- shl64 e suffix (sub32 64 (N.of_nat (slen - word_remaining_len))) ;;
       w <- vget words (S word_id) ;;
       vset words (S word_id) (wrap64 (w + right))).

Lemma storeSuffix_eq : forall e st slen level suffix, storeSuffix e st slen level suffix =
  lv <- pred_idx level ;;
  l <- vget st lv ;;
  let pos := lv_sufcount l * slen in
  if negb (fits32 (N.of_nat (pos + 64))) then Fail PosOverflow else
  massert e (pos <=? length (lv_suf l) * 64) ;;;
  words <- store_words e slen pos (lv_suf l) suffix ;;
  vset st lv (set_suf l words (S (lv_sufcount l))).
Proof. reflexivity. Qed.

Lemma lset_add : forall ws i v, Forall word_ok ws -> i < length ws -> word_ok v ->
  (forall t, t < 64 -> nth (64 * i + t) (bits_of ws) false && nth t (bits64 v) false = false) ->
  Forall word_ok (lset ws i (wrap64 (nth i ws 0%N + v))) /\
  forall j, nth j (bits_of (lset ws i (wrap64 (nth i ws 0%N + v)))) false =
    nth j (bits_of ws) false || ((j / 64 =? i) && nth (j mod 64) (bits64 v) false).
Proof.
  intros ws i v Hok Hi Hv Hd.
  assert (Hw : word_ok (nth i ws 0%N)) by (apply nth_Forall_ok; auto).
  assert (HB : forall t, t < 64 -> nth (64 * i + t) (bits_of ws) false = nth t (bits64 (nth i ws 0%N)) false).
  { intros t Ht. rewrite bits_of_nth.
    replace ((64 * i + t) / 64) with i by (apply Nat.div_unique with t; lia).
    replace ((64 * i + t) mod 64) with t by (apply Nat.mod_unique with i; lia). reflexivity. }
  rewrite add_disjoint; auto.
  2:{ intros t Ht. rewrite <- HB by auto. apply Hd. auto. }
  split; [apply lset_Forall; auto; apply lor_ok; auto|].
  intros j. rewrite !bits_of_nth. rewrite lset_nth.
  pose proof (Nat.mod_upper_bound j 64 ltac:(lia)).
  destruct (Nat.eqb_spec (j / 64) i) as [->|N].
  - replace (i <? length ws) with true by lia. cbn [andb]. rewrite bits64_lor_nth by auto. reflexivity.
  - cbn [andb]. rewrite orb_false_r. reflexivity.
Qed.

Lemma num_words_0 : forall n, num_words n = 0 -> n = 0.
Proof. intros n H. pose proof (num_words_bounds n). lia. Qed.

Lemma small_bits_nth : forall slen v t, slen <= 64 -> (v < 2 ^ N.of_nat slen)%N -> t < 64 ->
  nth t (bits64 v) false = (64 - slen <=? t) && nth (t - (64 - slen)) (bitsn slen v) false.
Proof.
  intros slen v t Hs Hv Ht. rewrite (bits64_small v slen) by auto.
  destruct (Nat.leb_spec (64 - slen) t) as [L|L].
  - rewrite app_nth2 by (rewrite repeat_length; auto). rewrite repeat_length. reflexivity.
  - rewrite app_nth1 by (rewrite repeat_length; auto). apply nth_repeat.
Qed.

Lemma store_words_spec : forall e slen suf vs v, strict_shift e = false -> slen <= 64 ->
  (v < 2 ^ N.of_nat slen)%N -> srepr slen suf vs ->
  exists ws, store_words e slen (length vs * slen) suf v = Ok ws /\ srepr slen ws (vs ++ [v]).
Proof.
  intros e slen suf vs v He Hs Hv [(Hok & Hlen & HB) HW].
  rewrite flat_bits_length in *.
  destruct (Nat.eq_dec slen 0) as [->|Hs0].
  { (* no suffix bits *)
    assert (v = 0%N) by (change (2 ^ N.of_nat 0)%N with 1%N in Hv; lia). subst v.
    unfold store_words. rewrite Nat.mul_0_r. change (0 / 64) with 0. change (0 mod 64) with 0.
    change (0 <=? 64 - 0) with true. cbv iota. change (N.of_nat (64 - 0 - 0)) with 64%N.
    unfold shl64. rewrite He. cbn [N.ltb N.compare Pos.compare Pos.compare_cont]. cbn [bind].
    change (wrap64 (N.shiftl 0 (64 mod 64))) with 0%N.
    set (ws := if 0 =? length suf * 64 then suf ++ [0%N] else suf).
    assert (HWs : Forall word_ok ws /\ 0 < length ws /\ bits_of ws = repeat false (64 * length ws)).
    { unfold ws. destruct (Nat.eqb_spec 0 (length suf * 64)) as [E|E].
      - destruct suf; [|cbn [length] in E; lia]. split; [repeat constructor|]. split; [cbn; lia|].
        cbn [app bits_of flat_map]. rewrite bits64_zero, app_nil_r. reflexivity.
      - split; auto. split; [lia|]. rewrite HB.
        assert (EF : forall l, flat_map (bitsn 0) l = []) by (induction l; auto).
        rewrite EF. cbn [app length]. f_equal. lia. }
    destruct HWs as (A & B & C).
    rewrite (vget_ok _ ws 0 0%N) by lia. cbn [bind]. rewrite N.add_0_r.
    rewrite wrap64_id by (apply nth_Forall_ok; auto).
    unfold vset. replace (0 <? length ws) with true by lia.
    exists ws. split.
    - f_equal. destruct ws; [cbn in B; lia|]. reflexivity.
    - assert (EF : forall l, flat_map (bitsn 0) l = []) by (induction l; auto).
      split; [|left; auto]. split; [|split]; auto; rewrite EF; [cbn; lia|].
      cbn [app length]. rewrite C. f_equal. lia. }
  destruct HW as [HW|HW]; [lia|].
  replace (length vs * slen) with (slen * length vs) by lia.
  set (p := slen * length vs) in *. pose proof (num_words_bounds p) as NB.
  pose proof (Nat.div_mod p 64 ltac:(lia)) as DM.
  pose proof (Nat.mod_upper_bound p 64 ltac:(lia)) as MB.
  unfold store_words.
  set (ws := if p =? length suf * 64 then suf ++ [0%N] else suf).
  set (lb := flat_map (bitsn slen) vs) in *.
  assert (HL : length lb = p) by apply flat_bits_length.
  assert (HWs : Forall word_ok ws /\ length ws = p / 64 + 1 /\
     forall j, nth j (bits_of ws) false = nth j lb false).
  { assert (Q : forall j, nth j (bits_of suf) false = nth j lb false).
    { intros j. rewrite HB. destruct (Nat.ltb_spec j p) as [L|L].
      - rewrite app_nth1 by lia. reflexivity.
      - rewrite app_nth2 by lia. rewrite nth_repeat. symmetry. apply nth_overflow. lia. }
    unfold ws. destruct (Nat.eqb_spec p (length suf * 64)) as [E|E].
    - split; [apply Forall_app; split; auto; repeat constructor|]. split; [rewrite app_length; cbn [length]; lia|].
      intros j. rewrite bits_of_app. destruct (Nat.ltb_spec j (64 * length suf)) as [L|L].
      + rewrite app_nth1 by (rewrite bits_of_length; lia). apply Q.
      + rewrite app_nth2 by (rewrite bits_of_length; lia).
        rewrite (nth_overflow lb) by lia. cbn [bits_of flat_map]. rewrite bits64_zero, app_nil_r. apply nth_repeat.
    - split; auto. split; [lia|]. auto. }
  clearbody ws. destruct HWs as (A & B & C).
  set (wi := p / 64) in *. set (o := p mod 64) in *. set (bs := bitsn slen v).
  assert (Hbs : length bs = slen) by apply bitsn_length.
  assert (ZB : forall t, t < 64 -> o <= t -> nth (64 * wi + t) (bits_of ws) false = false).
  { intros t Ht Ho. rewrite C. apply nth_overflow. lia. }
  assert (FM : flat_map (bitsn slen) (vs ++ [v]) = lb ++ bs).
  { rewrite flat_map_app. cbn [flat_map]. rewrite app_nil_r. reflexivity. }
  assert (NV : slen * length (vs ++ [v]) = p + slen) by (rewrite app_length; cbn [length]; unfold p; lia).
  (* what remains: words' of the right length with the right bits *)
  assert (FIN : forall ws', Forall word_ok ws' -> length ws' = num_words (p + slen) ->
     (forall j, nth j (bits_of ws') false = nth j (lb ++ bs) false) -> srepr slen ws' (vs ++ [v])).
  { intros ws' F L E. pose proof (num_words_bounds (p + slen)) as NB2.
    split; [|right; rewrite NV; auto]. rewrite FM. split; auto. split.
    - rewrite app_length. lia.
    - apply list_ext with (d := false).
      + rewrite bits_of_length, app_length, repeat_length, app_length. lia.
      + intros j Hj. rewrite E. destruct (Nat.ltb_spec j (length (lb ++ bs))) as [G|G].
        * rewrite (app_nth1 (lb ++ bs) (repeat false _)) by auto. reflexivity.
        * rewrite (app_nth2 (lb ++ bs) (repeat false _)) by auto. rewrite nth_repeat. apply nth_overflow. auto. }
  assert (NB2 := num_words_bounds (p + slen)).
  destruct (Nat.leb_spec slen (64 - o)) as [L|L].
  - unfold shl64. replace (N.of_nat (64 - o - slen) <? 64)%N with true by lia. cbn [bind].
    rewrite (vget_ok _ ws wi 0%N) by lia. cbn [bind]. unfold vset.
    replace (wi <? length ws) with true by lia.
    set (u := wrap64 (N.shiftl v (N.of_nat (64 - o - slen)))).
    assert (Hu : word_ok u) by apply wrap64_ok.
    assert (BU : forall t, t < 64 -> nth t (bits64 u) false = (o <=? t) && nth (t - o) bs false).
    { intros t Ht. unfold u. rewrite bits64_shiftl by lia.
      destruct (Nat.ltb_spec t (64 - (64 - o - slen))) as [G|G].
      - rewrite app_nth1 by (rewrite skipn_length, bits64_length; lia).
        rewrite nth_skipn', (small_bits_nth slen) by (auto; lia). fold bs.
        destruct (Nat.leb_spec o t) as [G2|G2].
        + replace (64 - slen <=? 64 - o - slen + t) with true by lia. f_equal. f_equal. lia.
        + replace (64 - slen <=? 64 - o - slen + t) with false by lia. reflexivity.
      - rewrite app_nth2 by (rewrite skipn_length, bits64_length; lia). rewrite nth_repeat.
        rewrite (nth_overflow bs) by lia. symmetry. apply andb_false_r. }
    eexists. split; [reflexivity|].
    destruct (lset_add ws wi u A ltac:(lia) Hu) as [F E].
    { intros t Ht. rewrite BU by auto. destruct (Nat.leb_spec o t) as [G|G].
      - rewrite ZB by auto. reflexivity.
      - apply andb_false_r. }
    apply FIN; auto; [rewrite lset_length; lia|].
    intros j. rewrite E, C. pose proof (Nat.div_mod j 64 ltac:(lia)) as DJ.
    pose proof (Nat.mod_upper_bound j 64 ltac:(lia)) as MJ. rewrite BU by auto.
    destruct (Nat.ltb_spec j p) as [G|G].
    + rewrite app_nth1 by lia.
      destruct (Nat.eqb_spec (j / 64) wi) as [G2|G2]; cbn [andb]; [|apply orb_false_r].
      replace (o <=? j mod 64) with false by lia. apply orb_false_r.
    + rewrite (nth_overflow lb) by lia. cbn [orb]. rewrite app_nth2 by lia. rewrite HL.
      destruct (Nat.eqb_spec (j / 64) wi) as [G2|G2]; cbn [andb].
      * replace (o <=? j mod 64) with true by lia. cbn [andb]. f_equal. lia.
      * symmetry. apply nth_overflow. lia.
  - unfold shr64. replace (N.of_nat (slen - (64 - o)) <? 64)%N with true by lia. cbn [bind].
    rewrite (vget_ok _ ws wi 0%N) by lia. cbn [bind]. unfold vset at 1.
    replace (wi <? length ws) with true by lia. cbn [bind].
    set (u := N.shiftr v (N.of_nat (slen - (64 - o)))).
    assert (Hvw : word_ok v) by (apply (word_le _ slen); auto).
    assert (Hu : word_ok u) by (apply shiftr_ok; auto).
    assert (BU : forall t, t < 64 -> nth t (bits64 u) false = (o <=? t) && nth (t - o) bs false).
    { intros t Ht. unfold u. rewrite bits64_shiftr by (auto; lia).
      destruct (Nat.leb_spec o t) as [G|G].
      - rewrite app_nth2 by (rewrite repeat_length; lia). rewrite repeat_length, nth_firstn' by lia.
        rewrite (small_bits_nth slen) by (auto; lia). fold bs.
        replace (64 - slen <=? t - (slen - (64 - o))) with true by lia. cbn [andb]. f_equal. lia.
      - cbn [andb]. destruct (Nat.ltb_spec t (slen - (64 - o))) as [G2|G2].
        + rewrite app_nth1 by (rewrite repeat_length; lia). apply nth_repeat.
        + rewrite app_nth2 by (rewrite repeat_length; lia). rewrite repeat_length, nth_firstn' by lia.
          rewrite (small_bits_nth slen) by (auto; lia).
          replace (64 - slen <=? t - (slen - (64 - o))) with false by lia. reflexivity. }
    destruct (lset_add ws wi u A ltac:(lia) Hu) as [F E].
    { intros t Ht. rewrite BU by auto. destruct (Nat.leb_spec o t) as [G|G].
      - rewrite ZB by auto. reflexivity.
      - apply andb_false_r. }
    rewrite (sub32_ok 64) by (unfold two32; lia).
    unfold shl64. replace (64 - N.of_nat (slen - (64 - o)) <? 64)%N with true by lia. cbn [bind].
    replace (64 - N.of_nat (slen - (64 - o)))%N with (N.of_nat (64 - (slen - (64 - o)))) by lia.
    set (r := wrap64 (N.shiftl v (N.of_nat (64 - (slen - (64 - o)))))).
    assert (Hr : word_ok r) by apply wrap64_ok.
    assert (BR : forall t, t < 64 -> nth t (bits64 r) false = nth (64 - o + t) bs false).
    { intros t Ht. unfold r. rewrite bits64_shiftl by lia.
      destruct (Nat.ltb_spec t (slen - (64 - o))) as [G|G].
      - rewrite app_nth1 by (rewrite skipn_length, bits64_length; lia).
        rewrite nth_skipn', (small_bits_nth slen) by (auto; lia). fold bs.
        replace (64 - slen <=? 64 - (slen - (64 - o)) + t) with true by lia. cbn [andb]. f_equal. lia.
      - rewrite app_nth2 by (rewrite skipn_length, bits64_length; lia). rewrite nth_repeat.
        rewrite (nth_overflow bs) by lia. reflexivity. }
    set (ws1 := lset ws wi (wrap64 (nth wi ws 0%N + u))) in *.
    assert (L1 : length ws1 = S wi) by (unfold ws1; rewrite lset_length; lia).
    assert (N1 : nth (S wi) (ws1 ++ [0%N]) 0%N = 0%N).
    { rewrite app_nth2 by lia. rewrite L1, Nat.sub_diag. reflexivity. }
    rewrite (vget_ok _ (ws1 ++ [0%N]) (S wi) 0%N) by (rewrite app_length; cbn [length]; lia). cbn [bind].
    unfold vset. replace (S wi <? length (ws1 ++ [0%N])) with true by (rewrite app_length; cbn [length]; lia).
    eexists. split; [reflexivity|].
    assert (B1 : forall j, nth j (bits_of (ws1 ++ [0%N])) false = nth j (bits_of ws1) false).
    { intros j. rewrite bits_of_app. destruct (Nat.ltb_spec j (64 * S wi)) as [G|G].
      - rewrite app_nth1 by (rewrite bits_of_length; lia). reflexivity.
      - rewrite app_nth2 by (rewrite bits_of_length; lia).
        rewrite (nth_overflow (bits_of ws1)) by (rewrite bits_of_length; lia).
        cbn [bits_of flat_map]. rewrite bits64_zero, app_nil_r. apply nth_repeat. }
    destruct (lset_add (ws1 ++ [0%N]) (S wi) r) as [F2 E2]; auto.
    { apply Forall_app. split; auto. repeat constructor. }
    { rewrite app_length. cbn [length]. lia. }
    { intros t Ht. rewrite B1. rewrite nth_overflow by (rewrite bits_of_length; lia). reflexivity. }
    apply FIN; auto; [rewrite lset_length, app_length; cbn [length]; lia|].
    intros j. rewrite E2, B1, E, C. pose proof (Nat.div_mod j 64 ltac:(lia)) as DJ.
    pose proof (Nat.mod_upper_bound j 64 ltac:(lia)) as MJ. rewrite BU, BR by auto.
    destruct (Nat.ltb_spec j p) as [G|G].
    + rewrite app_nth1 by lia.
      replace (j / 64 =? S wi) with false by lia. cbn [andb]. rewrite orb_false_r.
      destruct (Nat.eqb_spec (j / 64) wi) as [G2|G2]; cbn [andb]; [|apply orb_false_r].
      replace (o <=? j mod 64) with false by lia. apply orb_false_r.
    + rewrite (nth_overflow lb) by lia. cbn [orb]. rewrite app_nth2 by lia. rewrite HL.
      destruct (Nat.eqb_spec (j / 64) wi) as [G2|G2]; cbn [andb].
      * replace (j / 64 =? S wi) with false by lia. replace (o <=? j mod 64) with true by lia.
        cbn [andb]. rewrite orb_false_r. f_equal. lia.
      * destruct (Nat.eqb_spec (j / 64) (S wi)) as [G3|G3]; cbn [andb orb].
        -- f_equal. lia.
        -- symmetry. apply nth_overflow. lia.
Qed.
