(** rank and select on the list of bits. *)
From Coq Require Import Arith List NArith ZArith Bool Lia ZifyN ZifyNat ZifyBool.
From Verif Require Import Res Word BitFacts WordFacts Bitvector BitvectorFacts Rank Select.
Import ListNotations.

Definition rank_ok (r : bvrank) (l : list bool) : Prop :=
  repr (rk_bv r) l /\ rk_block r = 512 /\
  rk_lut r = map (fun i => cnt (firstn (512 * i) l)) (seq 0 (length l / 512 + 1)).

Lemma popcountLinear_repr : forall e b l x n, repr b l -> 64 * x + n <= length l ->
  popcountLinear e (bv_words b) x n = Ok (cnt (firstn n (skipn (64 * x) l))).
Proof.
  intros e b l x n H Hn. pose proof (repr_len _ _ H) as HL.
  rewrite popcountLinear_spec by (try (destruct H as (_ & ? & _); assumption); lia).
  f_equal. f_equal. destruct H as (_ & _ & _ & E). rewrite E, skipn_app, firstn_app.
  rewrite skipn_length. replace (n - (length l - 64 * x)) with 0 by lia.
  rewrite firstn_O, app_nil_r. reflexivity.
Qed.

Lemma rank_lut_spec : forall e b l, repr b l ->
  initRankLut e b 512 = Ok (map (fun i => cnt (firstn (512 * i) l)) (seq 0 (length l / 512 + 1))).
Proof.
  intros e b l H. unfold initRankLut. change (512 / 64) with 8.
  assert (Hn : bv_nbits b = length l) by (destruct H; auto). rewrite Hn.
  replace (length l / 512 + 1 - 1) with (length l / 512) by lia.
  pose proof (Nat.div_mod (length l) 512 ltac:(lia)) as HD.
  assert (G : forall n, n <= length l / 512 ->
    foldM (fun (st : list nat * nat) i => let '(lut, cumu) := st in
       p <- popcountLinear e (bv_words b) (i * 8) 512 ;; Ok (lut ++ [cumu], cumu + p)) (seq 0 n) ([], 0)
    = Ok (map (fun i => cnt (firstn (512 * i) l)) (seq 0 n), cnt (firstn (512 * n) l))).
  { induction n as [|n IH]; intros Hle; [reflexivity|].
    rewrite seq_snoc, foldM_app, IH by lia. cbn [bind foldM Nat.add].
    rewrite (popcountLinear_repr e b l) by (auto; lia). cbn [bind].
    rewrite map_app. cbn [map]. f_equal. f_equal.
    replace (512 * S n) with (512 * n + 512) by lia. rewrite firstn_plus, cnt_app.
    do 4 f_equal. lia. }
  rewrite G by lia. cbn [bind]. f_equal.
  replace (length l / 512 + 1) with (S (length l / 512)) by lia.
  rewrite seq_snoc, map_app. reflexivity.
Qed.

Lemma rank_spec : forall e r l pos, rank_ok r l -> pos < length l ->
  rank e r pos = Ok (cnt (firstn (S pos) l)).
Proof.
  intros e r l pos (H & Hb & Hl) Hp. unfold rank. rewrite Hb, Hl.
  assert (Hn : bv_nbits (rk_bv r) = length l) by (destruct H; auto). rewrite Hn.
  unfold massert. replace (pos <=? length l) with true by lia. rewrite andb_false_r. cbn [bind].
  change (512 / 64) with 8.
  pose proof (Nat.div_mod pos 512 ltac:(lia)) as HD. pose proof (Nat.mod_upper_bound pos 512 ltac:(lia)) as HM.
  assert (HDl : pos / 512 <= length l / 512) by (apply Nat.div_le_mono; lia).
  rewrite (vget_ok _ _ _ 0) by (rewrite map_length, seq_length; lia).
  rewrite (nth_indep _ 0 (cnt (firstn (512 * 0) l))) by (rewrite map_length, seq_length; lia).
  rewrite (map_nth (fun i => cnt (firstn (512 * i) l))), seq_nth by lia.
  rewrite Nat.add_0_l. cbn [bind].
  rewrite (popcountLinear_repr e _ l) by (auto; lia). cbn [bind]. f_equal.
  replace (S pos) with (512 * (pos / 512) + (pos mod 512 + 1)) by lia.
  rewrite (firstn_plus _ l (512 * (pos / 512))), cnt_app.
  replace (64 * (pos / 512 * 8)) with (512 * (pos / 512)) by lia. reflexivity.
Qed.

Lemma rank_make_spec : forall e per_level nbits (bits : nat -> list bool) s en,
  strict_mem e = false ->
  let en' := if en =? 0 then length per_level else en in
  (forall i, s <= i < en' -> i < length per_level /\ nth_error nbits i = Some (length (bits i)) /\
     lrepr (nth i per_level []) (bits i)) ->
  let l := concat (map bits (seq s (en' - s))) in
  if fits32 (N.of_nat (length l))
  then exists r, rank_make e 512 per_level nbits s en = Ok r /\ rank_ok r l
  else rank_make e 512 per_level nbits s en = Fail PosOverflow.
Proof.
  intros e pl nbits bits s en He en' Hr l.
  pose proof (bv_make_spec e pl nbits bits s en He Hr) as H. fold en' l in H. cbv zeta in H. fold l in H.
  unfold rank_make. destruct (fits32 (N.of_nat (length l))).
  - destruct H as (b & E & R). rewrite E. cbn [bind]. rewrite (rank_lut_spec e b _ R). cbn [bind].
    eexists. split; [reflexivity|]. split; auto.
  - rewrite H. reflexivity.
Qed.

(** ** select *)
Definition select_ok (s : bvselect) (l : list bool) : Prop :=
  repr (sl_bv s) l /\ 1 <= sl_interval s /\ sl_ones s = cnt l /\
  sl_lut s = 0 :: map (fun j => sel (j * sl_interval s) l) (seq 1 (cnt l / sl_interval s)).

Lemma sel_pad : forall l n k, 1 <= k -> k <= cnt l -> sel k (l ++ repeat false n) = sel k l.
Proof. intros. apply sel_app_l; auto. Qed.

Lemma repr_cnt : forall b l, repr b l -> cnt (bits_of (bv_words b)) = cnt l.
Proof. intros b l (_ & _ & _ & E). rewrite E, cnt_app, cnt_repeat_false. lia. Qed.

Lemma repr_sel : forall b l k, repr b l -> 1 <= k -> k <= cnt l -> sel k (bits_of (bv_words b)) = sel k l.
Proof. intros b l k (_ & _ & _ & E) H1 H2. rewrite E. apply sel_pad; auto. Qed.

Lemma sel_in_word : forall ws i k, Forall word_ok ws -> i < length ws ->
  cnt (firstn (64 * i) (bits_of ws)) < k ->
  k <= cnt (firstn (64 * i) (bits_of ws)) + popcnt (nth i ws 0%N) ->
  Z.to_nat (Z.of_nat (i * 64) + select64_popcount_search (nth i ws 0%N)
      (Z.of_nat k - Z.of_nat (cnt (firstn (64 * i) (bits_of ws)))))
  = sel k (bits_of ws).
Proof.
  intros ws i k Hok Hi H1 H2.
  set (c := cnt (firstn (64 * i) (bits_of ws))) in *.
  assert (Hw : word_ok (nth i ws 0%N)) by (apply nth_Forall_ok; auto).
  rewrite popcnt_bits64 in H2 by auto.
  replace (Z.of_nat k - Z.of_nat c)%Z with (Z.of_nat (k - c)) by lia.
  rewrite select64_spec by (auto; lia).
  replace (sel k (bits_of ws)) with (sel k (firstn (64 * i) (bits_of ws) ++ skipn (64 * i) (bits_of ws)))
    by (rewrite firstn_skipn; reflexivity).
  rewrite sel_app_r by (fold c; lia). fold c.
  rewrite firstn_length, bits_of_length. rewrite words_split by auto.
  rewrite sel_app_l by lia. lia.
Qed.

Lemma sample_loop_spec : forall ws i interval, Forall word_ok ws -> i < length ws -> 1 <= interval ->
  let L := bits_of ws in
  let cumu := cnt (firstn (64 * i) L) in
  let ones := popcnt (nth i ws 0%N) in
  forall fuel k, cumu < k * interval -> cumu + ones + 1 - k * interval <= fuel -> 1 <= k ->
  exists k', 
    sample_loop fuel (nth i ws 0%N) i interval ones cumu
      (0 :: map (fun j => sel (j * interval) L) (seq 1 (k - 1)), k * interval)
    = Ok (0 :: map (fun j => sel (j * interval) L) (seq 1 (k' - 1)), k' * interval) /\
    k <= k' /\ cumu + ones < k' * interval /\ (k' - 1) * interval <= max (cumu + ones) ((k-1) * interval).
Proof.
  intros ws i interval Hok Hi Hint L cumu ones. induction fuel as [|f IH]; intros k Hk Hf H1.
  - exists k. cbn [sample_loop]. replace (k * interval <=? cumu + ones) with false by lia.
    repeat split; auto; lia.
  - cbn [sample_loop]. destruct (Nat.leb_spec (k * interval) (cumu + ones)) as [G|G].
    + unfold cumu at 1, L at 1. rewrite sel_in_word by (auto; fold L cumu ones; lia).
      destruct (IH (S k)) as (k' & E & A & B & C); try nia.
      exists k'. split; [|split; [lia|split; auto]].
      * replace (S k * interval) with (k * interval + interval) in E by lia.
        rewrite <- E. f_equal. f_equal. replace (S k - 1) with (S (k - 1)) by lia.
        rewrite seq_snoc, map_app. cbn [map app]. do 2 f_equal. replace (1 + (k - 1)) with k by lia. reflexivity.
      * replace (S k - 1) with k in C by lia. lia.
    + exists k. repeat split; auto; lia.
Qed.

Lemma select_lut_spec : forall e b l interval, repr b l -> 1 <= interval ->
  initSelectLut e b interval =
    Ok (0 :: map (fun j => sel (j * interval) l) (seq 1 (cnt l / interval)), cnt l).
Proof.
  intros e b l interval H Hint. unfold initSelectLut.
  assert (Hok : Forall word_ok (bv_words b)) by (destruct H as (_ & ? & _); auto).
  assert (HL : length (bv_words b) = num_words (bv_nbits b)) by (destruct H as (_ & _ & ? & _); auto).
  set (L := bits_of (bv_words b)).
  assert (G : forall n, n <= length (bv_words b) -> exists k,
    foldM (fun (st : list nat * nat * nat) i =>
             let '(lut, sampling, cumu) := st in
             w <- wread e (bv_words b) i ;;
             let ones := popcnt w in
             '(lut, sampling) <- sample_loop 65 w i interval ones cumu (lut, sampling) ;;
             Ok (lut, sampling, cumu + ones))
      (seq 0 n) ([0], interval, 0)
    = Ok (0 :: map (fun j => sel (j * interval) L) (seq 1 (k - 1)), k * interval, cnt (firstn (64 * n) L))
    /\ 1 <= k /\ cnt (firstn (64 * n) L) < k * interval /\ (k - 1) * interval <= cnt (firstn (64 * n) L)).
  { induction n as [|n IH]; intros Hn.
    - exists 1. split; [rewrite Nat.mul_1_l; reflexivity|]. simpl. lia.
    - destruct IH as (k & E & A & B & C); [lia|].
      rewrite seq_snoc, foldM_app, E. cbn [bind foldM Nat.add].
      rewrite wread_ok by lia. cbn [bind].
      destruct (sample_loop_spec (bv_words b) n interval Hok ltac:(lia) Hint 65 k) as (k' & E' & A' & B' & C'); auto.
      { pose proof (popcnt_le64 (nth n (bv_words b) 0%N) (nth_Forall_ok _ _ Hok)). fold L. lia. }
      fold L in E', B', C'. rewrite E'. cbn [bind]. exists k'.
      assert (Hc : cnt (firstn (64 * S n) L) = cnt (firstn (64 * n) L) + popcnt (nth n (bv_words b) 0%N)).
      { replace (64 * S n) with (64 * n + 64) by lia. rewrite firstn_plus, cnt_app. f_equal.
        unfold L. rewrite words_split by lia. rewrite firstn_app, bits64_length.
        rewrite firstn_all2 by (rewrite bits64_length; lia). rewrite Nat.sub_diag, firstn_O, app_nil_r.
        symmetry. apply popcnt_bits64. apply nth_Forall_ok; auto. }
      rewrite Hc. repeat split; auto; lia. }
  destruct (G (length (bv_words b)) (le_n _)) as (k & E & A & B & C).
  cbv zeta in E. rewrite <- HL, E. cbn [bind].
  assert (HC : cnt (firstn (64 * length (bv_words b)) L) = cnt l).
  { rewrite firstn_all2 by (unfold L; rewrite bits_of_length; lia). apply repr_cnt. auto. }
  rewrite HC in *.
  assert (Hk : k - 1 = cnt l / interval).
  { apply Nat.div_unique with (cnt l - (k - 1) * interval); nia. }
  rewrite Hk. f_equal. f_equal. f_equal. apply map_ext_in. intros j Hj. apply in_seq in Hj.
  unfold L. apply repr_sel; auto; [nia|].
  assert (j * interval <= (k - 1) * interval) by (apply Nat.mul_le_mono_r; lia). lia.
Qed.

Lemma select_make_spec : forall e interval per_level nbits (bits : nat -> list bool) s en,
  strict_mem e = false -> 1 <= interval ->
  let en' := if en =? 0 then length per_level else en in
  (forall i, s <= i < en' -> i < length per_level /\ nth_error nbits i = Some (length (bits i)) /\
     lrepr (nth i per_level []) (bits i)) ->
  let l := concat (map bits (seq s (en' - s))) in
  if fits32 (N.of_nat (length l))
  then exists r, select_make e interval per_level nbits s en = Ok r /\ select_ok r l
  else select_make e interval per_level nbits s en = Fail PosOverflow.
Proof.
  intros e interval pl nbits bits s en He Hi en' Hr l.
  pose proof (bv_make_spec e pl nbits bits s en He Hr) as H. fold en' l in H. cbv zeta in H. fold l in H.
  unfold select_make. destruct (fits32 (N.of_nat (length l))).
  - destruct H as (b & E & R). rewrite E. cbn [bind]. rewrite (select_lut_spec e b _ _ R Hi). cbn [bind].
    eexists. split; [reflexivity|]. split; auto.
  - rewrite H. reflexivity.
Qed.

Lemma select_loop_spec : forall e ws, Forall word_ok ws ->
  forall fuel wid word rl, wid < length ws -> word_ok word -> length ws - wid <= fuel ->
  1 <= rl -> rl <= cnt (bits64 word ++ skipn (64 * S wid) (bits_of ws)) ->
  exists wid' word' rl',
    select_loop e fuel ws wid word (popcnt word) rl = Ok (wid', word', rl') /\
    word_ok word' /\ 1 <= rl' <= cnt (bits64 word') /\
    64 * wid + sel rl (bits64 word ++ skipn (64 * S wid) (bits_of ws)) = 64 * wid' + sel rl' (bits64 word').
Proof.
  intros e ws Hok. induction fuel as [|f IH]; intros wid word rl Hw Hwo Hf H1 H2; [lia|].
  cbn [select_loop]. rewrite popcnt_bits64 by auto.
  destruct (Nat.ltb_spec (cnt (bits64 word)) rl) as [G|G].
  - rewrite cnt_app in H2.
    assert (Hlt : S wid < length ws).
    { destruct (lt_dec (S wid) (length ws)); auto. rewrite (skipn_all2 (bits_of ws)) in H2 by (rewrite bits_of_length; lia).
      cbn [cnt] in H2. lia. }
    rewrite wread_ok by lia. cbn [bind]. rewrite words_split in * by auto.
    destruct (IH (S wid) (nth (S wid) ws 0%N) (rl - cnt (bits64 word))) as (wid' & word' & rl' & E & O & B & S); auto; try lia.
    { apply nth_Forall_ok; auto. }
    exists wid', word', rl'. split; auto. split; auto. split; auto.
    rewrite sel_app_r by auto. rewrite bits64_length. lia.
  - exists wid, word, rl. repeat split; auto; try lia. rewrite sel_app_l by lia. reflexivity.
Qed.

Lemma select_spec : forall e s l k, select_ok s l -> nth 0 l false = true -> 1 <= k -> k <= cnt l ->
  select e s k = Ok (sel k l).
Proof.
  intros e s l k (H & Hint & Hones & Hlut) H0 H1 Hk. unfold select, massert.
  replace (0 <? k) with true by lia. replace (k <=? sl_ones s + 1) with true by lia.
  rewrite andb_false_r. cbn [bind].
  set (iv := sl_interval s) in *.
  pose proof (Nat.div_mod k iv ltac:(lia)) as HD. pose proof (Nat.mod_upper_bound k iv ltac:(lia)) as HM.
  assert (Hex : exists rl, (if k / iv =? 0 then pred_idx (k mod iv) else Ok (k mod iv)) = Ok rl /\
     rl < k /\ vget (sl_lut s) (k / iv) = Ok (sel (k - rl) l)).
  { destruct (Nat.eqb_spec (k / iv) 0) as [E|E].
    - rewrite E in *. exists (k - 1). rewrite Nat.mul_0_r, Nat.add_0_l in HD. rewrite <- HD.
      destruct k; [lia|]. simpl pred_idx. split; [f_equal; lia|]. split; [lia|].
      rewrite Hlut. unfold vget. cbn [nth_error]. f_equal.
      replace (S k - (S k - 1)) with 1 by lia. destruct l as [|[] l]; simpl in *; auto; discriminate.
    - exists (k mod iv). split; auto. assert (iv * (k / iv) >= iv) by nia. split; [lia|].
      assert (Hdl : k / iv <= cnt l / iv) by (apply Nat.div_le_mono; lia).
      rewrite Hlut. destruct (k / iv) as [|q] eqn:Eq; [lia|].
      unfold vget. cbn [nth_error].
      rewrite (nth_error_nth' _ (sel (0 * iv) l)) by (rewrite map_length, seq_length; lia).
      rewrite (map_nth (fun j => sel (j * iv) l)), seq_nth by lia. f_equal. f_equal. lia. }
  destruct Hex as (rl & E1 & Hrl & E2). rewrite E1. cbn [bind]. rewrite E2. cbn [bind].
  destruct (Nat.eqb_spec rl 0) as [Z|Z]; [f_equal; f_equal; lia|].
  set (ws := bv_words (sl_bv s)). set (L := bits_of ws).
  assert (Hok : Forall word_ok ws) by (destruct H as (_ & ? & _); auto).
  set (r0 := k - rl) in *.
  assert (HcL : cnt L = cnt l) by (apply repr_cnt; auto).
  rewrite <- (repr_sel _ l r0 H) by lia. fold ws L.
  destruct (sel_spec L r0) as (P1 & P2 & P3); try lia.
  remember (sel r0 L) as p eqn:Ep.
  pose proof (Nat.div_mod p 64 ltac:(lia)) as HDp. pose proof (Nat.mod_upper_bound p 64 ltac:(lia)) as HMp.
  assert (Hc1 : cnt (firstn (S p) L) = r0) by (rewrite cnt_firstn_S by auto; rewrite P2; lia).
  set (wid := if p mod 64 =? 63 then S (p / 64) else p / 64).
  set (off := if p mod 64 =? 63 then 0 else S (p mod 64)).
  assert (Hpos : 64 * wid + off = S p /\ off < 64).
  { unfold wid, off. destruct (Nat.eqb_spec (p mod 64) 63); lia. }
  assert (HLlen : length L = 64 * length ws) by apply bits_of_length.
  assert (Hrest : cnt (skipn (S p) L) = cnt l - r0).
  { pose proof (firstn_skipn (S p) L) as F. rewrite <- F in HcL at 1. rewrite cnt_app in HcL. lia. }
  assert (Hwid : wid < length ws).
  { destruct (lt_dec wid (length ws)); auto. rewrite skipn_all2 in Hrest by lia. simpl in Hrest. lia. }
  rewrite wread_ok by auto. cbn [bind].
  set (w := nth wid ws 0%N). assert (Hw : word_ok w) by (apply nth_Forall_ok; auto).
  set (word := N.shiftr (wrap64 (N.shiftl w (N.of_nat off))) (N.of_nat off)).
  assert (Hword : word_ok word) by (apply shiftr_ok, wrap64_ok).
  assert (Hwb : bits64 word = repeat false off ++ skipn off (bits64 w)).
  { unfold word. rewrite bits64_shiftr by (try apply wrap64_ok; lia). f_equal.
    rewrite bits64_shiftl by lia. rewrite firstn_app, skipn_length, bits64_length.
    rewrite Nat.sub_diag, firstn_O, app_nil_r. apply firstn_all2. rewrite skipn_length, bits64_length. lia. }
  assert (Hsplit : skipn (S p) L = skipn off (bits64 w) ++ skipn (64 * S wid) L).
  { destruct Hpos as [Hp1 Hp2]. rewrite <- Hp1, <- skipn_skipn'. unfold L. rewrite words_split by auto.
    rewrite skipn_app, bits64_length. replace (off - 64) with 0 by lia. reflexivity. }
  destruct (select_loop_spec e ws Hok (S (length ws)) wid word rl) as (wid' & word' & rl' & E & O & B & SS); auto; try lia.
  { fold L. rewrite Hwb, <- app_assoc, cnt_app, cnt_repeat_false, <- Hsplit. lia. }
  rewrite E. cbn [bind]. f_equal.
  rewrite select64_spec by (auto; lia).
  fold L in SS. rewrite Hwb, <- app_assoc, <- Hsplit in SS.
  rewrite sel_app_r in SS by (rewrite cnt_repeat_false; lia).
  rewrite cnt_repeat_false, Nat.sub_0_r, repeat_length in SS.
  rewrite <- (repr_sel _ l k H) by lia. fold ws L.
  replace (sel k L) with (sel k (firstn (S p) L ++ skipn (S p) L)) by (rewrite firstn_skipn; reflexivity).
  rewrite sel_app_r by lia. rewrite Hc1, firstn_length.
  replace (k - r0) with rl by (unfold r0; lia). lia.
Qed.
