(** Bitvector operations on the list of bits they represent. *)
From Coq Require Import Arith List NArith ZArith Bool Lia ZifyN ZifyNat ZifyBool.
From Verif Require Import Res Word BitFacts WordFacts Bitvector.
Import ListNotations.

(** [b] holds exactly the bits [l]; the unused bits of the last word are zero. *)
Definition repr (b : bitvec) (l : list bool) : Prop :=
  bv_nbits b = length l /\ Forall word_ok (bv_words b) /\
  length (bv_words b) = num_words (bv_nbits b) /\
  bits_of (bv_words b) = l ++ repeat false (64 * length (bv_words b) - length l).

Lemma num_words_bounds : forall n, n <= 64 * num_words n /\ 64 * num_words n < n + 64.
Proof.
  intros n. unfold num_words. pose proof (Nat.div_mod n 64 ltac:(lia)).
  pose proof (Nat.mod_upper_bound n 64 ltac:(lia)).
  destruct (Nat.eqb_spec (n mod 64) 0); lia.
Qed.

Lemma repr_len : forall b l, repr b l -> length l <= 64 * length (bv_words b) /\
  64 * length (bv_words b) < length l + 64.
Proof.
  intros b l (H1 & _ & H2 & _). pose proof (num_words_bounds (bv_nbits b)). rewrite H2, <- H1. lia.
Qed.

Lemma repr_nth : forall b l i, repr b l -> nth i (bits_of (bv_words b)) false = nth i l false.
Proof.
  intros b l i (H1 & _ & H2 & H3). rewrite H3. destruct (lt_dec i (length l)) as [L|L].
  - apply app_nth1. auto.
  - rewrite app_nth2 by lia. rewrite nth_repeat, nth_overflow by lia. reflexivity.
Qed.

Lemma repr_firstn : forall b l n, repr b l -> n <= length l ->
  firstn n (bits_of (bv_words b)) = firstn n l.
Proof.
  intros b l n (H1 & _ & H2 & H3) H. rewrite H3, firstn_app.
  replace (n - length l) with 0 by lia. rewrite firstn_O, app_nil_r. reflexivity.
Qed.

Lemma repr_cnt_firstn : forall b l n, repr b l ->
  cnt (firstn n (bits_of (bv_words b))) = cnt (firstn n l).
Proof.
  intros b l n (H1 & _ & H2 & H3). rewrite H3, firstn_app, cnt_app.
  assert (E : forall a c, cnt (firstn a (repeat false c)) = 0).
  { intros a c. pose proof (cnt_firstn_le (repeat false c) a). rewrite cnt_repeat_false in H. lia. }
  rewrite E. lia.
Qed.

Lemma repr_unique : forall b l1 l2, repr b l1 -> repr b l2 -> l1 = l2.
Proof.
  intros b l1 l2 H1 H2. apply list_ext with (d := false).
  - destruct H1 as [A _], H2 as [B _]. congruence.
  - intros. rewrite <- (repr_nth b l1), <- (repr_nth b l2); auto.
Qed.

Lemma readBit_spec : forall e b l pos, repr b l -> pos < length l ->
  readBit e b pos = Ok (nth pos l false).
Proof.
  intros e b l pos H Hp. pose proof (repr_len _ _ H) as HL.
  assert (Hn : bv_nbits b = length l) by (destruct H; auto).
  unfold readBit, massert. replace (pos <=? bv_nbits b) with true by lia.
  rewrite andb_false_r. cbn [bind].
  pose proof (Nat.mod_upper_bound pos 64 ltac:(lia)) as HM.
  pose proof (Nat.div_mod pos 64 ltac:(lia)) as HD.
  rewrite wread_ok by lia. cbn [bind]. rewrite test_msb by lia.
  rewrite <- bits_of_nth, (repr_nth _ _ _ H). reflexivity.
Qed.

(** ** Next and previous set bit *)

Lemma skipn_skipn' : forall (A : Type) (l : list A) a b, skipn a (skipn b l) = skipn (b + a) l.
Proof.
  intros A l a b. revert l. induction b; intros l; simpl; auto.
  destruct l; simpl; [apply skipn_nil|]. apply IHb.
Qed.

Lemma words_split : forall ws i, i < length ws ->
  skipn (64 * i) (bits_of ws) = bits64 (nth i ws 0%N) ++ skipn (64 * S i) (bits_of ws).
Proof.
  intros ws i H. rewrite !bits_of_skipn, (skipn_nth_cons _ ws i 0%N) by auto. reflexivity.
Qed.

(** scan of whole words, over the padded bit list *)
Lemma next_loop_spec : forall fuel e b l word_id distance, repr b l ->
  word_id < num_words (bv_nbits b) -> num_words (bv_nbits b) <= word_id + fuel + 1 ->
  next_loop e fuel b word_id distance =
    Ok (distance + first_true (skipn (64 * S word_id) (bits_of (bv_words b)))).
Proof.
  induction fuel as [|f IH]; intros e b l w d H Hw Hf;
    assert (HL : length (bv_words b) = num_words (bv_nbits b)) by (destruct H as (_ & _ & ? & _); auto);
    cbn [next_loop].
  - replace (w <? num_words (bv_nbits b) - 1) with false by lia.
    rewrite skipn_all2 by (rewrite bits_of_length; lia). f_equal. simpl. lia.
  - destruct (Nat.ltb_spec w (num_words (bv_nbits b) - 1)) as [L|L].
    + rewrite wread_ok by lia. cbn [bind].
      assert (Hok : word_ok (nth (S w) (bv_words b) 0%N)) by (apply nth_Forall_ok; destruct H as (_ & ? & _); auto).
      rewrite words_split by lia. rewrite pos_word_cnt by auto.
      destruct (Nat.eqb_spec (cnt (bits64 (nth (S w) (bv_words b) 0%N))) 0) as [E|E]; cbn [negb].
      * rewrite (IH e b l) by (auto; lia). rewrite first_true_app_false by auto.
        rewrite bits64_length. f_equal. lia.
      * rewrite first_true_app_true by auto. rewrite clz_spec; auto.
        intros Z. apply E. apply cnt_bits64_zero; auto.
    + rewrite skipn_all2 by (rewrite bits_of_length; lia). f_equal. simpl. lia.
Qed.

Lemma first_true_pad : forall l n, cnt l <> 0 -> first_true (l ++ repeat false n) = first_true l.
Proof. intros. apply first_true_app_true. auto. Qed.

Lemma cnt_skipn_pad : forall l n k, cnt (skipn k (l ++ repeat false n)) = cnt (skipn k l).
Proof.
  intros. rewrite skipn_app, cnt_app.
  assert (E : cnt (skipn (k - length l) (repeat false n)) = 0).
  { pose proof (cnt_app (firstn (k - length l) (repeat false n)) (skipn (k - length l) (repeat false n))) as E.
    rewrite firstn_skipn, cnt_repeat_false in E. lia. }
  lia.
Qed.

(** What the call returns when the last words hold no further set bit: the
    distance to the end if [pos + 1] lies in the last word, the distance to the
    end of the last word otherwise. *)
Definition next_end (n pos1 : nat) : nat :=
  if pos1 / 64 + 1 =? num_words n then n + 1 - pos1 else 64 * num_words n + 1 - pos1.

Lemma dnext1_spec : forall e b l pos1, repr b l -> pos1 < length l ->
  asserts e = false \/ 1 <= pos1 ->
  distanceToNextSetBit1 e b pos1 =
    Ok (if cnt (skipn pos1 l) =? 0 then next_end (length l) pos1
        else 1 + first_true (skipn pos1 l)).
Proof.
  intros e b l pos1 H Hp Ha. pose proof (repr_len _ _ H) as HL.
  assert (Hn : bv_nbits b = length l) by (destruct H; auto).
  assert (Hnw : length (bv_words b) = num_words (bv_nbits b)) by (destruct H as (_ & _ & ? & _); auto).
  unfold distanceToNextSetBit1, massert.
  assert (HA : asserts e && negb match pos1 with 0 => false | S pos => pos <? bv_nbits b end = false).
  { destruct Ha as [->|Ha]; [reflexivity|]. destruct pos1 as [|p]; [lia|].
    replace (p <? bv_nbits b) with true by lia. apply andb_false_r. }
  rewrite HA.
  cbn [bind].
  pose proof (Nat.mod_upper_bound pos1 64 ltac:(lia)) as HM.
  pose proof (Nat.div_mod pos1 64 ltac:(lia)) as HD.
  remember (pos1 / 64) as q eqn:Eq. remember (pos1 mod 64) as r eqn:Er.
  rewrite wread_ok by lia. cbn [bind].
  set (w := nth q (bv_words b) 0%N).
  assert (Hok : word_ok w) by (apply nth_Forall_ok; destruct H as (_ & ? & _); auto).
  rewrite pos_word_cnt by apply wrap64_ok.
  assert (Hbits : bits64 (wrap64 (N.shiftl w (N.of_nat r))) = skipn r (bits64 w) ++ repeat false r)
    by (apply bits64_shiftl; lia).
  assert (Hcnt : cnt (bits64 (wrap64 (N.shiftl w (N.of_nat r)))) = cnt (skipn r (bits64 w)))
    by (rewrite Hbits, cnt_app, cnt_repeat_false; lia).
  rewrite Hcnt.
  assert (Hall : skipn pos1 (bits_of (bv_words b)) = skipn r (bits64 w) ++ skipn (64 * S q) (bits_of (bv_words b))).
  { replace pos1 with (64 * q + r) by lia. rewrite <- skipn_skipn', words_split by lia.
    fold w. rewrite skipn_app, bits64_length. replace (r - 64) with 0 by lia. reflexivity. }
  assert (HP : skipn pos1 (bits_of (bv_words b)) = skipn pos1 l ++ repeat false (64 * length (bv_words b) - length l)).
  { destruct H as (_ & _ & _ & E). rewrite E, skipn_app. f_equal.
    replace (pos1 - length l) with 0 by lia. reflexivity. }
  destruct (Nat.eqb_spec (cnt (skipn r (bits64 w))) 0) as [E|E]; cbn [negb].
  - replace (num_words (bv_nbits b) =? 0) with false by lia.
    assert (Hlen : length (skipn r (bits64 w)) = 64 - r) by (rewrite skipn_length, bits64_length; lia).
    destruct (Nat.eqb_spec (q + 1) (num_words (bv_nbits b))) as [L|L].
    + (* the last word *)
      assert (Z : cnt (skipn pos1 l) = 0).
      { assert (Z : cnt (skipn pos1 (bits_of (bv_words b))) = 0).
        { rewrite Hall, cnt_app, E. rewrite skipn_all2 by (rewrite bits_of_length; lia). reflexivity. }
        rewrite HP, cnt_app in Z. lia. }
      rewrite Z. cbn [Nat.eqb]. unfold next_end. rewrite <- Eq, <- Hn.
      replace (q + 1 =? num_words (bv_nbits b)) with true by lia. reflexivity.
    + rewrite (next_loop_spec _ e b l) by (auto; lia).
      assert (F : 64 - r + first_true (skipn (64 * S q) (bits_of (bv_words b))) =
                  first_true (skipn pos1 (bits_of (bv_words b)))).
      { rewrite Hall, first_true_app_false by auto. rewrite Hlen. reflexivity. }
      destruct (Nat.eqb_spec (cnt (skipn pos1 l)) 0) as [Z|Z].
      * unfold next_end. rewrite <- Eq, <- Hn.
        replace (q + 1 =? num_words (bv_nbits b)) with false by lia. f_equal.
        assert (ZZ : cnt (skipn pos1 (bits_of (bv_words b))) = 0)
          by (rewrite HP, cnt_app, cnt_repeat_false; lia).
        rewrite (first_true_none _ ZZ), skipn_length, bits_of_length in F. lia.
      * f_equal. rewrite HP, first_true_pad in F by auto. lia.
  - rewrite clz_spec; [|apply wrap64_ok|].
    + rewrite Hbits, first_true_app_true by auto.
      assert (Z : cnt (skipn pos1 l) <> 0).
      { assert (Z : cnt (skipn pos1 (bits_of (bv_words b))) <> 0) by (rewrite Hall, cnt_app; lia).
        rewrite HP, cnt_app, cnt_repeat_false in Z. lia. }
      replace (cnt (skipn pos1 l) =? 0) with false by lia. f_equal.
      f_equal. rewrite <- (first_true_pad _ (64 * length (bv_words b) - length l) Z), <- HP, Hall.
      rewrite first_true_app_true by auto. reflexivity.
    + intros Z. rewrite Z, bits64_zero, cnt_repeat_false in Hcnt. lia.
Qed.

Lemma dnext_spec : forall e b l pos, repr b l -> S pos < length l ->
  distanceToNextSetBit e b pos =
    Ok (if cnt (skipn (S pos) l) =? 0 then next_end (length l) (S pos)
        else 1 + first_true (skipn (S pos) l)).
Proof. intros. apply dnext1_spec; auto. right. lia. Qed.

Lemma prev_loop_spec : forall word_id e b l distance, repr b l ->
  word_id <= length (bv_words b) ->
  prev_loop e b word_id distance =
    Ok (distance + first_true (rev (firstn (64 * word_id) (bits_of (bv_words b))))).
Proof.
  induction word_id as [|w IH]; intros e b l d H Hw; cbn [prev_loop].
  - simpl. f_equal. lia.
  - rewrite wread_ok by lia. cbn [bind].
    assert (Hok : word_ok (nth w (bv_words b) 0%N)) by (apply nth_Forall_ok; destruct H as (_ & ? & _); auto).
    replace (64 * S w) with (64 * w + 64) by lia.
    rewrite firstn_plus, words_split by lia.
    rewrite firstn_app, bits64_length. rewrite (firstn_all2 (bits64 (nth w (bv_words b) 0%N))) by (rewrite bits64_length; lia).
    replace (64 - 64) with 0 by lia. rewrite firstn_O, app_nil_r, rev_app_distr.
    rewrite pos_word_cnt by auto.
    destruct (Nat.eqb_spec (cnt (bits64 (nth w (bv_words b) 0%N))) 0) as [E|E]; cbn [negb].
    + rewrite (IH e b l) by (auto; lia). rewrite first_true_app_false by (rewrite cnt_rev; auto).
      rewrite rev_length, bits64_length. f_equal. lia.
    + rewrite first_true_app_true by (rewrite cnt_rev; auto). rewrite ctz_spec; auto.
      intros Z. apply E. apply cnt_bits64_zero; auto.
Qed.

Lemma repeat_snoc_rev : forall (A : Type) (x : A) n, rev (repeat x n) = repeat x n.
Proof.
  intros. apply list_ext with (d := x).
  - rewrite rev_length. auto.
  - intros i Hi. rewrite rev_length, repeat_length in Hi. rewrite rev_nth by (rewrite repeat_length; auto).
    rewrite !nth_repeat. reflexivity.
Qed.

Lemma dprev_spec : forall e b l pos, repr b l -> pos <= length l ->
  distanceToPrevSetBit e b pos =
    Ok (if pos =? 0 then 0 else 1 + first_true (rev (firstn pos l))).
Proof.
  intros e b l pos H Hp. pose proof (repr_len _ _ H) as HL.
  assert (Hn : bv_nbits b = length l) by (destruct H; auto).
  unfold distanceToPrevSetBit, massert. replace (pos <=? bv_nbits b) with true by lia.
  rewrite andb_false_r. cbn [bind]. destruct pos as [|p]; [reflexivity|].
  cbn [Nat.eqb].
  pose proof (Nat.mod_upper_bound p 64 ltac:(lia)) as HM.
  pose proof (Nat.div_mod p 64 ltac:(lia)) as HD.
  remember (p / 64) as q eqn:Eq. remember (p mod 64) as r eqn:Er.
  rewrite wread_ok by lia. cbn [bind].
  set (w := nth q (bv_words b) 0%N).
  assert (Hok : word_ok w) by (apply nth_Forall_ok; destruct H as (_ & ? & _); auto).
  rewrite pos_word_cnt by (apply shiftr_ok; auto).
  assert (Hbits : bits64 (N.shiftr w (N.of_nat (63 - r))) = repeat false (63 - r) ++ firstn (S r) (bits64 w)).
  { rewrite bits64_shiftr by (auto; lia). do 2 f_equal. lia. }
  assert (Hcnt : cnt (bits64 (N.shiftr w (N.of_nat (63 - r)))) = cnt (firstn (S r) (bits64 w)))
    by (rewrite Hbits, cnt_app, cnt_repeat_false; lia).
  rewrite Hcnt.
  assert (Hall : firstn (S p) l = firstn (64 * q) (bits_of (bv_words b)) ++ firstn (S r) (bits64 w)).
  { rewrite <- (repr_firstn b l) by (auto; lia). replace (S p) with (64 * q + S r) by lia.
    rewrite firstn_plus, words_split by lia. fold w. f_equal.
    rewrite firstn_app, bits64_length. replace (S r - 64) with 0 by lia.
    rewrite firstn_O, app_nil_r. reflexivity. }
  rewrite Hall, rev_app_distr.
  assert (Hlen : length (firstn (S r) (bits64 w)) = S r) by (rewrite firstn_length, bits64_length; lia).
  destruct (Nat.eqb_spec (cnt (firstn (S r) (bits64 w))) 0) as [E|E]; cbn [negb].
  - rewrite (prev_loop_spec _ e b l) by (auto; lia).
    rewrite first_true_app_false by (rewrite cnt_rev; auto). rewrite rev_length, Hlen. f_equal. lia.
  - rewrite ctz_spec; [|apply shiftr_ok; auto|].
    + rewrite Hbits, rev_app_distr, repeat_snoc_rev.
      rewrite !first_true_app_true by (rewrite cnt_rev; auto). reflexivity.
    + intros Z. rewrite Z, bits64_zero, cnt_repeat_false in Hcnt. lia.
Qed.

(** ** Concatenation *)

Lemma lset_length : forall (A : Type) (l : list A) i x, length (lset l i x) = length l.
Proof. induction l as [|y l IH]; intros [|i] x; simpl; auto. Qed.

Lemma lset_nth : forall (A : Type) (l : list A) i x j d,
  nth j (lset l i x) d = if (j =? i) && (i <? length l) then x else nth j l d.
Proof.
  induction l as [|y l IH]; intros i x j d.
  - replace (i <? length []) with false by (symmetry; apply Nat.ltb_ge; simpl; lia).
    rewrite andb_false_r. reflexivity.
  - destruct i as [|i], j as [|j]; try reflexivity.
    cbn [lset nth length]. rewrite IH. reflexivity.
Qed.

Lemma lset_Forall : forall (A : Type) (P : A -> Prop) l i x, Forall P l -> P x -> Forall P (lset l i x).
Proof.
  induction l as [|y l IH]; intros [|i] x HF Hx; simpl; auto; inv HF; constructor; auto.
Qed.

Lemma or_word_ok : forall e ws i v, i < length ws ->
  or_word e ws i v = Ok (lset ws i (N.lor (nth i ws 0%N) v)).
Proof.
  intros. unfold or_word. rewrite (nth_error_nth' ws 0%N) by auto. reflexivity.
Qed.

Lemma or_word_end : forall e ws v, strict_mem e = false -> v = 0%N ->
  or_word e ws (length ws) v = Ok ws.
Proof.
  intros e ws v He ->. unfold or_word. replace (nth_error ws (length ws)) with (@None N)
    by (symmetry; apply nth_error_None; lia).
  rewrite He, Nat.eqb_refl. reflexivity.
Qed.

Lemma bits_of_or : forall ws i v j, i < length ws ->
  nth j (bits_of (lset ws i (N.lor (nth i ws 0%N) v))) false =
  nth j (bits_of ws) false || (if j / 64 =? i then nth (j mod 64) (bits64 v) false else false).
Proof.
  intros ws i v j Hi. rewrite !bits_of_nth, lset_nth.
  replace (i <? length ws) with true by lia. rewrite andb_true_r.
  destruct (Nat.eqb_spec (j / 64) i) as [->|N].
  - apply bits64_lor_nth. apply Nat.mod_upper_bound. lia.
  - rewrite orb_false_r. reflexivity.
Qed.

(** state of the concatenation: [acc] has been written *)
Definition cinv (ws : list N) (word_id bit_shift : nat) (acc : list bool) (z : nat) : Prop :=
  Forall word_ok ws /\ bits_of ws = acc ++ repeat false z /\
  length acc = 64 * word_id + bit_shift /\ bit_shift < 64.

(** Or-ing a word holding the bits [bs] (then zeros) at the cursor. *)
Lemma or_two : forall e ws word_id sh acc z w bs,
  strict_mem e = false -> cinv ws word_id sh acc z -> word_ok w ->
  bits64 w = bs ++ repeat false (64 - length bs) -> 1 <= length bs <= 64 -> length bs <= z ->
  exists ws1, or_word e ws word_id (N.shiftr w (N.of_nat sh)) = Ok ws1 /\
   Forall word_ok ws1 /\ length ws1 = length ws /\
   (sh + length bs <= 64 -> bits_of ws1 = (acc ++ bs) ++ repeat false (z - length bs)) /\
   (0 < sh -> exists ws2,
      or_word e ws1 (S word_id) (wrap64 (N.shiftl w (N.of_nat (64 - sh)))) = Ok ws2 /\
      Forall word_ok ws2 /\ length ws2 = length ws /\
      bits_of ws2 = (acc ++ bs) ++ repeat false (z - length bs)).
Proof.
  intros e ws wid sh acc z w bs He (Hok & Hb & Ha & Hsh) Hw Hbw Hm Hz.
  assert (HL : 64 * length ws = length acc + z) by (rewrite <- bits_of_length, Hb, app_length, repeat_length; auto).
  assert (Hlt : wid < length ws) by lia.
  assert (Hwb : forall i, nth i (bits64 w) false = nth i bs false).
  { intros i. rewrite Hbw. destruct (lt_dec i (length bs)).
    - apply app_nth1; auto.
    - rewrite app_nth2, nth_repeat, nth_overflow by lia. reflexivity. }
  assert (Hbits0 : forall j, length acc <= j -> nth j (bits_of ws) false = false).
  { intros. rewrite Hb, app_nth2 by auto. apply nth_repeat. }
  set (ws1 := lset ws wid (N.lor (nth wid ws 0%N) (N.shiftr w (N.of_nat sh)))).
  exists ws1. split; [apply or_word_ok; auto|].
  assert (Hok1 : Forall word_ok ws1).
  { apply lset_Forall; auto. apply lor_ok; [apply nth_Forall_ok; auto|apply shiftr_ok; auto]. }
  assert (HL1 : length ws1 = length ws) by apply lset_length.
  split; auto. split; auto.
  (* bits after the first or *)
  assert (HB1 : forall j, nth j (bits_of ws1) false =
      if j <? length acc then nth j acc false
      else if j <? 64 * S wid then nth (j - length acc) bs false else false).
  { intros j. unfold ws1. rewrite bits_of_or by auto.
    pose proof (Nat.div_mod j 64 ltac:(lia)) as HD. pose proof (Nat.mod_upper_bound j 64 ltac:(lia)) as HM.
    rewrite bits64_shiftr by (auto; lia).
    destruct (Nat.ltb_spec j (length acc)) as [L|L].
    - rewrite Hb, app_nth1 by auto. destruct (Nat.eqb_spec (j / 64) wid) as [E|E].
      + rewrite app_nth1 by (rewrite repeat_length; lia). rewrite nth_repeat, orb_false_r. reflexivity.
      + rewrite orb_false_r. reflexivity.
    - rewrite Hbits0 by auto. cbn [orb].
      destruct (Nat.eqb_spec (j / 64) wid) as [E|E], (Nat.ltb_spec j (64 * S wid)) as [G|G]; try lia; auto.
      rewrite app_nth2 by (rewrite repeat_length; lia). rewrite repeat_length.
      rewrite nth_firstn' by lia. rewrite Hwb. f_equal. lia. }
  assert (Hgoal : forall W, length W = length ws ->
     (forall j, nth j (bits_of W) false = if j <? length acc then nth j acc false else nth (j - length acc) bs false) ->
     bits_of W = (acc ++ bs) ++ repeat false (z - length bs)).
  { intros W HW HN. apply list_ext with (d := false).
    - rewrite bits_of_length, !app_length, repeat_length. lia.
    - intros j Hj. rewrite HN. destruct (Nat.ltb_spec j (length acc)).
      + rewrite <- app_assoc, app_nth1 by auto. reflexivity.
      + rewrite <- app_assoc, app_nth2 by auto.
        destruct (lt_dec (j - length acc) (length bs)).
        * rewrite app_nth1 by auto. reflexivity.
        * rewrite app_nth2, nth_repeat, nth_overflow by lia. reflexivity. }
  split.
  - intros HS. apply Hgoal; auto. intros j. rewrite HB1.
    destruct (Nat.ltb_spec j (length acc)); auto.
    destruct (Nat.ltb_spec j (64 * S wid)); auto. rewrite nth_overflow by lia. reflexivity.
  - intros Hpos.
    assert (HV : bits64 (wrap64 (N.shiftl w (N.of_nat (64 - sh)))) = skipn (64 - sh) (bits64 w) ++ repeat false (64 - sh))
      by (apply bits64_shiftl; lia).
    destruct (lt_dec (S wid) (length ws)) as [L|L].
    + eexists. split; [apply or_word_ok; lia|]. split.
      { apply lset_Forall; auto. apply lor_ok; [apply nth_Forall_ok; auto|apply wrap64_ok]. }
      split; [rewrite lset_length; auto|]. apply Hgoal; [rewrite lset_length; auto|].
      intros j. rewrite bits_of_or by lia. rewrite HB1, HV.
      pose proof (Nat.div_mod j 64 ltac:(lia)) as HD. pose proof (Nat.mod_upper_bound j 64 ltac:(lia)) as HM.
      destruct (Nat.ltb_spec j (length acc)) as [G|G].
      * replace (j / 64 =? S wid) with false by lia. apply orb_false_r.
      * destruct (Nat.ltb_spec j (64 * S wid)) as [G2|G2].
        { replace (j / 64 =? S wid) with false by lia. apply orb_false_r. }
        cbn [orb]. destruct (Nat.eqb_spec (j / 64) (S wid)) as [E|E].
        { destruct (lt_dec (j mod 64) sh) as [M|M].
          - rewrite app_nth1 by (rewrite skipn_length, bits64_length; lia).
            rewrite nth_skipn', Hwb. f_equal. lia.
          - rewrite app_nth2 by (rewrite skipn_length, bits64_length; lia).
            rewrite nth_repeat, nth_overflow by lia. reflexivity. }
        { rewrite nth_overflow by lia. reflexivity. }
    + exists ws1. split.
      { replace (S wid) with (length ws1) by lia. apply or_word_end; auto.
        apply cnt_bits64_zero; [apply wrap64_ok|]. rewrite HV, cnt_app, cnt_repeat_false.
        assert (cnt (skipn (64 - sh) (bits64 w)) = 0); [|lia].
        apply cnt_zero_nth. intros i. rewrite nth_skipn', Hwb. apply nth_overflow. lia. }
      split; auto. split; auto. apply Hgoal; auto. intros j. rewrite HB1.
      destruct (Nat.ltb_spec j (length acc)); auto.
      destruct (Nat.ltb_spec j (64 * S wid)); auto. rewrite nth_overflow by lia. reflexivity.
Qed.

(** [lvl] holds the bits [lb], then zeros at least to the end of the word. *)
Definition lrepr (lvl : list N) (lb : list bool) : Prop :=
  Forall word_ok lvl /\ length lb <= 64 * length lvl /\
  bits_of lvl = lb ++ repeat false (64 * length lvl - length lb).

Lemma lrepr_word : forall lvl lb i, lrepr lvl lb -> 64 * S i <= length lb ->
  bits64 (nth i lvl 0%N) = firstn 64 (skipn (64 * i) lb).
Proof.
  intros lvl lb i (Hok & HL & HB) Hi. apply list_ext with (d := false).
  - rewrite bits64_length, firstn_length, skipn_length. lia.
  - rewrite bits64_length. intros j Hj. rewrite nth_firstn', nth_skipn' by auto.
    replace (nth (64 * i + j) lb false) with (nth (64 * i + j) (bits_of lvl) false)
      by (rewrite HB, app_nth1 by lia; reflexivity).
    rewrite bits_of_nth. replace ((64 * i + j) / 64) with i by (rewrite (Nat.mul_comm 64), Nat.div_add_l, Nat.div_small; lia).
    replace ((64 * i + j) mod 64) with j; auto.
    rewrite Nat.add_comm, Nat.mul_comm, Nat.mod_add, Nat.mod_small by lia. reflexivity.
Qed.

Lemma lrepr_last : forall lvl lb i, lrepr lvl lb -> i < length lvl -> 64 * i <= length lb <= 64 * S i ->
  bits64 (nth i lvl 0%N) = skipn (64 * i) lb ++ repeat false (64 - length (skipn (64 * i) lb)).
Proof.
  intros lvl lb i (Hok & HL & HB) Hlen Hi. apply list_ext with (d := false).
  - rewrite bits64_length, app_length, repeat_length, skipn_length. lia.
  - rewrite bits64_length. intros j Hj.
    assert (E : nth j (bits64 (nth i lvl 0%N)) false = nth (64 * i + j) lb false).
    { replace (nth (64 * i + j) lb false) with (nth (64 * i + j) (bits_of lvl) false).
      - rewrite bits_of_nth. replace ((64 * i + j) / 64) with i by (rewrite (Nat.mul_comm 64), Nat.div_add_l, Nat.div_small; lia).
        replace ((64 * i + j) mod 64) with j; auto.
        rewrite Nat.add_comm, Nat.mul_comm, Nat.mod_add, Nat.mod_small by lia. reflexivity.
      - rewrite HB. destruct (lt_dec (64 * i + j) (length lb)).
        + apply app_nth1; auto.
        + rewrite app_nth2, nth_repeat, nth_overflow by lia. reflexivity. }
    rewrite E, skipn_length. destruct (lt_dec j (length lb - 64 * i)).
    + rewrite app_nth1 by (rewrite skipn_length; lia). rewrite nth_skipn'. reflexivity.
    + rewrite app_nth2 by (rewrite skipn_length; lia). rewrite nth_repeat, nth_overflow by lia. reflexivity.
Qed.

Lemma vget_ok : forall (A : Type) (l : list A) i d, i < length l -> vget l i = Ok (nth i l d).
Proof. intros. unfold vget. rewrite (nth_error_nth' l d) by auto. reflexivity. Qed.

Lemma foldM_app : forall (A B : Type) (f : B -> A -> res B) l1 l2 b,
  foldM f (l1 ++ l2) b = bind (foldM f l1 b) (fun b' => foldM f l2 b').
Proof.
  induction l1 as [|x l1 IH]; intros l2 b; simpl; auto.
  destruct (f b x); simpl; auto.
Qed.

Lemma seq_snoc : forall s n, seq s (S n) = seq s n ++ [s + n].
Proof. intros. replace (S n) with (n + 1) by lia. rewrite seq_app. reflexivity. Qed.

Lemma concat_words : forall e lvl lb sh n ws wid acc z,
  strict_mem e = false -> lrepr lvl lb -> cinv ws wid sh acc z ->
  64 * n <= length lb -> 64 * n <= z ->
  exists ws',
    foldM (fun st' word => w <- vget lvl word ;; concat_word e sh st' w) (seq 0 n) (ws, wid) = Ok (ws', wid + n) /\
    length ws' = length ws /\
    cinv ws' (wid + n) sh (acc ++ firstn (64 * n) lb) (z - 64 * n).
Proof.
  intros e lvl lb sh n ws wid acc z He Hl Hc. induction n as [|n IH]; intros Hn Hz.
  - exists ws. split; [simpl; do 2 f_equal; lia|]. split; auto.
    rewrite Nat.mul_0_r, firstn_O, app_nil_r, Nat.sub_0_r, Nat.add_0_r. exact Hc.
  - destruct IH as (ws1 & E1 & L1 & C1); try lia.
    rewrite seq_snoc, foldM_app, E1. cbn [bind foldM Nat.add].
    assert (Hlv : n < length lvl) by (destruct Hl as (_ & ? & _); lia).
    rewrite (vget_ok _ lvl n 0%N) by auto. cbn [bind Nat.add].
    set (w := nth n lvl 0%N).
    assert (Hw : word_ok w) by (apply nth_Forall_ok; destruct Hl; auto).
    set (bs := firstn 64 (skipn (64 * n) lb)).
    assert (Lbs : length bs = 64) by (unfold bs; rewrite firstn_length, skipn_length; lia).
    assert (Hbw : bits64 w = bs ++ repeat false (64 - length bs)).
    { rewrite Lbs, Nat.sub_diag, app_nil_r. apply lrepr_word; auto. }
    assert (Hsh : sh < 64) by (destruct Hc as (_ & _ & _ & ?); auto).
    destruct (or_two e ws1 (wid + n) sh _ _ w bs He C1 Hw Hbw) as (ws2 & E2 & O2 & L2 & B2 & T2); try lia.
    unfold concat_word, shr64. replace (N.of_nat sh <? 64)%N with true by lia. cbn [bind].
    rewrite E2. cbn [bind].
    assert (Hacc : (acc ++ firstn (64 * n) lb) ++ bs = acc ++ firstn (64 * S n) lb).
    { rewrite <- app_assoc. f_equal. replace (64 * S n) with (64 * n + 64) by lia. rewrite firstn_plus. reflexivity. }
    destruct (Nat.ltb_spec 0 sh) as [G|G].
    + destruct (T2 G) as (ws3 & E3 & O3 & L3 & B3).
      unfold shl64. replace (N.of_nat (64 - sh) <? 64)%N with true by lia. cbn [bind].
      rewrite E3. cbn [bind]. exists ws3. split; [do 2 f_equal; lia|]. split; [lia|].
      rewrite Hacc, Lbs in B3. destruct C1 as (_ & _ & A1 & S1).
      split; auto. split; [|split; auto].
      * rewrite B3. do 2 f_equal. lia.
      * rewrite <- Hacc, app_length, Lbs, A1. lia.
    + cbn [bind]. exists ws2. split; [do 2 f_equal; lia|]. split; [lia|].
      rewrite Hacc, Lbs in B2. destruct C1 as (_ & _ & A1 & S1).
      split; auto. split; [|split; auto].
      * rewrite B2 by lia. do 2 f_equal. lia.
      * rewrite <- Hacc, app_length, Lbs, A1. lia.
Qed.

Lemma concat_level_spec : forall e lvl lb ws wid sh acc z,
  strict_mem e = false -> lrepr lvl lb -> cinv ws wid sh acc z -> length lb <= z ->
  exists ws' sh' wid',
    concat_level e (ws, sh, wid) lvl (length lb) = Ok (ws', sh', wid') /\
    length ws' = length ws /\
    cinv ws' wid' sh' (acc ++ lb) (z - length lb).
Proof.
  intros e lvl lb ws wid sh acc z He Hl Hc Hz. unfold concat_level.
  destruct (Nat.eqb_spec (length lb) 0) as [E0|E0].
  - exists ws, sh, wid. split; auto. split; auto. destruct lb; [|discriminate].
    rewrite app_nil_r. cbn [length]. rewrite Nat.sub_0_r. exact Hc.
  - pose proof (Nat.div_mod (length lb) 64 ltac:(lia)) as HD.
    pose proof (Nat.mod_upper_bound (length lb) 64 ltac:(lia)) as HM.
    remember (length lb / 64) as q eqn:Eq. remember (length lb mod 64) as r eqn:Er.
    destruct (concat_words e lvl lb sh q ws wid acc z He Hl Hc) as (ws1 & E1 & L1 & C1); try lia.
    rewrite E1. cbn [bind]. replace (length lb - q * 64) with r by lia.
    destruct (Nat.ltb_spec 0 r) as [G|G].
    + assert (Hlv : q < length lvl) by (destruct Hl as (_ & ? & _); lia).
      rewrite (vget_ok _ lvl q 0%N) by auto. cbn [bind].
      set (w := nth q lvl 0%N).
      assert (Hw : word_ok w) by (apply nth_Forall_ok; destruct Hl; auto).
      set (bs := skipn (64 * q) lb).
      assert (Lbs : length bs = r) by (unfold bs; rewrite skipn_length; lia).
      assert (Hbw : bits64 w = bs ++ repeat false (64 - length bs)) by (apply lrepr_last; auto; lia).
      assert (Hsh : sh < 64) by (destruct Hc as (_ & _ & _ & ?); auto).
      destruct (or_two e ws1 (wid + q) sh _ _ w bs He C1 Hw Hbw) as (ws2 & E2 & O2 & L2 & B2 & T2); try lia.
      unfold shr64. replace (N.of_nat sh <? 64)%N with true by lia. cbn [bind].
      rewrite E2. cbn [bind].
      assert (Hacc : (acc ++ firstn (64 * q) lb) ++ bs = acc ++ lb).
      { rewrite <- app_assoc. unfold bs. rewrite firstn_skipn. reflexivity. }
      destruct C1 as (_ & _ & A1 & S1).
      assert (Hlen : length (acc ++ lb) = 64 * (wid + q) + sh + r) by (rewrite <- Hacc, app_length, Lbs, A1; lia).
      destruct (Nat.ltb_spec (sh + r) 64) as [G2|G2].
      * exists ws2, (sh + r), (wid + q). split; auto. split; [lia|].
        rewrite Hacc, Lbs in B2. split; auto. split; [|split; auto; lia].
        rewrite B2 by lia. do 2 f_equal. lia.
      * destruct T2 as (ws3 & E3 & O3 & L3 & B3); [lia|].
        unfold shl64. replace (N.of_nat (64 - sh) <? 64)%N with true by lia. cbn [bind].
        rewrite E3. cbn [bind]. exists ws3, (sh + r - 64), (S (wid + q)). split; auto. split; [lia|].
        rewrite Hacc, Lbs in B3. split; auto. split; [|split; auto; lia].
        rewrite B3. do 2 f_equal. lia.
    + exists ws1, sh, (wid + q). split; auto. split; auto.
      replace (firstn (64 * q) lb) with lb in C1 by (symmetry; apply firstn_all2; lia).
      replace (z - length lb) with (z - 64 * q) by lia. exact C1.
Qed.

Lemma concat_levels_spec : forall e per_level nbits (bits : nat -> list bool) n s ws wid sh acc z,
  strict_mem e = false ->
  (forall i, s <= i < s + n -> i < length per_level /\ nth_error nbits i = Some (length (bits i)) /\
     lrepr (nth i per_level []) (bits i)) ->
  cinv ws wid sh acc z -> length (concat (map bits (seq s n))) <= z ->
  exists ws' sh' wid',
    foldM (fun st level =>
             nbits <- vget nbits level ;;
             if nbits =? 0 then Ok st
             else lvl <- vget per_level level ;; concat_level e st lvl nbits)
      (seq s n) (ws, sh, wid) = Ok (ws', sh', wid') /\
    length ws' = length ws /\
    cinv ws' wid' sh' (acc ++ concat (map bits (seq s n))) (z - length (concat (map bits (seq s n)))).
Proof.
  intros e per_level nbits bits n. induction n as [|n IH]; intros s ws wid sh acc z He Hr Hc Hz.
  - exists ws, sh, wid. split; auto. split; auto. cbn [seq map concat length].
    rewrite app_nil_r, Nat.sub_0_r. exact Hc.
  - cbn [seq map concat] in *. rewrite app_length in *. cbn [foldM].
    destruct (Hr s ltac:(lia)) as (HL & Hv & HR).
    unfold vget at 1. rewrite Hv. cbn [bind].
    destruct (concat_level_spec e (nth s per_level []) (bits s) ws wid sh acc z He HR Hc ltac:(lia))
      as (ws1 & sh1 & wid1 & E1 & L1 & C1).
    destruct (Nat.eqb_spec (length (bits s)) 0) as [E0|E0].
    + cbn [bind]. destruct (IH (S s) ws wid sh acc z) as (ws2 & sh2 & wid2 & E2 & L2 & C2); auto; try lia.
      { intros. apply Hr. lia. }
      exists ws2, sh2, wid2. split; auto. split; auto.
      destruct (bits s); [|discriminate]. exact C2.
    + rewrite (vget_ok _ per_level s []) by lia. cbn [bind]. rewrite E1. cbn [bind].
      destruct (IH (S s) ws1 wid1 sh1 (acc ++ bits s) (z - length (bits s))) as (ws2 & sh2 & wid2 & E2 & L2 & C2); auto; try lia.
      { intros. apply Hr. lia. }
      exists ws2, sh2, wid2. split; auto. split; [lia|].
      rewrite app_assoc. replace (z - (length (bits s) + length (concat (map bits (seq (S s) n)))))
        with (z - length (bits s) - length (concat (map bits (seq (S s) n)))) by lia. exact C2.
Qed.

Lemma totalNumBits_fold : forall nbits (bits : nat -> list bool) n s acc,
  (forall i, s <= i < s + n -> nth_error nbits i = Some (length (bits i))) ->
  foldM (fun acc level => n <- vget nbits level ;; Ok (acc + n)) (seq s n) acc
  = Ok (acc + length (concat (map bits (seq s n)))).
Proof.
  induction n as [|n IH]; intros s acc H.
  - simpl. f_equal. lia.
  - cbn [seq foldM map concat]. unfold vget at 1. rewrite H by lia. cbn [bind].
    rewrite IH by (intros; apply H; lia). rewrite app_length. f_equal. lia.
Qed.

Lemma bv_make_spec : forall e per_level nbits (bits : nat -> list bool) s en,
  strict_mem e = false ->
  let en' := if en =? 0 then length per_level else en in
  (forall i, s <= i < en' -> i < length per_level /\ nth_error nbits i = Some (length (bits i)) /\
     lrepr (nth i per_level []) (bits i)) ->
  let l := concat (map bits (seq s (en' - s))) in
  if fits32 (N.of_nat (length l)) then exists b, bv_make e per_level nbits s en = Ok b /\ repr b l
  else bv_make e per_level nbits s en = Fail PosOverflow.
Proof.
  intros e per_level nbits bits s en He en' Hr l. unfold bv_make. fold en'.
  unfold totalNumBits. rewrite (totalNumBits_fold nbits bits) by (intros; apply Hr; lia). cbn [bind].
  fold l. rewrite Nat.add_0_l. destruct (fits32 (N.of_nat (length l))); [|reflexivity]. cbn [bind].
  pose proof (num_words_bounds (length l)) as HB.
  destruct (concat_levels_spec e per_level nbits bits (en' - s) s
              (repeat 0%N (num_words (length l))) 0 0 [] (64 * num_words (length l)))
    as (ws' & sh' & wid' & E & L & C); auto; try lia.
  - intros. apply Hr. lia.
  - split; [|split; [|split]]; auto; try lia.
    + apply Forall_forall. intros x Hx. apply repeat_spec in Hx. subst. reflexivity.
    + rewrite bits_of_repeat0. reflexivity.
  - fold l. lia.
  - unfold concatenateBitvectors. rewrite E. cbn [bind]. eexists. split; [reflexivity|].
    fold l in C. destruct C as (O & B & A & S). rewrite repeat_length in L.
    split; [|split; [|split]]; auto; cbn [bv_nbits bv_words]; auto.
    rewrite B, L. reflexivity.
Qed.
