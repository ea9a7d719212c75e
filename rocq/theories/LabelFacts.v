(** The label searches of include/label_vector.hpp. *)
From Coq Require Import Arith List NArith ZArith Bool Lia ZifyN ZifyNat ZifyBool.
From Verif Require Import Res Word Config BitFacts LabelVector.
Import ListNotations.

(** first position in [s, s + n) that satisfies [p] *)
Fixpoint ff (p : nat -> bool) (s n : nat) : option nat :=
  match n with O => None | S m => if p s then Some s else ff p (S s) m end.

Lemma ff_some : forall p n s x, ff p s n = Some x <->
  s <= x < s + n /\ p x = true /\ (forall y, s <= y < x -> p y = false).
Proof.
  intros p. induction n as [|n IH]; intros s x; cbn [ff].
  - split; [discriminate|lia].
  - destruct (p s) eqn:E.
    + split.
      * intros H. injection H as <-. split; [lia|]. split; auto. intros; lia.
      * intros (A & B & C). destruct (Nat.eq_dec s x) as [->|N]; auto.
        rewrite C in E by lia. discriminate.
    + rewrite IH. split; intros (A & B & C); (split; [|split; auto]).
      * lia.
      * intros y Hy. destruct (Nat.eq_dec y s) as [->|N]; auto. apply C. lia.
      * assert (x <> s) by congruence. lia.
      * intros y Hy. apply C. lia.
Qed.

Lemma ff_none : forall p n s, ff p s n = None <-> (forall y, s <= y < s + n -> p y = false).
Proof.
  intros p. induction n as [|n IH]; intros s; cbn [ff].
  - split; auto. intros. lia.
  - destruct (p s) eqn:E.
    + split; [discriminate|]. intros H. rewrite H in E by lia. discriminate.
    + rewrite IH. split; intros H y Hy.
      * destruct (Nat.eq_dec y s) as [->|N]; auto. apply H. lia.
      * apply H. lia.
Qed.

Lemma ff_app : forall p m n s, ff p s (m + n) = match ff p s m with Some x => Some x | None => ff p (s + m) n end.
Proof.
  intros p. induction m as [|m IH]; intros n s; cbn [ff Nat.add].
  - rewrite Nat.add_0_r. reflexivity.
  - destruct (p s); auto. rewrite IH. replace (s + S m) with (S s + m) by lia. reflexivity.
Qed.

Lemma ff_ext : forall p q n s, (forall y, s <= y < s + n -> p y = q y) -> ff p s n = ff q s n.
Proof.
  intros p q. induction n as [|n IH]; intros s H; [reflexivity|]. cbn [ff].
  rewrite <- H by lia. rewrite IH by (intros; apply H; lia). reflexivity.
Qed.

Definition res_of (o : option nat) (pos : nat) : bool * nat :=
  match o with Some x => (true, x) | None => (false, pos) end.

Lemma mapM_read : forall (f : nat -> res nat) g xs, (forall x, In x xs -> f x = Ok (g x)) ->
  mapM f xs = Ok (map g xs).
Proof.
  intros f g. induction xs as [|x xs IH]; intros H; [reflexivity|].
  cbn [mapM map]. rewrite H by (left; auto). cbn [bind]. rewrite IH by (intros; apply H; right; auto). reflexivity.
Qed.

(** ** the SIMD comparison mask *)
Lemma mask_ff : forall t (r : nat -> nat) n s,
  match ff (fun x => t =? r x) s n with
  | None => simd_mask (map r (seq s n)) t = 0%N
  | Some x => simd_mask (map r (seq s n)) t <> 0%N /\ s + ctz (simd_mask (map r (seq s n)) t) = x
  end.
Proof.
  intros t r. induction n as [|n IH]; intros s; cbn [ff seq map simd_mask]; [reflexivity|].
  rewrite (Nat.eqb_sym (r s) t). destruct (t =? r s).
  - destruct (simd_mask (map r (seq (S s) n)) t) as [|p]; split; try discriminate; cbn; lia.
  - specialize (IH (S s)). destruct (ff _ (S s) n) as [x|].
    + destruct IH as [A B]. destruct (simd_mask (map r (seq (S s) n)) t) as [|p]; [congruence|].
      split; [discriminate|]. cbn [N.mul N.add ctz ctz_pos] in *. cbn [N.mul N.add ctz ctz_pos Pos.mul]. lia.
    + rewrite IH. reflexivity.
Qed.

Lemma mask_firstn : forall t k bs, N.land (simd_mask bs t) (N.shiftl 1 (N.of_nat k) - 1) = simd_mask (firstn k bs) t.
Proof.
  intros t k bs. rewrite N.shiftl_1_l, N.sub_1_r, <- N.ones_equiv, N.land_ones.
  revert bs. induction k as [|k IH]; intros bs.
  - cbn [firstn simd_mask]. rewrite N.mod_1_r. reflexivity.
  - destruct bs as [|b bs]; cbn [firstn simd_mask].
    + apply N.mod_0_l. apply N.pow_nonzero. lia.
    + rewrite <- IH. rewrite Nat2N.inj_succ, N.pow_succ_r'.
      rewrite N.mod_mul_r; [|lia|apply N.pow_nonzero; lia].
      set (d := if b =? t then 1%N else 0%N). assert (D : (d <= 1)%N) by (unfold d; destruct (b =? t); lia).
      replace ((d + 2 * simd_mask bs t) mod 2)%N with d.
      * f_equal. f_equal. f_equal. replace (d + 2 * simd_mask bs t)%N with (simd_mask bs t * 2 + d)%N by lia.
        rewrite N.div_add_l by lia. rewrite N.div_small by lia. lia.
      * replace (d + 2 * simd_mask bs t)%N with (d + simd_mask bs t * 2)%N by lia.
        rewrite N.mod_add by lia. rewrite N.mod_small by lia. reflexivity.
Qed.

Section Search.
Variables (e : env) (lv : labelvec) (r : nat -> nat) (M : nat).
Hypothesis HR : forall i, i < M -> lv_read e lv i = Ok (r i).

Definition incr (s n : nat) : Prop := forall x y, s <= x -> x < y -> y < s + n -> r x < r y.

Lemma linear_spec : forall t pos n i, pos + i + n <= M ->
  linear_loop e lv t pos i n = Ok (res_of (ff (fun x => t =? r x) (pos + i) n) pos).
Proof.
  intros t pos. induction n as [|n IH]; intros i H; cbn [linear_loop ff]; [reflexivity|].
  rewrite HR by lia. cbn [bind]. destruct (t =? r (pos + i)); [reflexivity|].
  rewrite IH by lia. replace (pos + S i) with (S (pos + i)) by lia. reflexivity.
Qed.

Lemma linear_gt_spec : forall t pos n i, pos + i + n <= M ->
  linear_gt_loop e lv t pos i n = Ok (res_of (ff (fun x => t <? r x) (pos + i) n) pos).
Proof.
  intros t pos. induction n as [|n IH]; intros i H; cbn [linear_gt_loop ff]; [reflexivity|].
  rewrite HR by lia. cbn [bind]. destruct (t <? r (pos + i)); [reflexivity|].
  rewrite IH by lia. replace (pos + S i) with (S (pos + i)) by lia. reflexivity.
Qed.

Lemma mid : forall l h, l < h -> l <= (l + h) / 2 < h.
Proof.
  intros l h H. pose proof (Nat.div_mod (l + h) 2 ltac:(lia)). pose proof (Nat.mod_upper_bound (l + h) 2 ltac:(lia)). lia.
Qed.

Lemma binary_spec : forall t pos n, pos + n <= M -> incr pos n -> forall fuel l h, h < l + fuel ->
  pos <= l -> l <= h -> h <= pos + n ->
  (forall y, pos <= y < l -> r y < t) -> (forall y, h <= y < pos + n -> t < r y) ->
  binary_loop e fuel lv t pos l h = Ok (res_of (ff (fun x => t =? r x) pos n) pos).
Proof.
  intros t pos n HM HI. induction fuel as [|f IH]; intros l h Hf H1 H2 H3 HL HH; cbn [binary_loop].
  { replace (l <? h) with false by lia. lia. }
  destruct (Nat.ltb_spec l h) as [L|L].
  - pose proof (mid l h L) as HMid. set (m := (l + h) / 2) in *. rewrite HR by lia. cbn [bind].
    destruct (Nat.ltb_spec t (r m)) as [A|A].
    + apply IH; auto; try lia. intros y Hy. destruct (Nat.eq_dec y m) as [->|N]; auto.
      pose proof (HI m y ltac:(lia) ltac:(lia) ltac:(lia)). lia.
    + destruct (Nat.eqb_spec t (r m)) as [B|B].
      * replace (ff (fun x => t =? r x) pos n) with (Some m); [reflexivity|]. symmetry. apply ff_some.
        split; [lia|]. split; [lia|]. intros y Hy. pose proof (HI y m ltac:(lia) ltac:(lia) ltac:(lia)). lia.
      * apply IH; auto; try lia. intros y Hy. destruct (Nat.eq_dec y m) as [->|N]; [lia|].
        pose proof (HI y m ltac:(lia) ltac:(lia) ltac:(lia)). lia.
  - replace (ff (fun x => t =? r x) pos n) with (@None nat); [reflexivity|]. symmetry. apply ff_none.
    intros y Hy. destruct (lt_dec y l) as [G|G]; [specialize (HL y)|specialize (HH y)]; lia.
Qed.

Lemma binary_gt_spec : forall t pos n, pos + n <= M -> 1 <= n -> incr pos n -> forall fuel l h, h < l + fuel ->
  pos <= l -> l <= h -> h <= pos + n ->
  (forall y, pos <= y < l -> r y < t) -> (forall y, h <= y < pos + n -> t < r y) ->
  binary_gt_loop e fuel lv t pos n l h = Ok (res_of (ff (fun x => t <? r x) pos n) pos).
Proof.
  intros t pos n HM Hn HI. induction fuel as [|f IH]; intros l h Hf H1 H2 H3 HL HH; cbn [binary_gt_loop].
  { replace (l <? h) with false by lia. lia. }
  destruct (Nat.ltb_spec l h) as [L|L].
  - pose proof (mid l h L) as HMid. set (m := (l + h) / 2) in *. rewrite HR by lia. cbn [bind].
    destruct (Nat.ltb_spec t (r m)) as [A|A].
    + apply IH; auto; try lia. intros y Hy. destruct (Nat.eq_dec y m) as [->|N]; auto.
      pose proof (HI m y ltac:(lia) ltac:(lia) ltac:(lia)). lia.
    + destruct (Nat.eqb_spec t (r m)) as [B|B].
      * destruct (Nat.ltb_spec m (pos + n - 1)) as [C|C].
        -- replace (ff (fun x => t <? r x) pos n) with (Some (S m)); [reflexivity|]. symmetry. apply ff_some.
           split; [lia|]. split; [pose proof (HI m (S m) ltac:(lia) ltac:(lia) ltac:(lia)); lia|].
           intros y Hy. destruct (Nat.eq_dec y m) as [->|N]; [lia|].
           pose proof (HI y m ltac:(lia) ltac:(lia) ltac:(lia)). lia.
        -- replace (ff (fun x => t <? r x) pos n) with (@None nat); [reflexivity|]. symmetry. apply ff_none.
           intros y Hy. destruct (Nat.eq_dec y m) as [->|N]; [lia|].
           pose proof (HI y m ltac:(lia) ltac:(lia) ltac:(lia)). lia.
      * apply IH; auto; try lia. intros y Hy. destruct (Nat.eq_dec y m) as [->|N]; [lia|].
        pose proof (HI y m ltac:(lia) ltac:(lia) ltac:(lia)). lia.
  - destruct (Nat.ltb_spec l (pos + n)) as [C|C].
    + replace (ff (fun x => t <? r x) pos n) with (Some l); [reflexivity|]. symmetry. apply ff_some.
      split; [lia|]. split; [specialize (HH l); lia|]. intros y Hy. specialize (HL y). lia.
    + replace (ff (fun x => t <? r x) pos n) with (@None nat); [reflexivity|]. symmetry. apply ff_none.
      intros y Hy. specialize (HL y). lia.
Qed.

Lemma simd_cmp_spec : forall t s, s + 16 <= M -> simd_cmp e lv t s = Ok (simd_mask (map r (seq s 16)) t).
Proof.
  intros t s H. unfold simd_cmp. rewrite (mapM_read _ r).
  - reflexivity.
  - intros x Hx. apply in_seq in Hx. apply HR. lia.
Qed.

Lemma simd_spec : forall t pos fuel sd left, left < fuel -> pos + sd + left + 15 <= M ->
  simd_loop e fuel lv t pos sd left = Ok (res_of (ff (fun x => t =? r x) (pos + sd) left) pos).
Proof.
  intros t pos. induction fuel as [|f IH]; intros sd left Hf HM; [lia|]. cbn [simd_loop].
  pose proof (Nat.div_mod left 16 ltac:(lia)) as HD. pose proof (Nat.mod_upper_bound left 16 ltac:(lia)) as HB.
  destruct (Nat.ltb_spec 0 (left / 16)) as [G|G].
  - rewrite simd_cmp_spec by lia. cbn [bind].
    replace left with (16 + (left - 16)) at 2 by lia. rewrite ff_app.
    pose proof (mask_ff t r 16 (pos + sd)) as MF. destruct (ff _ (pos + sd) 16) as [x|].
    + destruct MF as [A B]. destruct (N.eqb_spec (simd_mask (map r (seq (pos + sd) 16)) t) 0) as [Z|Z]; [contradiction|].
      cbn [res_of]. f_equal. f_equal. lia.
    + rewrite MF. cbn [N.eqb]. rewrite IH by lia. replace (pos + (sd + 16)) with (pos + sd + 16) by lia. reflexivity.
  - destruct (Nat.ltb_spec 0 left) as [G2|G2].
    + rewrite simd_cmp_spec by lia. cbn [bind]. cbv zeta. rewrite mask_firstn.
      assert (F : firstn left (map r (seq (pos + sd) 16)) = map r (seq (pos + sd) left)).
      { replace 16 with (left + (16 - left)) at 1 by lia. rewrite seq_app, map_app, firstn_app.
        rewrite map_length, seq_length, Nat.sub_diag, firstn_O, app_nil_r, firstn_all2; auto.
        rewrite map_length, seq_length. lia. }
      rewrite F. pose proof (mask_ff t r left (pos + sd)) as MF. destruct (ff _ (pos + sd) left) as [x|].
      * destruct MF as [A B]. destruct (N.eqb_spec (simd_mask (map r (seq (pos + sd) left)) t) 0) as [Z|Z]; [contradiction|].
        cbn [res_of]. f_equal. f_equal. lia.
      * rewrite MF. reflexivity.
    + assert (left = 0) by lia. subst left. reflexivity.
Qed.

Definition skips (pos n : nat) : bool := (1 <? n) && (r pos =? 255).

(** search: the window after the terminator must be sorted if it is short
    enough for binary search *)
Theorem lv_search_spec : forall t pos n, pos + n + 15 <= M ->
  let p := if skips pos n then S pos else pos in
  let m := if skips pos n then n - 1 else n in
  (m < 12 -> incr p m) ->
  lv_search e lv t pos n = Ok (res_of (ff (fun x => t =? r x) p m) p).
Proof.
  intros t pos n HM p m HI. unfold lv_search.
  assert (E : (if 1 <? n then l <- lv_read e lv pos ;; Ok (l =? kTerminator) else Ok false) = Ok (skips pos n)).
  { unfold skips. destruct (Nat.ltb_spec 1 n); [|reflexivity]. rewrite HR by lia. reflexivity. }
  rewrite E. cbn [bind]. cbv zeta. fold p. fold m.
  assert (PM : p + m = pos + n \/ (m = n /\ p = pos)) by (unfold p, m, skips; destruct (1 <? n) eqn:E1; destruct (r pos =? 255); cbn [andb]; lia).
  destruct (Nat.ltb_spec m 3) as [A|A].
  - unfold linearSearch. rewrite linear_spec by lia. rewrite Nat.add_0_r. reflexivity.
  - destruct (Nat.ltb_spec m 12) as [B|B].
    + unfold binarySearch. apply binary_spec; auto; lia.
    + unfold simdSearch. rewrite simd_spec by lia. rewrite Nat.add_0_r. reflexivity.
Qed.

Theorem lv_searchGreaterThan_spec : forall t pos n, pos + n <= M ->
  let p := if skips pos n then S pos else pos in
  let m := if skips pos n then n - 1 else n in
  incr p m ->
  lv_searchGreaterThan e lv t pos n = Ok (res_of (ff (fun x => t <? r x) p m) p).
Proof.
  intros t pos n HM p m HI. unfold lv_searchGreaterThan.
  assert (E : (if 1 <? n then l <- lv_read e lv pos ;; Ok (l =? kTerminator) else Ok false) = Ok (skips pos n)).
  { unfold skips. destruct (Nat.ltb_spec 1 n); [|reflexivity]. rewrite HR by lia. reflexivity. }
  rewrite E. cbn [bind]. cbv zeta. fold p. fold m.
  assert (PM : p + m = pos + n \/ (m = n /\ p = pos)) by (unfold p, m, skips; destruct (1 <? n) eqn:E1; destruct (r pos =? 255); cbn [andb]; lia).
  destruct (Nat.ltb_spec m 3) as [A|A].
  - unfold linearSearchGreaterThan. rewrite linear_gt_spec by lia. rewrite Nat.add_0_r. reflexivity.
  - unfold binarySearchGreaterThan. apply binary_gt_spec; auto; lia.
Qed.
End Search.
