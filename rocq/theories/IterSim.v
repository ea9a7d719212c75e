(** What an iterator holds beyond its current key, and flags left over from
    earlier calls, has no influence on a seek. *)
From Coq Require Import Arith List NArith ZArith Bool Lia.
From Verif Require Import Res Word Config Bitvector Rank Select LabelVector Suffix Builder Dense Sparse Surf.
Import ListNotations.

Inductive rres {A B : Type} (R : A -> B -> Prop) : res A -> res B -> Prop :=
| rr_ok : forall a b, R a b -> rres R (Ok a) (Ok b)
| rr_fail : forall x, rres R (Fail x) (Fail x).

Lemma rres_bind : forall A B A' B' (R : A -> A' -> Prop) (S : B -> B' -> Prop) x y f g,
  rres R x y -> (forall a b, R a b -> rres S (f a) (g b)) -> rres S (bind x f) (bind y g).
Proof. intros A B A' B' R S x y f g H HF. destruct H; cbn [bind]; [auto|constructor]. Qed.

Lemma same_bind : forall A B B' (S : B -> B' -> Prop) (x : res A) f g,
  (forall a, rres S (f a) (g a)) -> rres S (bind x f) (bind x g).
Proof. intros A B B' S [a|x] f g HF; cbn [bind]; [auto|constructor]. Qed.

Lemma rres_impl : forall A B (R S : A -> B -> Prop) x y, (forall a b, R a b -> S a b) -> rres R x y -> rres S x y.
Proof. intros A B R S x y H HR. destruct HR; constructor; auto. Qed.

Definition agree (sz n : nat) (k k' : list nat) : Prop :=
  length k = sz /\ length k' = sz /\ forall m, m < n -> nth_error k m = nth_error k' m.

Lemma agree_le : forall sz n m k k', m <= n -> agree sz n k k' -> agree sz m k k'.
Proof. intros sz n m k k' L (A & B & C). split; auto. split; auto. intros x Hx. apply C. lia. Qed.

Lemma agree_vget : forall sz n k k' m, agree sz n k k' -> m < n -> vget k m = vget k' m.
Proof. intros sz n k k' m (A & B & C) H. unfold vget. rewrite C by auto. reflexivity. Qed.

Lemma agree_firstn : forall sz n k k' m, agree sz n k k' -> m <= n -> firstn m k = firstn m k'.
Proof.
  intros sz n k k' m (A & B & C) H.
  assert (G : forall (k k' : list nat) m, (forall x, x < m -> nth_error k x = nth_error k' x) -> firstn m k = firstn m k').
  { clear. induction k as [|a k IH]; intros [|b k'] [|m] H; cbn [firstn]; auto.
    - specialize (H 0 ltac:(lia)). discriminate.
    - specialize (H 0 ltac:(lia)). discriminate.
    - pose proof (H 0 ltac:(lia)) as H0. injection H0 as ->. f_equal. apply IH. intros x Hx. apply (H (S x)). lia. }
  apply G. intros x Hx. apply C. lia.
Qed.

Lemma lset_len : forall (l : list nat) i x, length (lset l i x) = length l.
Proof. induction l as [|a l IH]; intros [|i] x; cbn; auto. Qed.

Lemma lset_nth : forall (l : list nat) i x m, i < length l ->
  nth_error (lset l i x) m = if m =? i then Some x else nth_error l m.
Proof.
  induction l as [|a l IH]; intros [|i] x [|m] H; cbn in *; try lia; auto. apply IH. lia.
Qed.

Lemma agree_vset : forall sz n k k' i x, agree sz n k k' -> i <= n ->
  rres (agree sz (Nat.max n (S i))) (vset k i x) (vset k' i x).
Proof.
  intros sz n k k' i x (A & B & C) H. unfold vset. rewrite A, B.
  destruct (Nat.ltb_spec i sz) as [L|L]; [|constructor]. constructor.
  split; [rewrite lset_len; auto|]. split; [rewrite lset_len; auto|]. intros m Hm.
  rewrite !lset_nth by lia. destruct (Nat.eqb_spec m i); auto. apply C. lia.
Qed.

(** ** dense *)
Definition dsim (n : nat) (a b : diter) : Prop :=
  di_valid a = di_valid b /\ di_len a = di_len b /\ di_atprefix a = di_atprefix b /\
  agree n (di_len a) (di_key a) (di_key b) /\ agree n (di_len a) (di_pos a) (di_pos b).

(** after a seek the flags agree as well *)
Definition dpost (n : nat) (a b : diter) : Prop :=
  dsim n a b /\ (di_valid a = true -> di_search a = di_search b /\ di_left a = di_left b /\ di_right a = di_right b /\
    (di_complete a = false -> di_send a = di_send b)).

Ltac dc := unfold di_setFlags, di_setSend, di_setPrefix, di_setLen, di_setKP, di_setValid, diter_clear in *;
  cbn [di_valid di_search di_left di_right di_send di_len di_key di_pos di_atprefix] in *.

Ltac dsolve := repeat match goal with H : dsim _ _ _ |- _ => destruct H as (? & ? & ? & ? & ?) end;
  unfold dpost, dsim; dc; repeat split; auto; try congruence.

Lemma sim_di_setLen : forall n a b m, dsim n a b -> m <= di_len a -> dsim n (di_setLen a m) (di_setLen b m).
Proof.
  intros n a b m (A & B & C & D & E) H. unfold dsim. dc. repeat split; auto; try (apply D); try (apply E);
  intros x Hx; [apply D|apply E]; lia.
Qed.

Lemma sim_di_setPrefix : forall n a b x, dsim n a b -> dsim n (di_setPrefix a x) (di_setPrefix b x).
Proof. intros n a b m (A & B & C & D & E). unfold dsim. dc. auto 10. Qed.

Lemma sim_di_setFlags : forall n a b v s l r, dsim n a b -> (s && (l && r) = false -> di_send a = di_send b) ->
  dpost n (di_setFlags a v s l r) (di_setFlags b v s l r).
Proof.
  intros n a b v s l r (A & B & C & D & E) HS. unfold dpost, dsim, di_complete. dc. split; auto 10.
Qed.

Lemma sim_di_setSend : forall n a b m, dsim n a b -> dsim n (di_setSend a m) (di_setSend b m).
Proof. intros n a b m (A & B & C & D & E). unfold dsim. dc. auto 10. Qed.

Lemma sim_di_set : forall n e a b l p, dsim n a b -> l < di_len a -> rres (dsim n) (di_set e a l p) (di_set e b l p).
Proof.
  intros n e a b l p (A & B & C & D & E) H. unfold di_set.
  replace (length (di_key b)) with (length (di_key a)) by (destruct D as (D1 & D2 & _); congruence).
  apply same_bind. intros _.
  apply (rres_bind _ _ _ _ (agree n (Nat.max (di_len a) (S l)))); [apply agree_vset; auto; lia|].
  intros k k' HK. apply (rres_bind _ _ _ _ (agree n (Nat.max (di_len a) (S l)))); [apply agree_vset; auto; lia|].
  intros p0 p' HP. constructor. unfold dsim. dc. replace (Nat.max (di_len a) (S l)) with (di_len a) in * by lia. auto 10.
Qed.

Lemma sim_di_append : forall n e a b p, dsim n a b -> rres (dsim n) (di_append e a p) (di_append e b p).
Proof.
  intros n e a b p (A & B & C & D & E). unfold di_append, di_set. rewrite <- B.
  replace (length (di_key b)) with (length (di_key a)) by (destruct D as (D1 & D2 & _); congruence).
  destruct (massert e (di_len a <? length (di_key a))); cbn [bind]; [|constructor].
  pose proof (agree_vset n (di_len a) _ _ (di_len a) (p mod kNodeFanout) D (le_n _)) as HK.
  destruct HK as [k k' HK|]; cbn [bind]; [|constructor].
  pose proof (agree_vset n (di_len a) _ _ (di_len a) p E (le_n _)) as HP.
  destruct HP as [q q' HP|]; cbn [bind]; [|constructor].
  constructor. unfold dsim. dc. replace (Nat.max (di_len a) (S (di_len a))) with (S (di_len a)) in * by lia. auto 10.
Qed.

Lemma sim_left_loop : forall e d n m a b p, dsim n a b -> rres (dpost n) (di_left_loop e d m a p) (di_left_loop e d m b p).
Proof.
  intros e d n. induction m as [|m IH]; intros a b p H; cbn [di_left_loop].
  - apply same_bind. intros c. constructor. apply sim_di_setFlags; [apply sim_di_setSend; auto|]. dc. auto.
  - apply same_bind. intros c. apply same_bind. intros pr. destruct pr.
    + apply same_bind. intros np. eapply rres_bind; [apply sim_di_append; eauto|]. intros a1 b1 H1.
      constructor. apply sim_di_setFlags; [apply sim_di_setPrefix; auto|discriminate].
    + apply same_bind. intros np. eapply rres_bind; [apply sim_di_append; eauto|]. intros a1 b1 H1.
      apply same_bind. intros ch. destruct ch; cbn [negb]; [apply IH; auto|].
      constructor. apply sim_di_setFlags; [auto|discriminate].
Qed.

Lemma sim_leftmost : forall e d n a b, dsim n a b -> rres (dpost n) (di_moveToLeftMostKey e d a) (di_moveToLeftMostKey e d b).
Proof.
  intros e d n a b H. pose proof H as (A & B & C & D & E). unfold di_moveToLeftMostKey. rewrite <- B.
  apply same_bind. intros _. destruct (di_len a) as [|l] eqn:EL; cbn [pred_idx bind]; [constructor|].
  rewrite <- (agree_vget _ _ _ _ l E) by lia. apply same_bind. intros p. apply same_bind. intros c. destruct c; cbn [negb].
  - apply sim_left_loop. auto.
  - constructor. apply sim_di_setFlags; auto. discriminate.
Qed.

Lemma sim_next_loop : forall e d n l a b, dsim n a b -> l <= di_len a -> rres (dpost n) (di_next_loop e d a l) (di_next_loop e d b l).
Proof.
  intros e d n. induction l as [|l IH]; intros a b H L; cbn [di_next_loop].
  - constructor. split; [|dc; discriminate]. pose proof (sim_di_setLen n a b 0 H L) as (A & B & C & D & E). unfold dsim. dc. auto 10.
  - pose proof H as (A & B & C & D & E). rewrite <- (agree_vget _ _ _ _ l E) by lia.
    apply same_bind. intros p. apply same_bind. intros np. destruct (_ <? _).
    + apply IH; auto. lia.
    + eapply rres_bind; [apply (sim_di_set n e (di_setLen a (S l)) (di_setLen b (S l)) l np)|].
      * apply sim_di_setLen; auto.
      * dc. lia.
      * intros a1 b1 H1. apply sim_leftmost. auto.
Qed.

Lemma sim_di_next : forall e d n a b, dsim n a b -> rres (dpost n) (di_next e d a) (di_next e d b).
Proof.
  intros e d n a b H. pose proof H as (A & B & C & D & E). unfold di_next. rewrite <- B, <- C.
  apply same_bind. intros _. destruct (di_atprefix a).
  - apply sim_leftmost. apply sim_di_setPrefix. auto.
  - apply same_bind. intros _. apply sim_next_loop; auto.
Qed.

Definition bpost (n : nat) (x y : bool * diter) : Prop := fst x = fst y /\ dpost n (snd x) (snd y).

Lemma sim_d_suffix : forall e d n p k l a b, dsim n a b ->
  rres (bpost n) (d_compareSuffixGreaterThan e d p k l a) (d_compareSuffixGreaterThan e d p k l b).
Proof.
  intros e d n p k l a b H. unfold d_compareSuffixGreaterThan. apply same_bind. intros sp. apply same_bind. intros c.
  destruct (_ && _).
  - eapply rres_bind; [apply sim_di_next; eauto|]. intros x y HR. constructor. split; auto.
  - constructor. split; auto. apply sim_di_setFlags; auto. discriminate.
Qed.

Lemma sim_d_gt_loop : forall e d k n m l nd a b, dsim n a b -> rres (bpost n) (d_gt_loop e d k m l nd a) (d_gt_loop e d k m l nd b).
Proof.
  intros e d k n. induction m as [|m IH]; intros l nd a b H; cbn [d_gt_loop].
  - constructor. split; auto. apply sim_di_setFlags; [apply sim_di_setSend; auto|]. dc. auto.
  - destruct (nth_error k l) as [c|].
    + eapply rres_bind; [apply sim_di_append; eauto|]. intros a1 b1 H1. apply same_bind. intros lb. destruct lb; cbn [negb].
      * apply same_bind. intros ch. destruct ch; cbn [negb].
        -- apply same_bind. intros nn. apply IH. auto.
        -- apply sim_d_suffix. auto.
      * eapply rres_bind; [apply sim_di_next; eauto|]. intros x y HR. constructor. split; auto.
    + apply same_bind. intros np. eapply rres_bind; [apply sim_di_append; eauto|]. intros a1 b1 H1.
      apply same_bind. intros pr. apply (rres_bind _ _ _ _ (dsim n)).
      * destruct pr; [constructor; apply sim_di_setPrefix; auto|]. eapply rres_impl; [|apply sim_leftmost; eauto]. intros x y HR. apply HR.
      * intros x y HR. constructor. split; auto. apply sim_di_setFlags; [auto|discriminate].
Qed.

(** ** sparse *)
Definition ssim (n : nat) (a b : siter) : Prop :=
  si_valid a = si_valid b /\ si_start a = si_start b /\ si_len a = si_len b /\ si_atterm a = si_atterm b /\
  agree n (si_len a) (si_key a) (si_key b) /\ agree n (si_len a) (si_pos a) (si_pos b).

Ltac sc := unfold si_setValid, si_setStart, si_setLen, si_setKP, si_setTerm, siter_clear in *;
  cbn [si_valid si_start si_len si_key si_pos si_atterm] in *.

Lemma sim_si_setLen : forall n a b m, ssim n a b -> m <= si_len a -> ssim n (si_setLen a m) (si_setLen b m).
Proof.
  intros n a b m (A & B & C & D & E & F) H. unfold ssim. sc. repeat split; auto; try (apply E); try (apply F);
  intros x Hx; [apply E|apply F]; lia.
Qed.
Lemma sim_si_setTerm : forall n a b m, ssim n a b -> ssim n (si_setTerm a m) (si_setTerm b m).
Proof. intros n a b m (A & B & C & D & E & F). unfold ssim. sc. auto 10. Qed.
Lemma sim_si_setValid : forall n a b m, ssim n a b -> ssim n (si_setValid a m) (si_setValid b m).
Proof. intros n a b m (A & B & C & D & E & F). unfold ssim. sc. auto 10. Qed.

Lemma sim_si_appendL : forall n e a b l p, ssim n a b -> rres (ssim n) (si_appendL e a l p) (si_appendL e b l p).
Proof.
  intros n e a b l p (A & B & C & D & E & F). unfold si_appendL. rewrite <- C.
  replace (length (si_key b)) with (length (si_key a)) by (destruct E as (D1 & D2 & _); congruence).
  destruct (massert e (si_len a <? length (si_key a))); cbn [bind]; [|constructor].
  pose proof (agree_vset n (si_len a) _ _ (si_len a) l E (le_n _)) as HK.
  destruct HK as [k k' HK|]; cbn [bind]; [|constructor].
  pose proof (agree_vset n (si_len a) _ _ (si_len a) p F (le_n _)) as HP.
  destruct HP as [q q' HP|]; cbn [bind]; [|constructor].
  constructor. unfold ssim. sc. replace (Nat.max (si_len a) (S (si_len a))) with (S (si_len a)) in * by lia. auto 10.
Qed.
Lemma sim_si_append : forall n e s a b p, ssim n a b -> rres (ssim n) (si_append e s a p) (si_append e s b p).
Proof. intros n e s a b p H. unfold si_append. apply same_bind. intros l. apply sim_si_appendL. auto. Qed.

Lemma sim_si_set : forall n e s a b l p, ssim n a b -> l < si_len a -> rres (ssim n) (si_set e s a l p) (si_set e s b l p).
Proof.
  intros n e s a b l p (A & B & C & D & E & F) H. unfold si_set.
  replace (length (si_key b)) with (length (si_key a)) by (destruct E as (D1 & D2 & _); congruence).
  apply same_bind. intros _. apply same_bind. intros lb.
  apply (rres_bind _ _ _ _ (agree n (Nat.max (si_len a) (S l)))); [apply agree_vset; auto; lia|].
  intros k k' HK. apply (rres_bind _ _ _ _ (agree n (Nat.max (si_len a) (S l)))); [apply agree_vset; auto; lia|].
  intros p0 p' HP. constructor. unfold ssim. sc. replace (Nat.max (si_len a) (S l)) with (si_len a) in * by lia. auto 10.
Qed.

Lemma sim_si_at_leaf : forall n e s a b l p, ssim n a b -> rres (ssim n) (si_at_leaf e s a l p) (si_at_leaf e s b l p).
Proof.
  intros n e s a b l p H. unfold si_at_leaf. apply same_bind. intros t. constructor. apply sim_si_setValid.
  destruct t; auto. apply sim_si_setTerm. auto.
Qed.

Lemma sim_si_left_loop : forall n e s m a b p, ssim n a b -> rres (ssim n) (si_left_loop e s m a p) (si_left_loop e s m b p).
Proof.
  intros n e s. induction m as [|m IH]; intros a b p H; cbn [si_left_loop].
  - apply same_bind. intros _. constructor. auto.
  - repeat (apply same_bind; intros ?). eapply rres_bind; [apply sim_si_appendL; eauto|]. intros x1 y1 H1.
    destruct (negb _); [apply sim_si_at_leaf|apply IH]; auto.
Qed.

Lemma sim_si_leftmost : forall n e s a b, ssim n a b -> rres (ssim n) (si_moveToLeftMostKey e s a) (si_moveToLeftMostKey e s b).
Proof.
  intros n e s a b H. unfold si_moveToLeftMostKey. apply (rres_bind _ _ _ _ (ssim n)).
  - pose proof H as (A & B & C & D & E & F). rewrite <- C, <- B. destruct (si_len a =? 0); [|constructor; auto].
    repeat (apply same_bind; intros ?). apply sim_si_appendL. auto.
  - intros a1 b1 H1. pose proof H1 as (A & B & C & D & E & F). rewrite <- C.
    destruct (si_len a1) as [|l] eqn:EL; cbn [pred_idx bind]; [constructor|].
    rewrite <- (agree_vget _ _ _ _ l F) by lia. repeat (apply same_bind; intros ?).
    destruct (negb _); [apply sim_si_at_leaf|apply sim_si_left_loop]; auto.
Qed.

Lemma sim_si_next_loop : forall n e s l a b, ssim n a b -> l <= si_len a -> rres (ssim n) (si_next_loop e s a l) (si_next_loop e s b l).
Proof.
  intros n e s. induction l as [|l IH]; intros a b H L; cbn [si_next_loop].
  - constructor. apply sim_si_setValid. apply sim_si_setLen; auto.
  - pose proof H as (A & B & C & D & E & F). rewrite <- (agree_vget _ _ _ _ l F) by lia.
    apply same_bind. intros p. apply same_bind. intros up. destruct up.
    + apply IH; auto. lia.
    + eapply rres_bind; [apply (sim_si_set n e s (si_setLen a (S l)) (si_setLen b (S l)) l (S p))|].
      * apply sim_si_setLen; auto.
      * sc. lia.
      * intros a1 b1 H1. apply sim_si_leftmost. auto.
Qed.

Lemma sim_si_next : forall n e s a b, ssim n a b -> rres (ssim n) (si_next e s a) (si_next e s b).
Proof.
  intros n e s a b H. pose proof H as (A & B & C & D & E & F). unfold si_next. rewrite <- C.
  apply same_bind. intros _. apply same_bind. intros _. apply sim_si_next_loop; [apply sim_si_setTerm; auto|auto].
Qed.

Definition bssim (n : nat) (x y : bool * siter) : Prop := fst x = fst y /\ ssim n (snd x) (snd y).

Lemma sim_s_subtrie : forall n e s p m l a b, ssim n a b ->
  rres (ssim n) (s_moveToLeftInNextSubtrie e s p m l a) (s_moveToLeftInNextSubtrie e s p m l b).
Proof.
  intros n e s p m l a b H. unfold s_moveToLeftInNextSubtrie. apply same_bind. intros [found p']. destruct found; cbn [negb].
  - eapply rres_bind; [apply sim_si_append; eauto|]. intros a1 b1 H1. apply sim_si_leftmost. auto.
  - apply same_bind. intros p2. eapply rres_bind; [apply sim_si_append; eauto|]. intros a1 b1 H1. apply sim_si_next. auto.
Qed.

Lemma sim_s_suffix : forall e s n p k l a b, ssim n a b ->
  rres (bssim n) (s_compareSuffixGreaterThan e s p k l a) (s_compareSuffixGreaterThan e s p k l b).
Proof.
  intros e s n p k l a b H. unfold s_compareSuffixGreaterThan. apply same_bind. intros sp. apply same_bind. intros c.
  destruct (_ && _).
  - eapply rres_bind; [apply sim_si_next; eauto|]. intros x y HR. constructor. split; auto.
  - constructor. split; auto. apply sim_si_setValid. auto.
Qed.

Lemma sim_s_end : forall e s n incl p a b, ssim n a b -> rres (bssim n) (s_gt_end e s incl p a) (s_gt_end e s incl p b).
Proof.
  intros e s n incl p a b H. unfold s_gt_end. apply same_bind. intros l. apply same_bind. intros t. destruct t.
  - eapply rres_bind; [apply sim_si_appendL; eauto|]. intros a1 b1 H1.
    apply (rres_bind _ _ _ _ (ssim n)).
    + destruct incl; cbn [negb]; [constructor; apply sim_si_setTerm; auto|]. apply sim_si_next. apply sim_si_setTerm. auto.
    + intros x y HR. constructor. split; auto. apply sim_si_setValid. auto.
  - eapply rres_bind; [apply sim_si_leftmost; eauto|]. intros x y HR. constructor. split; auto.
Qed.

Lemma sim_s_gt_loop : forall e s k incl n rest l p a b, ssim n a b ->
  rres (bssim n) (s_gt_loop e s k rest incl l p a) (s_gt_loop e s k rest incl l p b).
Proof.
  intros e s k incl n. induction rest as [|c rest IH]; intros l p a b H; cbn [s_gt_loop].
  - apply sim_s_end. auto.
  - apply same_bind. intros sz. apply same_bind. intros [found p']. destruct found; cbn [negb].
    + eapply rres_bind; [apply sim_si_appendL; eauto|]. intros a1 b1 H1. apply same_bind. intros ch. destruct ch; cbn [negb].
      * repeat (apply same_bind; intros ?). apply IH. auto.
      * apply sim_s_suffix. auto.
    + eapply rres_bind; [apply sim_s_subtrie; eauto|]. intros x y HR. constructor. split; auto.
Qed.

(** ** both *)
Definition isim (n m : nat) (a b : iter) : Prop :=
  dpost n (it_d a) (it_d b) /\ ssim m (it_s a) (it_s b).

(** before a pass to the sparse part its start node may be stale *)
Definition ssim0 (n : nat) (a b : siter) : Prop :=
  si_valid a = si_valid b /\ si_len a = si_len b /\ si_atterm a = si_atterm b /\
  agree n (si_len a) (si_key a) (si_key b) /\ agree n (si_len a) (si_pos a) (si_pos b).
Lemma ssim0_of : forall n a b, ssim n a b -> ssim0 n a b.
Proof. intros n a b (A & B & C & D & E & F). unfold ssim0. auto 10. Qed.

Lemma sim_inc_dense : forall e f n m a b, dpost n (it_d a) (it_d b) -> ssim0 m (it_s a) (it_s b) ->
  rres (fun x y => fst x = fst y /\ dpost n (it_d (snd x)) (it_d (snd y)) /\ ssim0 m (it_s (snd x)) (it_s (snd y)))
    (incrementDenseIter e f a) (incrementDenseIter e f b).
Proof.
  intros e f n m a b (H & HF) HS. pose proof H as (A & _). unfold incrementDenseIter. rewrite <- A.
  destruct (di_valid (it_d a)) eqn:EV; cbn [negb].
  2: { constructor. cbn [fst snd]. split; [reflexivity|]. split; [|exact HS]. split; [exact H|]. rewrite EV. discriminate. }
  eapply rres_bind; [apply sim_di_next; eauto|]. intros x y PX. pose proof PX as (HX & HY).
  pose proof HX as (A1 & _). rewrite <- A1. destruct (di_valid x) eqn:EX; cbn [negb].
  2: { constructor. cbn [fst snd it_setD it_d it_s]. split; [reflexivity|]. split; [exact PX|exact HS]. }
  specialize (HY eq_refl). pose proof HY as (F1 & F2 & F3 & F4). rewrite <- F2.
  destruct (di_left x) eqn:EL.
  - constructor. cbn [fst snd it_setD it_d it_s]. split; [reflexivity|]. split; [exact PX|exact HS].
  - assert (SD : di_send x = di_send y) by (apply F4; unfold di_complete; rewrite EL, andb_false_r; reflexivity).
    eapply rres_bind.
    + apply (sim_si_leftmost m). unfold passToSparse. cbn [it_setD it_d it_s]. rewrite SD.
      destruct HS as (S1 & S2 & S3 & S4 & S5). unfold ssim. sc. auto 10.
    + intros u v HU. constructor. cbn [fst snd passToSparse it_setD it_setS it_d it_s]. split; [reflexivity|]. split; [exact PX|].
      apply ssim0_of. auto.
Qed.

Definition seen (n m : nat) (a b : iter) : Prop := dpost n (it_d a) (it_d b) /\ ssim0 m (it_s a) (it_s b).

Lemma seen_valid : forall n m a b, seen n m a b -> it_valid a = it_valid b.
Proof.
  intros n m a b ((D & F) & S). pose proof D as (A & _). destruct S as (S1 & _). unfold it_valid. rewrite <- A, <- S1.
  destruct (di_valid (it_d a)) eqn:E; auto. destruct (F eq_refl) as (F1 & F2 & F3 & _).
  unfold di_complete. rewrite F1, F2, F3. reflexivity.
Qed.

Lemma seen_complete : forall n m a b, seen n m a b -> di_valid (it_d a) = true -> di_complete (it_d a) = di_complete (it_d b).
Proof.
  intros n m a b ((D & F) & S) V. destruct (F V) as (F1 & F2 & F3 & _). unfold di_complete. rewrite F1, F2, F3. reflexivity.
Qed.

Lemma seen_di_key : forall n m a b, seen n m a b -> di_getKey (it_d a) = di_getKey (it_d b).
Proof.
  intros n m a b ((D & F) & S). destruct D as (A & B & C & D & E). unfold di_getKey. rewrite <- A, <- B, <- C.
  destruct (di_valid (it_d a)); cbn [negb]; auto.
  assert (L : length (di_key (it_d a)) = length (di_key (it_d b))) by (destruct D as (D1 & D2 & _); congruence).
  destruct (di_atprefix (it_d a)).
  - destruct (di_len (it_d a)) as [|l]; cbn [pred_idx bind]; auto. rewrite L, (agree_firstn _ _ _ _ l D) by lia. reflexivity.
  - cbn [bind]. rewrite L, (agree_firstn _ _ _ _ _ D (le_n _)). reflexivity.
Qed.

Lemma seen_di_last : forall n m a b, seen n m a b -> di_lastpos (it_d a) = di_lastpos (it_d b).
Proof.
  intros n m a b ((D & F) & S). destruct D as (A & B & C & D & E). unfold di_lastpos. rewrite <- B.
  destruct (di_len (it_d a)) as [|l]; cbn [pred_idx bind]; auto. apply (agree_vget _ _ _ _ l E). lia.
Qed.

Lemma seen_si_key : forall n m a b, seen n m a b -> si_getKey (it_s a) = si_getKey (it_s b).
Proof.
  intros n m a b (_ & (A & B & C & D & E)). unfold si_getKey. rewrite <- A, <- B, <- C.
  destruct (si_valid (it_s a)); cbn [negb]; auto.
  assert (L : length (si_key (it_s a)) = length (si_key (it_s b))) by (destruct D as (D1 & D2 & _); congruence).
  destruct (si_atterm (it_s a)).
  - destruct (si_len (it_s a)) as [|l]; cbn [pred_idx bind]; auto. rewrite L, (agree_firstn _ _ _ _ l D) by lia. reflexivity.
  - cbn [bind]. rewrite L, (agree_firstn _ _ _ _ _ D (le_n _)). reflexivity.
Qed.

Lemma seen_si_last : forall n m a b, seen n m a b -> si_lastpos (it_s a) = si_lastpos (it_s b).
Proof.
  intros n m a b (_ & (A & B & C & D & E)). unfold si_lastpos. rewrite <- B.
  destruct (si_len (it_s a)) as [|l]; cbn [pred_idx bind]; auto. apply (agree_vget _ _ _ _ l E). lia.
Qed.

Lemma seen_compare : forall e f n m a b k, seen n m a b -> it_valid a = true -> it_compare e f a k = it_compare e f b k.
Proof.
  intros e f n m a b k H V. unfold it_compare. rewrite <- (seen_valid _ _ _ _ H).
  assert (VD : di_valid (it_d a) = true) by (unfold it_valid in V; destruct (di_valid (it_d a)); auto).
  assert (E : di_compare e (sf_dense f) (it_d a) k = di_compare e (sf_dense f) (it_d b) k).
  { unfold di_compare. rewrite <- (seen_complete _ _ _ _ H VD), <- (seen_di_key _ _ _ _ H), <- (seen_di_last _ _ _ _ H).
    destruct H as (((A & B & C & _) & _) & _). rewrite <- B, <- C. reflexivity. }
  rewrite E. rewrite <- (seen_complete _ _ _ _ H VD).
  assert (ES : si_compare e (sf_sparse f) (it_s a) k = si_compare e (sf_sparse f) (it_s b) k).
  { unfold si_compare. rewrite <- (seen_si_key _ _ _ _ H), <- (seen_si_last _ _ _ _ H).
    destruct H as (_ & (A & B & C & _)). rewrite <- B, <- C. reflexivity. }
  rewrite ES. reflexivity.
Qed.

Definition sized_it (n m : nat) (it : iter) : Prop :=
  length (di_key (it_d it)) = n /\ length (di_pos (it_d it)) = n /\ length (si_key (it_s it)) = m /\ length (si_pos (it_s it)) = m.

Theorem lookupRange_sim : forall e f n m a b l li r ri, sized_it n m a -> sized_it n m b ->
  rres (fun x y => fst x = fst y /\ seen n m (snd x) (snd y)) (lookupRange_st e f a l li r ri) (lookupRange_st e f b l li r ri).
Proof.
  intros e f n m a b l li r ri (A1 & A2 & A3 & A4) (B1 & B2 & B3 & B4). unfold lookupRange_st.
  assert (DS : dsim n (it_d (it_clear a)) (it_d (it_clear b))).
  { unfold it_clear, dsim. cbn [it_d]. dc. unfold agree. repeat split; auto; intros; lia. }
  assert (SS : ssim0 m (it_s (it_clear a)) (it_s (it_clear b))).
  { unfold it_clear, ssim0. cbn [it_s]. sc. unfold agree. repeat split; auto; intros; lia. }
  eapply rres_bind; [apply sim_d_gt_loop; eauto|]. intros [fx x] [fy y] (_ & PX). cbn [snd] in PX. pose proof PX as (HX & HY).
  pose proof HX as (V & _). rewrite <- V. destruct (di_valid x) eqn:EV; cbn [negb].
  2: { constructor. cbn [fst snd it_setD it_d it_s]. split; [reflexivity|]. split; [exact PX|exact SS]. }
  specialize (HY eq_refl). pose proof HY as (F1 & F2 & F3 & F4). unfold di_complete. rewrite <- F1, <- F2, <- F3.
  assert (FIN : forall u v, seen n m u v ->
    rres (fun x0 y0 => fst x0 = fst y0 /\ seen n m (snd x0) (snd y0))
      (if negb (it_valid u) then Ok (false, u)
       else c <- it_compare e f u r ;;
            if (c =? kCouldBePositive)%Z then Ok (true, u) else if ri : bool then Ok ((c <=? 0)%Z, u) else Ok ((c <? 0)%Z, u))
      (if negb (it_valid v) then Ok (false, v)
       else c <- it_compare e f v r ;;
            if (c =? kCouldBePositive)%Z then Ok (true, v) else if ri : bool then Ok ((c <=? 0)%Z, v) else Ok ((c <? 0)%Z, v))).
  { intros u v HU. rewrite <- (seen_valid _ _ _ _ HU). destruct (it_valid u) eqn:EU; cbn [negb]; [|constructor; auto].
    rewrite <- (seen_compare e f _ _ _ _ r HU EU). apply same_bind. intros c.
    destruct (_ =? _)%Z; [constructor; auto|]. destruct ri; constructor; auto. }
  eapply rres_bind with (R := seen n m); [|exact FIN].
  destruct (di_search x && (di_left x && di_right x)) eqn:EC; cbn [negb].
  { constructor. split; cbn [it_setD it_d it_s]; auto. }
  assert (SD : di_send x = di_send y) by (apply F4; exact EC).
  assert (PS : ssim m (it_s (passToSparse (it_setD (it_clear a) x))) (it_s (passToSparse (it_setD (it_clear b) y)))).
  { destruct SS as (S1 & S2 & S3 & S4 & S5). unfold passToSparse, ssim. cbn [it_setD it_d it_s]. rewrite SD. sc. auto 10. }
  destruct (di_search x) eqn:ES; cbn [negb].
  - destruct (di_left x) eqn:EL; cbn [negb].
    + constructor. split; cbn [it_setD it_d it_s]; auto.
    + eapply rres_bind; [apply sim_si_leftmost; exact PS|]. intros u v HU. constructor. split; cbn [passToSparse it_setD it_setS it_d it_s]; auto.
      apply ssim0_of. auto.
  - eapply rres_bind with (R := bssim m).
    + unfold s_moveToKeyGreaterThan. pose proof PS as (_ & P2 & _). rewrite <- P2. apply same_bind. intros p. apply sim_s_gt_loop. exact PS.
    + intros [g1 u] [g2 v] (_ & HU). cbn [snd] in HU. pose proof HU as (UV & _). rewrite <- UV. destruct (si_valid u); cbn [negb].
      * constructor. split; cbn [passToSparse it_setD it_setS it_d it_s]; auto. apply ssim0_of. auto.
      * eapply rres_bind; [apply (sim_inc_dense e f n m)|].
        -- cbn [passToSparse it_setD it_setS it_d]. exact PX.
        -- cbn [passToSparse it_setD it_setS it_s]. apply ssim0_of. exact HU.
        -- intros [h1 w] [h2 z] (_ & HW). cbn [snd] in HW. constructor. exact HW.
Qed.

Lemma seen_sized : forall n m a b, seen n m a b -> sized_it n m a.
Proof.
  intros n m a b (((_ & _ & _ & (D1 & _) & (E1 & _)) & _) & (_ & _ & _ & (F1 & _) & (G1 & _))). split; auto.
Qed.

(** the sizes of the arrays never change *)
Lemma lookupRange_sized : forall e f n m it l li r ri b it', sized_it n m it ->
  lookupRange_st e f it l li r ri = Ok (b, it') -> sized_it n m it'.
Proof.
  intros e f n m it l li r ri b it' H E. pose proof (lookupRange_sim e f n m it it l li r ri H H) as Q.
  rewrite E in Q. inversion Q as [x y (_ & S) E1 E2|]. apply (seen_sized _ _ _ _ S).
Qed.

Lemma dsim_refl : forall n a, length (di_key a) = n -> length (di_pos a) = n -> dsim n a a.
Proof. intros n a A B. unfold dsim, agree. auto 10. Qed.
Lemma ssim_refl : forall n a, length (si_key a) = n -> length (si_pos a) = n -> ssim n a a.
Proof. intros n a A B. unfold ssim, agree. auto 10. Qed.

Definition ok_with {A} (P : A -> Prop) (x : res A) : Prop := match x with Ok a => P a | Fail _ => True end.
Lemma ok_bind : forall A B (P : A -> Prop) (Q : B -> Prop) x k,
  ok_with P x -> (forall a, P a -> ok_with Q (k a)) -> ok_with Q (bind x k).
Proof. intros A B P Q [a|x] k H HK; cbn [bind ok_with] in *; auto. Qed.
Lemma rres_self : forall A (R : A -> A -> Prop) (P : A -> Prop) x, rres R x x -> (forall a b, R a b -> P a) -> ok_with P x.
Proof. intros A R P x H HP. inversion H; cbn [ok_with]; eauto. Qed.

Definition dsz (n : nat) (a : diter) : Prop := length (di_key a) = n /\ length (di_pos a) = n.
Definition ssz (n : nat) (a : siter) : Prop := length (si_key a) = n /\ length (si_pos a) = n.
Lemma dpost_sz : forall n a b, dpost n a b -> dsz n a.
Proof. intros n a b ((_ & _ & _ & (A & _) & (B & _)) & _). split; auto. Qed.
Lemma ssim_sz : forall n a b, ssim n a b -> ssz n a.
Proof. intros n a b (_ & _ & _ & _ & (A & _) & (B & _)). split; auto. Qed.

Lemma inc_dense_sized : forall e f n m a, sized_it n m a ->
  ok_with (fun x => sized_it n m (snd x)) (incrementDenseIter e f a).
Proof.
  intros e f n m a (A & B & C & D). unfold incrementDenseIter. destruct (negb _); [cbn; repeat split; auto|].
  apply ok_bind with (dsz n).
  - eapply rres_self; [apply (sim_di_next e (sf_dense f) n)|apply dpost_sz]. apply dsim_refl; auto.
  - intros d (D1 & D2). destruct (negb _); [cbn; repeat split; auto|]. destruct (di_left d); [cbn; repeat split; auto|].
    apply ok_bind with (ssz m).
    + eapply rres_self; [apply (sim_si_leftmost m)|apply ssim_sz]. apply ssim_refl; auto.
    + intros s (S1 & S2). cbn. repeat split; auto.
Qed.

Theorem moveToKeyGreaterThan_sized : forall e f n m q incl, sized_it n m (iter_new f) ->
  ok_with (sized_it n m) (moveToKeyGreaterThan e f q incl).
Proof.
  intros e f n m q incl (A & B & C & D). unfold moveToKeyGreaterThan. apply ok_bind with (fun x => dsz n (snd x)).
  - unfold d_moveToKeyGreaterThan. eapply rres_self; [apply (sim_d_gt_loop e (sf_dense f) q n)|].
    + apply dsim_refl; auto.
    + intros [x1 x] [y1 y] (_ & H). apply (dpost_sz n x y). exact H.
  - intros [fp d] (D1 & D2). cbn [snd] in D1, D2. destruct (negb _); [cbn; repeat split; auto|].
    destruct (di_complete d); [cbn; repeat split; auto|]. destruct (negb (di_search d)).
    + apply ok_bind with (fun x => ssz m (snd x)).
      * unfold s_moveToKeyGreaterThan. apply ok_bind with (fun _ => True).
        -- destruct (s_getFirstLabelPos _ _ _); cbn; auto.
        -- intros p _. eapply rres_self; [apply (sim_s_gt_loop e (sf_sparse f) q incl m)|].
           ++ apply ssim_refl; auto.
           ++ intros [x1 x] [y1 y] (_ & H). apply (ssim_sz m x y). exact H.
      * intros [fp2 s] (S1 & S2). cbn [snd] in S1, S2. destruct (negb _); [|cbn; repeat split; auto].
        apply ok_bind with (fun x => sized_it n m (snd x)).
        -- apply inc_dense_sized. cbn. repeat split; auto.
        -- intros [b it] H. exact H.
    + destruct (negb (di_left d)).
      * apply ok_bind with (ssz m).
        -- eapply rres_self; [apply (sim_si_leftmost m)|apply ssim_sz]. apply ssim_refl; auto.
        -- intros s (S1 & S2). cbn. repeat split; auto.
      * unfold massert. destruct (_ && _); cbn; auto. repeat split; auto.
Qed.
