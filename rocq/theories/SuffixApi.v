(** Storing suffixes per level and reading them back. *)
From Coq Require Import Arith List NArith ZArith Bool Lia ZifyN ZifyNat ZifyBool.
From Verif Require Import Res Word Config BitFacts WordFacts Bitvector BitvectorFacts Suffix SuffixFacts Builder StoreFacts SpecBits BitsApi.
Import ListNotations.

Definition store_all (e : env) (slen : nat) (ops : list (nat * N)) (st : levels) : res levels :=
  foldM (fun st o => storeSuffix e st slen (fst o) (snd o)) ops st.

Definition lev_ok (slen : nat) (l : level_rec) (vs : list N) : Prop :=
  srepr slen (lv_suf l) vs /\ lv_sufcount l = length vs.

Lemma srepr_nil : forall slen, srepr slen [] [].
Proof.
  intros slen. split.
  - split; [constructor|]. split; [cbn; lia|reflexivity].
  - right. rewrite Nat.mul_0_r. reflexivity.
Qed.

Lemma nth_error_lset_eq : forall (A : Type) (l : list A) i x, i < length l -> nth_error (lset l i x) i = Some x.
Proof. induction l as [|y l IH]; intros i x H; [cbn in H; lia|]. destruct i; cbn in *; [reflexivity|]. apply IH. lia. Qed.
Lemma nth_error_lset_ne : forall (A : Type) (l : list A) i j x, i <> j -> nth_error (lset l j x) i = nth_error l i.
Proof. induction l as [|y l IH]; intros i j x H; [destruct j; reflexivity|]. destruct i, j; cbn; auto; try lia. Qed.

Lemma stored_at_app : forall a b i, stored_at (a ++ b) i = stored_at a i ++ stored_at b i.
Proof. intros. unfold stored_at. rewrite filter_app, map_app. reflexivity. Qed.
Lemma stored_at_le : forall a i, length (stored_at a i) <= length a.
Proof. intros. unfold stored_at. rewrite map_length. induction a as [|x a IH]; cbn; [lia|]. destruct (fst x =? S i); cbn; lia. Qed.

Lemma fits_le : forall a b, a <= b -> fits b -> fits a.
Proof. unfold fits. intros. eapply N.le_lt_trans; [|eassumption]. lia. Qed.

Section Store.
Variables (e : env) (slen h : nat).
Hypothesis He : strict_shift e = false.
Hypothesis Hs : slen <= 64.

Lemma store_step : forall st (f : nat -> list N) level v, length st = h ->
  (forall i, i < h -> exists l, nth_error st i = Some l /\ lev_ok slen l (f i)) ->
  1 <= level <= h -> (v < 2 ^ N.of_nat slen)%N -> fits (slen * length (f (level - 1)) + 64) ->
  exists st', storeSuffix e st slen level v = Ok st' /\ length st' = h /\
    (forall i, i < h -> exists l, nth_error st' i = Some l /\ lev_ok slen l (if i =? level - 1 then f i ++ [v] else f i)).
Proof.
  intros st f level v HL HI Hl Hv HF. rewrite storeSuffix_eq.
  destruct level as [|lv]; [lia|]. cbn [pred_idx bind]. replace (S lv - 1) with lv in * by lia.
  destruct (HI lv ltac:(lia)) as (l & El & (HR & HC)). unfold vget. rewrite El. cbn [bind]. cbv zeta.
  rewrite HC. replace (length (f lv) * slen) with (slen * length (f lv)) by lia.
  rewrite (fits_fits32 _ HF). cbn [negb].
  assert (B : slen * length (f lv) <= length (lv_suf l) * 64).
  { destruct HR as ((_ & Q & _) & _). rewrite flat_bits_length in Q. lia. }
  apply Nat.leb_le in B. rewrite B. unfold massert. cbn [negb andb]. rewrite Bool.andb_false_r. cbn [bind].
  destruct (store_words_spec e slen (lv_suf l) (f lv) v He Hs Hv HR) as (ws & E & HR').
  replace (length (f lv) * slen) with (slen * length (f lv)) in E by lia. rewrite E. cbn [bind].
  unfold vset. rewrite HL. destruct (Nat.ltb_spec lv h); [|lia].
  eexists. split; [reflexivity|]. split; [rewrite lset_length; auto|].
  intros i Hi. destruct (Nat.eqb_spec i lv) as [->|N].
  - eexists. split; [apply nth_error_lset_eq; lia|]. split; cbn; auto. rewrite app_length. cbn. lia.
  - rewrite nth_error_lset_ne by auto. auto.
Qed.

Lemma store_all_spec : forall ops pre st, length st = h ->
  (forall i, i < h -> exists l, nth_error st i = Some l /\ lev_ok slen l (stored_at pre i)) ->
  Forall (fun o => 1 <= fst o <= h /\ (snd o < 2 ^ N.of_nat slen)%N) ops ->
  fits (slen * length (pre ++ ops) + 64) ->
  exists st', store_all e slen ops st = Ok st' /\ length st' = h /\
    (forall i, i < h -> exists l, nth_error st' i = Some l /\ lev_ok slen l (stored_at (pre ++ ops) i)).
Proof.
  induction ops as [|[level v] ops IH]; intros pre st HL HI HO HF.
  - rewrite app_nil_r. exists st. auto.
  - apply Forall_cons_iff in HO. destruct HO as [[H1 H2] H3]. cbn [fst snd] in *. unfold store_all. cbn [foldM fst snd].
    destruct (store_step st (stored_at pre) level v HL HI H1 H2) as (st' & E & HL' & HI').
    { eapply fits_le; [|exact HF]. pose proof (stored_at_le pre (level - 1)). rewrite app_length. cbn [length]. nia. }
    rewrite E. cbn [bind].
    replace (pre ++ (level, v) :: ops) with ((pre ++ [(level, v)]) ++ ops) in * by (rewrite <- app_assoc; reflexivity).
    apply (IH (pre ++ [(level, v)]) st' HL'); auto.
    intros i Hi. destruct (HI' i Hi) as (l & A & B). exists l. split; auto. rewrite stored_at_app.
    unfold stored_at at 2. cbn [filter map fst snd].
    destruct (Nat.eqb_spec level (S i)); destruct (Nat.eqb_spec i (level - 1)); try lia; cbn [map snd]; try rewrite app_nil_r; auto.
Qed.
End Store.

Definition fresh (h : nat) : levels := Nat.iter h addLevel [].
Lemma fresh_eq : forall h, fresh h = repeat (mkLevel [] [0%N] [0%N] [] 0 0 false) h.
Proof.
  induction h as [|h IH]; [reflexivity|]. change (fresh (S h)) with (addLevel (fresh h)). rewrite IH. unfold addLevel.
  change [mkLevel [] [0%N] [0%N] [] 0 0 false] with (repeat (mkLevel [] [0%N] [0%N] [] 0 0 false) 1).
  rewrite <- repeat_app. f_equal. lia.
Qed.

Lemma flat_concat : forall (A : Type) (f : A -> list bool) ls, flat_map f (concat ls) = concat (map (flat_map f) ls).
Proof. induction ls as [|x ls IH]; [reflexivity|]. cbn [concat map]. rewrite flat_map_app, IH. reflexivity. Qed.

Lemma concat_len : forall ops s n, length (concat (map (stored_at ops) (seq s n))) <= length ops.
Proof.
  intros ops s n. revert s. assert (G : forall s n, length (concat (map (stored_at ops) (seq s n))) =
    length (filter (fun o => (S s <=? fst o) && (fst o <=? s + n)) ops)).
  { intros s. clear n. intros n. revert s. induction n as [|n IH]; intros s.
    - cbn [seq map concat length]. clear. induction ops as [|o ops' IH']; [reflexivity|]. cbn [filter].
      destruct (Nat.leb_spec (S s) (fst o)); destruct (Nat.leb_spec (fst o) (s + 0)); cbn [andb]; auto; lia.
    - cbn [seq map concat]. rewrite app_length, IH. unfold stored_at. rewrite map_length. clear.
      induction ops as [|o ops' IH']; [reflexivity|]. cbn [filter].
      destruct (Nat.eqb_spec (fst o) (S s)); destruct (Nat.leb_spec (S (S s)) (fst o)); destruct (Nat.leb_spec (fst o) (S s + n));
      destruct (Nat.leb_spec (S s) (fst o)); destruct (Nat.leb_spec (fst o) (s + S n)); cbn [andb length]; try lia. }
  intros s. rewrite G. clear G. induction ops as [|o ops' IH]; cbn [filter length]; [lia|]. destruct (_ && _); cbn [length]; lia.
Qed.

Theorem api_suffixes : forall e t hlen rlen h ops s en,
  strict_shift e = false -> strict_mem e = false -> t <> kNone -> 1 <= hlen + rlen <= 64 ->
  Forall (fun o => 1 <= fst o <= h /\ (snd o < 2 ^ N.of_nat (hlen + rlen))%N) ops ->
  fits ((hlen + rlen) * length ops + 64) ->
  let en' := if en =? 0 then h else en in en' <= h ->
  exists st, store_all e (hlen + rlen) ops (fresh h) = Ok st /\ exists sv,
    suf_make e t hlen rlen (map lv_suf st) (map (fun l => lv_sufcount l * (hlen + rlen)) st) s en = Ok sv /\
    forall i, i < length (stored_in ops s en') -> suf_read e sv (N.of_nat i) = Ok (nth i (stored_in ops s en') 0%N).
Proof.
  intros e t hlen rlen h ops s en E1 E2 Ht Hl HO HF en' Hen. set (slen := hlen + rlen) in *.
  destruct (store_all_spec e slen h E1 ltac:(lia) ops [] (fresh h)) as (st & E & HL & HI).
  { rewrite fresh_eq, repeat_length. reflexivity. }
  { intros i Hi. rewrite fresh_eq. eexists. split; [apply nth_error_repeat; auto|]. split; cbn; auto. apply srepr_nil. }
  { auto. }
  { auto. }
  exists st. split; auto. cbn [app] in HI.
  pose proof (bv_make_spec e (map lv_suf st) (map (fun l => lv_sufcount l * slen) st)
    (fun i => flat_map (bitsn slen) (stored_at ops i)) s en E2) as Q. cbv zeta in Q.
  rewrite map_length, HL in Q. fold en' in Q.
  assert (C : concat (map (fun i => flat_map (bitsn slen) (stored_at ops i)) (seq s (en' - s))) = flat_map (bitsn slen) (stored_in ops s en')).
  { unfold stored_in. rewrite flat_concat, map_map. reflexivity. }
  rewrite C in Q. rewrite flat_bits_length in Q.
  assert (FF : fits (slen * length (stored_in ops s en'))).
  { eapply fits_le; [|exact HF]. pose proof (concat_len ops s (en' - s)). unfold stored_in. nia. }
  rewrite (fits_fits32 _ FF) in Q. destruct Q as (b & Eb & Rb).
  { intros i Hi. destruct (HI i ltac:(lia)) as (l & A & (B1 & B2)). split; [lia|]. split.
    - rewrite nth_error_map, A. cbn. rewrite flat_bits_length, B2. f_equal. lia.
    - replace (nth i (map lv_suf st) []) with (lv_suf l).
      + destruct B1; auto.
      + symmetry. apply nth_error_nth. rewrite nth_error_map, A. reflexivity. }
  unfold suf_make. rewrite Eb. cbn [bind]. fold slen.
  assert (L64 : (slen <=? 64) = true) by (apply Nat.leb_le; lia). rewrite L64. unfold massert. cbn [negb]. rewrite andb_false_r. cbn [bind].
  eexists. split; [reflexivity|]. intros i Hi. apply suf_read_spec; auto.
  split; [exact Hl|]. split; [|split; [exact Rb|apply fits_fits32; exact FF]].
  apply Forall_forall. intros v Hv. unfold stored_in in Hv. apply in_concat in Hv. destruct Hv as (vs & V1 & V2).
  apply in_map_iff in V1. destruct V1 as (j & <- & _). unfold stored_at in V2. apply in_map_iff in V2.
  destruct V2 as (o & <- & V3). apply filter_In in V3. rewrite Forall_forall in HO. apply HO. tauto.
Qed.
