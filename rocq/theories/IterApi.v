(** From positions in the trie to the vocabulary of the iterator properties. *)
From Coq Require Import Arith List NArith ZArith Bool Lia ZifyN ZifyNat ZifyBool Sorting.Sorted.
From Verif Require Import Res Word Config BitFacts WordFacts Suffix Spec SpecApi SpecFilter SuffixFacts Builder KeyFacts Trie
  BuilderFacts StructFacts NodeFacts SparseFacts Dense Sparse Surf PointFacts IterTrie IterDense IterDMove IterSparse IterFacts IterKey SpecIter.
Import ListNotations.

Lemma zero_start_dec : forall k, {zero_start k} + {~ zero_start k}.
Proof.
  intros [|[|b] r]; [right|left|right].
  - intros (r & E). discriminate.
  - exists r. reflexivity.
  - intros (r' & E). discriminate.
Qed.

Lemma zero_nth : forall k, k <> [] -> (zero_start k <-> nth 0 k 255 = 0).
Proof.
  intros [|b r] H; [congruence|]. cbn. split; [intros (x & E); injection E; auto|].
  intros ->. exists r. reflexivity.
Qed.

Section Api.
Variables (keys : list bytes).
Hypothesis HG : good_keys keys.
Variables (e : env) (c : config) (f : surf).
Hypothesis HM : machine e.
Hypothesis HC : settings c.
Hypothesis HF : filter_of e c keys f.
Hypothesis HL : ~ lone_ff keys.
Notation K := (uniq keys).
Notation n := (length K).

Lemma kk_ne : forall i, i < n -> kk K i <> [].
Proof.
  intros i Hi. destruct (good_uniq keys HG) as (_ & _ & HE & _). rewrite Forall_forall in HE. apply HE. apply nth_In. auto.
Qed.

Lemma all_zero_keys : all_zero K <-> forall x, In x keys -> zero_start x.
Proof.
  destruct (good_uniq keys HG) as (HS & HB & HE & HN). split.
  - intros Z x Hx. destruct (in_kk keys x Hx) as (i & Hi & <-). apply zero_nth; [apply kk_ne; auto|].
    assert (I : item K 0 (anc K 0 i) = true) by (apply anc_item; auto; lia).
    specialize (Z _ I). unfold lab in Z. pose proof (anc_prefix K 0 i) as AP.
    pose proof (kk_ne i Hi). assert (kk K (anc K 0 i) <> []) by (apply kk_ne; pose proof (anc_le K 0 i); lia).
    destruct (kk K i), (kk K (anc K 0 i)); try congruence. cbn in *. congruence.
  - intros Z x Hx. pose proof (item_lt K 0 x Hx) as L. unfold lab. apply zero_nth; [apply kk_ne; auto|].
    apply Z. apply kk_in. auto.
Qed.

Lemma back_stuck : forall h i, S i < n ->
  (back_ok K h (S i) <-> ~ stuck keys h (kk K i) (kk K (S i))).
Proof.
  intros h i Hi. destruct (good_uniq keys HG) as (HS & HB & HE & HN).
  pose proof (kk_ne i ltac:(lia)) as N1. pose proof (kk_ne (S i) Hi) as N2.
  assert (NA : forall l, kk K (anc K l i) <> []) by (intros l; apply kk_ne; pose proof (anc_le K l i); lia).
  assert (L0 : lab K 0 (anc K 0 i) = nth 0 (kk K i) 255).
  { unfold lab. pose proof (anc_prefix K 0 i) as AP. specialize (NA 0). destruct (kk K i), (kk K (anc K 0 i)); try congruence. cbn in *. congruence. }
  split.
  - intros (i' & E & A & B) [(Z1 & Z2)|(Z1 & Z2 & Z3)]; injection E as <-.
    + apply A; [|rewrite L0; apply zero_nth; auto]. cbn [lo]. apply (zero_nth _ N1) in Z1.
      assert (Z2' : nth 0 (kk K (S i)) 255 <> 0) by (intros X; apply Z2, zero_nth; auto).
      destruct (kk K i) as [|x r], (kk K (S i)) as [|y r']; try congruence. cbn [nth lcp] in *. destruct (Nat.eqb_spec x y); congruence.
    + apply B. split; [apply all_zero_keys; auto|]. split; auto.
      destruct (Z2 (kk K (S i))) as (r & Er); [apply kk_in; auto|]. cbn [lo]. rewrite Z1, Er.
      split; [reflexivity|]. unfold term. pose proof (anc_prefix K 1 i) as AP. rewrite Z1 in AP.
      destruct (kk K (anc K 1 i)) as [|a [|b r']]; cbn in *; auto; discriminate.
  - intros NS. exists i. split; auto. split.
    + intros E0 E1. apply NS. left. rewrite L0 in E1. split; [apply zero_nth; auto|].
      intros Z. apply (zero_nth _ N2) in Z. cbn [lo] in E0. destruct (kk K i) as [|x r], (kk K (S i)) as [|y r']; try congruence. cbn [nth lcp] in *. rewrite E1, Z in E0.
      rewrite Nat.eqb_refl in E0. discriminate.
    + intros (Z & H1 & E1 & T). apply NS. right. split; [|split; [apply all_zero_keys; auto|auto]].
      pose proof (proj1 all_zero_keys Z (kk K i) (kk_in keys i ltac:(lia))) as (r & Er). rewrite Er. f_equal.
      unfold term in T. pose proof (anc_prefix K 1 i) as AP. rewrite Er in AP.
      destruct (kk K (anc K 1 i)) as [|a [|b r']]; cbn in *; try discriminate. destruct r; congruence.
Qed.

Let st := getSparseStartLevel f.

Lemma built_st : 1 <= st /\ S st <= height K /\ dense_ok c K st (sf_dense f) /\ sparse_ok c K st (sf_sparse f).
Proof.
  destruct (built keys HG e c f HM HC HF) as (s & A & B & C & D). unfold st, getSparseStartLevel.
  rewrite (sk_st _ _ _ _ D). auto.
Qed.

Notation at_ i it := (it_at K st i it).

Lemma next_at : forall i it, i < n -> at_ i it ->
  exists it', it_next e f it = Ok (S i <? n, it') /\ if S i <? n then at_ (S i) it' else it_valid it' = false.
Proof.
  destruct built_st as (A & B & C & D), (good_uniq keys HG) as (HS & HB & HE & HN), HM as [M1 M2].
  intros i it Hi HA. apply (it_next_ok c K HS HB HE HN (lone_ff_iff keys HG HL) st f e A B C D M2); auto.
Qed.

Lemma prev_at : forall i it, i < n -> at_ i it ->
  exists b it', it_prev e f it = Ok (b, it') /\
    ((b = false /\ it_valid it' = false /\ (forall j, i = S j -> stuck keys st (kk K j) (kk K i))) \/
     (b = true /\ exists j, i = S j /\ ~ stuck keys st (kk K j) (kk K i) /\ at_ j it')).
Proof.
  destruct built_st as (A & B & C & D), (good_uniq keys HG) as (HS & HB & HE & HN), HM as [M1 M2].
  intros i it Hi HA.
  destruct (it_prev_ok c K HS HB HE HN (lone_ff_iff keys HG HL) st f e A B C D M2 i it Hi HA) as (b & it' & E & Q).
  exists b, it'. split; auto. destruct Q as [(Q1 & -> & Q3)|(Q1 & -> & Q3)].
  - left. split; auto. split; auto. intros j ->.
    destruct (zero_start_dec (kk K j)) as [Z1|Z1]; destruct (zero_start_dec (kk K (S j))) as [Z2|Z2].
    + destruct (back_stuck st j Hi) as [_ BS].
      assert (DZ : (kk K j = [0] /\ (forall x, In x keys -> zero_start x) /\ 1 < st) \/
                   ~ (kk K j = [0] /\ (forall x, In x keys -> zero_start x) /\ 1 < st)).
      { destruct (list_eq_dec Nat.eq_dec (kk K j) [0]) as [E1|E1]; [|right; tauto].
        destruct (le_lt_dec st 1) as [E2|E2]; [right; lia|].
        destruct (Forall_dec _ zero_start_dec keys) as [E3|E3]; rewrite Forall_forall in E3; [left; auto|right; tauto]. }
      destruct DZ as [DZ|DZ]; [right; auto|]. exfalso. apply Q1, BS. intros [(X1 & X2)|X]; tauto.
    + left. auto.
    + exfalso. apply Q1. apply back_stuck; auto. intros [(X1 & X2)|(X1 & X2 & X3)]; [tauto|]. apply Z1. rewrite X1. exists []. reflexivity.
    + exfalso. apply Q1. apply back_stuck; auto. intros [(X1 & X2)|(X1 & X2 & X3)]; [tauto|]. apply Z1. rewrite X1. exists []. reflexivity.
  - right. split; auto. pose proof Q1 as (j & -> & _). exists j. split; auto. split; [apply back_stuck; auto|].
    cbn in Q3. rewrite Nat.sub_0_r in Q3. exact Q3.
Qed.

Lemma first_at : exists it, moveToFirst e f = Ok it /\ at_ 0 it.
Proof.
  destruct built_st as (A & B & C & D), (good_uniq keys HG) as (HS & HB & HE & HN), HM as [M1 M2].
  apply (moveToFirst_ok c K HS HB HE HN (lone_ff_iff keys HG HL) st f e A B C D M2); auto.
Qed.

Lemma last_at : exists it, moveToLast e f = Ok it /\ at_ (n - 1) it.
Proof.
  destruct built_st as (A & B & C & D), (good_uniq keys HG) as (HS & HB & HE & HN), HM as [M1 M2].
  apply (moveToLast_ok c K HS HB HE HN (lone_ff_iff keys HG HL) st f e A B C D M2); auto.
Qed.

Lemma key_at : forall i it, i < n -> at_ i it -> it_getKey it = Ok (firstn (S (leafl K i)) (kk K i)).
Proof.
  destruct built_st as (A & B & C & D), (good_uniq keys HG) as (HS & HB & HE & HN), HM as [M1 M2].
  intros i it Hi HA. eapply it_key_ok; eauto.
Qed.

Lemma dist_at : forall i, i < n -> dist_len keys (kk K i) (S (leafl K i)).
Proof. intros i Hi. apply dist_uniq. apply dist_leafl; auto. apply (good_uniq keys HG). Qed.

Lemma has_real_keeps : has_real (cf_type c) = true <-> keeps_real c.
Proof. unfold keeps_real. destruct (cf_type c); cbn; split; intros; try tauto; try discriminate; destruct H; discriminate. Qed.

Lemma next_bits0_val : forall k d m, is_bytes k -> next_bits0 k d m = bitsn m (real_val k d m).
Proof.
  intros k d [|m] Hk.
  - unfold next_bits0, next_bits. reflexivity.
  - symmetry. apply real_bits; auto. clear. lia.
Qed.

Lemma all_zero_val : forall m v, (v < 2 ^ N.of_nat m)%N -> (Spec.all_zero (bitsn m v) <-> v = 0%N).
Proof.
  intros m v Hv. split.
  - intros Z. rewrite <- (bitsn_value m v Hv). assert (E : bitsn m v = repeat false (length (bitsn m v))).
    { clear - Z. induction (bitsn m v) as [|b l IH]; auto. cbn. f_equal; [apply Z; left; auto|apply IH]. intros x Hx. apply Z. right. auto. }
    rewrite E. clear. induction (length (bitsn m v)) as [|k IH]; auto.
  - intros -> x Hx. rewrite bitsn_zero in Hx. apply repeat_spec in Hx. auto.
Qed.

Lemma look_at : forall i it, i < n -> at_ i it ->
  exists v, look e f it = Ok v /\ view_of c keys (kk K i) v /\
    (cf_rlen c = 64 -> keeps_real c -> vw_suffix v = (64, Some 0%N) /\ vw_keysuf v = (vw_key v, 0)) /\
    (forall it', at_ i it' -> look e f it' = Ok v).
Proof.
  destruct built_st as (A & B & C & D), (good_uniq keys HG) as (HS & HB & HE & HN), HM as [M1 M2].
  intros i it Hi HA. pose proof (settings_lens c HC) as SL.
  pose proof (dist_at i Hi) as DL. set (k := kk K i) in *. set (d := S (leafl K i)) in *.
  assert (Hk : is_bytes k) by (rewrite Forall_forall in HB; apply HB, nth_In; auto).
  pose proof (real_val_bound k d (cf_rlen c) Hk) as RB.
  set (r := real_read k d (cf_rlen c)).
  assert (KS : exists ks, (if has_real (cf_type c) && (0 <? r)%N then
      b <- suffix_bytes e r (cf_rlen c) ;; Ok (firstn d k ++ b, cf_rlen c mod 8) else Ok (firstn d k, 0)) = Ok ks /\
      (cf_rlen c <= 63 -> good_keysuf c k d ks) /\ (cf_rlen c = 64 -> ks = (firstn d k, 0))).
  { unfold r, real_read. destruct (Nat.eqb_spec (cf_rlen c) 64) as [E64|N64].
    - rewrite andb_false_r. eexists. split; [reflexivity|]. split; [lia|auto].
    - pose proof (all_zero_val _ _ RB) as AZ. rewrite <- (next_bits0_val k d (cf_rlen c) Hk) in AZ.
      destruct (has_real (cf_type c)) eqn:ER; cbn [andb].
      + apply has_real_keeps in ER. destruct (N.ltb_spec 0 (real_val k d (cf_rlen c))) as [P|P].
        * assert (R0 : 1 <= cf_rlen c).
          { destruct (cf_rlen c); [cbn in RB; lia|lia]. }
          destruct SL as [SL1 SL2].
          destruct (suffix_bytes_spec e _ (cf_rlen c) ltac:(lia) RB) as (b & E1 & E2 & E3 & E4). rewrite E1. cbn [bind].
          eexists. split; [reflexivity|]. split; [|lia]. intros _. split.
          -- intros _ _. exists b, (8 * ((cf_rlen c + 7) / 8) - cf_rlen c). split; auto. split; auto.
             split; [|rewrite E4, next_bits0_val; auto].
             pose proof (Nat.div_mod (cf_rlen c + 7) 8 ltac:(lia)). pose proof (Nat.mod_upper_bound (cf_rlen c + 7) 8 ltac:(lia)). lia.
          -- intros [X|X]; [tauto|]. apply AZ in X. lia.
        * eexists. split; [reflexivity|]. split; [|lia]. intros _. split; [|auto]. intros _ X. exfalso. apply X, AZ. lia.
      + eexists. split; [reflexivity|]. split; [|lia]. intros _. split; [|auto]. intros X. apply has_real_keeps in X. congruence. }
  destruct KS as (ks & EK & GK & G64).
  assert (LK : forall it', at_ i it' -> look e f it' = Ok (mkView true (firstn d k)
     (if has_real (cf_type c) then (cf_rlen c, Some r) else (0, Some 0%N)) ks)).
  { intros it' HA'. unfold look. rewrite (it_at_valid K st i it' HA').
    rewrite (it_key_ok K HS HE HN st e A B M2 i it' Hi HA'). cbn [bind].
    rewrite (it_suffix_ok c K HS HB HE HN (lone_ff_iff keys HG HL) st f e A B C D M2 M1 SL i it' Hi HA'). cbn [bind].
    rewrite (eq_trans (it_keysuffix_ok c K HS HB HE HN (lone_ff_iff keys HG HL) st f e A B C D M2 M1 SL i it' Hi HA') EK).
    reflexivity. }
  eexists. split; [apply LK; exact HA|]. split; [|split; [|exact LK]].
  - exists d. split; auto. split; auto. split; auto. intros L63. split; [|auto]. cbn [vw_suffix].
    unfold r, real_read. replace (cf_rlen c =? 64) with false by lia. split.
    + intros X. apply has_real_keeps in X. rewrite X. rewrite next_bits0_val by auto. unfold bits_value. rewrite bitsn_value; auto.
    + intros X. destruct (has_real (cf_type c)) eqn:ER; auto. exfalso. apply X, has_real_keeps. auto.
  - cbn [vw_suffix vw_keysuf vw_key]. intros E64 X. apply has_real_keeps in X. rewrite X. unfold r, real_read. rewrite E64. split; auto.
Qed.

(** an iterator at a place *)
Definition placed (it : iter) (p : option nat) : Prop :=
  match p with Some i => i < n /\ at_ i it | None => it_valid it = false end.

Lemma move_placed : forall m it p, placed it p ->
  exists b it' p', do_move e f m it = Ok (b, it') /\ ahead keys m st p p' /\ placed it' p' /\ b = it_valid it'.
Proof.
  intros m it [i|] HP; cbn [placed] in HP.
  - destruct HP as [Hi HA]. destruct m; cbn [do_move ahead].
    + destruct (next_at i it Hi HA) as (it' & E & Q). rewrite E. destruct (S i <? n) eqn:EN.
      * exists true, it', (Some (S i)). split; auto. split; auto. split; [split; [lia|auto]|].
        symmetry. apply (it_at_valid K st (S i)). auto.
      * exists false, it', None. cbn. auto.
    + destruct (prev_at i it Hi HA) as (b & it' & E & Q). rewrite E.
      destruct Q as [(-> & V & SK)|(-> & j & -> & NS & HJ)].
      * exists false, it', None. split; auto. split; [|cbn; auto]. destruct i; [reflexivity|]. left. split; auto. apply SK. auto.
      * exists true, it', (Some j). split; auto. split; [right; auto|]. split; [split; [lia|auto]|].
        symmetry. apply (it_at_valid K st j). auto.
  - destruct m; cbn [do_move ahead]; unfold it_next, it_prev; rewrite HP; cbn [negb]; exists false, it, None; auto.
Qed.

Lemma ahead_fun : forall m p p1 p2, ahead keys m st p p1 -> ahead keys m st p p2 -> p1 = p2.
Proof.
  intros m [i|] p1 p2; cbn [ahead]; [|congruence]. destruct m; [congruence|]. destruct i; [congruence|].
  intros [[A ->]|[A ->]] [[B ->]|[B ->]]; tauto.
Qed.

Lemma look_placed : forall it it' p, placed it p -> placed it' p -> look e f it = look e f it'.
Proof.
  intros it it' [i|] H H'; cbn [placed] in *.
  - destruct H as [Hi HA], H' as [_ HA']. destruct (look_at i it Hi HA) as (v & E & _ & _ & Q). rewrite E, (Q it' HA'). auto.
  - unfold look. rewrite H, H'. auto.
Qed.

Lemma same_placed : forall it it' p, placed it p -> placed it' p -> same_view e f it it'.
Proof.
  intros it it' p H H' ms. revert it it' p H H'. induction ms as [|m ms IH]; intros it it' p H H'; cbn [run bind].
  - apply (look_placed it it' p); auto.
  - destruct (move_placed m it p H) as (b & a & p1 & E & A1 & P1 & _).
    destruct (move_placed m it' p H') as (b' & a' & p2 & E' & A2 & P2 & _).
    pose proof (ahead_fun _ _ _ _ A1 A2). subst p2. rewrite E, E'. cbn [bind]. eapply IH; eauto.
Qed.

Lemma first_placed : forall it, moveToFirst e f = Ok it -> exists p, placed it p.
Proof.
  intros it E. destruct first_at as (a & E' & P). rewrite E in E'. injection E' as ->. exists (Some 0). split; auto.
  destruct (good_uniq keys HG) as (_ & _ & _ & HN). lia.
Qed.

Lemma last_placed : forall it, moveToLast e f = Ok it -> exists p, placed it p.
Proof.
  intros it E. destruct last_at as (a & E' & P). rewrite E in E'. injection E' as ->. exists (Some (n - 1)). split; auto.
  destruct (good_uniq keys HG) as (_ & _ & _ & HN). lia.
Qed.

Lemma collect_fwd : forall r i it, i + r = n -> (r = 0 -> it_valid it = false) -> (0 < r -> at_ i it) ->
  exists out, collect e f Fwd r it = Ok out /\ Forall2 (shown keys) (skipn i K) out.
Proof.
  induction r as [|r IH]; intros i it E H0 H1.
  - cbn [collect]. rewrite (H0 eq_refl). exists []. split; auto. rewrite skipn_all2 by lia. constructor.
  - specialize (H1 ltac:(lia)). cbn [collect]. rewrite (it_at_valid K st i it H1). rewrite (key_at i it ltac:(lia) H1). cbn [bind do_move].
    destruct (next_at i it ltac:(lia) H1) as (it' & EN & Q). rewrite EN. cbn [bind].
    destruct (IH (S i) it' ltac:(lia)) as (out & EO & FO).
    + intros ->. replace (S i <? n) with false in Q by lia. auto.
    + intros P. replace (S i <? n) with true in Q by lia. auto.
    + rewrite EO. cbn [bind]. eexists. split; [reflexivity|].
      assert (SK : skipn i K = kk K i :: skipn (S i) K).
      { clear - E. revert i E. generalize K as l. induction l as [|a l IHl]; intros i E; [cbn in E; lia|].
        destruct i; [reflexivity|]. cbn [skipn]. rewrite IHl by (cbn in E; lia). reflexivity. }
      rewrite SK. constructor; auto. eexists. split; [apply dist_at; lia|reflexivity].
Qed.

(** the keys [--] gets to from key [i], nearest first *)
Lemma collect_bwd : forall i it, i < n -> at_ i it -> forall fuel, i < fuel ->
  exists j out, j <= i /\ collect e f Bwd fuel it = Ok out /\
    Forall2 (shown keys) (map (kk K) (rev (seq j (S i - j)))) out /\
    (forall x, j < x <= i -> ~ stuck keys st (kk K (x - 1)) (kk K x)) /\
    (0 < j -> stuck keys st (kk K (j - 1)) (kk K j)).
Proof.
  induction i as [|i IH]; intros it Hi HA fuel Hf; (destruct fuel as [|fuel]; [lia|]); cbn [collect];
    rewrite (it_at_valid K st _ it HA), (key_at _ it Hi HA); cbn [bind do_move];
    destruct (prev_at _ it Hi HA) as (b & it' & E & Q); rewrite E; cbn [bind].
  - destruct Q as [(-> & V & SK)|(-> & j & X & _)]; [|discriminate].
    exists 0. eexists. split; auto. destruct fuel; cbn [collect]; rewrite V; cbn [bind]; (split; [reflexivity|]); cbn;
      (split; [constructor; [eexists; split; [apply dist_at; auto|reflexivity]|constructor]|]); (split; intros; lia).
  - destruct Q as [(-> & V & SK)|(-> & j & X & NS & HJ)].
    + exists (S i). eexists. split; auto. destruct fuel; [lia|]. cbn [collect]. rewrite V. cbn [bind]. split; [reflexivity|].
      replace (S (S i) - S i) with 1 by lia. cbn.
      split; [constructor; [eexists; split; [apply dist_at; auto|reflexivity]|constructor]|].
      split; [intros; lia|]. intros _. rewrite Nat.sub_0_r. apply SK. auto.
    + injection X as <-. destruct (IH it' ltac:(lia) HJ fuel ltac:(lia)) as (j & out & J1 & J2 & J3 & J4 & J5).
      exists j. eexists. split; [lia|]. rewrite J2. cbn [bind]. split; [reflexivity|].
      split; [|split; [|auto]].
      * replace (S (S i) - j) with (S (S i - j)) by lia. rewrite seq_S, rev_app_distr. cbn [rev app map].
        replace (j + (S i - j)) with (S i) by lia. constructor; auto. eexists. split; [apply dist_at; auto|reflexivity].
      * intros x Hx. destruct (Nat.eq_dec x (S i)) as [->|N]; [|apply J4; lia]. replace (S i - 1) with i by lia. auto.
Qed.
End Api.

Lemma starts_zero_iff : forall k, starts_zero k = true <-> zero_start k.
Proof.
  intros [|[|b] r]; cbn; split; intros H; try discriminate; auto; try (exists r; reflexivity); destruct H; discriminate.
Qed.

Lemma map_kk_seq : forall K j, j <= length K -> map (kk K) (seq j (length K - j)) = skipn j K.
Proof.
  intros K j Hj. apply nth_ext with (d := []) (d' := []).
  - rewrite map_length, seq_length, skipn_length. auto.
  - intros x Hx. rewrite map_length, seq_length in Hx. rewrite (nth_indep _ [] (kk K 0)) by (rewrite map_length, seq_length; auto).
    rewrite map_nth, seq_nth, nth_skipn' by auto. reflexivity.
Qed.

Lemma Forall2_rev' : forall A B (R : A -> B -> Prop) l l', Forall2 R l l' -> Forall2 R (rev l) (rev l').
Proof.
  intros A B R l l' H. induction H; cbn; auto. apply Forall2_app; auto.
Qed.

Lemma iter_forward : forall e c keys f, machine e -> settings c -> good_keys keys -> ~ lone_ff keys ->
  filter_of e c keys f ->
  exists it out, moveToFirst e f = Ok it /\ collect e f Fwd (length (uniq keys)) it = Ok out /\
    Forall2 (shown keys) (uniq keys) out.
Proof.
  intros e c keys f HM HC HG HL HF.
  destruct (first_at keys HG e c f HM HC HF HL) as (it & E & A).
  destruct (good_uniq keys HG) as (_ & _ & _ & HN).
  destruct (collect_fwd keys HG e c f HM HC HF HL (length (uniq keys)) 0 it eq_refl ltac:(lia) ltac:(auto)) as (out & C1 & C2).
  exists it, out. auto.
Qed.

Lemma iter_backward_any : forall e c keys f, machine e -> settings c -> good_keys keys -> ~ lone_ff keys ->
  filter_of e c keys f ->
  exists it out j, moveToLast e f = Ok it /\ collect e f Bwd (length (uniq keys)) it = Ok out /\
    j < length (uniq keys) /\ Forall2 (shown keys) (rev (skipn j (uniq keys))) out /\
    (forall x, j < x < length (uniq keys) ->
       ~ stuck keys (getSparseStartLevel f) (kk (uniq keys) (x - 1)) (kk (uniq keys) x)) /\
    (0 < j -> stuck keys (getSparseStartLevel f) (kk (uniq keys) (j - 1)) (kk (uniq keys) j)).
Proof.
  intros e c keys f HM HC HG HL HF.
  destruct (last_at keys HG e c f HM HC HF HL) as (it & E & A).
  destruct (good_uniq keys HG) as (_ & _ & _ & HN).
  destruct (collect_bwd keys HG e c f HM HC HF HL (length (uniq keys) - 1) it ltac:(lia) A (length (uniq keys)) ltac:(lia)) as (j & out & J1 & J2 & J3 & J4 & J5).
  exists it, out, j. split; auto. split; auto. split; [lia|]. split.
  - replace (S (length (uniq keys) - 1) - j) with (length (uniq keys) - j) in J3 by lia. rewrite map_rev, map_kk_seq in J3 by lia. auto.
  - split; auto. intros x Hx. apply J4. lia.
Qed.

Lemma filter_split : forall (A : Type) (p : A -> bool) j l,
  (forall x, In x (firstn j l) -> p x = false) -> (forall x, In x (skipn j l) -> p x = true) -> filter p l = skipn j l.
Proof.
  intros A p j l H1 H2. rewrite <- (firstn_skipn j l) at 1.
  assert (F0 : forall m, (forall x, In x m -> p x = false) -> filter p m = []).
  { induction m as [|a m IH]; intros H; auto. cbn. rewrite (H a (or_introl eq_refl)). apply IH. intros; apply H; right; auto. }
  assert (F1 : forall m, (forall x, In x m -> p x = true) -> filter p m = m).
  { induction m as [|a m IH]; intros H; auto. cbn. rewrite (H a (or_introl eq_refl)). f_equal. apply IH. intros; apply H; right; auto. }
  rewrite filter_app, F0, F1; auto.
Qed.

Lemma zero_below : forall a b, klt a b -> a <> [] -> zero_start b -> zero_start a.
Proof.
  intros [|x a] [|y b] H N (r & E); try congruence. injection E as -> ->. cbn in H.
  destruct H as [H|[-> _]]; [lia|]. exists a. reflexivity.
Qed.

(** some key does not start with byte 0 *)
Lemma iter_backward : forall e c keys f, machine e -> settings c -> good_keys keys -> ~ lone_ff keys ->
  filter_of e c keys f -> (exists k, In k keys /\ ~ zero_start k) ->
  exists it out, moveToLast e f = Ok it /\ collect e f Bwd (length (uniq keys)) it = Ok out /\
    Forall2 (shown keys) (rev (filter (fun k => negb (starts_zero k)) (uniq keys))) out.
Proof.
  intros e c keys f HM HC HG HL HF (z & Hz & NZ).
  destruct (iter_backward_any e c keys f HM HC HG HL HF) as (it & out & j & E & C & J & F & N & SK).
  exists it, out. split; auto. split; auto. destruct (good_uniq keys HG) as (HS & HB & HE & HN).
  set (K := uniq keys) in *. set (n := length K) in *.
  assert (LN : ~ zero_start (kk K (n - 1))).
  { intros Z. apply NZ. destruct (in_kk keys z Hz) as (i & Hi & <-). fold K in Hi |- *. fold n in Hi. fold K in NZ.
    destruct (Nat.eq_dec i (n - 1)) as [->|D]; auto.
    apply (zero_below _ (kk K (n - 1))); auto; [apply sorted_nth; auto; lia|apply kk_ne; auto]. }
  assert (UP : forall m, m < n - j -> ~ zero_start (kk K (n - 1 - m))).
  { induction m as [|m IH]; intros Hm; [replace (n - 1 - 0) with (n - 1) by lia; auto|].
    specialize (IH ltac:(lia)). intros Z. apply (N (n - 1 - m) ltac:(lia)). left.
    replace (n - 1 - m - 1) with (n - 1 - S m) by lia. auto. }
  assert (LO : forall x, x < j -> zero_start (kk K x)).
  { intros x Hx. specialize (SK ltac:(lia)). destruct SK as [(Z & _)|(Z1 & Z2 & _)]; [|exfalso; auto].
    destruct (Nat.eq_dec x (j - 1)) as [->|D]; auto. apply (zero_below _ (kk K (j - 1))); auto; [apply sorted_nth; auto; lia|].
    apply (kk_ne keys HG). fold K. lia. }
  rewrite (filter_split _ _ j K); auto.
  - intros x Hx. apply (In_nth _ _ []) in Hx. destruct Hx as (i & Hi & <-). rewrite firstn_length in Hi. rewrite nth_firstn' by lia.
    assert (Z : starts_zero (nth i K []) = true) by (apply starts_zero_iff, LO; lia). rewrite Z. auto.
  - intros x Hx. apply (In_nth _ _ []) in Hx. destruct Hx as (i & Hi & <-). rewrite skipn_length in Hi. rewrite nth_skipn'.
    destruct (starts_zero (nth (j + i) K [])) eqn:Z; auto. apply starts_zero_iff in Z. exfalso.
    apply (UP (n - 1 - (j + i)) ltac:(lia)). replace (n - 1 - (n - 1 - (j + i))) with (j + i) by lia. auto.
Qed.

Lemma iter_backward_all : forall e c keys f, machine e -> settings c -> good_keys keys -> ~ lone_ff keys ->
  filter_of e c keys f -> (forall k, In k keys -> ~ zero_start k) ->
  exists it out, moveToLast e f = Ok it /\ collect e f Bwd (length (uniq keys)) it = Ok out /\
    Forall2 (shown keys) (rev (uniq keys)) out.
Proof.
  intros e c keys f HM HC HG HL HF NZ. destruct HG as (G1 & G) eqn:EG. clear EG.
  destruct (iter_backward e c keys f HM HC (conj G1 G) HL HF) as (it & out & A & B & C).
  - destruct keys as [|k r]; [congruence|]. exists k. split; [left; auto|apply NZ; left; auto].
  - exists it, out. split; auto. split; auto. rewrite (filter_split _ _ 0) in C; auto.
    + intros x [].
    + intros x Hx. cbn in Hx. destruct (starts_zero x) eqn:Z; auto. apply starts_zero_iff in Z. exfalso. apply (NZ x); auto. apply uniq_in. auto.
Qed.

(** all keys start with byte 0 *)
Lemma klt_zero : forall k, k <> [] -> ~ klt k [0].
Proof. intros [|x k] N H; [congruence|]. cbn in H. destruct H as [H|[-> H]]; [lia|]. destruct k; destruct H. Qed.

Lemma iter_backward_zero : forall e c keys f, machine e -> settings c -> good_keys keys -> ~ lone_ff keys ->
  filter_of e c keys f -> (forall k, In k keys -> zero_start k) ->
  exists it out, moveToLast e f = Ok it /\ collect e f Bwd (length (uniq keys)) it = Ok out /\
    (In [0] keys /\ 1 < getSparseStartLevel f /\ 1 < length (uniq keys) -> Forall2 (shown keys) (rev (tl (uniq keys))) out) /\
    (~ (In [0] keys /\ 1 < getSparseStartLevel f /\ 1 < length (uniq keys)) -> Forall2 (shown keys) (rev (uniq keys)) out).
Proof.
  intros e c keys f HM HC HG HL HF AZ.
  destruct (iter_backward_any e c keys f HM HC HG HL HF) as (it & out & j & E & C & J & F & N & SK).
  exists it, out. split; auto. split; auto. destruct (good_uniq keys HG) as (HS & HB & HE & HN).
  set (K := uniq keys) in *. set (n := length K) in *.
  assert (ZK : forall x, x < n -> zero_start (kk K x)) by (intros x Hx; apply AZ; apply kk_in; auto).
  assert (MIN : forall i, i < n -> kk K i = [0] -> i = 0).
  { intros i Hi Ei. destruct (Nat.eq_dec i 0) as [|D]; auto. exfalso. apply (klt_zero (kk K 0)).
    - apply kk_ne; auto. fold K n. lia.
    - rewrite <- Ei. apply sorted_nth; auto. lia. }
  assert (J01 : 0 < j -> j = 1 /\ kk K 0 = [0] /\ 1 < getSparseStartLevel f).
  { intros P. specialize (SK P). destruct SK as [(_ & SK)|(S1 & S2 & S3)]; [exfalso; apply SK, ZK; auto|].
    assert (j - 1 = 0) by (apply MIN; auto; lia). rewrite H in S1. split; [lia|auto]. }
  split.
  - intros (I & H1 & H2). destruct (in_kk keys [0] I) as (i & Hi & Ei). fold K in Hi, Ei |- *. fold n in Hi.
    pose proof (MIN i Hi Ei). subst i. assert (j = 1).
    { destruct (Nat.eq_dec j 0) as [->|D]; [|apply J01; lia]. exfalso. apply (N 1 ltac:(lia)). right. auto. }
    subst j. destruct K; cbn in F; auto.
  - intros X. destruct (Nat.eq_dec j 0) as [->|D]; [auto|]. exfalso. destruct J01 as (-> & E0 & H1); [lia|]. apply X.
    split; [rewrite <- E0; apply kk_in; fold K n; lia|]. split; auto.
Qed.

Lemma iter_moves : forall e c keys f, machine e -> settings c -> good_keys keys -> ~ lone_ff keys ->
  filter_of e c keys f -> forall ms,
  (exists it it' p v, moveToFirst e f = Ok it /\ run e f ms it = Ok it' /\
     path keys (getSparseStartLevel f) ms (Some 0) p /\ look e f it' = Ok v /\ view_at c keys p v) /\
  (exists it it' p v, moveToLast e f = Ok it /\ run e f ms it = Ok it' /\
     path keys (getSparseStartLevel f) ms (Some (length (uniq keys) - 1)) p /\ look e f it' = Ok v /\ view_at c keys p v).
Proof.
  intros e c keys f HM HC HG HL HF ms. destruct (good_uniq keys HG) as (_ & _ & _ & HN).
  assert (G : forall ms it p, placed keys f it p -> exists it' p' v, run e f ms it = Ok it' /\
     path keys (getSparseStartLevel f) ms p p' /\ look e f it' = Ok v /\ view_at c keys p' v).
  { clear ms. induction ms as [|m ms IH]; intros it p HP.
    - exists it, p. destruct p as [i|].
      + destruct HP as [Hi HA]. destruct (look_at keys HG e c f HM HC HF HL i it Hi HA) as (v & E & V & _).
        exists v. split; auto. split; [constructor|]. split; auto. split; auto.
      + exists (mkView false [] (0, None) ([], 0)). split; auto. split; [constructor|]. cbn in HP. unfold look. rewrite HP. split; reflexivity.
    - destruct (move_placed keys HG e c f HM HC HF HL m it p HP) as (b & it1 & p1 & E & A & P1 & _).
      destruct (IH it1 p1 P1) as (it' & p' & v & R & Q & L & V). exists it', p', v. cbn [run]. rewrite E. cbn [bind].
      split; auto. split; auto. econstructor; eauto. }
  split.
  - destruct (first_at keys HG e c f HM HC HF HL) as (it & E & A).
    destruct (G ms it (Some 0)) as (it' & p & v & Q); [split; auto; lia|]. exists it, it', p, v. tauto.
  - destruct (last_at keys HG e c f HM HC HF HL) as (it & E & A).
    destruct (G ms it (Some (length (uniq keys) - 1))) as (it' & p & v & Q); [split; auto; lia|]. exists it, it', p, v. tauto.
Qed.

Lemma iter_prev_next : forall e c keys f it it1, machine e -> settings c -> good_keys keys -> ~ lone_ff keys ->
  filter_of e c keys f -> (exists p, placed keys f it p) -> it_prev e f it = Ok (true, it1) ->
  exists it2, it_next e f it1 = Ok (true, it2) /\ same_view e f it2 it.
Proof.
  intros e c keys f it it1 HM HC HG HL HF R E.
  destruct R as (p & P).
  destruct (move_placed keys HG e c f HM HC HF HL Bwd it p P) as (b & a & p' & E' & A & P' & V). cbn [do_move] in E'.
  rewrite E in E'. injection E' as <- <-. destruct p as [i|].
  - cbn [ahead] in A. destruct i as [|j]; [subst p'; cbn in P'; congruence|].
    destruct A as [(_ & ->)|(_ & ->)]; [cbn in P'; congruence|].
    destruct (move_placed keys HG e c f HM HC HF HL Fwd it1 (Some j) P') as (b & it2 & p2 & E2 & A2 & P2 & V2). cbn [do_move ahead] in *.
    destruct P as [Hi HA]. replace (S j <? length (uniq keys)) with true in A2 by lia. subst p2.
    exists it2. split; [|eapply same_placed; eauto; split; auto]. rewrite E2. destruct P2 as [_ P2].
    rewrite V2, (it_at_valid _ _ _ _ P2). auto.
  - cbn in A. subst p'. cbn in P'. congruence.
Qed.

Lemma iter_next_prev : forall e c keys f it it1, machine e -> settings c -> good_keys keys -> ~ lone_ff keys ->
  filter_of e c keys f -> (exists p, placed keys f it p) -> it_next e f it = Ok (true, it1) ->
  exists k k' o o', In k keys /\ In k' keys /\ it_getKey it = Ok o /\ shown keys k o /\ it_getKey it1 = Ok o' /\ shown keys k' o' /\
    (exists b it2, it_prev e f it1 = Ok (b, it2) /\
      ((stuck keys (getSparseStartLevel f) k k' /\ b = false /\ it_valid it2 = false) \/
       (~ stuck keys (getSparseStartLevel f) k k' /\ b = true /\ same_view e f it2 it))).
Proof.
  intros e c keys f it it1 HM HC HG HL HF R E.
  destruct R as (p & P).
  destruct (move_placed keys HG e c f HM HC HF HL Fwd it p P) as (b & a & p' & E' & A & P' & V). cbn [do_move] in E'.
  rewrite E in E'. injection E' as <- <-. destruct p as [i|].
  - cbn [ahead] in A. destruct (Nat.ltb_spec (S i) (length (uniq keys))) as [L|L]; [|subst p'; cbn in P'; congruence]. subst p'.
    destruct (move_placed keys HG e c f HM HC HF HL Bwd it1 (Some (S i)) P') as (b & it2 & p2 & E2 & A2 & P2 & V2). cbn [do_move ahead] in *.
    destruct P as [Hi HA], P' as [_ HA'].
    exists (kk (uniq keys) i), (kk (uniq keys) (S i)). do 2 eexists.
    split; [apply kk_in; auto|]. split; [apply kk_in; auto|].
    split; [apply (key_at keys HG e c f HM HC HF i it Hi HA)|]. split; [eexists; split; [apply (dist_at keys HG i Hi)|reflexivity]|].
    split; [apply (key_at keys HG e c f HM HC HF (S i) it1 L HA')|]. split; [eexists; split; [apply (dist_at keys HG (S i) L)|reflexivity]|].
    exists b, it2. split; auto. destruct A2 as [(S2 & ->)|(S2 & ->)].
    + left. cbn in P2. split; auto. split; congruence.
    + right. split; auto. destruct P2 as [Q1 Q2]. rewrite V2, (it_at_valid _ _ _ _ Q2). split; auto.
      apply (same_placed keys HG e c f HM HC HF HL it2 it (Some i)); split; auto; lia.
  - cbn in A. subst p'. cbn in P'. congruence.
Qed.

Lemma iter_next_prev_plain : forall e c keys f it it1, machine e -> settings c -> good_keys keys -> ~ lone_ff keys ->
  filter_of e c keys f -> (forall k, In k keys -> ~ zero_start k) ->
  (exists p, placed keys f it p) -> it_next e f it = Ok (true, it1) ->
  exists it2, it_prev e f it1 = Ok (true, it2) /\ same_view e f it2 it.
Proof.
  intros e c keys f it it1 HM HC HG HL HF NZ R E.
  destruct (iter_next_prev e c keys f it it1 HM HC HG HL HF R E) as (k & k' & o & o' & K1 & K2 & _ & _ & _ & _ & b & it2 & P & Q).
  exists it2. destruct Q as [([(S & _)|(S & _)] & _)|(_ & -> & S)]; [exfalso; apply (NZ k K1 S)|exfalso|auto].
  apply (NZ k K1). rewrite S. exists []. reflexivity.
Qed.

Lemma iter_suffix : forall e c keys f it, machine e -> settings c -> good_keys keys -> ~ lone_ff keys ->
  filter_of e c keys f -> cf_rlen c <= 63 -> (exists p, placed keys f it p) -> it_valid it = true ->
  exists k d s ks, In k keys /\ dist_len keys k d /\ it_getKey it = Ok (firstn d k) /\
    it_getSuffix e f it = Ok s /\ good_suffix c k d s /\ it_getKeyWithSuffix e f it = Ok ks /\ good_keysuf c k d ks.
Proof.
  intros e c keys f it HM HC HG HL HF L R V.
  destruct R as ([i|] & P); [|cbn in P; congruence].
  destruct P as [Hi HA]. destruct (look_at keys HG e c f HM HC HF HL i it Hi HA) as (v & E & (d & D & _ & VK & VS) & _ & _).
  destruct (VS L) as [S1 S2]. unfold look in E. rewrite V in E.
  destruct (it_getKey it) as [k|] eqn:EK; cbn [bind] in E; [|discriminate].
  destruct (it_getSuffix e f it) as [s|] eqn:ES; cbn [bind] in E; [|discriminate].
  destruct (it_getKeyWithSuffix e f it) as [ks|] eqn:EW; cbn [bind] in E; [|discriminate].
  injection E as <-. cbn in *. exists (kk (uniq keys) i), d, s, ks. split; [apply kk_in; auto|]. split; auto. split; [f_equal; exact VK|]. auto.
Qed.

Lemma iter_suffix64 : forall e c keys f it, machine e -> settings c -> good_keys keys -> ~ lone_ff keys ->
  filter_of e c keys f -> cf_type c = kReal -> cf_rlen c = 64 -> (exists p, placed keys f it p) -> it_valid it = true ->
  exists o, it_getKey it = Ok o /\ it_getSuffix e f it = Ok (64, Some 0%N) /\ it_getKeyWithSuffix e f it = Ok (o, 0).
Proof.
  intros e c keys f it HM HC HG HL HF T L R V.
  destruct R as ([i|] & P); [|cbn in P; congruence].
  destruct P as [Hi HA]. destruct (look_at keys HG e c f HM HC HF HL i it Hi HA) as (v & E & _ & Q & _).
  destruct (Q L (or_introl T)) as [S1 S2]. unfold look in E. rewrite V in E.
  destruct (it_getKey it) as [k|] eqn:EK; cbn [bind] in E; [|discriminate].
  destruct (it_getSuffix e f it) as [s|] eqn:ES; cbn [bind] in E; [|discriminate].
  destruct (it_getKeyWithSuffix e f it) as [ks|] eqn:EW; cbn [bind] in E; [|discriminate].
  injection E as <-. cbn in *. exists k. subst. auto.
Qed.
