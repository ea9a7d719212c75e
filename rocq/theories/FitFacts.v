(** How the answers of one filter fit together. *)
From Coq Require Import Arith List Sorted NArith ZArith Bool Lia ZifyN ZifyNat ZifyBool.
From Verif Require Import Res Config Builder Dense Sparse Surf Spec SpecApi SpecFilter SpecIter SpecRange SpecExact SpecDepend
  KeyFacts IterKey BuilderFacts StructFacts PointFacts ExactFacts DependFacts.
Import ListNotations.

Lemma kle_tr : forall a b c, kle a b -> kle b c -> kle a c.
Proof.
  intros a b c [H|<-] H2; [|exact H2]. destruct H2 as [H2|<-]; [left; eapply klt_trans; eauto|left; exact H].
Qed.
Lemma between : forall d a x b, kle a x -> kle x b -> firstn d a = firstn d b -> firstn d x = firstn d a.
Proof.
  induction d as [|d IH]; intros a x b H1 H2 E; [reflexivity|].
  destruct H1 as [H1|<-]; [|reflexivity]. destruct H2 as [H2|<-]; [|congruence].
  destruct x as [|y x]; [destruct a; destruct H1|]. destruct b as [|z b]; [destruct H2|].
  destruct a as [|w a]; [discriminate|]. cbn [firstn] in *. injection E as -> E. cbn [klt] in *.
  destruct H1 as [H1|[-> H1]], H2 as [H2|[E2 H2]]; try lia. f_equal. apply (IH a x b); auto; left; assumption.
Qed.
Lemma klt_whole : forall d k l, klt (firstn d k) l -> firstn d l <> firstn d k -> klt k l.
Proof.
  induction d as [|d IH]; intros k l H N; [destruct N; reflexivity|]. destruct l as [|y l]; [destruct (firstn (S d) k); destruct H|].
  destruct k as [|x k]; [exact I|]. cbn [firstn klt] in *. destruct H as [H|[-> H]]; [left; exact H|right; split; [reflexivity|]].
  apply IH; [exact H|]. intros E. apply N. f_equal. exact E.
Qed.
Lemma firstn_kle : forall d k, kle (firstn d k) k.
Proof.
  induction d as [|d IH]; intros [|x k]; cbn [firstn]; [right; reflexivity|left; exact I|right; reflexivity|].
  destruct (IH k) as [H|H]; [left; right; auto|right; f_equal; exact H].
Qed.

Lemma sorted_nth : forall l, StronglySorted klt l -> forall i j, i < j -> j < length l -> klt (nth i l []) (nth j l []).
Proof.
  induction 1 as [|a l H IH F]; intros i j L Hj; [cbn in Hj; lia|]. destruct j as [|j]; [lia|]. cbn [length] in Hj.
  destruct i as [|i]; cbn [nth].
  - rewrite Forall_forall in F. apply F, nth_In. lia.
  - apply IH; lia.
Qed.
Lemma value_zero : forall b, bits_value b = 0%N -> all_zero b.
Proof.
  induction b as [|x b IH]; intros H y Y; [destruct Y|]. change (x :: b) with ([x] ++ b) in H. rewrite bits_value_app in H.
  assert (X : x = false /\ bits_value b = 0%N).
  { assert (P := N.pow_nonzero 2 (N.of_nat (length b)) ltac:(discriminate)). destruct x; [|split; [reflexivity|lia]].
    exfalso. change (bits_value [true]) with 1%N in H. lia. }
  destruct X as [-> X]. destruct Y as [<-|Y]; [reflexivity|]. apply IH; auto.
Qed.
(** a key at an inner node is followed by itself only *)
Lemma cut_follow : forall keys k q d, dist_len keys k d -> firstn d q = firstn d k -> forall h, ~ cut_off keys h k q.
Proof.
  intros keys k q d (_ & D2 & _) F h ((k' & I' & N' & E') & L & _).
  assert (LK : length k < d).
  { apply Nat.nle_gt. intros LD. apply (D2 k' I' N'). rewrite <- E', firstn_firstn. f_equal. lia. }
  rewrite (firstn_all2 k) in F by lia. apply (f_equal (@length _)) in F. rewrite firstn_length in F. lia.
Qed.

Section Fit.
Variables (c : config) (keys : list bytes).
Hypothesis HG : good_keys keys.
Notation K := (uniq keys).

Lemma dist_one : forall k d d', dist_len keys k d -> dist_len keys k d' -> d = d'.
Proof.
  intros k d d' (A1 & A2 & A3) (B1 & B2 & B3). destruct (lt_eq_lt_dec d d') as [[L|E]|L]; [|exact E|]; exfalso.
  - destruct (B3 d ltac:(lia)) as (k' & I & N & E). exact (A2 k' I N E).
  - destruct (A3 d' ltac:(lia)) as (k' & I & N & E). exact (B2 k' I N E).
Qed.

(** a key that a seek for [l] goes past is not above any right end from [l] on *)
Lemma passed_reaches : forall h l li r k, In k keys -> is_bytes l -> is_bytes r -> kle l r -> l = r \/ (not_short c keys l /\ not_short c keys r) ->
  passed c keys h l li k -> reaches c keys h k r.
Proof.
  intros h l li r k Hk Bl Br LR NS P. right. destruct (dist_exists keys HG k Hk) as [d D]. exists d. split; [exact D|].
  destruct (list_eq_dec Nat.eq_dec (firstn d r) (firstn d k)) as [Y|Y].
  - left. split; [exact Y|]. intros KR. destruct P as [(L & NF)|[(_ & d' & D' & E & L)|(E & _)]].
    + exfalso. apply NF. exists d. split; [exact D|]. apply (between d k l r); [left; exact L|exact LR|congruence].
    + assert (d' = d) as -> by (eapply dist_one; eauto). destruct NS as [<-|[NL NR]]; [lia|].
      assert (suffix_number c l d <= suffix_number c r d)%N; [|lia].
      apply number_order; auto; [congruence|apply (NL k d)|apply (NR k d)]; auto.
    + subst l. destruct NS as [<-|[NL NR]]; [lia|]. apply number_order; auto; [apply (NL k d)|apply (NR k d)]; auto.
  - right. split; [exact Y|]. destruct P as [(L & NF)|[(_ & d' & D' & E & L)|(E & _)]].
    + assert (X : klt k r) by (destruct LR as [LR|<-]; [eapply klt_trans; eauto|exact L]).
      destruct (firstn_kle d k) as [Z|Z]; [eapply klt_trans; eauto|rewrite Z; exact X].
    + assert (d' = d) as -> by (eapply dist_one; eauto). rewrite <- E. destruct (kle_firstn d l r LR) as [X|X]; [congruence|exact X].
    + subst l. destruct (kle_firstn d k r LR) as [X|X]; [congruence|exact X].
Qed.

Lemma reaches_mono : forall h r r' k, In k keys -> is_bytes r -> is_bytes r' -> kle r r' -> not_short c keys r -> not_short c keys r' ->
  (cut_off keys h k r -> kle k r') -> reaches c keys h k r -> reaches c keys h k r'.
Proof.
  intros h r r' k Hk Br Br' LR NS NS' C R. right. destruct (dist_exists keys HG k Hk) as [d D]. exists d. split; [exact D|].
  destruct R as [R|(d' & D' & R)].
  - specialize (C R). destruct (list_eq_dec Nat.eq_dec (firstn d r') (firstn d k)) as [Y|Y].
    + left. split; [exact Y|]. intros KR. assert (E : r' = k); [|subst; lia].
      destruct R as ((k' & I' & N' & E') & _). destruct D as (_ & D2 & _).
      assert (LK : length k < d).
      { apply Nat.nle_gt. intros L. apply (D2 k' I' N'). rewrite <- E', firstn_firstn. f_equal. lia. }
      rewrite (firstn_all2 k) in Y by lia.
      assert (LR' : length (firstn d r') < d) by (rewrite Y; exact LK). rewrite firstn_length in LR'.
      rewrite firstn_all2 in Y by lia. exact Y.
    + right. split; [exact Y|]. destruct (kle_firstn d k r' C) as [X|X]; [congruence|exact X].
  - assert (d' = d) as -> by (eapply dist_one; eauto).
    destruct (list_eq_dec Nat.eq_dec (firstn d r') (firstn d k)) as [Y|Y].
    + left. split; [exact Y|]. intros KR. destruct R as [(E & L)|(N & L)].
      * specialize (L KR). assert (suffix_number c r d <= suffix_number c r' d)%N; [|lia].
        apply number_order; auto; [congruence|apply (NS k d)|apply (NS' k d)]; auto.
      * exfalso. apply N. assert (X : klt k r) by (apply (klt_whole d); auto).
        apply (between d k r r'); [left; exact X|exact LR|congruence].
    + right. split; [exact Y|]. destruct R as [(E & L)|(N & L)].
      * rewrite <- E. destruct (kle_firstn d r r' LR) as [X|X]; [congruence|exact X].
      * destruct LR as [LR|<-]; [eapply klt_trans; eauto|exact L].
Qed.

(** a seek goes past more keys if its bound is higher *)
Lemma passed_mono : forall h l li l' li' k, In k keys -> is_bytes l -> is_bytes l' -> kle l l' -> (l = l' -> li = false -> li' = false) ->
  l = l' \/ (not_short c keys l /\ not_short c keys l') ->
  passed c keys h l li k -> passed c keys h l' li' k.
Proof.
  intros h l li l' li' k Hk Bl Bl' LL LI NS P. destruct (dist_exists keys HG k Hk) as [d D].
  destruct LL as [LL|EQ].
  2: { subst l'. destruct P as [P|[P|(A & B & C)]]; [left; exact P|right; left; exact P|right; right]. split; [exact A|]. split; [apply LI; auto|exact C]. }
  destruct NS as [EQ|[NS NS']]; [subst l'; destruct (klt_irr _ LL)|].
  destruct P as [(L & NF)|[(KR & d' & D' & E & L)|(E & B & I' & J)]].
  - left. split; [eapply klt_trans; eauto|]. intros (d' & D' & F). apply NF. exists d'. split; [exact D'|].
    apply (between d' k l l'); [left; exact L|left; exact LL|congruence].
  - assert (d' = d) as -> by (eapply dist_one; eauto).
    destruct (list_eq_dec Nat.eq_dec (firstn d l') (firstn d k)) as [Y|Y].
    + right. left. split; [exact KR|]. exists d. split; [exact D|]. split; [exact Y|].
      assert (suffix_number c l d <= suffix_number c l' d)%N; [|lia].
      apply number_order; auto; [congruence|left; exact LL|apply (NS k d)|apply (NS' k d)]; auto.
    + left. split.
      * apply (klt_whole d); [|exact Y]. rewrite <- E. destruct (kle_firstn d l l' (or_introl LL)) as [X|X]; [congruence|exact X].
      * intros (d' & D'' & F). assert (d' = d) as -> by (eapply dist_one; eauto). contradiction.
  - subst l. left. split; [exact LL|]. intros (d' & D' & F).
    destruct I' as (k' & I' & N' & E'). destruct D' as (_ & D2 & _).
    assert (LK : length k < d').
    { apply Nat.nle_gt. intros L. apply (D2 k' I' N'). rewrite <- E', firstn_firstn. f_equal. lia. }
    rewrite (firstn_all2 k) in F by lia.
    assert (LR' : length (firstn d' l') < d') by (rewrite F; exact LK). rewrite firstn_length in LR'.
    rewrite firstn_all2 in F by lia. subst l'. exact (klt_irr _ LL).
Qed.

(** the same if a key further on is not above [r] *)
Lemma passed_next : forall h l li r j i, j < i -> i < length K -> kle l r -> (forall k, In k keys -> inner keys k -> length k < length r -> kle k r) ->
  passed c keys h l li (nth j K []) -> reaches c keys h (nth i K []) r -> reaches c keys h (nth j K []) r.
Proof.
  intros h l li r j i L Hi LR NI P R. set (k := nth j K []) in *. set (k2 := nth i K []) in *.
  assert (SS : StronglySorted klt K) by (apply uniq_sorted; apply HG).
  assert (KK : klt k k2) by (apply sorted_nth; auto).
  assert (Hk : In k keys) by (apply (in_nth keys); lia). assert (Hk2 : In k2 keys) by (apply (in_nth keys); lia).
  destruct (dist_exists keys HG k Hk) as [d D]. right. exists d. split; [exact D|].
  assert (NE : firstn d k2 <> firstn d k).
  { destruct D as (_ & D2 & _). apply D2; [exact Hk2|]. intros E. rewrite E in KK. exact (klt_irr _ KK). }
  assert (NR : firstn d r <> firstn d k).
  { intros F.
    assert (K2R : ~ kle k2 r) by (intros Q; apply NE; apply (between d k k2 r); [left; exact KK|exact Q|congruence]).
    destruct R as [(A & B & _)|(d2 & D2 & [[F2 _]|[F2 Q]])].
    - apply K2R. exact (NI k2 Hk2 A B).
    - destruct (le_lt_dec d d2) as [LD|LD].
      + apply NE. rewrite <- F. rewrite <- (Nat.min_l d d2 LD), <- !firstn_firstn, F2. reflexivity.
      + destruct D2 as (_ & D2 & _). apply (D2 k Hk); [intros E; rewrite E in KK; exact (klt_irr _ KK)|].
        rewrite <- F2. rewrite <- (Nat.min_l d2 d) by lia. rewrite <- !firstn_firstn, F. reflexivity.
    - apply K2R. left. apply (klt_whole d2); auto. }
  right. split; [exact NR|]. destruct P as [(X & NF)|[(_ & d' & D' & E & _)|(E & _)]].
  - assert (Y : klt k r) by (destruct LR as [LR|<-]; [exact (klt_trans _ l _ X LR)|exact X]).
    destruct (firstn_kle d k) as [Z|Z]; [exact (klt_trans _ k _ Z Y)|rewrite Z; exact Y].
  - assert (d' = d) as -> by (eapply dist_one; eauto). rewrite <- E. destruct (kle_firstn d l r LR) as [X|X]; [congruence|exact X].
  - destruct (kle_firstn d l r LR) as [X|X]; rewrite <- E in X; [congruence|exact X].
Qed.

(** the key that [q] follows is where a seek for [q] leads, unless its real suffix is below that of [q] *)
Lemma follow_at : forall h q i, i < length K -> (exists d, dist_len keys (nth i K []) d /\ firstn d q = firstn d (nth i K []) /\
    (keeps_real c -> (suffix_number c q d <= suffix_number c (nth i K []) d)%N)) ->
  seek_at c keys h q true (Some i).
Proof.
  intros h q i Hi (d & D & F & L). set (k := nth i K []) in *. split; [exact Hi|]. fold k. split.
  - intros [(_ & NF)|[(KR & d' & D' & _ & L')|(_ & X & _)]]; [apply NF; exists d; auto| |discriminate].
    assert (d' = d) as -> by (eapply dist_one; eauto). specialize (L KR). lia.
  - intros x Hx. left. set (y := nth x K []).
    assert (SS : StronglySorted klt K) by (apply uniq_sorted; apply HG).
    assert (YK : klt y k) by (apply sorted_nth; auto).
    assert (NY : y <> k) by (intros E; rewrite E in YK; exact (klt_irr _ YK)).
    assert (IY : In y keys) by (apply in_nth; lia).
    assert (NE : firstn d y <> firstn d k) by (destruct D as (_ & D2 & _); apply D2; auto).
    assert (YQ : klt y q).
    { destruct (klt_total y q) as [T|[T|T]]; [exact T| |]; exfalso; apply NE.
      - rewrite T. exact F.
      - rewrite <- F. apply (between d q y k); [left; exact T|left; exact YK|exact F]. }
    split; [exact YQ|]. intros (d' & D' & F').
    destruct (le_lt_dec d d') as [LD|LD].
    + apply NE. rewrite <- (Nat.min_l d d' LD), <- !firstn_firstn, <- F', !firstn_firstn, Nat.min_l by exact LD. exact F.
    + destruct D' as (_ & D2 & _). apply (D2 k); [apply in_nth; exact Hi|congruence|].
      rewrite <- F'. rewrite <- (Nat.min_l d' d) by lia. rewrite <- !firstn_firstn, F. reflexivity.
Qed.

Lemma in_keys_nth : forall k, In k keys -> exists i, i < length K /\ nth i K [] = k.
Proof. intros k H. apply uniq_in in H. destruct (In_nth K k [] H) as (i & A & B). exists i. auto. Qed.
End Fit.

Lemma zero_value : forall b, all_zero b -> bits_value b = 0%N.
Proof.
  induction b as [|x b IH]; intros H; [reflexivity|]. rewrite (H x) by (left; reflexivity). change (false :: b) with ([false] ++ b).
  rewrite bits_value_app, IH by (intros y Y; apply H; right; exact Y). reflexivity.
Qed.

(** For what lookupKey takes for [k], the suffixes are equal, or that of [k] is zero. *)
Lemma admits_number : forall c k q d, keeps_real c -> admits c k q d -> suffix_number c k d = suffix_number c q d \/ (cf_type c = kReal /\ suffix_number c k d = 0%N).
Proof.
  intros c k q d KR A. unfold keeps_real, suffix_number, admits in *. destruct (cf_type c); try (destruct KR; discriminate).
  - unfold next_bits0 at 1 3. destruct (next_bits k d (cf_rlen c)) as [b|].
    + destruct A as [A|A]; [right; split; [reflexivity|apply zero_value; exact A]|left]. unfold next_bits0. rewrite A. reflexivity.
    + right. split; [reflexivity|]. apply bits_value_zeros.
  - left. destruct A as [_ ->]. reflexivity.
Qed.

Section Api.
Variables (e : env) (c : config) (keys : list bytes) (f : surf).
Hypotheses (HM : machine e) (HC : settings c) (HG : good_keys keys) (HL : ~ lone_ff keys) (HF : filter_of e c keys f).
Notation h := (getSparseStartLevel f).
Notation K := (uniq keys).

Theorem fit_split : forall it1 it2 it3 l li r ri m mi, member_iter e f it1 -> member_iter e f it2 -> member_iter e f it3 ->
  is_bytes l -> is_bytes r -> is_bytes m -> ~ stray e keys h l -> ~ stray e keys h m -> no_clash keys r -> no_clash keys m ->
  kle l r -> (not_short c keys l /\ not_short c keys r) \/ (forall k, In k keys -> inner keys k -> length k < length r -> kle k r) ->
  range_after e f it1 l li r ri = Ok true ->
  range_after e f it2 l li m mi = Ok true \/ range_after e f it3 m true r ri = Ok true.
Proof.
  intros it1 it2 it3 l li r ri m mi I1 I2 I3 Bl Br Bm Tl Tm Nr Nm LR NS H.
  destruct (range_exact e c keys f HM HC HG HL HF it1 l li r ri I1 Bl Br Tl Nr) as (b1 & E1 & X1).
  destruct (range_exact e c keys f HM HC HG HL HF it2 l li m mi I2 Bl Bm Tl Nm) as (b2 & E2 & X2).
  destruct (range_exact e c keys f HM HC HG HL HF it3 m true r ri I3 Bm Br Tm Nr) as (b3 & E3 & X3).
  destruct (seek_exact e c keys f HM HC HG HL HF m true Bm Tm) as (_ & p & _ & _ & P & _).
  rewrite E1 in H. injection H as ->. destruct (proj1 X1 eq_refl) as (i & S & R). rewrite E2, E3.
  destruct b2; [left; reflexivity|right]. f_equal. apply X3.
  assert (NP : ~ passed c keys h m true (nth i K [])).
  { intros PM. assert (false = true); [|discriminate]. apply X2. exists i. split; [exact S|].
    apply (passed_reaches c keys HG h m true m); auto; [apply (in_nth keys); exact (proj1 S)|right; reflexivity]. }
  destruct S as (Hi & NPl & Bef).
  destruct p as [j|]; [|exfalso; apply NP, P, (in_nth keys); exact Hi]. exists j. split; [exact P|]. destruct P as (Hj & NPm & BefM).
  destruct (lt_eq_lt_dec j i) as [[L| ->]|L]; [|exact R|exfalso; apply NP, BefM; exact L].
  destruct NS as [NS|NI]; [apply (passed_reaches c keys HG h l li r); auto; apply (in_nth keys); exact Hj|].
  apply (passed_next c keys HG h l li r j i); auto.
Qed.

Theorem fit_larger : forall it1 it2 l li r ri l' li' r' ri', member_iter e f it1 -> member_iter e f it2 ->
  is_bytes l -> is_bytes r -> is_bytes l' -> is_bytes r' -> ~ stray e keys h l -> ~ stray e keys h l' -> no_clash keys r -> no_clash keys r' ->
  kle l' l -> kle l r -> kle r r' -> (l' = l -> li = true -> li' = true) ->
  (forall x, In x [l; r; l'; r'] -> not_short c keys x) ->
  (forall k, In k keys -> inner keys k -> length k < length r -> kle k r') ->
  range_after e f it1 l li r ri = Ok true -> range_after e f it2 l' li' r' ri' = Ok true.
Proof.
  intros it1 it2 l li r ri l' li' r' ri' I1 I2 Bl Br Bl' Br' Tl Tl' Nr Nr' LL LR RR LI NS NI H.
  assert (NSl : not_short c keys l) by (apply NS; cbn; auto). assert (NSr : not_short c keys r) by (apply NS; cbn; auto).
  assert (NSl' : not_short c keys l') by (apply NS; cbn; auto). assert (NSr' : not_short c keys r') by (apply NS; cbn; auto).
  destruct (range_exact e c keys f HM HC HG HL HF it1 l li r ri I1 Bl Br Tl Nr) as (b1 & E1 & X1).
  destruct (range_exact e c keys f HM HC HG HL HF it2 l' li' r' ri' I2 Bl' Br' Tl' Nr') as (b2 & E2 & X2).
  destruct (seek_exact e c keys f HM HC HG HL HF l' li' Bl' Tl') as (_ & p & _ & _ & P & _).
  rewrite E1 in H. injection H as ->. destruct (proj1 X1 eq_refl) as (i & S & R). rewrite E2. f_equal. apply X2.
  destruct S as (Hi & NPl & Bef).
  assert (MO : forall k, In k keys -> passed c keys h l' li' k -> passed c keys h l li k).
  { intros k Hk. apply (passed_mono c keys HG); auto. intros EQ F. destruct li; [rewrite LI in F; auto|reflexivity]. }
  destruct p as [j|]; [|exfalso; apply NPl, MO, P; apply (in_nth keys); exact Hi]. exists j. split; [exact P|]. destruct P as (Hj & NPm & BefM).
  destruct (lt_eq_lt_dec j i) as [[L| ->]|L].
  - apply (passed_reaches c keys HG h l li r'); auto; [apply (in_nth keys); exact Hj|eapply kle_tr; eauto].
  - apply (reaches_mono c keys HG h r r'); auto; [apply (in_nth keys); exact Hi|]. intros (A & B & _). apply NI; auto. apply (in_nth keys). exact Hi.
  - exfalso. apply NPl, MO; [apply (in_nth keys); exact Hi|]. apply BefM. exact L.
Qed.

Theorem fit_point : forall it q l li r ri, member_iter e f it -> padded e c keys f ->
  is_bytes q -> is_bytes l -> is_bytes r -> ~ stray e keys h l -> no_clash keys r ->
  kle l q -> kle q r -> (l = q -> li = true) ->
  (forall x, In x [l; q; r] -> not_short c keys x) ->
  cf_type c <> kNone \/ ~ In 0 q ->
  (cf_type c = kReal -> forall k d, In k keys -> dist_len keys k d -> firstn d q = firstn d k ->
     all_zero (next_bits0 k d (cf_rlen c)) -> all_zero (next_bits0 q d (cf_rlen c))) ->
  lookupKey e f q = Ok true -> range_after e f it l li r ri = Ok true.
Proof.
  intros it q l li r ri I1 HP Bq Bl Br Tl Nr LQ QR LI NS NZ Z H.
  assert (NSl : not_short c keys l) by (apply NS; cbn; auto). assert (NSr : not_short c keys r) by (apply NS; cbn; auto).
  assert (NSq : not_short c keys q) by (apply NS; cbn; auto).
  destruct (point_sound e c keys f q HM HC HG HL HP HF Bq H) as [(k & Hk & d & D & F & A)|[A B]]; [|destruct NZ; contradiction].
  assert (NQ : keeps_real c -> suffix_number c k d = suffix_number c q d).
  { intros KR. destruct (admits_number c k q d KR A) as [E|[T E]]; [exact E|]. rewrite E. symmetry. apply zero_value. apply (Z T k d); auto.
    apply value_zero. exact E. }
  destruct (in_keys_nth keys k Hk) as (i & Hi & Ek).
  assert (SQ : seek_at c keys h q true (Some i)).
  { apply (follow_at c keys HG); [exact Hi|]. rewrite Ek. exists d. split; [exact D|]. split; [exact F|]. intros KR. rewrite (NQ KR). lia. }
  destruct (range_exact e c keys f HM HC HG HL HF it l li r ri I1 Bl Br Tl Nr) as (b1 & E1 & X1).
  destruct (seek_exact e c keys f HM HC HG HL HF l li Bl Tl) as (_ & p & _ & _ & P & _).
  rewrite E1. f_equal. apply X1. destruct SQ as (_ & NPq & BefQ). rewrite Ek in NPq.
  assert (MO : forall x, In x keys -> passed c keys h l li x -> passed c keys h q true x).
  { intros x Hx. apply (passed_mono c keys HG); auto. intros EQ X. rewrite (LI EQ) in X. discriminate. }
  destruct p as [j|]; [|exfalso; apply NPq, MO; auto]. exists j. split; [exact P|]. destruct P as (Hj & NPl & BefL).
  destruct (lt_eq_lt_dec j i) as [[L| ->]|L].
  - apply (passed_reaches c keys HG h q true r); auto; try (apply (in_nth keys); exact Hj).
  - rewrite Ek. apply (reaches_mono c keys HG h q r); auto.
    + intros CO. exfalso. exact (cut_follow keys k q d D F h CO).
    + right. exists d. split; [exact D|]. left. split; [exact F|]. intros KR. rewrite (NQ KR). lia.
  - exfalso. apply NPq, MO; [exact Hk|]. rewrite <- Ek. apply BefL. exact L.
Qed.

(** a higher bound leads no lower *)
Theorem fit_seek : forall q incl q' incl', is_bytes q -> is_bytes q' -> ~ stray e keys h q -> ~ stray e keys h q' ->
  kle q q' -> (q = q' -> incl = false -> incl' = false) -> not_short c keys q -> not_short c keys q' ->
  exists it it' p p', moveToKeyGreaterThan e f q incl = Ok it /\ stands e c f keys it p /\
    moveToKeyGreaterThan e f q' incl' = Ok it' /\ stands e c f keys it' p' /\ no_later p p'.
Proof.
  intros q incl q' incl' Bq Bq' Tq Tq' LE LI NS NS'.
  destruct (seek_exact e c keys f HM HC HG HL HF q incl Bq Tq) as (it & p & E & S1 & P & _).
  destruct (seek_exact e c keys f HM HC HG HL HF q' incl' Bq' Tq') as (it' & p' & E' & S2 & P' & _).
  exists it, it', p, p'. repeat (split; [assumption|]).
  assert (MO : forall k, In k keys -> passed c keys h q incl k -> passed c keys h q' incl' k).
  { intros k Hk. apply (passed_mono c keys HG); auto. }
  destruct p as [i|], p' as [i'|]; cbn; auto.
  - apply Nat.nlt_ge. intros L. destruct P as (Hi & _ & B), P' as (Hi' & N & _). apply N, MO; [apply (in_nth keys); exact Hi'|].
    apply B. exact L.
  - destruct P' as (Hi' & N & _). apply N, MO; [|apply P]; apply (in_nth keys); exact Hi'.
Qed.

(** the part of a key that tells it apart is in no trap *)
Lemma cut_not_stray : forall k d, In k keys -> dist_len keys k d -> ~ stray e keys h (firstn d k).
Proof.
  intros k d Hk D.
  assert (NE : k <> []) by (destruct HG as (_ & _ & N & _); rewrite Forall_forall in N; apply N; exact Hk).
  assert (BR : forall p b r, firstn d k = p ++ b :: r -> branch keys p (Some b)).
  { intros p b r E. exists k. split; [exact Hk|].
    assert (L : length p < d).
    { pose proof (f_equal (@length _) E) as X. rewrite firstn_length, app_length in X. cbn in X. lia. }
    assert (S1 : k = p ++ b :: r ++ skipn d k).
    { rewrite <- (firstn_skipn d k) at 1. rewrite E, <- app_assoc. reflexivity. }
    rewrite S1. split; [rewrite firstn_app, Nat.sub_diag, firstn_all, app_nil_r; reflexivity|].
    rewrite nth_error_app2 by lia. rewrite Nat.sub_diag. reflexivity. }
  intros [(L & [(E & _)|(NI & k0 & k' & (I0 & _) & F & I' & N' & E')])|[(p & b & r & E & _ & _ & _ & X & _)|(p & b & r & E & _ & _ & X & _)]].
  - destruct D as (D1 & _). destruct k as [|x k]; [contradiction|]. destruct d; [lia|discriminate].
  - destruct (le_lt_dec d (length k)) as [LD|LD]; [|apply NI; rewrite firstn_all2 by lia; exact Hk].
    assert (LQ : length (firstn d k) = d) by (rewrite firstn_length; lia). rewrite LQ in *. destruct D as (_ & D2 & _).
    assert (k0 = k) as ->.
    { destruct (list_eq_dec Nat.eq_dec k0 k) as [Y|Y]; [exact Y|]. destruct (D2 k0 I0 Y F). }
    apply (D2 k' I' N'). rewrite <- (Nat.min_l d h) by lia. rewrite <- !firstn_firstn, E'. reflexivity.
  - apply X. exact (BR p b r E).
  - apply X. exact (BR p b r E).
Qed.

(** seeking the key an iterator shows leads back to it *)
Theorem fit_resume : forall it q, gotten e f keys it -> it_valid it = true -> it_getKey it = Ok q ->
  exists i it', stands e c f keys it (Some i) /\ moveToKeyGreaterThan e f q true = Ok it' /\ stands e c f keys it' (Some i).
Proof.
  intros it q Go V EK. destruct (compare_exact e c keys f HM HC HG HL HF it [] Go ltac:(constructor) V) as (i & _ & S1 & Hi & _).
  exists i. set (k := nth i K []) in *. assert (Hk : In k keys) by (apply (in_nth keys); exact Hi).
  assert (Bk : is_bytes k) by (destruct HG as (_ & B & _); rewrite Forall_forall in B; apply B; exact Hk).
  destruct (S1 [] (Some i) (path_nil _ _ _)) as (it0 & v & R & LK & _ & d & D & _ & VK & _). cbn in R. injection R as <-.
  fold k in D, VK. unfold look in LK. rewrite V, EK in LK. cbn in LK.
  assert (q = firstn d k) as ->.
  { destruct (it_getSuffix e f it); [|discriminate LK]. cbn in LK. destruct (it_getKeyWithSuffix e f it); [|discriminate LK].
    cbn in LK. injection LK as <-. exact VK. }
  assert (Bq : is_bytes (firstn d k)) by (apply is_bytes_firstn; exact Bk).
  destruct (seek_exact e c keys f HM HC HG HL HF (firstn d k) true Bq (cut_not_stray k d Hk D)) as (it' & p & E & S2 & P & _).
  exists it'. split; [exact S1|]. split; [exact E|].
  assert (P2 : seek_at c keys h (firstn d k) true (Some i)).
  { apply (follow_at c keys HG); [exact Hi|]. fold k. exists d. split; [exact D|]. split; [rewrite firstn_firstn, Nat.min_id; reflexivity|].
    intros _. assert (Z : suffix_number c (firstn d k) d = 0%N); [|lia].
    unfold suffix_number, next_bits0, next_bits. rewrite skipn_all2 by (rewrite firstn_length; lia). cbn [key_bits flat_map length].
    destruct (cf_rlen c); [reflexivity|apply bits_value_zeros]. }
  rewrite (seek_at_unique keys HG c h _ _ _ _ P P2) in S2. exact S2.
Qed.
End Api.
