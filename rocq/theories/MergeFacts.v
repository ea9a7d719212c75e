(** Filters of a key list and of parts of it. *)
From Coq Require Import Arith List NArith Bool Lia.
From Verif Require Import Res Config Hash Spec SpecApi SpecFilter SpecIter SpecRange SpecMerge Builder Surf PointFacts DependFacts SpecExact ExactFacts FitFacts KeyFacts BuilderFacts.
Import ListNotations.

Lemma dist_grow : forall a keys k d d', (forall x, In x a -> In x keys) -> dist_len a k d -> dist_len keys k d' -> d <= d'.
Proof.
  intros a keys k d d' I (_ & _ & D) (D1' & D2' & _). destruct (le_lt_dec d d') as [|L]; [assumption|exfalso].
  destruct (D d') as (k' & K & NE & E); [lia|]. exact (D2' k' (I k' K) NE E).
Qed.
Lemma firstn_less : forall (A : Type) d d' (x y : list A), d <= d' -> firstn d' x = firstn d' y -> firstn d x = firstn d y.
Proof. intros A d d' x y L E. rewrite <- (Nat.min_l d d' L), <- !firstn_firstn, E. reflexivity. Qed.
Lemma cut_same : forall (A : Type) d (x y : list A), firstn d x = firstn d y -> length y < d -> x = y.
Proof.
  intros A d x y E L. assert (length (firstn d x) = length (firstn d y)) as LE by congruence. rewrite !firstn_length in LE.
  rewrite !firstn_all2 in E by lia. exact E.
Qed.
Lemma bits_app : forall x y, key_bits (x ++ y) = key_bits x ++ key_bits y.
Proof. intros x y. unfold key_bits. apply flat_map_app. Qed.
Lemma bits_split : forall k d d', d <= d' -> key_bits (skipn d k) = key_bits (skipn d (firstn d' k)) ++ key_bits (skipn d' k).
Proof.
  intros k d d' L. rewrite <- bits_app. f_equal. rewrite <- (firstn_skipn d' k) at 1. destruct (le_lt_dec d' (length k)) as [C|C].
  - rewrite skipn_app, firstn_length. replace (d - Nat.min d' (length k)) with 0 by lia. reflexivity.
  - rewrite (skipn_all2 k) by lia. rewrite !app_nil_r. reflexivity.
Qed.
Lemma firstn_pre : forall (A : Type) n (x y z : list A), firstn n y = firstn n z -> firstn n (x ++ y) = firstn n (x ++ z).
Proof.
  intros A n x y z E. rewrite !firstn_app. f_equal. apply (firstn_less _ (n - length x) n); [lia|exact E].
Qed.

(** the bits of one byte, after a longer common part *)
Lemma next_short : forall k q d d' n, d < d' -> n <= 8 -> firstn d' q = firstn d' k -> next_bits q d n = next_bits k d n.
Proof.
  intros k q d d' n L N E. destruct (le_lt_dec d' (length k)) as [C|C]; [|rewrite (cut_same _ _ _ _ E C); reflexivity].
  assert (LQ : d' <= length q) by (assert (length (firstn d' q) = length (firstn d' k)) as X by congruence; rewrite !firstn_length in X; lia).
  unfold next_bits. rewrite (bits_split k d d'), (bits_split q d d') by lia. rewrite E, !app_length, !firstn_app.
  assert (n <= length (key_bits (skipn d (firstn d' k)))) as B by (rewrite key_bits_length, skipn_length, firstn_length; lia).
  replace (n - length (key_bits (skipn d (firstn d' k)))) with 0 by lia. rewrite !firstn_O.
  rewrite !(proj2 (Nat.leb_le _ _)) by lia. reflexivity.
Qed.
(** complete suffixes *)
Lemma next_long : forall k q d d' n b, d <= d' -> firstn d' q = firstn d' k -> next_bits k d' n = Some b -> next_bits q d' n = Some b ->
  next_bits q d n = next_bits k d n.
Proof.
  intros k q d d' n b L E HK HQ. unfold next_bits in *. rewrite (bits_split k d d'), (bits_split q d d') by lia. rewrite E, !app_length.
  destruct (n <=? length (key_bits (skipn d' k))) eqn:K; [|discriminate]. destruct (n <=? length (key_bits (skipn d' q))) eqn:Q; [|discriminate].
  apply Nat.leb_le in K. apply Nat.leb_le in Q. rewrite !(proj2 (Nat.leb_le _ _)) by lia. f_equal. apply firstn_pre. congruence.
Qed.

Lemma matches_part : forall c keys a k q, (forall x, In x a -> In x keys) -> good_keys a -> In k a ->
  ~ keeps_real c \/ cf_rlen c <= 8 \/ full_suffixes c keys q -> matches c keys k q -> matches c a k q.
Proof.
  intros c keys a k q I GA K H (d' & D' & E & A). destruct (dist_exists a GA k K) as (d & D). exists d. split; [exact D|].
  pose proof (dist_grow _ _ _ _ _ I D D') as L. split; [exact (firstn_less _ _ _ _ _ L E)|].
  destruct (Nat.eq_dec d d') as [->|NE]; [exact A|]. unfold admits in *.
  assert (NB : keeps_real c -> (cf_type c = kReal -> next_bits k d' (cf_rlen c) = None \/ all_zero (next_bits0 k d' (cf_rlen c)) \/ next_bits q d' (cf_rlen c) = next_bits k d' (cf_rlen c)) ->
    (cf_type c = kMixed -> next_bits0 k d' (cf_rlen c) = next_bits0 q d' (cf_rlen c)) -> next_bits q d (cf_rlen c) = next_bits k d (cf_rlen c)).
  { intros KR X1 X2. destruct H as [H|[H|H]]; [contradiction|apply (next_short k q d d'); auto; lia|].
    destruct (H k d' (I k K) D' E) as (F1 & F2 & F3). destruct (next_bits k d' (cf_rlen c)) as [b|] eqn:B; [|congruence].
    apply (next_long k q d d' _ b L E B). unfold keeps_real in KR. destruct KR as [T|T].
    - destruct (X1 T) as [X|[X|X]]; [discriminate|destruct (F2 T X)|exact X].
    - specialize (F3 T). specialize (X2 T). unfold next_bits0 in X2. rewrite B in X2. destruct (next_bits q d' (cf_rlen c)); congruence. }
  destruct (cf_type c) eqn:T; auto.
  - unfold keeps_real in NB. rewrite T in NB. rewrite NB; [destruct (next_bits k d (cf_rlen c)); auto|left; reflexivity| |discriminate].
    intros _. destruct (next_bits k d' (cf_rlen c)) as [b|] eqn:B; [|left; reflexivity]. right.
    unfold next_bits0. rewrite B. exact A.
  - destruct A as [A1 A2]. split; [exact A1|]. unfold keeps_real in NB. rewrite T in NB. unfold next_bits0 at 1 2. 
    rewrite NB; [reflexivity|right; reflexivity|discriminate|intros _; exact A2].
Qed.

Section Merge.
Variables (e : env) (c : config) (keys a b : list bytes) (f fa fb : surf) (q : bytes).
Hypothesis HM : machine e. Hypothesis HC : settings c.
Hypothesis HG : good_keys keys. Hypothesis HL : ~ lone_ff keys. Hypothesis HF : filter_of e c keys f. Hypothesis HP : padded e c keys f.
Hypothesis HS : parts keys a b.
Hypothesis GA : good_keys a. Hypothesis LA : ~ lone_ff a. Hypothesis FA : filter_of e c a fa.
Hypothesis HQ : is_bytes q. Hypothesis HZ : cf_type c <> kNone \/ ~ In 0 q.
Hypothesis HR : ~ keeps_real c \/ cf_rlen c <= 8 \/ full_suffixes c keys q.

Lemma merge_grow : lookupKey e f q = Ok true -> lookupKey e fa q = Ok true \/ exists k, In k b /\ ~ In k a /\ matches c keys k q.
Proof.
  intros T. destruct (point_sound e c keys f q HM HC HG HL HP HF HQ T) as [(k & K & M)|[Z1 Z2]]; [|exfalso; tauto].
  destruct (in_dec (list_eq_dec Nat.eq_dec) k a) as [KA|KA].
  - left. apply (point_complete e c a fa q k HM HC GA LA FA HQ KA). apply (matches_part c keys a k q); auto. intros x X. apply HS. left. exact X.
  - right. exists k. split; [|split; [exact KA|exact M]]. apply HS in K. tauto.
Qed.
Hypothesis GB : good_keys b. Hypothesis LB : ~ lone_ff b. Hypothesis FB : filter_of e c b fb.
Lemma merge_point : lookupKey e f q = Ok true -> lookupKey e fa q = Ok true \/ lookupKey e fb q = Ok true.
Proof.
  intros T. destruct (merge_grow T) as [X|(k & K & _ & M)]; [left; exact X|right].
  apply (point_complete e c b fb q k HM HC GB LB FB HQ K). apply (matches_part c keys b k q); auto. intros x X. apply HS. right. exact X.
Qed.
End Merge.

(** ** Ranges, without real suffixes *)
Section Part.
Variables (e : env) (c : config) (keys a : list bytes) (f fa : surf).
Hypothesis HM : machine e. Hypothesis HC : settings c. Hypothesis NR : ~ keeps_real c.
Hypothesis HG : good_keys keys. Hypothesis HI : forall x, In x a -> In x keys.
Hypothesis GA : good_keys a. Hypothesis LA : ~ lone_ff a. Hypothesis FA : filter_of e c a fa.
Notation h := (getSparseStartLevel f).
Notation ha := (getSparseStartLevel fa).

Lemma follows_part : forall k q, In k a -> follows keys k q -> follows a k q.
Proof.
  intros k q K (d' & D' & E). destruct (dist_exists a GA k K) as (d & D). exists d. split; [exact D|].
  exact (firstn_less _ _ _ _ _ (dist_grow _ _ _ _ _ HI D D') E).
Qed.
Lemma inner_part : forall k, inner a k -> inner keys k.
Proof. intros k (k' & K & R). exists k'. split; [exact (HI k' K)|exact R]. Qed.
Lemma clash_part : forall r, no_clash keys r -> no_clash a r.
Proof.
  intros r N k d K D. destruct (dist_exists keys HG k (HI k K)) as (d' & D'). specialize (N k d' (HI k K) D').
  pose proof (dist_grow _ _ _ _ _ HI D D'). lia.
Qed.
Lemma passed_part : forall l li k, In k a -> (li = false -> ~ inner keys l) -> passed c a ha l li k -> passed c keys h l li k.
Proof.
  intros l li k K X [[P1 P2]|[[P _]|(P1 & P2 & P3 & _)]]; [|contradiction|exfalso; apply (X P2); subst; apply inner_part; exact P3].
  left. split; [exact P1|]. intros F. apply P2. apply follows_part; assumption.
Qed.
Lemma below_reaches : forall k r, In k a -> klt k r -> reaches c a ha k r.
Proof.
  intros k r K L. right. destruct (dist_exists a GA k K) as (d & D). exists d. split; [exact D|].
  destruct (list_eq_dec Nat.eq_dec (firstn d r) (firstn d k)) as [E|E]; [left; split; [exact E|contradiction]|right].
  split; [exact E|]. destruct (firstn_kle d k) as [F|F]; [eapply klt_trans; eauto|rewrite F; exact L].
Qed.
Lemma reaches_cause : forall k r, (forall k, In k keys -> inner keys k -> length k < length r -> kle k r) -> In k keys ->
  reaches c keys h k r -> klt k r \/ follows keys k r.
Proof.
  intros k r NI K [(C1 & C2 & _)|(d & D & [[F _]|[F L]])].
  - left. destruct (NI k K C1 C2) as [L|L]; [exact L|subst; lia].
  - right. exists d. auto.
  - left. exact (klt_whole d k r L F).
Qed.

Lemma range_part : forall it l li r ri i, member_iter e fa it -> is_bytes l -> is_bytes r -> ~ stray e a ha l -> no_clash keys r ->
  (li = false -> ~ inner keys l) -> (forall k, In k keys -> inner keys k -> length k < length r -> kle k r) ->
  In (nth i (uniq keys) []) a -> seek_at c keys h l li (Some i) -> reaches c keys h (nth i (uniq keys) []) r ->
  range_after e fa it l li r ri = Ok true.
Proof.
  intros it l li r ri i MI Bl Br TA NC XI NI KA (Hi & NP & _) R. set (k := nth i (uniq keys) []) in *.
  destruct (range_exact e c a fa HM HC GA LA FA it l li r ri MI Bl Br TA (clash_part r NC)) as (b & E & X). rewrite E. f_equal. apply X.
  destruct (seek_exact e c a fa HM HC GA LA FA l li Bl TA) as (_ & p & _ & _ & P & _).
  assert (NPA : ~ passed c a ha l li k) by (intros Q; apply NP; apply passed_part; assumption).
  destruct p as [j|]; [|exfalso; apply NPA, P; exact KA]. exists j. split; [exact P|]. destruct P as (Hj & _ & Bef).
  destruct (in_keys_nth a k KA) as (x & Hx & Ex). assert (JX : j <= x) by (destruct (le_lt_dec j x) as [|L]; [assumption|exfalso; apply NPA; rewrite <- Ex; apply Bef; exact L]).
  assert (JA : In (nth j (uniq a) []) a) by (apply (in_nth a); exact Hj).
  assert (LE : nth j (uniq a) [] = k \/ klt (nth j (uniq a) []) k).
  { destruct (Nat.eq_dec j x) as [->|NE]; [left; exact Ex|right]. rewrite <- Ex. apply sorted_nth; [apply BuilderFacts.uniq_sorted; apply GA|lia|exact Hx]. }
  destruct (reaches_cause k r NI (HI k KA) R) as [L|F].
  - apply below_reaches; [exact JA|]. destruct LE as [->|LE]; [exact L|eapply klt_trans; eauto].
  - apply (follows_part k r KA) in F. destruct F as (d & D & F). destruct LE as [->|LE].
    + right. exists d. split; [exact D|]. left. split; [exact F|contradiction].
    + apply below_reaches; [exact JA|]. destruct (klt_total (nth j (uniq a) []) r) as [L|[L|L]]; [exact L|exfalso|exfalso];
        destruct D as (_ & D & _); apply (D (nth j (uniq a) []) JA); try (intros Q; rewrite Q in LE; exact (klt_irr _ LE)).
      * rewrite L. exact F.
      * rewrite <- F. apply (between d r _ k); [left; exact L|left; exact LE|exact F].
Qed.
End Part.

Section Ranges.
Variables (e : env) (c : config) (keys a b : list bytes) (f fa fb : surf).
Hypothesis HM : machine e. Hypothesis HC : settings c. Hypothesis NR : ~ keeps_real c.
Hypothesis HG : good_keys keys. Hypothesis HL : ~ lone_ff keys. Hypothesis HF : filter_of e c keys f.
Hypothesis HS : parts keys a b.
Hypothesis GA : good_keys a. Hypothesis LA : ~ lone_ff a. Hypothesis FA : filter_of e c a fa.
Hypothesis GB : good_keys b. Hypothesis LB : ~ lone_ff b. Hypothesis FB : filter_of e c b fb.

Lemma merge_range : forall it ita itb l li r ri, member_iter e f it -> member_iter e fa ita -> member_iter e fb itb -> is_bytes l -> is_bytes r ->
  ~ stray e keys (getSparseStartLevel f) l -> ~ stray e a (getSparseStartLevel fa) l -> ~ stray e b (getSparseStartLevel fb) l ->
  no_clash keys r -> (li = false -> ~ inner keys l) -> (forall k, In k keys -> inner keys k -> length k < length r -> kle k r) ->
  range_after e f it l li r ri = Ok true -> range_after e fa ita l li r ri = Ok true \/ range_after e fb itb l li r ri = Ok true.
Proof.
  intros it ita itb l li r ri MI MA MB Bl Br T TA TB NC XI NI H.
  destruct (range_exact e c keys f HM HC HG HL HF it l li r ri MI Bl Br T NC) as (x & E & X). rewrite E in H. injection H as ->.
  destruct (proj1 X eq_refl) as (i & Q & R). assert (K : In (nth i (uniq keys) []) keys) by (apply (in_nth keys); exact (proj1 Q)).
  apply HS in K. destruct K as [K|K]; [left; apply (range_part e c keys a f fa) with (i := i)|right; apply (range_part e c keys b f fb) with (i := i)]; auto;
    intros y Y; apply HS; auto.
Qed.
End Ranges.
