(** From the property vocabulary to the trie, and point lookups in that
    vocabulary. *)
From Coq Require Import Arith List NArith ZArith Bool Lia ZifyN ZifyNat ZifyBool Sorting.Sorted.
From Verif Require Import Res Word Config Hash BitFacts WordFacts Bitvector BitvectorFacts RankSelectFacts Suffix Spec SpecApi SuffixFacts Builder KeyFacts
  Trie BuilderFacts LabelVector DenseBuild StructFacts SpecFilter SerialFacts FilterFacts NodeFacts SparseFacts DenseFacts LookupFacts Dense Sparse Surf.
Import ListNotations.

(** ** bits of strings *)
Lemma key_bits_length : forall k, length (key_bits k) = 8 * length k.
Proof.
  induction k as [|b k IH]; [reflexivity|]. unfold key_bits in *. cbn [flat_map]. rewrite app_length, IH.
  unfold byte_bits. rewrite map_length, seq_length. cbn [length]. lia.
Qed.

Lemma byte_bits_eq : forall b, byte_bits b = bitsn 8 (N.of_nat b).
Proof. intros b. reflexivity. Qed.

Lemma bitsn_shift_low : forall m v b n, n <= m -> (b < 2 ^ N.of_nat m)%N ->
  bitsn n (v * 2 ^ N.of_nat m + b) = bitsn n b.
Proof.
  intros m v b n H Hb. rewrite <- (bitsn_mod n m) by auto. f_equal.
  rewrite N.add_comm, N.mod_add by (apply N.pow_nonzero; lia). apply N.mod_small. auto.
Qed.

Lemma key_bits_be : forall k, is_bytes k -> key_bits k = bitsn (8 * length k) (be_val k).
Proof.
  induction k as [|b k IH] using rev_ind; intros H; [reflexivity|].
  unfold is_bytes in H. apply Forall_app in H. destruct H as [Hk Hb]. inversion Hb as [|? ? B _]; subst.
  unfold key_bits in *. rewrite flat_map_app. cbn [flat_map]. rewrite app_nil_r, IH by auto.
  rewrite byte_bits_eq, app_length, be_val_app. cbn [length].
  replace (8 * (length k + 1)) with (8 * length k + 8) by lia. rewrite bitsn_app.
  assert (B' : (N.of_nat b < 2 ^ N.of_nat 8)%N) by (change (2 ^ N.of_nat 8)%N with 256%N; lia).
  change 256%N with (2 ^ N.of_nat 8)%N. rewrite (bitsn_shift_low 8) by (auto; lia). f_equal. f_equal.
  rewrite N.shiftr_div_pow2, N.div_add_l by (apply N.pow_nonzero; lia). rewrite N.div_small by auto. lia.
Qed.

Lemma key_bits_app : forall a b, key_bits (a ++ b) = key_bits a ++ key_bits b.
Proof. intros. apply flat_map_app. Qed.

Lemma is_bytes_firstn : forall n k, is_bytes k -> is_bytes (firstn n k).
Proof.
  intros n k H. unfold is_bytes in *. rewrite Forall_forall in *. intros x Hx. apply H.
  rewrite <- (firstn_skipn n k). apply in_or_app. auto.
Qed.
Lemma is_bytes_skipn : forall n k, is_bytes k -> is_bytes (skipn n k).
Proof.
  intros n k H. unfold is_bytes in *. rewrite Forall_forall in *. intros x Hx. apply H.
  rewrite <- (firstn_skipn n k). apply in_or_app. auto.
Qed.

Lemma real_bits : forall k d n, is_bytes k -> 1 <= n -> bitsn n (real_val k d n) = next_bits0 k d n /\
  has_bits k d n = match next_bits k d n with Some _ => true | None => false end.
Proof.
  intros k d n Hk Hn. unfold real_val, next_bits0, next_bits, has_bits. rewrite key_bits_length, skipn_length.
  destruct (Nat.leb_spec n (8 * (length k - d))) as [L|L].
  - replace (length k <? d) with false by (symmetry; apply Nat.ltb_ge; lia).
    replace ((length k - d) * 8 <? n) with false by (symmetry; apply Nat.ltb_ge; lia). cbn [orb negb]. split; auto.
    set (m := (n + 7) / 8). pose proof (Nat.div_mod (n + 7) 8 ltac:(lia)) as DM.
    pose proof (Nat.mod_upper_bound (n + 7) 8 ltac:(lia)) as MB. fold m in DM.
    rewrite <- (firstn_skipn m (skipn d k)) at 2. rewrite key_bits_app, firstn_app.
    assert (LF : length (firstn m (skipn d k)) = m) by (rewrite firstn_length, skipn_length; lia).
    rewrite key_bits_length, LF. replace (n - 8 * m) with 0 by lia. cbn [firstn]. rewrite app_nil_r.
    rewrite key_bits_be, LF by (apply is_bytes_firstn, is_bytes_skipn; auto).
    set (v := be_val (firstn m (skipn d k))). rewrite <- N.shiftr_div_pow2.
    replace (8 * m) with (n + (8 * m - n)) at 2 by lia. rewrite bitsn_app.
    rewrite firstn_app, bitsn_length, Nat.sub_diag. cbn [firstn]. rewrite app_nil_r.
    rewrite firstn_all2 by (rewrite bitsn_length; lia). reflexivity.
  - replace ((length k - d) * 8 <? n) with true by (symmetry; apply Nat.ltb_lt; lia). rewrite orb_true_r. cbn [negb].
    rewrite bitsn_zero. auto.
Qed.

Lemma real_eq : forall k q d n, is_bytes k -> is_bytes q -> 1 <= n ->
  (real_val k d n = real_val q d n <-> next_bits0 k d n = next_bits0 q d n).
Proof.
  intros k q d n Hk Hq Hn. rewrite <- (proj1 (real_bits k d n Hk Hn)), <- (proj1 (real_bits q d n Hq Hn)).
  split; [intros ->; auto|]. intros H. eapply word_ext with (n := n); auto using real_val_bound.
Qed.

Lemma all_zero_repeat : forall b, all_zero b <-> b = repeat false (length b).
Proof.
  induction b as [|x b IH]; [split; auto; intros _ ? []|]. cbn [length repeat]. split.
  - intros H. rewrite (H x) by (left; auto). f_equal. apply IH. intros y Hy. apply H. right. auto.
  - intros H y [->|Hy]; [congruence|]. injection H as _ H. apply IH in H. auto.
Qed.

Lemma next_bits_length : forall k d n b, next_bits k d n = Some b -> length b = n.
Proof.
  intros k d n b. unfold next_bits. destruct (Nat.leb_spec n (length (key_bits (skipn d k)))); [|discriminate].
  injection 1 as <-. rewrite firstn_length. lia.
Qed.

Lemma real_zero : forall k d n, is_bytes k -> 1 <= n ->
  (real_val k d n = 0%N <-> match next_bits k d n with Some b => all_zero b | None => True end).
Proof.
  intros k d n Hk Hn. assert (E : real_val k d n = 0%N <-> next_bits0 k d n = repeat false n).
  { rewrite <- (proj1 (real_bits k d n Hk Hn)), <- bitsn_zero. split; [intros ->; auto|].
    intros H. eapply word_ext with (n := n); auto using real_val_bound. apply pow2_pos. }
  rewrite E. unfold next_bits0. destruct (next_bits k d n) as [b|] eqn:B; [|tauto].
  rewrite all_zero_repeat, (next_bits_length _ _ _ _ B). tauto.
Qed.

Lemma low_bits_eq : forall s m v w, ((v / 2 ^ N.of_nat s) mod 2 ^ N.of_nat m = (w / 2 ^ N.of_nat s) mod 2 ^ N.of_nat m <->
  map (fun i => N.testbit v (N.of_nat (s + i))) (seq 0 m) = map (fun i => N.testbit w (N.of_nat (s + i))) (seq 0 m))%N.
Proof.
  intros s m v w.
  assert (T : forall w i, i < m -> N.testbit ((w / 2 ^ N.of_nat s) mod 2 ^ N.of_nat m) (N.of_nat i) = N.testbit w (N.of_nat (s + i))).
  { intros u i Hi. rewrite N.mod_pow2_bits_low by lia. rewrite N.div_pow2_bits. f_equal. lia. }
  split.
  - intros H. apply map_ext_in. intros i Hi. apply in_seq in Hi. rewrite <- !T by lia. rewrite H. auto.
  - intros H. apply N.bits_inj. intros i. destruct (N.lt_ge_cases i (N.of_nat m)) as [L|L].
    + rewrite <- (N2Nat.id i). rewrite !T by lia. set (j := N.to_nat i).
      assert (J : j < m) by lia.
      pose proof (f_equal (fun l => nth j l (N.testbit v (N.of_nat (s + m)))) H) as Q. cbn beta in Q.
      rewrite (map_nth (fun i => N.testbit v (N.of_nat (s + i)))), seq_nth in Q by auto.
      cbn [Nat.add] in Q |- *. rewrite Q. rewrite nth_indep with (d' := N.testbit w (N.of_nat (s + m))) by (rewrite map_length, seq_length; auto).
      rewrite (map_nth (fun i => N.testbit w (N.of_nat (s + i)))), seq_nth by auto. reflexivity.
    + rewrite !N.mod_pow2_bits_high by auto. auto.
Qed.
Lemma hash_bits_eq : forall k q n, (hash_val k n = hash_val q n <-> hash_bits k n = hash_bits q n).
Proof.
  intros k q n. unfold hash_val, hash_bits. destruct (n <=? 57).
  - exact (low_bits_eq 7 n (suffixHash k) (suffixHash q)).
  - rewrite N.mul_cancel_r by discriminate.
    pose proof (low_bits_eq 0 (n - 57) (suffixHash k) (suffixHash q)) as X. change (2 ^ N.of_nat 0)%N with 1%N in X.
    rewrite !N.div_1_r in X. exact X.
Qed.

Lemma real_len0 : forall k d, real_val k d 0 = 0%N /\ next_bits0 k d 0 = [].
Proof.
  intros k d. split; [|reflexivity]. unfold real_val. destruct (has_bits k d 0); auto.
Qed.

Theorem accepts_admits : forall c k q d, settings c -> is_bytes k -> is_bytes q ->
  (accepts c k q d = true <-> admits c k q d).
Proof.
  intros c k q d (_ & _ & HL & HT) Hk Hq. unfold accepts, admits. destruct (cf_type c) in *.
  - tauto.
  - rewrite N.eqb_eq. apply hash_bits_eq.
  - rewrite orb_true_iff, andb_true_iff, !N.eqb_eq. rewrite real_zero, real_eq by auto.
    rewrite (proj2 (real_bits q d _ Hq HT)). unfold next_bits0. destruct (next_bits k d (cf_rlen c)) as [b|] eqn:B; [|tauto].
    destruct (next_bits q d (cf_rlen c)) as [b'|].
    + split; (intros [H|H]; [left; exact H|right]); [destruct H as [_ ->]; reflexivity|].
      injection H as ->. auto.
    + split; (intros [H|H]; [left; exact H|]); [destruct H as [X _]|]; discriminate.
  - rewrite andb_true_iff, !N.eqb_eq. rewrite hash_bits_eq. destruct (cf_rlen c) as [|r].
    + rewrite !(proj1 (real_len0 _ _)), !(proj2 (real_len0 _ _)). tauto.
    + rewrite real_eq by (auto; lia). tauto.
Qed.

(** ** repeated keys *)
Lemma drop_same_head : forall keys k, match drop_same k keys with x :: _ => isSameKey k x = false | [] => True end.
Proof.
  induction keys as [|a r IH]; intros k; cbn [drop_same]; auto. destruct (isSameKey k a) eqn:E; auto. apply IH.
Qed.
Lemma drop_same_uniq : forall keys k, drop_same k (uniq (drop_same k keys)) = uniq (drop_same k keys).
Proof.
  intros keys k. pose proof (drop_same_head keys k) as H.
  destruct (drop_same k keys) as [|x r]; auto. destruct (uniq_cons x r) as (y & Y). unfold key, bytes in *. rewrite Y.
  cbn [drop_same]. rewrite H. reflexivity.
Qed.
Lemma drop_same_le : forall keys k, length (drop_same k keys) <= length keys.
Proof.
  induction keys as [|a r IH]; intros k; cbn [drop_same]; auto. destruct (isSameKey k a); auto.
  cbn [length]. specialize (IH k). lia.
Qed.

Lemma build_loop_uniq : forall e c fuel fuel' st keys, length keys <= fuel -> length (uniq keys) <= fuel' ->
  build_loop e c fuel st keys = build_loop e c fuel' st (uniq keys).
Proof.
  intros e c. induction fuel as [|fuel IH]; intros fuel' st keys H H'.
  - destruct keys; [destruct fuel'; reflexivity|cbn [length] in H; lia].
  - destruct keys as [|k rest]; [destruct fuel'; reflexivity|]. rewrite uniq_drop in *.
    destruct fuel' as [|fuel']; [cbn [length] in H'; lia|]. cbn [build_loop length] in *.
    rewrite drop_same_uniq. pose proof (drop_same_le rest k).
    assert (HN : match uniq (drop_same k rest) with n :: _ => n | [] => [] end =
                 match drop_same k rest with n :: _ => n | [] => [] end).
    { destruct (drop_same k rest) as [|x r]; auto. destruct (uniq_cons x r) as (y & Y). unfold key, bytes in *. rewrite Y. auto. }
    unfold key, bytes in *. rewrite HN. destruct (skipCommonPrefix e st k) as [[st1 l1]|]; cbn [bind]; auto.
    destruct (insertKeyBytesToTrieUntilUnique _ _ _ _ _) as [[st2 l2]|]; cbn [bind]; auto.
    destruct (insertSuffix _ _ _ _ _) as [st3|]; cbn [bind]; auto. apply IH; lia.
Qed.

Theorem create_uniq : forall e c keys, create e c keys = create e c (uniq keys).
Proof.
  intros e c keys. unfold create, build, buildSparse.
  rewrite (build_loop_uniq e c (length keys) (length (uniq keys)) [] keys (le_n _) (le_n _)).
  assert (L : (0 <? length keys) = (0 <? length (uniq keys))).
  { destruct keys as [|k r]; auto. destruct (uniq_cons k r) as (y & Y). unfold key, bytes in *. rewrite Y. reflexivity. }
  unfold key, bytes in *. rewrite L. reflexivity.
Qed.

(** ** shortest distinguishing prefixes *)
Section Dist.
Variable K : list bytes.
Notation kk := (kk K). Notation n := (length K).
Hypothesis HS : StronglySorted klt K.

Lemma dist_leafl : forall i, i < n -> dist_len K (kk i) (S (leafl K i)).
Proof.
  intros i Hi. split; [lia|]. split.
  - intros k' Hin Hne E. apply (In_nth _ _ []) in Hin. destruct Hin as (i' & Hi' & <-).
    apply Hne. change (nth i' K []) with (kk i') in *. f_equal. eapply leafl_dist; eauto. lia.
  - intros d' Hd. unfold leafl in Hd. destruct (le_lt_dec d' (lo K i)) as [L|L].
    + destruct i as [|i]; [cbn [lo] in L; lia|]. cbn [lo] in L. exists (kk i). split; [apply nth_In; lia|].
      split.
      * intros E. pose proof (sorted_nth K HS i (S i) ltac:(lia)) as Q. rewrite E in Q. exact (klt_irrefl _ Q).
      * apply lcp_firstn. exact L.
    + assert (L' : d' <= hi K i) by lia. unfold hi in L'.
      assert (S i < n).
      { destruct (le_lt_dec n (S i)) as [G|]; auto. exfalso. unfold Trie.kk in L' at 2. rewrite nth_overflow in L' by auto.
        rewrite lcp_nil_r in L'. lia. }
      exists (kk (S i)). split; [apply nth_In; auto|]. split.
      * intros E. pose proof (sorted_nth K HS i (S i) ltac:(lia)) as Q. rewrite E in Q. exact (klt_irrefl _ Q).
      * symmetry. apply lcp_firstn. exact L'.
Qed.
End Dist.

Lemma dist_fun : forall K k d d', dist_len K k d -> dist_len K k d' -> d = d'.
Proof.
  intros K k d d' (A & B & C) (A' & B' & C').
  destruct (lt_eq_lt_dec d d') as [[L|L]|L]; auto; exfalso.
  - destruct (C' d ltac:(lia)) as (k' & X & Y & Z). exact (B k' X Y Z).
  - destruct (C d' ltac:(lia)) as (k' & X & Y & Z). exact (B' k' X Y Z).
Qed.

Lemma dist_uniq : forall keys k d, dist_len (uniq keys) k d <-> dist_len keys k d.
Proof.
  intros keys k d. unfold dist_len. split; intros (A & B & C); (split; [auto|split]).
  - intros k' H. apply B. apply uniq_in. auto.
  - intros d' H. destruct (C d' H) as (k' & X & Y). exists k'. split; auto. apply uniq_in. auto.
  - intros k' H. apply B. apply uniq_in. auto.
  - intros d' H. destruct (C d' H) as (k' & X & Y). exists k'. split; auto. apply uniq_in. auto.
Qed.

(** [q] agrees with [k] on the part that tells [k] from the other keys. *)
Definition follows (keys : list bytes) (k q : bytes) : Prop :=
  exists d, dist_len keys k d /\ firstn d q = firstn d k.

Section Bridge.
Variables (keys : list bytes).
Hypothesis HG : good_keys keys.
Notation K := (uniq keys).

Lemma good_uniq : StronglySorted klt K /\ Forall is_bytes K /\ Forall (fun k => k <> []) K /\ length K <> 0.
Proof.
  destruct HG as (A & B & C & D). split; [apply uniq_sorted; auto|].
  rewrite !Forall_forall in *. split; [|split].
  - intros k H. apply B. apply uniq_in. auto.
  - intros k H. apply C. apply uniq_in. auto.
  - destruct keys as [|k r]; [congruence|]. destruct (uniq_cons k r) as (x & ->). cbn [length]. lia.
Qed.

Lemma in_kk : forall k, In k keys -> exists i, i < length K /\ kk K i = k.
Proof. intros k H. apply uniq_in in H. apply (In_nth _ _ []) in H. destruct H as (i & Hi & E). exists i. auto. Qed.

Lemma kk_in : forall i, i < length K -> In (kk K i) keys.
Proof. intros i H. apply uniq_in. apply nth_In. auto. Qed.

Lemma lone_ff_iff : ~ lone_ff keys -> no_lone_ff K.
Proof.
  intros H L E. apply H. destruct (in_kk (kk K 0)) as (i & Hi & EI); [apply kk_in; lia|].
  destruct good_uniq as (_ & _ & NE & _).
  assert (X : kk K 0 <> []) by (rewrite Forall_forall in NE; apply NE; apply nth_In; lia).
  destruct (kk K 0) as [|b k] eqn:EK; [congruence|]. unfold lab in E. rewrite EK in E. cbn [nth] in E. subst b.
  exists k. split; [rewrite <- EK; apply kk_in; lia|].
  intros k' H'. destruct (in_kk k' H') as (j & Hj & <-). replace j with 0 by lia. auto.
Qed.

Lemma follows_mt : forall q i, i < length K -> (mt K q i <-> follows keys (kk K i) q).
Proof.
  intros q i Hi. destruct good_uniq as (HS & _). pose proof (dist_leafl K HS i Hi) as D. split.
  - intros M. exists (S (leafl K i)). split; [apply dist_uniq; auto|exact M].
  - intros (d & D' & E). apply dist_uniq in D'. rewrite (dist_fun _ _ _ _ D' D) in E. exact E.
Qed.

Lemma dist_kk : forall i d, i < length K -> dist_len keys (kk K i) d -> d = S (leafl K i).
Proof.
  intros i d Hi D. destruct good_uniq as (HS & _). apply dist_uniq in D. apply (dist_fun _ _ _ _ D). apply dist_leafl; auto.
Qed.

Lemma dist_exists : forall k, In k keys -> exists d, dist_len keys k d.
Proof.
  intros k H. destruct (in_kk k H) as (i & Hi & <-). exists (S (leafl K i)). apply dist_uniq.
  apply dist_leafl; auto. apply good_uniq.
Qed.

Lemma told_len : told_apart keys (N.of_nat (total_len keys)).
Proof.
  enough (G : forall l, incl l keys -> exists ds, Forall2 (dist_len keys) l ds /\ list_sum ds <= total_len l).
  { destruct (G keys (incl_refl _)) as (ds & A & B). exists keys, ds. split; [auto|]. split; [exact A|lia]. }
  induction l as [|k l IH]; intros I; [exists []; split; [constructor|cbn; lia]|].
  destruct IH as (ds & A & B); [intros x Hx; apply I; right; exact Hx|].
  destruct (in_kk k (I k (or_introl eq_refl))) as (i & Hi & <-).
  exists (S (leafl K i) :: ds). split.
  - constructor; [|exact A]. apply dist_uniq. apply dist_leafl; auto. apply good_uniq.
  - pose proof (leafl_le K i). unfold total_len in *. cbn [map list_sum fold_right] in *. change (fold_right Nat.add 0) with list_sum in *. lia.
Qed.

Lemma small_len : (N.of_nat (total_len keys) <= 524286)%N -> small keys.
Proof. intros H. destruct told_len as (ks & ds & A & B & C). exists ks, ds. split; [exact A|]. split; [exact B|]. lia. Qed.

Lemma follows_unique : forall k k' q, In k keys -> In k' keys -> follows keys k q -> follows keys k' q -> k = k'.
Proof.
  intros k k' q H H' F F'. destruct (in_kk k H) as (i & Hi & <-). destruct (in_kk k' H') as (i' & Hi' & <-).
  apply follows_mt in F; auto. apply follows_mt in F'; auto. f_equal.
  destruct good_uniq as (HS & HB & HE & HN). eapply mt_unique; eauto.
Qed.

Section Filter.
Variables (e : env) (c : config) (f : surf).
Hypothesis HM : machine e.
Hypothesis HC : settings c.
Hypothesis HF : filter_of e c keys f.

Lemma settings_lens : lens_ok (cf_type c) (cf_hlen c) (cf_rlen c).
Proof. destruct HC as (_ & _ & A & B). split; auto. Qed.

Lemma built : exists st, 1 <= st /\ S st <= height K /\ dense_ok c K st (sf_dense f) /\ sparse_ok c K st (sf_sparse f).
Proof.
  destruct good_uniq as (HS & HB & HE & HN).
  destruct (filter_built keys e c HS HB HE HN HM HC f HF) as (st & A & B & C & D & _). exists st. auto.
Qed.

(** the one-key set that lookups lose *)
Lemma lookup_lone_ff : lone_ff keys -> forall b q, b < 256 -> lookupKey e f (b :: q) = Ok false.
Proof.
  intros (k & Hk & Hu) b q Hb. destruct good_uniq as (HS & HB & HE & HN).
  assert (L1 : length K = 1).
  { destruct (le_lt_dec 2 (length K)) as [L|L]; [|lia]. exfalso.
    pose proof (Hu _ (kk_in 0 ltac:(lia))) as E0. pose proof (Hu _ (kk_in 1 ltac:(lia))) as E1.
    pose proof (sorted_nth K HS 0 1 ltac:(lia)) as Q. rewrite E0, E1 in Q. exact (klt_irrefl _ Q). }
  assert (E0 : kk K 0 = 255 :: k) by (apply Hu, kk_in; lia).
  destruct built as (st & S1 & S2 & D & _). unfold lookupKey, d_lookupKey. rewrite (dk_h _ _ _ _ D).
  destruct st as [|st]; [lia|]. cbn [d_lookup_loop nth_error]. unfold d_readLabel. pose proof (dk_lab _ _ _ _ D) as [R _].
  assert (N1 : nds K 0 = 1) by (apply cn_louds_root; auto).
  assert (LB : b < length (cc (dlab K) 0 (S st))).
  { rewrite cc_length by lia. pose proof (sm_mono (fun l => length (dlab K l)) 1 (S st) ltac:(lia)) as M.
    cbn [sm] in M |- *. unfold dlab in M at 1. rewrite bm_length, N1 in M. cbn [sm] in M. lia. }
  rewrite (readBit_spec e _ _ _ R) by exact LB.
  assert (NB : nth (0 * kNodeFanout + b) (cc (dlab K) 0 (S st)) false = false).
  { pose proof (cc_nth (dlab K) 0 0 (S st) b false ltac:(lia) ltac:(lia)) as Q.
    replace (off (dlab K) 0 0) with 0 in Q by (unfold off; lia). cbn [Nat.add] in Q.
    replace (0 * kNodeFanout + b) with b by lia. unfold dlab in Q at 1. rewrite bm_length, N1 in Q.
    rewrite Q by lia. unfold dlab. rewrite bm_nth by (rewrite N1; lia). destruct (existsb _ _) eqn:EX; auto.
    apply existsb_seq in EX. destruct EX as (i & Hi & X). assert (i = 0) by lia. subst i.
    assert (T : tm K 0 0 = true).
    { unfold tm. rewrite louds_root by auto. unfold lab. rewrite E0. cbn [nth Nat.eqb andb].
      unfold child. rewrite hi_last by lia. rewrite andb_false_r. reflexivity. }
    rewrite T, andb_false_r in X. discriminate. }
  rewrite NB. reflexivity.
Qed.

Hypothesis HL : ~ lone_ff keys.

Lemma lookup_follows : forall k q, In k keys -> is_bytes q -> follows keys k q ->
  exists d, dist_len keys k d /\ lookupKey e f q = Ok (accepts c k q d).
Proof.
  intros k q Hk Hq F. destruct (in_kk k Hk) as (i & Hi & <-). apply follows_mt in F; auto.
  exists (S (leafl K i)). destruct good_uniq as (HS & HB & HE & HN), HM as [M1 M2].
  split; [apply dist_uniq; apply dist_leafl; auto|].
  destruct built as (st & S1 & S2 & D & S').
  destruct (lookupKey_spec c K HS HB HE HN st _ _ e S1 S2 D S' M2 M1 settings_lens (lone_ff_iff HL) q Hq)
    as (b & E & A & _).
  { right. exists i. auto. }
  destruct f as [fd fs]. cbn [sf_dense sf_sparse] in E. rewrite E. f_equal. apply A; auto.
Qed.

Lemma lookup_stored : forall k, In k keys -> lookupKey e f k = Ok true.
Proof.
  intros k Hk. destruct (dist_exists k Hk) as (d & D).
  assert (Hb : is_bytes k) by (destruct HG as (_ & B & _); rewrite Forall_forall in B; auto).
  destruct (lookup_follows k k Hk Hb) as (d' & D' & ->); [exists d; auto|]. rewrite accepts_refl. auto.
Qed.

Lemma lookup_follows_admits : forall k q d, In k keys -> is_bytes q -> dist_len keys k d -> firstn d q = firstn d k ->
  exists b, lookupKey e f q = Ok b /\ (b = true <-> admits c k q d).
Proof.
  intros k q d Hk Hq D F. destruct (lookup_follows k q Hk Hq) as (d' & D' & E); [exists d; auto|].
  rewrite (dist_fun _ _ _ _ D' D) in E. eexists. split; [exact E|]. apply accepts_admits; auto.
  destruct HG as (_ & B & _); rewrite Forall_forall in B; auto.
Qed.

Hypothesis HZ : padded e c keys f.

Lemma zeros_past_end : forall q st, 1 <= st -> S st <= height K -> sparse_ok c K st (sf_sparse f) -> zero_end K st (sf_sparse f) e q.
Proof.
  intros q st S1 S2 S'. left. intros L. destruct good_uniq as (HS & HB & HE & HN).
  assert (G : forall x, slen K st <= x < slen K st + 64 -> rd (sf_sparse f) e x = 0).
  { intros x Hx. unfold rd, lv_read. pose proof (sk_lab _ _ _ _ S') as B.
    pose proof (slabs_total K HN st S1 S2) as T.
    assert (Z0 : nth x (lv_bytes (s_labels (sf_sparse f))) 0 = 0).
    { rewrite B. destruct (Nat.eq_dec x (slen K st)) as [->|].
      - rewrite app_nth2, T, Nat.sub_diag by lia. reflexivity.
      - apply nth_overflow. rewrite app_length, T. cbn [length]. lia. }
    rewrite Z0. destruct HZ as [[HZ' HF']|HQ];
      [|rewrite HQ; repeat (match goal with |- context [if ?b then _ else _] => destruct b end); reflexivity].
    destruct (create_built keys e c HS HB HE HN HM HC f HF') as (st' & _ & _ & _ & S'' & A).
    assert (ES : st' = st) by (rewrite <- (sk_st _ _ _ _ S''), <- (sk_st _ _ _ _ S'); reflexivity). subst st'.
    unfold fresh_alloc in A. rewrite T in A. cbv zeta in A.
    pose proof (total_small keys c HS HN (or_introl HC) HZ') as (_ & Z & _). cbv zeta in Z.
    assert (LE : slen K st <= sm (fun l => length (items K l)) (height K)).
    { rewrite <- T. rewrite cc_length by lia. eapply Nat.le_trans; [apply Nat.le_sub_l|].
      apply sm_le. intros l _. unfold slabs. rewrite map_length. auto. }
    set (m := N.of_nat (1 + slen K st)) in *. set (m' := N.of_nat (1 + sm (fun l => length (items K l)) (height K))) in *.
    assert (MM : (m <= m')%N) by (unfold m, m'; lia).
    assert (W : (m * (m / 64 + 1) < 4294967296)%N).
    { eapply N.le_lt_trans; [|exact Z]. apply N.mul_le_mono; auto. apply N.add_le_mono_r. apply N.div_le_mono; lia. }
    rewrite wrap32_small in A by exact W.
    assert (D : (1 <= m / 64)%N) by (apply N.div_le_lower_bound; unfold m; lia).
    assert (AA : (m * 2 <= lv_alloc (s_labels (sf_sparse f)))%N) by (rewrite A; apply N.mul_le_mono_l; lia).
    replace (N.of_nat x <? lv_alloc (s_labels (sf_sparse f)))%N with true by (symmetry; apply N.ltb_lt; unfold m in AA; lia).
    reflexivity. }
  split; [apply G; lia|exact G].
Qed.

Lemma lookup_unfollowed : forall q, is_bytes q -> (forall k, In k keys -> ~ follows keys k q) ->
  exists b, lookupKey e f q = Ok b /\ (b = true -> cf_type c = kNone /\ In 0 q).
Proof.
  intros q Hq F. destruct good_uniq as (HS & HB & HE & HN), HM as [M1 M2].
  destruct built as (st & S1 & S2 & D & S').
  destruct (lookupKey_spec c K HS HB HE HN st _ _ e S1 S2 D S' M2 M1 settings_lens (lone_ff_iff HL) q Hq
    (zeros_past_end q st S1 S2 S')) as (b & E & _ & A).
  destruct f as [fd fs]. cbn [sf_dense sf_sparse] in E. exists b. split; auto. intros ->.
  destruct A as [A|A]; auto; [|discriminate]. intros i Hi M. apply follows_mt in M; auto. apply (F (kk K i)); auto using kk_in.
Qed.
End Filter.

Lemma create_exists : forall e c, machine e -> settings c -> small keys -> exists f, create e c keys = Ok f.
Proof.
  intros e c HM HC HZ. destruct HM as [M1 M2], good_uniq as (HS & HB & HE & HN).
  assert (SL : lens_ok (cf_type c) (cf_hlen c) (cf_rlen c)) by (destruct HC as (_ & _ & A & B); split; auto).
  assert (SF : sizes_fit c K).
  { apply total_fits.
    - apply told_total; auto.
    - destruct HC as (_ & _ & A & _). unfold cf_len. destruct (cf_type c); lia. }
  destruct HC as (C1 & C2 & _).
  pose proof (create_spec c K e HS HB HE HN M1 M2 SL keys eq_refl C1 C2) as Q.
  destruct (create e c keys) as [f|er]; [eauto|]. cbn [okB] in Q. contradiction.
Qed.
End Bridge.

Lemma small_tails : forall keys, (N.of_nat (length keys) <= 524286)%N ->
  (forall k k', In k keys -> In k' keys -> k <> k' -> firstn 1 k <> firstn 1 k') -> small keys.
Proof.
  intros keys HL H. exists keys, (repeat 1 (length keys)). split; [auto|]. split.
  - assert (G : forall l, incl l keys -> Forall2 (dist_len keys) l (repeat 1 (length l))); [|exact (G keys (incl_refl _))].
    induction l as [|k l IH]; intros I; cbn [length repeat]; constructor.
    + split; [lia|]. split; [|lia]. intros k' A B E. exact (H k' k A (I k (or_introl eq_refl)) B E).
    + apply IH. intros x Hx. apply I. right. exact Hx.
  - assert (G : forall m, list_sum (repeat 1 m) = m) by (induction m; cbn; auto). rewrite G. exact HL.
Qed.

(** ** the final forms *)
Lemma point_stored : forall e c keys f k, machine e -> settings c -> good_keys keys -> ~ lone_ff keys ->
  filter_of e c keys f -> In k keys -> lookupKey e f k = Ok true.
Proof. intros. eapply lookup_stored; eauto. Qed.

Lemma point_lone_ff : forall e c keys f k, machine e -> settings c -> good_keys keys -> lone_ff keys ->
  filter_of e c keys f -> In k keys -> lookupKey e f k = Ok false.
Proof.
  intros e c keys f k HM HC HG HL HF Hk. destruct HG as (A & B & C & D).
  assert (NE : k <> []) by (rewrite Forall_forall in C; auto).
  assert (Hb : is_bytes k) by (rewrite Forall_forall in B; auto).
  destruct k as [|b q]; [congruence|]. inversion Hb; subst.
  eapply lookup_lone_ff with (keys := keys); eauto. repeat split; auto.
Qed.

Lemma point_no_dense : forall e c keys f q, cf_dense c = false -> create e c keys = Ok f -> lookupKey e f q = Ok true.
Proof.
  intros e c keys f q HC HF. unfold create, build in HF. rewrite HC in HF.
  destruct (massert e _); cbn [bind] in HF; [|discriminate].
  destruct (buildSparse e c keys) as [st|]; cbn [bind] in HF; [|discriminate].
  destruct (dense_make e _) as [d|] eqn:ED; cbn [bind] in HF; [|discriminate].
  destruct (sparse_make e _) as [s|]; cbn [bind] in HF; [|discriminate]. injection HF as <-.
  assert (H0 : d_height d = 0).
  { unfold dense_make in ED. cbn [bd_start bd_cfg bd_levels bd_dense seq mapM bind] in ED.
    repeat match type of ED with bind ?m _ = _ => destruct m; cbn [bind] in ED; [|discriminate] end.
    injection ED as <-. reflexivity. }
  unfold lookupKey, d_lookupKey. cbn [sf_dense]. rewrite H0. reflexivity.
Qed.

Lemma point_exact : forall e c keys f q, machine e -> settings c -> good_keys keys -> ~ lone_ff keys ->
  padded e c keys f -> filter_of e c keys f -> is_bytes q -> cf_type c <> kNone \/ ~ In 0 q ->
  exists b, lookupKey e f q = Ok b /\ (b = true <-> exists k, In k keys /\ matches c keys k q).
Proof.
  intros e c keys f q HM HC HG HL HZ HF Hq H0.
  destruct (Exists_dec (fun i => mt (uniq keys) q i) (seq 0 (length (uniq keys)))) as [E|E].
  { intros i. unfold mt. destruct (list_eq_dec Nat.eq_dec (firstn (S (leafl (uniq keys) i)) q) (firstn (S (leafl (uniq keys) i)) (kk (uniq keys) i))); auto. }
  - apply Exists_exists in E. destruct E as (i & Hi & M). apply in_seq in Hi.
    assert (Fo : follows keys (kk (uniq keys) i) q) by (apply follows_mt; auto; lia).
    assert (Hk : In (kk (uniq keys) i) keys) by (apply kk_in; lia).
    destruct Fo as (d & D & F).
    destruct (lookup_follows_admits keys HG e c f HM HC HF HL _ q d Hk Hq D F) as (b & EB & HB).
    exists b. split; auto. rewrite HB. split.
    + intros A. exists (kk (uniq keys) i). split; auto. exists d. auto.
    + intros (k & Hk' & d' & D' & F' & A').
      assert (k = kk (uniq keys) i).
      { apply (follows_unique keys HG k _ q Hk' Hk); [exists d'|exists d]; auto. }
      subst k. rewrite (dist_fun _ _ _ _ D D'). auto.
  - assert (N : forall k, In k keys -> ~ follows keys k q).
    { intros k Hk Fo. destruct (in_kk keys k Hk) as (i & Hi & <-). apply E. apply Exists_exists. exists i.
      split; [apply in_seq; lia|]. apply follows_mt; auto. }
    destruct (lookup_unfollowed keys HG e c f HM HC HF HL HZ q Hq N) as (b & EB & HB).
    exists b. split; auto. split.
    + intros ->. destruct (HB eq_refl) as [X Y]. destruct H0 as [H0|H0]; contradiction.
    + intros (k & Hk & d & D & F & _). exfalso. apply (N k Hk). exists d. auto.
Qed.

Lemma point_sound : forall e c keys f q, machine e -> settings c -> good_keys keys -> ~ lone_ff keys ->
  padded e c keys f -> filter_of e c keys f -> is_bytes q -> lookupKey e f q = Ok true ->
  (exists k, In k keys /\ matches c keys k q) \/ (cf_type c = kNone /\ In 0 q).
Proof.
  intros e c keys f q HM HC HG HL HZ HF Hq HT.
  assert (D : (cf_type c <> kNone \/ ~ In 0 q) \/ (cf_type c = kNone /\ In 0 q)).
  { destruct (in_dec Nat.eq_dec 0 q) as [I|I]; [|auto]. destruct (cf_type c); auto; left; left; discriminate. }
  destruct D as [D|D]; auto. left.
  destruct (point_exact e c keys f q HM HC HG HL HZ HF Hq D) as (b & E & H). apply H. congruence.
Qed.

Lemma point_complete : forall e c keys f q k, machine e -> settings c -> good_keys keys -> ~ lone_ff keys ->
  filter_of e c keys f -> is_bytes q -> In k keys -> matches c keys k q -> lookupKey e f q = Ok true.
Proof.
  intros e c keys f q k HM HC HG HL HF Hq Hk (d & D & F & A).
  destruct (lookup_follows_admits keys HG e c f HM HC HF HL _ q d Hk Hq D F) as (b & EB & HB).
  rewrite EB. f_equal. apply HB. auto.
Qed.

Lemma bool_iff : forall (a b : bool) (P Q : Prop), (a = true <-> P) -> (b = true <-> Q) -> (P <-> Q) -> a = b.
Proof. intros [] [] P Q; intuition congruence. Qed.

Lemma point_split : forall e c c' keys f f' q, machine e -> settings c -> settings c' -> good_keys keys ->
  ~ lone_ff keys -> padded e c keys f -> padded e c' keys f' -> filter_of e c keys f -> filter_of e c' keys f' ->
  cf_type c' = cf_type c -> cf_hlen c' = cf_hlen c -> cf_rlen c' = cf_rlen c ->
  is_bytes q -> cf_type c <> kNone \/ ~ In 0 q -> lookupKey e f q = lookupKey e f' q.
Proof.
  intros e c c' keys f f' q HM HC HC' HG HL HZ HZ' HF HF' ET EH ER Hq H0.
  destruct (point_exact e c keys f q HM HC HG HL HZ HF Hq H0) as (b & -> & B).
  destruct (point_exact e c' keys f' q HM HC' HG HL HZ' HF' Hq ltac:(rewrite ET; auto)) as (b' & -> & B').
  f_equal. eapply bool_iff; eauto. unfold matches, admits. rewrite ET, EH, ER. tauto.
Qed.

Lemma point_hash : forall e c keys f q, machine e -> settings c -> good_keys keys -> ~ lone_ff keys ->
  padded e c keys f -> filter_of e c keys f -> is_bytes q -> cf_type c = kHash ->
  exists b, lookupKey e f q = Ok b /\
    (b = true <-> exists k d, In k keys /\ dist_len keys k d /\ firstn d q = firstn d k /\
                              hash_bits k (cf_hlen c) = hash_bits q (cf_hlen c)).
Proof.
  intros e c keys f q HM HC HG HL HZ HF Hq HT.
  destruct (point_exact e c keys f q HM HC HG HL HZ HF Hq) as (b & E & H); [rewrite HT; left; discriminate|].
  exists b. split; auto. rewrite H. unfold matches, admits. rewrite HT. split.
  - intros (k & A & d & B). exists k, d. auto.
  - intros (k & d & A & B). exists k. split; auto. exists d. auto.
Qed.

Lemma point_real : forall e c keys f q, machine e -> settings c -> good_keys keys -> ~ lone_ff keys ->
  padded e c keys f -> filter_of e c keys f -> is_bytes q -> cf_type c = kReal ->
  exists b, lookupKey e f q = Ok b /\
    (b = true <-> exists k d, In k keys /\ dist_len keys k d /\ firstn d q = firstn d k /\
       (all_zero (next_bits0 k d (cf_rlen c)) \/
        exists s, next_bits k d (cf_rlen c) = Some s /\ next_bits q d (cf_rlen c) = Some s)).
Proof.
  intros e c keys f q HM HC HG HL HZ HF Hq HT.
  destruct (point_exact e c keys f q HM HC HG HL HZ HF Hq) as (b & E & H); [rewrite HT; left; discriminate|].
  exists b. split; auto. rewrite H. unfold matches, admits. rewrite HT.
  assert (X : forall k d, match next_bits k d (cf_rlen c) with
      | Some b0 => all_zero b0 \/ next_bits q d (cf_rlen c) = Some b0 | None => True end <->
    (all_zero (next_bits0 k d (cf_rlen c)) \/
        exists s, next_bits k d (cf_rlen c) = Some s /\ next_bits q d (cf_rlen c) = Some s)).
  { intros k d. unfold next_bits0. destruct (next_bits k d (cf_rlen c)) as [s|].
    - split; (intros [A|A]; [left; auto|right]); [exists s; auto|]. destruct A as (s' & A & B). congruence.
    - split; auto. intros _. left. intros x Hx. apply repeat_spec in Hx. auto. }
  split.
  - intros (k & A & d & B & C & D). exists k, d. rewrite <- X. auto.
  - intros (k & d & A & B & C & D). exists k. split; auto. exists d. rewrite X. auto.
Qed.
