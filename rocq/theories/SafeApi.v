(** No call of the interface faults, apart from approxCount: the invariant of
    the two iterators together, and the sessions that keep it. *)
From Coq Require Import Arith List NArith ZArith Bool Lia ZifyN ZifyNat ZifyBool Sorting.Sorted.
From Verif Require Import Res Word Config BitFacts WordFacts Bitvector BitvectorFacts Rank Select
  RankSelectFacts LabelVector LabelFacts Suffix Spec SpecApi SpecIter SpecFilter SpecSession SuffixFacts Builder KeyFacts Trie BuilderFacts
  DenseBuild StructFacts NodeFacts SparseFacts Dense Sparse Surf DenseFacts LookupFacts CompareFacts IterTrie IterDense IterDMove
  IterSparse SerialFacts FilterFacts PointFacts RangeApi SerialApi SafeBits SafeDense SafeSparse.
Import ListNotations.

Section SafeIter.
Variables (c : config) (K : list bytes).
Hypothesis HS : StronglySorted klt K.
Hypothesis HB : Forall is_bytes K.
Hypothesis HE : Forall (fun k => k <> []) K.
Hypothesis HNE : length K <> 0.
Hypothesis HFF : no_lone_ff K.
Variables (st : nat) (f : surf) (e : env).
Notation d := (sf_dense f). Notation s := (sf_sparse f).
Hypothesis Hst1 : 1 <= st.
Hypothesis Hst2 : S st <= height K.
Hypothesis HD : dense_ok c K st d.
Hypothesis HK : sparse_ok c K st s.
Hypothesis Hmem : strict_mem e = false.
Hypothesis Hsh : strict_shift e = false.
Hypothesis Hlens : lens_ok (cf_type c) (cf_hlen c) (cf_rlen c).
Hypothesis HZ : zeros K st s e.

Definition iok (it : iter) : Prop := dsafe K st (it_d it) /\ ssafe K st (it_s it).

Lemma new_ok : iok (iter_new f).
Proof.
  assert (H1 : d_height d = st) by (destruct HD; auto).
  assert (H2 : s_height s = height K) by (destruct HK; auto). assert (H3 : s_start s = st) by (destruct HK; auto).
  split; constructor; cbn; try discriminate.
  - repeat split; rewrite ?repeat_length; auto; try lia; intros; lia.
  - rewrite H2, H3. repeat split; rewrite ?repeat_length; auto; try lia; intros; lia.
Qed.

Lemma clear_ok : forall it, iok it -> iok (it_clear it) /\ dvec K st 0 (di_key (it_d (it_clear it))) (di_pos (it_d (it_clear it))) /\
  svec K st 0 (si_key (it_s (it_clear it))) (si_pos (it_s (it_clear it))).
Proof.
  intros it ([V _ _ _] & [W _]). cbn.
  assert (V' : dvec K st 0 (di_key (it_d it)) (di_pos (it_d it))) by (eapply dvec_le; eauto; lia).
  assert (W' : svec K st 0 (si_key (it_s it)) (si_pos (it_s it))) by (eapply svec_le; eauto; lia).
  split; [|auto]. split; constructor; cbn; auto; discriminate.
Qed.

Lemma left_incomplete : forall x, di_left x = false -> di_complete x = false.
Proof. intros x H. unfold di_complete. rewrite H. apply andb_false_r. Qed.
Lemma right_incomplete : forall x, di_right x = false -> di_complete x = false.
Proof. intros x H. unfold di_complete. rewrite H, !andb_false_r. reflexivity. Qed.
Lemma search_incomplete : forall x, di_search x = false -> di_complete x = false.
Proof. intros x H. unfold di_complete. rewrite H. reflexivity. Qed.

(** handing over to the sparse part *)
Lemma pass_entry : forall it, dsafe K st (it_d it) -> di_valid (it_d it) = true -> di_complete (it_d it) = false -> entry K st (it_s (passToSparse it)).
Proof. intros it D V C _. cbn. destruct D as [_ _ _ O]. destruct (O V C) as (_ & _ & x & A & B). eauto. Qed.

Lemma pass_left : forall it, iok it -> di_valid (it_d it) = true -> di_complete (it_d it) = false ->
  safe (s' <- si_moveToLeftMostKey e s (it_s (passToSparse it)) ;; Ok (it_setS (passToSparse it) s')) iok.
Proof.
  intros it (D & S') V C. eapply safe_bind.
  - apply (SafeSparse.move_left_safe c K HNE st s e Hst1 Hst2 HK Hmem Hsh HZ); [apply S'|]. apply pass_entry; auto.
  - intros x (X & _). apply safe_ok. split; auto.
Qed.

Lemma incr_dense_safe : forall it, iok it -> safe (incrementDenseIter e f it) (fun r => iok (snd r)).
Proof.
  intros it (D & S'). unfold incrementDenseIter. destruct (di_valid (it_d it)) eqn:EV; cbn [negb]; [|apply safe_ok; split; auto].
  eapply safe_bind; [apply (di_next_safe c K HS HB HE HNE HFF st d e Hst1 HD Hmem Hsh); [apply D|destruct D; auto]|].
  intros x (X & _). cbn zeta. destruct (di_valid x) eqn:EX; cbn [negb]; [|apply safe_ok; split; auto].
  destruct (di_left x) eqn:EL; [apply safe_ok; split; auto|].
  eapply safe_bind; [apply (SafeSparse.move_left_safe c K HNE st s e Hst1 Hst2 HK Hmem Hsh HZ); [apply S'|]|].
  - apply pass_entry; auto. apply left_incomplete; auto.
  - intros y (Y & _). apply safe_ok. split; auto.
Qed.

Lemma it_next_safe : forall it, iok it -> safe (it_next e f it) (fun r => iok (snd r)).
Proof.
  intros it H. unfold it_next. destruct (it_valid it); cbn [negb]; [|apply safe_ok; auto].
  eapply safe_bind with (P := fun r => iok (snd r)).
  - unfold incrementSparseIter. destruct (si_valid (it_s it)) eqn:ES; cbn [negb]; [|apply safe_ok; auto].
    destruct H as (D & [W A]). eapply safe_bind.
    + apply (si_next_safe c K HNE st s e Hst1 Hst2 HK Hmem Hsh HZ); auto. apply svec_t. auto.
    + intros x X. apply safe_ok. split; auto.
  - intros [ok it'] H'. cbn [snd] in H'. destruct ok; [apply safe_ok; auto|]. apply incr_dense_safe; auto.
Qed.

Lemma it_prev_safe : forall it, iok it -> safe (it_prev e f it) (fun r => iok (snd r)).
Proof.
  intros it H. unfold it_prev. destruct (it_valid it); cbn [negb]; [|apply safe_ok; auto].
  eapply safe_bind with (P := fun r => iok (snd r)).
  - unfold decrementSparseIter. destruct (si_valid (it_s it)) eqn:ES; cbn [negb]; [|apply safe_ok; auto].
    destruct H as (D & [W A]). eapply safe_bind.
    + apply (si_prev_safe c K HNE st s e Hst1 Hst2 HK Hmem Hsh HZ); auto.
    + intros x X. apply safe_ok. split; auto.
  - clear it H. intros [ok it] (D & S'). cbn [snd] in *. destruct ok; [apply safe_ok; split; auto|].
    unfold decrementDenseIter. destruct (di_valid (it_d it)) eqn:EV; cbn [negb]; [|apply safe_ok; split; auto].
    eapply safe_bind; [apply (di_prev_safe c K HS HB HE HNE HFF st d e Hst1 HD Hmem Hsh); destruct D; auto|].
    intros x (X & _). cbn zeta. destruct (di_valid x) eqn:EX; cbn [negb]; [|apply safe_ok; split; auto].
    destruct (di_right x) eqn:EL; [apply safe_ok; split; auto|].
    eapply safe_bind; [apply (SafeSparse.move_right_safe c K HNE st s e Hst1 Hst2 HK Hmem Hsh HZ); [apply S'|]|].
    + apply pass_entry; auto. apply right_incomplete; auto.
    + intros y (Y & _). apply safe_ok. split; auto.
Qed.

Lemma first_safe : safe (moveToFirst e f) iok.
Proof.
  destruct new_ok as (D & S'). unfold moveToFirst. assert (H1 : d_height d = st) by (destruct HD; auto). rewrite H1.
  replace (0 <? st) with true by lia.
  eapply safe_bind; [apply (first_root_safe c K HS HB HE HNE HFF st d e Hst1 HD Hmem Hsh); [apply D|reflexivity]|].
  intros x (X1 & X2 & X3).
  eapply safe_bind; [apply (SafeDense.move_left_safe c K HS HB HE HNE HFF st d e Hst1 HD Hmem Hsh); auto|].
  intros y ((Y & _) & YV). cbn zeta. destruct (di_left y) eqn:EL; [apply safe_ok; split; auto|].
  apply pass_left; cbn; auto; [split; auto|apply left_incomplete; auto].
Qed.

Lemma last_safe : safe (moveToLast e f) iok.
Proof.
  destruct new_ok as (D & S'). unfold moveToLast. assert (H1 : d_height d = st) by (destruct HD; auto). rewrite H1.
  replace (0 <? st) with true by lia.
  eapply safe_bind; [apply (last_root_safe c K HNE st d e Hst1 HD Hmem Hsh); [apply D|reflexivity]|].
  intros x (X1 & X2 & X3).
  eapply safe_bind; [apply (SafeDense.move_right_safe c K HS HB HE HNE HFF st d e Hst1 HD Hmem Hsh); auto|].
  intros y (Y & _ & YV). cbn zeta. destruct (di_right y) eqn:EL; [apply safe_ok; split; auto|].
  eapply safe_bind; [apply (SafeSparse.move_right_safe c K HNE st s e Hst1 Hst2 HK Hmem Hsh HZ); [apply S'|]|].
  - apply pass_entry; auto. apply right_incomplete; auto.
  - intros z (Z & _). apply safe_ok. split; auto.
Qed.

(** ** seeks *)
Definition allowed (k : bytes) : Prop := is_bytes k /\ (k <> [] \/ asserts e = false).

(** what follows the dense seek in moveToKeyGreaterThan and lookupRange *)
Lemma after_dense : forall it k inc, is_bytes k -> dleftd K st (it_d it) -> di_valid (it_d it) = true -> di_complete (it_d it) = false ->
  di_search (it_d it) = false ->
  svec K st 0 (si_key (it_s it)) (si_pos (it_s it)) -> si_len (it_s it) = 0 ->
  safe (s_moveToKeyGreaterThan e s k inc (it_s (passToSparse it))) (fun r => ssafe K st (snd r)).
Proof.
  intros it k inc Hk (D & _) V C _ W L.
  apply (s_moveToKeyGreaterThan_safe c K HS HB HE HNE st s e Hst1 Hst2 HK Hmem Hsh Hlens HZ); auto.
  apply pass_entry; auto.
Qed.

Lemma greater_safe : forall k inc, allowed k -> safe (moveToKeyGreaterThan e f k inc) iok.
Proof.
  intros k inc (Hk & HQ). destruct new_ok as (D & S'). unfold moveToKeyGreaterThan.
  eapply safe_bind; [apply (d_moveToKeyGreaterThan_safe c K HS HB HE HNE HFF st d e Hst1 HD Hmem Hsh Hlens k inc); auto; apply D|].
  intros [fp x] X. cbn [snd] in X. cbn zeta. pose proof X as (X1 & X2).
  destruct (di_valid x) eqn:EV; cbn [negb]; [|apply safe_ok; split; auto].
  destruct (di_complete x) eqn:EC; [apply safe_ok; split; auto|].
  destruct (di_search x) eqn:ESr; cbn [negb].
  - destruct (di_left x) eqn:ELf; cbn [negb].
    + destruct (X2 eq_refl) as [Q|[Q|Q]]; congruence.
    + apply (pass_left (it_setFp (it_setD (iter_new f) x) fp)); cbn; auto. split; auto.
  - eapply safe_bind; [apply (after_dense (it_setFp (it_setD (iter_new f) x) fp) k inc); cbn; auto; apply S'|].
    intros [fp' y] Y. cbn [snd] in Y. cbn zeta. destruct (si_valid y); cbn [negb]; [apply safe_ok; split; auto|].
    eapply safe_bind; [apply incr_dense_safe; split; auto|]. intros [b z] Z. apply safe_ok. exact Z.
Qed.

Lemma lookup_safe : forall k, is_bytes k -> (forall node, out_ok K st node -> node <> 0 -> safe (s_lookupKey e s k node) (fun _ => True)) ->
  safe (lookupKey e f k) (fun _ => True).
Proof.
  intros k Hk HSp. unfold lookupKey.
  eapply safe_bind; [apply (d_lookupKey_safe c K HS HB HE HNE HFF st d e Hst1 HD Hmem Hsh Hlens); auto|].
  intros [b node] N. cbn [snd] in N. destruct b; cbn [negb]; [|apply safe_ok; auto].
  destruct (Nat.eqb_spec node 0); cbn [negb]; [apply safe_ok; auto|]. apply HSp; auto.
Qed.

Lemma less_safe : forall k inc, allowed k -> safe (lookupKey e f k) (fun _ => True) -> safe (moveToKeyLessThan e f k inc) iok.
Proof.
  intros k inc HA HLk. unfold moveToKeyLessThan. eapply safe_bind; [apply greater_safe; auto|]. intros it H.
  destruct (it_valid it); cbn [negb]; [|apply last_safe]. destruct (it_fp it); cbn [negb]; [apply safe_ok; auto|].
  eapply safe_bind; [apply it_prev_safe; auto|]. intros [b it1] H1. cbn [snd] in H1.
  eapply safe_bind; [exact HLk|]. intros r _. destruct r; [|apply safe_ok; auto].
  eapply safe_bind; [apply it_prev_safe; auto|]. intros [b2 it2] H2. apply safe_ok. exact H2.
Qed.

Lemma valid_parts : forall it, it_valid it = true -> di_valid (it_d it) = true /\ (di_complete (it_d it) = true \/ si_valid (it_s it) = true).
Proof. intros it H. unfold it_valid in H. apply andb_true_iff in H. destruct H as (A & B). apply orb_true_iff in B. auto. Qed.

Lemma compare_safe : forall it k, iok it -> it_valid it = true -> is_bytes k -> safe (it_compare e f it k) (fun _ => True).
Proof.
  intros it k (D & S') V Hk. unfold it_compare. rewrite massert_ok by auto. cbn [bind]. destruct (valid_parts it V) as (V1 & V2).
  eapply safe_bind; [apply (d_compare_safe c K HS HB HE HNE HFF st d e Hst1 HD Hmem Hsh Hlens); auto|].
  intros z HZz. destruct (di_complete (it_d it)); cbn [orb]; [apply safe_ok; auto|].
  destruct (Z.eqb_spec z 0) as [->|NZ]; cbn [negb]; [|apply safe_ok; auto]. destruct V2 as [V2|V2]; [discriminate|].
  apply (s_compare_safe c K HNE st s e Hst1 Hst2 HK Hmem Hsh Hlens); auto.
Qed.

Lemma range_safe : forall it l li r ri, iok it -> allowed l -> is_bytes r ->
  safe (lookupRange_st e f it l li r ri) (fun x => iok (snd x)).
Proof.
  intros it l li r ri H (Hl & HQ) Hr. unfold lookupRange_st. destruct (clear_ok it H) as ((D & S') & V0 & W0). cbn zeta.
  eapply safe_bind; [apply (d_moveToKeyGreaterThan_safe c K HS HB HE HNE HFF st d e Hst1 HD Hmem Hsh Hlens l li); auto|].
  intros [fp x] X. cbn [snd] in X. pose proof X as (X1 & X2).
  destruct (di_valid x) eqn:EV; cbn [negb]; [|apply safe_ok; split; auto].
  eapply safe_bind with (P := iok).
  - destruct (di_complete x) eqn:EC; cbn [negb]; [apply safe_ok; split; auto|].
    destruct (di_search x) eqn:ESr; cbn [negb].
    + destruct (di_left x) eqn:ELf; cbn [negb]; [apply safe_ok; split; auto|].
      apply (pass_left (it_setD (it_clear it) x)); cbn; auto. split; auto.
    + eapply safe_bind; [apply (after_dense (it_setD (it_clear it) x) l li); cbn; auto; apply S'|].
      intros [fp' y] Y. cbn [snd] in Y. destruct (si_valid y); cbn [negb]; [apply safe_ok; split; auto|].
      eapply safe_bind; [apply incr_dense_safe; split; auto|]. intros [b z] Z. apply safe_ok. exact Z.
  - intros y Y. destruct (it_valid y) eqn:EY; cbn [negb]; [|apply safe_ok; auto].
    eapply safe_bind; [apply compare_safe; auto|]. intros z _. destruct (z =? kCouldBePositive)%Z; [apply safe_ok; auto|].
    destruct ri; apply safe_ok; auto.
Qed.

(** ** what a caller reads off an iterator *)
Lemma key_safe : forall it, iok it -> safe (it_getKey it) (fun _ => True).
Proof.
  intros it (D & S'). unfold it_getKey. destruct (it_valid it); cbn [negb]; [|apply safe_ok; auto].
  pose proof (d_getKey_safe K HNE st e Hst1 Hmem Hsh (it_d it) D) as Q. pose proof (s_getKey_safe K HNE st e Hst1 Hst2 Hmem Hsh (it_s it) S') as R.
  destruct (di_complete (it_d it)); [eapply safe_impl; eauto|].
  eapply safe_bind; [exact Q|]. intros a _. eapply safe_bind; [exact R|]. intros b _. apply safe_ok. auto.
Qed.

Lemma suffix_safe : forall it, iok it -> safe (it_getSuffix e f it) (fun _ => True).
Proof.
  intros it (D & S'). unfold it_getSuffix. destruct (it_valid it) eqn:EV; cbn [negb]; [|apply safe_ok; auto].
  destruct (valid_parts it EV) as (V1 & V2). destruct (di_complete (it_d it)).
  - eapply safe_bind; [apply (d_getSuffix_safe c K HS HB HE HNE HFF st d e Hst1 HD Hmem Hsh Hlens); auto|]. intros [a b] _. apply safe_ok. auto.
  - destruct V2 as [V2|V2]; [discriminate|].
    eapply safe_bind; [apply (s_getSuffix_safe c K HNE st s e Hst1 Hst2 HK Hmem Hsh Hlens); auto|]. intros [a b] _. apply safe_ok. auto.
Qed.

Lemma keysuf_safe : forall it, iok it -> safe (it_getKeyWithSuffix e f it) (fun _ => True).
Proof.
  intros it (D & S'). unfold it_getKeyWithSuffix. destruct (it_valid it) eqn:EV; cbn [negb]; [|apply safe_ok; auto].
  destruct (valid_parts it EV) as (V1 & V2).
  pose proof (d_getKeyWithSuffix_safe c K HS HB HE HNE HFF st d e Hst1 HD Hmem Hsh Hlens (it_d it) 0 D V1) as Q.
  destruct (di_complete (it_d it)); [exact Q|]. destruct V2 as [V2|V2]; [discriminate|].
  eapply safe_bind; [exact Q|]. intros [a n] _.
  eapply safe_bind; [apply (s_getKeyWithSuffix_safe c K HNE st s e Hst1 Hst2 HK Hmem Hsh Hlens); auto|]. intros [b m] _. apply safe_ok. auto.
Qed.

Lemma look_safe : forall it, iok it -> safe (look e f it) (fun _ => True).
Proof.
  intros it H. unfold look. destruct (it_valid it); [|apply safe_ok; auto].
  eapply safe_bind; [apply key_safe; auto|]. intros a _. eapply safe_bind; [apply suffix_safe; auto|]. intros b _.
  eapply safe_bind; [apply keysuf_safe; auto|]. intros x _. apply safe_ok. auto.
Qed.
End SafeIter.

(** ** lookups need no zero bytes if assertions are off *)
Section SafeLookup.
Variables (c : config) (K : list bytes).
Notation item := (item K). Notation child := (child K). Notation louds := (louds K).
Notation lab := (lab K). Notation term := (term K). Notation height := (height K). Notation NN := (NN K).
Hypothesis HS : StronglySorted klt K.
Hypothesis HB : Forall is_bytes K.
Hypothesis HE : Forall (fun k => k <> []) K.
Hypothesis HNE : length K <> 0.
Variables (st : nat) (s : sparse) (e : env).
Hypothesis Hst1 : 1 <= st.
Hypothesis Hst2 : S st <= height.
Hypothesis HK : sparse_ok c K st s.
Hypothesis Hmem : strict_mem e = false.
Hypothesis Hsh : strict_shift e = false.
Hypothesis Hlens : lens_ok (cf_type c) (cf_hlen c) (cf_rlen c).
Hypothesis HZ : asserts e = false \/ zeros K st s e.
Notation spos := (spos K st). Notation slen := (slen K st).

Lemma s_lookup_safe : forall k, is_bytes k -> forall rest level l j, st <= l -> louds l j = true ->
  safe (s_lookup_loop e s k rest level (spos l j)) (fun _ => True).
Proof.
  intros k Hk. pose proof (s_suf_fit c K st s e HK Hmem Hsh Hlens) as SF.
  assert (FIN : forall p level, (exists l i, st <= l /\ item l i = true /\ p = spos l i) \/ past e slen p ->
    safe (sp <- s_getSuffixPos e s p ;; checkEquality e (s_suf s) sp k level) (fun _ => True)).
  { intros p level H. assert (Q : exists v, s_getSuffixPos e s p = Ok v).
    { unfold s_getSuffixPos. destruct H as [(l & i & A & B & ->)|H].
      - rewrite (s_child_rank c K HNE st s e Hst1 Hst2 HK) by auto. cbn [bind]. eauto.
      - destruct (rank_past e _ _ p (sk_ch _ _ _ _ HK)) as (m & ->); [rewrite (CH_len K HNE st e Hst1 Hst2 Hmem Hsh); auto|]. cbn [bind]. eauto. }
    destruct Q as (v & ->). cbn [bind]. destruct (checkEquality_total e Hsh Hmem (s_suf s) v k level SF Hk) as (b & ->). apply safe_ok. auto. }
  induction rest as [|b rest IH]; intros level l j Hl L; cbn [s_lookup_loop]; pose proof (louds_item K l j L) as I.
  - rewrite (s_lab_read c K HNE st s e Hst1 Hst2 HK) by auto. cbn [bind]. destruct (_ =? _); [|apply safe_ok; auto].
    rewrite (s_child_read c K HNE st s e Hst1 Hst2 HK) by auto. cbn [bind]. destruct (child l j); cbn [negb]; [apply safe_ok; auto|].
    apply FIN. left. eauto.
  - destruct (s_nodeSize_spec c K HNE st s e Hst1 Hst2 HK l j Hl L) as (N & EN & W). rewrite EN. cbn [bind].
    rewrite (search_ff c K HS HB HE HNE st s e Hst1 Hst2 HK Hmem l j N Hl L W b). cbn [bind].
    pose proof (w_end _ _ _ _ _ W) as WE. pose proof (num_words_le slen) as NW.
    pose proof (node_not_last K HNE st Hst1 Hst2 l j Hl L) as NL.
    pose proof (win_sum K HNE st e Hst1 Hst2 Hmem l j N Hl L W) as WS.
    set (p := if term l j then S (spos l j) else spos l j) in *. set (m := if term l j then N - 1 else N) in *.
    assert (PQ : spos l j <= p <= S (spos l j)) by (unfold p; destruct (term l j); lia).
    destruct (ff _ p m) as [x|] eqn:EF; unfold res_of in *; cbn [bind negb]; [|apply safe_ok; auto].
    apply ff_some in EF. destruct EF as (X1 & X2 & X3). destruct (le_lt_dec slen x) as [G|G].
    + assert (PA : past e slen x).
      { split; auto. split; [lia|]. intros HA. destruct HZ as [Z|[Z1 Z2]]; [congruence|]. destruct (Nat.eq_dec x slen) as [|NE]; auto. exfalso.
        specialize (X3 slen ltac:(lia)). pose proof (Z2 ltac:(lia) x ltac:(lia)). cbn beta in *. lia. }
      unfold s_readChild. destruct (sk_ch _ _ _ _ HK) as [R _].
      rewrite (readBit_past e _ _ x R); [|rewrite (CH_len K HNE st e Hst1 Hst2 Hmem Hsh); auto]. cbn [bind negb]. apply FIN. auto.
    + destruct (spos_inv K HNE st Hst1 Hst2 x G) as (l' & i & A & B & ->).
      rewrite (s_child_read c K HNE st s e Hst1 Hst2 HK) by auto. cbn [bind]. destruct (child l' i) eqn:EC; cbn [negb].
      * rewrite (s_child_node c K HNE st s e Hst1 Hst2 HK) by auto. cbn [bind]. rewrite child_louds in EC.
        rewrite (s_first_pos c K HNE st s e Hst1 Hst2 HK) by (auto; lia). cbn [bind]. apply IH; auto.
      * apply FIN. left. eauto.
Qed.
End SafeLookup.

(** ** sessions *)
Section Sessions.
Variables (keys : list bytes) (e : env) (c : config) (f : surf).
Hypothesis HG : good_keys keys.
Hypothesis HM : machine e.
Hypothesis HC : settings c.
Hypothesis HF : filter_of e c keys f.
Hypothesis HL : ~ lone_ff keys.
Notation K := (uniq keys).

Lemma padded_zeros : padded e c keys f -> forall st, 1 <= st -> S st <= height K -> sparse_ok c K st (sf_sparse f) -> zeros K st (sf_sparse f) e.
Proof.
  intros HZ st S1 S2 S'. destruct (good_uniq keys HG) as (HS & HB & HE & HN). split.
  - unfold rd, lv_read. pose proof (sk_lab _ _ _ _ S') as B. pose proof (slabs_total K HN st S1 S2) as T.
    assert (Z0 : nth (slen K st) (lv_bytes (s_labels (sf_sparse f))) 0 = 0).
    { rewrite B, app_nth2, T, Nat.sub_diag by lia. reflexivity. }
    rewrite Z0. destruct HZ as [[HZ' HF']|HQ];
      [|rewrite HQ; repeat (match goal with |- context [if ?b then _ else _] => destruct b end); reflexivity].
    destruct (filter_built keys e c HS HB HE HN HM HC f HF) as (st' & _ & _ & _ & S'' & R).
    assert (ES : st' = st) by (rewrite <- (sk_st _ _ _ _ S''), <- (sk_st _ _ _ _ S'); reflexivity). subst st'.
    specialize (R HZ'). rewrite T in R. replace (_ <? _)%N with true by (symmetry; apply N.ltb_lt; exact R). reflexivity.
  - intros H. pose proof (zeros_past_end keys HG e c f HM HC HZ [] st S1 S2 S') as [Q|Q].
    + destruct (Q H) as (_ & Q'). exact Q'.
    + destruct Q as (i & Hi & Q). unfold mt in Q. cbn [firstn] in Q. exfalso.
      rewrite Forall_forall in HE. apply (HE (kk K i)); [unfold kk; apply nth_In; auto|]. destruct (kk K i); [reflexivity|discriminate].
Qed.

Lemma lookup_total : asserts e = false \/ padded e c keys f -> forall q, is_bytes q -> exists b, lookupKey e f q = Ok b.
Proof.
  intros HA q Hq. destruct (good_uniq keys HG) as (HS & HB & HE & HN). pose proof HM as [M1 M2].
  destruct (built keys HG e c f HM HC HF) as (st & S1 & S2 & D & S').
  assert (Q : safe (lookupKey e f q) (fun _ => True)); [|destruct Q as (b & -> & _); eauto].
  apply (lookup_safe c K HS HB HE HN (lone_ff_iff keys HG HL) st f e S1 D M2 M1 (settings_lens c HC)); auto.
  intros node [->|(x & LX & ->)] NZ; [congruence|]. unfold s_lookupKey.
  rewrite (s_first_pos c K HN st (sf_sparse f) e S1 S2 S') by auto. cbn [bind].
  apply (s_lookup_safe c K HS HB HE HN st (sf_sparse f) e S1 S2 S' M2 M1 (settings_lens c HC)); auto.
  destruct HA as [HA|HA]; [left; auto|right]. apply padded_zeros; auto.
Qed.

Lemma lset_In : forall (A : Type) (l : list A) i x y, In y (lset l i x) -> In y l \/ y = x.
Proof.
  intros A. induction l as [|a l IH]; intros i x y H; [destruct i; destruct H|].
  destruct i; cbn [lset] in H; destruct H as [H|H]; cbn [In]; auto. destruct (IH _ _ _ H); auto.
Qed.

Lemma session_total : padded e c keys f -> forall cs, Forall (sound_call e) cs -> exists l, answers e f cs = Ok l /\ length l = length cs.
Proof.
  intros HZ. destruct (good_uniq keys HG) as (HS & HB & HE & HN). pose proof HM as [M1 M2].
  destruct (built keys HG e c f HM HC HF) as (st & S1 & S2 & D & S').
  pose proof (padded_zeros HZ st S1 S2 S') as Z. pose proof (settings_lens c HC) as LO. pose proof (lone_ff_iff keys HG HL) as NF.
  set (ok := iok K st).
  assert (STEP : forall cl se, sound_call e cl -> ok (se_member se) -> Forall ok (se_its se) ->
    safe (step e f se cl) (fun r => ok (se_member (snd r)) /\ Forall ok (se_its (snd r)))).
  { intros cl se HCl HMe HIt.
    assert (ADD : forall it, ok it -> ok (se_member (snd (add_iter se it))) /\ Forall ok (se_its (snd (add_iter se it)))).
    { intros it H. split; auto. cbn. apply Forall_app. auto. }
    destruct cl; cbn [sound_call step] in *; try contradiction.
    - destruct (lookup_total (or_intror HZ) q HCl) as (b & ->). apply safe_ok. auto.
    - destruct HCl as (H1 & H2 & H3).
      eapply safe_bind; [apply (range_safe c K HS HB HE HN NF st f e S1 S2 D S' M2 M1 LO Z); auto; split; auto|].
      intros [b it] H. apply safe_ok. auto.
    - eapply safe_bind; [apply (first_safe c K HS HB HE HN NF st f e S1 S2 D S' M2 M1 Z)|]. intros it H. apply safe_ok. auto.
    - eapply safe_bind; [apply (last_safe c K HS HB HE HN NF st f e S1 S2 D S' M2 M1 Z)|]. intros it H. apply safe_ok. auto.
    - eapply safe_bind; [apply (greater_safe c K HS HB HE HN NF st f e S1 S2 D S' M2 M1 LO Z); auto|]. intros it H. apply safe_ok. auto.
    - eapply safe_bind; [apply (less_safe c K HS HB HE HN NF st f e S1 S2 D S' M2 M1 LO Z); auto|].
      + destruct (lookup_total (or_intror HZ) q (proj1 HCl)) as (b & ->). apply safe_ok. auto.
      + intros it H. apply safe_ok. auto.
    - destruct (nth_error (se_its se) i) as [it|] eqn:EN; [|apply safe_ok; auto].
      assert (HI : ok it) by (rewrite Forall_forall in HIt; apply HIt; eapply nth_error_In; eauto).
      eapply safe_bind with (P := fun r => ok (snd r)).
      + destruct m; cbn [do_move]; [apply (it_next_safe c K HS HB HE HN NF st f e S1 S2 D S' M2 M1 Z)|apply (it_prev_safe c K HS HB HE HN NF st f e S1 S2 D S' M2 M1 Z)]; auto.
      + intros [b it'] H. apply safe_ok. cbn [snd se_member se_its] in *. split; auto. apply Forall_forall. intros y Hy.
        apply lset_In in Hy. destruct Hy as [Hy| ->]; auto. rewrite Forall_forall in HIt. auto.
    - destruct (nth_error (se_its se) i) as [it|] eqn:EN; [|apply safe_ok; auto].
      assert (HI : ok it) by (rewrite Forall_forall in HIt; apply HIt; eapply nth_error_In; eauto).
      eapply safe_bind; [apply (look_safe c K HS HB HE HN NF st f e S1 S2 D S' M2 M1 LO); auto|]. intros v _. apply safe_ok. auto.
    - destruct (nth_error (se_its se) i) as [it|] eqn:EN; [|apply safe_ok; auto].
      assert (HI : ok it) by (rewrite Forall_forall in HIt; apply HIt; eapply nth_error_In; eauto).
      destruct (it_valid it) eqn:EV; [|apply safe_ok; auto].
      eapply safe_bind; [apply (compare_safe c K HS HB HE HN NF st f e S1 S2 D S' M2 M1 LO); auto|]. intros v _. apply safe_ok. auto. }
  assert (PLAY : forall cs se, Forall (sound_call e) cs -> ok (se_member se) -> Forall ok (se_its se) ->
    exists l, play e f se cs = Ok l /\ length l = length cs).
  { induction cs as [|cl cs IH]; intros se HCs HMe HIt; cbn [play]; [exists []; auto|]. inversion HCs as [|? ? HC1 HC2]; subst.
    destruct (STEP cl se HC1 HMe HIt) as ([a se'] & E & H1 & H2). rewrite E. cbn [bind].
    destruct (IH se' HC2 H1 H2) as (l & E' & LL). rewrite E'. cbn [bind]. exists (a :: l). cbn. auto. }
  intros cs HCs. unfold answers. apply PLAY; cbn [se_member se_its]; auto. apply (new_ok c K HN st f e S1 S2 D S' M2 M1).
Qed.
End Sessions.

(** A restored filter behind which memory is zero answers a program as the
    original does, and neither faults. *)
Lemma same_answers_total : forall e c keys f,
  machine e -> quiet e -> settings c -> good_keys keys -> ~ lone_ff keys -> small keys -> filter_of e c keys f ->
  forall g cs, restored e f g -> Forall (sound_call e) cs ->
  exists l, answers e f cs = Ok l /\ answers e g cs = Ok l /\ length l = length cs.
Proof.
  intros e c keys f HM HQ HC HG HL HSm HF g cs HR HCs.
  assert (HF' : filter_of e c keys g) by (eapply fo_restored; eauto; left; exact HSm).
  destruct (session_total keys e c g HG HM HC HF' HL (or_intror HQ) cs HCs) as (l & E & LL).
  exists l. split; [|split; auto]. exact (round_trip_answers e c keys f HM HQ (or_introl HC) HG HSm HF g cs l HR E).
Qed.

(** Building a filter and running a program on it. *)
Lemma program_runs : forall e c keys,
  machine e -> settings c -> good_keys keys -> ~ lone_ff keys -> small keys ->
  forall cs, Forall (sound_call e) cs ->
  exists f l, create e c keys = Ok f /\ answers e f cs = Ok l /\ length l = length cs.
Proof.
  intros e c keys HM HC HG HL HSm cs HCs. destruct (create_exists keys HG e c HM HC HSm) as (f & E).
  destruct (session_total keys e c f HG HM HC (fo_built e c keys f E) HL (or_introl (conj HSm E)) cs HCs) as (l & El & LL).
  exists f, l. auto.
Qed.
