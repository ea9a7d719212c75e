(** Theorems about runs of the benchmark program. *)
From Coq Require Import Arith List NArith ZArith Bool String Lia Sorting.Sorted Permutation.
From Verif Require Import Res Word Config Builder Dense Sparse Surf Serialize Bloom Murmur Bench Spec SpecApi SpecFilter SpecIter SpecRange SpecSession
  SpecBloom SpecFixed SpecBench KeyFacts IntKeys BloomFacts MurmurFacts PointFacts RangeApi SafeApi FixedApi BenchFacts.
Import ListNotations.
Open Scope nat_scope.

Lemma names_some : forall a, check_args a = true -> exists o, names (a_filter a) (a_len a) o.
Proof.
  intros a H. unfold check_args in H. rewrite !andb_true_iff in H. destruct H as ((((((H & _) & _) & _) & _) & _) & _).
  rewrite !orb_true_iff, !is_ok in H. unfold names. destruct H as [[[[[H|H]|H]|H]|H]|H]; rewrite H; eexists; intuition eauto.
Qed.

Lemma filter_made : forall e shuffle a load keys,
  machine e -> check_args a = true -> (a_filter a = str "SuRFMixed" -> a_len a <= 32) ->
  Permutation (shuffle load) load -> Forall is_bytes load -> Forall (fun k => k <> []) load ->
  taken (shuffle load) (a_percent a) keys -> a_filter a = str "Bloom" \/ (keys <> [] /\ small keys) ->
  exists flt, createFilter e (a_filter a) (a_len a) keys = Ok flt.
Proof.
  intros e shuffle a load keys HM CA MX P B N T NE. destruct (names_some a CA) as (o & O). rewrite (create_named e _ _ o keys O). destruct o as [c|].
  - destruct NE as [NE|(NE & SM)].
    { exfalso. rewrite NE in O. destruct O as [(X & _)|[(X & _)|[(X & _)|[(X & _)|[(_ & X)|(X & _)]]]]]; discriminate. }
    destruct (create_exists keys (taken_good _ _ _ _ T P B N NE) e c HM (names_settings _ _ _ _ O eq_refl (checked_len a CA) MX) SM) as (f & ->).
    cbn [bind]. eauto.
  - destruct (bloom_made keys) as (d & -> & _). eauto.
Qed.

Section Run.
Variables (e : env) (sz : N) (shuffle : list key -> list key) (a : args) (load txn keys : list key) (o : option config) (flt : filter) (qs : list query).
Hypotheses (HM : machine e) (CA : check_args a = true) (MX : a_filter a = str "SuRFMixed" -> a_len a <= 32).
Hypotheses (SH : Permutation (shuffle load) load) (HB : Forall is_bytes load) (HN : Forall (fun k => k <> []) load).
Hypotheses (TK : taken (shuffle load) (a_percent a) keys) (NM : names (a_filter a) (a_len a) o).
Hypotheses (OK : o = None \/ (keys <> [] /\ ~ lone_ff keys /\ (small keys \/ quiet e))).
Hypotheses (CF : createFilter e (a_filter a) (a_len a) keys = Ok flt).
Hypotheses (HQ : queries (a_query a) txn qs) (PR : Forall (proper (a_key a)) qs).

Lemma flt_shape : match o with
  | Some c => exists f, flt = FSurf f (iter_new f) /\ create e c keys = Ok f /\ settings c
  | None => exists d, flt = FBloom d /\ newFilterBloom keys = Ok (FBloom d)
  end.
Proof using NM CF CA MX OK.
  rewrite (create_named e _ _ o keys NM) in CF. destruct o as [c|].
  - destruct (create e c keys) as [f|] eqn:E; cbn [bind] in CF; [|discriminate CF]. exists f. split; [congruence|]. split; [reflexivity|].
    eapply names_settings; eauto. apply checked_len; exact CA.
  - destruct (bloom_made keys) as (d & E & _). exists d. rewrite E in CF. split; [congruence|exact E].
Qed.

Lemma later_refl : later e flt flt.
Proof using NM CF CA MX OK.
  pose proof flt_shape as S. destruct o as [c|].
  - destruct S as (f & -> & _). constructor; constructor.
  - destruct S as (d & -> & _). constructor.
Qed.

Lemma all_answered : Forall (answered e (a_key a) flt) qs.
Proof using All.
  pose proof flt_shape as S. apply Forall_forall. intros x Hx. rewrite Forall_forall in PR. specialize (PR x Hx). destruct o as [c|].
  - destruct OK as [X|(NE & NL & SM)]; [discriminate X|]. destruct S as (f & -> & E & HC).
    eapply surf_answers; eauto. eapply taken_good; eauto.
  - destruct S as (d & -> & E). eapply bloom_answers; eauto.
Qed.

Lemma no_miss : Forall (fair e (a_key a) keys o flt) qs -> forall x, In x qs -> right (a_key a) keys x -> yes e (a_key a) flt x.
Proof using All.
  intros FR x Hx R. rewrite Forall_forall in FR, PR. specialize (FR x Hx). specialize (PR x Hx). pose proof flt_shape as S.
  destruct x as [q|q].
  - cbn [yes right] in *. destruct o as [c|].
    + destruct S as (f & -> & E & HC). destruct OK as [X|(NE & NL & _)]; [discriminate X|]. cbn [lookup].
      apply (point_stored e c keys f q HM HC (taken_good _ _ _ _ TK SH HB HN NE) NL (fo_built e c keys f E) R).
    + destruct S as (d & -> & E). destruct (bloom_made keys) as (d' & E' & T & _). assert (d' = d) by congruence. subst d'. apply T. exact R.
  - destruct (FR R) as (c & f & it & -> & EF & NT & NS). destruct S as (f' & EF' & E & HC). rewrite EF' in EF. injection EF as <- <-.
    destruct OK as [X|(NE & NL & SM)]; [discriminate X|]. pose proof (taken_good _ _ _ _ TK SH HB HN NE) as HG.
    destruct R as (u & k & U & K1 & K2 & K3). destruct PR as (Hq & _). destruct (upper_bytes _ _ _ U Hq) as (Hu & Nq).
    destruct (range_total e c keys f' HM HC HG NL SM E (iter_new f') q u (mi_new e f') Hq Nq Hu) as (b & it' & B1 & B2).
    assert (T : range_after e f' (iter_new f') q true u true = Ok true).
    { eapply (range_true e c keys f' HM HC HG NL (fo_built e c keys f' E)); eauto; [apply mi_new| |left; exact K3].
      destruct K2 as [K2| ->]; [left; exact K2|right; auto]. }
    unfold range_after in T. rewrite B1 in T. cbn [bind] in T. assert (b = true) by (clear - T; congruence). subst b.
    exists u, (FSurf f' it'). split; [exact U|]. rewrite EF'. unfold lookupRange. rewrite B1. reflexivity.
Qed.

(** Without [fair]: the run ends, or the last assertion fails. *)
Lemma run_counts : exists p tp tn, tally (right (a_key a) keys) qs tp /\ tally (yes e (a_key a) flt) qs p /\ tally (fun x => ~ yes e (a_key a) flt x) qs tn /\ p + tn = List.length txn /\
  main e sz shuffle a load txn = (if asserts e && (p <? tp) then Fail AssertFail else
    Ok (Some (mkReport p tp (Z.of_nat p - Z.of_nat tp) (Z.of_nat (List.length txn) - Z.of_nat p) 0 (memory sz flt)))).
Proof using All.
  destruct (asks_count e (a_key a) flt qs all_answered) as (p & tn & T1 & T2 & S1 & F).
  destruct (refs_count (a_key a) keys qs (proj1 TK) PR) as (tp & T3 & T4). destruct (F flt 0 later_refl) as (flt' & F1 & F2).
  exists p, tp, tn. rewrite (queries_length _ _ _ HQ) in S1. repeat split; auto.
  rewrite (main_queries e sz shuffle a load txn keys flt qs CA (taken_sort _ _ _ _ TK SH) CF HQ), F1. cbn [bind]. rewrite T3. cbn [bind Nat.add].
  rewrite (later_memory e sz flt flt' F2). unfold massert.
  replace (negb (0 <=? Z.of_nat p - Z.of_nat tp)%Z) with (p <? tp).
  2: { destruct (Nat.ltb_spec p tp), (Z.leb_spec 0 (Z.of_nat p - Z.of_nat tp)); cbn [negb]; auto; lia. }
  destruct (asserts e && (p <? tp)); reflexivity.
Qed.

Lemma run_sound : Forall (fair e (a_key a) keys o flt) qs -> exists r fp tn, main e sz shuffle a load txn = Ok (Some r) /\
    tally (right (a_key a) keys) qs (r_true_positives r) /\
    tally (yes e (a_key a) flt) qs (r_positives r) /\
    tally (fun x => yes e (a_key a) flt x /\ ~ right (a_key a) keys x) qs fp /\ r_false_positives r = Z.of_nat fp /\
    tally (fun x => ~ yes e (a_key a) flt x) qs tn /\ r_true_negatives r = Z.of_nat tn /\
    r_count r = 0 /\ r_memory r = memory sz flt /\
    forall x, In x qs -> right (a_key a) keys x -> yes e (a_key a) flt x.
Proof using All.
  intros FR. pose proof (no_miss FR) as NM'. destruct run_counts as (p & tp & tn & T1 & T2 & T3 & S1 & E).
  destruct (tally_split _ _ _ _ _ _ T2 T1 NM') as (fp & T4 & S2).
  replace (p <? tp) with false in E by (symmetry; apply Nat.ltb_ge; lia). rewrite andb_false_r in E.
  eexists _, fp, tn. split; [exact E|]. cbn [r_true_positives r_positives r_false_positives r_true_negatives r_count r_memory].
  repeat split; auto; lia.
Qed.
End Run.

(** ** Point queries *)
Lemma names_bloom : forall name len o, names name len o -> (name = str "Bloom" <-> o = None).
Proof.
  intros name len o H. destruct H as [(-> & ->)|[(-> & ->)|[(-> & ->)|[(-> & ->)|[(-> & ->)|(-> & ->)]]]]]; split; intros X; try discriminate; reflexivity.
Qed.

Lemma tally_map : forall (A B : Type) (P : B -> Prop) (g : A -> B) l n, tally P (map g l) n -> tally (fun x => P (g x)) l n.
Proof.
  intros A B P g. induction l as [|x l IH]; intros n H; cbn [map] in H; inversion H; subst; constructor; auto.
Qed.

Lemma point_run : forall e sz shuffle a load txn keys,
  machine e -> check_args a = true -> a_query a = str "point" -> (a_filter a = str "SuRFMixed" -> a_len a <= 32) ->
  Permutation (shuffle load) load -> Forall is_bytes load -> Forall (fun k => k <> []) load -> Forall is_bytes txn ->
  taken (shuffle load) (a_percent a) keys ->
  a_filter a = str "Bloom" \/ (keys <> [] /\ ~ lone_ff keys /\ small keys) ->
  exists flt r fp tn, createFilter e (a_filter a) (a_len a) keys = Ok flt /\ main e sz shuffle a load txn = Ok (Some r) /\
    (forall q, In q keys -> lookup e flt q = Ok true) /\
    tally (fun q => In q keys) txn (r_true_positives r) /\
    tally (fun q => lookup e flt q = Ok true) txn (r_positives r) /\
    tally (fun q => lookup e flt q = Ok true /\ ~ In q keys) txn fp /\ r_false_positives r = Z.of_nat fp /\
    tally (fun q => ~ lookup e flt q = Ok true) txn tn /\ r_true_negatives r = Z.of_nat tn /\
    r_count r = 0 /\ r_memory r = memory sz flt.
Proof.
  intros e sz shuffle a load txn keys HM CA QT MX SH HB HN HX TK OK.
  destruct (filter_made e shuffle a load keys HM CA MX SH HB HN TK ltac:(tauto)) as (flt & CF). destruct (names_some a CA) as (o & NM).
  assert (OK' : o = None \/ (keys <> [] /\ ~ lone_ff keys /\ (small keys \/ quiet e))).
  { destruct OK as [X|X]; [left; apply (names_bloom _ _ _ NM); exact X|right; tauto]. }
  assert (Q : queries (a_query a) txn (map Point txn)) by (left; auto).
  assert (PR : Forall (proper (a_key a)) (map Point txn)).
  { apply Forall_forall. intros x Hx. apply in_map_iff in Hx. destruct Hx as (q & <- & Hq). rewrite Forall_forall in HX. exact (HX q Hq). }
  assert (FR : Forall (fair e (a_key a) keys o flt) (map Point txn)).
  { apply Forall_forall. intros x Hx. apply in_map_iff in Hx. destruct Hx as (q & <- & Hq). exact I. }
  destruct (run_sound e sz shuffle a load txn keys o flt (map Point txn) HM CA MX SH HB HN TK NM OK' CF Q PR FR)
    as (r & fp & tn & R1 & R2 & R3 & R4 & R5 & R6 & R7 & R8 & R9 & _).
  exists flt, r, fp, tn. apply tally_map in R2, R3, R4, R6. repeat split; auto.
  intros q Hq. pose proof (flt_shape e a keys o flt CA MX NM OK' CF) as S. destruct o as [c|].
  - destruct OK' as [X|(NE & NL & _)]; [discriminate X|]. destruct S as (f & -> & E & HC). cbn [lookup].
    apply (point_stored e c keys f q HM HC (taken_good _ _ _ _ TK SH HB HN NE) NL (fo_built e c keys f E) Hq).
  - destruct S as (d & -> & E). destruct (bloom_made keys) as (d' & E' & T & _). assert (d' = d) by congruence. subst d'. apply T. exact Hq.
Qed.

(** ** Range queries *)

(** The last assertion fails exactly if more queries have a key in their range
    than are answered "yes". *)
Lemma run_outcome : forall e sz shuffle a load txn keys o flt qs,
  machine e -> check_args a = true -> (a_filter a = str "SuRFMixed" -> a_len a <= 32) ->
  Permutation (shuffle load) load -> Forall is_bytes load -> Forall (fun k => k <> []) load ->
  taken (shuffle load) (a_percent a) keys -> names (a_filter a) (a_len a) o ->
  o = None \/ (keys <> [] /\ ~ lone_ff keys /\ (small keys \/ quiet e)) ->
  createFilter e (a_filter a) (a_len a) keys = Ok flt ->
  queries (a_query a) txn qs -> Forall (proper (a_key a)) qs ->
  exists p tp, tally (yes e (a_key a) flt) qs p /\ tally (right (a_key a) keys) qs tp /\
    (asserts e = true -> p < tp -> main e sz shuffle a load txn = Fail AssertFail) /\
    (asserts e = false \/ tp <= p -> exists r, main e sz shuffle a load txn = Ok (Some r) /\ r_positives r = p /\ r_true_positives r = tp).
Proof.
  intros e sz shuffle a load txn keys o flt qs HM CA MX SH HB HN TK NM OK CF HQ PR.
  destruct (run_counts e sz shuffle a load txn keys o flt qs HM CA MX SH HB HN TK NM OK CF HQ PR) as (p & tp & tn & T1 & T2 & T3 & S1 & E).
  exists p, tp. split; [exact T2|]. split; [exact T1|]. rewrite E. split.
  - intros -> L. apply Nat.ltb_lt in L. rewrite L. reflexivity.
  - intros [->|L]; [|apply Nat.ltb_ge in L; rewrite L, andb_false_r]; cbn [andb]; eexists; (split; [reflexivity|split; reflexivity]).
Qed.

(** ** Integer ranges *)
Definition int_upper (w : N) : N := ((w + 92233697311) mod 2 ^ 64)%N.

Lemma int_upper_lt : forall w, (int_upper w < 2 ^ 64)%N.
Proof. intros w. apply N.mod_lt. discriminate. Qed.

Lemma u64_klt : forall a b, (a < 2 ^ 64)%N -> (b < 2 ^ 64)%N -> (klt (uint64ToString a) (uint64ToString b) <-> (a < b)%N).
Proof. exact u64_order. Qed.
Lemma u64_kle : forall a b, (a < 2 ^ 64)%N -> (b < 2 ^ 64)%N -> (kle (uint64ToString a) (uint64ToString b) <-> (a <= b)%N).
Proof.
  intros a b Ha Hb. split; [|apply u64_le; auto]. intros [H|H]; [apply u64_klt in H; auto; lia|]. apply u64_inj in H; auto. lia.
Qed.

Lemma int_taken : forall shuffle p ld sh ks, Forall (fun w => (w < 2 ^ 64)%N) ld ->
  shuffle (int_keys ld) = int_keys sh -> Permutation sh ld -> StronglySorted N.le ks ->
  Permutation ks (firstn (List.length sh * p / 100) sh) ->
  taken (shuffle (int_keys ld)) p (int_keys ks) /\ Permutation (shuffle (int_keys ld)) (int_keys ld) /\ Forall (fun w => (w < 2 ^ 64)%N) ks.
Proof.
  intros shuffle p ld sh ks HB E P S T. rewrite E.
  assert (B : Forall (fun w => (w < 2 ^ 64)%N) ks).
  { apply Forall_forall. intros w Hw. rewrite Forall_forall in HB. apply HB. eapply Permutation_in; [exact P|]. eapply firstn_in, Permutation_in; eauto. }
  split; [|split; [apply Permutation_map; exact P|exact B]]. split.
  - clear - S B. induction ks as [|w ks IH]; [constructor|]. inversion S as [|? ? S1 S2]; subst. inversion B as [|? ? B1 B2]; subst.
    cbn [int_keys map]. constructor; [apply IH; auto|]. rewrite Forall_forall in S2, B2 |- *. intros x Hx. apply in_map_iff in Hx.
    destruct Hx as (v & <- & Hv). apply u64_le; auto.
  - unfold int_keys. rewrite map_length, firstn_map. apply Permutation_map. exact T.
Qed.

Lemma int_upper_ok : forall kt w u, kt <> str "email" -> (w < 2 ^ 64)%N -> (upper kt (uint64ToString w) u <-> u = uint64ToString (int_upper w)).
Proof.
  intros kt w u N Hw. split.
  - intros [(X & _)|(_ & v & Hv & E & ->)]; [congruence|]. apply u64_inj in E; auto. subst v. reflexivity.
  - intros ->. right. split; [exact N|]. exists w. auto.
Qed.

Lemma int_right : forall kt ks w, kt <> str "email" -> (w < 2 ^ 64)%N -> Forall (fun w => (w < 2 ^ 64)%N) ks ->
  (right kt (int_keys ks) (Range (uint64ToString w)) <-> exists v, In v ks /\ (w <= v < int_upper w)%N).
Proof.
  intros kt ks w N Hw HB. rewrite Forall_forall in HB. pose proof (int_upper_lt w) as HU. split.
  - intros (u & k & U & K1 & K2 & K3). apply int_upper_ok in U; auto. subst u. apply in_map_iff in K1. destruct K1 as (v & <- & Hv).
    exists v. split; [exact Hv|]. split; [apply u64_kle in K2; auto|apply u64_klt in K3; auto].
  - intros (v & Hv & A & B). exists (uint64ToString (int_upper w)), (uint64ToString v). split; [apply int_upper_ok; auto|].
    split; [apply in_map; exact Hv|]. split; [apply u64_kle; auto|apply u64_klt; auto].
Qed.

Lemma int_yes : forall e kt f it w, kt <> str "email" -> (w < 2 ^ 64)%N -> member_iter e f it ->
  (yes e kt (FSurf f it) (Range (uint64ToString w)) <->
   Surf.lookupRange e f (uint64ToString w) true (uint64ToString (int_upper w)) true = Ok true).
Proof.
  intros e kt f it w N Hw MI. pose proof (range_history e f it (uint64ToString w) true (uint64ToString (int_upper w)) true MI) as Q.
  unfold range_after in Q. rewrite <- Q. cbn [yes]. unfold lookupRange. split.
  - intros (u & flt' & U & Y). apply int_upper_ok in U; auto. subst u.
    destruct (lookupRange_st e f it (uint64ToString w) true (uint64ToString (int_upper w)) true) as [(b & i)|]; cbn [bind] in Y |- *; [|discriminate Y]. congruence.
  - intros Y. destruct (lookupRange_st e f it (uint64ToString w) true (uint64ToString (int_upper w)) true) as [(b & i)|] eqn:E; cbn [bind] in Y |- *; [|discriminate Y].
    exists (uint64ToString (int_upper w)), (FSurf f i). split; [apply int_upper_ok; auto|]. rewrite E. cbn [bind]. congruence.
Qed.

Lemma tally_iff : forall (A : Type) (P Q : A -> Prop) l n, (forall x, In x l -> (P x <-> Q x)) -> tally P l n -> tally Q l n.
Proof.
  intros A P Q. induction l as [|x l IH]; intros n H T; inversion T; subst; constructor;
    try (apply IH; [intros y Hy; apply H; right; exact Hy|assumption]); pose proof (H x (or_introl eq_refl)); tauto.
Qed.

Theorem int_range_run : forall e sz shuffle a ld tx sh ks f it,
  machine e -> check_args a = true -> a_query a = str "range" -> a_key a <> str "email" ->
  a_filter a <> str "Bloom" -> (a_filter a = str "SuRFMixed" -> a_len a <= 32) ->
  Forall (fun w => (w < 2 ^ 64)%N) ld -> Forall (fun w => (w < 2 ^ 64)%N) tx ->
  shuffle (int_keys ld) = int_keys sh -> Permutation sh ld -> StronglySorted N.le ks ->
  Permutation ks (firstn (List.length sh * a_percent a / 100) sh) ->
  ks <> [] -> ~ lone_big ks -> small (int_keys ks) \/ quiet e ->
  createFilter e (a_filter a) (a_len a) (int_keys ks) = Ok (FSurf f it) ->
  let in_range w := exists v, In v ks /\ (w <= v < (w + 92233697311) mod 2 ^ 64)%N in
  let said_yes w := Surf.lookupRange e f (uint64ToString w) true (uint64ToString ((w + 92233697311) mod 2 ^ 64)) true = Ok true in
  (forall w, In w tx -> in_range w -> ~ at_last_node (int_keys ks) (getSparseStartLevel f) (uint64ToString w)) ->
  exists r fp, main e sz shuffle a (int_keys ld) (int_keys tx) = Ok (Some r) /\
    tally in_range tx (r_true_positives r) /\ tally said_yes tx (r_positives r) /\
    tally (fun w => said_yes w /\ ~ in_range w) tx fp /\ r_false_positives r = Z.of_nat fp.
Proof.
  intros e sz shuffle a ld tx sh ks f it HM CA QT KT NB MX BL BT ES PS SS TS NE NL SM CF in_range said_yes HF.
  destruct (int_taken shuffle (a_percent a) ld sh ks BL ES PS SS TS) as (TK & SH & BK).
  assert (GI : good_ints ks) by (split; [exact NE|split; assumption]).
  pose proof (int_lone ks GI NL) as NL'. pose proof (int_good ks GI) as HG.
  assert (HB : Forall is_bytes (int_keys ld)) by (apply Forall_forall; intros k Hk; apply in_map_iff in Hk; destruct Hk as (w & <- & _); apply u64_shape).
  assert (HN : Forall (fun k => k <> []) (int_keys ld)).
  { apply Forall_forall. intros k Hk X. apply in_map_iff in Hk. destruct Hk as (w & E & _). destruct (u64_shape w) as [L _]. rewrite E, X in L. discriminate. }
  destruct (names_some a CA) as (o & NM). destruct o as [c|]; [|exfalso; apply NB; apply (names_bloom _ _ _ NM); reflexivity].
  assert (OK : Some c = None \/ (int_keys ks <> [] /\ ~ lone_ff (int_keys ks) /\ (small (int_keys ks) \/ quiet e))).
  { right. split; [|auto]. apply HG. }
  destruct (flt_shape e a (int_keys ks) (Some c) (FSurf f it) CA MX NM OK CF) as (f' & EF & E & HC). injection EF as <- ->.
  set (qs := map Range (int_keys tx)). assert (Q : queries (a_query a) (int_keys tx) qs) by (right; left; auto).
  rewrite Forall_forall in BT.
  assert (PR : Forall (proper (a_key a)) qs).
  { apply Forall_forall. intros x Hx. apply in_map_iff in Hx. destruct Hx as (q & <- & Hq). apply in_map_iff in Hq. destruct Hq as (w & <- & Hw).
    split; [apply u64_shape|]. exists (uint64ToString (int_upper w)). apply int_upper_ok; auto. }
  assert (FR : Forall (fair e (a_key a) (int_keys ks) (Some c) (FSurf f (iter_new f))) qs).
  { apply Forall_forall. intros x Hx. apply in_map_iff in Hx. destruct Hx as (q & <- & Hq). apply in_map_iff in Hq. destruct Hq as (w & <- & Hw).
    intros R. exists c, f, (iter_new f). split; [reflexivity|]. split; [reflexivity|]. apply int_right in R; auto. split.
    - intros X. apply (HF w Hw R). eapply (fixed_trap 8 (int_keys ks)); eauto using int_fixed; apply u64_shape.
    - intros u U. apply int_upper_ok in U; auto. subst u. apply (fixed_bound 8 (int_keys ks) (int_fixed ks)); apply u64_shape. }
  destruct (run_sound e sz shuffle a (int_keys ld) (int_keys tx) (int_keys ks) (Some c) (FSurf f (iter_new f)) qs HM CA MX SH HB HN TK NM OK CF Q PR FR)
    as (r & fp & tn & R1 & R2 & R3 & R4 & R5 & _).
  exists r, fp. split; [exact R1|]. unfold qs, int_keys in R2, R3, R4. apply tally_map, tally_map in R2. apply tally_map, tally_map in R3. apply tally_map, tally_map in R4.
  assert (I1 : forall w, In w tx -> right (a_key a) (int_keys ks) (Range (uint64ToString w)) <-> in_range w) by (intros w Hw; apply int_right; auto).
  assert (I2 : forall w, In w tx -> yes e (a_key a) (FSurf f (iter_new f)) (Range (uint64ToString w)) <-> said_yes w) by (intros w Hw; apply int_yes; auto; apply mi_new).
  split; [eapply tally_iff; [|exact R2]; exact I1|]. split; [eapply tally_iff; [|exact R3]; exact I2|]. split; [|exact R5].
  eapply tally_iff; [|exact R4]. intros w Hw. cbv beta. unfold int_keys in I1. rewrite (I1 w Hw), (I2 w Hw). reflexivity.
Qed.

(** ** Arguments *)
Lemma check_accepted : forall a, check_args a = true <-> accepted a.
Proof.
  intros a. unfold check_args, accepted. rewrite !andb_true_iff, !orb_true_iff, !negb_true_iff, !is_ok.
  rewrite andb_false_iff, negb_false_iff, orb_false_iff, is_ok, Nat.ltb_ge, Nat.eqb_neq, Nat.ltb_ge.
  assert (W : (a_workload a = str "mixed" \/ is (a_workload a) "alterByte" = false) <-> a_workload a <> str "alterByte").
  { split.
    - intros [->|H]; [discriminate|]. intros X. apply is_ok in X. congruence.
    - intros H. right. destruct (is (a_workload a) "alterByte") eqn:E; [|reflexivity]. apply is_ok in E. contradiction. }
  rewrite W. cbn [In map].
  assert (S : forall x y : key, x = y <-> y = x) by (intros; split; congruence).
  rewrite !(S (str _)). assert (L : (a_len a <> 0 /\ a_len a <= 64) <-> 1 <= a_len a <= 64) by lia. rewrite L.
  assert (O6 : forall A B C D E F : Prop, ((((A \/ B) \/ C) \/ D) \/ E) \/ F <-> A \/ B \/ C \/ D \/ E \/ F \/ False) by (clear; intros; tauto).
  assert (O5 : forall A B C D E : Prop, (((A \/ B) \/ C) \/ D) \/ E <-> A \/ B \/ C \/ D \/ E \/ False) by (clear; intros; tauto).
  assert (O3 : forall A B C : Prop, (A \/ B) \/ C <-> A \/ B \/ C \/ False) by (clear; intros; tauto).
  assert (A7 : forall A B C D E F G : Prop, ((((((A /\ B) /\ C) /\ D) /\ E) /\ F) /\ G) <-> A /\ B /\ C /\ D /\ E /\ F /\ G) by (clear; intros; tauto).
  rewrite A7, O6, O5, !O3. reflexivity.
Qed.

Lemma args_exit : forall e sz shuffle a load txn, main e sz shuffle a load txn = Ok None <-> ~ accepted a.
Proof.
  intros e sz shuffle a load txn. rewrite <- check_accepted. unfold main. destruct (check_args a); cbn [negb]; [|split; [congruence|reflexivity]].
  split; [|congruence]. intros X _. revert X.
  match goal with |- ?m = _ -> _ => assert (G : forall T (x : res T) (k : T -> res (option report)), (forall t, k t <> Ok None) -> bind x k <> Ok None) by (intros T [t|] k H; cbn [bind]; auto; discriminate) end.
  repeat (apply G; intros ?). destruct t1 as [flt n]. repeat (apply G; intros ?). discriminate.
Qed.

Lemma workload_ignored : forall e sz shuffle a a' load txn, accepted a -> accepted a' ->
  a_filter a' = a_filter a -> a_len a' = a_len a -> a_percent a' = a_percent a -> a_key a' = a_key a -> a_query a' = a_query a ->
  main e sz shuffle a' load txn = main e sz shuffle a load txn.
Proof.
  intros e sz shuffle a a' load txn A A' E1 E2 E3 E4 E5. unfold main. apply check_accepted in A, A'.
  rewrite A, A', (checked_alter a A), (checked_alter a' A'), E1, E2, E3, E4, E5. reflexivity.
Qed.

Lemma arf_is_real : forall e sz shuffle len w p pos k q d load txn,
  main e sz shuffle (mkArgs (str "ARF") len w p pos k q d) load txn = main e sz shuffle (mkArgs (str "SuRFReal") len w p pos k q d) load txn.
Proof. intros. reflexivity. Qed.

(** ** Selection *)
Lemma selection : forall shuffle p keys, Permutation (shuffle keys) keys ->
  taken (shuffle keys) p (selectKeysToInsert shuffle p keys) /\
  (p <= 100 -> List.length (selectKeysToInsert shuffle p keys) = List.length keys * p / 100) /\
  forall k, In k (selectKeysToInsert shuffle p keys) -> In k keys.
Proof.
  intros shuffle p keys P. unfold selectKeysToInsert. pose proof (sort_perm (firstn (List.length keys * p / 100) (shuffle keys))) as S. split; [|split].
  - split; [apply sort_sorted|]. rewrite S, (Permutation_length P). reflexivity.
  - intros L. etransitivity; [apply (Permutation_length S)|]. rewrite firstn_length. pose proof (Permutation_length P) as PL. rewrite PL. apply Nat.min_l.
    apply Nat.div_le_upper_bound; [lia|]. rewrite (Nat.mul_comm 100). apply Nat.mul_le_mono_l. exact L.
  - intros k Hk. eapply Permutation_in; [exact P|]. eapply firstn_in, Permutation_in; [exact S|exact Hk].
Qed.

(** ** Upper ends *)
Lemma upper_made : forall kt q u, is_bytes q -> (kt = str "email" \/ List.length q = 8) -> (getUpperBoundKey kt q = Ok u <-> upper kt q u).
Proof.
  intros kt q u Hq HK. split; [|apply upper_ok]. intros H. assert (X : exists u', upper kt q u').
  { destruct (list_eq_dec Nat.eq_dec kt (str "email")) as [->|N].
    - destruct q as [|b0 q0] using rev_ind; [discriminate H|]. eexists. left. split; [reflexivity|]. do 2 eexists. split; reflexivity.
    - destruct HK as [HK|HK]; [contradiction|]. destruct (u64_string_roundtrip q Hq HK) as (w & Hw & _ & E). eexists. right. split; [exact N|]. exists w. split; [exact Hw|]. split; [symmetry; exact E|reflexivity]. }
  destruct X as (u' & X). pose proof (upper_ok _ _ _ X) as Y. replace u with u' by congruence. exact X.
Qed.

(** ** Counts *)
Lemma long_intervals : forall txn, List.length (long_pairs txn) = List.length txn - 1 /\
  forall i a b, nth_error txn i = Some a -> nth_error txn (S i) = Some b ->
    exists l r, nth_error (long_pairs txn) i = Some (l, r) /\ kle l r /\ ((l = a /\ r = b) \/ (l = b /\ r = a)).
Proof.
  induction txn as [|x txn [IH1 IH2]]; [split; [reflexivity|intros i a b H; destruct i; discriminate]|]. destruct txn as [|y txn].
  - split; [reflexivity|]. intros [|i] a b H H'; [discriminate|destruct i; discriminate].
  - cbn [long_pairs] in *. split; [cbn [List.length] in *; lia|]. intros [|i] a b H H'.
    + cbn in H, H'. injection H as ->. injection H' as ->. cbn [nth_error]. destruct (str_lt a b) eqn:E.
      * exists a, b. split; [reflexivity|]. split; [left; apply str_lt_ok; exact E|auto].
      * exists b, a. split; [reflexivity|]. split; [apply str_lt_no; exact E|auto].
    + apply (IH2 i a b); [exact H|exact H'].
Qed.

Definition same_surf (a b : filter) : Prop :=
  match a, b with FSurf f _, FSurf f' _ => f = f' | FBloom d, FBloom d' => d = d' | _, _ => False end.
Lemma counted_same : forall e a b p, same_surf a b -> (counted e a p <-> counted e b p).
Proof.
  intros e [f it|d] [f' it'|d'] p S; cbn in S; try contradiction; subst; [|reflexivity].
  split; intros (f & i & n & E & H); injection E as -> ->; eexists _, _, n; (split; [reflexivity|exact H]).
Qed.

Lemma counts_fold : forall e ps flt0 flt n flt' m, same_surf flt0 flt -> foldM (do_count e) ps (flt, n) = Ok (flt', m) ->
  same_surf flt0 flt' /\ exists t, m = n + t /\ tally (counted e flt0) ps t.
Proof.
  intros e. induction ps as [|p ps IH]; intros flt0 flt n flt' m S H; cbn [foldM] in H.
  - injection H as <- <-. split; [exact S|]. exists 0. split; [lia|constructor].
  - cbn [do_count] in H. destruct (approxCount e flt (fst p) (snd p)) as [[b flt1]|] eqn:E; cbn [bind] in H; [|discriminate].
    assert (Q : same_surf flt0 flt1 /\ (b = true <-> counted e flt0 p)).
    { rewrite (counted_same e flt0 flt p S). destruct flt as [f it|d]; cbn [approxCount] in E.
      - destruct (moveToKeyGreaterThan e f (fst p) true) as [it1|]; cbn [bind] in E; [|discriminate].
        destruct (Surf.approxCount e f (fst p) (snd p)) as [k|] eqn:EC; cbn [bind] in E; [|discriminate]. injection E as <- <-.
        split; [destruct flt0; exact S|]. split.
        + intros X. apply negb_true_iff, N.eqb_neq in X. exists f, it, k. auto.
        + intros (f' & i & k' & X & Y & Z). injection X as <- <-. apply negb_true_iff, N.eqb_neq. intros ->. apply Z. assert (W : Ok k' = Ok 0%N) by (etransitivity; [symmetry; exact Y|exact EC]). congruence.
      - injection E as <- <-. split; [exact S|]. split; [discriminate|]. intros (f' & i & k' & X & _). discriminate. }
    destruct Q as (S1 & Q). destruct (IH _ _ _ _ _ S1 H) as (S2 & t & -> & T). split; [exact S2|]. exists (b2n b + t). split; [lia|].
    destruct b; cbn [b2n Nat.add]; [apply tally_yes; [apply Q; reflexivity|exact T]|apply tally_no; [|exact T]]. intros X. apply Q in X. discriminate.
Qed.

Lemma short_fold : forall e kt txn st st', foldM (do_short e kt) txn st = Ok st' ->
  exists ps, Forall2 (fun q p => fst p = q /\ getUpperBoundKey kt q = Ok (snd p)) txn ps /\ foldM (do_count e) ps st = Ok st'.
Proof.
  intros e kt. induction txn as [|q txn IH]; intros st st' H; [exists []; split; [constructor|exact H]|].
  cbn [foldM] in H. unfold do_short in H at 1. destruct (getUpperBoundKey kt q) as [u|] eqn:U; cbn [bind] in H; [|discriminate].
  destruct (do_count e st (q, u)) as [st1|] eqn:E; cbn [bind] in H; [|discriminate]. destruct (IH _ _ H) as (ps & A & B).
  exists ((q, u) :: ps). split; [constructor; [cbn; auto|exact A]|]. cbn [foldM]. rewrite E. exact B.
Qed.

Lemma count_run : forall e sz shuffle a load txn keys flt r,
  Permutation (shuffle load) load -> taken (shuffle load) (a_percent a) keys ->
  a_query a = str "count-long" \/ a_query a = str "count-short" ->
  a_key a = str "email" \/ (forall q, In q txn -> List.length q = 8) -> Forall is_bytes txn ->
  createFilter e (a_filter a) (a_len a) keys = Ok flt -> main e sz shuffle a load txn = Ok (Some r) ->
  exists ps, intervals (a_query a) (a_key a) txn ps /\ tally (counted e flt) ps (r_count r) /\
    r_positives r = 0 /\ r_true_positives r = 0 /\ r_false_positives r = 0%Z /\ r_true_negatives r = Z.of_nat (List.length txn).
Proof.
  intros e sz shuffle a load txn keys flt r SH TK QT KT HB CF M. unfold main in M.
  destruct (check_args a) eqn:CA; cbn [negb] in M; [|discriminate M].
  rewrite (checked_alter a CA), (taken_sort _ _ _ _ TK SH) in M. cbn [bind] in M. rewrite CF in M. cbn [bind] in M.
  assert (S0 : same_surf flt flt) by (destruct flt; reflexivity).
  assert (G : forall ps flt' m, intervals (a_query a) (a_key a) txn ps -> foldM (do_count e) ps (flt, 0) = Ok (flt', m) ->
    (massert e true ;;; Ok (Some (mkReport 0 0 0 (Z.of_nat (List.length txn)) m (memory sz flt')))) = Ok (Some r) ->
    exists ps, intervals (a_query a) (a_key a) txn ps /\ tally (counted e flt) ps (r_count r) /\
    r_positives r = 0 /\ r_true_positives r = 0 /\ r_false_positives r = 0%Z /\ r_true_negatives r = Z.of_nat (List.length txn)).
  { intros ps flt' m I F R. unfold massert in R. cbn [negb] in R. rewrite andb_false_r in R. cbn [bind] in R. injection R as <-.
    exists ps. split; [exact I|]. destruct (counts_fold e ps flt flt 0 flt' m S0 F) as (_ & t & -> & T). split; [exact T|]. repeat split; reflexivity. }
  destruct QT as [Q|Q]; rewrite Q in M.
  - change (is (str "count-long") "point") with false in M. change (is (str "count-long") "range") with false in M. change (is (str "count-long") "mix") with false in M.
    change (is (str "count-long") "count-long") with true in M. cbn [orb] in M.
    destruct (foldM (do_count e) (long_pairs txn) (flt, 0)) as [[flt' m]|] eqn:F; cbn [bind] in M; [|discriminate M].
    change (Z.of_nat 0) with 0%Z in M. rewrite !Z.sub_0_r in M. apply (G (long_pairs txn) flt' m); [|exact F|exact M]. rewrite Q. left. split; [reflexivity|]. apply long_intervals.
  - change (is (str "count-short") "point") with false in M. change (is (str "count-short") "range") with false in M. change (is (str "count-short") "mix") with false in M.
    change (is (str "count-short") "count-long") with false in M. change (is (str "count-short") "count-short") with true in M. cbn [orb] in M.
    destruct (foldM (do_short e (a_key a)) txn (flt, 0)) as [[flt' m]|] eqn:F; cbn [bind] in M; [|discriminate M].
    destruct (short_fold _ _ _ _ _ F) as (ps & A & B). change (Z.of_nat 0) with 0%Z in M. rewrite !Z.sub_0_r in M. apply (G ps flt' m); [|exact B|exact M]. rewrite Q. right. split; [reflexivity|].
    clear - A KT HB. induction A as [|q p txn ps (A1 & A2) A IH]; constructor.
    + split; [exact A1|]. apply upper_made; [inversion HB; auto| |exact A2]. destruct KT as [KT|KT]; [left; exact KT|right; apply KT; left; reflexivity].
    + apply IH; [|inversion HB; auto]. destruct KT as [KT|KT]; [left; exact KT|right; intros z Hz; apply KT; right; exact Hz].
Qed.

(** ** alterByte *)
Lemma vset_split : forall (k : key) i x k', vset k i x = Ok k' <-> exists l b r, k = l ++ b :: r /\ k' = l ++ x :: r /\ List.length l = i.
Proof.
  induction k as [|y k IH]; intros i x k'.
  - split; [intros H; destruct i; discriminate|]. intros ([|] & b & r & X & _); discriminate.
  - unfold vset in *. cbn [List.length]. destruct i as [|i].
    + cbn [Nat.ltb Nat.leb lset]. split.
      * intros H. injection H as <-. exists [], y, k. auto.
      * intros ([|z l] & b & r & X & -> & L); [|discriminate]. injection X as <- <-. reflexivity.
    + change (S i <? S (List.length k)) with (i <? List.length k). cbn [lset]. specialize (IH i x). destruct (i <? List.length k).
      * split.
        -- intros H. injection H as <-. destruct (proj1 (IH (lset k i x)) eq_refl) as (l & b & r & A & B & C). exists (y :: l), b, r. cbn [app List.length]. rewrite B. subst k. auto.
        -- intros ([|z l] & b & r & X & -> & L); [discriminate|]. injection X as <- X. injection L as L. specialize (proj2 (IH (l ++ x :: r))) as Q.
           assert (Y : Ok (lset k i x) = Ok (l ++ x :: r)) by (apply Q; exists l, b, r; auto). injection Y as ->. reflexivity.
      * split; [discriminate|]. intros ([|z l] & b & r & X & -> & L); [discriminate|]. injection X as <- X. injection L as L.
        assert (Y : Fail OutOfBounds = Ok (l ++ x :: r)) by (apply IH; exists l, b, r; auto). discriminate.
Qed.
Lemma modify_byte : forall pos k k', modifyKeyByte pos k = Ok k' <->
  exists l b r, k = l ++ b :: r /\ k' = l ++ 43 :: r /\ (List.length r = pos \/ (List.length k <= pos /\ l = [])).
Proof.
  intros pos k k'. unfold modifyKeyByte. destruct (Nat.ltb_spec pos (List.length k)) as [H|H]; rewrite vset_split; split; intros (l & b & r & A & B & C); exists l, b, r; (split; [exact A|]); (split; [exact B|]);
    rewrite A, app_length in *; cbn [List.length] in *.
  - left. lia.
  - lia.
  - right. destruct l; [auto|discriminate].
  - destruct C as [C|[_ ->]]; [|reflexivity]. lia.
Qed.
