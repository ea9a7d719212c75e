(** Facts about the example program (Demo.v). *)
From Coq Require Import Arith List NArith Bool Lia String Ascii.
From Verif Require Import Res Config Builder Surf Demo Spec SpecApi SpecFilter SpecRange SpecSession PointFacts RangeApi CountApi SafeApi StructFacts Samples.
Import ListNotations.

Lemma lit_bytes : forall s, is_bytes (lit s).
Proof. induction s as [|a s IH]; [constructor|]. constructor; [apply nat_ascii_bounded|exact IH]. Qed.

Definition c_ex (i : nat) : config :=
  nth i [mkCfg true 16 kNone 0 0; mkCfg true 16 kHash 8 0; mkCfg true 16 kReal 0 8] (mkCfg true 16 kMixed 4 4).
Lemma c_ex_settings : forall i, settings (c_ex i).
Proof.
  assert (R : (1 <= 16)%N) by (apply N.leb_le; reflexivity).
  intros [|[|[|[|i]]]]; (split; [reflexivity|]); (split; [exact R|]); cbn; split; (exact I || lia).
Qed.

Section One.
Variables (e : env) (keys : list key).
Hypotheses (Hm : machine e) (Hg : good_keys keys) (Hl : ~ lone_ff keys) (Hs : small keys).

Lemma one : forall c, settings c -> exists f p r, create e c keys = Ok f /\ lookupKey e f (lit "fase") = Ok p /\
  lookupRange e f (lit "fare") true (lit "fase") false = Ok r /\
  (In (lit "fase") keys -> p = true) /\ (In (lit "fare") keys -> In (lit "fase") keys -> r = true).
Proof.
  intros c Hc.
  destruct (program_runs e c keys Hm Hc Hg Hl Hs [CLookup (lit "fase"); CRange (lit "fare") true (lit "fase") false]) as (f & l & E & A & _).
  { constructor; [apply lit_bytes|]. constructor; [|constructor]. split; [apply lit_bytes|]. split; [left; discriminate|apply lit_bytes]. }
  assert (F : filter_of e c keys f) by exact (fo_built _ _ _ _ E).
  unfold answers in A. cbn [play step] in A.
  destruct (lookupKey e f (lit "fase")) as [p|] eqn:P; cbn [bind] in A; [|discriminate].
  unfold se_member in A.
  destruct (lookupRange_st e f (iter_new f) (lit "fare") true (lit "fase") false) as [[r it]|] eqn:R; cbn [bind] in A; [|discriminate].
  exists f, p, r. split; [exact E|]. split; [exact P|]. split; [unfold lookupRange; rewrite R; reflexivity|]. clear A. split.
  - intros I. pose proof (point_stored e c keys f _ Hm Hc Hg Hl F I) as X. rewrite P in X. injection X as ->. reflexivity.
  - intros I J. assert (K : kle (lit "fare") (lit "fase")) by (left; apply kltb_ok; reflexivity).
    pose proof (range_stored e c keys f Hm Hc Hg Hl F (iter_new f) _ _ false (mi_new e f) I J K) as X.
    rewrite range_history in X by constructor. unfold lookupRange in X. rewrite R in X. cbn [bind] in X. injection X as ->. reflexivity.
Qed.
End One.

Lemma example_runs : forall e keys, machine e -> good_keys keys -> ~ lone_ff keys -> small keys ->
  exists p1 p2 p3 p4 r1 r2 r3 r4,
  example e keys = Ok ["Point Query Example: fase";
      point_line p1 "fase" "basic SuRF"; point_line p2 "fase" "SuRF hash";
      point_line p3 "fase" "SuRF real"; point_line p4 "fase" "SuRF mixed";
      ""; "Range Query Example: [fare, fase)";
      range_line r1 "fare" "fase" "basic SuRF"; range_line r2 "fare" "fase" "SuRF hash";
      range_line r3 "fare" "fase" "SuRF real"; range_line r4 "fare" "fase" "SuRF mixed"]%string /\
  (In (lit "fase") keys -> p1 = true /\ p2 = true /\ p3 = true /\ p4 = true /\
    (In (lit "fare") keys -> r1 = true /\ r2 = true /\ r3 = true /\ r4 = true)).
Proof.
  intros e keys Hm Hg Hl Hs.
  destruct (one e keys Hm Hg Hl Hs _ (c_ex_settings 0)) as (f1 & p1 & r1 & E1 & P1 & R1 & A1 & B1).
  destruct (one e keys Hm Hg Hl Hs _ (c_ex_settings 1)) as (f2 & p2 & r2 & E2 & P2 & R2 & A2 & B2).
  destruct (one e keys Hm Hg Hl Hs _ (c_ex_settings 2)) as (f3 & p3 & r3 & E3 & P3 & R3 & A3 & B3).
  destruct (one e keys Hm Hg Hl Hs _ (c_ex_settings 3)) as (f4 & p4 & r4 & E4 & P4 & R4 & A4 & B4).
  exists p1, p2, p3, p4, r1, r2, r3, r4. split.
  - unfold example, surf_plain, surf_suffix. cbn [c_ex nth] in E1, E2, E3, E4. unfold kIncludeDense, kSparseDenseRatio.
    rewrite E1. cbn [bind]. rewrite E2. cbn [bind]. rewrite E3. cbn [bind]. rewrite E4. cbn [bind]. cbv zeta.
    rewrite P1. cbn [bind]. rewrite P2. cbn [bind]. rewrite P3. cbn [bind]. rewrite P4. cbn [bind].
    rewrite R1. cbn [bind]. rewrite R2. cbn [bind]. rewrite R3. cbn [bind]. rewrite R4. reflexivity.
  - auto 10.
Qed.

Lemma example_lines : forall e keys, machine e -> good_keys keys -> ~ lone_ff keys -> small keys ->
  exists lines, example e keys = Ok lines /\ List.length lines = 11 /\
  ((exists name, In ("Correct: fase NOT found in " ++ name)%string lines) -> ~ In (lit "fase") keys) /\
  ((exists name, In ("Correct: No key exists within range [fare, fase) according to " ++ name)%string lines) ->
    ~ (In (lit "fare") keys /\ In (lit "fase") keys)).
Proof.
  intros e keys Hm Hg Hl Hs. destruct (example_runs e keys Hm Hg Hl Hs) as (p1 & p2 & p3 & p4 & r1 & r2 & r3 & r4 & E & H).
  eexists. split; [exact E|]. split; [reflexivity|]. split.
  - intros (name & I) J. destruct (H J) as (-> & -> & -> & -> & _).
    destruct r1, r2, r3, r4; cbn in I; repeat (destruct I as [I|I]; [discriminate|]); exact I.
  - intros (name & I) (J & K). destruct (H K) as (-> & -> & -> & -> & H2). destruct (H2 J) as (-> & -> & -> & ->).
    cbn in I; repeat (destruct I as [I|I]; [discriminate|]); exact I.
Qed.

Lemma example_output : forall e, machine e -> example e example_keys = Ok [
  "Point Query Example: fase";
  "False Positive: fase found in basic SuRF";
  "Correct: fase NOT found in SuRF hash";
  "Correct: fase NOT found in SuRF real";
  "Correct: fase NOT found in SuRF mixed";
  "";
  "Range Query Example: [fare, fase)";
  "False Positive: There exist key(s) within range [fare, fase) according to basic SuRF";
  "False Positive: There exist key(s) within range [fare, fase) according to SuRF hash";
  "Correct: No key exists within range [fare, fase) according to SuRF real";
  "Correct: No key exists within range [fare, fase) according to SuRF mixed"]%string.
Proof. intros [a s m j jb] [H1 H2]. cbn in H1, H2. subst. destruct a; vm_compute; reflexivity. Qed.
