(** The example program: C44.  Only property theorems, examples and
    counterexamples. *)
From Coq Require Import Arith List NArith Bool Lia String.
From Verif Require Import Res Config Builder Surf Demo Spec SpecApi DemoFacts Samples SamplesRange SamplesSafe.
Import ListNotations.
Local Open Scope string_scope.

(** * C44 *)

(** What the program prints, whatever stray reads yield and with assertions on
    or off. *)
Theorem C44_output : forall e, machine e -> example e example_keys = Ok [
  "Point Query Example: fase";
  "False Positive: fase found in basic SuRF";
  "Correct: fase NOT found in SuRF hash";
  "Correct: fase NOT found in SuRF real";
  "Correct: fase NOT found in SuRF mixed";
  "";
  "Range Query Example: [fare, fase)";
  "False Positive: There exist key(s) within range [fare, fase) according to basic SuRF";
  "False Positive: There exist key(s) within range [fare, fase) according to SuRF hash";
  "Correct: No key exists within range [fare, fase) according to SuRF real";
  "Correct: No key exists within range [fare, fase) according to SuRF mixed"].
Proof. exact example_output. Qed.
Print Assumptions C44_output.

Example C44_output_ex : machine e0 /\ good_keys example_keys /\ ~ In (lit "fase") example_keys /\
  (forall k, In k example_keys -> kle (lit "fare") k -> klt k (lit "fase") -> False).
Proof.
  split; [exact e0_machine|]. split; [apply good_keysb_ok; reflexivity|]. split.
  - intros X. apply in_inb in X. vm_compute in X. discriminate.
  - intros k I A B. cbn in I. repeat (destruct I as [<-|I]; [destruct A as [A|A]; [cbn in A, B; lia|discriminate A]|]). exact I.
Qed.

(** With any other keys the program still ends after eleven lines.  It says
    that "fase" is not found only if that is so, and that no key lies in the
    range only if not both ends are stored. *)
Theorem C44_other_keys : forall e keys, machine e -> good_keys keys -> ~ lone_ff keys -> small keys ->
  exists lines, example e keys = Ok lines /\ List.length lines = 11 /\
  ((exists name, In ("Correct: fase NOT found in " ++ name) lines) -> ~ In (lit "fase") keys) /\
  ((exists name, In ("Correct: No key exists within range [fare, fase) according to " ++ name) lines) ->
    ~ (In (lit "fare") keys /\ In (lit "fase") keys)).
Proof. exact example_lines. Qed.
Print Assumptions C44_other_keys.

Example C44_other_keys_ex : good_keys keys1 /\ ~ lone_ff keys1 /\ small keys1 /\ ~ In (lit "fase") keys1.
Proof.
  split; [exact keys1_good|]. split; [exact keys1_not_ff|]. split; [exact keys1_small|].
  intros X. apply in_inb in X. vm_compute in X. discriminate.
Qed.

(** With the keys "far", "fara", "farb", "farc" and "farf" all four filters say
    that no key lies in ["fare", "fase"), although "farf" does. *)
Theorem C44_range_refuted : exists keys lines, good_keys keys /\ In (lit "farf") keys /\
  klt (lit "fare") (lit "farf") /\ klt (lit "farf") (lit "fase") /\ example e0 keys = Ok lines /\
  forall name, In name ["basic SuRF"; "SuRF hash"; "SuRF real"; "SuRF mixed"] ->
    In ("Correct: No key exists within range [fare, fase) according to " ++ name) lines.
Proof.
  exists (map lit ["far"; "fara"; "farb"; "farc"; "farf"]). eexists. split; [apply good_keysb_ok; reflexivity|].
  split; [apply inb_in; reflexivity|]. split; [apply kltb_ok; reflexivity|]. split; [apply kltb_ok; reflexivity|].
  split; [vm_compute; reflexivity|]. intros name H. cbn in H. repeat (destruct H as [<-|H]; [cbn; tauto|]). destruct H.
Qed.
Print Assumptions C44_range_refuted.

(** The program depends on what a shift by 64 does. *)
Theorem C44_shift_refuted : example e_shift example_keys = Fail WideShift.
Proof. vm_compute. reflexivity. Qed.
Print Assumptions C44_shift_refuted.
