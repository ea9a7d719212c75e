(** Sample keys of one length. *)
From Coq Require Import Arith List NArith Bool Lia Sorting.Sorted.
From Verif Require Import Res Config Builder Dense Sparse Surf Spec SpecApi SpecCount SpecFixed Samples SamplesRange SamplesCount.
Import ListNotations.

Definition ints1 : list N := [5; 300; 70000; 70001; 2 ^ 40]%N.
Definition ints_even : list N := map (fun i => (2 * N.of_nat i)%N) (seq 1 100).
Definition keys_3 : list bytes := [[97; 97; 99]; [97; 98; 99]; [97; 98; 100]; [98; 99; 100]].

Fixpoint intsb (ks : list N) : bool :=
  match ks with
  | [] => true
  | a :: t => (a <? 2 ^ 64)%N && forallb (fun b => (a <=? b)%N) t && intsb t
  end.
Lemma intsb_ok : forall ks, ks <> [] -> intsb ks = true -> good_ints ks.
Proof.
  intros ks N H. split; [exact N|]. clear N. induction ks as [|a t IH]; [split; constructor|].
  cbn [intsb] in H. apply andb_prop in H. destruct H as [H1 H2]. apply andb_prop in H1. destruct H1 as [H0 H1].
  destruct (IH H2) as [A B]. split; constructor; auto.
  - apply N.ltb_lt. exact H0.
  - apply Forall_forall. intros x Hx. rewrite forallb_forall in H1. apply N.leb_le. auto.
Qed.
Lemma ints1_good : good_ints ints1.
Proof. apply intsb_ok; [discriminate|vm_compute; reflexivity]. Qed.
Lemma ints_even_good : good_ints ints_even.
Proof. apply intsb_ok; [discriminate|vm_compute; reflexivity]. Qed.
Lemma two_lone : forall ks a b, In a ks -> In b ks -> a <> b -> ~ lone_big ks.
Proof. intros ks a b Ha Hb N (w & _ & _ & H). apply N. rewrite (H a Ha), (H b Hb). reflexivity. Qed.
Lemma ints1_lone : ~ lone_big ints1.
Proof. apply (two_lone ints1 5 300); cbn; auto. discriminate. Qed.
Lemma ints_even_lone : ~ lone_big ints_even.
Proof.
  apply (two_lone ints_even 2 4); [apply (nth_In ints_even 0%N (n := 0)); cbn; lia|apply (nth_In ints_even 0%N (n := 1)); cbn; lia|discriminate].
Qed.
Lemma keys_3_fixed : fixed 3 keys_3.
Proof. intros k H. repeat (destruct H as [<-|H]; [reflexivity|]). destruct H. Qed.
Lemma keys_3_lone : ~ lone_ff keys_3.
Proof. intros (k & _ & H). pose proof (H [97; 97; 99] (or_introl eq_refl)). discriminate. Qed.
Lemma keys_3_plain : forall h, plain_top keys_3 h.
Proof. intros h. apply plain_check. reflexivity. Qed.
