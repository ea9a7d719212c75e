(** Concrete round trips for the examples and counterexamples. *)
From Coq Require Import List NArith ZArith Bool Arith Lia.
From Verif Require Import Res Config Builder Dense Sparse Surf Spec SpecApi SpecIter Serialize SpecFilter SpecSession Heap Samples SamplesRange.
Import ListNotations.

(** build, write at address [a], read back at address [a'] *)
Definition round (e : env) (c : config) (keys : list bytes) (a a' : N) : res (surf * list nat * surf * nat) :=
  f <- create e c keys ;;
  '(buf, _) <- serialize_into e a (repeat 170 (N.to_nat (serializedSize f))) f ;;
  '(g, n) <- deSerialize a' buf ;;
  Ok (f, buf, g, n).

(** asserts off; whatever follows an array is the byte 121 *)
Definition e_x : env := mkEnv false false false (fun _ => 0%N) (fun _ _ => 121).
(** every stray access faults *)
Definition e_mem : env := mkEnv true false true (fun _ => 0%N) (fun _ _ => 0).

(** 800 keys: "b", one of four bytes and one of 200 *)
Definition keys_wide : list bytes := flat_map (fun j => map (fun i => [98; j; i]) (seq 1 200)) [1; 2; 3; 4].

Definition program1 : list call :=
  [CLookup [98; 50]; CGreater [97; 97] true; CMove 0 Fwd; CLook 0; CCompare 0 [98; 49; 1]; CRange [98] true [98; 49] true; CLess [98; 49] false; CMove 1 Bwd; CLast; CLook 2].

Lemma round_create : forall e c keys a a' f buf g n, round e c keys a a' = Ok (f, buf, g, n) -> create e c keys = Ok f.
Proof.
  intros e c keys a a' f buf g n H. unfold round in H. destruct (create e c keys) as [f'|]; [|discriminate]. cbn [bind] in H.
  destruct (serialize_into e a (repeat 170 (N.to_nat (serializedSize f'))) f') as [[b m]|]; [|discriminate]. cbn [bind] in H.
  destruct (deSerialize a' b) as [[g' n']|]; [|discriminate]. cbn [bind] in H. congruence.
Qed.
Lemma round_restored : forall e c keys a a' f buf g n, round e c keys a a' = Ok (f, buf, g, n) ->
  block a (length buf) -> block a' (length buf) -> serializedSize f = N.of_nat (length buf) -> restored e f g.
Proof.
  intros e c keys a a' f buf g n H HA HA' HS. pose proof (round_create _ _ _ _ _ _ _ _ _ H) as HF. unfold round in H. rewrite HF in H. cbn [bind] in H.
  assert (L : length (repeat 170 (N.to_nat (serializedSize f))) = length buf) by (rewrite repeat_length, HS; lia).
  destruct (serialize_into e a (repeat 170 (N.to_nat (serializedSize f))) f) as [[b m]|] eqn:E; [|discriminate]. cbn [bind] in H.
  destruct (deSerialize a' b) as [[g' n']|] eqn:E'; [|discriminate]. cbn [bind] in H. injection H as <- <- <-.
  exists a, a', (repeat 170 (N.to_nat (serializedSize f))), b, [], m, n'. rewrite L. rewrite <- HS. repeat (split; auto). rewrite app_nil_r. exact E'.
Qed.
