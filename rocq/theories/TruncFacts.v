(** How much of a buffer deSerialize needs. *)
From Coq Require Import Arith List NArith Bool Lia.
From Verif Require Import Res Word Config Bitvector Rank Select LabelVector Suffix Builder Dense Sparse Surf Serialize
  Spec SpecApi SpecFilter SerialFacts SerialApi.
Import ListNotations.

Lemma up8_mono : forall m n, m <= n -> up8 m <= up8 n.
Proof. intros m n H. unfold up8. apply Nat.mul_le_mono_l, Nat.div_le_mono; lia. Qed.
Lemma up8_up8 : forall n, up8 (up8 n) = up8 n.
Proof. intros n. destruct (up8_mul n) as [m ->]. apply up8_id. Qed.

(** ** the errors of a reader *)
Definition read_err (x : fault) : Prop := x = OutOfBounds \/ x = BadValue.
Definition mild {A} (m : reader A) : Prop := forall buf off x, m buf off = Fail x -> read_err x.

Lemma mild_get : forall n, mild (get n).
Proof. intros n buf off x. unfold get. destruct (_ <=? _)%N; [discriminate|]. intros [= <-]. left. reflexivity. Qed.
Lemma mild_ret : forall A (v : A), mild (rret v).
Proof. intros A v buf off x. discriminate. Qed.
Lemma mild_align : forall a, mild (ralign a).
Proof. intros a buf off x. discriminate. Qed.
Lemma mild_bind : forall A B (m : reader A) (k : A -> reader B), mild m -> (forall v, mild (k v)) -> mild (rbind m k).
Proof.
  intros A B m k M K buf off x. unfold rbind. destruct (m buf off) as [[v o]|y] eqn:E; cbn [bind].
  - apply K.
  - intros [= <-]. exact (M _ _ _ E).
Qed.
Lemma mild_lift : forall A (r : res A), (forall x, r = Fail x -> read_err x) -> mild (rlift r).
Proof. intros A r H buf off x. unfold rlift. destruct r; cbn [bind]; [discriminate|]. intros [= <-]. apply H. reflexivity. Qed.
Lemma nonzero_err : forall n x, (if n =? 0 then Fail BadValue else Ok tt) = Fail x -> read_err x.
Proof. intros n x. destruct (n =? 0); [|discriminate]. intros [= <-]. right. reflexivity. Qed.
Lemma code_err : forall n x, code_type n = Fail x -> read_err x.
Proof. intros n x. do 4 (destruct n as [|n]; [discriminate|]). intros [= <-]. right. reflexivity. Qed.

Ltac mild_tac := repeat first
  [ apply mild_get | apply mild_ret | apply mild_align
  | apply mild_lift; first [apply nonzero_err | apply code_err]
  | apply mild_bind; [|intros ?]
  | match goal with |- mild (if ?b then _ else _) => destruct b end ].
Lemma dense_mild : forall a, mild (dense_deSerialize a).
Proof. intros a. unfold dense_deSerialize, rank_deSerialize, suf_deSerialize, nonzero, get32. mild_tac. Qed.
Lemma sparse_mild : forall a, mild (sparse_deSerialize a).
Proof. intros a. unfold sparse_deSerialize, lv_deSerialize, select_deSerialize, rank_deSerialize, suf_deSerialize, nonzero, get32. mild_tac. Qed.

Theorem deSerialize_errors : forall a buf x, deSerialize a buf = Fail x -> x = OutOfBounds \/ x = BadValue.
Proof.
  intros a buf x. unfold deSerialize. destruct (dense_deSerialize a buf 0) as [[d o]|y] eqn:E; cbn [bind].
  - destruct (sparse_deSerialize a buf o) as [[s o2]|y] eqn:E2; cbn [bind]; [discriminate|]. intros [= <-]. exact (sparse_mild _ _ _ _ E2).
  - intros [= <-]. exact (dense_mild _ _ _ _ E).
Qed.

(** ** what follows does not matter *)
Definition stays {A} (m : reader A) : Prop := forall buf off x off' rest, m buf off = Ok (x, off') -> m (buf ++ rest) off = Ok (x, off').

Lemma stays_get : forall n, stays (get n).
Proof.
  intros n buf off x off' rest. unfold get. destruct (_ <=? _)%N eqn:E; [|discriminate]. apply N.leb_le in E. intros [= <- <-].
  rewrite app_length. replace (_ <=? _)%N with true by (symmetry; apply N.leb_le; lia). rewrite skipn_app, firstn_app, skipn_length.
  replace (N.to_nat n - (length buf - off)) with 0 by lia. rewrite firstn_O, app_nil_r. reflexivity.
Qed.
Lemma stays_ret : forall A (v : A), stays (rret v).
Proof. intros A v buf off x off' rest H. exact H. Qed.
Lemma stays_lift : forall A (r : res A), stays (rlift r).
Proof. intros A r buf off x off' rest H. exact H. Qed.
Lemma stays_align : forall a, stays (ralign a).
Proof. intros a buf off x off' rest H. exact H. Qed.
Lemma stays_bind : forall A B (m : reader A) (k : A -> reader B), stays m -> (forall v, stays (k v)) -> stays (rbind m k).
Proof.
  intros A B m k M K buf off x off' rest. unfold rbind. destruct (m buf off) as [[v o]|y] eqn:E; cbn [bind]; [|discriminate].
  rewrite (M _ _ _ _ rest E). cbn [bind]. apply K.
Qed.
Ltac stays_tac := repeat first
  [ apply stays_get | apply stays_ret | apply stays_align | apply stays_lift
  | apply stays_bind; [|intros ?]
  | match goal with |- stays (if ?b then _ else _) => destruct b end ].
Lemma dense_stays : forall a, stays (dense_deSerialize a).
Proof. intros a. unfold dense_deSerialize, rank_deSerialize, suf_deSerialize, nonzero, get32. stays_tac. Qed.
Lemma sparse_stays : forall a, stays (sparse_deSerialize a).
Proof. intros a. unfold sparse_deSerialize, lv_deSerialize, select_deSerialize, rank_deSerialize, suf_deSerialize, nonzero, get32. stays_tac. Qed.
Lemma deSerialize_stays : forall a buf f n rest, deSerialize a buf = Ok (f, n) -> deSerialize a (buf ++ rest) = Ok (f, n).
Proof.
  intros a buf f n rest. unfold deSerialize. destruct (dense_deSerialize a buf 0) as [[d o]|y] eqn:E; cbn [bind]; [|discriminate].
  rewrite (dense_stays _ _ _ _ _ rest E). cbn [bind]. destruct (sparse_deSerialize a buf o) as [[s o2]|y] eqn:E2; cbn [bind]; [|discriminate].
  rewrite (sparse_stays _ _ _ _ _ rest E2). cbn [bind]. auto.
Qed.

(** ** the bytes a reader needs *)
Section Need.
Variable a : N.
Variable buf : list nat.
Hypothesis HB : block a (length buf).

Let U := up8 (length buf).

Definition needs {A} (m : reader A) : Prop := forall off x off', up8 off <= U -> m buf off = Ok (x, off') ->
  off <= off' /\ up8 off' <= U /\
  exists need, need <= off' /\ off' <= up8 (Nat.max off need) /\
    forall j, m (firstn j buf) off = if need <=? j then Ok (x, off') else Fail OutOfBounds.

Lemma needs_ret : forall A (v : A), needs (rret v).
Proof.
  intros A v off x off' HU [= <- <-]. split; [lia|]. split; [exact HU|]. exists 0. split; [lia|].
  split; [rewrite Nat.max_0_r; apply up8_bounds|]. intros j. reflexivity.
Qed.
Lemma needs_lift : forall A (r : res A), needs (rlift r).
Proof.
  intros A r off x off' HU. unfold rlift. destruct r as [v|]; cbn [bind]; [|discriminate]. intros [= <- <-]. split; [lia|]. split; [exact HU|].
  exists 0. split; [lia|]. split; [rewrite Nat.max_0_r; apply up8_bounds|]. intros j. reflexivity.
Qed.
Lemma align_U : forall off, up8 off <= U -> align_off a off = up8 off.
Proof.
  intros off H. destruct HB as [HA HL]. apply align_off_up; [exact HA|].
  assert (E : exists q, a = (8 * q)%N) by (exists (a / 8)%N; rewrite (N.div_mod a 8) at 1 by discriminate; rewrite HA; lia).
  destruct E as [q E]. subst a. unfold U in H. pose proof (proj1 (up8_bounds off)). pose proof (proj2 (up8_bounds (length buf))).
  destruct (up8_mul (length buf)) as [p Ep]. rewrite Ep in *. unfold two64. change (2 ^ 64)%N with 18446744073709551616%N in *. lia.
Qed.
Lemma needs_align : needs (ralign a).
Proof.
  intros off x off' HU [= <- <-]. rewrite align_U by exact HU. split; [apply up8_bounds|]. split; [rewrite up8_up8; exact HU|].
  exists 0. split; [lia|]. split; [rewrite Nat.max_0_r; lia|]. intros j. cbn [Nat.leb]. unfold ralign. rewrite align_U by exact HU. reflexivity.
Qed.
Lemma needs_get : forall n, needs (get n).
Proof.
  intros n off x off' HU. unfold get at 1. destruct (_ <=? _)%N eqn:E; [|discriminate]. apply N.leb_le in E. intros [= <- <-].
  split; [lia|]. split; [apply up8_mono; lia|]. exists (off + N.to_nat n). split; [lia|].
  split; [rewrite Nat.max_r by lia; apply up8_bounds|]. intros j. unfold get. rewrite firstn_length.
  destruct (off + N.to_nat n <=? j) eqn:J.
  - apply Nat.leb_le in J. replace (_ <=? _)%N with true by (symmetry; apply N.leb_le; lia).
    f_equal. f_equal. rewrite skipn_firstn_comm, firstn_firstn. f_equal. lia.
  - apply Nat.leb_gt in J. replace (_ <=? _)%N with false by (symmetry; apply N.leb_gt; lia). reflexivity.
Qed.
Lemma needs_bind : forall A B (m : reader A) (k : A -> reader B), needs m -> (forall v, needs (k v)) -> needs (rbind m k).
Proof.
  intros A B m k M K off x off' HU. unfold rbind at 1. destruct (m buf off) as [[v o]|] eqn:E; cbn [bind]; [|discriminate]. intros E2.
  destruct (M _ _ _ HU E) as (L1 & U1 & n1 & A1 & B1 & C1). destruct (K v _ _ _ U1 E2) as (L2 & U2 & n2 & A2 & B2 & C2).
  split; [lia|]. split; [exact U2|]. exists (Nat.max n1 n2). split; [lia|]. split.
  - etransitivity; [exact B2|]. rewrite <- (up8_up8 (Nat.max off (Nat.max n1 n2))). apply up8_mono. apply Nat.max_lub.
    + etransitivity; [exact B1|]. apply up8_mono. lia.
    + etransitivity; [|apply up8_bounds]. lia.
  - intros j. unfold rbind. rewrite C1. destruct (n1 <=? j) eqn:J1; cbn [bind].
    + rewrite C2. apply Nat.leb_le in J1. destruct (n2 <=? j) eqn:J2.
      * apply Nat.leb_le in J2. replace (_ <=? j) with true by (symmetry; apply Nat.leb_le; lia). reflexivity.
      * apply Nat.leb_gt in J2. replace (_ <=? j) with false by (symmetry; apply Nat.leb_gt; lia). reflexivity.
    + apply Nat.leb_gt in J1. replace (_ <=? j) with false by (symmetry; apply Nat.leb_gt; lia). reflexivity.
Qed.

Ltac needs_tac := repeat first
  [ apply needs_get | apply needs_ret | apply needs_align | apply needs_lift
  | apply needs_bind; [|intros ?]
  | match goal with |- needs (if ?b then _ else _) => destruct b end ].
Lemma dense_needs : needs (dense_deSerialize a).
Proof. unfold dense_deSerialize, rank_deSerialize, suf_deSerialize, nonzero, get32. needs_tac. Qed.
Lemma sparse_needs : needs (sparse_deSerialize a).
Proof. unfold sparse_deSerialize, lv_deSerialize, select_deSerialize, rank_deSerialize, suf_deSerialize, nonzero, get32. needs_tac. Qed.

(** The last thing read is a suffix vector, of whole 8 bytes. *)
Lemma bits_mul8 : forall n, exists q, N.to_nat (bitsSize n) = 8 * q.
Proof.
  intros n. unfold bitsSize, wrap32. exists (N.to_nat ((N.of_nat (num_words n)) mod (2 ^ 29))). change two32 with (2 ^ 29 * 8)%N.
  rewrite N.mul_mod_distr_r by discriminate. lia.
Qed.
Lemma get_inv : forall n off x off', get n buf off = Ok (x, off') -> off' = off + N.to_nat n /\ off' <= length buf.
Proof. intros n off x off'. unfold get. destruct (_ <=? _)%N eqn:E; [|discriminate]. apply N.leb_le in E. intros [= _ <-]. lia. Qed.
Lemma bind_inv : forall A B (m : reader A) (k : A -> reader B) off y o, rbind m k buf off = Ok (y, o) ->
  exists x o1, m buf off = Ok (x, o1) /\ k x buf o1 = Ok (y, o).
Proof. intros A B m k off y o. unfold rbind. destruct (m buf off) as [[x o1]|]; [|discriminate]. cbn [bind]. intros H. exists x, o1. auto. Qed.
Lemma get32_inv : forall off x off', get32 buf off = Ok (x, off') -> off' = off + 4 /\ off' <= length buf.
Proof.
  intros off x off' H. destruct (bind_inv _ _ _ _ _ _ _ H) as (v & o & G & R). injection R as <- <-. exact (get_inv _ _ _ _ G).
Qed.
Lemma lift_inv : forall A (r : res A) off x off', rlift r buf off = Ok (x, off') -> r = Ok x /\ off' = off.
Proof. intros A r off x off'. unfold rlift. destruct r; [|discriminate]. intros [= <- <-]. auto. Qed.

Lemma suf_end : forall q x o, suf_deSerialize a buf (8 * q) = Ok (x, o) -> o <= length buf /\ exists p, o = 8 * p.
Proof.
  intros q x o H. unfold suf_deSerialize in H.
  apply bind_inv in H as (nb & o1 & G1 & H). apply get32_inv in G1 as [-> _].
  apply bind_inv in H as (t0 & o2 & G2 & H). apply get32_inv in G2 as [-> _].
  apply bind_inv in H as (hl & o3 & G3 & H). apply get32_inv in G3 as [-> _].
  apply bind_inv in H as (rl & o4 & G4 & H). apply get32_inv in G4 as [-> L4].
  apply bind_inv in H as (t & o5 & G5 & H). apply lift_inv in G5 as [_ ->].
  apply bind_inv in H as (ws & o6 & G6 & H). apply bind_inv in H as (z & o7 & G7 & H). injection H as _ <-. injection G7 as _ <-.
  assert (E : exists p, o6 = 8 * p /\ o6 <= length buf).
  { destruct (is_none t).
    - injection G6 as _ <-. exists (q + 2). lia.
    - apply get_inv in G6 as [-> L6]. destruct (bits_mul8 nb) as [p P]. exists (q + 2 + p). lia. }
  destruct E as (p & -> & LP). rewrite align_U by (apply up8_mono; exact LP). rewrite up8_id. split; [exact LP|]. exists p. reflexivity.
Qed.

Lemma select_al : forall off x o, up8 off <= U -> select_deSerialize a buf off = Ok (x, o) -> up8 o <= U /\ exists p, o = 8 * p.
Proof.
  intros off x o HU H. assert (NS : needs (select_deSerialize a)) by (unfold select_deSerialize, nonzero, get32; needs_tac).
  split; [exact (proj1 (proj2 (NS _ _ _ HU H)))|]. unfold select_deSerialize in H.
  apply bind_inv in H as (nb & o1 & G1 & H). apply bind_inv in H as (t0 & o2 & G2 & H). apply bind_inv in H as (hl & o3 & G3 & H).
  apply bind_inv in H as (rl & o4 & G4 & H). apply bind_inv in H as (t & o5 & G5 & H). apply bind_inv in H as (ws & o6 & G6 & H).
  apply get_inv in G6 as [_ L6]. apply bind_inv in H as (z & o7 & G7 & H). injection H as _ <-. injection G7 as _ <-.
  rewrite align_U by (apply up8_mono; exact L6). apply up8_mul.
Qed.

Lemma sparse_end : forall off x o, up8 off <= U -> sparse_deSerialize a buf off = Ok (x, o) -> o <= length buf.
Proof.
  intros off x o HU H. unfold sparse_deSerialize in H.
  assert (step : forall A B (m : reader A) (k : A -> reader B) off y o, needs m -> up8 off <= U -> rbind m k buf off = Ok (y, o) ->
    exists v o1, up8 o1 <= U /\ m buf off = Ok (v, o1) /\ k v buf o1 = Ok (y, o)).
  { intros A B m k off0 y o0 NM HU0 E. apply bind_inv in E as (v & o1 & E1 & E2). exists v, o1. split; [exact (proj1 (proj2 (NM _ _ _ HU0 E1)))|]. auto. }
  do 8 (apply step in H as (? & ? & ? & _ & H); [|unfold lv_deSerialize, rank_deSerialize, nonzero, get32; needs_tac|assumption]).
  apply step in H as (lo & o1 & U1 & E1 & H); [|unfold select_deSerialize, nonzero, get32; needs_tac|assumption].
  apply select_al in E1 as [_ [p ->]]; [|assumption].
  apply bind_inv in H as (su & o2 & E2 & H). apply suf_end in E2 as [L2 [p2 ->]].
  apply bind_inv in H as (z & o3 & E3 & H). assert (o3 = o) as <- by (unfold rret in H; congruence). assert (align_off a (8 * p2) = o3) as <- by (unfold ralign in E3; congruence).
  rewrite align_U by (apply up8_mono; exact L2). rewrite up8_id. exact L2.
Qed.
Lemma deSerialize_end : forall f n, deSerialize a buf = Ok (f, n) -> n <= length buf.
Proof.
  intros f n. unfold deSerialize. destruct (dense_deSerialize a buf 0) as [[d o]|] eqn:E; [|discriminate]. cbn [bind].
  destruct (sparse_deSerialize a buf o) as [[s o2]|] eqn:E2; [|discriminate]. cbn [bind]. intros [= _ <-].
  apply sparse_end in E2; [exact E2|]. exact (proj1 (proj2 (dense_needs 0 _ _ (Nat.le_0_l _) E))).
Qed.

Definition both : reader surf := d <~ dense_deSerialize a ;; s <~ sparse_deSerialize a ;; rret (mkSurf d s).
Lemma both_ok : forall b, deSerialize a b = both b 0.
Proof. reflexivity. Qed.

Lemma deSerialize_needs0 : forall f n, deSerialize a buf = Ok (f, n) ->
  exists need, need <= n /\ forall j, deSerialize a (firstn j buf) = if need <=? j then Ok (f, n) else Fail OutOfBounds.
Proof.
  intros f n H. rewrite both_ok in H.
  assert (NB : needs both) by (unfold both; apply needs_bind; [apply dense_needs|intros d; apply needs_bind; [apply sparse_needs|intros s; apply needs_ret]]).
  destruct (NB 0 f n (Nat.le_0_l _) H) as (_ & _ & need & A1 & _ & A3). exists need. auto.
Qed.
End Need.

Theorem deSerialize_needs : forall a buf f n, block a (length buf) -> deSerialize a buf = Ok (f, n) ->
  n <= length buf /\
  (forall j, j < n -> deSerialize a (firstn j buf) = Fail OutOfBounds) /\
  (forall rest, deSerialize a (firstn n buf ++ rest) = Ok (f, n)).
Proof.
  intros a buf f n HB H. split; [exact (deSerialize_end _ _ HB _ _ H)|]. destruct (deSerialize_needs0 _ _ HB _ _ H) as (need & L & E).
  pose proof (E need) as EN. rewrite Nat.leb_refl in EN.
  assert (HN : block a (length (firstn need buf))).
  { destruct HB as [B1 B2]. split; [exact B1|]. rewrite firstn_length. lia. }
  pose proof (deSerialize_end _ _ HN _ _ EN) as L2. rewrite firstn_length in L2. assert (need = n) as -> by lia. split.
  - intros j J. rewrite E. apply Nat.leb_gt in J. rewrite J. reflexivity.
  - intros rest. apply deSerialize_stays. exact EN.
Qed.

(** ** the bytes serialize wrote *)
Theorem cut_written : forall e c keys f,
  machine e -> any_settings c -> good_keys keys -> filter_of e c keys f -> storable e keys ->
  forall a mem buf n, N.of_nat (length mem) = serializedSize f -> block a (length mem) -> serialize_into e a mem f = Ok (buf, n) ->
  forall a' j, block a' (length mem) -> j < length buf -> deSerialize a' (firstn j buf) = Fail OutOfBounds.
Proof.
  intros e c keys f HM HS HG HF HT a mem buf n HL HA HW a' j HA' J.
  destruct (any_aligned e c keys f HM HS HG HF HT a mem buf n HL HA HW) as [g Hg].
  assert (LB : length buf = length mem).
  { destruct (exact_size e c keys f HM HS HG HF HT a mem HL HA) as (b & E & LE & _). rewrite E in HW. injection HW as <- _. exact LE. }
  pose proof (Hg a' [] HA') as HR. rewrite app_nil_r in HR. rewrite <- LB in HA'.
  destruct (deSerialize_needs a' buf _ _ HA' HR) as (_ & N & _). apply N. exact J.
Qed.
