(** The per-level vectors of the builder are the levels of the trie (Trie.v). *)
From Coq Require Import Arith List NArith ZArith Bool Lia ZifyN ZifyNat ZifyBool Sorting.Sorted.
From Verif Require Import Res Word Config Hash BitFacts WordFacts Bitvector BitvectorFacts Suffix Spec
  SuffixFacts Builder StoreFacts KeyFacts Trie.
Import ListNotations.

(** [m] succeeds with a result in [P]; if [B] does not hold it may also fail
    because a size does not fit 32 bits, and in no other way. *)
Definition okp (B : Prop) {A} (m : res A) (P : A -> Prop) : Prop :=
  match m with Ok a => P a | Fail PosOverflow => ~ B | Fail _ => False end.

Lemma okp_bind : forall B A C (m : res A) (k : A -> res C) P Q,
  okp B m P -> (forall a, P a -> okp B (k a) Q) -> okp B (bind m k) Q.
Proof. intros B A C m k P Q H1 H2. destruct m as [a|[]]; simpl in *; auto. Qed.

Lemma okp_impl : forall B A (m : res A) (P Q : A -> Prop), okp B m P -> (forall a, P a -> Q a) -> okp B m Q.
Proof. intros B A m P Q H1 H2. destruct m as [a|[]]; simpl in *; auto. Qed.

Lemma okp_of : forall B A (m : res A) (P : A -> Prop), (exists a, m = Ok a /\ P a) -> okp B m P.
Proof. intros B A m P (a & -> & H). exact H. Qed.

Lemma massert_true : forall e b, b = true -> massert e b = Ok tt.
Proof. intros e b ->. unfold massert. rewrite andb_false_r. reflexivity. Qed.

(** ** single bits *)

Lemma b_readBit_spec : forall e ws pos, pos < 64 * length ws ->
  b_readBit e ws pos = Ok (nth pos (bits_of ws) false).
Proof.
  intros e ws pos H. unfold b_readBit. rewrite massert_true by lia. cbn [bind].
  rewrite (vget_ok _ ws (pos / 64) 0%N) by (apply Nat.div_lt_upper_bound; lia). cbn [bind].
  rewrite test_msb by (apply Nat.mod_upper_bound; lia). rewrite bits_of_nth. reflexivity.
Qed.

Lemma b_setBit_spec : forall e ws pos, Forall word_ok ws -> pos < 64 * length ws ->
  exists ws', b_setBit e ws pos = Ok ws' /\ Forall word_ok ws' /\ length ws' = length ws /\
    forall j, nth j (bits_of ws') false = (j =? pos) || nth j (bits_of ws) false.
Proof.
  intros e ws pos Hok H. unfold b_setBit. rewrite massert_true by lia. cbn [bind].
  assert (Hd : pos / 64 < length ws) by (apply Nat.div_lt_upper_bound; lia).
  rewrite (vget_ok _ ws (pos / 64) 0%N) by auto. cbn [bind]. unfold vset.
  replace (pos / 64 <? length ws) with true by lia.
  pose proof (Nat.mod_upper_bound pos 64 ltac:(lia)) as MP.
  eexists. split; [reflexivity|]. split; [|split].
  - apply lset_Forall; auto. apply lor_ok; [apply nth_Forall_ok; auto|]. apply shiftr_ok. reflexivity.
  - apply lset_length.
  - intros j. rewrite bits_of_or by auto. rewrite orb_comm. f_equal.
    pose proof (Nat.mod_upper_bound j 64 ltac:(lia)) as MJ.
    pose proof (Nat.div_mod pos 64 ltac:(lia)). pose proof (Nat.div_mod j 64 ltac:(lia)).
    destruct (Nat.eqb_spec (j / 64) (pos / 64)) as [E|E].
    + rewrite bits64_nth by auto. rewrite kMsb_shiftr by auto. rewrite N.pow2_bits_eqb.
      destruct (Nat.eqb_spec j pos) as [->|N]; lia.
    + lia.
Qed.

(** ** abstract levels *)

(** words with one spare slot: the bits [l], then zeros *)
Definition wrepr (ws : list N) (l : list bool) : Prop :=
  Forall word_ok ws /\ length ws = length l / 64 + 1 /\
  forall j, nth j (bits_of ws) false = nth j l false.

Lemma wrepr_lt : forall ws l i, wrepr ws l -> i <= length l -> i < 64 * length ws.
Proof.
  intros ws l i (_ & H & _) Hi. rewrite H.
  pose proof (Nat.div_mod (length l) 64 ltac:(lia)).
  pose proof (Nat.mod_upper_bound (length l) 64 ltac:(lia)). lia.
Qed.

Lemma wrepr_lrepr : forall ws l, wrepr ws l -> lrepr ws l.
Proof.
  intros ws l H. pose proof (wrepr_lt ws l (length l) H ltac:(lia)) as L.
  destruct H as (A & B & C). split; auto. split; [lia|].
  apply list_ext with (d := false).
  - rewrite bits_of_length, app_length, repeat_length. lia.
  - intros i Hi. rewrite C. destruct (Nat.ltb_spec i (length l)) as [G|G].
    + rewrite app_nth1 by auto. reflexivity.
    + rewrite (app_nth2 l (repeat false _)) by auto. rewrite nth_repeat. apply nth_overflow. auto.
Qed.

(** append a bit, growing like moveToNextItemSlot does *)
Lemma wrepr_push : forall ws l b ws1, wrepr ws l ->
  Forall word_ok ws1 -> length ws1 = length ws ->
  (forall j, nth j (bits_of ws1) false = ((j =? length l) && b) || nth j (bits_of ws) false) ->
  wrepr (if S (length l) mod 64 =? 0 then ws1 ++ [0%N] else ws1) (l ++ [b]).
Proof.
  intros ws l b ws1 H F L E. pose proof (wrepr_lt ws l (length l) H ltac:(lia)) as LT.
  destruct H as (A & B & C).
  assert (N1 : forall j, nth j (bits_of ws1) false = nth j (l ++ [b]) false).
  { intros j. rewrite E, C. destruct (lt_eq_lt_dec j (length l)) as [[G|G]|G].
    - replace (j =? length l) with false by lia. rewrite app_nth1 by auto. reflexivity.
    - subst j. rewrite Nat.eqb_refl, app_nth2, Nat.sub_diag by lia. cbn [andb nth].
      rewrite (nth_overflow l) by lia. apply orb_false_r.
    - replace (j =? length l) with false by lia.
      rewrite (nth_overflow l) by lia. rewrite (nth_overflow (l ++ [b])) by (rewrite app_length; cbn [length]; lia).
      reflexivity. }
  pose proof (Nat.div_mod (length l) 64 ltac:(lia)) as D1.
  pose proof (Nat.mod_upper_bound (length l) 64 ltac:(lia)) as D2.
  pose proof (Nat.div_mod (S (length l)) 64 ltac:(lia)) as D3.
  pose proof (Nat.mod_upper_bound (S (length l)) 64 ltac:(lia)) as D4.
  destruct (Nat.eqb_spec (S (length l) mod 64) 0) as [G|G].
  - split; [apply Forall_app; split; auto; repeat constructor|]. split.
    + rewrite !app_length. cbn [length]. rewrite Nat.add_1_r with (n := length l). lia.
    + intros j. rewrite <- N1, bits_of_app.
      destruct (Nat.ltb_spec j (64 * length ws1)) as [G2|G2].
      * rewrite app_nth1 by (rewrite bits_of_length; auto). reflexivity.
      * rewrite app_nth2 by (rewrite bits_of_length; auto).
        rewrite (nth_overflow (bits_of ws1)) by (rewrite bits_of_length; auto).
        cbn [bits_of flat_map]. rewrite bits64_zero, app_nil_r. apply nth_repeat.
  - split; auto. split; auto. rewrite app_length. cbn [length]. rewrite Nat.add_1_r with (n := length l). lia.
Qed.

Record alev := mkA {
  a_labs : list nat; a_ch : list bool; a_ld : list bool; a_sfx : list N; a_lt : bool }.

Definition elev : level_rec := mkLevel [] [0%N] [0%N] [] 0 0 false.

Record lev_rel (slen : nat) (r : level_rec) (a : alev) : Prop := mkRel {
  rl_labs : lv_labels r = a_labs a;
  rl_lch : length (a_ch a) = length (a_labs a);
  rl_lld : length (a_ld a) = length (a_labs a);
  rl_ch : wrepr (lv_child r) (a_ch a);
  rl_ld : wrepr (lv_louds r) (a_ld a);
  rl_suf : srepr slen (lv_suf r) (a_sfx a);
  rl_cnt : lv_sufcount r = length (a_sfx a);
  rl_nodes : lv_nodes r = cnt (a_ld a);
  rl_lt : lv_lastterm r = a_lt a }.

Definition st_rel (slen : nat) (st : levels) (a : nat -> alev) : Prop :=
  forall l, lev_rel slen (nth l st elev) (a l).

Definition a_push (c : nat) (is_start is_term : bool) (a : alev) : alev :=
  mkA (a_labs a ++ [c]) (a_ch a ++ [false]) (a_ld a ++ [is_start]) (a_sfx a) is_term.
Definition a_setlast (a : alev) : alev :=
  mkA (a_labs a) (removelast (a_ch a) ++ [true]) (a_ld a) (a_sfx a) (a_lt a).
Definition a_addsfx (v : N) (a : alev) : alev :=
  mkA (a_labs a) (a_ch a) (a_ld a) (a_sfx a ++ [v]) (a_lt a).

Lemma st_rel_ext : forall slen st a a', st_rel slen st a -> (forall l, a l = a' l) -> st_rel slen st a'.
Proof. intros slen st a a' H E l. rewrite <- E. apply H. Qed.

Lemma st_rel_add : forall slen st a, st_rel slen st a -> st_rel slen (addLevel st) a.
Proof.
  intros slen st a H l. specialize (H l). unfold addLevel.
  destruct (lt_dec l (length st)) as [L|L].
  - rewrite app_nth1 by auto. auto.
  - rewrite nth_overflow in H by lia. rewrite app_nth2 by lia.
    destruct (l - length st) as [|[|m]]; exact H.
Qed.

Lemma st_rel_set : forall slen st a i r x, st_rel slen st a -> i < length st -> lev_rel slen r x ->
  st_rel slen (lset st i r) (fun l => if l =? i then x else a l).
Proof.
  intros slen st a i r x H Hi Hr l. rewrite lset_nth. replace (i <? length st) with true by lia.
  rewrite andb_true_r. destruct (l =? i); auto.
Qed.

Lemma set_last_child_spec : forall slen e st a level, st_rel slen st a -> level < length st ->
  a_labs (a level) <> [] ->
  exists st', set_last_child e st level = Ok st' /\ length st' = length st /\
    st_rel slen st' (fun l => if l =? level then a_setlast (a level) else a l).
Proof.
  intros slen e st a level H Hl Hne. unfold set_last_child.
  rewrite (vget_ok _ st level elev) by auto. cbn [bind].
  pose proof (H level) as HR. destruct HR as [R1 R2 R3 R4 R5 R6 R7 R8 R9].
  rewrite R1. destruct (a_labs (a level)) as [|x0 xs] eqn:EL; [congruence|].
  cbn [length pred_idx bind]. cbn [length] in R2.
  pose proof (wrepr_lt _ _ (length xs) R4 ltac:(lia)) as HB.
  destruct R4 as (F & L & C).
  destruct (b_setBit_spec e (lv_child (nth level st elev)) (length xs) F HB) as (ws' & E & F' & L' & C').
  rewrite E. cbn [bind]. unfold vset. replace (level <? length st) with true by lia.
  eexists. split; [reflexivity|]. split; [apply lset_length|].
  apply st_rel_set; auto.
  assert (X : exists ys b, a_ch (a level) = ys ++ [b] /\ length ys = length xs).
  { destruct (a_ch (a level)) as [|y0 ys] eqn:EC; [cbn in R2; lia|].
    exists (removelast (y0 :: ys)), (last (y0 :: ys) false). split.
    - apply app_removelast_last. discriminate.
    - rewrite removelast_firstn_len. rewrite firstn_length. cbn [length] in *. lia. }
  destruct X as (ys & b & EC & LY).
  constructor; cbn [lv_labels lv_child lv_louds lv_suf lv_sufcount lv_nodes lv_lastterm set_child
    a_setlast a_labs a_ch a_ld a_sfx a_lt]; auto.
  - rewrite R1, EL. reflexivity.
  - rewrite EC, removelast_last, app_length, EL. cbn [length]. lia.
  - rewrite R3, EL. reflexivity.
  - rewrite EC, removelast_last. split; auto. split.
    + rewrite L', L, EC, !app_length. reflexivity.
    + intros j. rewrite C', C, EC. destruct (lt_eq_lt_dec j (length ys)) as [[G|G]|G].
      * replace (j =? length xs) with false by lia. rewrite !app_nth1 by auto. reflexivity.
      * replace (j =? length xs) with true by lia. rewrite !app_nth2, G, Nat.sub_diag by lia. reflexivity.
      * replace (j =? length xs) with false by lia.
        rewrite !(nth_overflow (_ ++ _)) by (rewrite app_length; cbn [length]; lia). reflexivity.
Qed.

Lemma insertKeyByte_spec : forall slen e st a c level is_start is_term,
  st_rel slen st a -> level <= length st ->
  (level = 0 \/ a_labs (a (level - 1)) <> []) ->
  exists st', insertKeyByte e st c level is_start is_term = Ok st' /\
    length st' = Nat.max (length st) (S level) /\
    st_rel slen st' (fun l => if l =? level then a_push c is_start is_term (a level)
                              else if S l =? level then a_setlast (a l) else a l).
Proof.
  intros slen e st a c level is_start is_term H Hl Hp. unfold insertKeyByte.
  set (st1 := if length st <=? level then addLevel st else st).
  assert (H1 : st_rel slen st1 a) by (unfold st1; destruct (length st <=? level); auto using st_rel_add).
  assert (L1 : length st1 = Nat.max (length st) (S level)).
  { unfold st1, addLevel. destruct (Nat.leb_spec (length st) level); rewrite ?app_length; cbn [length]; lia. }
  clearbody st1. rewrite massert_true by lia. cbn [bind].
  assert (X : exists st2, (if 0 <? level then set_last_child e st1 (level - 1) else Ok st1) = Ok st2 /\
     length st2 = length st1 /\ st_rel slen st2 (fun l => if S l =? level then a_setlast (a l) else a l)).
  { destruct (Nat.ltb_spec 0 level) as [G|G].
    - destruct (set_last_child_spec slen e st1 a (level - 1)) as (st2 & E & L2 & R2); auto; [lia|destruct Hp; auto; lia|].
      exists st2. split; auto. split; auto. eapply st_rel_ext; [exact R2|].
      intros l. cbn beta. destruct (Nat.eqb_spec l (level - 1)) as [->|N].
      + replace (S (level - 1) =? level) with true by lia. reflexivity.
      + replace (S l =? level) with false by lia. reflexivity.
    - exists st1. split; auto. split; auto. eapply st_rel_ext; [exact H1|].
      intros l. replace (S l =? level) with false by lia. reflexivity. }
  destruct X as (st2 & E2 & L2 & H2). rewrite E2. cbn [bind].
  rewrite (vget_ok _ st2 level elev) by lia. cbn [bind].
  pose proof (H2 level) as HR. cbn beta in HR. replace (S level =? level) with false in HR by lia.
  destruct HR as [R1 R2 R3 R4 R5 R6 R7 R8 R9].
  set (r := nth level st2 elev) in *.
  assert (LL : length (lv_labels (set_labels r (lv_labels r ++ [c]))) = S (length (a_labs (a level)))).
  { cbn [set_labels lv_labels]. rewrite app_length, R1. cbn [length]. lia. }
  pose proof (wrepr_lt _ _ (length (a_labs (a level))) R5 ltac:(lia)) as HB.
  assert (X : exists r2, (if is_start then
          i <- pred_idx (length (lv_labels (set_labels r (lv_labels r ++ [c])))) ;;
          w <- b_setBit e (lv_louds (set_labels r (lv_labels r ++ [c]))) i ;;
          Ok (set_nodes (set_louds (set_labels r (lv_labels r ++ [c])) w) (S (lv_nodes (set_labels r (lv_labels r ++ [c])))))
        else Ok (set_labels r (lv_labels r ++ [c]))) = Ok r2 /\
     lv_labels r2 = lv_labels r ++ [c] /\ lv_child r2 = lv_child r /\ lv_suf r2 = lv_suf r /\
     lv_sufcount r2 = lv_sufcount r /\ lv_nodes r2 = lv_nodes r + (if is_start then 1 else 0) /\
     Forall word_ok (lv_louds r2) /\ length (lv_louds r2) = length (lv_louds r) /\
     forall j, nth j (bits_of (lv_louds r2)) false =
       ((j =? length (a_ld (a level))) && is_start) || nth j (bits_of (lv_louds r)) false).
  { destruct is_start.
    - rewrite LL. cbn [pred_idx bind]. destruct R5 as (F5 & L5 & C5).
      destruct (b_setBit_spec e (lv_louds r) (length (a_labs (a level))) F5 HB) as (ws' & E & F' & L' & C').
      cbn [set_labels lv_louds]. rewrite E. cbn [bind]. eexists. split; [reflexivity|].
      cbn [set_labels set_louds set_nodes lv_labels lv_child lv_louds lv_suf lv_sufcount lv_nodes].
      repeat (split; auto; try lia). intros j. rewrite C', R3, andb_true_r. reflexivity.
    - eexists. split; [reflexivity|].
      cbn [set_labels set_louds set_nodes lv_labels lv_child lv_louds lv_suf lv_sufcount lv_nodes].
      destruct R5 as (F5 & L5 & C5). repeat (split; auto; try lia). }
  destruct X as (r2 & -> & B1 & B2 & B3 & B4 & B5 & B6 & B7 & B8). cbn [bind].
  replace (length (lv_labels (set_lastterm r2 is_term))) with (S (length (a_labs (a level)))).
  2:{ cbn [set_lastterm lv_labels]. rewrite B1, app_length, R1. cbn [length]. lia. }
  unfold vset. replace (level <? length st2) with true by lia.
  eexists. split; [reflexivity|]. split; [rewrite lset_length; lia|].
  eapply st_rel_ext.
  - apply st_rel_set; [exact H2|lia|]. instantiate (1 := a_push c is_start is_term (a level)).
    pose proof (wrepr_push (lv_child r) (a_ch (a level)) false (lv_child r) R4 ltac:(destruct R4; auto) eq_refl
       ltac:(intros; rewrite andb_false_r; reflexivity)) as P1.
    pose proof (wrepr_push (lv_louds r) (a_ld (a level)) is_start (lv_louds r2) R5 B6 B7 B8) as P2.
    rewrite R2 in P1. rewrite R3 in P2.
    destruct (Nat.eqb_spec (S (length (a_labs (a level))) mod 64) 0) as [G|G];
    (constructor; cbn [set_lastterm set_louds set_child lv_labels lv_child lv_louds lv_suf lv_sufcount lv_nodes lv_lastterm
      a_push a_labs a_ch a_ld a_sfx a_lt];
     [rewrite B1, R1; reflexivity
     |rewrite !app_length; cbn [length]; lia
     |rewrite !app_length; cbn [length]; lia
     |rewrite B2; exact P1
     |exact P2
     |rewrite B3; auto
     |lia
     |rewrite cnt_app, B5, R8; destruct is_start; cbn [cnt]; lia
     |reflexivity]).
  - intros l. cbn beta. destruct (l =? level); reflexivity.
Qed.

(** ** the state after [j] keys and the first [x] levels of key [j] *)
Section Abs.
Variable K : list bytes.
Notation kk := (kk K). Notation lo := (lo K). Notation hi := (hi K). Notation leafl := (leafl K).
Notation item := (item K). Notation child := (child K). Notation louds := (louds K).
Notation leaf := (leaf K). Notation lab := (lab K). Notation term := (term K). Notation anc := (anc K).
Let n := length K.

Definition its (j x l : nat) : list nat :=
  filter (item l) (seq 0 j) ++ (if (lo j <=? l) && (l <? x) then [j] else []).

(** the items of a level up to key [i] end with the ancestor of [i] *)
Lemma its_anc : forall m i, i < n -> m <= leafl i ->
  filter (item m) (seq 0 (S i)) = filter (item m) (seq 0 (anc m i)) ++ [anc m i].
Proof.
  intros m i Hi Hm. pose proof (anc_le K m i) as L. pose proof (anc_item K m i Hi Hm) as I.
  replace (S i) with (anc m i + (1 + (i - anc m i))) by lia.
  rewrite seq_app, filter_app. f_equal. cbn [Nat.add seq filter]. rewrite I. f_equal.
  assert (X : forall l, (forall x, In x l -> item m x = false) -> filter (item m) l = []).
  { induction l as [|a l IH]; intros H; [reflexivity|]. cbn [filter]. rewrite H by (left; auto).
    apply IH. intros. apply H. right. auto. }
  apply X. intros x Hx. apply in_seq in Hx. pose proof (anc_between K m i x ltac:(lia)) as B.
  destruct (item m x) eqn:E; auto. apply item_spec in E. lia.
Qed.

Lemma in_its : forall j (x : nat) l i, In i (filter (item l) (seq 0 j)) -> i < j.
Proof. intros j x l i H. apply filter_In in H. destruct H as [H _]. apply in_seq in H. lia. Qed.

Definition items (l : nat) : list nat := filter (item l) (seq 0 n).

Fixpoint LEN (j : nat) : nat :=
  match j with O => 0 | S i => Nat.max (LEN i) (leafl i + 2) end.

Lemma LEN_leafl : forall j m, m < j -> leafl m + 2 <= LEN j.
Proof.
  induction j as [|j IH]; intros m Hm; [lia|]. cbn [LEN].
  destruct (Nat.eq_dec m j) as [->|]; [lia|]. specialize (IH m). lia.
Qed.

Lemma LEN_max : forall j, 0 < j -> exists m, m < j /\ LEN j = leafl m + 2.
Proof.
  induction j as [|j IH]; intros Hj; [lia|]. cbn [LEN].
  destruct (Nat.max_spec (LEN j) (leafl j + 2)) as [[A B]|[A B]]; rewrite B.
  - exists j. split; auto.
  - destruct j; [change (LEN 0) with 0 in A; lia|]. destruct IH as (m & C & D); [lia|]. exists m. split; auto.
Qed.

Variable sv : nat -> N.
Definition absl (j x l : nat) : alev :=
  mkA (map (lab l) (its j x l))
      (map (fun i => if i <? j then child l i else S l <? x) (its j x l))
      (map (louds l) (its j x l))
      (map sv (filter (leaf l) (seq 0 j)))
      (last (map (term l) (its j x l)) false).

Lemma absl_eq : forall j x x' l, its j x l = its j x' l -> (lo j <= l < x -> (S l <? x) = (S l <? x')) ->
  absl j x l = absl j x' l.
Proof.
  intros j x x' l H1 H2. unfold absl. rewrite <- H1. f_equal.
  apply map_ext_in. intros i Hi. unfold its in Hi. apply in_app_or in Hi. destruct Hi as [Hi|Hi].
  - apply (in_its j x) in Hi. replace (i <? j) with true by lia. reflexivity.
  - destruct ((lo j <=? l) && (l <? x)) eqn:E; [|destruct Hi].
    destruct Hi as [<-|[]]. rewrite Nat.ltb_irrefl. apply H2. lia.
Qed.

Lemma absl_lo : forall j x l, x <= lo j -> absl j x l = absl j 0 l.
Proof.
  intros j x l H. apply absl_eq.
  - unfold its. replace ((lo j <=? l) && (l <? x)) with false by lia.
    replace ((lo j <=? l) && (l <? 0)) with false by lia. reflexivity.
  - lia.
Qed.

(** setting the last child bit again changes nothing *)
Lemma absl_setlast_same : forall j m, 0 < j -> j <= n -> m < lo j -> a_setlast (absl j 0 m) = absl j 0 m.
Proof.
  intros j m Hj Hn Hm. destruct j as [|i]; [lia|].
  assert (L : m < leafl i) by (unfold Trie.leafl; rewrite hi_lo; lia).
  unfold a_setlast, absl, its. replace ((lo (S i) <=? m) && (m <? 0)) with false by lia.
  rewrite app_nil_r. cbn [a_labs a_ch a_ld a_sfx a_lt]. f_equal.
  rewrite its_anc by lia. rewrite map_app. cbn [map]. rewrite removelast_last. f_equal. f_equal.
  pose proof (anc_le K m i). replace (anc m i <? S i) with true by lia.
  symmetry. apply anc_child; lia.
Qed.

Lemma absl_insert : forall j x l, j < n -> lo j <= x -> x <= leafl j ->
  absl j (S x) l = (if l =? x then a_push (lab x j) (louds x j) (term x j) (absl j x x)
                    else if S l =? x then a_setlast (absl j x l) else absl j x l).
Proof.
  intros j x l Hj Hlo Hx. destruct (Nat.eqb_spec l x) as [->|N1].
  - unfold a_push, absl, its. cbn [a_labs a_ch a_ld a_sfx a_lt].
    replace ((lo j <=? x) && (x <? S x)) with true by lia.
    replace ((lo j <=? x) && (x <? x)) with false by lia.
    rewrite !app_nil_r, !map_app. cbn [map]. rewrite last_last. f_equal. f_equal.
    + apply map_ext_in. intros i Hi. apply (in_its j x) in Hi. replace (i <? j) with true by lia. reflexivity.
    + rewrite !Nat.ltb_irrefl. reflexivity.
  - destruct (Nat.eqb_spec (S l) x) as [E|N2].
    + subst x. destruct (le_lt_dec (lo j) l) as [G|G].
      * unfold a_setlast, absl, its. cbn [a_labs a_ch a_ld a_sfx a_lt].
        replace ((lo j <=? l) && (l <? S (S l))) with true by lia.
        replace ((lo j <=? l) && (l <? S l)) with true by lia.
        f_equal. rewrite !map_app. cbn [map]. rewrite removelast_last. f_equal.
        -- apply map_ext_in. intros i Hi. apply (in_its j l) in Hi. replace (i <? j) with true by lia. reflexivity.
        -- rewrite Nat.ltb_irrefl. replace (S l <? S (S l)) with true by lia. reflexivity.
      * rewrite (absl_lo j (S l)) by lia.
        assert (J : 0 < j) by (destruct j; [change (lo 0) with 0 in G; lia|lia]).
        rewrite absl_setlast_same by (auto; lia).
        rewrite <- (absl_lo j (S l)) by lia.
        apply absl_eq; [|lia]. unfold its.
        replace ((lo j <=? l) && (l <? S (S l))) with false by lia.
        replace ((lo j <=? l) && (l <? S l)) with false by lia. reflexivity.
    + apply absl_eq; [|lia]. unfold its.
      replace (l <? S x) with (l <? x) by lia. reflexivity.
Qed.

Lemma absl_next : forall j l, j < n ->
  absl (S j) 0 l = (if l =? leafl j then a_addsfx (sv j) (absl j (S (leafl j)) l)
                    else absl j (S (leafl j)) l).
Proof.
  intros j l Hj.
  assert (I : its (S j) 0 l = its j (S (leafl j)) l).
  { unfold its. replace ((lo (S j) <=? l) && (l <? 0)) with false by lia. rewrite app_nil_r.
    rewrite seq_snoc, filter_app. cbn [filter Nat.add]. f_equal.
    replace (item l j) with ((lo j <=? l) && (l <? S (leafl j))); [reflexivity|].
    unfold Trie.item. fold n. replace (j <? n) with true by lia. lia. }
  assert (C : map (fun i => if i <? S j then child l i else S l <? 0) (its j (S (leafl j)) l) =
              map (fun i => if i <? j then child l i else S l <? S (leafl j)) (its j (S (leafl j)) l)).
  { apply map_ext_in. intros i Hi. unfold its in Hi. apply in_app_or in Hi. destruct Hi as [Hi|Hi].
    - apply (in_its j 0) in Hi. replace (i <? j) with true by lia. replace (i <? S j) with true by lia. reflexivity.
    - destruct ((lo j <=? l) && (l <? S (leafl j))) eqn:E; [|destruct Hi]. destruct Hi as [<-|[]].
      rewrite Nat.ltb_irrefl. replace (j <? S j) with true by lia.
      apply eq_true_iff_eq. rewrite child_spec. unfold Trie.leafl in *. fold n. lia. }
  unfold absl. rewrite I, C.
  assert (E : filter (leaf l) (seq 0 (S j)) = filter (leaf l) (seq 0 j) ++ (if l =? leafl j then [j] else [])).
  { rewrite seq_snoc, filter_app. cbn [filter Nat.add]. f_equal.
    replace (leaf l j) with (l =? leafl j); [reflexivity|].
    apply eq_true_iff_eq. rewrite leaf_spec. fold n. lia. }
  rewrite E, map_app. destruct (l =? leafl j); unfold a_addsfx; cbn [a_labs a_ch a_ld a_sfx a_lt map];
    [reflexivity|]. rewrite app_nil_r. reflexivity.
Qed.

Lemma absl_zero : forall l, absl 0 0 l = mkA [] [] [] [] false.
Proof.
  intros. unfold absl, its. change (lo 0) with 0. replace ((0 <=? l) && (l <? 0)) with false by lia. reflexivity.
Qed.

(** ** the finished levels *)

Lemma absl_final : forall l, absl n 0 l =
  mkA (map (lab l) (items l)) (map (child l) (items l)) (map (louds l) (items l))
      (map sv (filter (leaf l) (seq 0 n))) (last (map (term l) (items l)) false).
Proof.
  intros l. unfold absl, its. replace ((lo n <=? l) && (l <? 0)) with false by lia.
  rewrite app_nil_r. fold (items l). f_equal. apply map_ext_in. intros i Hi.
  apply (in_its n 0) in Hi. replace (i <? n) with true by lia. reflexivity.
Qed.

End Abs.

(** ** the concrete steps *)

Lemma nonempty_lt : forall slen st a l, st_rel slen st a -> a_labs (a l) <> [] -> l < length st.
Proof.
  intros slen st a l H N. destruct (lt_dec l (length st)) as [|G]; auto. exfalso. apply N.
  destruct (H l) as [R _ _ _ _ _ _ _ _]. rewrite <- R, nth_overflow by lia. reflexivity.
Qed.

Lemma lcp_byte : forall a b m, m < lcp a b -> exists c, nth_error a m = Some c /\ nth_error b m = Some c.
Proof.
  induction a as [|x a IH]; intros [|y b] m H; simpl in H; try lia.
  destruct (Nat.eqb_spec x y) as [->|N]; [|lia]. destruct m; [exists y; auto|]. simpl. apply IH. lia.
Qed.

Lemma lcp_stop : forall a b c d, nth_error a (lcp a b) = Some c -> nth_error b (lcp a b) = Some d -> c <> d.
Proof.
  induction a as [|x a IH]; intros [|y b] c d; simpl; try discriminate.
  destruct (Nat.eqb_spec x y) as [->|N]; simpl; eauto. congruence.
Qed.

Lemma firstn_nth_error : forall (A : Type) (a b : list A) l m, firstn m a = firstn m b -> l < m ->
  nth_error a l = nth_error b l.
Proof.
  intros A a b l m H Hl. revert a b l H Hl.
  induction m as [|m IH]; intros a b l H Hl; [lia|].
  destruct a as [|x a], b as [|y b]; cbn [firstn] in H; try discriminate; auto.
  injection H as -> H. destruct l; [reflexivity|]. cbn [nth_error]. apply IH; [exact H|lia].
Qed.

Lemma isSameKey_spec : forall a b, isSameKey a b = true <-> a = b.
Proof.
  unfold isSameKey. induction a as [|x a IH]; intros [|y b].
  - split; reflexivity.
  - cbn. split; discriminate.
  - cbn. split; discriminate.
  - cbn [str_compare]. destruct (Nat.ltb_spec x y); [split; [discriminate|intros E; inversion E; lia]|].
    destruct (Nat.ltb_spec y x); [split; [discriminate|intros E; inversion E; lia]|].
    assert (x = y) by lia. subst y. rewrite IH. split; [congruence|intros E; inversion E; auto].
Qed.

(** ** duplicates *)

Lemma uniq_cons : forall k rest, exists r, uniq (k :: rest) = k :: r.
Proof.
  intros k rest. cbn [uniq]. destruct (uniq rest) as [|k' r]; [eexists; reflexivity|].
  destruct (list_eq_dec Nat.eq_dec k k') as [->|]; eexists; reflexivity.
Qed.

Lemma uniq_drop : forall rest k, uniq (k :: rest) = k :: uniq (drop_same k rest).
Proof.
  induction rest as [|k' rest IH]; intros k; [reflexivity|].
  change (uniq (k :: k' :: rest)) with (match uniq (k' :: rest) with [] => [k]
    | x :: r => if list_eq_dec Nat.eq_dec k x then x :: r else k :: x :: r end).
  cbn [drop_same]. rewrite IH. destruct (list_eq_dec Nat.eq_dec k k') as [->|N].
  - replace (isSameKey k' k') with true by (symmetry; apply isSameKey_spec; auto). reflexivity.
  - replace (isSameKey k k') with false.
    + rewrite IH. reflexivity.
    + symmetry. destruct (isSameKey k k') eqn:E; auto. apply isSameKey_spec in E. congruence.
Qed.

Lemma drop_same_len : forall k rest, length (drop_same k rest) <= length rest.
Proof.
  induction rest as [|a rest IHr]; cbn [drop_same]; [lia|].
  destruct (isSameKey k a); cbn [length]; lia.
Qed.

Lemma uniq_in : forall keys k, In k (uniq keys) <-> In k keys.
Proof.
  induction keys as [|a keys IH]; intros k; [reflexivity|]. cbn [uniq In]. rewrite <- IH.
  destruct (uniq keys) as [|b r]; [reflexivity|].
  destruct (list_eq_dec Nat.eq_dec a b) as [->|]; cbn [In]; tauto.
Qed.

Lemma uniq_sorted : forall keys, StronglySorted kle keys -> StronglySorted klt (uniq keys).
Proof.
  induction keys as [|a keys IH]; intros H; [constructor|]. inversion H as [|? ? H1 H2]; subst.
  specialize (IH H1). cbn [uniq]. assert (F : Forall (kle a) (uniq keys)).
  { rewrite Forall_forall in *. intros x Hx. apply H2. apply uniq_in. auto. }
  destruct (uniq keys) as [|b r]; [repeat constructor|].
  destruct (list_eq_dec Nat.eq_dec a b) as [->|N]; auto.
  constructor; auto. rewrite Forall_forall in *. intros x Hx. inversion IH as [|? ? IH1 IH2]; subst.
  rewrite Forall_forall in IH2. destruct (F b (or_introl eq_refl)) as [G|]; [|congruence].
  destruct Hx as [->|Hx]; auto. eapply klt_trans; eauto.
Qed.

Section KeysOk.
Variable K : list bytes.
Notation kk := (kk K). Notation lo := (lo K).
Let n := length K.
Lemma keys_in : forall j, j < n -> In (kk j) K.
Proof. intros. apply nth_In. auto. Qed.

Hypothesis HB : Forall is_bytes K.
Lemma keys_bytes : forall j, is_bytes (kk j).
Proof.
  intros j. destruct (lt_dec j n) as [L|L].
  - rewrite Forall_forall in HB. apply HB. apply keys_in. auto.
  - unfold Trie.kk. rewrite nth_overflow by (fold n; lia). constructor.
Qed.

Hypothesis HE : Forall (fun k => k <> []) K.
Lemma keys_ne : forall j, j < n -> kk j <> [].
Proof. intros j Hj. rewrite Forall_forall in HE. apply HE. apply keys_in. auto. Qed.

Hypothesis HS : StronglySorted klt K.
Lemma keys_lo_lt : forall j, j < n -> lo j < length (kk j).
Proof.
  intros [|i] Hj.
  - change (lo 0) with 0. pose proof (keys_ne 0 Hj). destruct (kk 0); [congruence|cbn; lia].
  - pose proof (sorted_nth K HS i (S i) ltac:(lia)) as S1. apply klt_lcp in S1.
    change (lcp (kk i) (kk (S i))) with (lo (S i)) in S1.
    pose proof (olab_zero (lo (S i)) (kk (S i))). lia.
Qed.

End KeysOk.

Section Steps.
Variables (e : env) (c : config) (K : list bytes).
Hypothesis HS : StronglySorted klt K.
Hypothesis HB : Forall is_bytes K.
Hypothesis HE : Forall (fun k => k <> []) K.
Hypothesis Hshift : strict_shift e = false.
Hypothesis Hlens : lens_ok (cf_type c) (cf_hlen c) (cf_rlen c).
Notation kk := (kk K). Notation lo := (lo K). Notation hi := (hi K). Notation leafl := (leafl K).
Notation item := (item K). Notation child := (child K). Notation louds := (louds K).
Notation leaf := (leaf K). Notation lab := (lab K). Notation term := (term K). Notation anc := (anc K).
Let n := length K.
Let slen := cf_len c.
Definition sv (j : nat) : N := suf_val (cf_type c) (kk j) (cf_hlen c) (S (leafl j)) (cf_rlen c).
Notation absl := (absl K sv). Notation LEN := (LEN K).

Let kk_in := keys_in K.
Let kk_bytes := keys_bytes K HB.
Let kk_ne := keys_ne K HE.
Let lo_lt := keys_lo_lt K HE HS.

Lemma absl_labs_ne : forall j x m, 0 < j -> j <= n -> m <= lo j -> a_labs (absl j x m) <> [].
Proof.
  intros j x m Hj Hn Hm. destruct j as [|i]; [lia|].
  unfold BuilderFacts.absl, its. cbn [a_labs]. rewrite its_anc.
  - rewrite !map_app. destruct (map _ _); discriminate.
  - fold n. lia.
  - unfold Trie.leafl. rewrite hi_lo. lia.
Qed.

Lemma insert_step : forall st j x, j < n -> lo j <= x -> x <= leafl j -> st_rel slen st (absl j x) ->
  exists st', insertKeyByte e st (lab x j) x (louds x j) (term x j) = Ok st' /\
    length st' = Nat.max (length st) (S x) /\ st_rel slen st' (absl j (S x)).
Proof.
  intros st j x Hj Hlo Hx H.
  assert (P : x = 0 \/ a_labs (absl j x (x - 1)) <> []).
  { destruct x as [|x]; [left; auto|right]. cbn [Nat.sub]. rewrite Nat.sub_0_r.
    destruct (le_lt_dec (lo j) x) as [G|G].
    - unfold BuilderFacts.absl, its. cbn [a_labs]. replace ((lo j <=? x) && (x <? S x)) with true by lia.
      rewrite map_app. destruct (map _ _); discriminate.
    - apply absl_labs_ne; [|lia|lia]. destruct j; [change (lo 0) with 0 in G; lia|lia]. }
  destruct (insertKeyByte_spec slen e st (absl j x) (lab x j) x (louds x j) (term x j) H) as (st' & E & L & R).
  - destruct P as [->|P]; [lia|]. pose proof (nonempty_lt _ _ _ _ H P). lia.
  - destruct P; auto.
  - exists st'. split; auto. split; auto. eapply st_rel_ext; [exact R|].
    intros l. symmetry. apply absl_insert; auto.
Qed.

Lemma skip_spec : forall rest st j m, j < n -> st_rel slen st (absl j 0) -> (j = 0 -> st = []) ->
  m <= lo j -> rest = skipn m (kk j) ->
  exists st', skip_loop e st rest m = Ok (st', lo j) /\ length st' = length st /\ st_rel slen st' (absl j 0).
Proof.
  induction rest as [|b rest IH]; intros st j m Hj H H0 Hm Hr.
  - exfalso. pose proof (lo_lt j Hj). pose proof (f_equal (@length nat) Hr) as L.
    rewrite skipn_length in L. cbn in L. lia.
  - cbn [skip_loop].
    assert (Bm : nth_error (kk j) m = Some b).
    { rewrite <- (firstn_skipn m (kk j)), <- Hr. rewrite nth_error_app2; rewrite firstn_length;
      pose proof (lo_lt j Hj); [|lia]. replace (m - _) with 0 by lia. reflexivity. }
    assert (Hr' : rest = skipn (S m) (kk j)).
    { rewrite (skipn_nth_cons _ (kk j) m 0) in Hr by (pose proof (lo_lt j Hj); lia). congruence. }
    destruct j as [|i].
    { rewrite H0 in * by auto. unfold isCharCommonPrefix. destruct m; cbn [nth_error bind];
      [|change (lo 0) with 0 in Hm; lia]. exists []. split; auto. }
    assert (NE : a_labs (absl (S i) 0 m) <> []) by (apply absl_labs_ne; lia).
    pose proof (nonempty_lt _ _ _ _ H NE) as ML.
    unfold isCharCommonPrefix. rewrite (nth_error_nth' st elev ML).
    pose proof (H m) as HR. destruct HR as [R1 _ _ _ _ _ _ _ R9]. rewrite R1, R9.
    assert (IT : its K (S i) 0 m = filter (item m) (seq 0 (anc m i)) ++ [anc m i]).
    { unfold its. replace ((lo (S i) <=? m) && (m <? 0)) with false by lia. rewrite app_nil_r.
      apply its_anc; [fold n; lia|]. unfold Trie.leafl. rewrite hi_lo. lia. }
    unfold BuilderFacts.absl at 1 2. cbn [a_lt a_labs]. rewrite IT, !map_app. cbn [map].
    rewrite last_last, rev_app_distr. cbn [rev app].
    pose proof (anc_prefix K m i) as AP. unfold Trie.term, Trie.lab.
    pose proof (firstn_nth_error _ _ _ m _ AP ltac:(lia)) as AN.
    destruct (Nat.eq_dec m (lo (S i))) as [Em|Nm].
    + (* stop *)
      assert (X : (if length (kk (anc m i)) <=? m then Ok false else Ok (b =? nth m (kk (anc m i)) 255)) = Ok false).
      { destruct (Nat.leb_spec (length (kk (anc m i))) m) as [G|G]; auto. f_equal.
        destruct (Nat.eqb_spec b (nth m (kk (anc m i)) 255)) as [E|]; auto. exfalso.
        rewrite (nth_error_nth' _ 255 G) in AN. rewrite <- E in AN. symmetry in AN.
        apply (lcp_stop (kk i) (kk (S i)) b b); auto.
        - change (lcp (kk i) (kk (S i))) with (lo (S i)). rewrite <- Em. auto.
        - change (lcp (kk i) (kk (S i))) with (lo (S i)). rewrite <- Em. auto. }
      rewrite X. cbn [bind]. rewrite Em. exists st. auto.
    + (* common byte *)
      destruct (lcp_byte (kk i) (kk (S i)) m) as (b' & N1 & N2).
      { change (lcp (kk i) (kk (S i))) with (lo (S i)). lia. }
      assert (b' = b) by congruence. subst b'. rewrite N1 in AN.
      assert (G : m < length (kk (anc m i))) by (apply nth_error_Some; congruence).
      replace (length (kk (anc m i)) <=? m) with false by lia.
      rewrite (nth_error_nth _ _ 255 AN), Nat.eqb_refl. cbn [bind].
      destruct (set_last_child_spec slen e st (absl (S i) 0) m H ML NE) as (st' & E & L & R).
      rewrite E. cbn [bind].
      destruct (IH st' (S i) (S m)) as (st2 & E2 & L2 & R2); auto.
      * eapply st_rel_ext; [exact R|]. intros l. cbn beta. destruct (Nat.eqb_spec l m) as [->|]; auto.
        apply absl_setlast_same; [lia|fold n; lia|lia].
      * discriminate.
      * lia.
      * exists st2. split; auto. split; auto. lia.
Qed.

Lemma common_spec : forall fuel st j x, j < n -> lo j < x -> x <= hi j -> hi j - x <= fuel ->
  st_rel slen st (absl j x) -> x <= length st ->
  exists st', insert_common e fuel st (kk j) (kk (S j)) x = Ok (st', hi j) /\
    length st' = Nat.max (length st) (hi j) /\ st_rel slen st' (absl j (hi j)).
Proof.
  induction fuel as [|f IH]; intros st j x Hj Hlo Hx Hf H HL; cbn [insert_common];
  (destruct (Nat.eq_dec x (hi j)) as [->|N];
   [exists st; split;
     [destruct (nth_error (kk j) (hi j)) as [a|] eqn:E1; auto;
      destruct (nth_error (kk (S j)) (hi j)) as [b|] eqn:E2; auto;
      pose proof (lcp_stop _ _ _ _ E1 E2); replace (a =? b) with false by lia; auto
     |split; [lia|auto]]|]).
  - lia.
  - destruct (lcp_byte (kk j) (kk (S j)) x) as (b & N1 & N2); [change (lcp (kk j) (kk (S j))) with (hi j); lia|].
    rewrite N1, N2, Nat.eqb_refl.
    destruct (insert_step st j x Hj ltac:(lia) ltac:(unfold Trie.leafl; lia) H) as (st' & E & L & R).
    assert (LT : x < length (kk j)) by (apply nth_error_Some; congruence).
    replace (lab x j) with b in E by (symmetry; apply nth_error_nth; auto).
    replace (louds x j) with true in E by (symmetry; apply louds_spec; fold n; lia).
    replace (term x j) with false in E by (unfold Trie.term; lia).
    rewrite E. cbn [bind].
    destruct (IH st' j (S x)) as (st2 & E2 & L2 & R2); auto; try lia.
    exists st2. split; auto. split; auto. lia.
Qed.

Lemma insertKey_spec : forall st j, j < n -> st_rel slen st (absl j 0) -> (j = 0 -> st = []) ->
  exists st', insertKeyBytesToTrieUntilUnique e st (kk j) (kk (S j)) (lo j) = Ok (st', S (leafl j)) /\
    length st' = Nat.max (length st) (S (leafl j)) /\ st_rel slen st' (absl j (S (leafl j))).
Proof.
  intros st j Hj H H0. unfold insertKeyBytesToTrieUntilUnique.
  pose proof (lo_lt j Hj) as LL. rewrite massert_true by lia. cbn [bind].
  assert (CA : char_at (kk j) (lo j) = Ok (lab (lo j) j)).
  { unfold char_at, Trie.lab. rewrite (nth_error_nth' _ 255 LL). reflexivity. }
  rewrite CA. cbn [bind].
  assert (EM : isLevelEmpty st (lo j) = louds (lo j) j).
  { unfold isLevelEmpty. destruct j as [|i].
    - rewrite H0 by auto. change (lo 0) with 0. cbn [nth_error].
      symmetry. apply louds_spec. fold n. lia.
    - assert (NE : a_labs (absl (S i) 0 (lo (S i))) <> []) by (apply absl_labs_ne; lia).
      pose proof (nonempty_lt _ _ _ _ H NE) as ML. rewrite (nth_error_nth' st elev ML).
      destruct (H (lo (S i))) as [R1 _ _ _ _ _ _ _ _]. rewrite R1.
      destruct (a_labs _) as [|x xs]; [congruence|]. cbn [length Nat.eqb].
      symmetry. destruct (louds (lo (S i)) (S i)) eqn:E; auto. apply louds_spec in E. lia. }
  rewrite EM.
  assert (H' : st_rel slen st (absl j (lo j))).
  { eapply st_rel_ext; [exact H|]. intros. symmetry. apply absl_lo. lia. }
  destruct (insert_step st j (lo j) Hj ltac:(lia) ltac:(unfold Trie.leafl; lia) H') as (st1 & E1 & L1 & R1).
  replace (term (lo j) j) with false in E1 by (unfold Trie.term; lia).
  rewrite E1. cbn [bind].
  destruct (le_lt_dec (hi j) (lo j)) as [G|G].
  - assert (X : (length (kk (S j)) <? S (lo j)) || negb (isSameKey (firstn (S (lo j)) (kk j)) (firstn (S (lo j)) (kk (S j)))) = true).
    { destruct (Nat.ltb_spec (length (kk (S j))) (S (lo j))) as [|G1]; auto. cbn [orb].
      destruct (isSameKey _ _) eqn:E; auto. apply isSameKey_spec in E.
      pose proof (lcp_ge (kk j) (kk (S j)) (S (lo j)) ltac:(lia) ltac:(lia) E) as Q.
      change (lcp (kk j) (kk (S j))) with (hi j) in Q. lia. }
    rewrite X. replace (leafl j) with (lo j) by (unfold Trie.leafl; lia).
    exists st1. split; auto.
  - assert (X : (length (kk (S j)) <? S (lo j)) || negb (isSameKey (firstn (S (lo j)) (kk j)) (firstn (S (lo j)) (kk (S j)))) = false).
    { pose proof (lcp_le_r (kk j) (kk (S j))) as Q. change (lcp (kk j) (kk (S j))) with (hi j) in Q.
      replace (length (kk (S j)) <? S (lo j)) with false by lia. cbn [orb].
      replace (isSameKey _ _) with true; auto. symmetry. apply isSameKey_spec. apply lcp_firstn.
      change (lcp (kk j) (kk (S j))) with (hi j). lia. }
    rewrite X.
    pose proof (lcp_le_l (kk j) (kk (S j))) as Q. change (lcp (kk j) (kk (S j))) with (hi j) in Q.
    destruct (common_spec (length (kk j)) st1 j (S (lo j)) Hj ltac:(lia) ltac:(lia) ltac:(lia) R1 ltac:(lia))
      as (st2 & E2 & L2 & R2).
    rewrite E2. cbn [bind].
    assert (EL : leafl j = hi j) by (unfold Trie.leafl; lia).
    destruct (insert_step st2 j (hi j) Hj ltac:(lia) ltac:(lia) R2) as (st3 & E3 & L3 & R3).
    replace (louds (hi j) j) with true in E3 by (symmetry; apply louds_spec; fold n; lia).
    rewrite EL. unfold Trie.term, Trie.lab in E3.
    destruct (Nat.ltb_spec (hi j) (length (kk j))) as [G2|G2].
    + replace (length (kk j) <=? hi j) with false in E3 by lia.
      unfold char_at. rewrite (nth_error_nth' _ 255 G2). cbn [bind]. rewrite E3. cbn [bind].
      exists st3. split; auto. split; auto. lia.
    + replace (length (kk j) <=? hi j) with true in E3 by lia. rewrite nth_overflow in E3 by lia.
      unfold kTerminator. rewrite E3. cbn [bind]. exists st3. split; auto. split; auto. lia.
Qed.

(** ** suffixes *)

(** storing does not overflow the 32-bit bit position *)
Definition suf_fits : Prop := (N.of_nat (n * slen + 64) < 2 ^ 32)%N.

Lemma filter_len_le : forall (A : Type) (p : A -> bool) l, length (filter p l) <= length l.
Proof. induction l as [|x l IH]; cbn [filter length]; [lia|]. destruct (p x); cbn [length]; lia. Qed.

Lemma insertSuffix_spec : forall st j, j < n -> st_rel slen st (absl j (S (leafl j))) ->
  okp suf_fits (insertSuffix e c st (kk j) (S (leafl j)))
    (fun st' => length st' = Nat.max (length st) (leafl j + 2) /\ st_rel slen st' (absl (S j) 0)).
Proof.
  intros st j Hj H.
  assert (LE : leafl j < length st).
  { apply (nonempty_lt _ _ _ _ H). unfold BuilderFacts.absl, its. cbn [a_labs].
    replace ((lo j <=? leafl j) && (leafl j <? S (leafl j))) with true by (unfold Trie.leafl; lia).
    rewrite map_app. destruct (map _ _); discriminate. }
  unfold insertSuffix.
  set (st1 := if length st <=? S (leafl j) then addLevel st else st).
  assert (H1 : st_rel slen st1 (absl j (S (leafl j)))) by (unfold st1; destruct (length st <=? _); auto using st_rel_add).
  assert (L1 : length st1 = Nat.max (length st) (leafl j + 2)).
  { unfold st1, addLevel. destruct (Nat.leb_spec (length st) (S (leafl j))); rewrite ?app_length; cbn [length]; lia. }
  clearbody st1. rewrite massert_true by (rewrite L1; lia). cbn [bind].
  rewrite suffix_spec by (auto using kk_bytes). cbn [bind]. fold (sv j). rewrite storeSuffix_eq.
  cbn [pred_idx bind]. rewrite (vget_ok _ st1 (leafl j) elev) by lia. cbn [bind]. cbv zeta.
  pose proof (H1 (leafl j)) as HR. destruct HR as [R1 R2 R3 R4 R5 R6 R7 R8 R9].
  set (r := nth (leafl j) st1 elev) in *. rewrite R7.
  set (vs := a_sfx (absl j (S (leafl j)) (leafl j))) in *.
  assert (LV : length vs <= j).
  { unfold vs, BuilderFacts.absl. cbn [a_sfx]. rewrite map_length.
    pose proof (filter_len_le _ (leaf (leafl j)) (seq 0 j)) as Q. rewrite seq_length in Q. auto. }
  fold slen. destruct (fits32 (N.of_nat (length vs * slen + 64))) eqn:FT; cbn [negb].
  2:{ cbn [okp]. unfold suf_fits. intros Q. unfold fits32 in FT. rewrite two32_pow in FT.
      apply N.ltb_ge in FT. assert (length vs * slen <= n * slen) by (apply Nat.mul_le_mono_r; lia). lia. }
  assert (PL : length vs * slen <= length (lv_suf r) * 64).
  { destruct R6 as [(_ & Q & _) _]. rewrite flat_bits_length in Q. lia. }
  rewrite massert_true by lia. cbn [bind].
  destruct (store_words_spec e slen (lv_suf r) vs (sv j)) as (ws & E & SR); auto.
  - destruct Hlens. unfold slen, cf_len. lia.
  - apply suf_val_bound. apply kk_bytes.
  - rewrite E. cbn [bind]. unfold vset. replace (leafl j <? length st1) with true by lia.
    cbn [okp]. split; [rewrite lset_length; auto|].
    eapply st_rel_ext; [apply st_rel_set; [exact H1|lia|]|].
    + instantiate (1 := a_addsfx (sv j) (absl j (S (leafl j)) (leafl j))).
      constructor; cbn [set_suf lv_labels lv_child lv_louds lv_suf lv_sufcount lv_nodes lv_lastterm
        a_addsfx a_labs a_ch a_ld a_sfx a_lt]; auto.
      fold vs. rewrite app_length. cbn [length]. lia.
    + intros l. cbn beta. rewrite absl_next by auto. destruct (Nat.eqb_spec l (leafl j)) as [->|]; reflexivity.
Qed.

(** ** all keys *)

Lemma build_loop_spec : forall fuel keys j st, uniq keys = skipn j K -> j <= n -> length keys <= fuel ->
  st_rel slen st (absl j 0) -> length st = LEN j ->
  okp suf_fits (build_loop e c fuel st keys)
    (fun st' => length st' = LEN n /\ st_rel slen st' (absl n 0)).
Proof.
  induction fuel as [|f IH]; intros keys j st HU Hj Hf H HL.
  { destruct keys; [|cbn in Hf; lia]. cbn [build_loop]. cbn [uniq] in HU.
    assert (n = j) by (pose proof (f_equal (@length bytes) HU) as Q; rewrite skipn_length in Q; fold n in Q; cbn in Q; lia).
    rewrite H0. cbn [okp]. auto. }
  destruct keys as [|k rest].
  { cbn [build_loop]. cbn [uniq] in HU.
    assert (n = j) by (pose proof (f_equal (@length bytes) HU) as Q; rewrite skipn_length in Q; fold n in Q; cbn in Q; lia).
    rewrite H0. cbn [okp]. auto. }
  rewrite uniq_drop in HU.
  assert (Hjn : j < n) by (pose proof (f_equal (@length bytes) HU) as Q; rewrite skipn_length in Q; fold n in Q; cbn in Q; lia).
  rewrite (skipn_nth_cons _ K j []) in HU by auto.
  assert (Hk : k = nth j K []) by (apply (f_equal (hd [])) in HU; exact HU).
  apply (f_equal (@tl bytes)) in HU. cbn [tl] in HU. subst k.
  cbn [build_loop]. fold (kk j).
  assert (H0 : j = 0 -> st = []) by (intros ->; destruct st; auto; cbn in HL; lia).
  destruct (skip_spec (kk j) st j 0 Hjn H H0 ltac:(lia) eq_refl) as (st1 & E1 & L1 & R1).
  unfold skipCommonPrefix. rewrite E1. cbn [bind].
  assert (NX : match drop_same (kk j) rest with n0 :: _ => n0 | [] => [] end = kk (S j)).
  { unfold Trie.kk at 2. destruct (drop_same (kk j) rest) as [|k' r] eqn:ED.
    - fold (kk j) in HU. rewrite ED in HU. cbn [uniq] in HU. symmetry. apply nth_overflow.
      pose proof (f_equal (@length bytes) HU) as Q. rewrite skipn_length in Q. cbn in Q. lia.
    - fold (kk j) in HU. rewrite ED in HU. rewrite uniq_drop in HU.
      rewrite <- (firstn_skipn (S j) K) at 1. rewrite <- HU.
      assert (LF : length (firstn (S j) K) = S j) by (rewrite firstn_length; fold n; lia).
      rewrite app_nth2, LF, Nat.sub_diag by lia. reflexivity. }
  rewrite NX.
  destruct (insertKey_spec st1 j Hjn R1) as (st2 & E2 & L2 & R2).
  { intros Q. specialize (H0 Q). subst st. destruct st1; auto; discriminate. }
  rewrite E2. cbn [bind].
  eapply okp_bind; [apply insertSuffix_spec; eauto|].
  intros st3 [L3 R3]. apply IH with (j := S j); auto.
  - eapply Nat.le_trans; [apply drop_same_len|]. apply le_S_n. exact Hf.
  - cbn [LEN]. lia.
Qed.

Theorem buildSparse_spec : forall keys, uniq keys = K ->
  okp suf_fits (buildSparse e c keys) (fun st => length st = LEN n /\ st_rel slen st (absl n 0)).
Proof.
  intros keys HU. apply build_loop_spec with (j := 0); auto; [lia|].
  intros l. rewrite absl_zero. rewrite (nth_overflow []) by (cbn; lia). unfold elev.
  constructor; cbn [lv_labels lv_child lv_louds lv_suf lv_sufcount lv_nodes lv_lastterm
    a_labs a_ch a_ld a_sfx a_lt]; auto.
  - repeat split; auto. + repeat constructor. + intros j. cbn [bits_of flat_map].
    rewrite bits64_zero, app_nil_r, nth_repeat. destruct j; reflexivity.
  - repeat split; auto. + repeat constructor. + intros j. cbn [bits_of flat_map].
    rewrite bits64_zero, app_nil_r, nth_repeat. destruct j; reflexivity.
  - split.
    + split; [constructor|]. split; [cbn; lia|reflexivity].
    + right. cbn [length]. rewrite Nat.mul_0_r. reflexivity.
Qed.

End Steps.
