(** What loadKeysFromFile reads. *)
From Coq Require Import Arith List NArith Bool String Lia Permutation.
From Verif Require Import Res Word Config Builder Surf Spec SpecApi SpecFilter SpecFixed Bench SpecBench IntKeys BenchFacts BenchApi Load SpecLoad.
Import ListNotations.
Open Scope nat_scope.

Lemma isspace_ok : forall b, isspace b = true <-> space b.
Proof.
  intros b. unfold isspace, space. rewrite orb_true_iff, andb_true_iff, !Nat.leb_le, Nat.eqb_eq. cbn [In]. lia.
Qed.
Lemma isspace_no : forall b, ~ space b -> isspace b = false.
Proof. intros b H. destruct (isspace b) eqn:E; [|reflexivity]. apply isspace_ok in E. contradiction. Qed.

Lemma skip_app : forall s l, Forall space s -> skip_spaces (s ++ l) = skip_spaces l.
Proof. intros s l H. induction H; [reflexivity|]. cbn [app skip_spaces]. apply isspace_ok in H. rewrite H. exact IHForall. Qed.
Lemma skip_word : forall w l, word w -> skip_spaces (w ++ l) = w ++ l.
Proof. intros [|b w] l [H1 H2]; [congruence|]. inversion H2; subst. cbn [app skip_spaces]. rewrite isspace_no by assumption. reflexivity. Qed.

Lemma take_app : forall p w r, Forall (fun b => p b = true) w -> match r with [] => True | b :: _ => p b = false end -> take_while p (w ++ r) = (w, r).
Proof.
  intros p w r H R. induction H; cbn [app take_while].
  - destruct r as [|b r]; [reflexivity|]. cbn [take_while]. rewrite R. reflexivity.
  - rewrite H, IHForall. reflexivity.
Qed.
Lemma word_chars : forall w, word w -> Forall (fun b => negb (isspace b) = true) w.
Proof. intros w [_ H]. eapply Forall_impl; [|exact H]. intros b B. cbn beta in B. rewrite isspace_no by exact B. reflexivity. Qed.

Lemma words_total : forall f, exists ends ws, words ends ws f.
Proof.
  induction f as [|b f (ends & ws & H)].
  - exists false, []. constructor. constructor.
  - destruct (isspace b) eqn:E.
    + apply isspace_ok in E. exists ends, ws. inversion H; subst.
      * constructor. constructor; assumption.
      * change (b :: s ++ w) with ((b :: s) ++ w). constructor; [constructor; assumption|assumption].
      * change (b :: s ++ w ++ b0 :: f0) with ((b :: s) ++ w ++ b0 :: f0). constructor; [constructor; assumption|assumption..].
    + assert (NS : ~ space b) by (intros X; apply isspace_ok in X; congruence).
      assert (W1 : word [b]) by (split; [discriminate|constructor; [exact NS|constructor]]).
      assert (CONS : forall w, word w -> word (b :: w)) by (intros w [A B]; split; [discriminate|constructor; assumption]).
      inversion H; subst.
      * destruct f as [|c f].
        -- exists true, [[b]]. apply (words_last [] [b]); [constructor|exact W1].
        -- exists false, [[b]]. inversion H0; subst. apply (words_more [] [b] c f false []); [constructor|exact W1|assumption|constructor; assumption].
      * destruct s as [|c s].
        -- exists true, [b :: w]. apply (words_last [] (b :: w)); [constructor|auto].
        -- exists true, [[b]; w]. inversion H0; subst. apply (words_more [] [b] c (s ++ w) true [w]); [constructor|exact W1|assumption|].
           change (c :: s ++ w) with ((c :: s) ++ w). constructor; assumption.
      * destruct s as [|c s].
        -- exists ends, ((b :: w) :: ws0). apply (words_more [] (b :: w) b0 f0 ends ws0); [constructor|auto|assumption|assumption].
        -- exists ends, ([b] :: w :: ws0). inversion H0; subst. apply (words_more [] [b] c (s ++ w ++ b0 :: f0) ends (w :: ws0)); [constructor|exact W1|assumption|].
           change (c :: s ++ w ++ b0 :: f0) with ((c :: s) ++ w ++ b0 :: f0). constructor; assumption.
Qed.

Lemma words_bytes : forall ends ws f, words ends ws f -> is_bytes f -> Forall is_bytes ws /\ Forall (fun w => w <> []) ws.
Proof.
  intros ends ws f H. induction H; intros B.
  - split; constructor.
  - apply Forall_app in B. split; (constructor; [|constructor]); [apply B|apply H0].
  - apply Forall_app in B. destruct B as [_ B]. apply Forall_app in B. destruct B as [B1 B2]. destruct (IHwords B2) as [I1 I2].
    split; constructor; try assumption. apply H0.
Qed.

(** ** strings *)
Lemma last_cons : forall A (l : list A) x d, last (x :: l) d = last l x.
Proof. induction l as [|y l IH]; intros x d; [reflexivity|]. change (last (x :: y :: l) d) with (last (y :: l) d). rewrite !IH. reflexivity. Qed.

Lemma limit_step : forall A m c (x : A) l, (c < m)%N -> x :: firstn (N.to_nat (m - (c + 1))) l = firstn (N.to_nat (m - c)) (x :: l).
Proof. intros A m c x l H. replace (N.to_nat (m - c)) with (S (N.to_nat (m - (c + 1)))) by lia. reflexivity. Qed.
Lemma limit_stop : forall A m c (l : list A), (m <= c)%N -> firstn (N.to_nat (m - c)) l = [].
Proof. intros A m c l H. replace (N.to_nat (m - c)) with 0 by lia. reflexivity. Qed.

Lemma strings_dead : forall fuel c l k, load_strings (S fuel) c (mkStream l false) k = Ok [].
Proof. intros. cbn [load_strings st_good]. rewrite andb_false_r. reflexivity. Qed.
Lemma strings_full : forall fuel c s k, (kNumEmailRecords <= c)%N -> load_strings (S fuel) c s k = Ok [].
Proof. intros. cbn [load_strings]. destruct (N.ltb_spec c kNumEmailRecords); [lia|reflexivity]. Qed.
Lemma strings_step : forall fuel c l k, (c < kNumEmailRecords)%N -> load_strings (S fuel) c (mkStream l true) k =
  (let '(s, k) := read_string (mkStream l true) k in l <- load_strings fuel (c + 1) s k ;; Ok (k :: l)).
Proof. intros. cbn [load_strings st_good]. destruct (N.ltb_spec c kNumEmailRecords); [reflexivity|lia]. Qed.

Lemma read_spaces : forall s k, Forall space s -> read_string (mkStream s true) k = (mkStream [] false, k).
Proof. intros. unfold read_string. cbn [st_good negb st_rest]. rewrite <- (app_nil_r s), skip_app by assumption. reflexivity. Qed.
Lemma read_word : forall s w r k, Forall space s -> word w -> match r with [] => True | b :: _ => space b end ->
  read_string (mkStream (s ++ w ++ r) true) k = (mkStream r (negb (at_end r)), w).
Proof.
  intros s w r k HS HW HR. unfold read_string. cbn [st_good negb st_rest]. rewrite skip_app, skip_word by assumption.
  destruct (at_end (w ++ r)) eqn:E; [destruct HW; destruct w; [congruence|discriminate]|].
  rewrite take_app; [reflexivity|apply word_chars; exact HW|]. destruct r; [exact I|]. apply isspace_ok in HR. rewrite HR. reflexivity.
Qed.

Lemma strings_ok : forall ends ws f, words ends ws f -> forall fuel c k, List.length f + 2 <= fuel ->
  load_strings fuel c (mkStream f true) k = Ok (firstn (N.to_nat (kNumEmailRecords - c)) (ws ++ if ends then [] else [last ws k])).
Proof.
  intros ends ws f H. induction H; intros fuel c k L; (destruct fuel as [|fuel]; [lia|]);
    (destruct (N.lt_ge_cases c kNumEmailRecords) as [C|C]; [|rewrite strings_full, limit_stop by assumption; reflexivity]);
    rewrite strings_step by assumption.
  - rewrite read_spaces by assumption. destruct fuel as [|fuel]; [lia|]. rewrite strings_dead. cbn [bind].
    cbn [app last]. rewrite <- limit_step, firstn_nil by assumption. reflexivity.
  - pose proof (read_word s w [] k H H0 I) as R. rewrite app_nil_r in R. rewrite R. destruct fuel as [|fuel]; [lia|].
    cbn [at_end negb]. rewrite strings_dead. cbn [bind app]. rewrite <- limit_step, firstn_nil by assumption. reflexivity.
  - rewrite (read_word s w (b :: f) k H H0 H1). cbn [at_end negb]. rewrite IHwords.
    2: { rewrite !app_length in L. destruct H0 as [H0 _]. destruct w; [congruence|]. cbn [List.length] in *. lia. }
    cbn [bind]. rewrite limit_step by assumption. rewrite last_cons. reflexivity.
Qed.

Lemma load_emails : forall f ends ws stale, words ends ws f ->
  loadKeysFromFile (Some f) false stale = Ok (firstn max_emails (ws ++ if ends then [] else [last ws []])).
Proof. intros f ends ws stale H. unfold loadKeysFromFile. cbn [st_rest]. rewrite (strings_ok _ _ _ H) by lia. rewrite N.sub_0_r. unfold max_emails, kNumEmailRecords. reflexivity. Qed.

(** ** integers *)
Lemma digit_ok : forall d, d <= 9 -> isdigit (48 + d) = true.
Proof. intros. unfold isdigit. apply andb_true_iff. rewrite !Nat.leb_le. lia. Qed.
Lemma decimal_digits : forall w v, decimal w v -> Forall (fun b => isdigit b = true) w /\ w <> [] /\ digits_value w = v.
Proof.
  induction 1.
  - split; [constructor; [apply digit_ok; assumption|constructor]|]. split; [discriminate|]. unfold digits_value, fold_left. replace (48 + d - 48) with d by lia. lia.
  - destruct IHdecimal as (I1 & I2 & I3). split; [apply Forall_app; split; [assumption|constructor; [apply digit_ok; assumption|constructor]]|].
    split; [destruct w; discriminate|]. unfold digits_value in *. rewrite fold_left_app, I3. cbn [fold_left]. replace (48 + d - 48) with d by lia. reflexivity.
Qed.

Lemma ints_dead : forall fuel c l k, load_ints (S fuel) c (mkStream l false) k = Ok [].
Proof. intros. cbn [load_ints st_good]. rewrite andb_false_r. reflexivity. Qed.
Lemma ints_full : forall fuel c s k, (kNumIntRecords <= c)%N -> load_ints (S fuel) c s k = Ok [].
Proof. intros. cbn [load_ints]. destruct (N.ltb_spec c kNumIntRecords); [lia|reflexivity]. Qed.
Lemma ints_step : forall fuel c l k, (c < kNumIntRecords)%N -> load_ints (S fuel) c (mkStream l true) k =
  (let '(s, v) := read_uint64 (mkStream l true) k in l <- load_ints fuel (c + 1) s k ;; Ok (uint64ToString v :: l)).
Proof. intros. cbn [load_ints st_good]. destruct (N.ltb_spec c kNumIntRecords); [reflexivity|lia]. Qed.

Lemma readi_spaces : forall s k, Forall space s -> read_uint64 (mkStream s true) k = (mkStream [] false, k).
Proof. intros. unfold read_uint64. cbn [st_good negb st_rest]. rewrite <- (app_nil_r s), skip_app by assumption. reflexivity. Qed.
Lemma readi_word : forall s w v r k, Forall space s -> decimal w v -> match r with [] => True | b :: _ => isdigit b = false end ->
  read_uint64 (mkStream (s ++ w ++ r) true) k =
  if (two64 <=? v)%N then (mkStream r false, (two64 - 1)%N) else (mkStream r (negb (at_end r)), v).
Proof.
  intros s w v r k HS HD HR. destruct (decimal_digits w v HD) as (D1 & D2 & D3).
  assert (W : word w).
  { split; [exact D2|]. eapply Forall_impl; [|exact D1]. intros b B X. unfold isdigit in B. apply andb_true_iff in B. rewrite !Nat.leb_le in B.
    unfold space in X. cbn [In] in X. lia. }
  unfold read_uint64. cbn [st_good negb st_rest]. rewrite skip_app, skip_word by assumption.
  assert (E : at_end (w ++ r) = false) by (destruct w; [congruence|reflexivity]). rewrite E.
  assert (X : (match w ++ r with b :: t => if b =? 45 then (true, t) else if b =? 43 then (false, t) else (false, w ++ r) | [] => (false, w ++ r) end) = (false, w ++ r)).
  { destruct w as [|b w]; [congruence|]. inversion D1; subst. unfold isdigit in H1. apply andb_true_iff in H1. rewrite !Nat.leb_le in H1. cbn [app].
    destruct (Nat.eqb_spec b 45); [lia|]. destruct (Nat.eqb_spec b 43); [lia|]. reflexivity. }
  rewrite X. rewrite take_app by assumption. rewrite D3. destruct w; [congruence|]. cbn [at_end]. reflexivity.
Qed.
Lemma space_digit : forall b, space b -> isdigit b = false.
Proof. intros b H. unfold space in H. cbn [In] in H. unfold isdigit. apply andb_false_iff. rewrite !Nat.leb_gt. lia. Qed.

Lemma ints_ok : forall ends ws f, words ends ws f -> forall vs, Forall2 (fun w v => decimal w v /\ (v < 2 ^ 64)%N) ws vs ->
  forall fuel c stale, List.length f + 2 <= fuel ->
  load_ints fuel c (mkStream f true) stale = Ok (firstn (N.to_nat (kNumIntRecords - c)) (int_keys (vs ++ if ends then [] else [stale]))).
Proof.
  intros ends ws f H. induction H; intros vs V fuel c k L; (destruct fuel as [|fuel]; [lia|]);
    (destruct (N.lt_ge_cases c kNumIntRecords) as [C|C]; [|rewrite ints_full, limit_stop by assumption; reflexivity]);
    rewrite ints_step by assumption.
  - inversion V; subst. rewrite readi_spaces by assumption. destruct fuel as [|fuel]; [lia|]. rewrite ints_dead. cbn [bind].
    cbn [app int_keys map]. rewrite <- limit_step, firstn_nil by assumption. reflexivity.
  - inversion V as [|? v ? vs' [D B] V']; subst. inversion V'; subst.
    pose proof (readi_word s w v [] k H D I) as R. rewrite app_nil_r in R. rewrite R. destruct fuel as [|fuel]; [lia|].
    destruct (N.leb_spec two64 v) as [B2|B2]; [change two64 with (2 ^ 64)%N in B2; lia|].
    cbn [at_end negb]. rewrite ints_dead. cbn [bind app int_keys map]. rewrite <- limit_step, firstn_nil by assumption. reflexivity.
  - inversion V as [|? v ? vs' [D B] V']; subst. rewrite (readi_word s w v (b :: f) k H D (space_digit _ H1)).
    destruct (N.leb_spec two64 v) as [B2|B2]; [change two64 with (2 ^ 64)%N in B2; lia|].
    cbn [at_end negb]. rewrite (IHwords vs' V').
    2: { rewrite !app_length in L. destruct H0 as [H0 _]. destruct w; [congruence|]. cbn [List.length] in *. lia. }
    cbn [bind app int_keys map]. rewrite limit_step by assumption. reflexivity.
Qed.

Lemma load_integers : forall f ends ws vs stale, words ends ws f -> Forall2 (fun w v => decimal w v /\ (v < 2 ^ 64)%N) ws vs ->
  loadKeysFromFile (Some f) true stale = Ok (int_keys (firstn max_ints (vs ++ if ends then [] else [stale]))).
Proof.
  intros f ends ws vs stale H V. unfold loadKeysFromFile. cbn [st_rest]. rewrite (ints_ok _ _ _ H _ V) by lia. rewrite N.sub_0_r.
  unfold int_keys. rewrite firstn_map. unfold max_ints, kNumIntRecords. reflexivity.
Qed.

(** ** integers in any file *)
Lemma isdigit_ok : forall b, isdigit b = true <-> digit b.
Proof. intros b. unfold isdigit, digit. rewrite andb_true_iff, !Nat.leb_le. reflexivity. Qed.
Lemma isdigit_no : forall b, ~ digit b -> isdigit b = false.
Proof. intros b H. destruct (isdigit b) eqn:E; [|reflexivity]. apply isdigit_ok in E. contradiction. Qed.
Lemma no_digit_ok : forall f, no_digit f -> match f with [] => True | b :: _ => isdigit b = false end.
Proof. intros [|b f] H; [exact I|]. apply isdigit_no. exact H. Qed.

Lemma skip_head : forall b l, ~ space b -> skip_spaces (b :: l) = b :: l.
Proof. intros b l H. cbn [skip_spaces]. rewrite isspace_no by exact H. reflexivity. Qed.

Lemma readi_signed : forall s g h w n r k, Forall space s -> sign g h -> decimal w n -> no_digit r ->
  read_uint64 (mkStream (s ++ g ++ w ++ r) true) k =
  if (two64 <=? n)%N then (mkStream r false, (two64 - 1)%N) else (mkStream r (negb (at_end r)), h n).
Proof.
  intros s g h w n r k HS HG HD HR. apply no_digit_ok in HR. destruct HG.
  - cbn [app]. apply readi_word; assumption.
  - destruct (decimal_digits w n HD) as (D1 & D2 & D3). unfold read_uint64. cbn [st_good negb st_rest]. rewrite skip_app by exact HS. cbn [app].
    rewrite skip_head by (intros X; unfold space in X; cbn [In] in X; lia). cbn [at_end]. change (43 =? 45) with false. change (43 =? 43) with true. cbv iota.
    rewrite take_app by assumption. rewrite D3. destruct w; [congruence|]. cbn [at_end]. reflexivity.
  - destruct (decimal_digits w n HD) as (D1 & D2 & D3). unfold read_uint64. cbn [st_good negb st_rest]. rewrite skip_app by exact HS. cbn [app].
    rewrite skip_head by (intros X; unfold space in X; cbn [In] in X; lia). cbn [at_end]. change (45 =? 45) with true. cbv iota.
    rewrite take_app by assumption. rewrite D3. destruct w; [congruence|]. cbn [at_end]. destruct (N.leb_spec two64 n) as [B|B]; reflexivity.
Qed.
Lemma readi_lone : forall s g h r k, Forall space s -> sign g h -> g <> [] -> no_digit r -> read_uint64 (mkStream (s ++ g ++ r) true) k = (mkStream r false, 0%N).
Proof.
  intros s g h r k HS HG NE HR. apply no_digit_ok in HR. assert (T : take_while isdigit r = ([], r)).
  { destruct r as [|b r]; [reflexivity|]. cbn [take_while]. rewrite HR. reflexivity. }
  destruct HG; [congruence| |]; unfold read_uint64; cbn [st_good negb st_rest]; rewrite skip_app by exact HS; cbn [app];
    rewrite skip_head by (intros X; unfold space in X; cbn [In] in X; lia); cbn [at_end].
  - change (43 =? 45) with false. change (43 =? 43) with true. cbv iota. rewrite T. reflexivity.
  - change (45 =? 45) with true. cbv iota. rewrite T. reflexivity.
Qed.
Lemma readi_junk : forall s b r k, Forall space s -> ~ space b -> ~ digit b -> b <> 43 -> b <> 45 -> read_uint64 (mkStream (s ++ b :: r) true) k = (mkStream (b :: r) false, 0%N).
Proof.
  intros s b r k HS F1 F2 F3 F4. unfold read_uint64. cbn [st_good negb st_rest]. rewrite skip_app, skip_head by assumption.
  cbn [at_end]. destruct (Nat.eqb_spec b 45); [contradiction|]. destruct (Nat.eqb_spec b 43); [contradiction|]. cbn [take_while]. rewrite isdigit_no by exact F2. reflexivity.
Qed.

Lemma sign_len : forall g h, sign g h -> List.length g <= 1.
Proof. intros g h H. destruct H; cbn [List.length]; lia. Qed.

Lemma numbers_ok : forall x f vs, numbers x f vs -> forall fuel c, List.length f + 2 <= fuel ->
  load_ints fuel c (mkStream f true) x = Ok (firstn (N.to_nat (kNumIntRecords - c)) (int_keys vs)).
Proof.
  intros x f vs H. induction H; intros fuel c L; (destruct fuel as [|fuel]; [lia|]);
    (destruct (N.lt_ge_cases c kNumIntRecords) as [C|C]; [|rewrite ints_full, limit_stop by assumption; reflexivity]);
    rewrite ints_step by assumption.
  - rewrite readi_spaces by assumption. destruct fuel as [|fuel]; [lia|]. rewrite ints_dead. cbn [bind int_keys map]. rewrite <- limit_step, firstn_nil by assumption. reflexivity.
  - pose proof (readi_signed s g h w n [] x H H0 H1 I) as R. rewrite app_nil_r in R. rewrite R. destruct fuel as [|fuel]; [lia|].
    destruct (N.leb_spec two64 n) as [B2|B2]; [change two64 with (2 ^ 64)%N in B2; lia|].
    cbn [at_end negb]. rewrite ints_dead. cbn [bind int_keys map]. rewrite <- limit_step, firstn_nil by assumption. reflexivity.
  - rewrite (readi_signed s g h w n (b :: f) x H H0 H1 H3).
    destruct (N.leb_spec two64 n) as [B2|B2]; [change two64 with (2 ^ 64)%N in B2; lia|].
    cbn [at_end negb]. rewrite IHnumbers.
    2: { rewrite !app_length in L. destruct (decimal_digits _ _ H1) as (_ & D & _). destruct w; [congruence|]. cbn [List.length] in *. lia. }
    cbn [bind int_keys map]. rewrite limit_step by assumption. reflexivity.
  - rewrite (readi_signed s g h w n f x H H0 H1 H3). destruct fuel as [|fuel]; [lia|].
    destruct (N.leb_spec two64 n) as [B2|B2]; [|change two64 with (2 ^ 64)%N in B2; lia].
    rewrite ints_dead. cbn [bind int_keys map]. rewrite <- limit_step, firstn_nil by assumption. reflexivity.
  - rewrite (readi_lone s g h f x) by assumption. destruct fuel as [|fuel]; [lia|]. rewrite ints_dead. cbn [bind int_keys map]. rewrite <- limit_step, firstn_nil by assumption. reflexivity.
  - rewrite readi_junk by assumption. destruct fuel as [|fuel]; [lia|]. rewrite ints_dead. cbn [bind int_keys map]. rewrite <- limit_step, firstn_nil by assumption. reflexivity.
Qed.
Lemma load_numbers : forall f x vs, numbers x f vs -> loadKeysFromFile (Some f) true x = Ok (int_keys (firstn max_ints vs)).
Proof.
  intros f x vs H. unfold loadKeysFromFile. cbn [st_rest]. rewrite (numbers_ok _ _ _ H) by lia. rewrite N.sub_0_r.
  unfold int_keys. rewrite firstn_map. unfold max_ints, kNumIntRecords. reflexivity.
Qed.

Lemma spaces_split : forall f, exists s r, f = s ++ r /\ Forall space s /\ match r with [] => True | b :: _ => ~ space b end.
Proof.
  induction f as [|b f (s & r & -> & H1 & H2)]; [exists [], []; repeat constructor|]. destruct (isspace b) eqn:E.
  - apply isspace_ok in E. exists (b :: s), r. repeat split; [constructor; assumption|exact H2].
  - exists [], (b :: s ++ r). repeat split; [constructor|]. intros X. apply isspace_ok in X. congruence.
Qed.
Lemma digits_decimal : forall w, Forall digit w -> w <> [] -> exists n, decimal w n.
Proof.
  intros w. induction w as [|b w IH] using rev_ind; intros F NE; [congruence|]. apply Forall_app in F. destruct F as [F1 F2]. inversion F2; subst.
  assert (B : b = 48 + (b - 48)) by (unfold digit in H1; lia). assert (B9 : b - 48 <= 9) by (unfold digit in H1; lia). rewrite B. destruct w as [|c w].
  - exists (N.of_nat (b - 48)). apply decimal_one. exact B9.
  - destruct IH as (n & D); [exact F1|discriminate|]. exists (10 * n + N.of_nat (b - 48))%N. apply decimal_more; assumption.
Qed.
Lemma digits_split : forall f, exists w r, f = w ++ r /\ Forall digit w /\ no_digit r.
Proof.
  induction f as [|b f (w & r & -> & H1 & H2)]; [exists [], []; repeat constructor|]. destruct (isdigit b) eqn:E.
  - apply isdigit_ok in E. exists (b :: w), r. repeat split; [constructor; assumption|exact H2].
  - exists [], (b :: w ++ r). repeat split; [constructor|]. intros X. apply isdigit_ok in X. congruence.
Qed.
Lemma numbers_total : forall x f, exists vs, numbers x f vs.
Proof.
  intros x f. remember (List.length f) as m eqn:M. revert f M. induction m as [m IH] using lt_wf_ind. intros f ->.
  destruct (spaces_split f) as (s & r & -> & HS & HR). destruct r as [|b r].
  { exists [x]. rewrite app_nil_r. constructor. exact HS. }
  assert (NUM : forall g h t, sign g h -> b :: r = g ++ t -> g <> [] \/ (exists c t', t = c :: t' /\ digit c) -> exists vs, numbers x (s ++ b :: r) vs).
  { intros g h t HG E NE. destruct (digits_split t) as (w & u & -> & W1 & W2). rewrite E. destruct w as [|c w].
    - exists [0%N]. apply (numbers_lone_sign x s g h u HS HG); [|exact W2]. destruct NE as [NE|(c & t' & E1 & DC)]; [exact NE|].
      cbn [app] in E1. rewrite E1 in W2. destruct (W2 DC).
    - destruct (digits_decimal (c :: w) W1 ltac:(discriminate)) as (n & D). destruct (N.lt_ge_cases n (2 ^ 64)) as [B|B].
      2: { eexists. apply (numbers_large x s g h (c :: w) n u HS HG D B W2). }
      destruct u as [|b' u].
      + exists [h n]. rewrite app_nil_r. apply (numbers_last x s g h (c :: w) n); assumption.
      + destruct (IH (List.length (b' :: u))) with (f := b' :: u) as (vs & V); [|reflexivity|].
        * rewrite E, !app_length. cbn [List.length]. lia.
        * exists (h n :: vs). apply (numbers_more x s g h (c :: w) n b' u vs HS HG D B W2 V). }
  destruct (Nat.eq_dec b 43) as [->|P]; [apply (NUM [43] _ r sign_plus eq_refl); left; discriminate|].
  destruct (Nat.eq_dec b 45) as [->|Q]; [apply (NUM [45] _ r sign_minus eq_refl); left; discriminate|].
  destruct (isdigit b) eqn:D.
  - apply isdigit_ok in D. apply (NUM [] _ (b :: r) sign_none eq_refl). right. eauto.
  - exists [0%N]. apply numbers_junk; auto. intros X. apply isdigit_ok in X. congruence.
Qed.

(** ** the whole program *)
Lemma workload_emails : forall e sz shuffle a lf tf s1 s2 e1 e2 lw tw, accepted a -> a_key a = str "email" ->
  words e1 lw lf -> words e2 tw tf ->
  workload e sz shuffle a (Some lf) (Some tf) s1 s2 =
  main e sz shuffle a (firstn max_emails (lw ++ if e1 then [] else [last lw []])) (firstn max_emails (tw ++ if e2 then [] else [last tw []])).
Proof.
  intros e sz shuffle a lf tf s1 s2 e1 e2 lw tw A K H1 H2. unfold workload. apply check_accepted in A. rewrite A. cbn [negb].
  assert (is (a_key a) "email" = true) as -> by (apply is_ok; exact K). cbn [negb].
  rewrite (load_emails _ _ _ _ H1), (load_emails _ _ _ _ H2). reflexivity.
Qed.
Lemma workload_ints : forall e sz shuffle a lf tf s1 s2 lv tv, accepted a -> a_key a <> str "email" -> numbers s1 lf lv -> numbers s2 tf tv ->
  workload e sz shuffle a (Some lf) (Some tf) s1 s2 = main e sz shuffle a (int_keys (firstn max_ints lv)) (int_keys (firstn max_ints tv)).
Proof.
  intros e sz shuffle a lf tf s1 s2 lv tv A K V1 V2. unfold workload. apply check_accepted in A. rewrite A. cbn [negb].
  assert (is (a_key a) "email" = false) as -> by (destruct (is (a_key a) "email") eqn:E; [apply is_ok in E; contradiction|reflexivity]). cbn [negb].
  rewrite (load_numbers _ _ _ V1), (load_numbers _ _ _ V2). reflexivity.
Qed.
Lemma int_report : forall e sz shuffle a lf tf s1 s2 lv tv keys,
  machine e -> accepted a -> a_query a = str "point" -> a_key a <> str "email" -> (a_filter a = str "SuRFMixed" -> a_len a <= 32) ->
  numbers s1 lf lv -> numbers s2 tf tv ->
  let load := int_keys (firstn max_ints lv) in
  let txn := int_keys (firstn max_ints tv) in
  Permutation (shuffle load) load -> taken (shuffle load) (a_percent a) keys ->
  a_filter a = str "Bloom" \/ (keys <> [] /\ ~ lone_ff keys /\ small keys) ->
  exists flt r, createFilter e (a_filter a) (a_len a) keys = Ok flt /\
    workload e sz shuffle a (Some lf) (Some tf) s1 s2 = Ok (Some r) /\
    tally (fun q => In q keys) txn (r_true_positives r) /\
    tally (fun q => lookup e flt q = Ok true) txn (r_positives r).
Proof.
  intros e sz shuffle a lf tf s1 s2 lv tv keys HM A Q K MX W1 W2 load txn SH TK BL.
  assert (FB : forall l, Forall is_bytes (int_keys l)).
  { intros l. apply Forall_forall. intros k H. apply in_map_iff in H. destruct H as (w & <- & _). apply u64_shape. }
  assert (FN : forall l, Forall (fun k => k <> []) (int_keys l)).
  { intros l. apply Forall_forall. intros k H. apply in_map_iff in H. destruct H as (w & <- & _). destruct (u64_shape w) as [L _]. intros X. rewrite X in L. discriminate. }
  destruct (point_run e sz shuffle a load txn keys HM (proj2 (check_accepted a) A) Q MX SH (FB _) (FN _) (FB _) TK BL) as (flt & r & fp & tn & C & M & _ & X1 & X2 & _).
  exists flt, r. split; [exact C|]. split; [|split; [exact X1|exact X2]].
  etransitivity; [exact (workload_ints e sz shuffle a lf tf s1 s2 lv tv A K W1 W2)|exact M].
Qed.
Lemma no_file : forall b stale, loadKeysFromFile None b stale = Ok [].
Proof. intros [|] stale; unfold loadKeysFromFile; cbn [st_rest]; [apply ints_dead|apply strings_dead]. Qed.

Lemma email_report : forall e sz shuffle a lf tf s1 s2 e1 e2 lw tw keys,
  machine e -> accepted a -> a_query a = str "point" -> a_key a = str "email" -> (a_filter a = str "SuRFMixed" -> a_len a <= 32) ->
  is_bytes lf -> is_bytes tf -> words e1 lw lf -> words e2 tw tf -> lw <> [] ->
  let load := firstn max_emails (lw ++ if e1 then [] else [last lw []]) in
  let txn := firstn max_emails (tw ++ if e2 then [] else [last tw []]) in
  Permutation (shuffle load) load -> taken (shuffle load) (a_percent a) keys ->
  a_filter a = str "Bloom" \/ (keys <> [] /\ ~ lone_ff keys /\ small keys) ->
  exists flt r, createFilter e (a_filter a) (a_len a) keys = Ok flt /\
    workload e sz shuffle a (Some lf) (Some tf) s1 s2 = Ok (Some r) /\
    tally (fun q => In q keys) txn (r_true_positives r) /\
    tally (fun q => lookup e flt q = Ok true) txn (r_positives r).
Proof.
  intros e sz shuffle a lf tf s1 s2 e1 e2 lw tw keys HM A Q K MX B1 B2 W1 W2 NE load txn SH TK BL.
  destruct (words_bytes _ _ _ W1 B1) as [L1 L2]. destruct (words_bytes _ _ _ W2 B2) as [T1 _].
  assert (LAST : forall (P : bytes -> Prop) ws, Forall P ws -> forall d, (ws = [] -> P d) -> P (last ws d)).
  { intros P ws F d D. destruct ws as [|x ws]; [apply D; reflexivity|]. rewrite last_cons. rewrite Forall_forall in F.
    assert (forall (l : list bytes) y, In (last l y) (y :: l)) as X.
    { induction l as [|z l IH]; intros y; [left; reflexivity|]. rewrite last_cons. right. apply IH. }
    apply F. apply X. }
  assert (FN : forall (P : bytes -> Prop) n l, Forall P l -> Forall P (firstn n l)).
  { intros P n l F. apply Forall_forall. intros x X. rewrite Forall_forall in F. apply F. eapply firstn_in, X. }
  destruct (point_run e sz shuffle a load txn keys) as (flt & r & fp & tn & C & M & _ & X1 & X2 & _); auto.
  - apply check_accepted. exact A.
  - apply FN, Forall_app. split; [exact L1|]. destruct e1; [constructor|]. constructor; [|constructor]. apply LAST; [exact L1|]. intros _. constructor.
  - apply FN, Forall_app. split; [exact L2|]. destruct e1; [constructor|]. constructor; [|constructor]. apply LAST; [exact L2|]. intros X. destruct (NE X).
  - apply FN, Forall_app. split; [exact T1|]. destruct e2; [constructor|]. constructor; [|constructor]. apply LAST; [exact T1|]. intros _. constructor.
  - exists flt, r. split; [exact C|]. split; [|split; [exact X1|exact X2]].
    etransitivity; [exact (workload_emails e sz shuffle a lf tf s1 s2 e1 e2 lw tw A K W1 W2)|exact M].
Qed.
