(** Filters of a key list and of its parts: C63.  Only property theorems,
    examples and counterexamples. *)
From Coq Require Import Arith List NArith Bool Lia.
From Verif Require Import Res Config Builder Surf Spec SpecApi SpecFilter SpecIter SpecRange SpecExact SpecMerge
  PointFacts MergeFacts Samples SamplesIter SamplesRange SamplesCount.
Import ListNotations.

(** * C63 *)
(** A string that more keys make acceptable is taken for one of the new keys. *)
Theorem C63_grow : forall e c keys a b f fa q,
  machine e -> settings c -> good_keys keys -> ~ lone_ff keys -> filter_of e c keys f -> padded e c keys f -> parts keys a b ->
  good_keys a -> ~ lone_ff a -> filter_of e c a fa -> is_bytes q -> cf_type c <> kNone \/ ~ In 0 q ->
  ~ keeps_real c \/ cf_rlen c <= 8 \/ full_suffixes c keys q ->
  lookupKey e f q = Ok true -> lookupKey e fa q = Ok true \/ exists k, In k b /\ ~ In k a /\ matches c keys k q.
Proof. exact merge_grow. Qed.
Print Assumptions C63_grow.

(** What the filter of all keys accepts, the filter of one of the parts accepts. *)
Theorem C63_point : forall e c keys a b f fa fb q,
  machine e -> settings c -> good_keys keys -> ~ lone_ff keys -> filter_of e c keys f -> padded e c keys f -> parts keys a b ->
  good_keys a -> ~ lone_ff a -> filter_of e c a fa -> is_bytes q -> cf_type c <> kNone \/ ~ In 0 q ->
  ~ keeps_real c \/ cf_rlen c <= 8 \/ full_suffixes c keys q ->
  good_keys b -> ~ lone_ff b -> filter_of e c b fb ->
  lookupKey e f q = Ok true -> lookupKey e fa q = Ok true \/ lookupKey e fb q = Ok true.
Proof. exact merge_point. Qed.
Print Assumptions C63_point.

(** The same for ranges, without real suffixes. *)
Theorem C63_range : forall e c keys a b f fa fb,
  machine e -> settings c -> ~ keeps_real c -> good_keys keys -> ~ lone_ff keys -> filter_of e c keys f -> parts keys a b ->
  good_keys a -> ~ lone_ff a -> filter_of e c a fa -> good_keys b -> ~ lone_ff b -> filter_of e c b fb ->
  forall it ita itb l li r ri, member_iter e f it -> member_iter e fa ita -> member_iter e fb itb -> is_bytes l -> is_bytes r ->
  ~ stray e keys (getSparseStartLevel f) l -> ~ stray e a (getSparseStartLevel fa) l -> ~ stray e b (getSparseStartLevel fb) l ->
  no_clash keys r -> (li = false -> ~ inner keys l) -> (forall k, In k keys -> inner keys k -> length k < length r -> kle k r) ->
  range_after e f it l li r ri = Ok true -> range_after e fa ita l li r ri = Ok true \/ range_after e fb itb l li r ri = Ok true.
Proof. exact merge_range. Qed.
Print Assumptions C63_range.

(** Parts "a", "b1", "cat" and "ab", "b2", "cup".  All filters accept "cab", and
    "cz" is accepted by those of the parts only; ["b3", "cb"] is not empty, and
    ["cb", "ct"] is not for the parts only. *)
Definition part_a : list bytes := [[97]; [98; 49]; [99; 97; 116]].
Definition part_b : list bytes := [[97; 98]; [98; 50]; [99; 117; 112]].
Definition both_ab : list bytes := [[97]; [97; 98]; [98; 49]; [98; 50]; [99; 97; 116]; [99; 117; 112]].
Lemma both_parts : parts both_ab part_a part_b.
Proof. intros k. unfold both_ab, part_a, part_b. cbn [In]. tauto. Qed.
Lemma both_clash : forall r, no_clash both_ab r.
Proof.
  intros r k d K (D1 & D2 & D3). destruct (le_lt_dec d 10) as [L|L]; [lia|exfalso].
  destruct (D3 10) as (k' & K' & NE & EQ); [lia|]. apply NE.
  assert (S : forall x, In x both_ab -> firstn 10 x = x) by (intros x [<-|[<-|[<-|[<-|[<-|[<-|[]]]]]]]; reflexivity).
  rewrite (S k K), (S k' K') in EQ. exact EQ.
Qed.
Example C63_ex : exists f fa fb, create e0 c_none both_ab = Ok f /\ create e0 c_none part_a = Ok fa /\ create e0 c_none part_b = Ok fb /\
  settings c_none /\ ~ keeps_real c_none /\ good_keys both_ab /\ good_keys part_a /\ good_keys part_b /\
  ~ lone_ff both_ab /\ ~ lone_ff part_a /\ ~ lone_ff part_b /\ small both_ab /\ parts both_ab part_a part_b /\
  answer e0 c_none both_ab [99; 97; 98] = Ok true /\ answer e0 c_none part_a [99; 97; 98] = Ok true /\ answer e0 c_none part_b [99; 97; 98] = Ok true /\
  answer e0 c_none both_ab [99; 122] = Ok false /\ answer e0 c_none part_a [99; 122] = Ok true /\ answer e0 c_none part_b [99; 122] = Ok true /\
  (forall q, In q [[98; 51]; [99; 98]] -> ~ stray e0 both_ab (getSparseStartLevel f) q /\
     ~ stray e0 part_a (getSparseStartLevel fa) q /\ ~ stray e0 part_b (getSparseStartLevel fb) q) /\
  (forall r, no_clash both_ab r) /\ (forall k, In k both_ab -> inner both_ab k -> kle k [99; 98]) /\
  ranged e0 c_none both_ab [98; 51] true [99; 98] true = Ok true /\ ranged e0 c_none part_a [98; 51] true [99; 98] true = Ok true /\
  ranged e0 c_none both_ab [99; 98] true [99; 116] true = Ok false /\ ranged e0 c_none part_a [99; 98] true [99; 116] true = Ok true.
Proof.
  assert (G : good_keys both_ab) by (apply good_keysb_ok; vm_compute; reflexivity).
  destruct (made e0 c_none both_ab 1 ltac:(vm_compute; reflexivity)) as (f & E & H).
  destruct (made e0 c_none part_a 1 ltac:(vm_compute; reflexivity)) as (fa & Ea & Ha).
  destruct (made e0 c_none part_b 1 ltac:(vm_compute; reflexivity)) as (fb & Eb & Hb).
  assert (NF : forall a b l, a <> b -> ~ lone_ff (a :: b :: l)).
  { intros a b l N (k & _ & A). apply N. rewrite (A a), (A b) by (cbn; auto). reflexivity. }
  exists f, fa, fb. split; [exact E|]. split; [exact Ea|]. split; [exact Eb|]. split; [exact c_none_settings|]. split; [intros [X|X]; discriminate X|].
  split; [exact G|]. split; [apply good_keysb_ok; vm_compute; reflexivity|]. split; [apply good_keysb_ok; vm_compute; reflexivity|].
  split; [apply NF; discriminate|]. split; [apply NF; discriminate|]. split; [apply NF; discriminate|].
  split; [apply (small_len _ G); vm_compute; discriminate|]. split; [exact both_parts|].
  split; [vm_compute; reflexivity|]. split; [vm_compute; reflexivity|]. split; [vm_compute; reflexivity|].
  split; [vm_compute; reflexivity|]. split; [vm_compute; reflexivity|]. split; [vm_compute; reflexivity|].
  split. { rewrite H, Ha, Hb. intros q [<-|[<-|[]]]; repeat split; apply (no_stray_check _ c_none); reflexivity. }
  split; [exact both_clash|]. split; [|repeat split; vm_compute; reflexivity].
  intros k [<-|[<-|[<-|[<-|[<-|[<-|[]]]]]]] I; try (left; apply kltb_ok; reflexivity).
  destruct I as (k' & [<-|[<-|[<-|[<-|[<-|[<-|[]]]]]]] & N & P); try discriminate P. destruct N. reflexivity.
Qed.

(** With 16 real bits "cat" keeps "at" among the keys "cat", "d", and zero, which
    admits everything, if "cxyz" is added: then "cay" is accepted, which neither
    of the filters of "cat", "d" and of "cxyz" accepts. *)
Theorem C63_real_refuted : exists keys a b q, good_keys keys /\ good_keys a /\ good_keys b /\ parts keys a b /\
  answer e0 c_real16 keys q = Ok true /\ answer e0 c_real16 a q = Ok false /\ answer e0 c_real16 b q = Ok false.
Proof.
  exists [[99; 97; 116]; [99; 120; 121; 122]; [100]], [[99; 97; 116]; [100]], [[99; 120; 121; 122]], [99; 97; 121].
  split; [apply good_keysb_ok; vm_compute; reflexivity|]. split; [apply good_keysb_ok; vm_compute; reflexivity|].
  split; [apply good_keysb_ok; vm_compute; reflexivity|]. split; [intros k; cbn [In]; tauto|]. repeat split; vm_compute; reflexivity.
Qed.
Print Assumptions C63_real_refuted.

(** In a trie without dense levels "b", a prefix of "bc", is taken to be below
    "az"; not so in the filters of "b" and of "bc". *)
Theorem C63_range_refuted : exists keys a b l r, good_keys keys /\ good_keys a /\ good_keys b /\ parts keys a b /\ klt l r /\
  ranged e0 c_nodense keys l true r true = Ok true /\ ranged e0 c_nodense a l true r true = Ok false /\ ranged e0 c_nodense b l true r true = Ok false.
Proof.
  exists [[98]; [98; 99]], [[98]], [[98; 99]], [97; 97], [97; 122].
  split; [apply good_keysb_ok; vm_compute; reflexivity|]. split; [apply good_keysb_ok; vm_compute; reflexivity|].
  split; [apply good_keysb_ok; vm_compute; reflexivity|]. split; [intros k; cbn [In]; tauto|]. split; [apply kltb_ok; reflexivity|].
  repeat split; vm_compute; reflexivity.
Qed.
Print Assumptions C63_range_refuted.
