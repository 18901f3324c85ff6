(* C01 - C07: exclusion sets.  The observer of a set s is operator[], i.e.
   [es_index s i] for a uint32_t i; [reach s] says that s was obtained through
   the public API (see ExclusionSetMore.reach).  Ids are below 2^32 - 64, the
   block of INVALID_OFFSET. *)
From Coq Require Import Sorted.
From Verif Require Import Base ExclusionSetModel ExclusionSetProofs ExclusionSetMore ExclusionSetFacts.
Local Open Scope N_scope.

(* the id can be stored in an exclusion set *)
Definition valid_id (i : N) : Prop := i < 2 ^ 32 - 64.
(* the id is a uint32_t *)
Definition u32 (i : N) : Prop := i < 2 ^ 32.

(* C01 *)
Theorem C01_make_contains_exactly : forall id ids,
  StronglySorted N.le ids -> (forall i, In i ids -> valid_id i) ->
  exists s, make_es id ids = Ok s /\ es_id s = id /\
    (forall i, u32 i -> (es_index s i = true <-> In i ids)) /\
    StronglySorted N.lt (es_expanded s) /\
    (forall i, In i (es_expanded s) <-> In i ids) /\
    (forall distinct, NoDup distinct -> (forall i, In i distinct <-> In i ids) ->
       es_count s = N.of_nat (length distinct)).
Proof. exact make_contains_exactly. Qed.
Print Assumptions C01_make_contains_exactly.

Example C01_satisfiable :
  exists ids, ids = [3; 63; 64; 64; 200; 4000000000] /\ StronglySorted N.le ids /\
    (forall i, In i ids -> valid_id i) /\
    is_sortedb ids = true.
Proof.
  eexists. split; [reflexivity|]. split.
  - repeat (constructor; [|repeat (constructor; try discriminate)]). constructor.
  - split; [|reflexivity]. intros i H. unfold valid_id. cbn in H.
    repeat (destruct H as [<-|H]; [reflexivity|]). destruct H.
Qed.

(* C02: union; [same] is the aliased call s |= s.  The right operand is not modified
   (the model passes it by value; exclusion_set.cc:233-264 only reads it). *)
Theorem C02_union : forall a b, reach a -> reach b ->
  (exists c, es_union a b = Ok c /\ reach c /\
     forall i, u32 i -> es_index c i = es_index a i || es_index b i) /\
  (exists c, es_or_assign false a b = Ok c /\ reach c /\
     forall i, u32 i -> es_index c i = es_index a i || es_index b i) /\
  es_or_assign true a a = Ok a.
Proof. exact union_spec. Qed.
Print Assumptions C02_union.

(* C03 *)
Theorem C03_difference : forall a b, reach a -> reach b ->
  (exists c, es_minus a b = Ok c /\ reach c /\ es_id c = es_id a /\
     forall i, u32 i -> es_index c i = es_index a i && negb (es_index b i)) /\
  (exists c, es_sub_assign false a b = Ok c /\ reach c /\ es_id c = es_id a /\
     forall i, u32 i -> es_index c i = es_index a i && negb (es_index b i)) /\
  (exists c, es_sub_assign true a a = Ok c /\ reach c /\ es_id c = es_id a /\
     forall i, u32 i -> es_index c i = false).
Proof. exact difference_spec. Qed.
Print Assumptions C03_difference.

(* concrete reachable sets spanning several blocks *)
Definition ok_or_default (r : res es) : es := match r with Ok s => s | _ => es_default end.
Definition ex_a : es := ok_or_default (make_es 7 [3; 70; 200]).
Definition ex_b : es := ok_or_default (make_es 8 [64; 70; 500]).

Example reach_examples :
  reach ex_a /\ reach ex_b /\
  exists c d, es_union ex_a ex_b = Ok c /\ es_minus ex_a ex_b = Ok d /\ reach c /\ reach d /\
    es_expanded c = [3; 64; 70; 200; 500] /\ es_expanded d = [3; 200] /\
    es_compare false ex_a ex_b = Ok PUnord /\ es_compare false ex_a c = Ok PLess.
Proof.
  assert (Ra : reach ex_a).
  { apply (reach_make 7 [3; 70; 200]); [|vm_compute; reflexivity].
    intros i H. cbn in H. repeat (destruct H as [<-|H]; [reflexivity|]). destruct H. }
  assert (Rb : reach ex_b).
  { apply (reach_make 8 [64; 70; 500]); [|vm_compute; reflexivity].
    intros i H. cbn in H. repeat (destruct H as [<-|H]; [reflexivity|]). destruct H. }
  split; [exact Ra|]. split; [exact Rb|].
  exists (ok_or_default (es_union ex_a ex_b)), (ok_or_default (es_minus ex_a ex_b)).
  assert (Ec : es_or_assign false ex_a ex_b = Ok (ok_or_default (es_union ex_a ex_b)))
    by (vm_compute; reflexivity).
  assert (Ed : es_sub_assign false ex_a ex_b = Ok (ok_or_default (es_minus ex_a ex_b)))
    by (vm_compute; reflexivity).
  split; [exact Ec|]. split; [exact Ed|].
  split; [apply (reach_or false ex_a ex_b _ Ra Rb); [discriminate|exact Ec]|].
  split; [apply (reach_sub false ex_a ex_b _ Ra Rb); [discriminate|exact Ed]|].
  repeat (split; [vm_compute; reflexivity|]). vm_compute. reflexivity.
Qed.

(* C04, full claim: set(i) adds exactly i to every reachable set.  The claim is
   false for the empty set ... *)
Theorem C04_set_on_empty_refuted : forall s i, reach s -> es_empty s = true -> valid_id i ->
  es_set s i = Throw.
Proof. exact set_on_empty_throws. Qed.
Print Assumptions C04_set_on_empty_refuted.

Example C04_empty_reachable : reach es_default /\ es_empty es_default = true.
Proof. split; [apply reach_default|reflexivity]. Qed.

(* ... and holds for every non-empty one (missing: the empty set). *)
Theorem C04_set_adds_exactly_partial : forall s i, reach s -> es_empty s = false -> valid_id i ->
  exists c, es_set s i = Ok c /\ reach c /\ es_id c = es_id s /\
    forall j, u32 j -> es_index c j = (j =? i) || es_index s j.
Proof. exact set_adds_exactly. Qed.
Print Assumptions C04_set_adds_exactly_partial.

(* C05: compare() decides the subset order (missing: a pair of empty sets, for
   which it answers "greater" instead of "equivalent", see C05_compare_empty_refuted). *)
Definition subset (a b : es) : Prop := forall i, u32 i -> es_index a i = true -> es_index b i = true.

Theorem C05_compare_partial : forall a b, reach a -> reach b ->
  ~ (es_empty a = true /\ es_empty b = true) ->
  exists p, es_compare false a b = Ok p /\
    (p = PEquiv <-> subset a b /\ subset b a) /\
    (p = PLess <-> subset a b /\ ~ subset b a) /\
    (p = PGreater <-> ~ subset a b /\ subset b a) /\
    (p = PUnord <-> ~ subset a b /\ ~ subset b a).
Proof. exact compare_spec. Qed.
Print Assumptions C05_compare_partial.

Theorem C05_compare_aliased_partial : forall a, reach a -> es_empty a = false ->
  es_compare true a a = Ok PEquiv.
Proof. exact compare_aliased. Qed.
Print Assumptions C05_compare_aliased_partial.

Theorem C05_compare_empty_refuted : forall same a b, reach a -> reach b ->
  es_empty a = true -> es_empty b = true -> es_compare same a b = Ok PGreater.
Proof. exact compare_empty_greater. Qed.
Print Assumptions C05_compare_empty_refuted.

Theorem C05_contains : forall a b, reach a -> reach b ->
  exists r, es_contains false a b = Ok r /\ (r = true <-> subset b a).
Proof. exact contains_spec. Qed.
Print Assumptions C05_contains.

(* C06 *)
Theorem C06_invariant : forall s, reach s -> es_ok s = true.
Proof. exact reach_ok. Qed.
Print Assumptions C06_invariant.

(* the check behind every debug assertion only lets sets with ordered bounds and
   bits at both ends through *)
Theorem C06_check_sound : forall s, es_ok s = true -> es_empty s = false ->
  es_first s <> INVALID /\ es_last s <> INVALID /\ es_fbs s <> INVALID /\ es_lbs s <> INVALID /\
  es_first s <= es_fbs s /\ es_lbs s <= es_last s /\ es_first s < es_last s /\
  es_fbs s <= (es_first s + 64) mod 2 ^ 32 /\
  bv_test (es_bits s) ((es_fbs s + (2 ^ 32 - es_first s)) mod 2 ^ 32) = true /\
  bv_test (es_bits s) ((es_lbs s + (2 ^ 32 - es_first s)) mod 2 ^ 32) = true.
Proof. exact es_ok_sound. Qed.
Print Assumptions C06_check_sound.

Theorem C06_canonical : forall a b, reach a -> reach b ->
  (forall i, u32 i -> es_index a i = es_index b i) ->
  a = mkes (es_id a) (es_first b) (es_last b) (es_fbs b) (es_lbs b) (es_bits b).
Proof. exact reach_canonical. Qed.
Print Assumptions C06_canonical.

(* Every history on one mutable set refines the obvious history on a
   mathematical set: no step fails as long as set() is not called on an empty set. *)
Definition aset : Type := N -> bool.
Definition astep (m : aset) (o : hop) : aset :=
  match o with
  | HMake ids => fun j => existsb (N.eqb j) ids
  | HSet i => fun j => (j =? i) || m j
  | HOr ids => fun j => m j || existsb (N.eqb j) ids
  | HSub ids => fun j => m j && negb (existsb (N.eqb j) ids)
  | HOrSelf => m
  | HSubSelf => fun _ => false
  | HClear => fun _ => false
  end.
Definition okop (m : aset) (o : hop) : Prop :=
  match o with
  | HMake ids | HOr ids | HSub ids => StronglySorted N.le ids /\ forall i, In i ids -> valid_id i
  | HSet i => valid_id i /\ exists j, u32 j /\ m j = true
  | _ => True
  end.
Fixpoint okhist (m : aset) (h : list hop) : Prop :=
  match h with
  | [] => True
  | o :: t => okop m o /\ okhist (astep m o) t
  end.

Theorem C06_history : forall h, okhist (fun _ => false) h ->
  exists s, hrun es_default h = Ok s /\ reach s /\ es_ok s = true /\
    forall i, u32 i -> es_index s i = fold_left astep h (fun _ => false) i.
Proof. exact history_refines. Qed.
Print Assumptions C06_history.

Example C06_history_satisfiable :
  okhist (fun _ => false) [HMake [5; 900]; HSet 70; HSub [5; 70]; HOr [64; 4000]; HSubSelf; HMake [1]; HSet 1000].
Proof.
  assert (V : forall l, forallb (fun i => i <? 2 ^ 32 - 64) l = true -> forall i, In i l -> valid_id i).
  { intros l H i Hi. rewrite forallb_forall in H. apply N.ltb_lt. apply H, Hi. }
  cbn [okhist okop astep].
  repeat split; try (apply V; reflexivity); try reflexivity;
    try (repeat (constructor; try discriminate)).
  - exists 5. split; reflexivity.
  - exists 1. split; reflexivity.
Qed.

(* C07 *)
Theorem C07_iteration : forall s, reach s ->
  es_iterate s = Ok (es_expanded s) /\
  StronglySorted N.lt (es_expanded s) /\
  (forall i, In i (es_expanded s) <-> u32 i /\ es_index s i = true) /\
  es_count s = N.of_nat (length (es_expanded s)) /\
  (es_any s = true <-> exists i, u32 i /\ es_index s i = true).
Proof.
  intros s R. destruct (iteration_spec s R) as [I [S M]].
  split; [exact I|]. split; [exact S|]. split; [exact M|]. split; [exact (count_expanded s)|].
  unfold es_any, bv_any. split.
  - intros E. apply existsb_exists in E as [i [Ii T]].
    exists (add32 (es_first s) i). apply M. unfold es_expanded. apply in_map, filter_In.
    split; assumption.
  - intros [i Hi]. apply M in Hi. unfold es_expanded in Hi. apply in_map_iff in Hi as [k [_ Ik]].
    apply filter_In in Ik. apply existsb_exists. exists k. exact Ik.
Qed.
Print Assumptions C07_iteration.
