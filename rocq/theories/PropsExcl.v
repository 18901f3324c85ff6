(* C33 - C35, C55, C56: the exclusion data of an infrastructure.

   Reading guide: a schedule is any list of worker numbers (Par.v): it says whose
   turn it is next.  [starts_at], [ends_at], [ir_cells], [cell_node] and
   [proper_route] are those of RouteSpec.v and PropsRoute.v. *)
From Coq Require Import Sorted Permutation Ascii String DecimalString ZifyBool ZifyNat ZifyN.
From Coq Require Import List.
From Verif Require Import Base AlgoModel AlgoProofs Par RouteModel RouteProofs RouteSpec RouteIter RouteIndex
  ExclModel ExclProofs ExclElems PropsRoute PropsAlgo.
From Verif Require ExclusionSetModel TextModel TextProofs PropsText.
Import ExclusionSetModel(es, es_index, es_expanded).
Import TextProofs(join, occurs_at, pieces).
Import ListNotations.
Local Open Scope nat_scope.

(* ------------------------------------------------------------------ *)
(* C33 *)
(* route i uses element e *)
Definition route_uses (closed : list (list N)) (i : nat) (e : N) : Prop :=
  exists els, nth_error closed i = Some els /\ In e els.

Theorem C33_used_by : forall thread_count sched1 sched2 sched3 closed element_count,
  0 < thread_count ->
  (forall i e, route_uses closed i e -> N.to_nat e < element_count) ->
  exists t, get_closed_element_used_by thread_count sched1 sched2 sched3 closed element_count = Ok t /\
    length t = element_count /\
    forall e row, nth_error t e = Some row ->
      StronglySorted N.lt row /\ forall ir, In ir row <-> route_uses closed (N.to_nat ir) (N.of_nat e).
Proof.
  intros T s1 s2 s3 closed n HT B. apply used_by_ok; [exact HT|].
  intros row e I Ie. apply In_nth_error in I as [i E]. apply (B i e). exists row. split; assumption.
Qed.
Print Assumptions C33_used_by.

(* hence neither the number of threads nor the interleaving is visible *)
Theorem C33_deterministic : forall T s1 s2 s3 T' s1' s2' s3' closed n,
  0 < T -> 0 < T' -> (forall i e, route_uses closed i e -> N.to_nat e < n) ->
  get_closed_element_used_by T s1 s2 s3 closed n = get_closed_element_used_by T' s1' s2' s3' closed n.
Proof.
  intros T s1 s2 s3 T' s1' s2' s3' closed n H H' B.
  destruct (C33_used_by T s1 s2 s3 closed n H B) as [t [E [L P]]].
  destruct (C33_used_by T' s1' s2' s3' closed n H' B) as [t' [E' [L' P']]].
  rewrite E, E'. f_equal. apply nth_ext; [congruence|]. intros i x y Ex Ey.
  destruct (P i x Ex) as [S1 I1]. destruct (P' i y Ey) as [S2 I2].
  assert (II : forall z, In z x <-> In z y) by (intros z; rewrite I1, I2; reflexivity).
  clear -S1 S2 II. revert y S2 II. induction S1 as [|a x S1 IH F1]; intros y S2 II.
  - destruct y as [|b y]; [reflexivity|]. destruct (proj2 (II b) (or_introl eq_refl)).
  - destruct S2 as [|b y S2 F2]; [destruct (proj1 (II a) (or_introl eq_refl))|].
    rewrite Forall_forall in F1, F2.
    assert (a = b).
    { destruct (proj1 (II a) (or_introl eq_refl)) as [->|Ia]; [reflexivity|].
      destruct (proj2 (II b) (or_introl eq_refl)) as [->|Ib]; [reflexivity|].
      specialize (F1 b Ib). specialize (F2 a Ia). lia. }
    subst b. f_equal. apply IH; [exact S2|]. intros z. specialize (II z). cbn [In] in II. split; intros I.
    + destruct (proj1 II (or_intror I)) as [<-|J]; [|exact J]. specialize (F1 _ I). lia.
    + destruct (proj2 II (or_intror I)) as [<-|J]; [|exact J]. specialize (F2 _ I). lia.
Qed.
Print Assumptions C33_deterministic.

(* std::thread::hardware_concurrency() may return 0: then the table is empty,
   and no error is reported *)
Theorem C33_zero_threads_refuted : exists closed n,
  (forall i e, route_uses closed i e -> N.to_nat e < n) /\ route_uses closed 0 0 /\
  get_closed_element_used_by 0 [] [] [] closed n = Ok [[]].
Proof.
  exists [[0%N]], 1. split.
  - intros [|[|i]] e [els [E I]]; try discriminate E. injection E as <-. destruct I as [<-|[]]. cbn. lia.
  - split; [|vm_compute; reflexivity]. exists [0%N]. split; [reflexivity|left; reflexivity].
Qed.
Print Assumptions C33_zero_threads_refuted.

(* an element id out of range is not caught *)
Theorem C33_out_of_range_refuted : get_closed_element_used_by 2 [] [] [] [[0%N]; [3%N]] 2 = UB.
Proof. reflexivity. Qed.
Print Assumptions C33_out_of_range_refuted.

Definition ex_closed : list (list N) := [[1; 2; 4]; [0; 1]; [4; 5]; [4; 5]]%N.
Example C33_example :
  (forall i e, route_uses ex_closed i e -> N.to_nat e < 6) /\
  get_closed_element_used_by 3 [2; 2; 0; 1; 2; 0; 2; 1] [5; 0; 1; 4; 4] [3; 1] ex_closed 6 =
    Ok [[1]; [0; 1]; [0]; []; [0; 2; 3]; [2; 3]]%N.
Proof.
  split; [|vm_compute; reflexivity].
  intros [|[|[|[|i]]]] e [els [E I]]; try (destruct i; discriminate E); injection E as <-; cbn in I; intuition subst; cbn; lia.
Qed.

(* ------------------------------------------------------------------ *)
(* C34 *)
Theorem C34_route_to_sets : forall sets ir_count,
  (forall s ir, In s sets -> In ir s -> N.to_nat ir < ir_count) ->
  exists t, get_irs_to_exclusion_sets sets ir_count = Ok t /\ length t = ir_count /\
    forall k row, nth_error t k = Some row ->
      StronglySorted N.le row /\
      (forall v, In v row <-> exists s, nth_error sets (N.to_nat v) = Some s /\ In (N.of_nat k) s) /\
      (Forall (fun s => NoDup s) sets -> StronglySorted N.lt row).
Proof. exact irs_to_sets_ok. Qed.
Print Assumptions C34_route_to_sets.

(* a route id out of range is not caught *)
Theorem C34_out_of_range : forall sets ir_count s ir,
  In s sets -> In ir s -> ir_count <= N.to_nat ir -> get_irs_to_exclusion_sets sets ir_count = UB.
Proof.
  intros sets n s ir Is Ii L. apply fill_not. rewrite repeat_length. intros F. rewrite Forall_forall in F.
  apply In_nth_error in Is as [k E]. specialize (F (ir, N.of_nat k)). cbn [fst] in F.
  assert (N.to_nat ir < n); [|lia]. apply F. apply in_set_pairs. exists s. rewrite Nnat.Nat2N.id. split; assumption.
Qed.
Print Assumptions C34_out_of_range.

Example C34_example :
  (forall s ir, In s [[0; 2]; []; [2; 1]]%N -> In ir s -> N.to_nat ir < 4) /\
  Forall (fun s => NoDup s) [[0; 2]; []; [2; 1]]%N /\
  get_irs_to_exclusion_sets [[0; 2]; []; [2; 1]]%N 4 = Ok [[0]; [2]; [0; 2]; []]%N.
Proof.
  split; [|split; [|reflexivity]].
  - intros s ir Is I. cbn in Is. intuition subst; cbn in I; intuition subst; cbn; lia.
  - repeat constructor; cbn; intuition discriminate.
Qed.

(* ------------------------------------------------------------------ *)
(* C35 *)
(* the routes i and j are in conflict: they use a common element and neither
   starts where the other one ends *)
Definition follows (srs : list sroute) (irs : list iroute) (i j : nat) : Prop :=
  exists ri rj n, nth_error irs i = Some ri /\ nth_error irs j = Some rj /\ ends_at srs ri n /\ starts_at srs rj n.
Definition in_conflict (srs : list sroute) (irs : list iroute) (closed : list (list N)) (i j : nat) : Prop :=
  (exists e, route_uses closed i e /\ route_uses closed j e) /\
  ~ follows srs irs i j /\ ~ follows srs irs j i.

(* the tables are the ones the interlocking system and get_exclusion produce;
   ids are positions, and fit an exclusion set *)
Record exclusion_input (srs : list sroute) (irs : list iroute) (closed : list (list N))
    (node_count element_count : nat) : Prop := {
  ei_routes : Forall (proper_route srs) irs;
  ei_ids : forall k r, nth_error irs k = Some r -> ir_id r = N.of_nat k;
  ei_small : (N.of_nat (length irs) <= 2 ^ 32 - 64)%N;
  ei_nodes : node_ids_below srs node_count;
  ei_rows : length closed = length irs;
  ei_sorted : forall row, In row closed -> StronglySorted N.le row;
  ei_elements : forall i e, route_uses closed i e -> N.to_nat e < element_count;
}.

Theorem C35_exclusion_graph : forall pick srs irs closed nodes elements T s1 s2 s3 sched,
  top_ok pick -> exclusion_input srs irs closed nodes elements -> 0 < T ->
  exists used_by sa ea g,
    get_closed_element_used_by T s1 s2 s3 closed elements = Ok used_by /\
    get_starting_at srs nodes irs = Ok sa /\ get_ending_at srs nodes irs = Ok ea /\
    get_exclusion_graph pick srs closed used_by sa ea sched irs = Ok g /\ length g = length irs /\
    forall i s, nth_error g i = Some s ->
      (forall j, (j < 2 ^ 32)%N -> (es_index s j = true <-> in_conflict srs irs closed i (N.to_nat j))) /\
      StronglySorted N.lt (es_expanded s) /\
      (forall j, In j (es_expanded s) <-> in_conflict srs irs closed i (N.to_nat j)) /\
      ExclusionSetModel.es_iterate s = Ok (es_expanded s).
Proof.
  intros pick srs irs closed n m T s1 s2 s3 sched PK [P IDS SM NB LC CS CE] HT.
  destruct (C33_used_by T s1 s2 s3 closed m HT CE) as [ub [Eub [Lub Hub]]].
  destruct (C38_starting_at srs n irs P NB) as [sa [Esa [Lsa [Hsa _]]]].
  destruct (C38_ending_at srs n irs P NB) as [ea [Eea [Lea [Hea _]]]].
  destruct (graph_ok_ pick PK srs irs closed ub sa ea n m P IDS SM LC CS) with (sched := sched) as [g [Eg [Lg Hg]]].
  - intros row e I Ie. apply In_nth_error in I as [i E]. apply (CE i e). exists row. split; assumption.
  - exact Lub.
  - exact Hub.
  - split; assumption.
  - split; assumption.
  - exact NB.
  - exists ub, sa, ea, g. split; [exact Eub|]. split; [exact Esa|]. split; [exact Eea|]. split; [exact Eg|].
    split; [exact Lg|]. intros i s E. destruct (Hg i s E) as [H1 [H2 [H3 H4]]].
    assert (EQ : forall j, conflict srs irs closed i j <-> in_conflict srs irs closed i j).
    { intros j. unfold conflict, in_conflict, follows, route_uses. split.
      - intros [[e [a [b [Ea [Eb [I1 I2]]]]]] N0]. split; [exists e; split; [exists a|exists b]; split; assumption|].
        split; intros [ri [rj [k [Ei [Ej [X Y]]]]]].
        + destruct (N0 ri rj Ei Ej) as [N1 _]. apply N1. exists k. split; assumption.
        + destruct (N0 rj ri Ej Ei) as [_ N1]. apply N1. exists k. split; assumption.
      - intros [[e [[a [Ea I1]] [b [Eb I2]]]] [N1 N2]]. split; [exists e, a, b; repeat split; assumption|].
        intros ri rj Ei Ej. split; intros [k [X Y]].
        + apply N1. exists ri, rj, k. repeat split; assumption.
        + apply N2. exists rj, ri, k. repeat split; assumption. }
    split; [|split; [exact H2|split; [|exact H4]]]; intros j; rewrite <- EQ; [apply H1|apply H3].
Qed.
Print Assumptions C35_exclusion_graph.

(* the graph is symmetric, whatever schedule built it *)
Theorem C35_symmetric : forall pick srs irs closed nodes elements used_by sa ea g T s1 s2 s3 sched,
  top_ok pick -> exclusion_input srs irs closed nodes elements -> 0 < T ->
  get_closed_element_used_by T s1 s2 s3 closed elements = Ok used_by ->
  get_starting_at srs nodes irs = Ok sa -> get_ending_at srs nodes irs = Ok ea ->
  get_exclusion_graph pick srs closed used_by sa ea sched irs = Ok g ->
  forall i j si sj, nth_error g i = Some si -> nth_error g j = Some sj ->
    es_index si (N.of_nat j) = es_index sj (N.of_nat i).
Proof.
  intros pick srs irs closed n m ub sa ea g T s1 s2 s3 sched PK EI HT E1 E2 E3 E4 i j si sj Ei Ej.
  destruct (C35_exclusion_graph pick srs irs closed n m T s1 s2 s3 sched PK EI HT)
    as [ub' [sa' [ea' [g' [E1' [E2' [E3' [E4' [Lg H]]]]]]]]].
  assert (ub' = ub) by congruence. assert (sa' = sa) by congruence. assert (ea' = ea) by congruence. subst.
  assert (g' = g) by congruence. subst g'.
  pose proof (ei_small _ _ _ _ _ EI) as SM.
  assert (Li : i < length g) by (apply nth_error_Some; congruence).
  assert (Lj : j < length g) by (apply nth_error_Some; congruence).
  assert (C : forall a b, in_conflict srs irs closed a b -> in_conflict srs irs closed b a).
  { intros a b [[e [H1 H2]] [H3 H4]]. split; [exists e; split; assumption|]. split; assumption. }
  destruct (H i si Ei) as [Hi _]. specialize (Hi (N.of_nat j)). rewrite Nnat.Nat2N.id in Hi.
  destruct (H j sj Ej) as [Hj _]. specialize (Hj (N.of_nat i)). rewrite Nnat.Nat2N.id in Hj.
  assert (B : forall k, k < length g -> (N.of_nat k < 2 ^ 32)%N) by (intros k; rewrite Lg; lia).
  specialize (Hi (B j Lj)). specialize (Hj (B i Li)).
  destruct (es_index si (N.of_nat j)), (es_index sj (N.of_nat i)); try reflexivity.
  - symmetry. apply Hj, C, Hi. reflexivity.
  - apply Hi, C, Hj. reflexivity.
Qed.
Print Assumptions C35_symmetric.

Example C35_example :
  top_ok (fun q => fst (first_min q)) /\ exclusion_input ex_srs ex_irs ex_closed 16 6 /\
  in_conflict ex_srs ex_irs ex_closed 0 3 /\
  (exists e, route_uses ex_closed 0 e /\ route_uses ex_closed 2 e) /\ follows ex_srs ex_irs 0 2 /\
  match get_exclusion_graph (fun q => fst (first_min q)) ex_srs ex_closed
          [[1]; [0; 1]; [0]; []; [0; 2; 3]; [2; 3]]%N
          [[]; []; []; []; []; []; []; []; []; []; [1]; [0]; []; []; [2]; [3]]%N
          [[]; []; []; []; []; []; []; []; []; []; []; [1]; []; []; [0]; [2; 3]]%N [3; 0; 2; 1] ex_irs with
  | Ok g => map es_expanded g = [[0; 3]; [1]; [2]; [0]]%N
  | _ => False end.
Proof.
  split; [exact ex_top_ok|]. split.
  { destruct C38_example as [_ [P [NB _]]]. constructor.
    - exact P.
    - intros [|[|[|[|k]]]] r E; try (injection E as <-; reflexivity). destruct k; discriminate E.
    - cbn. lia.
    - exact NB.
    - reflexivity.
    - intros row I. cbn in I. intuition subst; repeat constructor; discriminate.
    - apply C33_example. }
  assert (SE : forall i r n, nth_error ex_irs i = Some r -> (ends_at ex_srs r n \/ starts_at ex_srs r n) ->
     (i = 0 -> ends_at ex_srs r n -> n = 14%N) /\ (i = 0 -> starts_at ex_srs r n -> n = 11%N) /\ (i = 3 -> n = 15%N)).
  { intros i r n E [[sr [E1 E2]]|[sr [E1 E2]]]; (destruct i as [|[|[|[|i]]]]; [| | | |destruct i; discriminate E]);
      injection E as <-; cbn in E1; injection E1 as <-; cbn in E2; injection E2 as <-;
      repeat split; try discriminate; try reflexivity; intros _ [sr [E1 E2]]; cbn in E1; injection E1 as <-;
      cbn in E2; discriminate E2. }
  split.
  { split; [exists 4%N; split; eexists; (split; [reflexivity|]); cbn; tauto|].
    split; intros [ri [rj [n [Ei [Ej [X Y]]]]]].
    - destruct (SE 0 ri n Ei (or_introl X)) as [A _]. destruct (SE 3 rj n Ej (or_intror Y)) as [_ [_ B]].
      specialize (A eq_refl X). specialize (B eq_refl). congruence.
    - destruct (SE 3 ri n Ei (or_introl X)) as [_ [_ B]]. destruct (SE 0 rj n Ej (or_intror Y)) as [_ [A _]].
      specialize (A eq_refl Y). specialize (B eq_refl). congruence. }
  split; [exists 4%N; split; eexists; (split; [reflexivity|]); cbn; tauto|].
  split; [|vm_compute; reflexivity].
  exists (mkir 0 1 2 [0; 1; 2]), (mkir 2 1 3 [2]), 14%N. repeat split; try reflexivity; eexists; (split; reflexivity).
Qed.

(* ------------------------------------------------------------------ *)
(* C55: the exclusion elements of a route.

   [visits]: the elements of the cells of the route in order.
   [merged l ss]: ss is l without consecutive repetitions.
   [track_sections]: the section of each visited track element.
   [covered]: inside one section, the elements between the first and the last
   element of the route in the direction of travel; otherwise the part of the
   first section from the first element on, all middle sections, and the part of
   the last section up to the last element (all of it if the route starts or
   ends on an element that is not a track element). *)
Theorem C55_closed_elements : forall srs elem is_track rising is_excl secs_of sections r els ss,
  (forall s sec, nth_error sections s = Some sec -> NoDup (sec_rising sec) /\ NoDup (sec_falling sec)) ->
  proper_route srs r -> omitted_sorted srs ->
  (1 < length (ir_srs r) -> hd 0 (ir_srs r) <> last (ir_srs r) 0) ->
  visits srs elem r els ->
  (forall e, In e els -> is_track e = true -> exists s, secs_of e = [s]) ->
  merged (track_sections is_track secs_of els) ss -> Forall (fun s => s < length sections) ss ->
  ends_inside is_track rising sections (hd 0%N els) (last els 0%N) ss ->
  exists l, get_exclusion_elements srs elem is_track rising is_excl secs_of sections r = Ok l /\
    StronglySorted N.lt l /\
    forall x, In x l <-> is_excl x = true /\ covered is_track rising sections (hd 0%N els) (last els 0%N) ss x.
Proof. intros. apply excl_elems_ok; assumption. Qed.
Print Assumptions C55_closed_elements.

(* a route that runs along its sections holds every exclusion element it visits *)
Theorem C55_covers_route : forall srs elem is_track rising is_excl secs_of sections r els ss parts,
  (forall s sec, nth_error sections s = Some sec -> NoDup (sec_rising sec) /\ NoDup (sec_falling sec)) ->
  proper_route srs r -> omitted_sorted srs ->
  (1 < length (ir_srs r) -> hd 0 (ir_srs r) <> last (ir_srs r) 0) ->
  visits srs elem r els ->
  (forall e, In e els -> is_track e = true -> exists s, secs_of e = [s]) ->
  merged (track_sections is_track secs_of els) ss -> ss <> [] ->
  els = concat parts -> Forall2 (part_in is_track rising sections) ss parts ->
  (is_track (hd 0%N els) = true \/ is_track (last els 0%N) = true \/ 1 < length ss) ->
  exists l, get_exclusion_elements srs elem is_track rising is_excl secs_of sections r = Ok l /\
    StronglySorted N.lt l /\ forall x, In x els -> is_excl x = true -> In x l.
Proof.
  intros srs elem is_track rising is_excl secs_of sections r els ss parts ND P OS LP V SEC M NE E F ONE.
  destruct (parts_covered is_track rising sections ss parts F NE) as [EI C].
  { intros s sec p Es Ep _ T1 T2. subst ss parts. cbn [concat length] in *. rewrite app_nil_r in E. subst els.
    destruct ONE as [H|[H|H]]; [congruence|congruence|lia]. }
  rewrite <- E in EI, C.
  destruct (C55_closed_elements srs elem is_track rising is_excl secs_of sections r els ss ND P OS LP V SEC M) as [l [El [Sl Hl]]].
  - clear -F. induction F as [|s p ss ps [_ [sec [d [Es _]]]] F IH]; constructor; [|exact IH]. apply nth_error_Some. congruence.
  - exact EI.
  - exists l. split; [exact El|]. split; [exact Sl|]. intros x I X. apply Hl. split; [exact X|]. exact (C x I).
Qed.
Print Assumptions C55_covers_route.

(* without that last condition: a route inside one section between two elements
   that are not track elements, travelled in falling direction, is taken to be
   rising, and the element span runs backwards *)
Theorem C55_falling_between_ends_refuted :
  exists srs elem is_track rising is_excl secs_of sections r els,
    (forall s sec, nth_error sections s = Some sec -> NoDup (sec_rising sec) /\ NoDup (sec_falling sec)) /\
    proper_route srs r /\ omitted_sorted srs /\ length (ir_srs r) = 1 /\ visits srs elem r els /\
    (forall e, In e els -> is_track e = true -> secs_of e = [0]) /\
    part_in is_track rising sections 0 els /\
    get_exclusion_elements srs elem is_track rising is_excl secs_of sections r = UB.
Proof.
  exists [mksr [3; 2; 1]%N [] [] [] None None 0 false], (fun n => n), (fun e => N.eqb e 2), (fun _ => false),
    (fun _ => true), (fun _ => [0]), [mksec [1; 2; 3]%N [3; 2; 1]%N], (mkir 0 0 3 [0]), [3; 2; 1]%N.
  split. { intros [|[|s]] sec E; try discriminate E. injection E as <-. split; repeat constructor; cbn; intuition discriminate. }
  split. { repeat constructor; cbn; try lia; try discriminate; intros s Hs; intuition subst; eexists; (split; [reflexivity|reflexivity]). }
  split. { intros [|[|s]] sec E; try discriminate E. injection E as <-. constructor. }
  split; [reflexivity|].
  split. { repeat constructor; (eexists; split; [eexists; split; reflexivity|reflexivity]). }
  split. { intros e I T. cbn in I. intuition subst; cbn in T; congruence. }
  split; [|vm_compute; reflexivity].
  split; [discriminate|]. eexists. exists false. split; [reflexivity|]. split; [|split; [intros e _ _; reflexivity|]].
  - split; [repeat constructor; cbn; tauto|]. cbn [sec_order sec_falling]. repeat constructor.
    + exists [3]%N, [1]%N. split; [reflexivity|]. cbn. tauto.
    + exists [], [2; 1]%N. split; [reflexivity|]. cbn. tauto.
    + exists [], [2; 1]%N. split; [reflexivity|]. cbn. tauto.
  - intros e. cbn. tauto.
Qed.
Print Assumptions C55_falling_between_ends_refuted.

(* open elements: the closed ones without the end points of the route *)
Theorem C55_open_elements : forall srs elem irs closed,
  Forall (proper_route srs) irs ->
  (forall r, In r irs -> N.to_nat (ir_id r) < length closed) ->
  exists t, get_open_exclusion_elements srs elem closed irs = Ok t /\ length t = length closed /\
    forall k row', nth_error t k = Some row' -> exists row, nth_error closed k = Some row /\
      (forall x, In x row' <-> In x row /\
         forall r n, In r irs -> ir_id r = N.of_nat k -> starts_at srs r n \/ ends_at srs r n -> x <> elem n) /\
      (StronglySorted N.lt row -> StronglySorted N.lt row').
Proof. intros srs elem irs closed P B. apply open_ok; assumption. Qed.
Print Assumptions C55_open_elements.

Definition ex_track (e : N) : bool := negb (N.eqb e 12).
Definition ex_secs (e : N) : list nat := if N.eqb e 11 then [0] else if N.eqb e 12 then [0; 1] else [1].
Definition ex_sections : list section :=
  [mksec [9; 10; 11; 12]%N [12; 11; 10; 9]%N; mksec [20; 15; 14; 13; 12]%N [12; 13; 14; 15; 20]%N].
Definition ex_rising (e : N) : bool := N.leb e 12.
Example C55_example :
  (forall s sec, nth_error ex_sections s = Some sec -> NoDup (sec_rising sec) /\ NoDup (sec_falling sec)) /\
  proper_route ex_srs ex_ir /\ omitted_sorted ex_srs /\
  (1 < length (ir_srs ex_ir) -> hd 0 (ir_srs ex_ir) <> last (ir_srs ex_ir) 0) /\
  visits ex_srs (fun n => n) ex_ir [11; 12; 12; 13; 13; 14]%N /\
  (forall e, In e [11; 12; 12; 13; 13; 14]%N -> ex_track e = true -> exists s, ex_secs e = [s]) /\
  merged (track_sections ex_track ex_secs [11; 12; 12; 13; 13; 14]%N) [0; 1] /\
  Forall2 (part_in ex_track ex_rising ex_sections) [0; 1] [[11; 12; 12]; [13; 13; 14]]%N /\
  get_exclusion_elements ex_srs (fun n => n) ex_track ex_rising N.even ex_secs ex_sections ex_ir = Ok [12; 14]%N /\
  get_open_exclusion_elements ex_srs (fun n => n) [[12; 14]]%N [ex_ir] = Ok [[12]]%N.
Proof.
  split. { intros [|[|s]] sec E; [injection E as <-|injection E as <-|destruct s; discriminate E];
             split; repeat constructor; cbn; intuition discriminate. }
  split. { destruct C38_example as [_ [P _]]. inversion P; assumption. }
  split; [exact ex_omitted|]. split; [discriminate|].
  split. { repeat constructor; (eexists; split; [eexists; split; reflexivity|reflexivity]). }
  split. { intros e I T. cbn in I. intuition subst; (discriminate T || (eexists; reflexivity)). }
  split. { repeat constructor. discriminate. }
  split; [|split; vm_compute; reflexivity].
  constructor; [|constructor; [|constructor]].
  - split; [discriminate|]. eexists. exists true. split; [reflexivity|]. split; [|split].
    + split; [repeat constructor; cbn; tauto|]. cbn [sec_order sec_rising]. repeat constructor.
      * exists [9; 10; 11]%N, []. split; [reflexivity|]. cbn. tauto.
      * exists [9; 10]%N, [12]%N. split; [reflexivity|]. cbn. tauto.
      * exists [9; 10]%N, [12]%N. split; [reflexivity|]. cbn. tauto.
    + intros e I T. cbn in I. intuition subst; reflexivity.
    + intros e. cbn. tauto.
  - split; [discriminate|]. eexists. exists false. split; [reflexivity|]. split; [|split].
    + split; [repeat constructor; cbn; tauto|]. cbn [sec_order sec_falling]. repeat constructor.
      * exists [12]%N, [14; 15; 20]%N. split; [reflexivity|]. cbn. tauto.
      * exists [12]%N, [14; 15; 20]%N. split; [reflexivity|]. cbn. tauto.
      * exists [12]%N, [14; 15; 20]%N. split; [reflexivity|]. cbn. tauto.
    + intros e I T. cbn in I. intuition subst; reflexivity.
    + intros e. cbn. tauto.
Qed.

(* ------------------------------------------------------------------ *)
(* C56: reading cliques *)
(* the tokens of a line: separated by one blank each *)
Definition blank : ascii := " "%char.
Definition tokens (line : list ascii) (toks : list (list ascii)) : Prop :=
  (line = [] /\ toks = []) \/
  (line <> [] /\ join [blank] toks = line /\ forall t, In t toks -> ~ In blank t).
Definition id_of (t : list ascii) : option Z :=
  PropsText.numeral_value 0 4294967295 (string_of_list_ascii t).
(* lexicographic order *)
Definition lex_le (a b : list N) : Prop :=
  (exists t, b = a ++ t) \/ exists p x y s t, a = p ++ x :: s /\ b = p ++ y :: t /\ (x < y)%N.

Lemma occurs_blank (s : list ascii) k : occurs_at [blank] s k -> In blank s.
Proof. intros [l [r [-> _]]]. rewrite !in_app_iff. right. left. left. reflexivity. Qed.
Lemma tokens_pieces toks : toks <> [] -> (forall t, In t toks -> ~ In blank t) -> pieces [blank] (join [blank] toks) toks.
Proof.
  induction toks as [|t toks IH]; intros NE H; [congruence|].
  destruct toks as [|t2 toks].
  - cbn. apply TextProofs.pieces_last. intros j O. apply occurs_blank in O. exact (H t (or_introl eq_refl) O).
  - change (join [blank] (t :: t2 :: toks)) with (t ++ [blank] ++ join [blank] (t2 :: toks)).
    apply TextProofs.pieces_more; [|apply IH; [discriminate|intros u I; apply H; right; exact I]].
    intros j [l [r [E L]]]. subst j. destruct (Nat.le_gt_cases (length t) (length l)) as [L'|L']; [exact L'|exfalso].
    apply (H t (or_introl eq_refl)).
    assert (N0 : nth_error (t ++ [blank] ++ join [blank] (t2 :: toks)) (length l) = Some blank).
    { rewrite E. rewrite nth_error_app2 by lia. rewrite Nat.sub_diag. reflexivity. }
    rewrite nth_error_app1 in N0 by exact L'. apply nth_error_In in N0. exact N0.
Qed.
Lemma split_tokens line toks : tokens line toks -> TextModel.split line [blank] = Ok toks.
Proof.
  intros [[-> ->]|[NE [J H]]]; [reflexivity|].
  destruct (PropsText.C31_split line [blank] NE) as [ps [E [_ [_ [_ U]]]]]; [discriminate|].
  rewrite E. f_equal. symmetry. apply U. rewrite <- J. apply tokens_pieces; [|exact H].
  intros ->. apply NE. symmetry. exact J.
Qed.
Lemma parse_id t : TextModel.parse_int 0 4294967295 t = match id_of t with Some v => Ok v | None => Throw end.
Proof.
  unfold id_of. pose proof (PropsText.parse_both 0 4294967295 t) as H.
  destruct (PropsText.numeral_value 0 4294967295 (string_of_list_ascii t)); apply H.
Qed.
Lemma read_clique_tokens line toks : tokens line toks ->
  read_clique line = mapM (fun s => do z <- TextModel.parse_int 0 4294967295 s; Ok (Z.to_N z)) toks.
Proof. intros T. unfold read_clique. change [" "%char] with [blank]. rewrite (split_tokens _ _ T). reflexivity. Qed.
Lemma mapM_ids toks ids : Forall2 (fun t i => id_of t = Some (Z.of_N i)) toks ids ->
  mapM (fun s => do z <- TextModel.parse_int 0 4294967295 s; Ok (Z.to_N z)) toks = Ok ids.
Proof.
  induction 1 as [|t i toks ids H F IH]; [reflexivity|]. cbn [mapM]. rewrite parse_id, H. cbn [bind]. rewrite IH.
  cbn [bind]. rewrite N2Z.id. reflexivity.
Qed.
Lemma mapM_throw {A B} (f : A -> res B) l : (forall a, f a = Throw \/ exists b, f a = Ok b) ->
  (exists a, In a l /\ f a = Throw) -> mapM f l = Throw.
Proof.
  intros D [a [I E]]. induction l as [|x l IH]; [destruct I|]. cbn [mapM]. destruct (D x) as [Ex|[b Ex]]; rewrite Ex; cbn [bind]; [reflexivity|].
  destruct I as [->|I]; [congruence|]. rewrite (IH I). reflexivity.
Qed.
Lemma id_throw_or_ok t : (do z <- TextModel.parse_int 0 4294967295 t; Ok (Z.to_N z)) = Throw \/
  exists b, (do z <- TextModel.parse_int 0 4294967295 t; Ok (Z.to_N z)) = Ok b.
Proof. rewrite parse_id. destruct (id_of t); [right; eexists; reflexivity|left; reflexivity]. Qed.
Lemma lex_leb_le a : forall b, lex_leb a b = true -> lex_le a b.
Proof.
  induction a as [|x a IH]; intros [|y b] H; cbn in H.
  - left. exists []. reflexivity.
  - left. exists (y :: b). reflexivity.
  - discriminate.
  - destruct (N.ltb_spec x y) as [L|L].
    + right. exists [], x, y, a, b. repeat split. exact L.
    + destruct (N.ltb_spec y x) as [L'|L']; [discriminate|]. assert (x = y) by lia. subst y.
      destruct (IH b H) as [[t ->]|[p [u [v [s [t [-> [-> L2]]]]]]]].
      * left. exists t. reflexivity.
      * right. exists (x :: p), u, v, s, t. repeat split. exact L2.
Qed.

(* the result holds the cliques of the lines, each ascending, the cliques in
   lexicographic order *)
Theorem C56_read_cliques : forall lines idss,
  Forall2 (fun line ids => exists toks, tokens line toks /\
             Forall2 (fun t i => id_of t = Some (Z.of_N i)) toks ids) lines idss ->
  exists rows r, read_cliques lines = Ok r /\
    Forall2 (fun ids row => Permutation ids row /\ StronglySorted N.le row) idss rows /\
    Permutation rows r /\ StronglySorted lex_le r.
Proof.
  intros lines idss F. unfold read_cliques.
  assert (E : mapM read_clique lines = Ok idss).
  { induction F as [|line ids lines idss [toks [T G]] F IH]; [reflexivity|]. cbn [mapM].
    rewrite (read_clique_tokens line toks T), (mapM_ids toks ids G), IH. reflexivity. }
  rewrite E. cbn [bind]. exists (map (sort_by N.leb) idss). eexists. split; [reflexivity|]. split.
  - clear. induction idss as [|ids l IH]; constructor; [|exact IH]. split; [symmetry; apply sort_by_perm|apply sort_N_asc].
  - split; [symmetry; apply sort_by_perm|]. eapply SS_impl; [|apply sort_by_sorted].
    + intros a b H. apply lex_leb_le, H.
    + intros a b. apply lex_total.
    + intros a b c. apply lex_trans.
Qed.
Print Assumptions C56_read_cliques.

(* a token that is not a route id makes reading fail *)
Theorem C56_bad_token : forall lines line toks t,
  (forall l, In l lines -> exists ts, tokens l ts) ->
  In line lines -> tokens line toks -> In t toks -> id_of t = None -> read_cliques lines = Throw.
Proof.
  intros lines line toks t T I Tk It B. unfold read_cliques.
  assert (E : mapM read_clique lines = Throw); [|rewrite E; reflexivity].
  assert (R : read_clique line = Throw).
  { rewrite (read_clique_tokens line toks Tk). apply mapM_throw; [apply id_throw_or_ok|].
    exists t. split; [exact It|]. rewrite parse_id, B. reflexivity. }
  assert (D : forall l, In l lines -> read_clique l = Throw \/ exists b, read_clique l = Ok b).
  { intros l Il. destruct (T l Il) as [ts Ts]. rewrite (read_clique_tokens l ts Ts). clear.
    induction ts as [|x ts IH]; [right; exists []; reflexivity|]. cbn [mapM].
    destruct (id_throw_or_ok x) as [->|[b ->]]; [left; reflexivity|]. cbn [bind].
    destruct IH as [->|[bs ->]]; [left; reflexivity|right; eexists; reflexivity]. }
  clear -D I R. induction lines as [|x lines IH]; [destruct I|]. cbn [mapM].
  destruct (D x (or_introl eq_refl)) as [Ex|[b Ex]]; rewrite Ex; cbn [bind]; [reflexivity|].
  destruct I as [->|I]; [congruence|]. rewrite IH; [reflexivity|exact I|]. intros l Il. apply D. right. exact Il.
Qed.
Print Assumptions C56_bad_token.

(* every line has tokens *)
Theorem C56_tokens_total : forall line, exists toks, tokens line toks.
Proof.
  intros [|c line]; [exists []; left; split; reflexivity|].
  destruct (PropsText.C31_split (c :: line) [blank]) as [ps [_ [_ [J [F _]]]]]; [discriminate|discriminate|].
  exists ps. right. split; [discriminate|]. split; [exact J|]. intros t I B. rewrite Forall_forall in F.
  apply in_split in B as [a [b ->]]. apply (F _ I (length a)). exists a, b. split; reflexivity.
Qed.
Print Assumptions C56_tokens_total.

(* printing cliques in decimal and reading them again gives the same cliques *)
Definition decimal (i : N) : list ascii := list_ascii_of_string (NilZero.string_of_int (Z.to_int (Z.of_N i))).
Definition print_clique (ids : list N) : list ascii := join [blank] (map decimal ids).
Lemma uint_digits u : ~ In blank (list_ascii_of_string (NilEmpty.string_of_uint u)).
Proof. induction u; cbn; [tauto|..]; intros [H|H]; try discriminate H; exact (IHu H). Qed.
Lemma decimal_digits i : decimal i <> [] /\ ~ In blank (decimal i).
Proof.
  unfold decimal. assert (H : exists u, Z.to_int (Z.of_N i) = Decimal.Pos u) by (destruct i; eexists; reflexivity).
  destruct H as [u ->]. cbn [NilZero.string_of_int]. unfold NilZero.string_of_uint. destruct u; split; try discriminate;
    try exact (uint_digits _); cbn; intros [H|[]]; discriminate H.
Qed.
Theorem C56_round_trip : forall idss,
  Forall (fun ids => forall i, In i ids -> (i < 2 ^ 32)%N) idss ->
  exists rows r, read_cliques (map print_clique idss) = Ok r /\
    Forall2 (fun ids row => Permutation ids row /\ StronglySorted N.le row) idss rows /\
    Permutation rows r /\ StronglySorted lex_le r.
Proof.
  intros idss F. apply C56_read_cliques. induction F as [|ids idss H F IH]; [constructor|].
  cbn [map]. constructor; [|exact IH]. exists (map decimal ids). split.
  - destruct ids as [|i ids]; [left; split; reflexivity|right]. split; [|split; [reflexivity|]].
    + destruct (decimal_digits i) as [NE _]. unfold print_clique. cbn [map].
      destruct (decimal i) as [|c d]; [congruence|]. destruct ids; discriminate.
    + intros t I. apply in_map_iff in I as [j [<- Ij]]. apply decimal_digits.
  - clear IH F. induction ids as [|i ids IH]; [constructor|]. cbn [map]. constructor.
    + pose proof (H i (or_introl eq_refl)) as L. unfold id_of, decimal. rewrite string_of_list_ascii_of_string.
      assert (R : (0 <= Z.of_N i <= 4294967295)%Z) by lia.
      pose proof (PropsText.C30_round_trip 0 4294967295 ltac:(split; discriminate) (Z.of_N i) R) as E.
      pose proof (PropsText.C30_parse_int 0 4294967295 ltac:(split; discriminate) (NilZero.string_of_int (Z.to_int (Z.of_N i)))) as C.
      destruct (PropsText.numeral_value 0 4294967295 (NilZero.string_of_int (Z.to_int (Z.of_N i)))).
      * destruct C as [C _]. congruence.
      * destruct C as [C _]. congruence.
    + apply IH. intros j Ij. apply H. right. exact Ij.
Qed.
Print Assumptions C56_round_trip.

Example C56_example :
  read_cliques (map list_ascii_of_string ["7 3 10"; "2"; ""; "3 1 2"]%string) = Ok [[]; [1; 2; 3]; [2]; [3; 7; 10]]%N /\
  read_cliques (map list_ascii_of_string ["1  2"]%string) = Throw /\
  print_clique [7; 3; 10]%N = list_ascii_of_string "7 3 10".
Proof. repeat split; vm_compute; reflexivity. Qed.
