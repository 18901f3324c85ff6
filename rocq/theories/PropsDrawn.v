(* C70: the way drawn in the plan is the path of the route *)
From Coq Require Import List Bool NArith QArith String Sorted Permutation Arith Lia Lqa.
From Verif Require Import Base TextModel InfraModel InfraSpec StationModel StationSpec StationPath StationRoute
  StationProofs StationNet StationWay StationDrawn PropsInfra PropsStation.
Import ListNotations.
Local Open Scope nat_scope.

Lemma starts_at_fun g i a b : starts_at g i a -> starts_at g i b -> a = b.
Proof.
  intros (e & He & A) (e' & He' & B). unfold elem_at in *. rewrite He in He'. injection He' as <-.
  destruct A as [(A & ->)|(A & _ & ->)], B as [(B & ->)|(B & _ & ->)]; tauto || reflexivity.
Qed.
Lemma ends_at_fun g i a b : ends_at g i a -> ends_at g i b -> a = b.
Proof.
  intros (e & He & A) (e' & He' & B). unfold elem_at in *. rewrite He in He'. injection He' as <-.
  destruct A as [(A & ->)|(A & _ & ->)], B as [(B & ->)|(B & _ & ->)]; tauto || reflexivity.
Qed.

Lemma forall2_in {A B} (R : A -> B -> Prop) p q : Forall2 R p q -> forall a, In a p -> exists b, In b q /\ R a b.
Proof.
  induction 1 as [|a b p q H _ IH]; intros z [].
  - subst z. exists b. cbn. auto.
  - destruct (IH z) as (c & C & D); [assumption|]. exists c. cbn. auto.
Qed.

(* routes start and end at the ends of tracks and at directed elements only *)
Section ENDS.
  Variables (l : list xstation) (g : graph) (ls : list links) (run : nat -> bool -> list node) (arrive : nat -> bool -> node).
  Hypothesis F : net_facts l g ls run arrive.

  Lemma real_device p id i e : device_with l p id -> names g id i -> elem_at g i e ->
    at_edge e \/ e_kind e = KTrack -> at_device l p id.
  Proof.
    intros (n & Hn & Id) Ni He A. exists n. split; [exact Hn|]. split; [exact Id|].
    destruct (nf_dev_kind _ _ _ _ _ F p n Hn) as (j & e' & R & He' & Ty & Kd).
    unfold names, elem_at in *. rewrite Id in R. assert (j = i) by congruence. subst j.
    assert (e' = e) by congruence. subst e'. destruct A as [A|A].
    - unfold at_edge in A. rewrite Ty in A. destruct (sn_name n); cbn in A; intuition discriminate || reflexivity.
    - rewrite A in Kd. destruct (sn_name n); discriminate.
  Qed.
  Lemma real_element w id t i e : element_with l w id t -> names g id i -> elem_at g i e ->
    at_edge e \/ e_kind e = KTrack -> at_track l w id t.
  Proof.
    intros (x & Hx & It & Id & M) Ni He A. exists x. split; [exact Hx|]. split; [exact It|]. split; [exact Id|].
    destruct (dr_run _ _ _ _ _ (nf_drawn _ _ _ _ _ F) (fst w) x (snd w) Hx) as (ns & (Pm & _) & Rn).
    assert (Ins : In t ns) by (eapply Permutation_in; [apply Permutation_sym, Pm|apply filter_In; auto]).
    destruct ns as [|n0 ns]; [destruct Ins|].
    destruct (forall2_in _ _ _ Rn t Ins) as (m & Im & (R & e' & He' & Ty & _)).
    unfold names, elem_at in *. rewrite Id in R. assert (fst m = i) as X by congruence. rewrite X in He'.
    assert (e' = e) by congruence. subst e'.
    assert (Kd : kind_of (e_type e) = Some (e_kind e)).
    { apply (nf_run_kind _ _ _ _ _ F (fst w) x (snd w) m e Hx Im). unfold elem_at. rewrite X. exact He. }
    assert (Dt : is_directed_track_element (tn_type t) = true).
    { destruct A as [A|A].
      - unfold at_edge in A. rewrite Ty in A. unfold met in M. destruct (tn_type t); cbn in A, M; intuition discriminate.
      - rewrite A, Ty in Kd. destruct (tn_type t); cbn in Kd; discriminate || reflexivity. }
    split; [exact Dt|]. unfold met in M. rewrite Dt in M. cbn [andb] in M.
    destruct (tn_type t); cbn in Dt, M; discriminate || (apply Bool.eqb_prop; exact M).
  Qed.
End ENDS.

(* Every route of an imported plan that describes a way over its sections - from any device
   or element and to any other, which is reached for the first time - runs over it. *)
Theorem C70_routes_run_as_drawn l inf : well_drawn (map fst l) -> import_routes l = Ok inf ->
  exists run arrive, drives_as_drawn (map fst l) (inf_graph inf) (inf_links inf) run arrive /\
    forall k st x r w ws, nth_error (routes_of l) k = Some (st, x) -> nth_error (inf_routes inf) k = Some r ->
      any_route_drawn (map fst l) x w ws ->
      route_drawn (map fst l) x w ws /\
      goes (map fst l) (inf_graph inf) run arrive (xr_start x) (xr_end x) w ws (ro_nodes r).
Proof.
  intros WD I. destruct (import_spec l inf I) as (I1 & I2 & _ & _ & B & _).
  destruct (network_facts _ WD) as (g & ls & run & arrive & H1 & H2 & F).
  assert (g = inf_graph inf) by congruence. subst g. assert (ls = inf_links inf) by congruence. subst ls.
  exists run, arrive. split; [exact (nf_drawn _ _ _ _ _ F)|].
  intros k st x r w ws X R (Fo & St0 & En0). destruct (B k st x r X R) as (_ & P & _).
  destruct P as (i & j & a & b & course & N1 & N2 & S1 & E1 & Ad & Dr).
  assert (St : at_device (map fst l) (enters w) (xr_start x) \/ exists t, at_track (map fst l) w (xr_start x) t).
  { destruct S1 as (e & He & A). assert (A' : at_edge e \/ e_kind e = KTrack) by tauto.
    destruct St0 as [D|(t & D)]; [left; exact (real_device _ _ _ _ _ F _ _ _ _ D N1 He A')|].
    right. exists t. exact (real_element _ _ _ _ _ F _ _ _ _ _ D N1 He A'). }
  assert (En : at_device (map fst l) (leaves (last ws w)) (xr_end x) \/
    exists t, at_track (map fst l) (last ws w) (xr_end x) t /\ first_reached (map fst l) (xr_start x) w ws t).
  { destruct E1 as (e & He & A). assert (A' : at_edge e \/ e_kind e = KTrack) by tauto.
    destruct En0 as [D|(t & D & Fr)]; [left; exact (real_device _ _ _ _ _ F _ _ _ _ D N2 He A')|].
    right. exists t. split; [exact (real_element _ _ _ _ _ F _ _ _ _ _ D N2 He A')|exact Fr]. }
  split; [split; [exact Fo|]; split; [exact St|exact En]|].
  destruct (drawn_drive _ _ _ _ _ F _ _ Ad _ _ w ws Fo St En) as (i' & j' & a' & b' & Q & N1' & N2' & S1' & E1' & Dr' & G).
  unfold names in *. assert (i' = i) by congruence. assert (j' = j) by congruence. subst i' j'.
  rewrite (starts_at_fun _ _ _ _ S1' S1), (ends_at_fun _ _ _ _ E1' E1) in Dr'.
  rewrite (drive_to_unique _ _ _ _ _ _ _ Dr Dr'). exact G.
Qed.
Print Assumptions C70_routes_run_as_drawn.

(* A route from or to a switch, a crossing, a line switch, a kilometrage jump or an
   undirected element is not imported, and neither is the plan with it. *)
Theorem C70_other_ends l inf : well_drawn (map fst l) -> import_routes l = Ok inf ->
  forall st x id, In (st, x) (routes_of l) -> id = xr_start x \/ id = xr_end x ->
    (forall p n, node_at (map fst l) p n -> sn_id n = id -> part_of (sn_name n) = Whole) /\
    (forall s y t, section_at (map fst l) s y -> In t (xs_track y) -> tn_id t = id ->
       is_undirected_track_element (tn_type t) = false).
Proof.
  intros WD I st x id Ix Eid. destruct (import_spec l inf I) as (I1 & I2 & _ & Ln & B & _).
  destruct (network_facts _ WD) as (g & ls & run & arrive & H1 & H2 & F).
  assert (g = inf_graph inf) by congruence. subst g. assert (ls = inf_links inf) by congruence. subst ls.
  apply In_nth_error in Ix. destruct Ix as (k & Hk).
  destruct (nth_error (inf_routes inf) k) as [r|] eqn:R.
  2:{ exfalso. apply nth_error_None in R. assert (nth_error (routes_of l) k <> None) as Y by congruence. apply nth_error_Some in Y. lia. }
  destruct (B k st x r Hk R) as (_ & (i & j & a & b & course & N1 & N2 & (e1 & G1 & S1) & (e2 & G2 & E2) & _) & _).
  assert (exists i e, names (inf_graph inf) id i /\ elem_at (inf_graph inf) i e /\ (at_edge e \/ e_kind e = KTrack)) as (i' & e & Ni & He & A).
  { destruct Eid as [-> | ->]; [exists i, e1|exists j, e2]; tauto. }
  split.
  - intros p n Hn Id. destruct (real_device _ _ _ _ _ F p id i' e) as (n' & Hn' & _ & Wh); [exists n; auto|exact Ni|exact He|exact A|].
    destruct Hn as (x1 & (s1 & A1) & ->), Hn' as (x2 & (s2 & A2) & ->). assert (x1 = x2) by congruence. subst x2. exact Wh.
  - intros s y t Hy It Id. destruct (is_undirected_track_element (tn_type t)) eqn:U; [|reflexivity]. exfalso.
    destruct (real_element _ _ _ _ _ F (s, true) id t i' e) as (_ & _ & _ & _ & Dt & _); [|exact Ni|exact He|exact A|].
    + exists y. split; [exact Hy|]. split; [exact It|]. split; [exact Id|]. unfold met. rewrite U. reflexivity.
    + destruct (tn_type t); discriminate.
Qed.
Print Assumptions C70_other_ends.

Theorem C70_drawn_ways_are_found l : well_drawn l ->
  exists g ls run arrive, import l = Ok g /\ connect_nodes g = Ok ls /\ drives_as_drawn l g ls run arrive /\
    forall x w ws course, route_drawn l x w ws -> Forall2 advice (xr_course x) course ->
      exists i j a b p, names g (xr_start x) i /\ names g (xr_end x) j /\ starts_at g i a /\ ends_at g j b /\
        get_path (path_fuel g course) g ls course 0 (Some a) b = Ok p /\
        goes l g run arrive (xr_start x) (xr_end x) w ws p.
Proof.
  intros WD. destruct (network_facts _ WD) as (g & ls & run & arrive & H1 & H2 & F).
  exists g, ls, run, arrive. split; [exact H1|]. split; [exact H2|]. split; [exact (nf_drawn _ _ _ _ _ F)|].
  intros x w ws course (Fo & St & En) Ad.
  destruct (drawn_drive _ _ _ _ _ F _ _ Ad _ _ w ws Fo St En) as (i & j & a & b & p & N1 & N2 & S1 & E1 & Dr & G).
  exists i, j, a, b, p. split; [exact N1|]. split; [exact N2|]. split; [exact S1|]. split; [exact E1|]. split; [|exact G].
  apply path_complete; [exact (connect_closed g ls H2)| |exact Dr].
  destruct S1 as (e & He & A). assert (fst a = i) as -> by (destruct A as [(_ & ->)|(_ & _ & ->)]; reflexivity).
  apply nth_error_Some. unfold elem_at in He. rewrite He. discriminate.
Qed.
Print Assumptions C70_drawn_ways_are_found.

(* the routes of the example: over the straight track to the border, from the signal
   over the branch *)
Lemma ex_switchable : switchable ex_plan (0, true).
Proof. eexists. split; [eapply ex_at; reflexivity|]. left. cbn. auto. Qed.
Example C70_sat :
  route_drawn ex_plan (mkxr false "1" 1 4 None None None [] [] ["Stamm"%string] []) (0, true) [(1, true)] /\
  route_drawn ex_plan (mkxr false "2" 10 6 None None None [] [] ["Abzweig"%string] []) (0, true) [(2, true)].
Proof.
  split; (split; [|split]).
  - eapply fl_straight; [eapply ex_at; reflexivity|eapply ex_at; reflexivity|reflexivity|exact I|reflexivity|left; split; [exact ex_switchable|reflexivity]|constructor].
  - left. eexists. split; [eapply ex_at; reflexivity|]. split; reflexivity.
  - left. eexists. split; [eapply ex_at; reflexivity|]. split; reflexivity.
  - eapply fl_diverge; [eapply ex_at; reflexivity|eapply ex_at; reflexivity|reflexivity|exact I|reflexivity|discriminate|left; split; [exact ex_switchable|reflexivity]|constructor].
  - right. exists (mktnode MAIN_SIGNAL true 10 (1#2)). eexists. split; [eexists; reflexivity|]. cbn. auto.
  - left. eexists. split; [eapply ex_at; reflexivity|]. split; reflexivity.
Qed.

(* A ring of two sections. The route from the signal at kilometre 3/4 to the one at kilometre
   1/4 goes once round the ring and ends on the section it started on, without the part
   between the two signals. *)
Definition ring_plan : list xstation :=
  [mkxst "R" [mkxsec 100 (ex_node N_LINE_SWITCH_ONE 1 2 0 "") (ex_node N_LINE_SWITCH_ZERO 3 0 1 "")
                [mktnode MAIN_SIGNAL true 10 (3#4); mktnode MAIN_SIGNAL true 11 (1#4); mktnode HALT true 12 (1#2)];
              mkxsec 100 (ex_node N_LINE_SWITCH_ONE 4 3 0 "") (ex_node N_LINE_SWITCH_ZERO 2 0 1 "") []]].
Definition ring_route : xroute := mkxr false "1" 10 11 None None None [] [] [] [].
Lemma ring_at s b st x : nth_error (plan ring_plan) s = Some (st, x) ->
  node_at ring_plan (s, b) (if b then xs_end x else xs_start x).
Proof. intros H. exists x. split; [exists st; exact H|reflexivity]. Qed.
Ltac ring_sec H :=
  let st := fresh "st" in destruct H as (st & H);
  match type of H with nth_error _ ?v = _ => destruct v as [|[|v]]; [| |destruct v; discriminate H] end;
  cbn in H; injection H as <- <-.
Ltac ring_node_at H :=
  let x := fresh "x" in let S := fresh "S" in
  match type of H with node_at _ ?p _ => destruct p as [? []] end;
  destruct H as (x & S & ->); cbn [fst snd] in *; ring_sec S; cbn [xs_start xs_end] in *.
Ltac ring_place s b := exists (s, b); eexists; split; [eapply ring_at; reflexivity|].
Example C70_sat_ring :
  well_drawn ring_plan /\ (exists inf, import_routes [(hd (mkxst "" []) ring_plan, [ring_route])] = Ok inf) /\
  any_route_drawn ring_plan ring_route (0, true) [(1, true); (0, true)].
Proof.
  split; [|split].
  - split.
    + vm_compute. repeat constructor; cbn; intuition discriminate.
    + intros i H. vm_compute in H. repeat (destruct H as [<-|H]; [reflexivity|]). destruct H.
    + intros p n H. ring_node_at H; [ring_place 0 true|ring_place 1 true|ring_place 1 true|ring_place 0 true]; repeat split.
    + intros p q n m H G D P. ring_node_at H; ring_node_at G; cbn in D, P; try discriminate; reflexivity.
    + intros p n t H T. ring_node_at H; cbn in T; try tauto;
        destruct T as [<-|[]]; [ring_place 1 false|ring_place 0 false]; repeat split.
    + intros s x H. ring_sec H; discriminate.
    + intros s x a b H. ring_sec H; cbn [xs_track In]; try tauto.
      intros [<-|[<-|[<-|[]]]] [<-|[<-|[<-|[]]]]; unfold apart; cbn; lra.
    + intros s x H. ring_sec H; vm_compute; repeat constructor; cbn; intuition discriminate.
    + intros p q n m ln H G D [X|X] _ _ _; exfalso; ring_node_at H; discriminate X.
    + intros p n H. ring_node_at H; cbn; split; discriminate.
    + repeat constructor; cbn; intuition discriminate.
    + intros p n H B. exfalso. ring_node_at H; discriminate B.
  - eexists. vm_compute. reflexivity.
  - assert (NS : forall p, ~ switchable ring_plan p).
    { intros p (n & Hn & [X|(q & m & Hm & _ & [[X|X] _])]); [ring_node_at Hn|ring_node_at Hm|ring_node_at Hm]; cbn in X; intuition discriminate. }
    assert (ND : forall p q n m, node_at ring_plan p n -> node_at ring_plan q m -> ~ diverging n m).
    { intros p q n m Hn Hm. ring_node_at Hn; ring_node_at Hm; cbn; tauto. }
    split; [|split].
    + eapply fl_straight; [exact (ring_at 0 true _ _ eq_refl)|exact (ring_at 1 false _ _ eq_refl)|reflexivity|exact I| |right; split; [apply NS|reflexivity]|].
      { intros q m' Hm _ D. exfalso. exact (ND (0, true) q _ m' (ring_at 0 true _ _ eq_refl) Hm D). }
      eapply fl_straight; [exact (ring_at 1 true _ _ eq_refl)|exact (ring_at 0 false _ _ eq_refl)|reflexivity|exact I| |right; split; [apply NS|reflexivity]|constructor].
      intros q m' Hm _ D. exfalso. exact (ND (1, true) q _ m' (ring_at 1 true _ _ eq_refl) Hm D).
    + right. exists (mktnode MAIN_SIGNAL true 10 (3#4)). eexists. split; [eexists; reflexivity|]. cbn. auto.
    + right. exists (mktnode MAIN_SIGNAL true 11 (1#4)). split.
      * eexists. split; [eexists; reflexivity|]. cbn. auto.
      * split; [discriminate|]. intros _. split; [cbn; intuition discriminate|]. intros _.
        exists (mktnode MAIN_SIGNAL true 10 (3#4)). split; [eexists; split; [eexists; reflexivity|]; cbn; auto|].
        left. cbn. lra.
Qed.
