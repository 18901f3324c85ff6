(* C73: the interlocking of a loaded infrastructure.  A cell (s, i) is node i of
   station route s. *)
From Coq Require Import List Bool NArith ZArith QArith String Arith Lia.
From Verif Require Import Base TextModel InfraModel InfraSpec StationModel StationSpec StationWay
  WholeModel WholeSpec WholeProofs WholeWay WholeLoad PropsInfra PropsStation.
From Verif Require RouteModel RouteSpec PropsRoute LineModel.
Import ListNotations.
Local Open Scope nat_scope.

(* the interlocking routes are exactly the ways from one signal to the next *)
Theorem C73_routes_between_signals fuel l files ld : load fuel l files = Ok ld ->
  forall cs, (exists r, In r (il_routes (ld_il ld)) /\ RouteSpec.ir_cells (ld_srs ld) r = cs) <->
             way_between_signals l files (ld_infra ld) cs.
Proof. intros LD. exact (ld_way fuel l files ld LD). Qed.
Print Assumptions C73_routes_between_signals.

(* a train following an interlocking route never leaves the tracks *)
Theorem C73_unbroken_partial fuel l files ld : load fuel l files = Ok ld ->
  well_drawn (map fst l) -> at_home l ->
  forall r, In r (il_routes (ld_il ld)) ->
  exists p, nodes_of ld r p /\ p <> [] /\ unbroken (inf_links (ld_infra ld)) p.
Proof.
  intros LD WD AH r R. destruct (nodes_ex fuel l files ld LD r R) as [p P]. exists p. split; [exact P|].
  split; [|exact (route_unbroken fuel l files ld LD r p WD AH R P)].
  intros ->. unfold nodes_of in P. inversion P. apply (ld_proper fuel l files ld LD r R). auto.
Qed.
Print Assumptions C73_unbroken_partial.

(* the tables of the interlocking *)
Theorem C73_starting_and_ending_routes fuel l files ld n : load fuel l files = Ok ld ->
  In n (all_nodes (inf_graph (ld_infra ld))) ->
  row_lists (inf_graph (ld_infra ld)) (il_starting_at (ld_il ld)) n (fun id => exists r p,
    nth_error (il_routes (ld_il ld)) (N.to_nat id) = Some r /\ nodes_of ld r (n :: p)) /\
  row_lists (inf_graph (ld_infra ld)) (il_ending_at (ld_il ld)) n (fun id => exists r p,
    nth_error (il_routes (ld_il ld)) (N.to_nat id) = Some r /\ nodes_of ld r (p ++ [n])).
Proof.
  intros LD V. destruct (ld_tables fuel l files ld LD) as (_ & T2 & T3 & _).
  assert (PR : Forall (PropsRoute.proper_route (ld_srs ld)) (il_routes (ld_il ld))).
  { apply Forall_forall. exact (ld_proper fuel l files ld LD). }
  destruct (PropsRoute.C38_starting_at _ _ _ PR (ld_below fuel l files ld LD)) as (t & E & L & X & _).
  destruct (PropsRoute.C38_ending_at _ _ _ PR (ld_below fuel l files ld LD)) as (t' & E' & L' & X' & _).
  assert (t = il_starting_at (ld_il ld)) by congruence. assert (t' = il_ending_at (ld_il ld)) by congruence. subst t t'. split.
  - eapply row_ext; [exact (row_of fuel l files ld LD _ _ n X L V)|]. intros id. split.
    + intros (r & R & H). apply (hd_node fuel l files ld LD r n (nth_error_In _ _ R) V) in H. destruct H as [p P]. eauto.
    + intros (r & p & R & H). exists r. split; [exact R|]. apply (hd_node fuel l files ld LD r n (nth_error_In _ _ R) V). eauto.
  - eapply row_ext; [exact (row_of fuel l files ld LD _ _ n X' L' V)|]. intros id. split.
    + intros (r & R & H). apply (last_node fuel l files ld LD r n (nth_error_In _ _ R) V) in H. destruct H as [p P]. eauto.
    + intros (r & p & R & H). exists r. split; [exact R|]. apply (last_node fuel l files ld LD r n (nth_error_In _ _ R) V). eauto.
Qed.
Print Assumptions C73_starting_and_ending_routes.

Theorem C73_halting_routes fuel l files ld n : load fuel l files = Ok ld ->
  In n (all_nodes (inf_graph (ld_infra ld))) ->
  row_lists (inf_graph (ld_infra ld)) (il_halting_at (ld_il ld)) n (fun id => exists r c q,
    nth_error (il_routes (ld_il ld)) (N.to_nat id) = Some r /\ In c (RouteSpec.ir_cells (ld_srs ld) r) /\
    node_of (ld_infra ld) c n /\ nth_error (inf_routes (ld_infra ld)) (fst c) = Some q /\
    (ro_passenger q = Some (snd c) \/ ro_freight q = Some (snd c))).
Proof.
  intros LD V. destruct (ld_tables fuel l files ld LD) as (T1 & _).
  destruct (PropsRoute.C38_halting_at _ _ _ (ld_wf fuel l files ld LD) (ld_below fuel l files ld LD)) as (t & E & L & X).
  assert (t = il_halting_at (ld_il ld)) by congruence. subst t.
  eapply row_ext; [exact (row_of fuel l files ld LD _ _ n X L V)|]. intros id. split.
  - intros (r & R & H). apply (halt_node fuel l files ld LD r n (nth_error_In _ _ R) V) in H. destruct H as (c & q & H). exists r, c, q. tauto.
  - intros (r & c & q & R & H). exists r. split; [exact R|]. apply (halt_node fuel l files ld LD r n (nth_error_In _ _ R) V). exists c, q. tauto.
Qed.
Print Assumptions C73_halting_routes.

(* ... by station route and by station *)
Theorem C73_routes_of_station_route fuel l files ld : load fuel l files = Ok ld ->
  List.length (il_participating (ld_il ld)) = List.length (inf_routes (ld_infra ld)) /\
  forall k row, nth_error (il_participating (ld_il ld)) k = Some row ->
  forall id, In id row <-> exists r i, nth_error (il_routes (ld_il ld)) (N.to_nat id) = Some r /\
    In (k, i) (RouteSpec.ir_cells (ld_srs ld) r).
Proof.
  intros LD. destruct (ld_tables fuel l files ld LD) as (_ & _ & _ & T4 & _).
  destruct (PropsRoute.C38_participating _ _ (ld_wf fuel l files ld LD)) as (t & E & L & X & _).
  assert (t = il_participating (ld_il ld)) by congruence. subst t.
  destruct (ld_lines fuel l files ld LD) as [lines MS]. split; [rewrite L; exact (srs_len _ _ _ MS)|].
  intros k row K id. rewrite (proj2 (X k row K) id). split.
  - intros (r & R & <- & H). rewrite Nat2N.id in H. apply (srs_cells fuel l files ld LD r k R) in H. destruct H as [i H].
    exists r, i. split; [apply (ld_in fuel l files ld LD); exact R|exact H].
  - intros (r & i & R & H). exists r. split; [exact (nth_error_In _ _ R)|]. rewrite Nat2N.id.
    split; [rewrite (ld_id fuel l files ld LD _ _ R); apply N2Nat.id|].
    apply (srs_cells fuel l files ld LD r k (nth_error_In _ _ R)). eauto.
Qed.
Print Assumptions C73_routes_of_station_route.

Theorem C73_routes_of_station fuel l files ld : load fuel l files = Ok ld ->
  List.length (il_stations (ld_il ld)) = List.length l /\
  forall k row, nth_error (il_stations (ld_il ld)) k = Some row ->
  NoDup row /\
  forall id, In id row <-> exists r c q, nth_error (il_routes (ld_il ld)) (N.to_nat id) = Some r /\
    In c (RouteSpec.ir_cells (ld_srs ld) r) /\ nth_error (inf_routes (ld_infra ld)) (fst c) = Some q /\ ro_station q = k.
Proof.
  intros LD. destruct (ld_tables fuel l files ld LD) as (_ & _ & _ & _ & T5).
  destruct (ld_lines fuel l files ld LD) as [lines MS].
  destruct (PropsRoute.C38_station _ (List.length l) _ (ld_wf fuel l files ld LD) (r_stations _ _ _ _ (ld_im fuel l files ld LD) MS)) as (t & E & L & X & ND).
  assert (t = il_stations (ld_il ld)) by congruence. subst t. split; [exact L|].
  intros k row K. split.
  { pose proof (ND k row K) as S. clear - S. induction S as [|a row _ IH F]; constructor; [|exact IH].
    intros H. rewrite Forall_forall in F. pose proof (F a H). lia. }
  intros id. rewrite (proj2 (X k row K) id). split.
  - intros (r & R & <- & (s & sr & S1 & S2 & S3)). apply (srs_cells fuel l files ld LD r s R) in S1. destruct S1 as [i H].
    destruct (route_at _ _ _ _ (ld_im fuel l files ld LD) MS s sr S2) as (st & x & q & X' & Q & T & _).
    destruct (to_sroute_fields _ _ _ _ T) as (_ & _ & _ & _ & _ & T1 & _). rewrite T1 in S3.
    exists r, (s, i), q. split; [apply (ld_in fuel l files ld LD); exact R|]. split; [exact H|]. split; [exact Q|]. lia.
  - intros (r & [s i] & q & R & H & Q & <-). exists r. split; [exact (nth_error_In _ _ R)|].
    split; [rewrite (ld_id fuel l files ld LD _ _ R); apply N2Nat.id|].
    destruct (sroute_at _ _ _ MS s q Q) as (sr & E' & T). exists s, sr.
    split; [apply (srs_cells fuel l files ld LD r s (nth_error_In _ _ R)); eauto|]. split; [exact E'|].
    destruct (to_sroute_fields _ _ _ _ T) as (_ & _ & _ & _ & _ & T1 & _). exact T1.
Qed.
Print Assumptions C73_routes_of_station.

(* iterating a route that does not return to the station route it begins on shows its
   nodes in order, and marks those the plan omits *)
Definition omitted_by_plan (l : list (xstation * list xroute)) (inf : infrastructure) (s : nat) (n : node) : Prop :=
  exists st x id t, nth_error (routes_of l) s = Some (st, x) /\ In (id, t) (xr_omitted x) /\
    names (inf_graph inf) id (fst n).
Theorem C73_iteration_partial fuel l files ld : load fuel l files = Ok ld ->
  forall r, In r (il_routes (ld_il ld)) ->
  (1 < List.length (RouteModel.ir_srs r) -> hd 0 (RouteModel.ir_srs r) <> last (RouteModel.ir_srs r) 0) ->
  exists out, RouteModel.ir_iterate (ld_srs ld) r = Ok out /\
    Forall2 (fun y c => exists n, node_of (ld_infra ld) c n /\
        RouteModel.rn_node y = node_id (inf_graph (ld_infra ld)) n /\
        (RouteModel.rn_omitted y = true <-> omitted_by_plan l (ld_infra ld) (fst c) n))
      out (RouteSpec.ir_cells (ld_srs ld) r).
Proof.
  intros LD r R LP. destruct (ld_lines fuel l files ld LD) as [lines MS]. pose proof (ld_im fuel l files ld LD) as IM.
  destruct (PropsRoute.C37_iterate (ld_srs ld) r (r_omitted _ _ _ _ IM MS) (ld_wf fuel l files ld LD r R) LP) as (out & E & F).
  exists out. split; [exact E|]. clear - F IM MS. induction F as [|y [s i] ys cs H _ IH]; constructor; [|exact IH].
  destruct H as [(sr & E & K) O]. cbn [fst snd] in *.
  destruct (route_at _ _ _ _ IM MS s sr E) as (st & x & q & X & Q & T & _ & C).
  destruct (to_sroute_fields _ _ _ _ T) as (T1 & _ & T2 & _). rewrite T1, nth_error_map in K.
  destruct (nth_error (ro_nodes q) i) as [n|] eqn:N; [|discriminate]. cbn in K. injection K as K.
  exists n. split; [exists q; auto|]. split; [auto|]. rewrite O. unfold RouteSpec.cell_omitted, omitted_by_plan. cbn [fst snd]. split.
  - intros (sr' & E' & M). assert (sr' = sr) by congruence. subst sr'. rewrite T2 in M.
    apply (proj2 (co_omitted _ _ _ _ _ _ C)) in M. destruct M as (n' & N' & id & t & A & B). assert (n' = n) by congruence. subst n'.
    exists st, x, id, t. auto.
  - intros (st' & x' & id & t & X' & A & B). assert (x' = x) by congruence. subst x'. exists sr. split; [exact E|]. rewrite T2.
    apply (proj2 (co_omitted _ _ _ _ _ _ C)). exists n. split; [exact N|]. eauto.
Qed.
Print Assumptions C73_iteration_partial.

(* Loading succeeds exactly if there is a way between signals, provided that the plan
   can be imported, the lines are known and no station routes without signals form a
   circle. *)
Theorem C73_loads_partial l files inf lines rank fuel :
  import_routes l = Ok inf -> LineModel.parse_lines files = Ok lines -> lines_cover files inf ->
  (forall s row t, nth_error (RouteModel.g_succ (inf_successors inf)) s = Some row -> In t row ->
     (forall i, ~ signal_at l inf (s, i)) -> ~ needs_etcs files inf s -> rank t < rank s) ->
  (forall s, s < List.length (inf_routes inf) -> rank s < fuel) ->
  ((exists ld, load fuel l files = Ok ld) <-> exists cs, way_between_signals l files inf cs) /\
  (load fuel l files = UB <-> ~ exists cs, way_between_signals l files inf cs).
Proof.
  intros IM PL LC RK FU. destruct (load_total l files inf lines IM PL LC rank fuel RK FU) as (srs & il & MS & E & U & S).
  pose proof (way_ex l files inf lines IM PL srs fuel il MS E) as W. rewrite <- W. destruct il as [|r il].
  - rewrite U. split; (split; [|congruence]); [intros (ld & H); discriminate|intros _ H; exact (H eq_refl)].
  - destruct S as [ld S]; [discriminate|]. split; [split; [discriminate|eauto]|]. split; [congruence|].
    intros H. exfalso. apply H. discriminate.
Qed.
Print Assumptions C73_loads_partial.

(* for the examples *)
Definition seen_by (ld : loaded) (r : RouteModel.iroute) : list (option node) :=
  map (fun c => match nth_error (inf_routes (ld_infra ld)) (fst c) with
                | Some q => nth_error (ro_nodes q) (snd c)
                | None => None
                end) (RouteSpec.ir_cells (ld_srs ld) r).
Lemma seen_nodes ld r p : seen_by ld r = map Some p -> nodes_of ld r p.
Proof.
  unfold seen_by, nodes_of. revert p. induction (RouteSpec.ir_cells (ld_srs ld) r) as [|c cs IH]; intros [|n p]; cbn [map]; try discriminate; [constructor|].
  intros H. constructor; [|apply IH; congruence]. unfold node_of. destruct (nth_error (inf_routes (ld_infra ld)) (fst c)) as [q|]; [|discriminate].
  exists q. split; [reflexivity|congruence].
Qed.

(* FINDINGS.  A plan without any interlocking route is not loaded: the statistics
   printed at the end divide by the number of routes. *)
Definition unused_plan : list (xstation * list xroute) := combine ex_plan [[]; []].
Theorem C73_no_routes_refuted : well_drawn (map fst unused_plan) /\
  (exists inf, import_routes unused_plan = Ok inf) /\ load 10 unused_plan [] = UB.
Proof. split; [exact C63_sat|]. split; [eexists; vm_compute; reflexivity|vm_compute; reflexivity]. Qed.
Print Assumptions C73_no_routes_refuted.

(* A route that ends at a signal of the next station is continued with routes in the
   opposite direction if the border of that station follows. *)
Definition foreign_plan : list (xstation * list xroute) :=
  [(mkxst "A" [mkxsec 100 (ex_node N_BUMPER 1 0 0 "") (ex_node N_BORDER 2 0 1 "B") []],
    [mkxr false "1" 1 20 None None None [] [] [] []]);
   (mkxst "B" [mkxsec 100 (ex_node N_BORDER 3 0 1 "A") (ex_node N_BORDER 4 0 2 "C")
                 [mktnode MAIN_SIGNAL true 20 (3#2)]],
    [mkxr false "1" 4 3 None None None [] [] [] []]);
   (mkxst "C" [mkxsec 100 (ex_node N_BORDER 5 0 2 "B") (ex_node N_BUMPER 6 0 3 "") []], [])].
Theorem C73_foreign_end_refuted : exists ld r p, load 10 foreign_plan [] = Ok ld /\
  In r (il_routes (ld_il ld)) /\ nodes_of ld r p /\ ~ unbroken (inf_links (ld_infra ld)) p.
Proof.
  assert (H : match load 10 foreign_plan [] with
    | Ok ld => exists r, hd_error (il_routes (ld_il ld)) = Some r /\
        seen_by ld r = map Some [(6, Top); (5, Bot); (7, Top); (4, Bot)] /\
        next_node (inf_links (ld_infra ld)) (6, Top) = Some (5, Top) /\ branch_node (inf_links (ld_infra ld)) (6, Top) = None
    | _ => False end) by (vm_compute; eexists; repeat split).
  destruct (load 10 foreign_plan []) as [ld| | |]; try contradiction. destruct H as (r & R & P & N1 & N2).
  exists ld, r, [(6, Top); (5, Bot); (7, Top); (4, Bot)]. split; [reflexivity|].
  split; [destruct (il_routes (ld_il ld)); [discriminate|injection R as <-; left; reflexivity]|].
  split; [exact (seen_nodes _ _ _ P)|]. intros U. specialize (U 0 _ _ eq_refl eq_refl).
  unfold may_go in U. rewrite N1, N2 in U. destruct U; discriminate.
Qed.
Print Assumptions C73_foreign_end_refuted.

(* Where a route of the network's edge starts at a signal, the signal alone is an
   interlocking route. *)
Theorem C73_single_node_refuted : exists ld r n, load 10 ex_routes [] = Ok ld /\
  In r (il_routes (ld_il ld)) /\ nodes_of ld r [n].
Proof.
  assert (H : match load 10 ex_routes [] with
    | Ok ld => exists r, nth_error (il_routes (ld_il ld)) 3 = Some r /\ seen_by ld r = map Some [(3, Top)]
    | _ => False end) by (vm_compute; eexists; repeat split).
  destruct (load 10 ex_routes []) as [ld| | |]; try contradiction. destruct H as (r & R & P).
  exists ld, r, (3, Top). split; [reflexivity|]. split; [exact (nth_error_In _ _ R)|exact (seen_nodes _ _ _ P)].
Qed.
Print Assumptions C73_single_node_refuted.

Example C73_sat : well_drawn (map fst ex_routes) /\ at_home ex_routes /\
  (exists lines, LineModel.parse_lines [] = Ok lines) /\
  match import_routes ex_routes with
  | Ok inf => lines_cover [] inf /\
      (forall s row t, nth_error (RouteModel.g_succ (inf_successors inf)) s = Some row -> In t row -> 6 - t < 6 - s)
  | _ => False
  end /\
  match load 10 ex_routes [] with
  | Ok ld => List.length (il_routes (ld_il ld)) = 10 /\
      exists r, In r (il_routes (ld_il ld)) /\
        nodes_of ld r [(3, Top); (1, Top); (6, Top); (5, Top); (11, Top); (13, Top); (12, Top)]
  | _ => False
  end.
Proof.
  split; [exact C63_sat|]. split.
  { assert (D : forall s (b : bool) st x, nth_error (plan ex_plan) s = Some (st, x) ->
      part_of (sn_name (if b then xs_end x else xs_start x)) = Whole ->
      drawn_in ex_plan st (sn_id (if b then xs_end x else xs_start x))).
    { clear. intros s b st x H P. left. exists (s, b). split; [eexists; split; [exact (ex_at s b st x H)|]; split; [reflexivity|exact P]|].
      unfold station_at. exists x. exact H. }
    assert (T : drawn_in ex_plan 0 10).
    { right. exists (0, true), (mktnode MAIN_SIGNAL true 10 (1 # 2)). split; [|eexists; reflexivity].
      eexists. split; [exists 0; reflexivity|]. split; [left; reflexivity|]. auto. }
    intros st x H. unfold routes_of in H. change (routes_from 0 ex_routes) with
      (map (pair 0) (filter (fun x => negb (xr_publish_only x)) (snd (nth 0 ex_routes (mkxst "" [], [])))) ++
       map (pair 1) (snd (nth 1 ex_routes (mkxst "" [], [])))) in H.
    cbn in H. change (map fst ex_routes) with ex_plan.
    repeat (destruct H as [H|H]; [injection H as <- <-; cbn [xr_start xr_end];
      (split; [first [exact T|exact (D 0 false 0 _ eq_refl eq_refl)|exact (D 3 false 1 _ eq_refl eq_refl)]
              |first [exact (D 1 true 0 _ eq_refl eq_refl)|exact (D 2 true 0 _ eq_refl eq_refl)|exact (D 3 true 1 _ eq_refl eq_refl)]])|]).
    destruct H. }
  split; [eexists; reflexivity|]. split.
  - assert (H : match import_routes ex_routes with
      | Ok inf => map (fun e => match e_type e with ETCS_START => false | _ => true end) (g_elems (inf_graph inf)) = repeat true 15 /\
                  RouteModel.g_succ (inf_successors inf) = [[5; 4]; []; [5; 4]; [5; 4]; []; []]
      | _ => False end) by (vm_compute; auto).
    destruct (import_routes ex_routes) as [inf| | |]; try contradiction. destruct H as [H1 H2]. split.
    + intros k r n _ _ (e & E & T). exfalso. unfold elem_at in E.
      assert (B : In false (repeat true 15)) by (rewrite <- H1; apply in_map_iff; exists e; split; [rewrite T; reflexivity|exact (nth_error_In _ _ E)]).
      apply repeat_spec in B. discriminate.
    + rewrite H2. intros s row t R I.
      destruct s as [|[|[|[|[|[|s]]]]]]; cbn in R; try discriminate; [..|destruct s; discriminate]; injection R as <-; cbn in I;
        repeat (destruct I as [<-|I]; [lia|]); destruct I.
  - assert (H : match load 10 ex_routes [] with
      | Ok ld => List.length (il_routes (ld_il ld)) = 10 /\ exists r, hd_error (il_routes (ld_il ld)) = Some r /\
          seen_by ld r = map Some [(3, Top); (1, Top); (6, Top); (5, Top); (11, Top); (13, Top); (12, Top)]
      | _ => False end).
    { vm_compute. split; [reflexivity|]. eexists. split; reflexivity. }
    destruct (load 10 ex_routes []) as [ld| | |]; try contradiction. destruct H as (L & r & R & P). split; [exact L|].
    exists r. split; [destruct (il_routes (ld_il ld)); [discriminate|injection R as <-; left; reflexivity]|exact (seen_nodes _ _ _ P)].
Qed.
