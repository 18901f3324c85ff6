(* C65 - C69: the station routes of the imported network *)
From Coq Require Import List Bool NArith QArith String Sorted Permutation Arith Lia.
From Verif Require Import Base TextModel InfraModel StationModel StationSpec StationPath StationRoute
  StationProofs StationNet PropsInfra.
From Verif Require RouteModel.
Import ListNotations.
Local Open Scope nat_scope.

(* ---- C65: the path of a station route ---- *)
Theorem C65_path_search g ls course a b : connect_nodes g = Ok ls ->
  fst a < List.length (g_elems g) ->
  (forall p, get_path (path_fuel g course) g ls course 0 (Some a) b = Ok p <-> drive_to g ls course a b p) /\
  match get_path (path_fuel g course) g ls course 0 (Some a) b with
  | Ok p => True
  | Throw => exists p x, drive g ls course a (p ++ [x]) /\ ~ In b (p ++ [x]) /\
                         drives_on g ls course p x None
  | UB => exists p x, drive g ls course a (p ++ [x]) /\ ~ In b (p ++ [x]) /\
                      branch_node ls x <> None /\ nth_error course (decisions g p) = None
  | Fuel => forall n, exists p, List.length p = S n /\ drive g ls course a p /\ ~ In b p
  end.
Proof.
  intros C L. pose proof (connect_closed g ls C) as CL. split.
  - intros p. split; [apply path_ok; auto|apply path_complete; auto].
  - pose proof (path_outcome g ls course a b CL L) as H. destruct (get_path _ _ _ _ _ _ _); auto.
Qed.
Print Assumptions C65_path_search.

Theorem C65_one_drive g ls course a b p q :
  drive_to g ls course a b p -> drive_to g ls course a b q -> p = q.
Proof. apply drive_to_unique. Qed.
Print Assumptions C65_one_drive.

Theorem C65_routes_follow_their_course l inf : import_routes l = Ok inf ->
  List.length (inf_routes inf) = List.length (routes_of l) /\
  forall k st x r, nth_error (routes_of l) k = Some (st, x) -> nth_error (inf_routes inf) k = Some r ->
    ro_id r = k /\ path_as_described (inf_graph inf) (inf_links inf) x r.
Proof.
  intros I. destruct (import_spec l inf I) as (_ & _ & _ & A & B & _). split; [exact A|].
  intros k st x r X R. destruct (B k st x r X R) as (C & D & _). auto.
Qed.
Print Assumptions C65_routes_follow_their_course.

(* the network the routes run through is the imported one (C63, C64) *)
Theorem C65_same_network l inf : import_routes l = Ok inf ->
  import (map fst l) = Ok (inf_graph inf) /\ connect_nodes (inf_graph inf) = Ok (inf_links inf).
Proof. intros I. destruct (import_spec l inf I) as (A & B & _). auto. Qed.
Print Assumptions C65_same_network.

(* the plan of PropsInfra with station routes: over the straight track twice, over
   the branch, only published; and one in the next station *)
Definition ex_limit (t : string) (id : N) (v : N) : xlimit := mkxl t id v.
Definition ex_routes : list (xstation * list xroute) :=
  combine ex_plan
    [[mkxr false "1" 1 4 (Some 10%N) None None [] ["Elektrifiziert"%string] ["Stamm"%string]
           [ex_limit "" 12 70; ex_limit "Warnfeld" 99 1; ex_limit "" 1 50];
      mkxr true "x" 77 78 None None None [] ["?"%string] [] [];
      mkxr false "2" 10 6 None (Some 10%N) None [] [] ["Abzweig"%string] [];
      mkxr false "3" 1 4 None None None [] [] ["Stamm"%string] [];
      mkxr false "4" 1 4 None None None [(10%N, MAIN_SIGNAL)] [] ["Stamm"%string] []];
     [mkxr false "1" 7 8 None None None [] [] [] [];
      mkxr false "0" 7 8 None None None [] [] [] []]].
Definition ex_view (f : StationModel.route -> list nat) : list (list nat) :=
  match import_routes ex_routes with Ok inf => map f (inf_routes inf) | _ => [] end.
Example C65_sat : ex_view (fun r => map fst (ro_nodes r)) =
  [[0; 2; 3; 1; 6; 5]; [3; 1; 9; 8]; [0; 2; 3; 1; 6; 5]; [0; 2; 3; 1; 6; 5]; [11; 13; 12]; [11; 13; 12]].
Proof. vm_compute. reflexivity. Qed.


(* FINDINGS.  A course with too few entries is read behind its end, instead of being
   rejected. *)
Definition short_plan : list (xstation * list xroute) :=
  combine ex_plan [[mkxr false "1" 1 4 None None None [] [] [] []]].
Theorem C65_short_course_refuted : import_routes short_plan = UB.
Proof. vm_compute. reflexivity. Qed.
Print Assumptions C65_short_course_refuted.
(* On a track in a circle a route whose end stands in the other direction is searched
   for without end. *)
Definition ring_plan : list (xstation * list xroute) :=
  [(mkxst "A" [mkxsec 100 (ex_node N_LINE_SWITCH_ONE 2 1 0 "") (ex_node N_LINE_SWITCH_ZERO 3 0 2 "")
                 [mktnode MAIN_SIGNAL true 10 1; mktnode MAIN_SIGNAL false 11 1];
               mkxsec 100 (ex_node N_LINE_SWITCH_ONE 4 3 2 "") (ex_node N_LINE_SWITCH_ZERO 1 0 3 "") []],
    [mkxr false "1" 10 11 None None None [] [] [] []])].
Theorem C65_endless_search_refuted : exists g ls i j a b,
  import (map fst ring_plan) = Ok g /\ connect_nodes g = Ok ls /\
  names g 10 i /\ names g 11 j /\ starts_at g i a /\ ends_at g j b /\
  forall n, exists p, List.length p = S n /\ drive g ls [] a p /\ ~ In b p.
Proof.
  destruct (import (map fst ring_plan)) as [g| | |] eqn:I; try (vm_compute in I; discriminate I).
  destruct (connect_nodes g) as [ls| | |] eqn:C; try (vm_compute in I; injection I as <-; vm_compute in C; discriminate C).
  exists g, ls, 2, 3, (2, Top), (3, Top). split; [reflexivity|]. split; [exact C|].
  pose proof (C65_path_search g ls [] (2, Top) (3, Top) C) as P.
  vm_compute in I. injection I as I. rewrite <- I in C. vm_compute in C. injection C as C. subst ls g.
  split; [reflexivity|]. split; [reflexivity|].
  split; [eexists; split; [reflexivity|right; split; [cbn; intuition discriminate|split; reflexivity]]|].
  split; [eexists; split; [reflexivity|right; split; [cbn; intuition discriminate|split; reflexivity]]|].
  destruct P as [_ P]; [vm_compute; lia|]. 
  match type of P with match ?t with _ => _ end => replace t with (@Fuel (list node)) in P by (vm_compute; reflexivity) end.
  exact P.
Qed.
Print Assumptions C65_endless_search_refuted.

(* ---- C66: routes over the same way share one path ---- *)
Theorem C66_shared_paths l inf : import_routes l = Ok inf ->
  forall k h st x r st' x' r',
    nth_error (routes_of l) k = Some (st, x) -> nth_error (inf_routes inf) k = Some r ->
    nth_error (routes_of l) h = Some (st', x') -> nth_error (inf_routes inf) h = Some r' ->
    (ro_path_id r = ro_path_id r' <-> same_way x x') /\
    (ro_path_id r = ro_path_id r' -> ro_path r = ro_path r').
Proof. intros I. destruct (import_spec l inf I) as (_ & _ & _ & _ & _ & A & _). exact A. Qed.
Print Assumptions C66_shared_paths.
Example C66_sat : ex_view (fun r => [ro_path_id r]) = [[0]; [1]; [0]; [2]; [3]; [3]].
Proof. vm_compute. reflexivity. Qed.

(* ---- C67: signals, halts, omitted nodes, speed limits of a route ---- *)
Theorem C67_route_contents l inf : import_routes l = Ok inf ->
  forall k st x r, nth_error (routes_of l) k = Some (st, x) -> nth_error (inf_routes inf) k = Some r ->
    contents_as_described l (inf_graph inf) (inf_links inf) st x r.
Proof.
  intros I k st x r X R. destruct (import_spec l inf I) as (_ & _ & _ & _ & B & _).
  destruct (B k st x r X R) as (_ & _ & D & _). exact D.
Qed.
Print Assumptions C67_route_contents.

Theorem C67_names_are_unique l inf : import_routes l = Ok inf ->
  NoDup (map (fun r => (ro_station r, ro_name r)) (inf_routes inf)).
Proof. intros I. destruct (import_spec l inf I) as (_ & _ & _ & _ & _ & _ & A). exact A. Qed.
Print Assumptions C67_names_are_unique.
Example C67_sat :
  ex_view (fun r => p_main (ro_path r)) = [[2]; [0]; [2]; []; []; []] /\
  ex_view ro_omitted = [[]; []; []; [2]; []; []] /\
  ex_view (fun r => map (fun y => snd (fst y)) (ro_limits r)) = [[0; 2]; []; []; []; []; []] /\
  ex_view (fun r => match ro_checkpoint r with Some i => [i] | None => [] end) = [[2]; []; []; []; []; []].
Proof. vm_compute. auto. Qed.

(* ---- C68: successors and predecessors ---- *)
Theorem C68_successors l inf : import_routes l = Ok inf ->
  List.length (RouteModel.g_succ (inf_successors inf)) = List.length (inf_routes inf) /\
  forall k r row, nth_error (inf_routes inf) k = Some r ->
    nth_error (RouteModel.g_succ (inf_successors inf)) k = Some row ->
    exists qs, Forall2 (fun h q => nth_error (inf_routes inf) h = Some q) row qs /\ NoDup row /\
      StronglySorted by_name qs /\
      forall h, In h row <-> exists q, nth_error (inf_routes inf) h = Some q /\
        continues (inf_graph inf) (inf_links inf) r q /\ ~ entering (inf_graph inf) r /\
        ~ ends_in (inf_graph inf) r TRACK_END.
Proof.
  intros I. split; [exact (successors_len l inf I)|]. intros k r row. exact (successors_spec l inf I k r row).
Qed.
Print Assumptions C68_successors.

Theorem C68_predecessors l inf : import_routes l = Ok inf ->
  List.length (RouteModel.g_pred (inf_successors inf)) = List.length (inf_routes inf) /\
  forall k row, nth_error (RouteModel.g_pred (inf_successors inf)) k = Some row ->
    NoDup row /\ forall h, In h row <->
      exists srow, nth_error (RouteModel.g_succ (inf_successors inf)) h = Some srow /\ In k srow.
Proof. exact (predecessors_spec l inf). Qed.
Print Assumptions C68_predecessors.
Example C68_sat : match import_routes ex_routes with
  | Ok inf => RouteModel.g_succ (inf_successors inf) = [[5; 4]; []; [5; 4]; [5; 4]; []; []] /\
              RouteModel.g_pred (inf_successors inf) = [[]; []; []; []; [0; 2; 3]; [0; 2; 3]]
  | _ => False end.
Proof. vm_compute. auto. Qed.

(* ---- C69: driving backwards ---- *)
Definition leads (ls : list links) (m n : node) : Prop :=
  next_node ls m = Some n \/ branch_node ls m = Some n.
Theorem C69_reverse_edges g ls m n : connect_nodes g = Ok ls ->
  In m (reverse_edges g ls n) <-> leads ls m n.
Proof. intros C. apply reverse_edges_in, C. Qed.
Print Assumptions C69_reverse_edges.

Lemma default_in ls n : forall ins m, default_reverse_ahead ls n ins = Ok m -> In m ins /\ next_node ls m = Some n.
Proof.
  induction ins as [|i ins IH]; intros m; cbn [default_reverse_ahead]; [discriminate|].
  destruct (leads_to (next_node ls i) n) eqn:E.
  - intros [= <-]. split; [left; reflexivity|]. apply leads_to_eq, E.
  - intros H. apply IH in H. cbn [In]. tauto.
Qed.
Lemma default_throw ls n : forall ins, match default_reverse_ahead ls n ins with
  | Ok _ => True | Throw => forall m, In m ins -> next_node ls m <> Some n | _ => False end.
Proof.
  induction ins as [|i ins IH]; cbn [default_reverse_ahead]; [intros m []|].
  destruct (leads_to (next_node ls i) n) eqn:E; [exact I|].
  destruct (default_reverse_ahead ls n ins); auto.
  intros m [<-|M]; [|auto]. intros X. apply leads_to_eq in X. congruence.
Qed.
Lemma switch_in g ls e n : forall ins m, switch_reverse_ahead g ls e n ins = Some m ->
  In m ins /\ at_side e S2 (fst m) = false.
Proof.
  induction ins as [|i ins IH]; intros m; cbn [switch_reverse_ahead]; [discriminate|].
  destruct (at_side e S2 (fst i)) eqn:A; [intros H; apply IH in H; cbn [In]; tauto|].
  destruct (node_is g SIMPLE_SWITCH i || leads_to (next_node ls i) n).
  - intros [= <-]. cbn [In]. auto.
  - intros H; apply IH in H; cbn [In]; tauto.
Qed.
Lemma switch_none g ls e n : forall ins, switch_reverse_ahead g ls e n ins = None ->
  forall m, In m ins -> at_side e S2 (fst m) = false -> ~ node_type g m SIMPLE_SWITCH /\ next_node ls m <> Some n.
Proof.
  induction ins as [|i ins IH]; cbn [switch_reverse_ahead]; [intros _ m []|].
  intros H m [<-|M] A.
  - rewrite A in H. destruct (node_is g SIMPLE_SWITCH i) eqn:E1; [discriminate|].
    destruct (leads_to (next_node ls i) n) eqn:E2; [discriminate|].
    split; [intros X; apply node_is_type in X; congruence|intros X; apply leads_to_eq in X; congruence].
  - destruct (at_side e S2 (fst i)); [apply IH; auto|].
    destruct (node_is g SIMPLE_SWITCH i || leads_to (next_node ls i) n); [discriminate|]. apply IH; auto.
Qed.

(* The node a train comes from if it drives straight on.  At a switch the elements
   are told apart: it comes from one that is not behind the branch; elsewhere it
   came straight ahead. *)
Theorem C69_reverse_ahead g ls n e : connect_nodes g = Ok ls -> elem_at g (fst n) e ->
  match reverse_ahead g ls n with
  | Ok None => forall m, ~ leads ls m n
  | Ok (Some m) => leads ls m n /\
      ((forall m', leads ls m' n -> m' = m) \/
       if match e_kind e with KSwitch => true | _ => false end
       then at_side e S2 (fst m) = false else next_node ls m = Some n)
  | Throw => (exists m, leads ls m n) /\
      forall m, leads ls m n -> next_node ls m = Some n ->
        e_kind e = KSwitch /\ at_side e S2 (fst m) = true
  | _ => False
  end.
Proof.
  intros C E. unfold reverse_ahead. pose proof (fun m => C69_reverse_edges g ls m n C) as R.
  destruct (reverse_edges g ls n) as [|i [|j r]].
  - intros m M. apply R in M. destruct M.
  - split; [apply R; left; reflexivity|]. left. intros m M. apply R in M. destruct M as [M|[]]. auto.
  - apply get_e_at in E. rewrite E. cbn [bind].
    assert (Ex : exists m, leads ls m n) by (exists i; apply R; left; reflexivity).
    assert (Df : e_kind e <> KSwitch -> match (do x <- default_reverse_ahead ls n (i :: j :: r); Ok (Some x)) with
      | Ok None => forall m, ~ leads ls m n
      | Ok (Some m) => leads ls m n /\
        ((forall m', leads ls m' n -> m' = m) \/ next_node ls m = Some n)
      | Throw => (exists m, leads ls m n) /\
         forall m, leads ls m n -> next_node ls m = Some n -> e_kind e = KSwitch /\ at_side e S2 (fst m) = true
      | _ => False end).
    { intros K. pose proof (default_throw ls n (i :: j :: r)) as T.
      destruct (default_reverse_ahead ls n (i :: j :: r)) as [m| | |] eqn:D; cbn [bind]; auto.
      - apply default_in in D. destruct D as [D1 D2]. split; [apply R, D1|auto].
      - split; [exact Ex|]. intros m M X. exfalso. apply (T m); [apply R, M|exact X]. }
    destruct (e_kind e) eqn:K; try (apply Df; congruence). clear Df.
    destruct (switch_reverse_ahead g ls e n (i :: j :: r)) as [m|] eqn:S.
    + apply switch_in in S. destruct S as [S1 S2]. split; [apply R, S1|auto].
    + assert (Th : (exists m, leads ls m n) /\
        forall m, leads ls m n -> next_node ls m = Some n -> KSwitch = KSwitch /\ at_side e S2 (fst m) = true).
      { split; [exact Ex|]. intros m M X. split; [reflexivity|].
        destruct (at_side e S2 (fst m)) eqn:A; [reflexivity|]. apply R in M.
        destruct (switch_none _ _ _ _ _ S m M A) as [_ Y]. contradiction. }
      destruct r; [|exact Th]. destruct (node_eqb i j) eqn:B; [|exact Th].
      apply node_eqb_eq in B. subst j. split; [apply R; left; reflexivity|]. left.
      intros m M. apply R in M. destruct M as [M|[M|[]]]; auto.
Qed.
Print Assumptions C69_reverse_ahead.
(* backwards over the switch of the example, from its toe: along the straight track *)
Example C69_sat : match import_routes ex_routes with
  | Ok inf => reverse_edges (inf_graph inf) (inf_links inf) (1, Bot) = [(7, Top); (10, Top)] /\
              reverse_ahead (inf_graph inf) (inf_links inf) (1, Bot) = Ok (Some (7, Top)) /\
              reverse_ahead (inf_graph inf) (inf_links inf) (0, Top) = Ok None
  | _ => False end.
Proof. vm_compute. auto. Qed.
