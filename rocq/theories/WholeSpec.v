(* Vocabulary of the properties of a loaded infrastructure. *)
From Coq Require Import List NArith ZArith QArith String.
From Verif Require Import Base TextModel InfraModel InfraSpec StationModel StationSpec StationWay WholeModel.
From Verif Require RouteModel RouteSpec LineModel.
Import ListNotations.
Local Open Scope nat_scope.

(* a train at node a may drive on to b *)
Definition may_go (ls : list links) (a b : node) : Prop :=
  next_node ls a = Some b \/ branch_node ls a = Some b.
Definition unbroken (ls : list links) (p : list node) : Prop :=
  forall k a b, nth_error p k = Some a -> nth_error p (S k) = Some b -> may_go ls a b.

(* cell (s, i) of the network: node i of station route s *)
Definition node_of (inf : infrastructure) (c : nat * nat) (n : node) : Prop :=
  exists r, nth_error (inf_routes inf) (fst c) = Some r /\ nth_error (ro_nodes r) (snd c) = Some n.
(* the nodes an interlocking route drives over *)
Definition nodes_of (ld : loaded) (r : RouteModel.iroute) (p : list node) : Prop :=
  Forall2 (node_of (ld_infra ld)) (RouteSpec.ir_cells (ld_srs ld) r) p.

(* every route of the plan starts and ends at something drawn in its own station *)
Definition drawn_in (l : list xstation) (st : nat) (id : N) : Prop :=
  (exists p, at_device l p id /\ station_at l p st) \/
  (exists w t, at_track l w id t /\ station_at l w st).
Definition at_home (l : list (xstation * list xroute)) : Prop :=
  forall st x, In (st, x) (routes_of l) ->
    drawn_in (map fst l) st (xr_start x) /\ drawn_in (map fst l) st (xr_end x).

(* a main signal that the plan of the station route does not omit *)
Definition signal_at (l : list (xstation * list xroute)) (inf : infrastructure) (c : nat * nat) : Prop :=
  exists st x n, nth_error (routes_of l) (fst c) = Some (st, x) /\ node_of inf c n /\
    node_type (inf_graph inf) n MAIN_SIGNAL /\
    ~ exists id, In (id, MAIN_SIGNAL) (xr_omitted x) /\ names (inf_graph inf) id (fst n).
(* the first node of a station route no other one leads to, and the last node of a
   station route that leads to no other one *)
Definition entry_of_network (inf : infrastructure) (c : nat * nat) : Prop :=
  nth_error (RouteModel.g_pred (inf_successors inf)) (fst c) = Some [] /\ snd c = 0.
Definition exit_of_network (inf : infrastructure) (c : nat * nat) : Prop :=
  nth_error (RouteModel.g_succ (inf_successors inf)) (fst c) = Some [] /\
  exists r, nth_error (inf_routes inf) (fst c) = Some r /\ S (snd c) = List.length (ro_nodes r).

(* the cell a train gets to from cell c: the next one of the station route, or the
   first one of a successor *)
Definition next_cell (inf : infrastructure) (c d : nat * nat) : Prop :=
  exists r, nth_error (inf_routes inf) (fst c) = Some r /\
    ((fst d = fst c /\ snd d = S (snd c) /\ snd d < List.length (ro_nodes r)) \/
     (S (snd c) = List.length (ro_nodes r) /\ snd d = 0 /\
      exists row, nth_error (RouteModel.g_succ (inf_successors inf)) (fst c) = Some row /\ In (fst d) row)).
Definition follows (inf : infrastructure) (cs : list (nat * nat)) : Prop :=
  forall k c d, nth_error cs k = Some c -> nth_error cs (S k) = Some d -> next_cell inf c d.
(* the cells lie on more than one station route *)
Definition goes_on (cs : list (nat * nat)) : Prop :=
  exists k c, nth_error cs (S k) = Some c /\ snd c = 0.

(* station route k has its last ETCS start at an element e, beside a part of a line
   with these properties *)
Definition etcs_start (files : list (list LineModel.xml_line)) (inf : infrastructure) (k : nat)
  (e : elem) (sg : LineModel.segment) : Prop :=
  exists r i n lines nr ln,
    nth_error (inf_routes inf) k = Some r /\
    last_visit (ro_nodes r) (fun m => node_type (inf_graph inf) m ETCS_START) (Some i) /\
    nth_error (ro_nodes r) i = Some n /\ elem_at (inf_graph inf) (fst n) e /\
    LineModel.parse_lines files = Ok lines /\ e_line e S0 = Some nr /\ In (Z.of_N nr, ln) lines /\
    LineModel.get_segment ln (e_km e S0) = Ok sg.
(* trains without ETCS cannot use station route k *)
Definition needs_etcs (files : list (list LineModel.xml_line)) (inf : infrastructure) (k : nat) : Prop :=
  exists e sg, etcs_start files inf k e sg /\ LineModel.sg_signalling sg = false.
(* every station route with an ETCS start has one beside a known part of a line *)
Definition lines_cover (files : list (list LineModel.xml_line)) (inf : infrastructure) : Prop :=
  forall k r n, nth_error (inf_routes inf) k = Some r -> In n (ro_nodes r) ->
    node_type (inf_graph inf) n ETCS_START ->
    exists e sg, etcs_start files inf k e sg /\ e_kind e = KTrack.

(* a way from one signal to the next one; it may also begin where the network begins
   or end where it ends *)
Record way_between_signals (l : list (xstation * list xroute)) (files : list (list LineModel.xml_line))
  (inf : infrastructure) (cs : list (nat * nat)) : Prop := {
  way_follows : follows inf cs;
  way_first : exists c, nth_error cs 0 = Some c /\ (signal_at l inf c \/ entry_of_network inf c);
  way_last : exists c, nth_error cs (List.length cs - 1) = Some c /\
    (signal_at l inf c \/ exit_of_network inf c);
  way_inner : forall k c, 0 < k -> S k < List.length cs -> nth_error cs k = Some c -> ~ signal_at l inf c;
  (* at one end of the network, the way may be a single node *)
  way_one : List.length cs = 1 -> forall c, In c cs -> entry_of_network inf c \/ exit_of_network inf c;
  (* if there is no signal at all: more than one station route *)
  way_some : goes_on cs \/ exists c, In c cs /\ signal_at l inf c;
  way_etcs : goes_on cs -> forall c, In c cs -> ~ needs_etcs files inf (fst c) }.

(* the row of a node in a table of the interlocking lists exactly these routes *)
Definition row_lists (g : graph) (t : list (list N)) (n : node) (P : N -> Prop) : Prop :=
  exists row, nth_error t (N.to_nat (node_id g n)) = Some row /\ forall id, In id row <-> P id.
