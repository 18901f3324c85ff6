(* Specification vocabulary of station routes. *)
From Coq Require Import List Bool NArith QArith String Sorted Permutation.
From Verif Require Import Base TextModel InfraModel StationModel.
Import ListNotations.
Local Open Scope nat_scope.

(* ---- driving along a course ---- *)
Definition elem_at (g : graph) (i : nat) (e : elem) : Prop := nth_error (g_elems g) i = Some e.
Definition node_type (g : graph) (n : node) (t : etype) : Prop :=
  exists e, elem_at g (fst n) e /\ e_type e = t.
(* switches, and crossings with at least one slip, take an entry of the course *)
Definition takes_decision (g : graph) (n : node) : bool :=
  match nth_error (g_elems g) (fst n) with
  | Some e => match e_type e with
              | SIMPLE_SWITCH => true
              | CROSS => e_arc_lr e || e_arc_rl e
              | _ => false
              end
  | None => false
  end.
Definition decisions (g : graph) (way : list node) : nat :=
  List.length (filter (takes_decision g) way).
(* after having driven way, a train at node a drives on to b; None: there is no
   node to drive on to.  Where tracks diverge, the course has to tell *)
Definition drives_on (g : graph) (ls : list links) (course : list decision) (way : list node)
  (a : node) (b : option node) : Prop :=
  match branch_node ls a with
  | None => b = next_node ls a
  | Some c => (nth_error course (decisions g way) = Some STEM /\ b = next_node ls a) \/
              (nth_error course (decisions g way) = Some BRANCH /\ b = Some c)
  end.
Definition drive (g : graph) (ls : list links) (course : list decision) (a : node) (p : list node)
  : Prop :=
  hd_error p = Some a /\
  forall i x y, nth_error p i = Some x -> nth_error p (S i) = Some y ->
    drives_on g ls course (firstn i p) x (Some y).
(* the drive from a to the first visit of b *)
Definition drive_to (g : graph) (ls : list links) (course : list decision) (a b : node)
  (p : list node) : Prop :=
  drive g ls course a p /\
  forall i, nth_error p i = Some b <-> S i = List.length p.

(* ---- the station routes of a plan ---- *)
(* those that are not only published, with the number of their station *)
Fixpoint routes_from (st : nat) (l : list (xstation * list xroute)) : list (nat * xroute) :=
  match l with
  | [] => []
  | (_, xs) :: l =>
      map (pair st) (filter (fun x => negb (xr_publish_only x)) xs) ++ routes_from (S st) l
  end.
Definition routes_of (l : list (xstation * list xroute)) : list (nat * xroute) := routes_from 0 l.

(* the element the id of a rail plan node stands for *)
Definition names (g : graph) (id : N) (i : nat) : Prop := rp_find (g_rp g) id = Some i.
(* ... when the routes of a station were read *)
Definition named_when_read (l : list (xstation * list xroute)) (st : nat) (id : N) (i : nat) : Prop :=
  exists g, parse_stations no_graph 0 (firstn (S st) (map fst l)) = Ok g /\ names g id i.

(* types of elements that are not beside a track *)
Definition section_types : list etype :=
  [BUMPER; BORDER; TRACK_END; KM_JUMP; LINE_SWITCH; SIMPLE_SWITCH; CROSS; INVALID].
Definition on_track (g : graph) (n : node) : Prop :=
  exists e, elem_at g (fst n) e /\ ~ In (e_type e) section_types.
(* where a route starts and ends: into the station at its borders and the ends of
   its tracks, out of it at the other one; elsewhere at a directed element *)
Definition at_edge (e : elem) : Prop := In (e_type e) [BUMPER; BORDER; TRACK_END].
Definition starts_at (g : graph) (i : nat) (n : node) : Prop :=
  exists e, elem_at g i e /\
    ((at_edge e /\ n = (i, if e_rise e S0 then Bot else Top)) \/
     (~ at_edge e /\ e_kind e = KTrack /\ n = (i, Top))).
Definition ends_at (g : graph) (i : nat) (n : node) : Prop :=
  exists e, elem_at g i e /\
    ((at_edge e /\ n = (i, if e_rise e S0 then Top else Bot)) \/
     (~ at_edge e /\ e_kind e = KTrack /\ n = (i, Top))).
Definition advice (c : string) (d : decision) : Prop := d = STEM <-> c = "Stamm"%string.

(* C65: the path of a route *)
Definition path_as_described (g : graph) (ls : list links) (x : xroute) (r : route) : Prop :=
  exists i j a b course,
    names g (xr_start x) i /\ names g (xr_end x) j /\ starts_at g i a /\ ends_at g j b /\
    Forall2 advice (xr_course x) course /\ drive_to g ls course a b (ro_nodes r).

(* C67: what lies on the path *)
Definition marks (nodes : list node) (P : node -> Prop) (l : list nat) : Prop :=
  StronglySorted lt l /\ forall k, In k l <-> exists n, nth_error nodes k = Some n /\ P n.
Definition last_visit (nodes : list node) (P : node -> Prop) (o : option nat) : Prop :=
  match o with
  | Some k => (exists n, nth_error nodes k = Some n /\ P n) /\
              forall k' n, k < k' -> nth_error nodes k' = Some n -> ~ P n
  | None => forall n, In n nodes -> ~ P n
  end.
Definition first_at (nodes : list node) (i k : nat) : Prop :=
  (exists n, nth_error nodes k = Some n /\ fst n = i) /\
  forall k' n, k' < k -> nth_error nodes k' = Some n -> fst n <> i.
Definition halt_as_described (g : graph) (nodes : list node) (o : option N) (pos : option nat) : Prop :=
  match o with
  | Some id => if N.eqb id (2 ^ 64 - 1) then pos = None
               else exists i, names g id i /\ last_visit nodes (fun n => on_track g n /\ fst n = i) pos
  | None => pos = None
  end.
Definition attribute_names : list string :=
  ["DurchfahrtOhneHaltMoeglich"; "Elektrifiziert"; "Falschfahrt"; "Gleiswechselbetrieb";
   "Stumpfgleis"; "AusDurchfahrt40"; "HaltImmerMoeglich"; "AutomatischErzeugt";
   "UmleitungStreckenwechsel"; "HerausDurchgehendesHauptgleis";
   "HineinDurchgehendesHauptgleis"]%string.

Record contents_as_described (l : list (xstation * list xroute)) (g : graph) (ls : list links)
  (st : nat) (x : xroute) (r : route) : Prop := {
  co_name : ro_name r = xr_name x;
  co_station : ro_station r = st;
  co_attributes : List.length (ro_attributes r) = 11 /\
    forall k, nth_error (ro_attributes r) k = Some true <->
              exists a, nth_error attribute_names k = Some a /\ In a (xr_attributes x);
  co_attributes_known : forall a, In a (xr_attributes x) -> In a attribute_names;
  (* the main signals except those the plan omits *)
  co_main : marks (ro_nodes r)
    (fun n => node_type g n MAIN_SIGNAL /\
              ~ exists id, In (id, MAIN_SIGNAL) (xr_omitted x) /\ names g id (fst n))
    (p_main (ro_path r));
  co_etcs_starts : marks (ro_nodes r) (fun n => node_type g n ETCS_START) (p_etcs_starts (ro_path r));
  co_etcs_ends : marks (ro_nodes r) (fun n => node_type g n ETCS_END) (p_etcs_ends (ro_path r));
  (* as many omitted nodes as the plan lists *)
  co_omitted : marks (ro_nodes r)
    (fun n => exists id t, In (id, t) (xr_omitted x) /\ names g id (fst n)) (ro_omitted r);
  co_omitted_count : List.length (ro_omitted r) = List.length (xr_omitted x);
  co_checkpoint : halt_as_described g (ro_nodes r) (xr_checkpoint x) (ro_checkpoint r);
  co_passenger : halt_as_described g (ro_nodes r) (xr_passenger x) (ro_passenger r);
  co_freight : halt_as_described g (ro_nodes r) (xr_freight x) (ro_freight r);
  (* the speed limits, each at its element, in the order of the path *)
  co_limits : exists es,
    Forall2 (fun y ve => fst ve = xl_value y /\ named_when_read l st (xl_id y) (snd ve))
            (filter (fun y => negb (String.eqb (xl_type y) "Warnfeld")) (xr_limits x)) es /\
    Permutation (map fst (ro_limits r)) es;
  co_limit_nodes : forall v i n, In (v, i, n) (ro_limits r) ->
    exists k, first_at (ro_nodes r) i k /\ nth_error (ro_nodes r) k = Some n;
  co_limits_sorted : StronglySorted (fun a b => forall i j,
      first_at (ro_nodes r) (snd (fst a)) i -> first_at (ro_nodes r) (snd (fst b)) j -> i <= j)
    (ro_limits r);
  co_size : (N.of_nat (List.length (ro_nodes r)) < 2 ^ 16 - 1)%N;
  (* the station behind the last and before the first node, if it is another one *)
  co_to : forall s, ro_to r = Some s <->
    s <> st /\ exists p n m e, ro_nodes r = p ++ [n] /\ next_node ls n = Some m /\
                               elem_at g (fst m) e /\ e_station e = s;
  co_from : forall n p, ro_nodes r = n :: p ->
    (forall m m' e e', next_node ls m = Some n \/ branch_node ls m = Some n ->
       next_node ls m' = Some n \/ branch_node ls m' = Some n ->
       elem_at g (fst m) e -> elem_at g (fst m') e' -> e_station e = e_station e') ->
    forall s, ro_from r = Some s <->
      s <> st /\ exists m e, (next_node ls m = Some n \/ branch_node ls m = Some n) /\
                             elem_at g (fst m) e /\ e_station e = s }.

(* C66: the routes of a plan that share one path *)
Definition same_way (x y : xroute) : Prop :=
  xr_start x = xr_start y /\ xr_end x = xr_end y /\
  Forall2 (fun c d => c = "Stamm"%string <-> d = "Stamm"%string) (xr_course x) (xr_course y) /\
  forall id, In (id, MAIN_SIGNAL) (xr_omitted x) <-> In (id, MAIN_SIGNAL) (xr_omitted y).

(* C68: driving on from one route to another one, in the next station *)
Definition boundary (g : graph) (n : node) : Prop := node_type g n BORDER \/ node_type g n TRACK_END.
(* routes from the border of a station to somewhere inside *)
Definition entering (g : graph) (r : route) : Prop :=
  (exists n p, ro_nodes r = n :: p /\ boundary g n) /\
  (exists n p, ro_nodes r = p ++ [n] /\ ~ boundary g n).
Definition continues (g : graph) (ls : list links) (r q : route) : Prop :=
  exists p n m m' p', ro_nodes r = p ++ [n] /\ next_node ls n = Some m /\
    ro_nodes q = m' :: p' /\ fst m' = fst m /\
    ro_station q <> ro_station r /\ exists e, elem_at g (fst m) e /\ e_station e = ro_station q.
Definition ends_in (g : graph) (r : route) (t : etype) : Prop :=
  exists n p, ro_nodes r = p ++ [n] /\ node_type g n t.
Definition by_name (r q : route) : Prop := String.ltb (ro_name r) (ro_name q) = true.
