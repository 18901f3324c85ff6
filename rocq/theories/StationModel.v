(* Model of the station routes of the imported network:
   src/infrastructure/parsers/iss/parse_station_route.cc,
   src/infrastructure/parsers/iss/parse_iss.cc:520-891 (paths, station routes),
   src/infrastructure/station/station_route_graph.cc,
   include/soro/infrastructure/path/length.h, is_path.h,
   src/infrastructure/graph/node.cc, element.cc (reverse_ahead).

   Simplifications
   - XML is given as parsed values; of a speed limit only its node, its node type
     and an opaque value for everything else
   - pointers to elements, nodes, station routes and paths are their positions
     (nodes: element and index in it); nodes are compared by that, the C++
     compares pointers or the unique node ids
   - calling as<track_element>() on an element of another kind is UB
   - kilometrages (double) are exact rationals
   - assertions throw *)
From Coq Require Import List Bool NArith QArith String Arith.
From Verif Require Import Base PhysModel TextModel InfraModel.
From Verif Require AlgoModel RouteModel.
Import ListNotations.
Local Open Scope nat_scope.

(* ---- the input ---- *)
(* station_route.h:17 *)
Inductive decision : Type := STEM | BRANCH.
Definition decision_eqb (a b : decision) : bool :=
  match a, b with STEM, STEM | BRANCH, BRANCH => true | _, _ => false end.

(* a child of GeschwBeschraenkungen: type and id of its Knoten, the rest *)
Record xlimit : Type := mkxl { xl_type : string; xl_id : N; xl_value : N }.

(* a Betriebsstellenfahrweg *)
Record xroute : Type := mkxr {
  xr_publish_only : bool;
  xr_name : string;
  xr_start : N;
  xr_end : N;
  xr_checkpoint : option N;
  xr_passenger : option N;
  xr_freight : option N;
  xr_omitted : list (N * etype);
  xr_attributes : list string;
  xr_course : list string;
  xr_limits : list xlimit }.

(* construction_materials.h:20-43 intermediate_station_route *)
Record isr : Type := mkisr {
  is_id : nat;
  is_station : nat;
  is_name : string;
  is_start : N;
  is_end : N;
  is_checkpoint : N;
  is_passenger : N;
  is_freight : N;
  is_omitted : list (N * etype);
  is_attributes : list bool;
  is_course : list decision;
  is_limits : list (N * nat) }.

(* iss_string_literals.h:213-236 *)
Definition STATION_ROUTE_ATTRIBUTES : list string :=
  ["DurchfahrtOhneHaltMoeglich"; "Elektrifiziert"; "Falschfahrt"; "Gleiswechselbetrieb";
   "Stumpfgleis"; "AusDurchfahrt40"; "HaltImmerMoeglich"; "AutomatischErzeugt";
   "UmleitungStreckenwechsel"; "HerausDurchgehendesHauptgleis";
   "HineinDurchgehendesHauptgleis"]%string.
(* iss_string_literals.h:242-253 attribute_index; None is SIZE_MAX *)
Fixpoint index_of (l : list string) (a : string) (i : nat) : option nat :=
  match l with
  | [] => None
  | b :: l => if String.eqb a b then Some i else index_of l a (S i)
  end.
Definition attribute_index (a : string) : option nat := index_of STATION_ROUTE_ATTRIBUTES a 0.

(* parse_station_route.cc:57-59; attributes_[SIZE_MAX] is out of bounds *)
Fixpoint set_attributes (arr : list bool) (l : list string) : res (list bool) :=
  match l with
  | [] => Ok arr
  | a :: l => match attribute_index a with
              | Some i => set_attributes (upd arr i (fun _ => true)) l
              | None => UB
              end
  end.

Definition rp_at (g : graph) (id : N) : res nat :=
  match rp_find (g_rp g) id with Some i => Ok i | None => Throw end.

(* parse_station_route.cc:69-83 *)
Fixpoint parse_limits (g : graph) (l : list xlimit) : res (list (N * nat)) :=
  match l with
  | [] => Ok []
  | x :: l =>
      if String.eqb (xl_type x) "Warnfeld" then parse_limits g l
      else do i <- rp_at g (xl_id x); do r <- parse_limits g l; Ok ((xl_value x, i) :: r)
  end.

Definition or_invalid (o : option N) : N := match o with Some i => i | None => RP_MAX end.

(* parse_station_route.cc:14-86 *)
Definition parse_station_route (g : graph) (st id : nat) (x : xroute) : res isr :=
  do attrs <- set_attributes (repeat false 11) (xr_attributes x);
  let course := map (fun c => if String.eqb c "Stamm" then STEM else BRANCH) (xr_course x) in
  do limits <- parse_limits g (xr_limits x);
  Ok (mkisr id st (xr_name x) (xr_start x) (xr_end x) (or_invalid (xr_checkpoint x))
            (or_invalid (xr_passenger x)) (or_invalid (xr_freight x)) (xr_omitted x)
            attrs course limits).

(* parse_iss.cc:876-888 *)
Fixpoint parse_station_routes (g : graph) (st : nat) (l : list xroute) (rs : list isr)
  : res (list isr) :=
  match l with
  | [] => Ok rs
  | x :: l =>
      if xr_publish_only x then parse_station_routes g st l rs
      else do r <- parse_station_route g st (List.length rs) x;
           parse_station_routes g st l (rs ++ [r])
  end.
(* parse_iss.cc:861-891 parse_iss_station, 1135-1170 parse_iss: a station with its
   sections and its station routes *)
Fixpoint parse_rail_plan (g : graph) (st : nat) (l : list (xstation * list xroute)) (rs : list isr)
  : res (graph * list isr) :=
  match l with
  | [] => Ok (g, rs)
  | (x, xrs) :: l =>
      do g <- parse_sections g st (st_sections x);
      do rs <- parse_station_routes g st xrs rs;
      parse_rail_plan g (S st) l rs
  end.

(* ---- nodes ---- *)
(* element.h: the size of nodes_; graph_creation.h:24-36: the order of nodes_ *)
Definition node_slots (k : kind) : list slot :=
  match k with
  | KTrack => [Top]
  | KCross => [Top; Bot; Lft; Rgt]
  | _ => [Top; Bot]
  end.
Fixpoint nodes_from (i : nat) (es : list elem) : list node :=
  match es with
  | [] => []
  | e :: es => map (fun s => (i, s)) (node_slots (e_kind e)) ++ nodes_from (S i) es
  end.
Definition all_nodes (g : graph) : list node := nodes_from 0 (g_elems g).

Definition node_eqb (a b : node) : bool := Nat.eqb (fst a) (fst b) && slot_eqb (snd a) (snd b).
Definition leads_to (o : option node) (m : node) : bool :=
  match o with Some n => node_eqb n m | None => false end.

(* graph_creation.cc:568-578 *)
Definition reverse_edges (g : graph) (ls : list links) (m : node) : list node :=
  flat_map (fun n => (if leads_to (next_node ls n) m then [n] else []) ++
                     (if leads_to (branch_node ls n) m then [n] else [])) (all_nodes g).

Definition node_is (g : graph) (t : etype) (n : node) : bool :=
  match nth_error (g_elems g) (fst n) with Some e => ty_between t t (e_type e) | None => false end.
Definition node_is_track (g : graph) (n : node) : bool :=
  match nth_error (g_elems g) (fst n) with Some e => is_track_element (e_type e) | None => false end.
(* element.cc:50-57 *)
Definition is_switch (e : elem) : bool :=
  ty_between SIMPLE_SWITCH SIMPLE_SWITCH (e_type e) ||
  (ty_between CROSS CROSS (e_type e) && (e_arc_lr e || e_arc_rl e)).

(* element.cc:121-129 *)
Fixpoint default_reverse_ahead (ls : list links) (n : node) (ins : list node) : res node :=
  match ins with
  | [] => Throw
  | i :: ins => if leads_to (next_node ls i) n then Ok i else default_reverse_ahead ls n ins
  end.
(* element.cc:139-152 *)
Fixpoint switch_reverse_ahead (g : graph) (ls : list links) (e : elem) (n : node) (ins : list node)
  : option node :=
  match ins with
  | [] => None
  | i :: ins =>
      if at_side e S2 (fst i) then switch_reverse_ahead g ls e n ins
      else if node_is g SIMPLE_SWITCH i || leads_to (next_node ls i) n then Some i
      else switch_reverse_ahead g ls e n ins
  end.
(* element.cc:131-177, node.cc:10-17 *)
Definition reverse_ahead (g : graph) (ls : list links) (n : node) : res (option node) :=
  match reverse_edges g ls n with
  | [] => Ok None
  | [i] => Ok (Some i)
  | i :: j :: r =>
      let ins := i :: j :: r in
      do e <- get_e g (fst n);
      match e_kind e with
      | KSwitch =>
          match switch_reverse_ahead g ls e n ins with
          | Some x => Ok (Some x)
          | None => match r with
                    | [] => if node_eqb i j then Ok (Some i) else Throw
                    | _ => Throw
                    end
          end
      | _ => do x <- default_reverse_ahead ls n ins; Ok (Some x)
      end
  end.

(* ---- paths of station routes, parse_iss.cc:520-694 ---- *)
(* 557-581 get_path *)
Fixpoint get_path (fuel : nat) (g : graph) (ls : list links) (course : list decision)
  (course_idx : nat) (n : option node) (last_node : node) : res (list node) :=
  match fuel with
  | O => Fuel
  | S fuel =>
      match n with
      | None => Throw
      | Some n =>
          if node_eqb n last_node then Ok [n]
          else
            do e <- get_e g (fst n);
            do next <-
              match branch_node ls n with
              | None => Ok (next_node ls n)
              | Some b => match nth_error course course_idx with
                          | None => UB
                          | Some STEM => Ok (next_node ls n)
                          | Some BRANCH => Ok (Some b)
                          end
              end;
            do r <- get_path fuel g ls course
                      (if is_switch e then S course_idx else course_idx) next last_node;
            Ok (n :: r)
      end
  end.
(* enough to visit every node once with every remaining course *)
Definition path_fuel (g : graph) (course : list decision) : nat :=
  S (4 * List.length (g_elems g) * S (List.length course)).

(* 583-600 get_node *)
Definition route_node (g : graph) (i : nat) (start : bool) : res node :=
  do e <- get_e g i;
  if ty_between BORDER BORDER (e_type e) || is_end_element (e_type e)
  then Ok (i, if start then (if e_rise e S0 then Bot else Top)
              else (if e_rise e S0 then Top else Bot))
  else if is_track_element (e_type e)
  then match e_kind e with KTrack => Ok (i, Top) | _ => UB end
  else Throw.

Definition is_main (o : N * etype) : bool := ty_between MAIN_SIGNAL MAIN_SIGNAL (snd o).
(* 520-533 get_omitted_relevant_rp_nodes *)
Definition omitted_main (i : isr) : list N := map fst (filter is_main (is_omitted i)).
(* 606-613: the nodes of a list of omitted track elements *)
Fixpoint track_nodes (g : graph) (l : list N) : res (list node) :=
  match l with
  | [] => Ok []
  | id :: l =>
      do i <- rp_at g id;
      do e <- get_e g i;
      match e_kind e with
      | KTrack => do r <- track_nodes g l; Ok ((i, Top) :: r)
      | _ => UB
      end
  end.

(* static_cast<node::idx>: uint16_t *)
Definition idx16 (i : nat) : nat := N.to_nat (N.of_nat i mod 65536).
Fixpoint positions (f : node -> bool) (i : nat) (l : list node) : list nat :=
  match l with
  | [] => []
  | n :: l => if f n then i :: positions f (S i) l else positions f (S i) l
  end.
Definition mem (l : list node) (n : node) : bool := existsb (node_eqb n) l.

(* 602-624 get_main_signals *)
Definition get_main_signals (g : graph) (i : isr) (nodes : list node) : res (list nat) :=
  do om <- track_nodes g (omitted_main i);
  Ok (map idx16 (positions (fun n => node_is g MAIN_SIGNAL n && negb (mem om n)) 0 nodes)).
(* 626-644 get_etcs: the loop ends at static_cast<node::idx>(nodes.size()) *)
Definition get_etcs (g : graph) (nodes : list node) : list nat * list nat :=
  let seen := firstn (idx16 (List.length nodes)) nodes in
  (positions (node_is g ETCS_START) 0 seen, positions (node_is g ETCS_END) 0 seen).

(* station_route.h:35-54 *)
Record path : Type := mkpath {
  p_start : nat;
  p_end : nat;
  p_course : list decision;
  p_nodes : list node;
  p_main : list nat;
  p_etcs_starts : list nat;
  p_etcs_ends : list nat }.

(* 672-688 *)
Definition make_path (g : graph) (ls : list links) (i : isr) (s e : nat) : res path :=
  do a <- route_node g s true;
  do b <- route_node g e false;
  do nodes <- get_path (path_fuel g (is_course i)) g ls (is_course i) 0 (Some a) b;
  do main <- get_main_signals g i nodes;
  let '(starts, ends) := get_etcs g nodes in
  Ok (mkpath s e (is_course i) nodes main starts ends).

(* == on std::set<rail_plan_node_id> built from the lists *)
Definition same_set (a b : list N) : bool :=
  forallb (fun x => existsb (N.eqb x) b) a && forallb (fun x => existsb (N.eqb x) a) b.
Fixpoint same_course (a b : list decision) : bool :=
  match a, b with
  | [], [] => true
  | x :: a, y :: b => decision_eqb x y && same_course a b
  | _, _ => false
  end.
(* 535-545 *)
Definition same_path (a b : isr) : bool :=
  N.eqb (is_start a) (is_start b) && N.eqb (is_end a) (is_end b) &&
  same_course (is_course a) (is_course b) && same_set (omitted_main a) (omitted_main b).

(* 547-551, 648-653 deduplicated_paths: dd_of is station_route_id_to_path_id_,
   filled in the order of the ids; dd_tab is start_elements_to_isr_paths with all
   rows in one list *)
Record dedup : Type := mkdd {
  dd_paths : list path;
  dd_of : list nat;
  dd_tab : list (nat * isr * nat) }.
Definition known_path (t : list (nat * isr * nat)) (s : nat) (i : isr) : option nat :=
  match find (fun '(s', i', _) => Nat.eqb s' s && same_path i' i) t with
  | Some (_, _, p) => Some p
  | None => None
  end.
(* 655-691 *)
Fixpoint dedup_loop (g : graph) (ls : list links) (l : list isr) (d : dedup) : res dedup :=
  match l with
  | [] => Ok d
  | i :: l =>
      do s <- rp_at g (is_start i);
      do e <- rp_at g (is_end i);
      match known_path (dd_tab d) s i with
      | Some p => dedup_loop g ls l (mkdd (dd_paths d) (dd_of d ++ [p]) (dd_tab d))
      | None =>
          do p <- make_path g ls i s e;
          let k := List.length (dd_paths d) in
          dedup_loop g ls l (mkdd (dd_paths d ++ [p]) (dd_of d ++ [k]) (dd_tab d ++ [(s, i, k)]))
      end
  end.
Definition get_station_route_paths (g : graph) (ls : list links) (l : list isr) : res dedup :=
  dedup_loop g ls l (mkdd [] [] []).

(* ---- station routes, parse_iss.cc:696-859 ---- *)
(* station_route.h:28-107 *)
Record route : Type := mkroute {
  ro_id : nat;
  ro_name : string;
  ro_station : nat;
  ro_attributes : list bool;
  ro_path_id : nat;  (* which of the paths path_ points to *)
  ro_path : path;
  ro_to : option nat;
  ro_from : option nat;
  ro_checkpoint : option nat;
  ro_passenger : option nat;
  ro_freight : option nat;
  ro_omitted : list nat;
  ro_limits : list (N * nat * node);
  ro_length : Q }.
Definition ro_nodes (r : route) : list node := p_nodes (ro_path r).

(* 741-757; element_to_station_ (982-992) maps an element to the station that
   created it *)
Definition other_station (g : graph) (st : nat) (n : option node) : res (option nat) :=
  match n with
  | None => Ok None
  | Some n => do e <- get_e g (fst n);
              Ok (if Nat.eqb (e_station e) st then None else Some (e_station e))
  end.

(* 760-764 *)
Definition rp_id_to_element (g : graph) (id : N) : res (option nat) :=
  if N.eqb id RP_MAX then Ok None else do i <- rp_at g id; Ok (Some i).

(* 770-779 *)
Fixpoint omitted_nodes (g : graph) (l : list N) : res (list node) :=
  match l with
  | [] => Ok []
  | id :: l =>
      do i <- rp_at g id;
      do e <- get_e g i;
      if negb (is_track_element (e_type e)) then Throw
      else match e_kind e with
           | KTrack => do r <- omitted_nodes g l; Ok ((i, Top) :: r)
           | _ => UB
           end
  end.

(* 781-803: the member is overwritten at every matching node *)
Fixpoint last_position (f : node -> bool) (i : nat) (l : list node) (acc : option nat) : option nat :=
  match l with
  | [] => acc
  | n :: l => last_position f (S i) l (if f n then Some i else acc)
  end.
Definition at_element (g : graph) (e : option nat) (n : node) : bool :=
  node_is_track g n && match e with Some i => Nat.eqb (fst n) i | None => false end.

(* utls::find_if over the nodes: the position of the first node of an element *)
Fixpoint first_position (e : nat) (i : nat) (l : list node) : nat :=
  match l with
  | [] => i
  | n :: l => if Nat.eqb (fst n) e then i else first_position e (S i) l
  end.
(* 805-815 *)
Fixpoint place_limits (nodes : list node) (l : list (N * nat)) : res (list (N * nat * node)) :=
  match l with
  | [] => Ok []
  | (v, e) :: l =>
      match nth_error nodes (first_position e 0 nodes) with
      | None => Throw
      | Some n => do r <- place_limits nodes l; Ok ((v, e, n) :: r)
      end
  end.
(* 817-829 *)
Definition sort_limits (nodes : list node) (l : list (N * nat * node)) : list (N * nat * node) :=
  sort (fun a b => Nat.ltb (first_position (snd (fst a)) 0 nodes)
                           (first_position (snd (fst b)) 0 nodes)) l.

(* length.h:13-42 *)
Fixpoint length_from (g : graph) (acc : Q) (last : nat) (l : list nat) : res Q :=
  match l with
  | [] => Ok acc
  | i :: l =>
      do a <- get_e g last;
      do b <- get_e g i;
      do x <- get_km a i;
      do y <- get_km b last;
      length_from g (acc + qabs (x - y))%Q i l
  end.
Definition path_length (g : graph) (nodes : list node) : res Q :=
  match map fst nodes with [] => UB | i :: l => length_from g 0%Q i l end.

(* 710-839; before: the intermediate station routes handled so far *)
Definition make_route (g : graph) (ls : list links) (before : list isr) (k : nat) (p : path) (i : isr)
  : res route :=
  let nodes := p_nodes p in
  sassert (negb (existsb (fun j => Nat.eqb (is_station j) (is_station i) &&
                                   String.eqb (is_name j) (is_name i)) before)) ;;
  do last_n <- match rev nodes with [] => UB | n :: _ => Ok n end;
  do first_n <- match nodes with [] => UB | n :: _ => Ok n end;
  do to <- other_station g (is_station i) (next_node ls last_n);
  do from <- other_station g (is_station i) (hd_error (reverse_edges g ls first_n));
  do pass <- rp_id_to_element g (is_passenger i);
  do frei <- rp_id_to_element g (is_freight i);
  do chk <- rp_id_to_element g (is_checkpoint i);
  do om <- omitted_nodes g (map fst (is_omitted i));
  sassert (N.of_nat (List.length nodes) <? 65535)%N ;;
  let omitted := positions (fun n => node_is_track g n && mem om n) 0 nodes in
  do limits <- place_limits nodes (is_limits i);
  do len <- path_length g nodes;
  sassert (Nat.eqb (List.length omitted) (List.length (is_omitted i))) ;;
  Ok (mkroute (is_id i) (is_name i) (is_station i) (is_attributes i) k p to from
        (last_position (at_element g chk) 0 nodes None)
        (last_position (at_element g pass) 0 nodes None)
        (last_position (at_element g frei) 0 nodes None)
        omitted (sort_limits nodes limits) len).

Fixpoint make_routes (g : graph) (ls : list links) (paths : list path) (before l : list isr)
  (of : list nat) : res (list route) :=
  match l, of with
  | i :: l, k :: of =>
      match nth_error paths k with
      | None => UB
      | Some p => do r <- make_route g ls before k p i;
                  do rs <- make_routes g ls paths (before ++ [i]) l of;
                  Ok (r :: rs)
      end
  | _, _ => Ok []
  end.
Definition calculate_station_routes (g : graph) (ls : list links) (l : list isr)
  : res (list route) :=
  do d <- get_station_route_paths g ls l;
  make_routes g ls (dd_paths d) [] l (dd_of d).

(* 841-853: the routes of a station are visited in the order of their names *)
Definition station_routes (rs : list route) (st : nat) : list route :=
  sort (fun a b => String.ltb (ro_name a) (ro_name b))
       (filter (fun r => Nat.eqb (ro_station r) st) rs).
Definition starts_at_element (e : nat) (r : route) : bool :=
  match ro_nodes r with n :: _ => Nat.eqb (fst n) e | [] => false end.
Definition element_to_routes (rs : list route) (st e : nat) : list route :=
  filter (starts_at_element e) (station_routes rs st).

(* ---- station_route_graph.cc ---- *)
(* station_route.cc:28-48 *)
Definition is_boundary (g : graph) (n : node) : bool := node_is g BORDER n || node_is g TRACK_END n.
Definition ends_at_boundary (g : graph) (r : route) : bool :=
  match rev (ro_nodes r) with n :: _ => is_boundary g n | [] => false end.
Definition starts_at_boundary (g : graph) (r : route) : bool :=
  match ro_nodes r with n :: _ => is_boundary g n | [] => false end.
Definition is_through_route (g : graph) (r : route) : bool :=
  starts_at_boundary g r && ends_at_boundary g r.
(* station_route.cc:50-52 *)
Definition is_in_route (g : graph) (r : route) : bool :=
  starts_at_boundary g r && negb (ends_at_boundary g r).
(* station_route_graph.cc:9-25 *)
Definition successors_from_through (g : graph) (ls : list links) (rs : list route) (r : route)
  : res (list route) :=
  do last_n <- match rev (ro_nodes r) with [] => UB | n :: _ => Ok n end;
  if node_is g TRACK_END last_n then Ok []
  else match ro_to r with
       | None => Ok []
       | Some st => match next_node ls last_n with
                    | None => UB
                    | Some n => Ok (element_to_routes rs st (fst n))
                    end
       end.
(* station_route_graph.cc:27-102 *)
Definition get_successors (g : graph) (ls : list links) (rs : list route) (r : route)
  : res (list nat) :=
  do l <- (if is_through_route g r then successors_from_through g ls rs r
           else if is_in_route g r then Ok []
           else successors_from_through g ls rs r);
  Ok (map ro_id l).
Fixpoint all_successors (g : graph) (ls : list links) (rs todo : list route)
  : res (list (list nat)) :=
  match todo with
  | [] => Ok []
  | r :: todo => do s <- get_successors g ls rs r; do l <- all_successors g ls rs todo; Ok (s :: l)
  end.
(* station_route_graph.cc:104-125 *)
Definition station_route_graph (g : graph) (ls : list links) (rs : list route)
  : res RouteModel.srgraph :=
  do succ <- all_successors g ls rs rs;
  do pred <- RouteModel.predecessors succ;
  Ok (RouteModel.mksrg succ pred).

(* ---- the whole import, parse_iss.cc:1215-1248 ---- *)
Record infrastructure : Type := mkinfra {
  inf_graph : graph;
  inf_links : list links;
  inf_routes : list route;
  inf_successors : RouteModel.srgraph }.
Definition import_routes (l : list (xstation * list xroute)) : res infrastructure :=
  do ' (g, is) <- parse_rail_plan no_graph 0 l [];
  do g <- complete_borders (map fst l) g;
  do ls <- connect_nodes g;
  do rs <- calculate_station_routes g ls is;
  do srg <- station_route_graph g ls rs;
  Ok (mkinfra g ls rs srg).
