(* Model of the map of an infrastructure as an OpenStreetMap file:
   web/server/src/modules/tiles/osm_export/{osm_export,interpolation}.cc,
   src/infrastructure/parsers/iss/parse_iss.cc:982-992 (element_to_station_) and
   include/soro/base/fp_precision.h:14-18.

   Simplifications
   - double is the real numbers, as in GeoModel
   - a pointer to an element or a station is its id, which is its position among the
     elements (graph_.elements_) and stations (stations_); a null pointer is None;
     an id without element is a dangling pointer (UB)
   - vector[i] beyond the end is UB
   - element_to_way_ (a map of vectors) gives the empty vector where it has no entry
   - element_to_interpolation_nodes_ and station_route_nodes_ are never read
   - the document is the list of the children of its node "osm"; the numbers of an
     attribute are kept as numbers
   - std::sort is an insertion sort *)
From Coq Require Import String.
From Verif Require Import Base LayoutModel GeoModel.
Local Open Scope N_scope.

Definition at_N {A} (l : list A) (i : N) : res A := at_ l (N.to_nat i).

(* element.h:45-67, 344-348; element.cc:14-20, 189-191 *)
Record osm_element : Type := mk_element {
  type_name : string; rising : bool; neighbours : list (option N) }.
(* station.h *)
Record osm_station : Type := mk_station { ds100 : string; station_elements : list N }.
(* infrastructure_t.h:33-55 *)
Record osm_infra : Type := mk_infra {
  elements : list osm_element; stations : list osm_station;
  station_positions : list point; element_positions : list point }.

(* a station with its id *)
Definition numbered_stations (iss : osm_infra) : list (N * osm_station) :=
  map (fun s => (N.of_nat (fst s), snd s)) (with_ids 0 (stations iss)).

(* parse_iss.cc:982-992 *)
Definition element_to_station (iss : osm_infra) : N -> option N :=
  fold_left (fun m s =>
      fold_left (fun (m : N -> option N) e => fun x => if x =? e then Some (fst s) else m x) (station_elements (snd s)) m)
    (numbered_stations iss) (fun _ => None).
(* map.at *)
Definition station_at (iss : osm_infra) (e : N) : res N :=
  match element_to_station iss e with Some s => Ok s | None => Throw end.

(* ---- interpolation.cc ---- *)
(* fp_precision.h:11-18 *)
Definition equal_ (a b : R) : bool := if Rlt_dec (Rabs (a - b)) (1 / 100)%R then true else false.

Section reals.
  Local Open Scope R_scope.
  (* :15-37 *)
  Definition bezier (a b c d t : R) : R :=
    (1 - t) ^ 3 * a + 3 * (1 - t) ^ 2 * t * b + 3 * (1 - t) ^ 1 * t ^ 2 * c + t ^ 3 * d.
  Definition get_bezier_curve (p1 p2 p3 p4 : point) (t : R) : point :=
    let t1 := to_cartesian p1 in let t2 := to_cartesian p2 in
    let t3 := to_cartesian p3 in let t4 := to_cartesian p4 in
    to_gps (mk_cartesian (bezier (cx t1) (cx t2) (cx t3) (cx t4) t)
                         (bezier (cy t1) (cy t2) (cy t3) (cy t4) t)
                         (bezier (cz t1) (cz t2) (cz t3) (cz t4) t)).

  (* :58-64 *)
  Definition units (e1 e2 : point) : R :=
    let dist := sin (to_rad (lat e1)) * sin (to_rad (lat e2)) +
                cos (to_rad (lat e1)) * cos (to_rad (lat e2)) * cos (to_rad (lon e1 - lon e2)) in
    let dist := acos dist in
    let dist := (EARTH_RADIUS / 1000 * PI_ * dist) / 180 in
    2 / 10 * dist.
  Definition between (a x b : R) : bool := if Rlt_dec a x then (if Rlt_dec x b then true else false) else false.
  (* :76-92 *)
  Definition steps (gradient u : R) : R :=
    if between (-1) gradient 1 then u / 1
    else if between (-10) gradient 10 then u / 10
    else if between (-100) gradient 100 then u / 100
    else if between (-1000) gradient 1000 then u / 1000
    else if between (-10000) gradient 10000 then u / 10000
    else if between (-100000) gradient 100000 then u / 100000
    else if between (-1000000) gradient 1000000 then u / 1000000
    else u / 100000000.
  (* :55-102 *)
  Definition auxiliary (e1 e2 neighbour : point) : point :=
    let u := units e1 e2 in
    if equal_ (lon e1 - lon neighbour) 0 then
      let u := u / 1000000 in
      if Rlt_dec 0 (lat e1 - lat neighbour) then mk_point (lon e1) (lat e1 + u)
      else mk_point (lon e1) (lat e1 - u)
    else
      let gradient := (lat e1 - lat neighbour) / (lon e1 - lon neighbour) in
      let u := steps gradient u in
      if Rlt_dec (lon e1 - lon neighbour) 0 then mk_point (lon e1 - u) (lat e1 - gradient * u)
      else if Rlt_dec 0 (lon e1 - lon neighbour) then mk_point (lon e1 + u) (lat e1 + gradient * u)
      else e1.
End reals.

(* :42-49: the last neighbour of an element, apart from another element *)
Definition last_other (ns : list (option N)) (other : N) : option N :=
  fold_left (fun acc n => match n with
                          | None => acc
                          | Some n => if n =? other then acc else Some n
                          end) ns None.
(* :39-105 *)
Definition get_auxiliary_point (iss : osm_infra) (e1 e2 : N) : res point :=
  do el <- at_N (elements iss) e1;
  let neighbour := last_other (neighbours el) e2 in
  do e1_gps <- at_N (element_positions iss) e1;
  do e2_gps <- at_N (element_positions iss) e2;
  match neighbour with
  | None => Ok e1_gps
  | Some n => do neighbour_gps <- at_N (element_positions iss) n; Ok (auxiliary e1_gps e2_gps neighbour_gps)
  end.

(* interpolation.h:9-13 *)
Record interpolation : Type := mk_interpolation { first_elem : N; points : list point; second_elem : N }.
(* :117-118: 1, 3, ..., 99 *)
Definition counters : list nat := map (fun k => 2 * k + 1)%nat (seq 0 50).
(* :107-128 *)
Definition compute_interpolation (iss : osm_infra) (e1 e2 : N) : res interpolation :=
  do aux1 <- get_auxiliary_point iss e1 e2;
  do aux2 <- get_auxiliary_point iss e2 e1;
  do p1 <- at_N (element_positions iss) e1;
  do p2 <- at_N (element_positions iss) e2;
  Ok (mk_interpolation e1 (map (fun k => get_bezier_curve p1 aux1 aux2 p2 (INR k / 100)%R) counters) e2).

(* ---- osm_export.cc ---- *)
Inductive item : Type := Is_station (id : N) (s : osm_station) | Is_element (e : N).
(* osm_export.h:28-54 *)
Record osm_information : Type := mk_info {
  nodes : list (N * item); ways : list (N * N); interpolations : list interpolation;
  element_to_way : N -> list N }.

(* the children of the document *)
Inductive value : Type := Text (s : string) | Number (n : N).
Inductive xml : Type :=
| Node (id : N) (p : point) (tags : list (string * value))
| Way (id : N) (refs : list N) (tags : list (string * value)).

(* osm_tag_names.h; osm_export.cc:40-49 *)
Definition create_station_osm (iss : osm_infra) (osm_id id : N) (s : osm_station) : res xml :=
  do p <- at_N (station_positions iss) id;
  Ok (Node osm_id p [("type", Text "station"); ("id", Number id); ("name", Text (ds100 s))]%string).
(* :51-61 *)
Definition create_element_osm (iss : osm_infra) (e : N) : res xml :=
  do el <- at_N (elements iss) e;
  do p <- at_N (element_positions iss) e;
  Ok (Node e p [("type", Text "element"); ("subtype", Text (type_name el)); ("id", Number e);
                ("direction", Text (if rising el then "rising" else "falling"))]%string).
(* :63-70 *)
Definition create_way_osm (w : N * N) (id : N) : xml :=
  Way id [fst w; snd w] [("railway", Text "rail")]%string.

(* :72-95; the id of a way is 32 bits, that of a node 64 *)
Definition create_interpolation_osm (osm : list xml) (ws : list (N * N)) (i : interpolation) (id : N)
    : list xml * list (N * N) * N :=
  let size := List.length (points i) in
  let inner := flat_map (fun k => if Nat.ltb k (size - 1)
                                  then [(w32 (id + N.of_nat k), w32 (id + N.of_nat k + 1))] else [])
                        (seq 0 size) in
  let nodes := map (fun k => Node (id + N.of_nat (fst k)) (snd k) [("type", Text "interpolation")]%string)
                   (with_ids 0 (points i)) in
  (osm ++ nodes,
   ws ++ [(first_elem i, id)] ++ inner ++ [(w32 (id + N.of_nat size - 1), second_elem i)],
   w32 (id + N.of_nat size)).

Definition add_to (m : N -> list N) (k v : N) : N -> list N := fun x => if x =? k then m x ++ [v] else m x.
(* :97-124 *)
Definition create_way (iss : osm_infra) (e e_station : N) (info : osm_information) (n : option N)
    : res osm_information :=
  match n with
  | None => Ok info
  | Some n =>
      if existsb (N.eqb e) (element_to_way info n) then Ok info
      else
        do n_station <- station_at iss n;
        let to_way := add_to (add_to (element_to_way info) n e) e n in
        if negb (n_station =? e_station) then
          do i <- compute_interpolation iss e n;
          Ok (mk_info (nodes info) (ways info) (interpolations info ++ [i]) to_way)
        else Ok (mk_info (nodes info) (ways info ++ [(e, n)]) (interpolations info) to_way)
  end.
Definition create_ways (iss : osm_infra) (info : osm_information) (e : N) : res osm_information :=
  do e_station <- station_at iss e;
  do el <- at_N (elements iss) e;
  for_each (create_way iss e e_station) info (neighbours el).

(* :126-142 *)
Definition export_osm_nodes (iss : osm_infra) (l : list (N * item)) (min max : nat) : res (list xml) :=
  for_each (fun out i =>
      do val <- match nth_error l i with Some v => Ok v | None => Throw end;
      do x <- match snd val with
              | Is_station id s => create_station_osm iss (fst val) id s
              | Is_element e => create_element_osm iss e
              end;
      Ok (out ++ [x])) [] (seq min (max - min)).

(* :178-179 *)
Fixpoint insert_node (x : N * item) (l : list (N * item)) : list (N * item) :=
  match l with
  | [] => [x]
  | y :: l' => if fst x <=? fst y then x :: l else y :: insert_node x l'
  end.
Definition sort_nodes (l : list (N * item)) : list (N * item) := fold_right insert_node [] l.

Definition push_node (info : osm_information) (x : N * item) : osm_information :=
  mk_info (nodes info ++ [x]) (ways info) (interpolations info) (element_to_way info).
(* :166-175 *)
Definition export_station (iss : osm_infra) (info : osm_information) (s : N * osm_station) : res osm_information :=
  let info := push_node info (w32 (fst s + N.of_nat (List.length (elements iss))), Is_station (fst s) (snd s)) in
  for_each (fun info e => create_ways iss (push_node info (e, Is_element e)) e)
    info (station_elements (snd s)).

(* :156-214; thread_count is what the machine reports *)
Definition export_to_osm (thread_count : nat) (iss : osm_infra) : res (list xml) :=
  do info <- for_each (export_station iss) (mk_info [] [] [] (fun _ => [])) (numbered_stations iss);
  let sorted := sort_nodes (nodes info) in
  let node_length := List.length sorted in
  if Nat.eqb thread_count 0 then UB else
  let unit := (node_length / thread_count + 1)%nat in
  do osm <- for_each (fun osm i =>
      let min := (unit * i)%nat in
      let max := (unit * (i + 1))%nat in
      let max := if Nat.ltb node_length max then node_length else max in
      do doc <- export_osm_nodes iss sorted min max;
      Ok (osm ++ doc)) [] (seq 0 thread_count);
  do back <- match sorted with [] => UB | x :: _ => Ok (List.last sorted x) end;
  let id := w32 (fst back + 1) in
  let '(osm, ws, id) := fold_left (fun '(osm, ws, id) i => create_interpolation_osm osm ws i id)
                          (interpolations info) (osm, ways info, id) in
  Ok (osm ++ fst (fold_left (fun '(out, id) w => (out ++ [create_way_osm w id], w32 (id + 1))) ws ([], id))).
