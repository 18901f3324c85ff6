(* Model of places on the globe:
   include/soro/utls/coordinates/{coordinates,angle,polar,gps,cartesian}.h,
   src/utls/coordinates/{gps,cartesian}.cc and
   src/infrastructure/layout/layout_to_gps.cc:142-315.

   Simplifications
   - double is the real numbers, the functions of cmath are the real functions;
     atan2 does not distinguish signed zeros; asin is only used on [-1, 1]
   - vector[i] beyond the end is UB
   - the station at position i has id i; stations are given by their elements and
     borders
   - resolve_overlaps (layout_to_gps.cc:226-252) is not called and not modelled *)
From Coq Require Import QArith Qreals.
From Coq Require Export Reals.
From Verif Require Import Base LayoutModel.
Local Open Scope R_scope.

(* atan2 of cmath *)
Definition atan2 (y x : R) : R :=
  if Rlt_dec 0 x then atan (y / x)
  else if Rlt_dec x 0 then (if Rle_dec 0 y then atan (y / x) + PI else atan (y / x) - PI)
  else if Rlt_dec 0 y then PI / 2
  else if Rlt_dec y 0 then - (PI / 2)
  else 0.

(* coordinates.h:7-8 *)
Definition PI_ : R := 31415 / 10000.
Definition EARTH_RADIUS : R := 6378137.

(* angle.h:9-15 *)
Definition to_rad (deg : R) : R := deg * PI_ / 180.
Definition to_deg (rad : R) : R := rad * 180 / PI_.

(* gps.h:14-27; cartesian.h:11-17 *)
Record point : Type := mk_point { lon : R; lat : R }.
Record cartesian : Type := mk_cartesian { cx : R; cy : R; cz : R }.

(* gps.cc:31-35 *)
Definition to_cartesian (g : point) : cartesian :=
  mk_cartesian (EARTH_RADIUS * cos (to_rad (lat g)) * cos (to_rad (lon g)))
               (EARTH_RADIUS * cos (to_rad (lat g)) * sin (to_rad (lon g)))
               (EARTH_RADIUS * sin (to_rad (lat g))).
(* cartesian.cc:8-13 *)
Definition to_gps (c : cartesian) : point :=
  mk_point (to_deg (atan2 (cy c) (cx c))) (to_deg (asin (cz c / EARTH_RADIUS))).

(* gps.cc:37-49 *)
Definition distance (g other : point) : R :=
  let delta_lon := to_rad (lon other - lon g) in
  let delta_lat := to_rad (lat other - lat g) in
  let a := sin (delta_lat / 2) ^ 2 +
           sin (delta_lon / 2) ^ 2 * cos (to_rad (lat g)) * cos (to_rad (lat other)) in
  let c := 2 * atan2 (sqrt a) (sqrt (1 - a)) in
  EARTH_RADIUS * c.

(* gps.cc:51-62 *)
Definition bearing (g other : point) : R :=
  let lat1 := to_rad (lat g) in
  let lat2 := to_rad (lat other) in
  let delta_lon := to_rad (lon other - lon g) in
  let y := sin delta_lon * cos lat2 in
  let x := cos lat1 * sin lat2 - sin lat1 * cos lat2 * cos delta_lon in
  to_deg (atan2 y x).

(* gps.cc:64-83 *)
Definition move (g : point) (distance bearing : R) : point :=
  let rads_x := to_rad (lon g) in
  let rads_y := to_rad (lat g) in
  let bearing_rad := to_rad bearing in
  let cos_r := cos (distance / EARTH_RADIUS) in
  let sin_r := sin (distance / EARTH_RADIUS) in
  let moved_lat := asin (sin rads_y * cos_r + cos rads_y * sin_r * cos bearing_rad) in
  let moved_lon :=
    rads_x + atan2 (sin bearing_rad * sin (distance / EARTH_RADIUS) * cos rads_y)
                   (cos_r - sin rads_y * sin moved_lat) in
  mk_point (to_deg moved_lon) (to_deg moved_lat).

(* polar.h:8-21 *)
Record polar : Type := mk_polar { dist_ : R; bearing_ : R }.
Definition to_polar (x y : R) : polar :=
  let b := to_deg (atan2 y (- x)) in
  mk_polar (sqrt (x ^ 2 + y ^ 2)) (if Rle_dec b 0 then Rabs b else 360 - b).

(* ---- layout_to_gps.cc ---- *)
Notation rotation := R (only parsing).

(* :142-149 *)
Definition rotate_point_around_by (p anchor : point) (by_ : rotation) : point :=
  let d := distance anchor p in
  let b := bearing anchor p in
  move anchor d (b + by_).

(* a border: its element, the neighbour station, the element of the neighbour *)
Record geo_border : Type := mk_border { b_element : nat; b_neighbour : nat; b_neighbour_element : nat }.
Record geo_station : Type := mk_geo { s_elements : list nat; s_borders : list geo_border }.

(* one iteration per station, with its id *)
Fixpoint with_ids {A} (i : nat) (l : list A) : list (nat * A) :=
  match l with [] => [] | a :: l => (i, a) :: with_ids (S i) l end.

(* :151-170 *)
Definition rotate_station (station_coords : list point) (rotations : list rotation)
    (element_coords rotated : list point) (s : nat * geo_station) : res (list point) :=
  do center <- at_ station_coords (fst s);
  do by_ <- at_ rotations (fst s);
  for_each (fun rotated e =>
      do p <- at_ element_coords e;
      put rotated e (rotate_point_around_by p center by_)) rotated (s_elements (snd s)).
Definition rotate_elements (stations : list geo_station) (station_coords : list point)
    (rotations : list rotation) (element_coords : list point) : res (list point) :=
  for_each (rotate_station station_coords rotations element_coords) element_coords (with_ids 0 stations).

Definition MAX_REAL : R := Q2R MAX_DOUBLE.
(* :180-194: the score of one turn of the station *)
Definition rotation_score (id : nat) (s : geo_station) (station_coords element_coords : list point)
    (rotations : list rotation) (degree : R) : res R :=
  for_each (fun score b =>
      do from <- at_ element_coords (b_element b);
      do here <- at_ station_coords id;
      do to <- at_ element_coords (b_neighbour_element b);
      do there <- at_ station_coords (b_neighbour b);
      do by_ <- at_ rotations (b_neighbour b);
      Ok (score + distance (rotate_point_around_by from here degree) (rotate_point_around_by to there by_)))
    0 (s_borders s).
(* :179: 0, 5, ..., 355 *)
Definition degrees_tried : list R := map (fun k => 5 * INR k) (seq 0 72).
(* :172-203 *)
Definition get_best_rotation (s : nat * geo_station) (station_coords element_coords : list point)
    (rotations : list rotation) : res rotation :=
  do ' (best, _) <- for_each (fun '(best, best_score) degree =>
      do score <- rotation_score (fst s) (snd s) station_coords element_coords rotations degree;
      Ok (if Rlt_dec score best_score then (degree, score) else (best, best_score)))
    (MAX_REAL, MAX_REAL) degrees_tried;
  Ok best.
(* one pass :217-220 *)
Fixpoint one_pass (l : list (nat * geo_station)) (station_coords element_coords : list point)
    (rotations : list rotation) : res (list rotation) :=
  match l with
  | [] => Ok []
  | s :: l =>
      do r <- get_best_rotation s station_coords element_coords rotations;
      do rs <- one_pass l station_coords element_coords rotations;
      Ok (r :: rs)
  end.
(* :205-224 *)
Definition get_best_rotations (stations : list geo_station) (station_coords element_coords : list point)
    : res (list rotation) :=
  for_each (fun rotations _ => one_pass (with_ids 0 stations) station_coords element_coords rotations)
    (repeat 0 (List.length stations)) [0; 1; 2]%nat.

(* :259-271 *)
Fixpoint center_loop (l : layout) (es : list nat) (x y : R) : res (R * R) :=
  match es with
  | [] => Ok (x, y)
  | e :: es =>
      do p <- at_ l e;
      center_loop l es (Rmax x (Q2R (x_ p))) (Rmax y (Q2R (y_ p)))
  end.
Definition get_station_center (l : layout) (s : geo_station) : res (R * R) :=
  do ' (x, y) <- center_loop l (s_elements s) 0 0; Ok (x / 2, y / 2).

Definition LAYOUT_TO_GPS : R := 10.
(* :273-290 *)
Definition place_station (l : layout) (station_coords coords : list point) (s : nat * geo_station)
    : res (list point) :=
  do ' (x, y) <- get_station_center l (snd s);
  for_each (fun coords e =>
      do q <- at_ l e;
      let p := to_polar ((Q2R (x_ q) - x) * LAYOUT_TO_GPS) ((Q2R (y_ q) - y) * LAYOUT_TO_GPS) in
      do here <- at_ station_coords (fst s);
      put coords e (move here (dist_ p) (bearing_ p))) coords (s_elements (snd s)).
(* :254-293 *)
Definition get_element_gps_coords (stations : list geo_station) (station_coords : list point)
    (l : layout) : res (list point) :=
  for_each (place_station l station_coords) (repeat (mk_point (-361) (-361)) (List.length l)) (with_ids 0 stations).

Definition real_gps (g : gps) : point := mk_point (Q2R (lon_ g)) (Q2R (lat_ g)).
(* :295-315 *)
Definition layout_to_gps (addr : nat -> nat) (l : layout) (stations : list geo_station) (station_coords : list gps)
    : res (list point * list point) :=
  let borders := fun s => map b_neighbour (s_borders (nth s stations (mk_geo [] []))) in
  do adjusted <- interpolate_coordinates addr borders (List.length stations) station_coords;
  let adjusted := map real_gps adjusted in
  do element_coords <- get_element_gps_coords stations adjusted l;
  do rotations <- get_best_rotations stations adjusted element_coords;
  do rotated <- rotate_elements stations adjusted rotations element_coords;
  Ok (adjusted, rotated).
