(* Model of the places of elements and stations on the map:
   src/infrastructure/layout/layout.cc, include/soro/infrastructure/layout/layout.h,
   src/infrastructure/parsers/parse_station_coords.cc,
   src/infrastructure/layout/layout_to_gps.cc:24-140,
   src/infrastructure/station/station.cc and include/soro/utls/coordinates/gps.h:14-27
   (bounding boxes: LineModel).

   Simplifications
   - double is exact rational arithmetic
   - the rail plan files are given by the nodes the four nested loops of
     get_layout reach, in their order; the CSV file by its rows
   - utl::zip (not part of the repository) throws for ranges of different length
   - the station at position i of the infrastructure has id i; stations are
     named by their ids *)
From Coq Require Import Ascii String.
From Coq Require Export QArith.
From Coq Require Import Qabs.
From Verif Require Import Base TextModel PhysModel KssModel StockModel GraphModel.
Local Open Scope Q_scope.

(* ---- vectors ---- *)
Definition at_ {A} (l : list A) (i : nat) : res A :=
  match nth_error l i with Some a => Ok a | None => UB end.
Fixpoint set_nth {A} (l : list A) (i : nat) (a : A) : list A :=
  match l, i with
  | [], _ => []
  | _ :: l, O => a :: l
  | b :: l, S i => b :: set_nth l i a
  end.
Definition put {A} (l : list A) (i : nat) (a : A) : res (list A) :=
  if Nat.ltb i (List.length l) then Ok (set_nth l i a) else UB.
Fixpoint for_each {A S} (f : S -> A -> res S) (s : S) (l : list A) : res S :=
  match l with
  | [] => Ok s
  | a :: l => do s <- f s a; for_each f s l
  end.

Definition Qlt_b (a b : Q) : bool := negb (Qle_bool b a).       (* a < b *)
Definition Qmin_ (a b : Q) : Q := if Qlt_b b a then b else a.   (* std::min(a, b) *)

(* ---- layout.h:12-24 ---- *)
Record place : Type := mk_place { x_ : Q; y_ : Q }.
(* std::numeric_limits<double>::max() *)
Definition MAX_DOUBLE : Q := inject_Z ((2 ^ 53 - 1) * 2 ^ 971).
Definition unplaced : place := mk_place MAX_DOUBLE MAX_DOUBLE.
Definition layout : Type := list place.

(* a node of the rail plan: is it a picture point, the texts of its coordinates,
   its id *)
Record rp_node : Type := mk_rp { rp_point : bool; rp_coord : option (text * text); rp_id : text }.

(* layout.cc:20-25 *)
Definition parse_coordinates (c : text * text) : res place :=
  do x <- parse_fp true (fst c);
  do y <- parse_fp true (snd c);
  Ok (mk_place x y).

Section Get.
  Variable element_of : N -> option nat.         (* rp_id_to_element_id *)
  Variable is_track : nat -> bool.               (* element->is_track_element() *)

  (* layout.cc:173-186 *)
  Definition place_node (l : layout) (n : rp_node) : res layout :=
    if rp_point n then Ok l
    else match rp_coord n with
         | None => Ok l
         | Some c =>
             do i <- stoul (rp_id n);
             match element_of i with
             | None => Throw
             | Some e => do p <- parse_coordinates c; put l e p
             end
         end.

  (* layout.cc:44-60; first is read again in every round, as start_coords refers
     to the vector *)
  Fixpoint spread_loop (first : nat) (up ltr : bool) (x_total y_total total : Q)
      (es : list nat) (idx : nat) (l : layout) : res layout :=
    match es with
    | [] => Ok l
    | e :: es =>
        if is_track e then
          do s <- at_ l first;
          let fp_idx := inject_Z (Z.of_nat idx) in
          let x_distance := x_total * (fp_idx / (total + 1)) in
          let y_distance := y_total * (fp_idx / (total + 1)) in
          do l <- put l e (mk_place (x_ s + (if ltr then x_distance else - x_distance))
                                    (y_ s + (if up then - y_distance else y_distance)));
          spread_loop first up ltr x_total y_total total es (S idx) l
        else spread_loop first up ltr x_total y_total total es idx l
    end.
  (* layout.cc:31-61: one section, given by its elements in rising order *)
  Definition spread_section (l : layout) (sec : list nat) : res layout :=
    match sec with
    | [] => UB
    | first :: _ =>
        do s <- at_ l first;
        do t <- at_ l (last sec first);
        spread_loop first (Qlt_b (y_ t) (y_ s)) (Qlt_b (x_ s) (x_ t))
          (Qabs (x_ s - x_ t)) (Qabs (y_ s - y_ t)) (inject_Z (Z.of_nat (List.length sec))) sec 0%nat l
    end.
  Definition calculate_track_element_coords (l : layout) (sections : list (list nat)) : res layout :=
    for_each spread_section l sections.

  (* layout.cc:126-139; max_x and max_y are not used *)
  Fixpoint min_loop (l : layout) (es : list nat) (m : place) : res place :=
    match es with
    | [] => Ok m
    | e :: es => do p <- at_ l e; min_loop l es (mk_place (Qmin_ (x_ m) (x_ p)) (Qmin_ (y_ m) (y_ p)))
    end.
  (* layout.cc:125-146: one station, given by its elements *)
  Definition adjust_station (l : layout) (es : list nat) : res layout :=
    do m <- min_loop l es unplaced;
    for_each (fun l e => do p <- at_ l e; put l e (mk_place (x_ p - x_ m) (y_ p - y_ m))) l es.
  Definition adjust_coordinates (l : layout) (stations : list (list nat)) : res layout :=
    for_each adjust_station l stations.

  (* layout.cc:149-195 *)
  Definition get_layout (nodes : list rp_node) (stations sections : list (list nat))
      (element_count : nat) : res layout :=
    do l <- for_each place_node (repeat unplaced element_count) nodes;
    do l <- calculate_track_element_coords l sections;
    adjust_coordinates l stations.
End Get.

(* ---- gps.h:14-27, gps.cc:10-12 ---- *)
Record gps : Type := mk_gps { lon_ : Q; lat_ : Q }.
Definition GPS_INVALID : Q := - (361).
Definition no_gps : gps := mk_gps GPS_INVALID GPS_INVALID.
Definition valid (g : gps) : bool := Qle_bool (Qabs (lat_ g)) 360 && Qle_bool (Qabs (lon_ g)) 360.

(* ---- parse_station_coords.cc ---- *)
Record coord_row : Type := mk_row { row_ds100 : text; row_lat : text; row_lon : text }.
(* :46-55 *)
Definition parse_degrees (s : text) : res Q :=
  match s with [] => Ok GPS_INVALID | _ => parse_fp true s end.
(* :38-58; ds100_to_station as the function that finds the id *)
Definition add_row (station_of : text -> option nat) (l : list gps) (r : coord_row) : res (list gps) :=
  match station_of (row_ds100 r) with
  | None => Ok l
  | Some s =>
      do lon <- parse_degrees (row_lon r);
      do lat <- parse_degrees (row_lat r);
      put l s (mk_gps lon lat)
  end.
(* :18-61; None when the file does not exist *)
Definition parse_station_coords (file : option (list coord_row)) (station_of : text -> option nat)
    (count : nat) : res (list gps) :=
  match file with
  | None => Ok []
  | Some rows => for_each (add_row station_of) (repeat no_gps count) rows
  end.

(* ---- layout_to_gps.cc:24-140 ---- *)
Section Interpolate.
  Variable addr : nat -> nat.                    (* where a station lies in memory *)
  Variable borders : nat -> list nat.            (* the neighbours at the borders of a station *)

  (* station.cc:10-15: ranges::actions::sort, ordering pointers, and unique *)
  Fixpoint insert (s : nat) (l : list nat) : list nat :=
    match l with
    | [] => [s]
    | t :: l => if Nat.leb (addr s) (addr t) then s :: t :: l else t :: insert s l
    end.
  Fixpoint unique (l : list nat) : list nat :=
    match l with
    | s :: ((t :: _) as r) => if Nat.eqb s t then unique r else s :: unique r
    | _ => l
    end.
  Definition neighbours (s : nat) : list nat := unique (fold_right insert [] (borders s)).

  Definition at_gps (coords : list gps) (s : nat) : gps := nth s coords no_gps.

  (* layout_to_gps.cc:30-40 *)
  Definition handle_node (coords : list gps) (station : nat)
      (st : list (nat * nat) * (nat -> nat)) (s prev_s : nat) : (list (nat * nat) * (nat -> nat)) * bool :=
    let '(found, dists) := st in
    let d := if Nat.eqb s station then 0%nat else (dists prev_s + 1)%nat in
    let dists' := fun t => if Nat.eqb t s then d else dists t in
    ((if valid (at_gps coords s) then (found ++ [(s, d)])%list else found, dists'), false).
  (* layout_to_gps.cc:42-46 *)
  Definition next (coords : list gps) (s : nat) : list nat :=
    if valid (at_gps coords s) then [] else neighbours s.
  (* layout_to_gps.cc:24-51 *)
  Definition get_neighbours_with_coords (coords : list gps) (station : nat) : res (list (nat * nat)) :=
    do st <- bfs (S (List.length coords)) station (next coords)
               (handle_node coords station) no_edge ([], fun _ => 0%nat);
    Ok (fst st).

  (* layout_to_gps.cc:71-92 *)
  Definition weight (station max_dist : nat) (nd : nat * nat) : nat :=
    let d0 := (max_dist - snd nd)%nat in
    let coupling := count_occ Nat.eq_dec (borders station) (fst nd) in
    if Nat.eqb (snd nd) 1 && Nat.ltb 4 coupling then (d0 * 2)%nat else d0.
  Definition ofn (n : nat) : Q := inject_Z (Z.of_nat n).
  (* layout_to_gps.cc:53-98 *)
  Definition interpolate_one (coords : list gps) (station : nat) : res gps :=
    do near <- get_neighbours_with_coords coords station;
    if Nat.ltb (List.length near) 2 then Ok no_gps
    else
      let max_dist := (fold_right Nat.max 0 (map snd near) + 1)%nat in
      let '(lon, lat, total) :=
        fold_left (fun acc nd =>
          let '(lon, lat, total) := acc in
          let d0 := ofn (weight station max_dist nd) in
          (lon + lon_ (at_gps coords (fst nd)) * d0, lat + lat_ (at_gps coords (fst nd)) * d0, total + d0))
          near (0, 0, 0) in
      Ok (mk_gps (lon / total) (lat / total)).

  (* layout_to_gps.cc:106-117: one round over all stations; i is the position *)
  Fixpoint round (coords : list gps) (i : nat) (cur : list gps) (work : bool) : res (list gps * bool) :=
    match cur with
    | [] => Ok ([], work)
    | c :: cur =>
        if valid c then
          do ' (cur, work) <- round coords (S i) cur work; Ok (c :: cur, work)
        else
          do c <- interpolate_one coords i;
          do ' (cur, work) <- round coords (S i) cur (valid c);
          Ok (c :: cur, work)
    end.
  Fixpoint rounds (fuel : nat) (coords cur : list gps) : res (list gps) :=
    match fuel with
    | O => Fuel
    | S fuel =>
        do ' (cur, work) <- round coords 0 cur false;
        if work then rounds fuel coords cur else Ok cur
    end.
  (* layout_to_gps.cc:123-137 *)
  Fixpoint leftovers (coords : list gps) (i : nat) (cur : list gps) : res (list gps) :=
    match cur with
    | [] => Ok []
    | c :: cur =>
        do c <- (if valid c then Ok c
                 else do near <- get_neighbours_with_coords coords i;
                      match near with
                      | [] => Ok (mk_gps 8 47)
                      | [(n, depth)] =>
                          Ok (mk_gps (lon_ (at_gps coords n) - ofn depth * (1 # 10)) (lat_ (at_gps coords n)))
                      | _ => Ok c
                      end);
        do cur <- leftovers coords (S i) cur;
        Ok (c :: cur)
    end.
  (* layout_to_gps.cc:100-140; zip compares the lengths *)
  Definition interpolate_coordinates (stations : nat) (coords : list gps) : res (list gps) :=
    if Nat.eqb stations (List.length coords) then
      do cur <- rounds 3 coords coords;
      leftovers coords 0 cur
    else Throw.
End Interpolate.
