(* Model of the way from the parsed infrastructure to its interlocking:
   src/infrastructure/parsers/iss/parse_iss.cc:1215-1265 (parse_iss),
   src/infrastructure/interlocking/get_interlocking.cc:306-327 (get_interlocking),
   src/infrastructure/station/station_route.cc:58-67 (requires_etcs).
   It joins StationModel (station routes as the import makes them) with
   RouteModel (station routes as the interlocking reads them) and LineModel.

   Simplifications
   - requires_etcs is evaluated once for every station route; the C++ evaluates it
     for the routes the search gets to, and again each time
   - the lines are parsed after the station route graph has been built; in the C++
     before, which only matters if both fail
   - layout, names, default values and rolling stock are left out *)
From Coq Require Import List Bool NArith ZArith QArith String.
From Verif Require Import Base InfraModel StationModel.
From Verif Require AlgoModel RouteModel LineModel.
Import ListNotations.
Local Open Scope nat_scope.

(* graph_creation.h:24-36: the id of a node is its number in the order of creation *)
Definition node_id (g : graph) (n : node) : N :=
  N.of_nat (AlgoModel.find_if (node_eqb n) (all_nodes g)).

(* station_route.cc:58-67; lines.at of an unknown line throws *)
Definition requires_etcs (lines : list (Z * LineModel.line)) (g : graph) (r : route) : res bool :=
  match rev (p_etcs_starts (ro_path r)) with
  | [] => Ok false
  | i :: _ =>
      do n <- RouteModel.at_ (ro_nodes r) i;
      do e <- get_e g (fst n);
      match e_kind e with
      | KTrack =>
          match e_line e S0 with
          | None => Throw
          | Some ln => do ln <- LineModel.at_key (Z.of_N ln) lines;
                       do b <- LineModel.has_signalling ln (e_km e S0);
                       Ok (negb b)
          end
      | _ => UB
      end
  end.

(* station_route.h:28-107: the fields RouteModel reads *)
Definition to_sroute (lines : list (Z * LineModel.line)) (g : graph) (r : route)
  : res RouteModel.sroute :=
  do etcs <- requires_etcs lines g r;
  Ok (RouteModel.mksr (map (node_id g) (ro_nodes r)) (p_main (ro_path r)) (ro_omitted r)
        (map (fun y => node_id g (snd y)) (ro_limits r)) (ro_passenger r) (ro_freight r)
        (N.of_nat (ro_station r)) etcs).

(* interlocking.h:7-20 *)
Record interlocking : Type := mkil {
  il_routes : list RouteModel.iroute;
  il_starting_at : list (list N);
  il_ending_at : list (list N);
  il_halting_at : list (list N);
  il_participating : list (list N);
  il_stations : list (list N) }.

(* get_interlocking.cc:306-327; 268-278: the average over no routes divides by 0 *)
Definition get_interlocking (fuel : nat) (stations : nat) (g : graph)
  (srs : list RouteModel.sroute) (srg : RouteModel.srgraph) : res interlocking :=
  do irs <- RouteModel.get_interlocking_routes srs srg fuel;
  let nodes := List.length (all_nodes g) in
  do h <- RouteModel.get_halting_at srs nodes irs;
  do s <- RouteModel.get_starting_at srs nodes irs;
  do e <- RouteModel.get_ending_at srs nodes irs;
  do p <- RouteModel.get_sr_to_participating_irs srs irs;
  do t <- RouteModel.get_station_to_irs srs stations irs;
  match irs with
  | [] => UB
  | _ => Ok (mkil irs s e h p t)
  end.

(* parse_iss.cc:1215-1265 with options.interlocking_ *)
Record loaded : Type := mkloaded {
  ld_infra : infrastructure;
  ld_srs : list RouteModel.sroute;
  ld_il : interlocking }.
Definition load (fuel : nat) (l : list (xstation * list xroute))
  (files : list (list LineModel.xml_line)) : res loaded :=
  do inf <- import_routes l;
  do lines <- LineModel.parse_lines files;
  do srs <- RouteModel.mapM (to_sroute lines (inf_graph inf)) (inf_routes inf);
  do il <- get_interlocking fuel (List.length l) (inf_graph inf) srs (inf_successors inf);
  Ok (mkloaded inf srs il).
