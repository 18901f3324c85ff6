(* Model of a whole request to the web server: from its address to the answer.
   web/server/src/soro_server.cc:14-135 (which function a route calls) and the beginnings of the
   functions called, which take the parameters of the address:
   web/server/src/modules/{infrastructure,search,timetable,ordering}/serve_*.cc,
   web/server/src/modules/tiles/tiles_module.cc:16-49.

   Simplifications
   - an answer is the values it contains (as in ServeModel, OgServeModel, RouterModel)
   - the tiles library is not part of the repository: an answer with a tile is what the
     library is asked for; every client accepts deflate
   - files in the resource directory are not modelled: R_static
   - std::vector::operator[] and front() of too short a vector are UB *)
From Coq Require Import List NArith Ascii.
From Verif Require Import Base OgServeModel RouterModel.
From Verif Require Import OrderingModel.
From Verif Require ServeModel StartModel LineModel.
Import ListNotations.

Inductive reply : Type :=
| R_names (l : list text)
| R_tile (ps : list text)
| R_box (b : LineModel.box)
| R_stations (l : list (text * N))
| R_station (a : N * text * list (N * text * N * N) * list N)
| R_station_route (a : N * text * text * list LineModel.gps)
| R_interlocking_route (a : N * list LineModel.gps)
| R_exclusion_set (a : N * N * list N)
| R_element (a : N * option (QArith_base.Q * bool * N) * list (String.string * ServeModel.value))
| R_results (l : list ServeModel.result)
| R_timetables (l : list text)
| R_timetable (a : text * (N * N))
| R_graph (a : janswer)
| R_static
| R_not_found
| R_bad.
(* net::not_found_response, net::bad_request_response, json_response *)
Definition reply_of {A} (f : A -> reply) (r : res (ServeModel.response A)) : res reply :=
  do a <- r;
  Ok (match a with
      | ServeModel.Answer a => f a
      | ServeModel.Not_found => R_not_found
      | ServeModel.Bad_request => R_bad
      end).

(* req.path_params_.front(), [k], .back() *)
Definition param (ps : list text) (k : nat) : res text :=
  match nth_error ps k with Some p => Ok p | None => UB end.
Definition last_param (ps : list text) : res text :=
  match ps with [] => UB | _ => Ok (last ps []) end.
Definition expect_params (ps : list text) (n : nat) : res unit := if Nat.eqb (List.length ps) n then Ok tt else Throw.

Section Web.
  Variable guess : list text -> text -> list N.
  Variable usort : list usage -> list usage.
  Variable tsort : list (N * tentry) -> list (N * tentry).
  Variable excl_of : ServeModel.infra -> exclusion.   (* infrastructure_t::exclusion_ *)

  (* soro_server.h:24-28: the modules; of a timetable its interval and trains *)
  Record web : Type := mk_web {
    wb_server : ServeModel.server;
    wb_timetables : list (text * list (text * ((N * N) * list ttrain)));
    wb_tiles : list text }.
  (* timetable_module::contexts_ without the trains *)
  Definition wb_contexts (w : web) : contexts :=
    map (fun e => (fst e, map (fun t => (fst t, fst (snd t))) (snd e))) (wb_timetables w).

  (* infrastructure_module.cc:14-23 *)
  Definition web_infra (w : web) (n : text) : option exclusion :=
    option_map excl_of (StartModel.lookup n (ServeModel.sv_infras (wb_server w))).
  (* timetable_module.cc:13-31 *)
  Definition web_timetable (w : web) (i t : text) : option (list ttrain) :=
    match StartModel.lookup i (wb_timetables w) with
    | None => None
    | Some tts => option_map snd (StartModel.lookup t tts)
    end.
  (* tiles_module.cc:19-23,35 *)
  Definition serve_tile (w : web) (i : text) (ps : list text) : res (ServeModel.response (list text)) :=
    if existsb (StartModel.text_eqb i) (wb_tiles w) then Ok (ServeModel.Answer ps) else Ok ServeModel.Not_found.

  (* soro_server.cc:26-134 *)
  Definition call (w : web) (h : handler) (ps : list text) : res reply :=
    let sv := wb_server w in
    match h with
    (* serve_infrastructure_names.cc:12-18 *)
    | H_infrastructures => Ok (R_names (map fst (ServeModel.sv_infras sv)))
    | H_tile => do i <- param ps 0; reply_of R_tile (serve_tile w i ps)
    (* serve_bounding_box.cc:17 *)
    | H_bounding_box => do i <- param ps 0; reply_of R_box (ServeModel.serve_bounding_box sv i)
    (* serve_station_names.cc:24 *)
    | H_stations => do i <- param ps 0; reply_of R_stations (ServeModel.serve_station_names sv i)
    (* serve_station.cc:46,51: the number is looked at only if there is such an infrastructure;
       every route that calls these functions has both parameters *)
    | H_station => do i <- param ps 0; do s <- param ps 1; reply_of R_station (ServeModel.serve_station sv i s)
    (* serve_station_route.cc:17,22 *)
    | H_station_route => do i <- param ps 0; do s <- param ps 1; reply_of R_station_route (ServeModel.serve_station_route sv i s)
    (* serve_interlocking_route.cc:17,22 *)
    | H_interlocking_route => do i <- param ps 0; do s <- param ps 1; reply_of R_interlocking_route (ServeModel.serve_interlocking_route sv i s)
    (* serve_exclusion_set.cc:18,23 *)
    | H_exclusion_set => do i <- param ps 0; do s <- param ps 1; reply_of R_exclusion_set (ServeModel.serve_exclusion_set sv i s)
    (* serve_element.cc:43,48 *)
    | H_element => do i <- param ps 0; do s <- param ps 1; reply_of R_element (ServeModel.serve_element sv i s)
    (* serve_search.cc:41-56 *)
    | H_search => do i <- param ps 0; do q <- last_param ps; reply_of R_results (ServeModel.serve_search guess sv i q)
    (* serve_timetable_names.cc:10 *)
    | H_timetables => do i <- param ps 0; reply_of R_timetables (serve_timetable_names (wb_contexts w) i)
    (* serve_timetable.cc:30-35 *)
    | H_timetable =>
        do _ <- expect_params ps 2; do i <- param ps 0; do t <- last_param ps; reply_of R_timetable (serve_timetable (wb_contexts w) i t)
    (* serve_ordering_graph.cc:135-156,164-179 *)
    | H_ordering =>
        do _ <- expect_params ps 5; do i <- param ps 0; do t <- param ps 1;
        do from <- param ps 2; do to <- param ps 3; do ids <- param ps 4;
        reply_of R_graph (serve_ordering_graph usort tsort (web_infra w) (web_timetable w) i t from to ids)
    | H_static => Ok R_static
    end.

  (* soro_server.cc:150-155: the address of a request is given to the router *)
  Definition handle (w : web) (target : text) : res reply :=
    match route target with
    | Some (h, ps) => call w h ps
    | None => Ok R_not_found
    end.
End Web.
