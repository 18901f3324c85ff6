(* Model of the web server's answers about an infrastructure and of its search:
   web/server/src/modules/search/search_module.cc, serve_search.cc,
   web/server/include/soro/server/modules/search/search_module.h,
   web/server/src/modules/infrastructure/serve_*.cc,
   infrastructure_module.cc:14-23.

   Simplifications
   - a request is the list of the parameters its address contains; the router
     and its regular expressions are left out, as are JSON texts: an answer is
     the values it contains
   - an infrastructure is reduced to what is shown of it.  Pointers to elements
     are the ids of the elements, the nodes of a route are their elements, and
     the traversal of an interlocking route is the list of its elements
     (RouteIter describes it)
   - lengths, speeds and slopes are rational numbers
   - the guesser, which finds similar texts, is a parameter *)
From Coq Require Import Ascii String QArith.
From Verif Require Import Base TextModel StockModel LineModel StartModel.

(* vector::operator[] *)
Definition vec_at {A} (l : list A) (i : N) : res A :=
  match nth_error l (N.to_nat i) with Some x => Ok x | None => UB end.

Fixpoint mapM {A B} (f : A -> res B) (l : list A) : res (list B) :=
  match l with
  | [] => Ok []
  | a :: l => do b <- f a; do bs <- mapM f l; Ok (b :: bs)
  end.

(* ---- the infrastructure ---- *)
(* include/soro/infrastructure/graph/element_data.h:22-87, without the parts that
   are not shown *)
Inductive edata : Type :=
| D_empty
| D_eotd (signal : bool)
| D_slope (rising falling : Q)
| D_halt (name identifier_operational identifier_extern : text) (is_passenger : bool)
| D_speed_limit (limit : Q) (last_signal : bool)
| D_main_signal (name : text)
| D_switch (name : text).

(* include/soro/infrastructure/graph/element.h; km_, rising_ and line_ of track
   elements *)
Record element : Type := mk_element {
  el_id : N;
  el_type : etype;
  el_track : option (Q * bool * N) }.

(* include/soro/infrastructure/station/station.h:14-42; the map of routes in the
   order of the names, a route by its place among the routes *)
Record station : Type := mk_station {
  st_id : N;
  st_ds100 : text;
  st_elements : list N;
  st_routes : list (text * N) }.

(* include/soro/infrastructure/station/station_route.h *)
Record sroute : Type := mk_sroute {
  sr_id : N;
  sr_name : text;
  sr_station : N;
  sr_nodes : list N }.

(* include/soro/infrastructure/interlocking/interlocking_route.h *)
Record iroute : Type := mk_iroute { ir_id : N; ir_nodes : list N }.

(* include/soro/infrastructure/infrastructure_t.h *)
Record infra : Type := mk_infra {
  in_stations : list station;
  in_full_names : list text;
  in_elements : list element;
  in_data : list edata;
  in_positions : list gps;
  in_sroutes : list sroute;
  in_iroutes : list iroute;
  in_station_irs : list (list N);
  in_exclusion_sets : list (list N) }.

(* ---- search_module.cc ---- *)
(* std::to_string *)
Definition digit_char (k : N) : ascii := ascii_of_N (48 + k).
Fixpoint to_digits (fuel : nat) (n : N) : text :=
  match fuel with
  | O => []
  | S fuel => if (n <? 10)%N then [digit_char n]
              else to_digits fuel (n / 10)%N ++ [digit_char (n mod 10)%N]
  end.
Definition to_string (n : N) : text := to_digits (S (N.to_nat (N.log2 n))) n.

(* search_module.cc:14-20 *)
Definition left_pad_to_3_digits (i : N) : text :=
  let id := to_string i in
  repeat "0"%char (3 - Nat.min 3 (List.length id)) ++ id.

(* search_module.cc:22-49 *)
Definition box_of (pos : list gps) (es : list N) : res box :=
  do ps <- mapM (vec_at pos) es; Ok (get_bounding_box ps).

(* search_module.h:11-37 *)
Inductive kind : Type := STATION | ELEMENT | STATION_ROUTE | INTERLOCKING_ROUTE.
Record result : Type := mk_result {
  rs_kind : kind;
  rs_name : text;
  rs_box : box;
  rs_id : N;
  rs_element_type : text }.

(* .as<main_signal>(), .as<switch_data>(), .as<halt>() *)
Definition as_main_signal (d : edata) : res text :=
  match d with D_main_signal n => Ok n | _ => UB end.
Definition as_switch (d : edata) : res text :=
  match d with D_switch n => Ok n | _ => UB end.
Definition as_halt (d : edata) : res (text * text * text) :=
  match d with D_halt n op ex _ => Ok (n, op, ex) | _ => UB end.

Definition is_empty (t : text) : bool := match t with [] => true | _ => false end.

(* search_module.cc:57-62 *)
Definition station_result (i : infra) (s : station) : res (list result) :=
  do bb <- box_of (in_positions i) (st_elements s);
  Ok [mk_result STATION (st_ds100 s) bb (st_id s) []].

(* search_module.cc:65-76 *)
Definition full_name_result (i : infra) (e : nat * text) : res (list result) :=
  do s <- vec_at (in_stations i) (N.of_nat (fst e));
  if text_eqb (st_ds100 s) (snd e) then Ok []
  else do bb <- box_of (in_positions i) (st_elements s);
       Ok [mk_result STATION (snd e) bb (N.of_nat (fst e)) []].

(* search_module.cc:79-119 *)
Definition element_results (i : infra) (e : element) : res (list result) :=
  do bb <- box_of (in_positions i) [el_id e];
  let id := el_id e in
  let type_str := list_ascii_of_string (get_type_str (el_type e)) in
  do signal <- match el_type e with
               | MAIN_SIGNAL => do d <- vec_at (in_data i) id;
                                do n <- as_main_signal d;
                                Ok [mk_result ELEMENT n bb id type_str]
               | _ => Ok []
               end;
  do switch <- match el_type e with
               | SIMPLE_SWITCH => do d <- vec_at (in_data i) id;
                                  do n <- as_switch d;
                                  Ok [mk_result ELEMENT n bb id type_str]
               | _ => Ok []
               end;
  do halt <- match el_type e with
             | HALT => do d <- vec_at (in_data i) id;
                       do ' (n, op, ex) <- as_halt d;
                       Ok ((if is_empty n then [] else [mk_result ELEMENT n bb id type_str]) ++
                           (if is_empty ex then [] else [mk_result ELEMENT op bb id []]) ++
                           (if is_empty op then [] else [mk_result ELEMENT ex bb id type_str]))
             | _ => Ok []
             end;
  Ok ([mk_result ELEMENT (left_pad_to_3_digits id) bb id type_str] ++ signal ++ switch ++ halt).

(* search_module.cc:122-127 *)
Definition sroute_result (i : infra) (r : sroute) : res (list result) :=
  do bb <- box_of (in_positions i) (sr_nodes r);
  Ok [mk_result STATION_ROUTE (sr_name r) bb (sr_id r) []].

(* search_module.cc:130-135 *)
Definition iroute_result (i : infra) (r : iroute) : res (list result) :=
  do bb <- box_of (in_positions i) (ir_nodes r);
  Ok [mk_result INTERLOCKING_ROUTE (left_pad_to_3_digits (ir_id r)) bb (ir_id r) []].

(* utl::enumerate *)
Definition enumerate {A} (l : list A) : list (nat * A) := combine (seq 0 (List.length l)) l.

(* search_module.cc:51-144 *)
Definition get_search_context (i : infra) : res (list result) :=
  do a <- mapM (station_result i) (in_stations i);
  do b <- mapM (full_name_result i) (enumerate (in_full_names i));
  do c <- mapM (element_results i) (in_elements i);
  do d <- mapM (sroute_result i) (in_sroutes i);
  do e <- mapM (iroute_result i) (in_iroutes i);
  Ok (concat a ++ concat b ++ concat c ++ concat d ++ concat e).

(* ---- the running server ---- *)
Record server : Type := mk_server {
  sv_infras : list (text * infra);
  sv_contexts : list (text * list result) }.

(* search_module.cc:146-157 *)
Definition get_search_module (infras : list (text * infra)) : res server :=
  do ctxs <- mapM (fun i => do c <- get_search_context (snd i); Ok (fst i, c)) infras;
  Ok (mk_server infras ctxs).

Inductive response (A : Type) : Type :=
| Answer (a : A)
| Not_found
| Bad_request.
Arguments Answer {A} a.
Arguments Not_found {A}.
Arguments Bad_request {A}.

Section Search.
  (* guesser.guess_match: places of similar texts among the indexed ones *)
  Variable guess : list text -> text -> list N.

  (* serve_search.cc:30-36 *)
  Definition search (query : text) (ctx : list result) : res (list result) :=
    mapM (vec_at ctx) (guess (map rs_name ctx) query).

  (* serve_search.cc:38-65 *)
  Definition serve_search (sv : server) (name query : text) : res (response (list result)) :=
    match lookup name (sv_infras sv) with
    | None => Ok Not_found
    | Some _ =>
        match lookup name (sv_contexts sv) with
        | None => Ok Not_found
        | Some ctx =>
            if (List.length query <? 3)%nat then Ok Bad_request
            else do rs <- search query ctx; Ok (Answer rs)
        end
    end.
End Search.

(* ---- serve_*.cc of the infrastructure module ---- *)
(* utls::parse_int<uint32_t> *)
Definition parse_id (s : text) : res N := do v <- parse_int 0 4294967295 s; Ok (Z.to_N v).

(* infrastructure_module.cc:14-23 and the check at the start of every function *)
Definition with_infra {A} (sv : server) (name : text) (k : infra -> res (response A)) : res (response A) :=
  match lookup name (sv_infras sv) with
  | None => Ok Not_found
  | Some i => k i
  end.

(* serve_bounding_box.cc:14-27 *)
Definition serve_bounding_box (sv : server) (name : text) : res (response box) :=
  with_infra sv name (fun i => Ok (Answer (get_bounding_box (in_positions i)))).

(* serve_station_names.cc:12-32 *)
Definition serve_station_names (sv : server) (name : text) : res (response (list (text * N))) :=
  with_infra sv name (fun i => Ok (Answer (map (fun s => (st_ds100 s, st_id s)) (in_stations i)))).

(* front(), back() *)
Definition front (l : list N) : res N := match l with [] => UB | a :: _ => Ok a end.
Definition back (l : list N) : res N := match l with [] => UB | _ => Ok (last l 0%N) end.

(* serve_station.cc:14-36: id, name, from_element, to_element *)
Definition show_route (i : infra) (r : text * N) : res (N * text * N * N) :=
  do sr <- vec_at (in_sroutes i) (snd r);
  do from <- front (sr_nodes sr);
  do to <- back (sr_nodes sr);
  Ok (sr_id sr, sr_name sr, from, to).

(* serve_station.cc:42-68: id, ds100, stationRoutes, interlockingRouteIds *)
Definition serve_station (sv : server) (name id : text) : res (response (N * text * list (N * text * N * N) * list N)) :=
  with_infra sv name (fun i =>
    do s_id <- parse_id id;
    if (N.of_nat (List.length (in_stations i)) <=? s_id)%N then Ok Not_found
    else do s <- vec_at (in_stations i) s_id;
         do irs <- vec_at (in_station_irs i) s_id;
         do rs <- mapM (show_route i) (st_routes s);
         Ok (Answer (st_id s, st_ds100 s, rs, irs))).

(* serve_station_route.cc:13-41: id, name, ds100, path *)
Definition serve_station_route (sv : server) (name id : text) : res (response (N * text * text * list gps)) :=
  with_infra sv name (fun i =>
    do sr_id_ <- parse_id id;
    if (N.of_nat (List.length (in_sroutes i)) <=? sr_id_)%N then Ok Not_found
    else do sr <- vec_at (in_sroutes i) sr_id_;
         do s <- vec_at (in_stations i) (sr_station sr);
         do ps <- mapM (vec_at (in_positions i)) (sr_nodes sr);
         Ok (Answer (sr_id sr, sr_name sr, st_ds100 s, ps))).

(* serve_interlocking_route.cc:13-43: id, path *)
Definition serve_interlocking_route (sv : server) (name id : text) : res (response (N * list gps)) :=
  with_infra sv name (fun i =>
    do ir_id_ <- parse_id id;
    if (N.of_nat (List.length (in_iroutes i)) <=? ir_id_)%N then Ok Not_found
    else do ir <- vec_at (in_iroutes i) ir_id_;
         do ps <- mapM (vec_at (in_positions i)) (ir_nodes ir);
         Ok (Answer (ir_id ir, ps))).

(* serve_exclusion_set.cc:15-31: id, size, interlocking_routes *)
Definition serve_exclusion_set (sv : server) (name id : text) : res (response (N * N * list N)) :=
  with_infra sv name (fun i =>
    do es_id <- parse_id id;
    do es <- vec_at (in_exclusion_sets i) es_id;
    Ok (Answer (es_id, N.of_nat (List.length es), es))).

(* the values of an element *)
Inductive value : Type := V_text (t : text) | V_bool (b : bool) | V_number (q : Q).
Definition field (n : string) (v : value) : string * value := (n, v).

(* serve_element.cc:13-39; si::as_km_h *)
Definition show_data (d : edata) : list (string * value) :=
  match d with
  | D_empty => []
  | D_eotd s => [field "signal" (V_bool s)]
  | D_slope r f => [field "rising" (V_number r); field "falling" (V_number f)]
  | D_halt n op ex p => [field "name" (V_text n); field "passenger" (V_bool p);
                         field "id_extern" (V_text ex); field "id_op" (V_text op)]
  | D_speed_limit l p => [field "limit" (V_number (l * (36 # 10))); field "point_of_activation" (V_bool p)]
  | D_main_signal n => [field "name" (V_text n)]
  | D_switch n => [field "name" (V_text n)]
  end.

(* serve_element.cc:41-66: id, kilometrage/rising/line, data *)
Definition serve_element (sv : server) (name id : text) : res (response (N * option (Q * bool * N) * list (string * value))) :=
  with_infra sv name (fun i =>
    do e_id <- parse_id id;
    do e <- vec_at (in_elements i) e_id;
    do track <- (if is_directed_track_element (el_type e)
                 then match el_track e with Some t => Ok (Some t) | None => UB end
                 else Ok None);
    do d <- vec_at (in_data i) e_id;
    Ok (Answer (e_id, track, show_data d))).
