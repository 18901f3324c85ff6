(* Model of the sidebar of the web client: web/client/src/stores/sidebar-store.ts, the requests of
   web/client/src/util/SoroClient.ts it makes, and the search field of
   web/client/src/components/sidebar/search/extended-search.vue.

   Simplifications
   - handlers run to completion (they do in a browser); a request is answered at any later
     moment, before or after other pending requests, or fails
   - undefined is None; the empty string is falsy like undefined
   - what the server answers depends on the request only (srv); routes have their path
   - what other components keep for themselves (bounding box, overlay) is left out *)
From Verif Require Import Base.
From Coq Require Import QArith.
From Coq Require Export Strings.String.
Local Open Scope string_scope.
Local Open Scope list_scope.
Local Open Scope nat_scope.

Definition coordinates : Type := list (Q * Q).
(* SoroClient.ts:133-135, 152-245: the requests, by what they ask for *)
Inductive request : Type :=
| AskTimetables (infra : string)
| AskTimetable (infra tt : string)
| AskStationRoute (infra : string) (id : nat)
| AskInterlockingRoute (infra : string) (id : nat)
| AskSearch (infra query : string).
(* what the server knows; SoroClient.ts:5-118 *)
Record server : Type := mksrv {
  srv_timetables : string -> list string;
  srv_interval : string -> string -> Z * Z;
  srv_station_route : string -> nat -> coordinates;
  srv_interlocking_route : string -> nat -> coordinates;
  srv_search : string -> string -> list string }.

(* sidebar-store.ts:33-46: a highlighted route is its id and its points *)
Record feature : Type := mkf { f_id : nat; f_points : coordinates }.
(* sidebar-store.ts:12-31, 53-75; pending: requests not answered yet, oldest first *)
Record client : Type := mkc {
  infra : option string; timetables : list string; timetable : option string; range : option (Z * Z);
  station_routes : list feature; interlocking_routes : list feature; results : list string; query : string;
  pending : list request }.
Definition start : client := mkc None [] None None [] [] [] "" [].

Definition truthy (o : option string) : option string := match o with Some "" => None | o => o end.
(* the text of undefined in a path *)
Definition shown (o : option string) : string := match o with Some s => s | None => "undefined" end.

Definition ask (c : client) (r : request) : client :=
  mkc (infra c) (timetables c) (timetable c) (range c) (station_routes c) (interlocking_routes c) (results c) (query c) (pending c ++ [r]).
Definition set_infra c v := mkc v (timetables c) (timetable c) (range c) (station_routes c) (interlocking_routes c) (results c) (query c) (pending c).
Definition set_timetables c v := mkc (infra c) v (timetable c) (range c) (station_routes c) (interlocking_routes c) (results c) (query c) (pending c).
Definition set_timetable c v := mkc (infra c) (timetables c) v (range c) (station_routes c) (interlocking_routes c) (results c) (query c) (pending c).
Definition set_range c v := mkc (infra c) (timetables c) (timetable c) v (station_routes c) (interlocking_routes c) (results c) (query c) (pending c).
Definition set_station_routes c v := mkc (infra c) (timetables c) (timetable c) (range c) v (interlocking_routes c) (results c) (query c) (pending c).
Definition set_interlocking_routes c v := mkc (infra c) (timetables c) (timetable c) (range c) (station_routes c) v (results c) (query c) (pending c).
Definition set_results c v := mkc (infra c) (timetables c) (timetable c) (range c) (station_routes c) (interlocking_routes c) v (query c) (pending c).
Definition set_query c v := mkc (infra c) (timetables c) (timetable c) (range c) (station_routes c) (interlocking_routes c) (results c) v (pending c).
Definition set_pending c v := mkc (infra c) (timetables c) (timetable c) (range c) (station_routes c) (interlocking_routes c) (results c) (query c) v.

(* sidebar-store.ts:183-196 *)
Definition load_infrastructure (c : client) (name : option string) : client :=
  let c := set_infra c name in
  let c := set_timetable c None in
  match truthy name with
  | None => c
  | Some n => ask c (AskTimetables n)
  end.
(* sidebar-store.ts:198-216 *)
Definition load_timetable (c : client) (name : option string) : client :=
  match truthy (infra c) with
  | None => c
  | Some i => set_timetable (ask c (AskTimetable i (shown name))) name
  end.
(* sidebar-store.ts:148-158 *)
Definition add_station_route (c : client) (id : nat) : client :=
  match truthy (infra c) with
  | None => c
  | Some i => ask c (AskStationRoute i id)
  end.
(* sidebar-store.ts:118-122 *)
Definition without (id : nat) (l : list feature) : list feature := filter (fun f => negb (f_id f =? id)) l.
(* sidebar-store.ts:160-162 *)
Definition delete_station_route (c : client) (id : nat) : client := set_station_routes c (without id (station_routes c)).
(* sidebar-store.ts:164-177 *)
Definition add_interlocking_route (c : client) (id : nat) : client :=
  match truthy (infra c) with
  | None => c
  | Some i => ask c (AskInterlockingRoute i id)
  end.
(* sidebar-store.ts:128-133, 179-181 *)
Definition delete_interlocking_route (c : client) (id : nat) : client := set_interlocking_routes c (without id (interlocking_routes c)).
(* extended-search.vue:112-116, 125-134: a change of the text changes the query; a short one is answered with
   nothing at once (a microtask), the others by the server *)
Definition type_query (c : client) (q : string) : client :=
  if String.eqb q (query c) then c else
  let c := set_query c q in
  if String.length q <? 3 then set_results c [] else ask c (AskSearch (shown (infra c)) q).

(* sidebar-store.ts:114-116, 124-126, 157, 176, 194, 207-212, extended-search.vue:114: what an answer does *)
Definition receive (srv : server) (c : client) (r : request) : client :=
  match r with
  | AskTimetables i => set_timetables c (srv_timetables srv i)
  | AskTimetable i t => set_range c (Some (srv_interval srv i t))
  | AskStationRoute i id => set_station_routes c (station_routes c ++ [mkf id (srv_station_route srv i id)])
  | AskInterlockingRoute i id => set_interlocking_routes c (interlocking_routes c ++ [mkf id (srv_interlocking_route srv i id)])
  | AskSearch i q => set_results c (srv_search srv i q)
  end.

(* what the user does, and what the network does with the k-th pending request *)
Inductive event : Type :=
| ChooseInfra (name : option string)
| ChooseTimetable (name : option string)
| ChooseRange (from to : Z)
| ShowStationRoute (id : nat)
| HideStationRoute (id : nat)
| ShowInterlockingRoute (id : nat)
| HideInterlockingRoute (id : nat)
| Type_ (q : string)
| Answer (k : nat)
| Fail (k : nat).
Fixpoint drop_nth {A} (k : nat) (l : list A) : list A :=
  match l, k with
  | [], _ => []
  | _ :: l, O => l
  | a :: l, S k => a :: drop_nth k l
  end.
Definition on_event (srv : server) (c : client) (e : event) : client :=
  match e with
  | ChooseInfra n => load_infrastructure c n
  | ChooseTimetable n => load_timetable c n
  | ChooseRange a b => set_range c (Some (a, b))
  | ShowStationRoute id => add_station_route c id
  | HideStationRoute id => delete_station_route c id
  | ShowInterlockingRoute id => add_interlocking_route c id
  | HideInterlockingRoute id => delete_interlocking_route c id
  | Type_ q => type_query c q
  | Answer k =>
      match nth_error (pending c) k with
      | Some r => receive srv (set_pending c (drop_nth k (pending c))) r
      | None => c
      end
  | Fail k => set_pending c (drop_nth k (pending c))
  end.
Definition use (srv : server) (es : list event) (c : client) : client := fold_left (on_event srv) es c.
