(* Model of the types the web client declares for answers, web/client/src/util/SoroClient.ts, and of the answers of
   web/server/src/modules/infrastructure/serve_station.cc, serve_station_names.cc, serve_station_route.cc,
   serve_interlocking_route.cc, serve_infrastructure_names.cc and web/server/src/modules/timetable/serve_timetable.cc,
   serve_timetable_names.cc.

   Simplifications
   - what the answers are about is given (ServeModel has where it comes from)
   - the types are those the compiler believes; LngLatBounds is what maplibre accepts for it, a list of two coordinates *)
From Verif Require Import Base AnswerModel.
From Coq Require Import QArith String.
Close Scope Q_scope.
Open Scope string_scope.
Open Scope list_scope.

(* ---- the server ---- *)
(* serve_infrastructure_names.cc:14-17, serve_timetable_names.cc:12-16 *)
Definition answer_names (key : string) (l : list string) : res answer :=
  respond [(Some key, VList (map VText l))].
(* serve_station_names.cc:12-15, 29-31 *)
Definition answer_stations (l : list (string * Q)) : res answer :=
  respond [(Some "stations", VList (map (fun s => VObj [(Some "ds100", VText (fst s)); (Some "id", VNum (Some (snd s)))]) l))].
(* serve_station.cc:14-23; a station route: number, name, elements at its ends *)
Record sroute_data : Type := mksrd { sd_id : Q; sd_name : string; sd_from : Q; sd_to : Q }.
Definition sroute_val (s : sroute_data) : val :=
  VObj [(Some "id", VNum (Some (sd_id s))); (Some "name", VText (sd_name s));
        (Some "from_element", VNum (Some (sd_from s))); (Some "to_element", VNum (Some (sd_to s)))].
(* serve_station.cc:25-36, 62-67 *)
Definition answer_station (id : Q) (ds100 : string) (routes : list sroute_data) (irs : list Q) : res answer :=
  respond [(Some "id", VNum (Some id)); (Some "ds100", VText ds100); (Some "stationRoutes", VList (map sroute_val routes));
           (Some "interlockingRouteIds", VList (map (fun i => VNum (Some i)) irs))].
(* serve_station_route.cc:32-40 *)
Definition answer_station_route (id : Q) (name ds100 : string) (path : list (Q * Q)) : res answer :=
  respond [(Some "id", VNum (Some id)); (Some "name", VText name); (Some "ds100", VText ds100);
           (Some "path", VList (map gps_val path))].
(* serve_interlocking_route.cc:34-42 *)
Definition answer_interlocking_route (id : Q) (path : list (Q * Q)) : res answer :=
  respond [(Some "id", VNum (Some id)); (Some "path", VList (map gps_val path))].
(* serve_timetable.cc:10-20, 41-43 *)
Definition answer_timetable (source : string) (first last : Q) : res answer :=
  respond [(Some "timetable", VObj [(Some "source", VText source);
             (Some "interval", VObj [(Some "start", VNum (Some first)); (Some "end", VNum (Some last))])])].

(* ---- the types of the client ---- *)
Inductive ty : Type := TNumber | TString | TBoolean | TArray (t : ty) | TObject (l : list (string * ty)).
(* SoroClient.ts:4-5 *)
Definition infrastructure_list_t : ty := TObject [("infrastructures", TArray TString)].
Definition timetable_list_t : ty := TObject [("timetables", TArray TString)].
(* :7-8 *)
Definition coordinate_t : ty := TObject [("lon", TNumber); ("lat", TNumber)].
Definition bounding_box_t : ty := TObject [("boundingBox", TArray coordinate_t)].
(* :20-29; the path and ds100 are optional *)
Definition station_route_t : ty :=
  TObject [("id", TNumber); ("name", TString); ("fromElement", TNumber); ("toElement", TNumber)].
(* :12-17 *)
Definition station_t : ty :=
  TObject [("id", TNumber); ("ds100", TString); ("stationRoutes", TArray station_route_t); ("interlockingRouteIds", TArray TNumber)].
(* :18 *)
Definition station_list_t : ty := TObject [("stations", TArray TString)].
(* :31-36, with the path of one that is fetched directly *)
Definition interlocking_route_t : ty := TObject [("id", TNumber); ("path", TArray coordinate_t)].
(* :38-40, :42-45, :47-52, :59-62 (an enumeration is a number), :64-66 *)
Definition eotd_t : ty := TObject [("signal", TBoolean)].
Definition slope_t : ty := TObject [("rising", TNumber); ("falling", TNumber)].
Definition halt_t : ty := TObject [("name", TString); ("passenger", TBoolean); ("idExtern", TString); ("idOp", TString)].
Definition speed_limit_t : ty := TObject [("limit", TNumber); ("pointOfActivation", TNumber)].
Definition switch_t : ty := TObject [("name", TString)].
(* :77-85 *)
Definition search_result_t : ty :=
  TObject [("type", TString); ("id", TNumber); ("name", TString); ("boundingBox", bounding_box_t); ("elementType", TString)].
(* :87-95, :106-108 *)
Definition timetable_response_t : ty :=
  TObject [("timetable", TObject [("source", TString); ("interval", TObject [("start", TNumber); ("end", TNumber)])])].
