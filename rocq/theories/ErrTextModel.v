(* Model of the error codes and their texts: src/timetable/parsers/kss/kss_error.cc, route_transform_error.cc,
   src/rolling_stock/rolling_stock_error.cc, src/timetable/timetable_error.cc and their headers.

   Simplifications
   - a code is its category and its value; the order of categories (by address) is left out
   - values are in Z (they fit into int) *)
From Verif Require Import Base.
From Coq Require Import String.
Open Scope string_scope.

(* kss_error.h:7-21 *)
Inductive kss : Type :=
| STATION_NOT_FOUND | STATION_ROUTE_NOT_FOUND | WORKED_ON_TRAIN | NO_INTERLOCKING_ROUTE_PATH
| STOP_IS_HALT_BUT_STATION_ROUTE_NO_HALT | TRANSIT_TIME_BUT_NO_RUNTIME_CHECKPOINT | CTC_NOT_SUPPORTED
| SINGLE_STOP_NOT_SUPPORTED | BREAK_IN_NOT_SUPPORTED | BREAK_OUT_NOT_SUPPORTED | FIRST_STOP_NO_HALT_NOT_SUPPORTED
| LAST_STOP_NO_HALT_NOT_SUPPORTED | INFRASTRUCTURE_VERSION_MISMATCH.
Definition kss_value (e : kss) : Z :=
  match e with
  | STATION_NOT_FOUND => 1 | STATION_ROUTE_NOT_FOUND => 2 | WORKED_ON_TRAIN => 3 | NO_INTERLOCKING_ROUTE_PATH => 4
  | STOP_IS_HALT_BUT_STATION_ROUTE_NO_HALT => 5 | TRANSIT_TIME_BUT_NO_RUNTIME_CHECKPOINT => 6 | CTC_NOT_SUPPORTED => 7
  | SINGLE_STOP_NOT_SUPPORTED => 8 | BREAK_IN_NOT_SUPPORTED => 9 | BREAK_OUT_NOT_SUPPORTED => 10
  | FIRST_STOP_NO_HALT_NOT_SUPPORTED => 11 | LAST_STOP_NO_HALT_NOT_SUPPORTED => 12 | INFRASTRUCTURE_VERSION_MISMATCH => 13
  end%Z.
(* route_transform_error.h:7-13 *)
Inductive transform : Type :=
| NO_FIRST_IR | NO_UNIQUE_FIRST_IR | NO_IR | NO_UNIQUE_IR | HALT_IN_SEQUENCE_BUT_NOT_IN_STATION_ROUTE.
Definition transform_value (e : transform) : Z :=
  match e with
  | NO_FIRST_IR => 1 | NO_UNIQUE_FIRST_IR => 2 | NO_IR => 3 | NO_UNIQUE_IR => 4
  | HALT_IN_SEQUENCE_BUT_NOT_IN_STATION_ROUTE => 5
  end%Z.

(* the four categories, and the errors: rolling_stock_error.h:7-9 and timetable_error.h:7-9 have one each *)
Inductive category : Type := CKss | CTransform | CRolling | CTimetable.
Inductive error : Type := EKss (e : kss) | ETransform (e : transform) | ETraction | ESource.

(* make_error_code: kss_error.cc:54-56, route_transform_error.cc:38-40, rolling_stock_error.cc:27-29,
   timetable_error.cc:27-29 *)
Definition code_of (e : error) : category * Z :=
  match e with
  | EKss e => (CKss, kss_value e)
  | ETransform e => (CTransform, transform_value e)
  | ETraction => (CRolling, 1%Z)
  | ESource => (CTimetable, 1%Z)
  end.

(* kss_error.cc:12-41 *)
Definition kss_message (v : Z) : string :=
  match v with
  | 1 => "could not find station from timetable in infrastructure"
  | 2 => "could not find station route used in timetable in infrastructure"
  | 4 => "could not determine interlocking route path"
  | 5 => "stop is marked halt but station route does not have halt"
  | 6 => "transit time is set but no runtime checkpoint in station route"
  | 7 => "CTC is not supported"
  | 11 => "first stop has no halt is not supported"
  | 12 => "last stop has no halt is not supported"
  | 3 => "worked on train skipped"
  | 8 => "single stop train is not supported"
  | 9 => "break in not supported"
  | 10 => "break out not supported"
  | 13 => "infrastructure version mismatch"
  | _ => "not reachable"
  end%Z.
(* route_transform_error.cc:14-30 *)
Definition transform_message (v : Z) : string :=
  match v with
  | 1 => "could not find first interlocking route"
  | 2 => "could not find unique first interlocking route"
  | 3 => "could not find interlocking route"
  | 4 => "could not find unique interlocking route"
  | 5 => "halt in sequence but not in station route"
  | _ => "not reachable"
  end%Z.
(* std::error_code::message; rolling_stock_error.cc:12-19, timetable_error.cc:12-19 *)
Definition message (c : category * Z) : string :=
  match c with
  | (CKss, v) => kss_message v
  | (CTransform, v) => transform_message v
  | (CRolling, v) => match v with 1%Z => "could not find rolling stock vehicle" | _ => "not reachable" end
  | (CTimetable, v) => match v with 1%Z => "could not determine source type for timetable" | _ => "not reachable" end
  end.
