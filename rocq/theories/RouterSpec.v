(* Vocabulary for C124: the addresses the server understands, and what the client asks for.
   Independent of the regular expressions and of the way the client builds its addresses. *)
From Coq Require Import List NArith ZArith Ascii String.
From Verif Require Import OgServeSpec RouterModel.
From Verif Require Import KssDates.
Import ListNotations.

(* letters, digits, underscore and hyphen *)
Definition plain_characters : list ascii :=
  list_ascii_of_string "abcdefghijklmnopqrstuvwxyzABCDEFGHIJKLMNOPQRSTUVWXYZ0123456789_-".
Definition plain (s : list ascii) : Prop := s <> [] /\ Forall (fun c => In c plain_characters) s.
Definition digits (s : list ascii) : Prop := s <> [] /\ Forall (fun c => In c (list_ascii_of_string "0123456789")) s.
(* numbers separated by commas; the first one may be missing *)
Definition id_list (s : list ascii) : Prop :=
  exists first rest, s = commas (first :: rest) /\ (first = [] \/ digits first) /\ Forall digits rest.

(* parts of an address; each part begins with a slash *)
Fixpoint path (parts : list (list ascii)) : list ascii :=
  match parts with [] => [] | p :: ps => "/"%char :: p ++ path ps end.

(* the address `target` asks the server for `h` with the parameters `ps` *)
Inductive asks_for : handler -> list (list ascii) -> list ascii -> Prop :=
| for_infrastructures tail : tail = [] \/ tail = [[]] -> asks_for H_infrastructures [] (path ([T "infrastructures"] ++ tail))
| for_tile i z x y dot : plain i -> digits z -> digits x -> digits y ->
    asks_for H_tile [i; z; x; y] (path [T "infrastructure"; i; T "tiles"; z; x; y ++ dot :: T "mvt"])
| for_bounding_box i tail : plain i -> tail = [] \/ tail = [[]] ->
    asks_for H_bounding_box [i] (path ([T "infrastructure"; i; T "bounding_box"] ++ tail))
| for_stations i : plain i -> asks_for H_stations [i] (path [T "infrastructure"; i; T "stations"; []])
| for_station i id : plain i -> digits id -> asks_for H_station [i; id] (path [T "infrastructure"; i; T "station"; id])
| for_station_route i id : plain i -> digits id -> asks_for H_station_route [i; id] (path [T "infrastructure"; i; T "station_route"; id])
| for_interlocking_route i id : plain i -> digits id ->
    asks_for H_interlocking_route [i; id] (path [T "infrastructure"; i; T "interlocking_route"; id])
| for_exclusion_set i id : plain i -> digits id -> asks_for H_exclusion_set [i; id] (path [T "infrastructure"; i; T "exclusion_sets"; id])
| for_element i id : plain i -> digits id -> asks_for H_element [i; id] (path [T "infrastructure"; i; T "element"; id])
| for_search i q : plain i -> plain q -> asks_for H_search [i; q] (path [T "infrastructure"; i; T "search"; q])
| for_timetables i tail : plain i -> tail = [] \/ tail = [[]] -> asks_for H_timetables [i] (path ([T "infrastructure"; i; T "timetables"] ++ tail))
| for_timetable i t tail : plain i -> plain t -> tail = [] \/ tail = [[]] ->
    asks_for H_timetable [i; t] (path ([T "infrastructure"; i; T "timetable"; t] ++ tail))
| for_ordering i t from to ids : plain i -> plain t -> digits from -> digits to -> id_list ids ->
    asks_for H_ordering [i; t; from; to; ids]
      (path [T "infrastructure"; i; T "timetable"; t; T "ordering?from=" ++ from ++ T "&to=" ++ to ++ T "&trainIds=" ++ ids]).

(* what a question of the client is about *)
Inductive argument : Type := A_text (s : list ascii) | A_number (n : N) | A_numbers (l : list N).
Definition spells (s : list ascii) (a : argument) : Prop :=
  match a with
  | A_text t => s = t
  | A_number n => numeral s (Z.of_N n)
  | A_numbers l => exists texts, s = commas texts /\ Forall2 (fun t n => numeral t (Z.of_N n)) texts l
  end.
Definition concerns (a : ask) (h : handler) (args : list argument) : Prop :=
  match a with
  | Infrastructures => h = H_infrastructures /\ args = []
  | BoundingBox i => h = H_bounding_box /\ args = [A_text i]
  | Stations i => h = H_stations /\ args = [A_text i]
  | Station i id => h = H_station /\ args = [A_text i; A_number id]
  | StationRoute i id => h = H_station_route /\ args = [A_text i; A_number id]
  | InterlockingRoute i id => h = H_interlocking_route /\ args = [A_text i; A_number id]
  | Element i id => h = H_element /\ args = [A_text i; A_number id]
  | Search i q => h = H_search /\ args = [A_text i; A_text q]
  | Timetables i => h = H_timetables /\ args = [A_text i]
  | Timetable i t => h = H_timetable /\ args = [A_text i; A_text t]
  | Ordering i t from to ids => h = H_ordering /\ exists l, ids = map (fun n => Some (Z.of_N n)) l /\
      args = [A_text i; A_text t; A_number from; A_number to; A_numbers l]
  | Tile i z x y => h = H_tile /\ args = [A_text i; A_number z; A_number x; A_number y]
  end.
(* the names and texts in a question *)
Definition names_of (a : ask) : list (list ascii) :=
  match a with
  | Infrastructures => []
  | BoundingBox i | Stations i | Station i _ | StationRoute i _ | InterlockingRoute i _ | Element i _ | Timetables i | Tile i _ _ _ => [i]
  | Search i q => [i; q]
  | Timetable i t | Ordering i t _ _ _ => [i; t]
  end.
(* a question that cannot be answered: a name or text with another character, or none at all; the
   list of stations; trains to look for that are not numbers *)
Definition missed (a : ask) : Prop :=
  ~ Forall plain (names_of a) \/ (exists i, a = Stations i) \/ (exists i t f u ids, a = Ordering i t f u ids /\ In None ids).

(* the timetables the server has for an infrastructure: name and interval *)
Definition offers (c : contexts) (i t : text) (iv : N * N) : Prop := exists tts, In (i, tts) c /\ In (t, iv) tts.
Definition unique_names (c : contexts) : Prop := NoDup (map fst c) /\ forall i tts, In (i, tts) c -> NoDup (map fst tts).
