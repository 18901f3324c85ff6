(* Model of how a request of the web client finds its function on the server:
   web/client/src/util/SoroClient.ts, the addresses of the tiles
   (web/client/src/components/infrastructure/map-style.ts, infrastructure-map.vue),
   web/server/src/soro_server.cc:14-135 set_up_routes, and
   web/server/src/modules/timetable/{serve_timetable_names.cc, serve_timetable.cc}.

   Simplifications
   - net::query_router is not part of the repository: the first route whose pattern
     matches the whole address is taken, its groups are the parameters
   - only the constructs of regular expressions that the patterns use; a group is
     matched greedily and given back character by character
   - the address arrives as the client wrote it: names and texts are made of
     characters that the browser leaves alone; one `#` or `?` or `..` is enough to ask for
     something else
   - all requests of the client are GET requests *)
From Coq Require Import List Bool NArith ZArith Ascii String.
From Verif Require Import Base ClientViewModel.
From Verif Require ServeModel StartModel.
Import ListNotations.
Local Open Scope nat_scope.

Definition text : Type := list ascii.
Definition T (s : string) : text := list_ascii_of_string s.

(* ---- regular expressions ---- *)
Inductive atom : Type :=
| A_chr (p : ascii -> bool)      (* one character *)
| A_opt (c : ascii)              (* c? *)
| A_run (p : ascii -> bool)      (* a group of one or more characters *)
| A_ids                          (* the group (\d*(?:,\d+)* ) *)
| A_any.                         (* .* *)
Definition lit (s : string) : list atom := map (fun c => A_chr (Ascii.eqb c)) (T s).
Definition is_digit (c : ascii) : bool := (48 <=? nat_of_ascii c) && (nat_of_ascii c <=? 57).
(* [a-zA-Z0-9_-] *)
Definition is_name (c : ascii) : bool :=
  let n := nat_of_ascii c in
  (97 <=? n) && (n <=? 122) || (65 <=? n) && (n <=? 90) || is_digit c || Ascii.eqb c "_" || Ascii.eqb c "-".
(* whether a text is of the form \d*(?:,\d+)*; due: a digit has to follow *)
Fixpoint ids_ok (due : bool) (s : text) : bool :=
  match s with
  | [] => negb due
  | c :: s => if is_digit c then ids_ok false s
              else if Ascii.eqb c "," then negb due && ids_ok true s else false
  end.
(* the longest of the prefixes of s of length n or less, down to least, that is good and
   after which the rest is matched *)
Fixpoint give_back {A} (good : text -> bool) (k : text -> option A) (s : text) (least n : nat) : option (text * A) :=
  let here := if good (firstn n s) then match k (skipn n s) with Some r => Some (firstn n s, r) | None => None end else None in
  match here with
  | Some r => Some r
  | None => match n with
            | 0 => None
            | S m => if least <=? m then give_back good k s least m else None
            end
  end.
Fixpoint re_match (l : list atom) (s : text) : option (list text) :=
  match l with
  | [] => match s with [] => Some [] | _ => None end
  | A_chr p :: l => match s with c :: s => if p c then re_match l s else None | [] => None end
  | A_opt c :: l =>
      match s with
      | d :: s' => if Ascii.eqb c d then match re_match l s' with Some r => Some r | None => re_match l s end else re_match l s
      | [] => re_match l s
      end
  | A_run p :: l =>
      match s with
      | [] => None
      | _ => option_map (fun r => fst r :: snd r) (give_back (forallb p) (re_match l) s 1 (List.length s))
      end
  | A_ids :: l => option_map (fun r => fst r :: snd r) (give_back (ids_ok false) (re_match l) s 0 (List.length s))
  | A_any :: l => option_map snd (give_back (fun _ => true) (re_match l) s 0 (List.length s))
  end.

(* ---- soro_server.cc:26-135 ---- *)
Inductive handler : Type :=
| H_infrastructures | H_tile | H_bounding_box | H_stations | H_station | H_station_route | H_interlocking_route
| H_exclusion_set | H_element | H_search | H_timetables | H_timetable | H_ordering | H_static.
Definition name := A_run is_name.
Definition number := A_run is_digit.
Definition routes : list (list atom * handler) :=
  [(lit "/infrastructures" ++ [A_opt "/"], H_infrastructures);                                             (* :26 *)
   (lit "/infrastructure/" ++ [name] ++ lit "/tiles/" ++ [number] ++ lit "/" ++ [number] ++ lit "/" ++ [number]
      ++ [A_chr (fun _ => true)] ++ lit "mvt", H_tile);                                                    (* :35 *)
   (lit "/infrastructure/" ++ [name] ++ lit "/bounding_box" ++ [A_opt "/"], H_bounding_box);               (* :41 *)
   (lit "/infrastructure/" ++ [name] ++ lit "/stations/", H_stations);                                     (* :48 *)
   (lit "/infrastructure/" ++ [name] ++ lit "/station/" ++ [number], H_station);                           (* :55 *)
   (lit "/infrastructure/" ++ [name] ++ lit "/station_route/" ++ [number], H_station_route);               (* :63 *)
   (lit "/infrastructure/" ++ [name] ++ lit "/interlocking_route/" ++ [number], H_interlocking_route);     (* :71 *)
   (lit "/infrastructure/" ++ [name] ++ lit "/exclusion_sets/" ++ [number], H_exclusion_set);              (* :79 *)
   (lit "/infrastructure/" ++ [name] ++ lit "/element/" ++ [number], H_element);                           (* :86 *)
   (lit "/infrastructure/" ++ [name] ++ lit "/search/" ++ [name], H_search);                               (* :94 *)
   (lit "/infrastructure/" ++ [name] ++ lit "/timetables" ++ [A_opt "/"], H_timetables);                   (* :101 *)
   (lit "/infrastructure/" ++ [name] ++ lit "/timetable/" ++ [name] ++ [A_opt "/"], H_timetable);          (* :110 *)
   (lit "/infrastructure/" ++ [name] ++ lit "/timetable/" ++ [name] ++ lit "/ordering?from=" ++ [number]
      ++ lit "&to=" ++ [number] ++ lit "&trainIds=" ++ [A_ids], H_ordering);                               (* :118 *)
   ([A_any], H_static)].                                                                                   (* :126 *)
Fixpoint first_route (l : list (list atom * handler)) (target : text) : option (handler * list text) :=
  match l with
  | [] => None
  | (p, h) :: l => match re_match p target with Some ps => Some (h, ps) | None => first_route l target end
  end.
Definition route (target : text) : option (handler * list text) := first_route routes target.

(* ---- SoroClient.ts ---- *)
Inductive ask : Type :=
| Infrastructures
| BoundingBox (i : text) | Stations (i : text) | Station (i : text) (id : N)
| StationRoute (i : text) (id : N) | InterlockingRoute (i : text) (id : N) | Element (i : text) (id : N)
| Search (i q : text) | Timetables (i : text) | Timetable (i t : text)
| Ordering (i t : text) (from to : N) (ids : list (option Z))
| Tile (i : text) (z x y : N).
Definition num (n : N) : text := number_text (Z.of_N n).
Definition address (a : ask) : text :=
  match a with
  | Infrastructures => T "/infrastructures"                                                      (* :134 *)
  | BoundingBox i => T "/infrastructure/" ++ i ++ T "/bounding_box"                              (* :160 *)
  | Stations i => T "/infrastructure/" ++ i ++ T "/stations"                                     (* :164 *)
  | Station i id => T "/infrastructure/" ++ i ++ T "/station/" ++ num id                         (* :168-170 *)
  | StationRoute i id => T "/infrastructure/" ++ i ++ T "/station_route/" ++ num id              (* :177-182 *)
  | InterlockingRoute i id => T "/infrastructure/" ++ i ++ T "/interlocking_route/" ++ num id    (* :189-194 *)
  | Element i id => T "/infrastructure/" ++ i ++ T "/element/" ++ num id                         (* :198-200 *)
  | Search i q => T "/infrastructure/" ++ i ++ T "/search/" ++ q                                 (* :204-206 *)
  | Timetables i => T "/infrastructure/" ++ i ++ T "/timetables"                                 (* :210 *)
  | Timetable i t => T "/infrastructure/" ++ i ++ T "/timetable/" ++ t                           (* :217-219 *)
  | Ordering i t from to ids =>                                                                  (* :229-241 *)
      T "/infrastructure/" ++ i ++ T "/timetable/" ++ t ++ T "/ordering?" ++ T "from=" ++ num from ++ T "&to=" ++ num to
        ++ T "&trainIds=" ++ ids_text ids
  (* map-style.ts:19, infrastructure-map.vue:298-301 *)
  | Tile i z x y => T "/infrastructure/" ++ i ++ T "/tiles/" ++ num z ++ T "/" ++ num x ++ T "/" ++ num y ++ T ".mvt"
  end.

(* ---- timetable_module.h, serve_timetable_names.cc:9-19, serve_timetable.cc:27-43 ---- *)
(* for every infrastructure the timetables with their intervals *)
Definition contexts : Type := list (text * list (text * (N * N))).
(* serve_timetable_names.cc:11: .at throws *)
Definition serve_timetable_names (c : contexts) (i : text) : res (ServeModel.response (list text)) :=
  match StartModel.lookup i c with
  | Some tts => Ok (ServeModel.Answer (map fst tts))
  | None => Throw
  end.
(* timetable_module.cc:13-31 *)
Definition get_timetable (c : contexts) (i t : text) : option (text * (N * N)) :=
  match StartModel.lookup i c with
  | None => None
  | Some tts => match StartModel.lookup t tts with Some iv => Some (t, iv) | None => None end
  end.
(* serve_timetable.cc:27-43: source, interval *)
Definition serve_timetable (c : contexts) (i t : text) : res (ServeModel.response (text * (N * N))) :=
  match get_timetable c i t with
  | None => Ok ServeModel.Not_found
  | Some a => Ok (ServeModel.Answer a)
  end.
