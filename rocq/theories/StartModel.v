(* Model of the start of the web server: which infrastructures, timetables and
   maps it serves, and the files it leaves behind.
   web/server/src/soro_server.cc:137-144,
   web/server/src/modules/infrastructure/infrastructure_module.cc,
   web/server/src/modules/timetable/timetable_module.cc,
   web/server/src/modules/tiles/tiles_module.cc:51-101,
   src/timetable/timetable.cc:12-18,48-73, include/soro/utls/serializable.h,
   src/timetable/parsers/kss/parse_kss_timetable.cc:39-48.

   Simplifications
   - reading the sources (parse_iss, parse_kss_timetable, with the coordinate
     file), drawing the map (osm_export::export_and_write) and importing it
     (import_tiles) are parameters; the other models describe what they do
   - a file is its content and its time of last writing; the server's own
     directories contain files only; a file that was not written to its end has
     no content
   - writing a file takes two steps: after the first the file is there and new,
     after the second it is complete.  The machine may stop before any step
   - all files a start writes get the time of that start
   - what happens after a file that is not complete was read (cista::mode::NONE
     checks nothing) is not modelled: Garbage
   - the order of std::unordered_map is a parameter
   - search module, tile handles, logging and timers are left out *)
From Coq Require Import Ascii String.
From Verif Require Import Base StockModel.

(* how running the server's constructor ends *)
Inductive ending (A : Type) : Type :=
| Runs (a : A)      (* it returns *)
| Dies              (* an exception reaches main *)
| Cut               (* the machine stopped *)
| Garbage.          (* a file that is not complete was used *)
Arguments Runs {A} a.
Arguments Dies {A}.
Arguments Cut {A}.
Arguments Garbage {A}.

(* a file: content (None: the writing was cut short) and time of last writing *)
Record file (C : Type) : Type := mk_file { f_content : option C; f_time : N }.
Arguments mk_file {C} f_content f_time.
Arguments f_content {C} f.
Arguments f_time {C} f.

(* an entry of a source directory *)
Inductive entry (X : Type) : Type :=
| Directory (x : X) (t : N)
| Plain.
Arguments Directory {X} x t.
Arguments Plain {X}.

Definition text_eqb (a b : text) : bool := if list_eq_dec ascii_dec a b then true else false.

(* find in a map or a directory *)
Fixpoint lookup {C} (n : text) (l : list (text * C)) : option C :=
  match l with
  | [] => None
  | (m, c) :: l => if text_eqb n m then Some c else lookup n l
  end.
(* writing a file, putting a directory into a directory *)
Fixpoint put_entry {C} (n : text) (c : C) (l : list (text * C)) : list (text * C) :=
  match l with
  | [] => [(n, c)]
  | (m, d) :: l => if text_eqb n m then (n, c) :: l else (m, d) :: put_entry n c l
  end.
(* std::unordered_map::emplace: an existing entry stays *)
Definition emplace_ {C} (l : list (text * C)) (n : text) (c : C) : list (text * C) :=
  match lookup n l with Some _ => l | None => l ++ [(n, c)] end.

(* server_settings.h:66-68 and the build flag SERIALIZE (serializable.h:50-56) *)
Record settings : Type := mk_settings { regenerate : bool; serialization_possible : bool }.

(* fs::path::replace_extension: the characters before the last dot, unless there
   is none or it is the first character *)
Fixpoint before_last_dot (s : text) : option text :=
  match s with
  | [] => None
  | c :: s => match before_last_dot s with
              | Some p => Some (c :: p)
              | None => if Ascii.eqb c "." then Some [] else None
              end
  end.
Definition replace_extension (s ext : text) : text :=
  match before_last_dot s with
  | Some [] | None => s ++ ext
  | Some p => p ++ ext
  end.

Section Start.
  Variables IS TS I T OSM DB : Type.
  Variable load_infra : IS -> res I.                (* parse_iss *)
  Variable load_timetable : TS -> I -> res (option T).   (* parse_kss_timetable, for a directory *)
  Variable export_osm : I -> res OSM.                 (* osm_export::export_and_write *)
  Variable import_tiles : OSM -> res DB.
  Variable order : list (text * I) -> list (text * I).   (* infra_m.all() *)

  (* all files: the two source directories, server_infra_dir(),
     server_timetable_dir(), osm_dir() and tiles_dir(); a serialized object
     contains its source_ *)
  Record world : Type := mk_world {
    w_infras : list (text * entry IS);
    w_timetables : list (text * entry TS);
    w_raw_infras : list (text * file (text * I));
    w_raw_timetables : list (text * file (text * T));
    w_osm : list (text * file OSM);
    w_tiles : list (text * file DB) }.

  Definition set_raw_infra n f w :=
    mk_world (w_infras w) (w_timetables w) (put_entry n f (w_raw_infras w)) (w_raw_timetables w) (w_osm w) (w_tiles w).
  Definition set_raw_timetable n f w :=
    mk_world (w_infras w) (w_timetables w) (w_raw_infras w) (put_entry n f (w_raw_timetables w)) (w_osm w) (w_tiles w).
  Definition set_osm n f w :=
    mk_world (w_infras w) (w_timetables w) (w_raw_infras w) (w_raw_timetables w) (put_entry n f (w_osm w)) (w_tiles w).
  Definition set_tiles n f w :=
    mk_world (w_infras w) (w_timetables w) (w_raw_infras w) (w_raw_timetables w) (w_osm w) (put_entry n f (w_tiles w)).

  (* a program: the files and the number of steps until the machine stops *)
  Definition proc (A : Type) : Type := world -> nat -> (world * nat) * ending A.
  Definition ret {A} (a : A) : proc A := fun w k => ((w, k), Runs a).
  Definition andThen {A B} (p : proc A) (q : A -> proc B) : proc B := fun w k =>
    match p w k with
    | ((w, k), Runs a) => q a w k
    | (s, Dies) => (s, Dies)
    | (s, Cut) => (s, Cut)
    | (s, Garbage) => (s, Garbage)
    end.
  Definition get : proc world := fun w k => ((w, k), Runs w).
  Definition lift {A} (r : res A) : proc A := fun w k =>
    ((w, k), match r with Ok a => Runs a | _ => Dies end).
  Definition change (f : world -> world) : proc unit := fun w k =>
    match k with O => ((w, k), Cut) | S k => ((f w, k), Runs tt) end.
  Definition content {C} (f : option (file C)) : proc C := fun w k =>
    ((w, k), match f with
             | Some f => match f_content f with Some c => Runs c | None => Garbage end
             | None => Dies
             end).
  Definition write {C} (set : file C -> world -> world) (now : N) (c : C) : proc unit :=
    andThen (change (set (mk_file None now))) (fun _ => change (set (mk_file (Some c) now))).

  Fixpoint each {A S} (f : S -> A -> proc S) (s : S) (l : list A) : proc S :=
    match l with
    | [] => ret s
    | a :: l => andThen (f s a) (fun s => each f s l)
    end.

  (* a path of the todo list: a source directory or a serialized file *)
  Inductive item (X : Type) : Type :=
  | Source (n : text) (x : X)
  | Raw (n : text).
  Arguments Source {X} n x.
  Arguments Raw {X} n.

  (* infrastructure_module.cc:45-52, timetable_module.cc:53-59 *)
  Definition todo {X C} (s : settings) (raws : list (text * file C)) (e : text * entry X) : list (item X) :=
    match snd e with
    | Plain => []
    | Directory x t =>
        let outdated := match lookup (fst e) raws with
                        | None => true
                        | Some f => (f_time f <? t)%N
                        end in
        if regenerate s || negb (serialization_possible s) || outdated
        then [Source (fst e) x]
        else [Raw (fst e)]
    end.

  (* infrastructure_module.cc:25-56 *)
  Definition get_infrastructure_todo_list (s : settings) (w : world) : list (item IS) :=
    flat_map (todo s (w_raw_infras w)) (w_infras w).

  (* infrastructure_module.cc:68-77; source_ is the name of the directory
     (parse_iss.cc:1266) *)
  Definition infra_item (s : settings) (now : N) (infras : list (text * I)) (it : item IS) : proc (list (text * I)) :=
    match it with
    | Source n x =>
        andThen (lift (load_infra x)) (fun i =>
        andThen (if serialization_possible s then write (set_raw_infra n) now (n, i) else ret tt) (fun _ =>
        ret (emplace_ infras n i)))
    | Raw n =>
        andThen get (fun w =>
        andThen (content (lookup n (w_raw_infras w))) (fun c =>
        ret (emplace_ infras (fst c) (snd c))))
    end.

  (* infrastructure_module.cc:58-81 *)
  Definition get_infrastructure_module (s : settings) (now : N) : proc (list (text * I)) :=
    andThen get (fun w => each (infra_item s now) [] (get_infrastructure_todo_list s w)).

  (* tiles_module.cc:51-63 *)
  Definition create_osm_file (s : settings) (now : N) (i : text * I) : proc text :=
    let osm_path := replace_extension (fst i) (list_ascii_of_string ".osm") in
    andThen get (fun w =>
    andThen (if regenerate s || match lookup osm_path (w_osm w) with Some _ => false | None => true end
             then andThen (lift (export_osm (snd i))) (fun o => write (set_osm osm_path) now o)
             else ret tt) (fun _ =>
    ret osm_path)).

  (* last_write_time(osm_path) > last_write_time(tile_db_path) *)
  Definition newer {C E} (a : option (file C)) (b : option (file E)) : bool :=
    match a, b with Some a, Some b => (f_time b <? f_time a)%N | _, _ => false end.

  (* tiles_module.cc:65-80 *)
  Definition create_tiles_db (s : settings) (now : N) (i : text * I) (osm_path : text) : proc text :=
    let tile_db_path := replace_extension (fst i) (list_ascii_of_string ".mdb") in
    andThen get (fun w =>
    andThen (if regenerate s || match lookup tile_db_path (w_tiles w) with Some _ => false | None => true end
                || newer (lookup osm_path (w_osm w)) (lookup tile_db_path (w_tiles w))
             then andThen (content (lookup osm_path (w_osm w))) (fun o =>
                  andThen (lift (import_tiles o)) (fun d => write (set_tiles tile_db_path) now d))
             else ret tt) (fun _ =>
    ret tile_db_path)).

  (* tiles_module.cc:88-98: a tile context reads the database file *)
  Definition tile_item (s : settings) (now : N) (ctx : list (text * text)) (i : text * I) : proc (list (text * text)) :=
    andThen (create_osm_file s now i) (fun osm_path =>
    andThen (create_tiles_db s now i osm_path) (fun tile_db_path =>
    match lookup (fst i) ctx with
    | Some _ => fun w k => ((w, k), Dies)                 (* sassert(success) *)
    | None => ret (ctx ++ [(fst i, tile_db_path)])
    end)).

  (* tiles_module.cc:82-101 *)
  Definition get_tile_module (s : settings) (now : N) (infras : list (text * I)) : proc (list (text * text)) :=
    each (tile_item s now) [] (order infras).

  (* timetable_module.cc:33-63 *)
  Definition get_timetable_todo_list (s : settings) (w : world) : list (item TS) :=
    flat_map (todo s (w_raw_timetables w)) (w_timetables w).

  (* timetable.cc:48-73: a path that is not a directory is no KSS timetable
     (timetable.cc:12-18, parse_kss_timetable.cc:39-48), the source type is
     unknown *)
  Definition try_parsing_timetable (it : item TS) (i : I) : res (option T) :=
    match it with
    | Source _ x => load_timetable x i
    | Raw _ => Ok None
    end.
  Definition path_name (it : item TS) : text := match it with Source n _ => n | Raw n => n end.

  (* timetable_module.cc:74-89; source_ is the name of the directory
     (parse_kss_timetable.cc:558) *)
  Definition timetable_item (s : settings) (now : N) (i : I) (ctx : list (text * T)) (it : item TS) : proc (list (text * T)) :=
    andThen (lift (try_parsing_timetable it i)) (fun r =>
    match r with
    | None => ret ctx
    | Some t =>
        andThen (match it with
                 | Source n _ => if serialization_possible s then write (set_raw_timetable n) now (n, t) else ret tt
                 | Raw _ => ret tt
                 end) (fun _ =>
        ret (emplace_ ctx (path_name it) t))
    end).

  (* timetable_module.cc:65-95 *)
  Definition get_timetable_module (s : settings) (now : N) (infras : list (text * I)) : proc (list (text * list (text * T))) :=
    andThen get (fun w =>
    each (fun ctxs (i : text * I) =>
            andThen (each (timetable_item s now (snd i)) [] (get_timetable_todo_list s w)) (fun ctx =>
            ret (emplace_ ctxs (fst i) ctx))) [] (order infras)).

  Record server : Type := mk_server {
    sv_infras : list (text * I);
    sv_tiles : list (text * text);
    sv_timetables : list (text * list (text * T)) }.

  (* soro_server.cc:137-144 *)
  Definition start (s : settings) (now : N) : proc server :=
    andThen (get_infrastructure_module s now) (fun infras =>
    andThen (get_tile_module s now infras) (fun tiles =>
    andThen (get_timetable_module s now infras) (fun tts =>
    ret (mk_server infras tiles tts)))).

  (* ---- what the running server answers ---- *)
  (* infrastructure_module.cc:14-23 *)
  Definition get_infra (sv : server) (n : text) : option I := lookup n (sv_infras sv).
  (* timetable_module.cc:13-31 *)
  Definition get_timetable (sv : server) (infra tt : text) : option T :=
    match lookup infra (sv_timetables sv) with
    | None => None
    | Some ctx => lookup tt ctx
    end.
  (* serve_infrastructure_names.cc:12-18 *)
  Definition infrastructure_names (sv : server) : list text := map fst (sv_infras sv).
  (* serve_timetable_names.cc:8-17: contexts_.at throws for an unknown name *)
  Definition timetable_names (sv : server) (infra : text) : res (list text) :=
    match lookup infra (sv_timetables sv) with
    | None => Throw
    | Some ctx => Ok (map fst ctx)
    end.
  (* tiles_module.cc:16-49: the database the tiles are read from *)
  Definition map_of (w : world) (sv : server) (infra : text) : option (option DB) :=
    match lookup infra (sv_tiles sv) with
    | None => None                                          (* not found *)
    | Some db => match lookup db (w_tiles w) with
                 | None => None
                 | Some f => Some (f_content f)
                 end
    end.
End Start.

Arguments Source {X} n x.
Arguments Raw {X} n.
Arguments mk_world {IS TS I T OSM DB}.
Arguments w_infras {IS TS I T OSM DB} w.
Arguments w_timetables {IS TS I T OSM DB} w.
Arguments w_raw_infras {IS TS I T OSM DB} w.
Arguments w_raw_timetables {IS TS I T OSM DB} w.
Arguments w_osm {IS TS I T OSM DB} w.
Arguments w_tiles {IS TS I T OSM DB} w.
Arguments mk_server {I T}.
Arguments sv_infras {I T} s.
Arguments sv_tiles {I T} s.
Arguments sv_timetables {I T} s.
Arguments start {IS TS I T OSM DB}.
Arguments get_infra {I T}.
Arguments get_timetable {I T}.
Arguments infrastructure_names {I T}.
Arguments timetable_names {I T}.
Arguments map_of {IS TS I T OSM DB}.
