(* Model of smaller parts:
   include/soro/utls/narrow.h, src/infrastructure/parsers/iss/iss_files.cc,
   web/server/src/main.cc.

   Simplifications
   - an integral type is its signedness and its size in bytes; bool is left out
   - a path is the list of its components; names in the index are relative paths
   - a file is the list of names it holds as an index, if it is a proper one; for the
     other files only that they can be loaded matters
   - loading a directory as a file fails (cista::mmap, the constructor throws) *)
From Coq Require Import Ascii String.
From Verif Require Import Base StockModel.
Local Open Scope Z_scope.

(* ---- narrow.h ---- *)
Record ity : Type := mkity { i_signed : bool; i_bytes : positive }.
Definition i_mod (t : ity) : Z := 2 ^ (8 * Zpos (i_bytes t)).
(* std::numeric_limits *)
Definition i_min (t : ity) : Z := if i_signed t then - (i_mod t / 2) else 0.
Definition i_max (t : ity) : Z := if i_signed t then i_mod t / 2 - 1 else i_mod t - 1.
(* conversion of a value to the type *)
Definition conv (t : ity) (v : Z) : Z :=
  let r := v mod i_mod t in if i_signed t && (i_mod t / 2 <=? r) then r - i_mod t else r.
(* the usual arithmetic conversions, and the comparison of two values after them *)
Definition int_t : ity := mkity true 4.
Definition promoted (t : ity) : ity := if (i_bytes t <? 4)%positive then int_t else t.
Definition common (a b : ity) : ity :=
  let a := promoted a in let b := promoted b in
  if Bool.eqb (i_signed a) (i_signed b) then (if (i_bytes a <? i_bytes b)%positive then b else a)
  else
    let u := if i_signed a then b else a in
    let s := if i_signed a then a else b in
    if (i_bytes s <=? i_bytes u)%positive then u else s.
Definition c_le (a : ity) (x : Z) (b : ity) (y : Z) : bool := conv (common a b) x <=? conv (common a b) y.
(* narrow.h:16-33 *)
Definition is_narrowing (out inn : ity) : bool :=
  match i_signed out, i_signed inn with
  | false, true => true
  | true, false => (i_bytes out <=? i_bytes inn)%positive
  | _, _ => (i_bytes out <? i_bytes inn)%positive
  end.
(* narrow.h:37-68: one overload for each case *)
Definition fits (out inn : ity) (v : Z) : bool :=
  if negb (is_narrowing out inn) then true
  else
    match i_signed out, i_signed inn with
    | false, true =>
        if (i_bytes out <? i_bytes inn)%positive then c_le int_t 0 inn v && c_le inn v out (i_max out) else c_le int_t 0 inn v
    | true, false => c_le inn v out (i_max out)
    | _, _ => c_le inn (conv inn (i_min out)) inn v && c_le inn v inn (conv inn (i_max out))
    end.
(* narrow.h:72-78; debug: utls::sassert throws *)
Definition narrow (debug : bool) (out inn : ity) (v : Z) : res Z :=
  if debug then (sassert (fits out inn v) ;; Ok (conv out v)) else Ok (conv out v).

(* ---- iss_files.cc ---- *)
Local Open Scope nat_scope.
Definition path : Type := list text.
Inductive node : Type :=
| Folder
| Regular (index : option (list path)).
Definition fsys : Type := path -> option node.
Record iss_files : Type := mkiss { f_index : path; f_plans : list path; f_core : list path; f_stations : list path; f_lines : list path }.
Definition of_string (s : string) : text := list_ascii_of_string s.
(* the literals of iss_files.cc:14-24 and iss_string_literals.h:153 *)
Definition PLANS : text := of_string "Spurplanbetriebsstellen".
Definition CORE : text := of_string "Stammdaten".
Definition STATIONS : text := of_string "Ordnungsrahmen_ORBtrst".
Definition LINES : text := of_string "Ordnungsrahmen_ORStr".
Definition INDEX : text := of_string "Index.xml".
Fixpoint starts_with (p s : text) : bool :=
  match p, s with
  | [], _ => true
  | a :: p, b :: s => Ascii.eqb a b && starts_with p s
  | _, _ => false
  end.
(* std::filesystem::path::filename, extension, parent_path *)
Definition filename (p : path) : text := last p [].
Fixpoint from_last_dot (s : text) : option text :=
  match s with
  | [] => None
  | c :: s => match from_last_dot s with Some e => Some e | None => if Ascii.eqb c "." then Some (c :: s) else None end
  end.
Definition extension (p : path) : text :=
  match filename p with
  | [] => []
  | c :: s => match from_last_dot s with Some e => e | None => [] end
  end.
Definition text_eqb (a b : text) : bool := if list_eq_dec ascii_dec a b then true else false.
(* loaded_file.h:55-57 *)
Definition load (fs : fsys) (p : path) : res (option (list path)) :=
  match fs p with Some (Regular i) => Ok i | _ => Throw end.
(* iss_files.cc:13-29 *)
Definition add_iss_file (fs : fsys) (f : iss_files) (p : path) : res iss_files :=
  if starts_with PLANS (filename p) then
    do _ <- load fs p; Ok (mkiss (f_index f) (f_plans f ++ [p]) (f_core f) (f_stations f) (f_lines f))
  else if starts_with CORE (filename p) then
    do _ <- load fs p; Ok (mkiss (f_index f) (f_plans f) (f_core f ++ [p]) (f_stations f) (f_lines f))
  else if starts_with STATIONS (filename p) then
    do _ <- load fs p; Ok (mkiss (f_index f) (f_plans f) (f_core f) (f_stations f ++ [p]) (f_lines f))
  else if starts_with LINES (filename p) then
    do _ <- load fs p; Ok (mkiss (f_index f) (f_plans f) (f_core f) (f_stations f) (f_lines f ++ [p]))
  else Ok f.
(* iss_files.cc:38-45 *)
Fixpoint add_files (fs : fsys) (dir : path) (names : list path) (f : iss_files) : res iss_files :=
  match names with
  | [] => Ok f
  | n :: names =>
      let p := dir ++ n in
      match fs p with
      | None => Throw
      | Some _ => do f <- add_iss_file fs f p; add_files fs dir names f
      end
  end.
(* iss_files.cc:31-46 *)
Definition read_index (fs : fsys) (index : path) : res iss_files :=
  do d <- load fs index;
  match d with
  | None => Throw
  | Some names => add_files fs (removelast index) names (mkiss index [] [] [] [])
  end.
(* iss_files.cc:48-62 *)
Definition is_folder (fs : fsys) (p : path) : bool := match fs p with Some Folder => true | _ => false end.
Definition there (fs : fsys) (p : path) : bool := match fs p with Some _ => true | None => false end.
Definition get_iss_files (fs : fsys) (p : path) : res iss_files :=
  if negb (there fs p) then Throw
  else if text_eqb (extension p) (of_string ".iss") then Throw
  else if text_eqb (filename p) INDEX then read_index fs (removelast p)
  else if is_folder fs p && there fs (p ++ [INDEX]) then read_index fs (p ++ [INDEX])
  else Throw.

(* ---- main.cc:11-68: what happens before the server is constructed ---- *)
Inductive outcome : Type := Exits (code : Z) (made : list path) | Starts (made : list path).
Record server_paths : Type := mkpaths { resource_dir : path; coord_file : path; profile_file : path;
  infra_sources : path; timetable_sources : path; own_dirs : list path }.
(* options: None if they cannot be read; help: the option was given *)
Definition main_start (fs : fsys) (options : option server_paths) (help : bool) : outcome :=
  match options with
  | None => Exits 1 []
  | Some s =>
      if help then Exits 0 []
      else if negb (there fs (resource_dir s)) then Exits 1 []
      else if negb (there fs (coord_file s)) then Exits 1 []
      else if negb (there fs (profile_file s)) then Exits 1 []
      else if negb (there fs (infra_sources s)) && is_folder fs (infra_sources s) then Exits 1 []
      else if negb (there fs (timetable_sources s)) && is_folder fs (timetable_sources s) then Exits 1 []
      else Starts (own_dirs s)
  end.
