(* The map generator (tools/generate-osm, written in Go): OSM data.
   Models: tools/generate-osm/osm-utils/{osm-xml_structure,osm-toolbox,sort-osm,
   get-refs,generate-stations}.go, combine-lines/combine-lines.go:18-52 and the
   part of main.go that puts the output together.

   Conventions of the Gen* models
   - [Throw] is a Go panic.  A returned error is a value.
   - int has 64 bits; loop counters are natural numbers.
   - the order in which Go ranges over a map is arbitrary: such an order is an
     argument of the model
   - XML names, files and console output are left out *)
From Coq Require Import Ascii String List ZArith Bool.
From Verif Require Import Base.
Import ListNotations.
Local Open Scope list_scope.

(* osm-xml_structure.go:7-54 *)
Definition tag : Type := (string * string)%type.
Record node : Type := mknode { n_tags : list tag; n_id : string; n_lat : string; n_lon : string }.
Record way : Type := mkway { w_tags : list tag; w_id : string; w_nd : list string }.
Record relation : Type := mkrel { r_members : list (string * string * string); r_tags : list tag; r_id : string }.
Record osm : Type := mkosm { o_nodes : list node; o_ways : list way; o_rels : list relation }.

(* ---- strconv.Atoi, the error dropped ---- *)
Definition digit (c : ascii) : option Z :=
  let v := Z.of_N (N_of_ascii c) in
  if ((48 <=? v) && (v <=? 57))%Z then Some (v - 48)%Z else None.
Fixpoint digits_from (acc : Z) (l : list ascii) : option Z :=
  match l with
  | [] => Some acc
  | c :: l => match digit c with Some d => digits_from (10 * acc + d)%Z l | None => None end
  end.
Definition clamp (v : Z) : Z := Z.max (- 2 ^ 63) (Z.min v (2 ^ 63 - 1)).
(* Atoi returns 0 with a syntax error and the nearest int with a range error;
   the second component says whether there is an error *)
Definition atoi_err (s : string) : Z * bool :=
  let unsigned (l : list ascii) := match l with [] => None | _ => digits_from 0 l end in
  let v := match list_ascii_of_string s with
           | c :: l => if Ascii.eqb c "-" then option_map Z.opp (unsigned l)
                       else if Ascii.eqb c "+" then unsigned l else unsigned (c :: l)
           | [] => None
           end in
  match v with
  | None => (0%Z, true)
  | Some z => (clamp z, negb (Z.eqb z (clamp z)))
  end.
Definition atoi (s : string) : Z := fst (atoi_err s).

(* ---- osm-toolbox.go ---- *)
(* osm-toolbox.go:16-24; None is the error *)
Fixpoint find_tag (tags : list tag) (key : string) : option string :=
  match tags with
  | [] => None
  | (k, v) :: tags => if String.eqb k key then Some v else find_tag tags key
  end.
Definition find_tag_on_node (n : node) (key : string) : option string := find_tag (n_tags n) key.

(* osm-toolbox.go:28-35 *)
Fixpoint get_node (nodes : list node) (id : string) : option node :=
  match nodes with
  | [] => None
  | n :: nodes => if String.eqb (n_id n) id then Some n else get_node nodes id
  end.
Definition get_node_by_id (o : osm) (id : string) : option node := get_node (o_nodes o) id.

(* osm-toolbox.go:39-46 *)
Fixpoint index_from (i : nat) (nds : list string) (id : string) : option nat :=
  match nds with
  | [] => None
  | x :: nds => if String.eqb x id then Some i else index_from (S i) nds id
  end.
Definition node_index_in_way (nds : list string) (id : string) : option nat := index_from 0 nds id.

(* osm-toolbox.go:50-64; the empty list is the error *)
Definition find_ways_by_node_id (o : osm) (id : string) : list way :=
  filter (fun w => existsb (fun x => String.eqb x id) (w_nd w)) (o_ways o).

(* osm-toolbox.go:75-84: the list of one way.  The slices are written in place;
   the inner append copies the tail before it is overwritten. *)
Definition insert_ref (new_id ref_id : string) (nds : list string) : list string :=
  match node_index_in_way nds ref_id with
  | None => nds
  | Some i =>
      if Nat.eqb (S i) (List.length nds)
      then firstn i nds ++ [new_id; ref_id]
      else firstn (S i) nds ++ [new_id] ++ skipn (S i) nds
  end.
(* osm-toolbox.go:70-86 *)
Definition insert_new_node (o : osm) (new ref : node) : osm :=
  mkosm (o_nodes o ++ [new])
    (map (fun w => mkway (w_tags w) (w_id w) (insert_ref (n_id new) (n_id ref) (w_nd w))) (o_ways o))
    (o_rels o).

(* ---- sort-osm.go ---- *)
Section Sort.
  Context {T : Type}.
  Variable id_of : T -> string.
  (* sort-osm.go:20-24, 25-29, 30-34: sort.SliceStable *)
  Fixpoint insert_stable (x : T) (l : list T) : list T :=
    match l with
    | [] => [x]
    | y :: l' => if (atoi (id_of y) <? atoi (id_of x))%Z then y :: insert_stable x l' else x :: l
    end.
  Definition sort_stable (l : list T) : list T := fold_right insert_stable [] l.

  (* sort-osm.go:91-110; positions below 0 do not occur because the calls start
     with a list that is not empty *)
  Fixpoint search (fuel : nat) (id : Z) (arr : list string) (start stop : nat) : res bool :=
    match fuel with
    | 0 => Fuel
    | S fuel =>
        if Nat.eqb stop start
        then match nth_error arr stop with None => Throw | Some s => Ok (Z.eqb id (atoi s)) end
        else
          let pivot := Nat.div (stop + start) 2 in
          match nth_error arr stop with
          | None => Throw
          | Some s =>
              if Z.eqb id (atoi s) then Ok true
              else if (atoi s <? id)%Z then search fuel id arr (S pivot) stop
              else search fuel id arr start pivot
          end
    end.

  (* sort-osm.go:44-56, 57-69, 70-82: one iteration *)
  Definition remove_step (st : list string * list T) (x : T) : res (list string * list T) :=
    let st := match fst st with [] => ([id_of x], snd st ++ [x]) | _ => st end in
    do found <- search (S (List.length (fst st))) (atoi (id_of x)) (fst st) 0 (List.length (fst st) - 1);
    if found : bool then Ok st else Ok (fst st ++ [id_of x], snd st ++ [x]).
  Fixpoint remove_from (st : list string * list T) (l : list T) : res (list T) :=
    match l with
    | [] => Ok (snd st)
    | x :: l => do st <- remove_step st x; remove_from st l
    end.
  Definition remove_duplicates (l : list T) : res (list T) := remove_from ([], []) l.
End Sort.

(* sort-osm.go:8-14, 19-35, 37-87 *)
Definition sort_and_remove_duplicates (o : osm) : res osm :=
  do ways <- remove_duplicates w_id (sort_stable w_id (o_ways o));
  do nodes <- remove_duplicates n_id (sort_stable n_id (o_nodes o));
  do rels <- remove_duplicates r_id (sort_stable r_id (o_rels o));
  Ok (mkosm nodes ways rels).

(* ---- get-refs.go:41-55 ---- *)
Fixpoint refs_of_tags (tags : list tag) : list string :=
  match tags with
  | [] => []
  | (k, v) :: tags =>
      if String.eqb k "ref" && Nat.eqb (String.length v) 4
      then if snd (atoi_err v) then [] else v :: refs_of_tags tags
      else refs_of_tags tags
  end.
Definition get_ref_ids (o : osm) : list string := flat_map (fun r => refs_of_tags (r_tags r)) (o_rels o).

(* ---- generate-stations.go:46-75 ---- *)
Record place : Type := mkplace { p_name : string; p_lat : string; p_lon : string }.
Definition is_stop (v : string) : bool := String.eqb v "station" || String.eqb v "halt".
(* a Go map: the last entry of a key counts *)
Definition put_place (m : list (string * place)) (k : string) (p : place) : list (string * place) :=
  filter (fun e => negb (String.eqb (fst e) k)) m ++ [(k, p)].
Fixpoint stations_of (nodes : list node) (m : list (string * place)) (out : list node) :
    list (string * place) * list node :=
  match nodes with
  | [] => (m, out)
  | n :: nodes =>
      match find_tag_on_node n "railway", find_tag_on_node n "name" with
      | Some railway, Some name =>
          if is_stop railway
          then stations_of nodes (put_place m (n_id n) (mkplace name (n_lat n) (n_lon n)))
                 (out ++ [mknode (n_tags n ++ [("type"%string, "station"%string)]) (n_id n) (n_lat n) (n_lon n)])
          else stations_of nodes m (out ++ [n])
      | _, _ => stations_of nodes m out
      end
  end.
Definition generate_stations (nodes : list node) : list (string * place) * list node := stations_of nodes [] [].

(* ---- combine-lines.go:27-47: the files in the order of the directory, each
   with the colour that was drawn for it ---- *)
Definition paint (color : string) (w : way) : way := mkway (w_tags w ++ [("color"%string, color)]) (w_id w) (w_nd w).
Fixpoint combine_lines (files : list (osm * string)) : osm :=
  match files with
  | [] => mkosm [] [] []
  | (o, color) :: files =>
      let rest := combine_lines files in
      mkosm (o_nodes o ++ o_nodes rest) (map (paint color) (o_ways o) ++ o_ways rest) (o_rels o ++ o_rels rest)
  end.

(* ---- main.go:201-209: the loop that removes stations and halts ----
   range evaluates its slice once; the loop body overwrites the array behind it.
   arr is that array, m the length of the slice outputOsm.Node. *)
Definition is_stop_node (n : node) : bool :=
  match find_tag_on_node n "railway" with Some v => is_stop v | None => false end.
Fixpoint remove_loop (count i : nat) (arr : list node) (m : nat) : res (list node * nat) :=
  match count with
  | 0 => Ok (arr, m)
  | S count =>
      match nth_error arr i with
      | None => Throw
      | Some n =>
          if is_stop_node n
          then if Nat.leb (S i) m        (* outputOsm.Node[i+1:] *)
               then remove_loop count (S i)
                      (firstn i arr ++ skipn (S i) (firstn m arr) ++ skipn (m - 1) arr) (m - 1)
               else Throw
          else remove_loop count (S i) arr m
      end
  end.
Definition remove_stops (nodes : list node) : res (list node) :=
  do ' (arr, m) <- remove_loop (List.length nodes) 0 nodes (List.length nodes);
  Ok (firstn m arr).

(* main.go:201-211 *)
Definition finish (o : osm) (stations : list node) : res osm :=
  do nodes <- remove_stops (o_nodes o);
  sort_and_remove_duplicates (mkosm (nodes ++ stations) (o_ways o) (o_rels o)).

(* ---- main.go:227-266: insertOsm; order is the order in which the map newNodes
   is ranged over.  The file name is checked first. ---- *)
Definition xml_name_ok (name : string) : res bool :=
  let n := String.length name in
  if Nat.ltb n 4 then Throw else Ok (String.eqb (substring 0 (n - 4) name) ".xml").
Definition refs_to_copy (modified additional : osm) (max_id : Z) : list string :=
  nodup String.string_dec
    (flat_map (fun mw => flat_map (fun ow => if String.eqb (w_id mw) (w_id ow)
        then filter (fun r => (atoi r <=? max_id)%Z) (w_nd mw) else []) (o_ways additional)) (o_ways modified)).
(* the tags of a way are those of the last modified way with its id *)
Definition retag (modified : osm) (ow : way) : way :=
  mkway (fold_left (fun t mw => if String.eqb (w_id mw) (w_id ow) then w_tags mw else t) (o_ways modified) (w_tags ow))
    (w_id ow) (w_nd ow).
(* None is the error of a missing node *)
Definition insert_osm (modified additional : osm) (order : list string) : option osm :=
  let found := fold_right (fun r acc => match get_node_by_id modified r, acc with
                                        | Some n, Some l => Some (n :: l) | _, _ => None end) (Some []) order in
  match found with
  | None => None
  | Some l => Some (mkosm (o_nodes additional ++ l) (map (retag modified) (o_ways additional)) (o_rels additional))
  end.
