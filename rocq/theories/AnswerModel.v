(* Model of how an answer of the server becomes text and how the client reads it:
   web/server/include/soro/server/cereal/json_archive.h, cereal_extern.h,
   web/server/src/modules/search/serve_search.cc, web/server/src/modules/infrastructure/serve_element.cc,
   serve_station.cc, serve_station_names.cc, serve_bounding_box.cc, web/server/src/modules/timetable/serve_timetable.cc,
   and web/client/src/util/HttpClient.ts.

   Simplifications
   - the text is the list of its parts: brackets, texts and numbers; commas, colons, quotes, escapes and the digits of
     a number are left out, so that the writer of the library is trusted to place them
   - cereal's JSONOutputArchive is not part of the repository.  It is modelled from its published behaviour: a stack of
     nodes, the brackets of a node are written with its first part or when it is finished, names that are not given
     are value0, value1, ..., and NaN is written as such (the library's default)
   - the browser's fetch: ok is a status from 200 to 299; JSON.parse would keep only the last
     of several members of the same name, here all are kept *)
From Verif Require Import Base.
From Coq Require Import QArith String.
Close Scope Q_scope.
Open Scope string_scope.
Open Scope list_scope.

(* ---- the text of an answer ---- *)
Inductive part : Type :=
| OpenO | CloseO | OpenA | CloseA
| Quoted (s : string) | Number (q : Q) | NotANumber | Boolean (b : bool).

(* what is given to the archive: a value of a class with members, each with a name (cereal::make_nvp) or without; a
   value whose function begins with cereal::make_size_tag; a text, number or truth value *)
Inductive val : Type :=
| VText (s : string) | VNum (q : option Q) | VBool (b : bool)
| VList (l : list val)
| VObj (l : list (option string * val)).

(* ---- cereal::JSONOutputArchive ---- *)
Inductive node : Type := StartObject | InObject | StartArray | InArray.
(* the nodes with the number of names given by the archive itself, the name to use next, and what is written *)
Record archive : Type := mkar { ar_nodes : list (node * nat); ar_next : option string; ar_out : list part }.
(* the constructor *)
Definition new_archive : archive := mkar [(StartObject, 0)] None [].

(* the decimal digits of a number *)
Fixpoint digits_of (fuel n : nat) (acc : string) : string :=
  match fuel with
  | O => acc
  | S fuel =>
      let acc := String (Ascii.ascii_of_nat (48 + n mod 10)) acc in
      match n / 10 with O => acc | n => digits_of fuel n acc end
  end%nat.
Definition value_name (n : nat) : string := ("value" ++ digits_of (S n) n "")%string.

(* JSONOutputArchive::writeName *)
Definition write_name (a : archive) : res archive :=
  match ar_nodes a with
  | [] => UB
  | (n, c) :: st =>
      let '(n, out) := match n with
                       | StartArray => (InArray, ar_out a ++ [OpenA])
                       | StartObject => (InObject, ar_out a ++ [OpenO])
                       | n => (n, ar_out a)
                       end in
      match n with
      | InArray => Ok (mkar ((n, c) :: st) (ar_next a) out)
      | _ => match ar_next a with
             | None => Ok (mkar ((n, S c) :: st) None (out ++ [Quoted (value_name c)]))
             | Some s => Ok (mkar ((n, c) :: st) None (out ++ [Quoted s]))
             end
      end
  end.
(* JSONOutputArchive::startNode *)
Definition start_node (a : archive) : res archive :=
  do a <- write_name a;
  Ok (mkar ((StartObject, 0%nat) :: ar_nodes a) (ar_next a) (ar_out a)).
(* JSONOutputArchive::finishNode *)
Definition finish_node (a : archive) : res archive :=
  match ar_nodes a with
  | [] => UB
  | (n, _) :: st =>
      Ok (mkar st (ar_next a)
            (ar_out a ++ match n with
                         | StartArray => [OpenA; CloseA]
                         | InArray => [CloseA]
                         | StartObject => [OpenO; CloseO]
                         | InObject => [CloseO]
                         end))
  end.
(* JSONOutputArchive::makeArray, called for a size tag *)
Definition make_array (a : archive) : res archive :=
  match ar_nodes a with
  | [] => UB
  | (_, c) :: st => Ok (mkar ((StartArray, c) :: st) (ar_next a) (ar_out a))
  end.
(* JSONOutputArchive::setNextName, for a name-value pair *)
Definition set_next_name (s : option string) (a : archive) : archive :=
  match s with Some s => mkar (ar_nodes a) (Some s) (ar_out a) | None => a end.
(* JSONOutputArchive::saveValue *)
Definition save_value (p : part) (a : archive) : archive := mkar (ar_nodes a) (ar_next a) (ar_out a ++ [p]).
(* the writer's default for numbers that are none *)
Definition number_part (q : option Q) : part := match q with Some q => Number q | None => NotANumber end.

(* archive(value): prologue, save, epilogue.  cereal_extern.h:21-27, 33-43, 49-54: a bounding box, a range and a vector
   begin with a size tag *)
Fixpoint save (v : val) (a : archive) {struct v} : res archive :=
  match v with
  | VText s => do a <- write_name a; Ok (save_value (Quoted s) a)
  | VNum q => do a <- write_name a; Ok (save_value (number_part q) a)
  | VBool b => do a <- write_name a; Ok (save_value (Boolean b) a)
  | VList l =>
      do a <- start_node a; do a <- make_array a;
      do a <- (fix go (l : list val) (a : archive) : res archive :=
                 match l with [] => Ok a | v :: l => do a <- save v a; go l a end) l a;
      finish_node a
  | VObj l =>
      do a <- start_node a;
      do a <- (fix go (l : list (option string * val)) (a : archive) : res archive :=
                 match l with
                 | [] => Ok a
                 | (n, v) :: l => do a <- save v (set_next_name n a); go l a
                 end) l a;
      finish_node a
  end.
(* ~JSONOutputArchive *)
Definition destroy (a : archive) : res (list part) :=
  match ar_nodes a with
  | [] => UB
  | (InObject, _) :: _ => Ok (ar_out a ++ [CloseO])
  | (InArray, _) :: _ => Ok (ar_out a ++ [CloseA])
  | _ => Ok (ar_out a)
  end.

(* ---- json_archive.h:14-58 ---- *)
(* archive_, and os_ once the archive is gone *)
Inductive json_archive : Type := Writing (a : archive) | Finalized (os : list part).
(* :15 *)
Definition json_archive_new : json_archive := Writing new_archive.
(* :39-45, add()(make_nvp(name, value)) or add()(value) *)
Definition add (n : option string) (v : val) (j : json_archive) : res json_archive :=
  match j with
  | Finalized _ => Throw
  | Writing a => do a <- save v (set_next_name n a); Ok (Writing a)
  end.
(* :47-54 *)
Definition finalize (j : json_archive) : res json_archive :=
  match j with
  | Finalized _ => Throw
  | Writing a => do os <- destroy a; Ok (Finalized os)
  end.
(* :31-37: the text, and the archive after it *)
Definition json_ (j : json_archive) : res (list part * json_archive) :=
  do j <- match j with Writing _ => finalize j | Finalized _ => Ok j end;
  match j with Finalized os => Ok (os, j) | Writing _ => UB end.

(* ---- answers ---- *)
Record answer : Type := mkanswer { an_status : N; an_body : list part }.
(* json_archive.h:60-76 *)
Definition json_response (body : list part) : answer := mkanswer 200 body.
(* several add() one after the other and json_response(req, archive) *)
Fixpoint add_all (l : list (option string * val)) (j : json_archive) : res json_archive :=
  match l with [] => Ok j | (n, v) :: l => do j <- add n v j; add_all l j end.
Definition respond (l : list (option string * val)) : res answer :=
  do j <- add_all l json_archive_new;
  do ' (os, _) <- json_ j;
  Ok (json_response os).

(* cereal_extern.h:16-19, 21-27 *)
Definition gps_val (p : Q * Q) : val := VObj [(Some "lon", VNum (Some (fst p))); (Some "lat", VNum (Some (snd p)))].
Definition box_val (b : (Q * Q) * (Q * Q)) : val := VList [gps_val (fst b); gps_val (snd b)].
(* serve_bounding_box.cc:24-26 *)
Definition answer_box (b : (Q * Q) * (Q * Q)) : res answer := respond [(Some "boundingBox", box_val b)].

(* search_module.h, result; serve_search.cc:21-28 *)
Record found : Type := mkfound {
  fd_type : string; fd_name : string; fd_id : Q; fd_box : (Q * Q) * (Q * Q); fd_element : string }.
Definition found_val (f : found) : val :=
  VObj [(Some "type", VText (fd_type f)); (Some "name", VText (fd_name f)); (Some "id", VNum (Some (fd_id f)));
        (Some "boundingBox", box_val (fd_box f)); (Some "elementType", VText (fd_element f))].
(* serve_search.cc:13-19: the prologue and the epilogue of the list do nothing, so the size tag turns the outermost
   node into an array *)
Definition save_root_list (l : list val) (a : archive) : res archive :=
  do a <- make_array a;
  (fix go (l : list val) (a : archive) : res archive :=
     match l with [] => Ok a | v :: l => do a <- save v a; go l a end) l a.
(* serve_search.cc:58-64 *)
Definition answer_search (l : list found) : res answer :=
  match l with
  | [] => Ok (json_response [OpenA; CloseA])
  | _ =>
      do a <- save_root_list (map found_val l) new_archive;
      do ' (os, _) <- json_ (Writing a);
      Ok (json_response os)
  end.

(* serve_element.cc:13-39, element_data.h:12-87: a number that was not in the file is NaN; an element without data
   adds nothing (no function is given for it) *)
Inductive edata : Type :=
| DEmpty | DEotd (signal : bool) | DSlope (rising falling : option Q)
| DHalt (name : string) (passenger : bool) (extern op : string)
| DLimit (limit : option Q) (poa : bool)
| DSignal (name : string) | DSwitch (name : string).
Definition edata_members (d : edata) : list (option string * val) :=
  match d with
  | DEmpty => []
  | DEotd s => [(Some "signal", VBool s)]
  | DSlope r f => [(Some "rising", VNum r); (Some "falling", VNum f)]
  | DHalt n p e o => [(Some "name", VText n); (Some "passenger", VBool p); (Some "id_extern", VText e); (Some "id_op", VText o)]
  | DLimit l p => [(Some "limit", VNum l); (Some "point_of_activation", VBool p)]
  | DSignal n => [(Some "name", VText n)]
  | DSwitch n => [(Some "name", VText n)]
  end.
(* serve_element.cc:51-65; track: kilometrage, direction and line of a directed track element *)
Definition answer_element (id : Q) (track : option (option Q * bool * Q)) (d : edata) : res answer :=
  respond ((Some "id", VNum (Some id))
           :: match track with
              | Some (km, r, line) =>
                  [(Some "kilometrage", VNum km); (Some "rising", VBool r); (Some "line", VNum (Some line))]
              | None => []
              end
           ++ edata_members d).

(* ---- the client ---- *)
(* what JSON.parse makes of a text *)
Inductive json : Type :=
| JText (s : string) | JNum (q : Q) | JBool (b : bool) | JArr (l : list json) | JObj (l : list (string * json)).

(* JSON.parse: the brackets that are open, innermost first, with what they hold so far; the value once it is complete *)
Inductive frame : Type := FArr (l : list json) | FObj (l : list (string * json)) (k : option string).
Definition pstate : Type := (list frame * option json)%type.
Definition deliver (v : json) (st : pstate) : option pstate :=
  match st with
  | ([], None) => Some ([], Some v)
  | ([], Some _) => None
  | (FArr l :: fs, d) => Some (FArr (l ++ [v]) :: fs, d)
  | (FObj l (Some k) :: fs, d) => Some (FObj (l ++ [(k, v)]) None :: fs, d)
  | (FObj _ None :: _, _) => None
  end.
(* may a value begin here *)
Definition open_for_value (st : pstate) : bool :=
  match st with
  | ([], None) => true
  | ([], Some _) => false
  | (FObj _ None :: _, _) => false
  | _ => true
  end.
Definition pstep (p : part) (st : pstate) : option pstate :=
  match p with
  | Quoted s => match st with
                | (FObj l None :: fs, d) => Some (FObj l (Some s) :: fs, d)
                | _ => deliver (JText s) st
                end
  | Number q => deliver (JNum q) st
  | Boolean b => deliver (JBool b) st
  | NotANumber => None
  | OpenA => if open_for_value st then Some (FArr [] :: fst st, snd st) else None
  | OpenO => if open_for_value st then Some (FObj [] None :: fst st, snd st) else None
  | CloseA => match st with (FArr l :: fs, d) => deliver (JArr l) (fs, d) | _ => None end
  | CloseO => match st with (FObj l None :: fs, d) => deliver (JObj l) (fs, d) | _ => None end
  end.
Fixpoint prun (l : list part) (st : pstate) : option pstate :=
  match l with
  | [] => Some st
  | p :: l => match pstep p st with Some st => prun l st | None => None end
  end.
Definition json_parse (l : list part) : option json :=
  match prun l ([], None) with Some ([], Some v) => Some v | _ => None end.

(* HttpClient.ts:12-42, the promise of a request: its value, or rejected (Throw) *)
Definition fetch_json (a : answer) : res json :=
  if negb ((200 <=? an_status a)%N && (an_status a <=? 299)%N) || (an_status a =? 204)%N then Throw
  else match json_parse (an_body a) with Some v => Ok v | None => Throw end.
