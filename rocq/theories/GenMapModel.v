(* The map generator: mapping the elements of the infrastructure data on OSM data.
   Models: tools/generate-osm/db-utils/{db-parser,db-mapper}.go,
           tools/generate-osm/db-utils/mapper/*.go

   Simplifications
   - reading and writing XML is left out; kilometrages have been read (Q).  A
     kilometrage that cannot be read counts as 0 in the second pass and stops the
     program in the first one
   - pointers to OSM nodes are positions in the list of nodes, to which nodes are
     only appended
   - the counter of ids does not overflow
   - the order in which Go ranges over a map is an argument *)
From Coq Require Import Ascii String List ZArith NArith QArith Qround Bool DecimalString.
From Verif Require Import Base GenOsmModel GenFindModel.
Import ListNotations.
Local Open Scope list_scope.
Local Open Scope nat_scope.

(* ---- db-parser.go ---- *)
(* a section: its line and what it holds; a station: its name and sections.
   mapper/db-xml.go:148-158 *)
Record section {K : Type} : Type := mksec { sc_line : string; sc_body : K }.
Arguments section : clear implicits.
Record station {K : Type} : Type := mkst { st_name : string; st_secs : list (section K) }.
Arguments station : clear implicits.
(* db-parser.go:15-19 *)
Record book {K : Type} : Type := mkbook { b_data : list (station K); b_num : nat; b_used : bool }.
Arguments book : clear implicits.

Arguments mksec {K}. Arguments mkst {K}. Arguments mkbook {K}.

Section Parse.
  Context {K : Type}.
  Fixpoint set_nth {A} (l : list A) (i : nat) (f : A -> A) : option (list A) :=
    match l, i with
    | [], _ => None
    | x :: l, 0 => Some (f x :: l)
    | x :: l, S i => match set_nth l i f with Some l => Some (x :: l) | None => None end
    end.
  (* a Go map of the lines: every key once *)
  Definition line_map : Type := list (string * book K).
  Fixpoint lookup (m : line_map) (k : string) : option (book K) :=
    match m with [] => None | (k', b) :: m => if String.eqb k' k then Some b else lookup m k end.
  Fixpoint store (m : line_map) (k : string) (b : book K) : line_map :=
    match m with [] => [(k, b)] | (k', b') :: m => if String.eqb k' k then (k, b) :: m else (k', b') :: store m k b end.
  (* db-parser.go:33-35 *)
  Definition init_lines (refs : list string) : line_map := fold_left (fun m r => store m r (mkbook [] 0 false)) refs [].
  (* db-parser.go:40-58: one section *)
  Definition add_section (name : string) (m : line_map) (s : section K) : res line_map :=
    match lookup m (sc_line s) with
    | None => Ok m
    | Some b =>
        let b := if Nat.eqb (List.length (b_data b)) (b_num b)
                 then mkbook (b_data b ++ [mkst name []]) (b_num b) true else b in
        match set_nth (b_data b) (b_num b) (fun st => mkst (st_name st) (st_secs st ++ [s])) with
        | None => Throw
        | Some data => Ok (store m (sc_line s) (mkbook data (b_num b) (b_used b)))
        end
    end.
  Fixpoint add_sections (name : string) (m : line_map) (l : list (section K)) : res line_map :=
    match l with [] => Ok m | s :: l => do m <- add_section name m s; add_sections name m l end.
  (* db-parser.go:61-66 *)
  Definition close_station (m : line_map) : line_map :=
    map (fun e => (fst e, if b_used (snd e) then mkbook (b_data (snd e)) (S (b_num (snd e))) false else snd e)) m.
  Fixpoint parse_stations (m : line_map) (l : list (station K)) : res line_map :=
    match l with
    | [] => Ok m
    | st :: l => do m <- add_sections (st_name st) m (st_secs st); parse_stations (close_station m) l
    end.
  (* db-parser.go:22-92: the files written, with the lines in the order of the map *)
  Definition parse (refs : list string) (l : list (station K)) : res (list (string * list (station K))) :=
    do m <- parse_stations (init_lines refs) l;
    Ok (filter (fun e => negb (match snd e with [] => true | _ => false end)) (map (fun e => (fst e, b_data (snd e))) m)).
End Parse.
Arguments line_map : clear implicits.

(* ---- node-creation.go ---- *)
(* strconv.Itoa *)
Definition itoa (n : N) : string := NilZero.string_of_uint (N.to_uint n).
(* node-creation.go:64-81; the counter is incremented *)
Definition create_simple_node (c : N) (n : node) (subtype : string) : N * node :=
  ((c + 1)%N, mknode [("type", "element"); ("subtype", subtype)]%string (itoa (c + 1)) (n_lat n) (n_lon n)).
Definition add_tag (n : node) (k v : string) : node := mknode (n_tags n ++ [(k, v)]) (n_id n) (n_lat n) (n_lon n).
(* node-creation.go:31-46 *)
Definition create_directional_node (c : N) (n : node) (subtype : string) (falling : bool) : N * node :=
  let '(c, new) := create_simple_node c n subtype in
  (c, add_tag new "direction" (if falling then "falling" else "rising")).
(* node-creation.go:14-26 *)
Definition create_named_directional_node (c : N) (n : node) (subtype name : string) (falling : bool) : N * node :=
  let '(c, new) := create_directional_node c n subtype falling in (c, add_tag new "id" name).
(* node-creation.go:50-60 *)
Definition create_named_simple_node (c : N) (n : node) (subtype name : string) : N * node :=
  let '(c, new) := create_simple_node c n subtype in (c, add_tag new "id" name).

(* ---- the elements of one node of the track plan; mapper/db-xml.go:77-141 ----
   an element: its kilometrage with the text it was read from, its name *)
Record elem : Type := mkelem { e_km : Q; e_text : string; e_name : string }.
Record knoten : Type := mkkn {
  k_main_f : list elem; k_main_s : list elem;          (* HauptsigF, HauptsigS *)
  k_prot_f : list elem; k_prot_s : list elem;          (* SchutzsigF, SchutzsigS *)
  k_app_f : list elem; k_app_s : list elem;            (* VorsigF, VorsigS *)
  k_gz_f : list elem; k_gz_s : list elem;              (* HalteplGzF, HalteplGzS *)
  k_rz_f : list elem; k_rz_s : list elem;              (* HalteplRzF, HalteplRzS *)
  k_speed_f : list (elem * string); k_speed_s : list (elem * string);   (* MaxSpeedF, MaxSpeedS *)
  k_route_end_f : list elem; k_route_end_s : list elem;     (* FstrZugschlussstelleF, S *)
  k_signal_end_f : list elem; k_signal_end_s : list elem;   (* SignalZugschlussstelleF, S *)
  k_slope : list (elem * string * string);             (* Neigung: rising, falling *)
  k_line_switch : list elem; k_km_jump : list elem;    (* Streckenwechsel0, KmSprungAnf *)
  k_border : list elem; k_bumper : list elem;          (* BetriebsStGr, Prellbock *)
  k_tunnel : list elem; k_track_end : list elem;       (* Tunnel, Gleisende *)
  k_cross : list elem;                                 (* KreuzungsweicheAnfangLinks *)
  k_switch : list elem;                                (* WeichenAnf *)
  k_stem : list elem; k_left : list elem; k_right : list elem   (* WeichenStamm, WeichenAbzwLinks, WeichenAbzwRechts: name of the partner *)
}.

(* not-found-element-tracker.go:5-23 *)
Inductive kind : Type :=
| Halt | SpeedLimits | Slopes | Eotds | LineSwitch | KilometrageJump | Border | Bumper | Tunnel | TrackEnd
| MainSignal | ApproachSignal | ProtectionSignal | Switches | Crosses.

(* ---- the second pass: elements without a node of their own ---- *)
Section Map.
Variable hav : node -> node -> Q.
Variable fuel : nat.

(* what is written: the data, the counter, the elements that were not found, and
   the lists of halts and signals *)
Record mstate : Type := mkms { m_osm : osm; m_id : N; m_missing : list (kind * string);
  m_halts : list (string * GenOsmModel.place); m_main : list (string * GenOsmModel.place); m_other : list (string * GenOsmModel.place) }.

(* an element to be placed; text is what is recorded if it is not found *)
Record request : Type := mkreq { rq_kind : kind; rq_km : Q; rq_text : string; rq_make : N -> node -> N * node }.
(* map-signals.go:309-346, map-switches.go:105-129, 140-164, map-halts.go:62-91,
   map-misc.go:58-82, 94-118, 170-193, 209-240, 256-284: one iteration; order is the
   map of anchors *)
Definition put_lists (k : kind) (new : node) (name : string) (st : mstate) : mstate :=
  let p := GenOsmModel.mkplace name (n_lat new) (n_lon new) in
  match k with
  | Halt => mkms (m_osm st) (m_id st) (m_missing st) (put_place (m_halts st) (n_id new) p) (m_main st) (m_other st)
  | MainSignal => mkms (m_osm st) (m_id st) (m_missing st) (m_halts st) (put_place (m_main st) (n_id new) p) (m_other st)
  | ProtectionSignal | ApproachSignal =>
      mkms (m_osm st) (m_id st) (m_missing st) (m_halts st) (m_main st) (put_place (m_other st) (n_id new) p)
  | _ => st
  end.
Definition map_one (order : anchors) (r : request) (st : mstate) : res mstate :=
  do best <- find_best_osm_node hav fuel (m_osm st) order (rq_km r);
  match best with
  | None => Ok (mkms (m_osm st) (m_id st) (m_missing st ++ [(rq_kind r, rq_text r)]) (m_halts st) (m_main st) (m_other st))
  | Some ref =>
      let '(c, new) := rq_make r (m_id st) ref in
      Ok (put_lists (rq_kind r) new (rq_text r)
            (mkms (insert_new_node (m_osm st) new ref) c (m_missing st) (m_halts st) (m_main st) (m_other st)))
  end.
(* every call sees its own order of the map *)
Fixpoint map_all (l : list (anchors * request)) (st : mstate) : res mstate :=
  match l with [] => Ok st | (order, r) :: l => do st <- map_one order r st; map_all l st end.

(* map-signals.go:322-327; the loop: 299-348 *)
Definition signal_subtype (k : kind) : string :=
  match k with ProtectionSignal => "ps" | ApproachSignal => "as" | _ => "ms" end%string.
Definition signal_requests (k : kind) (l : list elem) (falling : bool) : list request :=
  map (fun e => mkreq k (e_km e) (e_name e) (fun c n => create_named_directional_node c n (signal_subtype k) (e_name e) falling)) l.
(* map-switches.go:97-131 *)
Definition switch_requests (l : list elem) : list request :=
  map (fun e => mkreq Switches (e_km e) (e_name e) (fun c n => create_named_simple_node c n "simple_switch" (e_name e))) l.
(* map-switches.go:133-166 *)
Definition cross_requests (l : list elem) : list request :=
  map (fun e => mkreq Crosses (e_km e) (e_name e) (fun c n => create_named_simple_node c n "cross" (e_name e))) l.
(* map-halts.go:48-93 *)
Definition halt_requests (k : knoten) (falling : bool) : list request :=
  map (fun e => mkreq Halt (e_km e) (e_name e) (fun c n => create_named_directional_node c n "hlt" (e_name e) falling))
    (if falling then k_gz_f k ++ k_rz_f k else k_gz_s k ++ k_rz_s k).
(* map-misc.go:45-84 *)
Definition speed_requests (k : knoten) (falling : bool) : list request :=
  map (fun e => mkreq SpeedLimits (e_km (fst e)) (e_text (fst e)) (fun c n =>
      let '(c, new) := create_directional_node c n "spl" falling in (c, add_tag new "speed" (snd e))))
    (if falling then k_speed_f k else k_speed_s k).
(* map-misc.go:87-120 *)
Definition slope_requests (k : knoten) : list request :=
  map (fun e => mkreq Slopes (e_km (fst (fst e))) (e_text (fst (fst e))) (fun c n =>
      let '(c, new) := create_simple_node c n "slope" in
      (c, add_tag (add_tag new "rising" (snd (fst e))) "falling" (snd e)))) (k_slope k).
(* map-misc.go:157-195 *)
Definition eotd_requests (k : knoten) (falling : bool) : list request :=
  map (fun e => mkreq Eotds (e_km e) (e_text e) (fun c n => create_directional_node c n "eotd" falling))
    (if falling then k_route_end_f k ++ k_signal_end_f k else k_route_end_s k ++ k_signal_end_s k).
(* map-misc.go:201-242; the subtype: 221-228 *)
Definition simple_subtype (k : kind) : string :=
  match k with KilometrageJump => "km_jump" | Border => "border" | Bumper => "bumper" | _ => "line_switch" end%string.
Definition simple_requests (k : kind) (l : list elem) : list request :=
  map (fun e => mkreq k (e_km e) (e_text e) (fun c n => create_simple_node c n (simple_subtype k))) l.
(* map-misc.go:248-286 *)
Definition named_requests (k : kind) (l : list elem) : list request :=
  map (fun e => mkreq k (e_km e) (e_name e) (fun c n =>
      create_named_simple_node c n (match k with TrackEnd => "track_end" | _ => "tunnel" end)%string (e_name e))) l.

(* db-mapper.go:148-160: the two maps of simple elements *)
Definition simple_elements (k : knoten) : list (kind * list elem) :=
  [(LineSwitch, k_line_switch k); (KilometrageJump, k_km_jump k); (Border, k_border k); (Bumper, k_bumper k)].
Definition named_elements (k : knoten) : list (kind * list elem) := [(Tunnel, k_tunnel k); (TrackEnd, k_track_end k)].
(* db-mapper.go:162-261: simple and named are the maps in the order in which they
   are ranged over *)
Definition knoten_requests (k : knoten) (simple named : list (kind * list elem)) : list request :=
  flat_map (fun x => simple_requests (fst x) (snd x)) simple ++
  flat_map (fun x => named_requests (fst x) (snd x)) named ++
  signal_requests ProtectionSignal (k_prot_f k) true ++ signal_requests ProtectionSignal (k_prot_s k) false ++
  signal_requests ApproachSignal (k_app_f k) true ++ signal_requests ApproachSignal (k_app_s k) false ++
  cross_requests (k_cross k) ++
  halt_requests k true ++ halt_requests k false ++
  speed_requests k true ++ speed_requests k false ++
  eotd_requests k true ++ eotd_requests k false ++
  slope_requests k.
(* db-mapper.go:120-146: what the first pass did not find *)
Definition unanchored_requests (main_f main_s switches : list elem) : list request :=
  signal_requests MainSignal main_f true ++ signal_requests MainSignal main_s false ++ switch_requests switches.
End Map.

(* ---- the first pass: elements that can be identified ---- *)
(* anchors: positions of nodes *)
Definition places_map : Type := list (Q * list nat).
Fixpoint anchor_get (m : places_map) (km : Q) : list nat :=
  match m with [] => [] | (k, l) :: m => if Qeq_bool k km then l else anchor_get m km end.
Fixpoint anchor_add (m : places_map) (km : Q) (i : nat) : places_map :=
  match m with
  | [] => [(km, [i])]
  | (k, l) :: m => if Qeq_bool k km then (k, l ++ [i]) :: m else (k, l) :: anchor_add m km i
  end.
Definition anchor_delete (m : places_map) (km : Q) : places_map := filter (fun e => negb (Qeq_bool (fst e) km)) m.

Record astate : Type := mkas { a_osm : osm; a_anchors : places_map; a_missing : list elem; a_conflicts : list string;
  a_count : Z; a_id : N; a_signals : list (string * GenOsmModel.place) }.

Definition tag_value (n : node) (k : string) : string := match find_tag_on_node n k with Some v => v | None => ""%string end.
(* strings.ReplaceAll(s, " ", "") *)
Definition no_blanks (s : string) : string :=
  string_of_list_ascii (filter (fun c => negb (Ascii.eqb c " ")) (list_ascii_of_string s)).
(* map-signals.go:76-84 *)
Definition signal_matches (name : string) (n : node) : bool :=
  match n_tags n with [] => false | _ => String.eqb (tag_value n "railway") "signal" && String.eqb (no_blanks (tag_value n "ref")) name end.
Fixpoint positions {A} (p : A -> bool) (i : nat) (l : list A) : list nat :=
  match l with [] => [] | x :: l => if p x then i :: positions p (S i) l else positions p (S i) l end.

(* strconv.FormatFloat(_, 'f', 3, 64) and reading it again *)
Definition round3 (q : Q) : Q := Qmake (Qfloor (Qplus (Qmult q (1000 # 1)) (1 # 2))) 1000.
(* map-signals.go:143-157: the loop over the anchors at one kilometrage *)
Fixpoint drop_anchors (km : Q) (l : list nat) (st : astate) : res astate :=
  match l with
  | [] => Ok st
  | i :: l =>
      match nth_error (o_nodes (a_osm st)) i with
      | None => UB
      | Some n =>
          match nth_error (n_tags n) 3 with
          | None => Throw
          | Some (_, v) =>
              match set_nth (o_nodes (a_osm st)) i
                      (fun n => mknode (firstn (List.length (n_tags n) - 4) (n_tags n)) (n_id n) (n_lat n) (n_lon n)) with
              | None => UB
              | Some nodes =>
                  drop_anchors km l (mkas (mkosm nodes (o_ways (a_osm st)) (o_rels (a_osm st))) (a_anchors st)
                    (a_missing st ++ [mkelem (round3 km) "" v]) (a_conflicts st) (a_count st - 1) (a_id st) (a_signals st))
              end
          end
      end
  end.
(* map-signals.go:140-142: the kilometrage whose anchors conflict *)
Definition same_place (o : osm) (n : node) (i : nat) : bool :=
  match nth_error (o_nodes o) i with
  | Some m => String.eqb (n_lat m) (n_lat n) && String.eqb (n_lon m) (n_lon n)
  | None => false
  end.
Fixpoint find_conflict (o : osm) (n : node) (km : Q) (order : places_map) : option (Q * list nat) :=
  match order with
  | [] => None
  | (k, l) :: order => if negb (Qeq_bool k km) && existsb (same_place o n) l then Some (k, l) else find_conflict o n km order
  end.
(* map-signals.go:122-183: the result is whether the signal was put in *)
Definition insert_new_hauptsignal (order : places_map) (n : node) (s : elem) (falling : bool) (st : astate) : res (bool * astate) :=
  if existsb (String.eqb (e_name s)) (a_conflicts st) then Ok (false, st)
  else
    match find_conflict (a_osm st) n (e_km s) order with
    | Some (k, l) =>
        do st <- drop_anchors k l st;
        Ok (false, mkas (a_osm st) (anchor_delete (a_anchors st) k) (a_missing st) (a_conflicts st) (a_count st) (a_id st) (a_signals st))
    | None =>
        let '(c, new) := create_named_directional_node (a_id st) n "ms" (e_name s) falling in
        Ok (true, mkas (insert_new_node (a_osm st) new n) (anchor_add (a_anchors st) (e_km s) (List.length (o_nodes (a_osm st))))
                    (a_missing st) (a_conflicts st) (a_count st) c (a_signals st))
    end.
(* the order in which a map is ranged over *)
Definition shuffle : Type := places_map -> places_map.
(* map-signals.go:61-116; after a signal that was put in the function returns *)
Fixpoint process_hauptsignal (l : list (shuffle * elem)) (falling : bool) (st : astate) : res astate :=
  match l with
  | [] => Ok st
  | (order, s) :: l =>
      let found := positions (signal_matches (e_name s)) 0 (o_nodes (a_osm st)) in
      do ' (ok, st) <-
        match found with
        | [i] => match nth_error (o_nodes (a_osm st)) i with None => UB | Some n =>
                   do ' (ok, st) <- insert_new_hauptsignal (order (a_anchors st)) n s falling st;
                   if ok : bool
                   then Ok (true, mkas (a_osm st) (a_anchors st) (a_missing st) (a_conflicts st) (a_count st + 1) (a_id st)
                              (put_place (a_signals st) (n_id n) (GenOsmModel.mkplace (e_name s) (n_lat n) (n_lon n))))
                   else Ok (false, st)
                 end
        | _ => Ok (false, st)
        end;
      if ok : bool then Ok st
      else process_hauptsignal l falling
             (mkas (a_osm st) (a_anchors st) (a_missing st ++ [s]) (e_name s :: a_conflicts st) (a_count st) (a_id st) (a_signals st))
  end.
(* map-signals.go:16-57: both directions; the missing signals of either *)
Definition anchor_main_signals (falling rising : list (shuffle * elem)) (st : astate) (missing_f missing_s : list elem) :
    res (astate * list elem * list elem) :=
  do st1 <- process_hauptsignal falling true (mkas (a_osm st) (a_anchors st) missing_f [] (a_count st) (a_id st) (a_signals st));
  do st2 <- process_hauptsignal rising false (mkas (a_osm st1) (a_anchors st1) missing_s (a_conflicts st1) (a_count st1) (a_id st1) (a_signals st1));
  Ok (st2, a_missing st1, a_missing st2).

(* map-switches.go:26-35, 70-78, 86 *)
Definition switch_matches (name : string) (n : node) : bool :=
  match n_tags n with
  | [] => false
  | _ => String.eqb (tag_value n "railway") "switch" && (String.eqb (tag_value n "ref") name || String.eqb (tag_value n "name") name)
  end.
(* map-switches.go:23-62: found is never reset; missing is the list of switches *)
Fixpoint anchor_switches (l : list elem) (found : bool) (st : astate) : res astate :=
  match l with
  | [] => Ok st
  | s :: l =>
      match positions (switch_matches (e_name s)) 0 (o_nodes (a_osm st)) with
      | i :: _ =>
          match nth_error (o_nodes (a_osm st)) i with
          | None => UB
          | Some n =>
              let '(c, new) := create_named_simple_node (a_id st) n "simple_switch" (e_name s) in
              anchor_switches l true (mkas (insert_new_node (a_osm st) new n) (anchor_add (a_anchors st) (e_km s) i)
                (a_missing st) (a_conflicts st) (a_count st + 1) c (a_signals st))
          end
      | [] =>
          anchor_switches l found (if found then st else
            mkas (a_osm st) (a_anchors st) (a_missing st ++ [s]) (a_conflicts st) (a_count st) (a_id st) (a_signals st))
      end
  end.
(* map-switches.go:69-92: one switch *)
Fixpoint anchor_partner (s : elem) (nodes : list node) (i : nat) (st : astate) : astate :=
  match nodes with
  | [] => st
  | n :: nodes =>
      anchor_partner s nodes (S i)
        (if switch_matches (e_name s) n && match anchor_get (a_anchors st) (e_km s) with [] => true | _ => false end
         then mkas (a_osm st) (anchor_add (a_anchors st) (e_km s) i) (a_missing st) (a_conflicts st) (a_count st + 1) (a_id st) (a_signals st)
         else st)
  end.
(* map-switches.go:15-95 *)
Definition find_and_map_anchor_switches (k : knoten) (st : astate) : res astate :=
  do st <- anchor_switches (k_switch k) false st;
  Ok (fold_left (fun st s => anchor_partner s (o_nodes (a_osm st)) 0 st) (k_stem k ++ k_left k ++ k_right k) st).

(* ---- one line: db-mapper.go:29-277 ---- *)
Record fstate : Type := mkfs { f_state : astate; f_falling : list elem; f_rising : list elem; f_switches : list elem }.
Definition with_missing (st : astate) (l : list elem) : astate :=
  mkas (a_osm st) (a_anchors st) l (a_conflicts st) (a_count st) (a_id st) (a_signals st).
(* db-mapper.go:60-86; every search for a conflict sees its own order of the map *)
Definition anchor_knoten (x : knoten * list shuffle * list shuffle) (st : fstate) : res fstate :=
  let '(k, of_f, of_s) := x in
  do ' (a, mf, ms) <- anchor_main_signals (combine of_f (k_main_f k)) (combine of_s (k_main_s k)) (f_state st) (f_falling st) (f_rising st);
  do a <- find_and_map_anchor_switches k (with_missing a (f_switches st));
  Ok (mkfs a mf ms (a_missing a)).
(* db-mapper.go:58-89 *)
Fixpoint first_pass (l : list (knoten * list shuffle * list shuffle)) (st : fstate) : res fstate :=
  match l with [] => Ok st | x :: l => do st <- anchor_knoten x st; first_pass l st end.
(* db-mapper.go:54-57; the counter and the list of signals go on from line to line *)
Definition first_state (o : osm) (c : N) (signals : list (string * GenOsmModel.place)) : fstate :=
  mkfs (mkas o [] [] [] 0 c signals) [] [] [].
(* the nodes the anchors point to *)
Definition line_anchors (o : osm) (m : places_map) : anchors :=
  map (fun e => (fst e, flat_map (fun i => match nth_error (o_nodes o) i with Some n => [n] | None => [] end) (snd e))) m.
(* db-mapper.go:98-108, 120-264: ks are the nodes of the line with the orders of the two maps *)
Definition line_requests (st : fstate) (ks : list (knoten * list (kind * list elem) * list (kind * list elem))) : list request :=
  unanchored_requests (f_falling st) (f_rising st) (f_switches st) ++
  flat_map (fun x => knoten_requests (fst (fst x)) (snd (fst x)) (snd x)) ks.
(* db-mapper.go:110-264: without an anchor the file is not written (None), with one
   the elements are left out *)
Definition second_pass (hav : node -> node -> Q) (fuel : nat) (st : fstate) (orders : list anchors)
    (ks : list (knoten * list (kind * list elem) * list (kind * list elem)))
    (halts other : list (string * GenOsmModel.place)) : res (option mstate) :=
  let st0 := mkms (a_osm (f_state st)) (a_id (f_state st)) [] halts (a_signals (f_state st)) other in
  match a_anchors (f_state st) with
  | [] => Ok None
  | [_] => Ok (Some st0)
  | _ => do r <- map_all hav fuel (combine orders (line_requests st ks)) st0; Ok (Some r)
  end.
