(* Model of the import of the railway network:
   src/infrastructure/parsers/iss/parse_iss.cc (sections, borders),
   src/infrastructure/graph/graph_creation.cc, include/soro/infrastructure/graph/*.h.

   Simplifications
   - XML is given as already parsed values: names of section nodes as an
     enumeration (sname), names of track nodes as their type and the result of
     has_rising_name, numbers and kilometrages as values
   - an element is its index in graph::elements_ (the element id), a null
     pointer is None; ids do not overflow 32 bits
   - a node is its element together with its index in the element's nodes_
   - the neighbours_ array of an element and the members *_rising_, *_line_,
     *_km_ are maps over the element's sides (see side)
   - a section node whose partner reference leads to an element of another kind
     is UB (the C++ calls as<T>() on a variant holding something else)
   - kilometrages (double) are exact rationals *)
From Coq Require Import List Bool NArith QArith String.
From Verif Require Import Base PhysModel TextModel.
Import ListNotations.

(* element.h: the sides of an element.
     end elements:  S0
     simple:        S0 start (KmSprungAnfang, Streckenwechsel0), S1 end
     switch:        S0 start, S1 stem, S2 branch
     cross:         S0 start left, S1 end left, S2 start right, S3 end right
     track:         S0 (true = ahead, false = behind)
     undirected:    S0 start, S1 end *)
Inductive side : Type := S0 | S1 | S2 | S3.
Definition side_eqb (a b : side) : bool :=
  match a, b with S0, S0 | S1, S1 | S2, S2 | S3, S3 => true | _, _ => false end.

(* graph_creation.cc:13-36 create_element: the alternative of the variant *)
Inductive kind : Type := KEnd | KSimple | KSwitch | KCross | KTrack | KUndirected.
Definition kind_of (t : etype) : option kind :=
  if is_cross t then Some KCross
  else if is_end_element t then Some KEnd
  else if is_simple_element t then Some KSimple
  else if is_simple_switch t then Some KSwitch
  else if is_directed_track_element t then Some KTrack
  else if is_undirected_track_element t then Some KUndirected
  else None.
Definition kind_eqb (a b : kind) : bool :=
  match a, b with
  | KEnd, KEnd | KSimple, KSimple | KSwitch, KSwitch | KCross, KCross
  | KTrack, KTrack | KUndirected, KUndirected => true
  | _, _ => false
  end.

(* element.h:36-303; e_rise S0 is rising_, e_rise S1.. are end_rising_,
   stem_rising_, ...; e_nb s true / false is the rising / falling neighbour of
   the side; e_secs is graph.h element_id_to_section_ids_ *)
Record elem : Type := mkelem {
  e_type : etype;
  e_kind : kind;
  e_rise : side -> bool;
  e_line : side -> option N;
  e_km : side -> Q;
  e_arc_lr : bool;  (* start_left_end_right_arc_ *)
  e_arc_rl : bool;  (* start_right_end_left_arc_ *)
  e_nb : side -> bool -> option nat;
  e_station : nat;
  e_secs : list nat }.

(* station.h:40-67 border *)
Record border : Type := mkborder {
  b_station : nat;
  b_neighbour_name : string;
  b_sign : Z;
  b_line : N;
  b_elem : nat;
  b_low : bool }.

(* section.h:19-85 *)
Record section : Type := mksec {
  sc_rising : list nat;
  sc_falling : list nat;
  sc_length : Q;
  sc_line : N }.

(* graph.h, construction_materials.h: rp_id_to_element_id_ as the list of its
   insertions, latest first *)
Record graph : Type := mkgraph {
  g_elems : list elem;
  g_rp : list (N * nat);
  g_secs : list section;
  g_borders : list border }.

Definition no_graph : graph := mkgraph [] [] [] [].

(* ---- the input ---- *)
(* iss_string_literals.h: names of the nodes a section may start or end with *)
Inductive sname : Type :=
| N_BUMPER | N_TRACK_END | N_BORDER
| N_KM_JUMP_START | N_KM_JUMP_END
| N_LINE_SWITCH_ZERO | N_LINE_SWITCH_ONE
| N_SWITCH_START | N_SWITCH_STEM | N_SWITCH_BRANCH_LEFT | N_SWITCH_BRANCH_RIGHT
| N_CROSS_START_LEFT | N_CROSS_END_LEFT | N_CROSS_START_RIGHT | N_CROSS_END_RIGHT
| N_CROSS_SWITCH_START_LEFT | N_CROSS_SWITCH_END_LEFT
| N_CROSS_SWITCH_START_RIGHT | N_CROSS_SWITCH_END_RIGHT.

Record snode : Type := mksnode {
  sn_name : sname;
  sn_id : N;
  sn_ref : N;        (* Partnerknoten, Partner, NachbarGeradeaus or HauptknotenAnfang *)
  sn_branch : bool;  (* has a child NachbarAbzweig *)
  sn_km : Q;
  sn_station : string;  (* PartnerBtrst *)
  sn_sign : Z           (* Gleiskennzeichen *) }.

Record tnode : Type := mktnode {
  tn_type : etype;
  tn_rising : bool;  (* has_rising_name, parse_helpers.cc:31-34 *)
  tn_id : N;
  tn_km : Q }.

(* a Spurplanabschnitt: first child, last child and the track elements *)
Record xsection : Type := mkxsec {
  xs_line : N;
  xs_start : snode;
  xs_end : snode;
  xs_track : list tnode }.

Record xstation : Type := mkxst { st_ds100 : string; st_sections : list xsection }.

(* type.cc:12-101 on the names of section nodes *)
Definition stype (n : sname) : etype :=
  match n with
  | N_BUMPER => BUMPER
  | N_TRACK_END => TRACK_END
  | N_BORDER => BORDER
  | N_KM_JUMP_START | N_KM_JUMP_END => KM_JUMP
  | N_LINE_SWITCH_ZERO | N_LINE_SWITCH_ONE => LINE_SWITCH
  | N_SWITCH_START | N_SWITCH_STEM | N_SWITCH_BRANCH_LEFT | N_SWITCH_BRANCH_RIGHT => SIMPLE_SWITCH
  | _ => CROSS
  end.

(* parse_iss.cc:211-253 get_main_rp_node_id *)
Definition main_id (n : snode) : N :=
  match sn_name n with
  | N_BUMPER | N_BORDER | N_TRACK_END | N_KM_JUMP_START | N_SWITCH_START
  | N_CROSS_START_LEFT | N_CROSS_SWITCH_START_LEFT | N_LINE_SWITCH_ZERO => sn_id n
  | N_KM_JUMP_END | N_LINE_SWITCH_ONE => sn_ref n
  | N_SWITCH_STEM | N_SWITCH_BRANCH_LEFT | N_SWITCH_BRANCH_RIGHT => sn_ref n
  | N_CROSS_END_LEFT | N_CROSS_SWITCH_END_LEFT => sn_ref n
  | N_CROSS_START_RIGHT | N_CROSS_END_RIGHT
  | N_CROSS_SWITCH_START_RIGHT | N_CROSS_SWITCH_END_RIGHT => sn_ref n
  end.

(* ---- the heap of elements ---- *)
Fixpoint upd {A} (l : list A) (i : nat) (f : A -> A) : list A :=
  match l, i with
  | [], _ => []
  | x :: l, O => f x :: l
  | x :: l, S i => x :: upd l i f
  end.
Definition upd_e (g : graph) (i : nat) (f : elem -> elem) : graph :=
  mkgraph (upd (g_elems g) i f) (g_rp g) (g_secs g) (g_borders g).
Definition get_e (g : graph) (i : nat) : res elem :=
  match nth_error (g_elems g) i with Some e => Ok e | None => UB end.
Definition add_rp (g : graph) (id : N) (i : nat) : graph :=
  mkgraph (g_elems g) ((id, i) :: g_rp g) (g_secs g) (g_borders g).
Fixpoint rp_find (m : list (N * nat)) (id : N) : option nat :=
  match m with
  | [] => None
  | (k, i) :: m => if N.eqb k id then Some i else rp_find m id
  end.

Definition set_rise (s : side) (b : bool) (e : elem) : elem :=
  mkelem (e_type e) (e_kind e) (fun s' => if side_eqb s' s then b else e_rise e s')
         (e_line e) (e_km e) (e_arc_lr e) (e_arc_rl e) (e_nb e) (e_station e) (e_secs e).
Definition set_km (s : side) (km : Q) (ln : N) (e : elem) : elem :=
  mkelem (e_type e) (e_kind e) (e_rise e)
         (fun s' => if side_eqb s' s then Some ln else e_line e s')
         (fun s' => if side_eqb s' s then km else e_km e s')
         (e_arc_lr e) (e_arc_rl e) (e_nb e) (e_station e) (e_secs e).
Definition set_arcs (lr rl : bool) (e : elem) : elem :=
  mkelem (e_type e) (e_kind e) (e_rise e) (e_line e) (e_km e) lr rl (e_nb e)
         (e_station e) (e_secs e).
Definition set_nb (s : side) (r : bool) (v : option nat) (e : elem) : elem :=
  mkelem (e_type e) (e_kind e) (e_rise e) (e_line e) (e_km e) (e_arc_lr e) (e_arc_rl e)
         (fun s' r' => if side_eqb s' s && Bool.eqb r' r then v else e_nb e s' r')
         (e_station e) (e_secs e).
(* std::replace over neighbours_ *)
Definition replace_nb (old new : nat) (e : elem) : elem :=
  mkelem (e_type e) (e_kind e) (e_rise e) (e_line e) (e_km e) (e_arc_lr e) (e_arc_rl e)
         (fun s r => match e_nb e s r with
                     | Some x => if Nat.eqb x old then Some new else Some x
                     | None => None
                     end)
         (e_station e) (e_secs e).
Definition push_sec (s : nat) (e : elem) : elem :=
  mkelem (e_type e) (e_kind e) (e_rise e) (e_line e) (e_km e) (e_arc_lr e) (e_arc_rl e)
         (e_nb e) (e_station e) (e_secs e ++ [s]).

(* graph_creation.h:9-47 create_element_t, graph_creation.cc:13-36 *)
Definition create_element (g : graph) (st : nat) (t : etype) (rp : N) (rising : bool)
  : res (graph * nat) :=
  match kind_of t with
  | None => Throw
  | Some k =>
      let i := length (g_elems g) in
      let e := mkelem t k (fun s => match s with S0 => rising | _ => false end)
                      (fun _ => None) (fun _ => 0%Q) false false (fun _ _ => None) st [] in
      Ok (mkgraph (g_elems g ++ [e]) ((rp, i) :: g_rp g) (g_secs g) (g_borders g), i)
  end.

(* graph_creation.cc:38-48 *)
Definition get_or_create_element (g : graph) (st : nat) (t : etype) (rp : N) (rising : bool)
  : res (graph * nat) :=
  match rp_find (g_rp g) rp with
  | Some i => Ok (g, i)
  | None => create_element g st t rp rising
  end.

(* parse_iss.cc:273-301: the side whose *_rising_ member a node name sets *)
Definition flag_side (n : sname) : option side :=
  match n with
  | N_LINE_SWITCH_ONE => Some S1
  | N_SWITCH_STEM => Some S1
  | N_SWITCH_BRANCH_RIGHT | N_SWITCH_BRANCH_LEFT => Some S2
  | N_CROSS_END_LEFT | N_CROSS_SWITCH_END_LEFT => Some S1
  | N_CROSS_START_RIGHT | N_CROSS_SWITCH_START_RIGHT => Some S2
  | N_CROSS_END_RIGHT | N_CROSS_SWITCH_END_RIGHT => Some S3
  | _ => None
  end.

(* parse_iss.cc:255-316 emplace_into_network *)
Definition emplace (g : graph) (st : nat) (ln : N) (n : snode) (is_start : bool)
  : res (graph * nat) :=
  let main := main_id n in
  do ' (g, i) <- get_or_create_element g st (stype (sn_name n)) main false;
  do e <- get_e g i;
  if negb (match kind_of (stype (sn_name n)) with Some k => kind_eqb k (e_kind e) | None => false end)
  then UB else
  let g := if N.eqb (sn_id n) main then upd_e g i (set_rise S0 (negb is_start))
           else add_rp g (sn_id n) i in
  let g := match flag_side (sn_name n) with
           | Some s => upd_e g i (set_rise s (negb is_start))
           | None => g
           end in
  let g := match sn_name n with
           | N_CROSS_SWITCH_START_LEFT =>
               upd_e g i (fun e => set_arcs (sn_branch n) (e_arc_rl e) e)
           | N_CROSS_SWITCH_END_LEFT =>
               upd_e g i (fun e => set_arcs (e_arc_lr e) (sn_branch n) e)
           | _ => g
           end in
  let g := match sn_name n with
           | N_BORDER => mkgraph (g_elems g) (g_rp g) (g_secs g)
                           (g_borders g ++ [mkborder st (sn_station n) (sn_sign n) ln i is_start])
           | _ => g
           end in
  Ok (g, i).

(* graph_creation.cc:50-156 set_km_point_and_line *)
Definition set_km_point_and_line (n : sname) (km : Q) (ln : N) (e : elem) : elem :=
  match e_kind e with
  | KSimple =>
      match n with
      | N_KM_JUMP_START | N_LINE_SWITCH_ZERO => set_km S0 km ln e
      | N_KM_JUMP_END | N_LINE_SWITCH_ONE => set_km S1 km ln e
      | _ => set_km S1 km ln (set_km S0 km ln e)
      end
  | KSwitch =>
      match n with
      | N_SWITCH_START => set_km S0 km ln e
      | N_SWITCH_STEM => set_km S1 km ln e
      | _ => set_km S2 km ln e
      end
  | KCross =>
      match n with
      | N_CROSS_START_LEFT | N_CROSS_SWITCH_START_LEFT => set_km S0 km ln e
      | N_CROSS_END_LEFT | N_CROSS_SWITCH_END_LEFT => set_km S1 km ln e
      | N_CROSS_START_RIGHT | N_CROSS_SWITCH_START_RIGHT => set_km S2 km ln e
      | _ => set_km S3 km ln e
      end
  | _ => set_km S0 km ln e
  end.

(* graph_creation.cc:158-263 set_neighbour; the name is None for track nodes,
   whose names the C++ ignores *)
Definition set_neighbour_e (name : option sname) (v : nat) (rising : bool) (e : elem) : elem :=
  match e_kind e with
  | KEnd => set_nb S0 rising (Some v) e
  | KSimple =>
      match name with
      | Some N_KM_JUMP_START | Some N_LINE_SWITCH_ZERO => set_nb S0 rising (Some v) e
      | Some N_KM_JUMP_END | Some N_LINE_SWITCH_ONE => set_nb S1 rising (Some v) e
      | _ => if e_rise e S0 then set_nb S1 rising (Some v) e else set_nb S0 rising (Some v) e
      end
  | KSwitch =>
      match name with
      | Some N_SWITCH_START => set_nb S0 rising (Some v) e
      | Some N_SWITCH_STEM => set_nb S1 rising (Some v) e
      | Some N_SWITCH_BRANCH_LEFT | Some N_SWITCH_BRANCH_RIGHT => set_nb S2 rising (Some v) e
      | _ => e
      end
  | KCross =>
      match name with
      | Some N_CROSS_START_LEFT | Some N_CROSS_SWITCH_START_LEFT => set_nb S0 rising (Some v) e
      | Some N_CROSS_END_LEFT | Some N_CROSS_SWITCH_END_LEFT => set_nb S1 rising (Some v) e
      | Some N_CROSS_START_RIGHT | Some N_CROSS_SWITCH_START_RIGHT => set_nb S2 rising (Some v) e
      | Some N_CROSS_END_RIGHT | Some N_CROSS_SWITCH_END_RIGHT => set_nb S3 rising (Some v) e
      | _ => e
      end
  | KTrack => set_nb S0 rising (Some v) e
  | KUndirected =>
      match e_nb e S1 true with
      | None => set_nb S1 true (Some v) e
      | Some _ =>
          match e_nb e S0 true with
          | None => set_nb S0 true (Some v) e
          | Some _ =>
              match e_nb e S0 false with
              | None => set_nb S0 false (Some v) e
              | Some _ =>
                  match e_nb e S1 false with
                  | None => set_nb S1 false (Some v) e
                  | Some _ => e
                  end
              end
          end
      end
  end.
Definition set_neighbour (g : graph) (i : nat) (name : option sname) (v : nat) (rising : bool)
  : graph := upd_e g i (set_neighbour_e name v rising).

(* the positions of the neighbours_ array of an element, in order *)
Definition slots (k : kind) : list (side * bool) :=
  match k with
  | KEnd => [(S0, true); (S0, false)]
  | KSimple | KUndirected => [(S0, true); (S0, false); (S1, true); (S1, false)]
  | KTrack => [(S0, false); (S0, true)]
  | KSwitch => [(S0, true); (S0, false); (S1, true); (S1, false); (S2, true); (S2, false)]
  | KCross => [(S0, true); (S0, false); (S1, true); (S1, false); (S2, true); (S2, false);
               (S3, true); (S3, false)]
  end.
Definition nb_is (e : elem) (s : side) (r : bool) (v : nat) : bool :=
  match e_nb e s r with Some x => Nat.eqb x v | None => false end.
(* utls::contains(e.neighbours(), v) *)
Definition is_neighbour (e : elem) (v : nat) : bool :=
  existsb (fun p => nb_is e (fst p) (snd p) v) (slots (e_kind e)).
(* neigh == e.rising_X_neighbour() || neigh == e.falling_X_neighbour() *)
Definition at_side (e : elem) (s : side) (v : nat) : bool := nb_is e s true v || nb_is e s false v.

(* element.cc:63-119 get_km *)
Definition get_km (e : elem) (v : nat) : res Q :=
  match e_kind e with
  | KEnd | KTrack | KUndirected => Ok (e_km e S0)
  | KSimple => sassert (is_neighbour e v) ;;
               Ok (if at_side e S0 v then e_km e S0 else e_km e S1)
  | KSwitch => sassert (is_neighbour e v) ;;
               Ok (if at_side e S0 v then e_km e S0
                   else if at_side e S1 v then e_km e S1 else e_km e S2)
  | KCross => sassert (is_neighbour e v) ;;
              Ok (if at_side e S0 v then e_km e S0
                  else if at_side e S1 v then e_km e S1
                  else if at_side e S2 v then e_km e S2 else e_km e S3)
  end.

(* ---- orders ---- *)
(* parse_iss.cc:85-138 get_type_order_key *)
Definition get_type_order_key (t : etype) (rising : bool) : Z :=
  (match t with
   | LINE_SWITCH | KM_JUMP | BORDER | BUMPER | SIMPLE_SWITCH | CROSS | TRACK_END => 32767
   | TUNNEL => 0
   | SLOPE => 10
   | ENTRY => 20
   | RUNTIME_CHECKPOINT_UNDIRECTED => 100
   | RUNTIME_CHECKPOINT => if rising then 101 else 102
   | HALT => if rising then 110 else 111
   | MAIN_SIGNAL => if rising then 120 else 121
   | APPROACH_SIGNAL => if rising then 130 else 131
   | PROTECTION_SIGNAL => if rising then 140 else 141
   | EOTD => if rising then 150 else 151
   | LZB_START => if rising then 160 else 161
   | LZB_BLOCK_SIGN => if rising then 170 else 171
   | LZB_END => if rising then 180 else 181
   | ETCS_START => if rising then 190 else 191
   | ETCS_BLOCK_SIGN => if rising then 200 else 201
   | ETCS_END => if rising then 210 else 211
   | SPEED_LIMIT => if rising then 220 else 221
   | FORCED_HALT => if rising then 230 else 231
   | POINT_SPEED => if rising then 240 else 241
   | BRAKE_PATH => if rising then 250 else 251
   | TRACK_NAME => 300
   | LEVEL_CROSSING => 310
   | META => 999
   | INVALID => 32767
   end)%Z.

(* what order_impl compares *)
Record okey : Type := mkkey { k_km : Q; k_type : etype; k_rising : bool; k_id : N }.

(* parse_iss.cc:141-156 order_impl; up: std::less, otherwise std::greater;
   != of kilometrages is fraction.h:131 (unequal by 0.01 or more) *)
Definition order_impl (up : bool) (a b : okey) : bool :=
  if negb (fuzzy_eq (k_km a) (k_km b))
  then if up then qlt (k_km a) (k_km b) else qlt (k_km b) (k_km a)
  else
    let t1 := get_type_order_key (k_type a) (k_rising a) in
    let t2 := get_type_order_key (k_type b) (k_rising b) in
    if negb (Z.eqb t1 t2) then Z.ltb t1 t2 else N.ltb (k_id a) (k_id b).

(* parse_iss.cc:159-172 element_order_from_nodes: the id is cut to 32 bits *)
Definition node_key (n : tnode) : okey :=
  mkkey (tn_km n) (tn_type n) (tn_rising n) (w32 (tn_id n)).
(* parse_iss.cc:175-194 element_order *)
Definition elem_key (i : nat) (e : elem) : okey :=
  mkkey (e_km e S0) (e_type e) (e_rise e S0) (N.of_nat i).

(* utls::sort, std::sort: insertion sort; for an order that is total on the
   list every algorithm gives the same result (InfraOrder.v) *)
Section SORT.
  Context {A : Type} (lt : A -> A -> bool).
  Fixpoint insert (x : A) (l : list A) : list A :=
    match l with
    | [] => [x]
    | y :: r => if lt x y then x :: l else y :: insert x r
    end.
  Fixpoint sort (l : list A) : list A :=
    match l with
    | [] => []
    | x :: r => insert x (sort r)
    end.
End SORT.
Definition sort_nodes (up : bool) (l : list tnode) : list tnode :=
  sort (fun a b => order_impl up (node_key a) (node_key b)) l.
Definition sort_elems (up : bool) (g : graph) (l : list nat) : list nat :=
  sort (fun i j =>
          match nth_error (g_elems g) i, nth_error (g_elems g) j with
          | Some a, Some b => order_impl up (elem_key i a) (elem_key j b)
          | _, _ => false
          end) l.

(* ---- parse_section_into_network, parse_iss.cc:196-518 ---- *)
(* parse_track_element.cc:174-188 parse_track_element (element data not modelled) *)
Definition parse_track_element (g : graph) (st : nat) (ln : N) (n : tnode) (rising : bool)
  : res (graph * nat) :=
  do ' (g, i) <- create_element g st (tn_type n) (tn_id n) rising;
  Ok (upd_e g i (set_km S0 (tn_km n) ln), i).

(* the variables prev_*_rp_node (its name), prev_*_element,
   undirected_track_elements (by node id) and all_track_elements (in the order
   of insertion, the C++ orders by address) *)
Record scan : Type := mkscan {
  sn_graph : graph;
  sn_prev : nat;
  sn_prev_name : option sname;
  sn_und : list (N * nat);
  sn_all : list nat }.

Definition is_track_e (e : elem) : bool := is_track_element (e_type e).

(* parse_iss.cc:357-382 create_directed_track_element *)
Definition create_directed (st : nat) (ln : N) (sec : nat) (dir : bool) (n : tnode) (c : scan)
  : res scan :=
  do ' (g, i) <- parse_track_element (sn_graph c) st ln n (tn_rising n);
  do p <- get_e g (sn_prev c);
  let g := if dir || is_track_e p
           then set_neighbour (set_neighbour g (sn_prev c) (sn_prev_name c) i true)
                              i None (sn_prev c) false
           else set_neighbour (set_neighbour g (sn_prev c) (sn_prev_name c) i false)
                              i None (sn_prev c) false in
  let g := upd_e g i (push_sec sec) in
  Ok (mkscan g i None (sn_und c) (sn_all c ++ [i])).

(* parse_iss.cc:384-412 create_undirected_track_element; elements already in
   all_track_elements are not inserted twice (std::set) *)
Definition create_undirected (st : nat) (ln : N) (sec : nat) (dir : bool) (n : tnode) (c : scan)
  : res scan :=
  do ' (g, i, und, all) <-
     match rp_find (sn_und c) (tn_id n) with
     | Some i => Ok (sn_graph c, i, sn_und c, sn_all c)
     | None => do ' (g, i) <- parse_track_element (sn_graph c) st ln n false;
               Ok (g, i, (tn_id n, i) :: sn_und c, sn_all c ++ [i])
     end;
  do p <- get_e g (sn_prev c);
  let g := if negb (is_track_e p) then set_neighbour g (sn_prev c) (sn_prev_name c) i dir
           else set_neighbour g (sn_prev c) (sn_prev_name c) i true in
  let g := set_neighbour g i None (sn_prev c) (negb dir) in
  let g := upd_e g i (fun e => match e_secs e with [] => push_sec sec e | _ => e end) in
  Ok (mkscan g i None und all).

(* parse_iss.cc:414-441 create_track_element, insert_in_direction *)
Fixpoint insert_in_direction (st : nat) (ln : N) (sec : nat) (dir : bool) (l : list tnode)
  (c : scan) : res scan :=
  match l with
  | [] => Ok c
  | n :: l =>
      if is_directed_track_element (tn_type n) && negb (Bool.eqb (tn_rising n) dir)
      then insert_in_direction st ln sec dir l c
      else do c <- (if is_directed_track_element (tn_type n)
                    then create_directed st ln sec dir n c
                    else create_undirected st ln sec dir n c);
           insert_in_direction st ln sec dir l c
  end.

Definition RP_MAX : N := (2 ^ 64 - 1)%N.

(* parse_iss.cc:332-355 insert_meta_in_empty *)
Definition insert_meta (g : graph) (st : nat) (ln : N) (sec : nat) (i1 i2 : nat) (rising : bool)
  : res (graph * nat) :=
  do e1 <- get_e g i1;
  do e2 <- get_e g i2;
  sassert (is_neighbour e1 i2) ;;
  sassert (is_neighbour e2 i1) ;;
  do ' (g, m) <- create_element g st META RP_MAX rising;
  do km <- get_km e1 i2;
  let g := upd_e g m (fun e => set_nb S0 false (Some i1) (set_nb S0 true (Some i2)
                               (set_km S0 km ln e))) in
  let g := upd_e g m (push_sec sec) in
  let g := upd_e g i1 (replace_nb i2 m) in
  let g := upd_e g i2 (replace_nb i1 m) in
  Ok (g, m).

Definition qabs' (a b : Q) : Q := qabs (a - b)%Q.

(* parse_iss.cc:196-518 *)
Definition parse_section (g : graph) (st : nat) (x : xsection) : res graph :=
  let sec := length (g_secs g) in
  let ln := xs_line x in
  (* 206-209 create_section; filled below *)
  let g := mkgraph (g_elems g) (g_rp g)
                   (g_secs g ++ [mksec [] [] (qabs' (sn_km (xs_start x)) (sn_km (xs_end x))) ln])
                   (g_borders g) in
  (* 318-328 *)
  do ' (g, a) <- emplace g st ln (xs_start x) true;
  let g := upd_e g a (set_km_point_and_line (sn_name (xs_start x)) (sn_km (xs_start x)) ln) in
  let g := upd_e g a (push_sec sec) in
  do ' (g, b) <- emplace g st ln (xs_end x) false;
  let g := upd_e g b (set_km_point_and_line (sn_name (xs_end x)) (sn_km (xs_end x)) ln) in
  let g := upd_e g b (push_sec sec) in
  (* 443-453 *)
  let nodes := filter (fun n => is_track_element (tn_type n)) (xs_track x) in
  (* 455-471 *)
  let nodes := sort_nodes true nodes in
  do c <- insert_in_direction st ln sec true nodes (mkscan g a (Some (sn_name (xs_start x))) [] []);
  let g := set_neighbour (sn_graph c) (sn_prev c) (sn_prev_name c) b true in
  let g := set_neighbour g b (Some (sn_name (xs_end x))) (sn_prev c) true in
  do ' (g, all) <- (if Nat.eqb (sn_prev c) a
                    then do ' (g, m) <- insert_meta g st ln sec a b true; Ok (g, sn_all c ++ [m])
                    else Ok (g, sn_all c));
  (* 473-496 *)
  let nodes := sort_nodes false nodes in
  do d <- insert_in_direction st ln sec false nodes
            (mkscan g b (Some (sn_name (xs_end x))) (sn_und c) all);
  let g := set_neighbour (sn_graph d) a (Some (sn_name (xs_start x))) (sn_prev d) false in
  do p <- get_e g (sn_prev d);
  let g := if is_track_e p then set_neighbour g (sn_prev d) (sn_prev_name d) a true
           else set_neighbour g (sn_prev d) (sn_prev_name d) a false in
  do ' (g, all) <- (if Nat.eqb (sn_prev d) b
                    then do ' (g, m) <- insert_meta g st ln sec b a false; Ok (g, sn_all d ++ [m])
                    else Ok (g, sn_all d));
  (* 498-515 *)
  Ok (mkgraph (g_elems g) (g_rp g)
        (upd (g_secs g) sec (fun s =>
           mksec ([a] ++ sort_elems true g all ++ [b]) ([b] ++ sort_elems false g all ++ [a])
                 (sc_length s) (sc_line s)))
        (g_borders g)).

(* parse_iss.cc:861-891 parse_iss_station (sections), 1139-1171 parse_iss *)
Fixpoint parse_sections (g : graph) (st : nat) (l : list xsection) : res graph :=
  match l with
  | [] => Ok g
  | x :: l => do g <- parse_section g st x; parse_sections g st l
  end.
Fixpoint parse_stations (g : graph) (st : nat) (l : list xstation) : res graph :=
  match l with
  | [] => Ok g
  | x :: l => do g <- parse_sections g st (st_sections x); parse_stations g (S st) l
  end.

(* ---- borders, parse_iss.cc:893-980 ---- *)
(* parse_iss.cc:994-1003 get_ds100_to_station: the last station of a name *)
Fixpoint station_of (st : nat) (l : list xstation) (name : string) : option nat :=
  match l with
  | [] => None
  | x :: l => match station_of (S st) l name with
              | Some i => Some i
              | None => if String.eqb (st_ds100 x) name then Some st else None
              end
  end.

(* a border with neighbour_ filled in: 899-915; borders without neighbour are
   erased *)
Definition known_borders (l : list xstation) (bs : list border) : list (border * nat) :=
  flat_map (fun b => match station_of O l (b_neighbour_name b) with
                     | Some s => [(b, s)]
                     | None => []
                     end) bs.
(* 919-926 *)
Definition border_match (f t : border * nat) : bool :=
  Nat.eqb (b_station (fst t)) (snd f) && Nat.eqb (snd t) (b_station (fst f)) &&
  Z.eqb (b_sign (fst f)) (b_sign (fst t)) && N.eqb (b_line (fst f)) (b_line (fst t)).
(* graph_creation.cc:586-596 connect_border *)
Definition connect_border (low : bool) (t : nat) (e : elem) : elem :=
  if low then set_nb S1 false (Some t) (set_nb S1 true (Some t) e)
  else set_nb S0 false (Some t) (set_nb S0 true (Some t) e).
(* 919-943: neighbour_element_ of a border, the last match *)
Definition border_element (bs : list (border * nat)) (f : border * nat) : option nat :=
  fold_left (fun acc t => if border_match f t then Some (b_elem (fst t)) else acc) bs None.
Definition connect_borders (g : graph) (bs : list (border * nat)) : graph :=
  fold_left (fun g f =>
    match border_element bs f with
    | Some t => upd_e g (b_elem (fst f)) (connect_border (b_low (fst f)) t)
    | None => g
    end) bs g.
(* station.h:48-52 get_id_tuple *)
Definition id_tuple (f : border * nat) : nat * nat * N * Z :=
  (Nat.min (b_station (fst f)) (snd f), Nat.max (b_station (fst f)) (snd f),
   b_line (fst f), b_sign (fst f)).
Definition tuple_eqb (a b : nat * nat * N * Z) : bool :=
  let '(a1, a2, a3, a4) := a in let '(b1, b2, b3, b4) := b in
  Nat.eqb a1 b1 && Nat.eqb a2 b2 && N.eqb a3 b3 && Z.eqb a4 b4.
(* 945-979: a border without neighbour_element_ is dereferenced *)
Fixpoint border_sections (bs todo : list (border * nat)) (fin : list (nat * nat * N * Z)) (g : graph)
  : res graph :=
  match todo with
  | [] => Ok g
  | f :: todo =>
      if existsb (tuple_eqb (id_tuple f)) fin then border_sections bs todo fin g
      else match border_element bs f with
           | None => UB
           | Some t =>
               let e := b_elem (fst f) in
               let sec := length (g_secs g) in
               let s := if b_low (fst f) then mksec [t; e] [e; t] 0%Q (b_line (fst f))
                        else mksec [e; t] [t; e] 0%Q (b_line (fst f)) in
               let g := mkgraph (g_elems g) (g_rp g) (g_secs g ++ [s]) (g_borders g) in
               border_sections bs todo (id_tuple f :: fin)
                 (upd_e (upd_e g e (push_sec sec)) t (push_sec sec))
           end
  end.
Definition complete_borders (l : list xstation) (g : graph) : res graph :=
  let bs := known_borders l (g_borders g) in
  border_sections bs bs [] (connect_borders g bs).

(* parse_iss.cc:1215-1226: the graph before connect_nodes *)
Definition import (l : list xstation) : res graph :=
  do g <- parse_stations no_graph O l; complete_borders l g.

(* ---- nodes, graph_creation.cc:265-579 ---- *)
(* index of a node in nodes_ of its element *)
Inductive slot : Type := Top | Bot | Lft | Rgt.
Definition node : Type := (nat * slot)%type.

Definition oN_eqb (a b : option N) : bool :=
  match a, b with
  | Some x, Some y => N.eqb x y
  | None, None => true
  | _, _ => false
  end.
(* 265-278 *)
Definition joins_lines (e : elem) : bool :=
  match e_kind e with
  | KSwitch => negb (oN_eqb (e_line e S0) (e_line e S1) && oN_eqb (e_line e S0) (e_line e S2))
  | KCross => negb (oN_eqb (e_line e S0) (e_line e S1) && oN_eqb (e_line e S0) (e_line e S2) &&
                    oN_eqb (e_line e S2) (e_line e S3))
  | _ => false
  end.
(* 280-307 *)
Definition bcount (b : bool) : nat := (if b then 1 else 0)%nat.
Definition misaligned_join (e : elem) : bool :=
  match e_kind e with
  | KSwitch =>
      joins_lines e &&
      let c := (bcount (e_rise e S0) + bcount (e_rise e S1) + bcount (e_rise e S2))%nat in
      if e_rise e S0 then negb (Nat.eqb c 1%nat) else negb (Nat.eqb c 2%nat)
  | KCross =>
      joins_lines e &&
      (negb (Nat.eqb (bcount (e_rise e S0) + bcount (e_rise e S1) + bcount (e_rise e S2) +
                      bcount (e_rise e S3))%nat 2%nat) ||
       Bool.eqb (e_rise e S2) (e_rise e S3))
  | _ => false
  end.
(* 309-388 get_node *)
Definition get_node_e (e : elem) (i : nat) (rising : bool) (neigh : nat) : res node :=
  match e_kind e with
  | KEnd | KUndirected => Ok (i, if rising then Top else Bot)
  | KTrack => Ok (i, Top)
  | KSimple =>
      if ty_between LINE_SWITCH LINE_SWITCH (e_type e) && at_side e S1 neigh
      then let swap := Bool.eqb (e_rise e S0) (e_rise e S1) in
           Ok (i, if swap then (if e_rise e S1 then Bot else Top)
                  else (if e_rise e S1 then Top else Bot))
      else Ok (i, if rising then Top else Bot)
  | KSwitch =>
      let is_stem := at_side e S1 neigh in
      let is_branch := at_side e S2 neigh in
      let stem_misalign := negb (oN_eqb (e_line e S1) (e_line e S0)) &&
                           Bool.eqb (e_rise e S0) (e_rise e S1) in
      let branch_misalign := negb (oN_eqb (e_line e S2) (e_line e S0)) &&
                             Bool.eqb (e_rise e S0) (e_rise e S2) in
      let swap := joins_lines e && misaligned_join e &&
                  ((is_stem && stem_misalign) || (is_branch && branch_misalign)) in
      Ok (i, if swap then (if rising then Bot else Top) else (if rising then Top else Bot))
  | KCross =>
      let mis_join := joins_lines e && misaligned_join e in
      if at_side e S0 neigh then Ok (i, if rising then Lft else Rgt)
      else if at_side e S1 neigh then
        let swap := mis_join && (negb (oN_eqb (e_line e S1) (e_line e S0)) &&
                                 Bool.eqb (e_rise e S0) (e_rise e S1)) in
        Ok (i, if swap then (if e_rise e S1 then Rgt else Lft)
               else (if e_rise e S1 then Lft else Rgt))
      else if at_side e S2 neigh then Ok (i, if rising then Top else Bot)
      else if at_side e S3 neigh then
        let swap := mis_join && (negb (oN_eqb (e_line e S3) (e_line e S2)) &&
                                 Bool.eqb (e_rise e S2) (e_rise e S3)) in
        Ok (i, if swap then (if e_rise e S3 then Bot else Top)
               else (if e_rise e S3 then Top else Bot))
      else Throw
  end.
(* get_node( *ptr, rising, this_ptr): a null pointer is dereferenced *)
Definition get_node (g : graph) (p : option nat) (rising : bool) (this : nat) : res node :=
  match p with
  | None => UB
  | Some i => do e <- get_e g i; get_node_e e i rising this
  end.

(* next_node_ and branch_node_ of the nodes of an element *)
Definition links : Type := slot -> option node * option node.
Definition no_links : links := fun _ => (None, None).
Definition slot_eqb (a b : slot) : bool :=
  match a, b with Top, Top | Bot, Bot | Lft, Lft | Rgt, Rgt => true | _, _ => false end.
Definition set_next (s : slot) (n : node) (l : links) : links :=
  fun s' => if slot_eqb s' s then (Some n, snd (l s')) else l s'.
Definition set_branch (s : slot) (n : node) (l : links) : links :=
  fun s' => if slot_eqb s' s then (fst (l s'), Some n) else l s'.

(* the lambda connect of 468-472 and 505-509 *)
Definition connect_side (g : graph) (this : nat) (e : elem) (s : side) (rising : bool) : res node :=
  get_node g (e_nb e s (negb rising)) (negb rising) this.

(* 406-560 connect_nodes(element) *)
Definition connect_elem (g : graph) (i : nat) (e : elem) : res links :=
  match e_kind e with
  | KEnd =>
      if negb (e_rise e S0)
      then do n <- get_node g (e_nb e S0 true) (negb (e_rise e S0)) i; Ok (set_next Top n no_links)
      else do n <- get_node g (e_nb e S0 false) (negb (e_rise e S0)) i; Ok (set_next Bot n no_links)
  | KSimple =>
      if ty_between LINE_SWITCH LINE_SWITCH (e_type e) then
        if e_rise e S0 then
          do t <- get_node g (if e_rise e S1 then e_nb e S1 false else e_nb e S1 true)
                             (negb (e_rise e S1)) i;
          do b <- get_node g (e_nb e S0 false) false i;
          Ok (set_next Bot b (set_next Top t no_links))
        else
          do t <- get_node g (e_nb e S0 true) true i;
          do b <- get_node g (if e_rise e S1 then e_nb e S1 false else e_nb e S1 true)
                             (negb (e_rise e S1)) i;
          Ok (set_next Bot b (set_next Top t no_links))
      else
        do l <- match e_nb e S0 true with
                | Some _ => do t <- get_node g (e_nb e S0 true) true i; Ok (set_next Top t no_links)
                | None => Ok no_links
                end;
        match e_nb e S1 false with
        | Some _ => do b <- get_node g (e_nb e S1 false) false i; Ok (set_next Bot b l)
        | None => Ok l
        end
  | KUndirected =>
      do l <- match e_nb e S0 true with
              | Some _ => do t <- get_node g (e_nb e S0 true) true i; Ok (set_next Top t no_links)
              | None => Ok no_links
              end;
      match e_nb e S1 false with
      | Some _ => do b <- get_node g (e_nb e S1 false) false i; Ok (set_next Bot b l)
      | None => Ok l
      end
  | KSwitch =>
      do start <- connect_side g i e S0 (e_rise e S0);
      do stem <- connect_side g i e S1 (e_rise e S1);
      do branch <- connect_side g i e S2 (e_rise e S2);
      if e_rise e S0
      then Ok (set_branch Top branch (set_next Top stem (set_next Bot start no_links)))
      else Ok (set_branch Bot branch (set_next Bot stem (set_next Top start no_links)))
  | KTrack =>
      do n <- get_node g (e_nb e S0 true) (e_rise e S0) i; Ok (set_next Top n no_links)
  | KCross =>
      do sl <- connect_side g i e S0 (e_rise e S0);
      do el <- connect_side g i e S1 (e_rise e S1);
      do sr <- connect_side g i e S2 (e_rise e S2);
      do er <- connect_side g i e S3 (e_rise e S3);
      let l := if e_rise e S0 then set_next Lft el (set_next Rgt sl no_links)
               else set_next Rgt el (set_next Lft sl no_links) in
      let l := if e_rise e S2 then set_next Top er (set_next Bot sr l)
               else set_next Bot er (set_next Top sr l) in
      let l := if e_arc_lr e
               then set_branch (if e_rise e S2 then Bot else Top) sl
                      (set_branch (if e_rise e S0 then Lft else Rgt) er l)
               else l in
      let l := if e_arc_rl e
               then set_branch (if e_rise e S0 then Rgt else Lft) sr
                      (set_branch (if e_rise e S2 then Top else Bot) el l)
               else l in
      Ok l
  end.

Fixpoint connect_from (g : graph) (i : nat) (es : list elem) : res (list links) :=
  match es with
  | [] => Ok []
  | e :: es => do l <- connect_elem g i e; do r <- connect_from g (S i) es; Ok (l :: r)
  end.
(* 562-566 connect_nodes(graph), first loop *)
Definition connect_nodes (g : graph) : res (list links) := connect_from g O (g_elems g).

Definition next_node (ls : list links) (n : node) : option node :=
  match nth_error ls (fst n) with Some l => fst (l (snd n)) | None => None end.
Definition branch_node (ls : list links) (n : node) : option node :=
  match nth_error ls (fst n) with Some l => snd (l (snd n)) | None => None end.
