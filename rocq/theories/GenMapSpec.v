(* Mapping the infrastructure data on OSM data, without reference to how the
   program goes about it. *)
From Coq Require Import Ascii String List QArith NArith DecimalString Permutation.
From Verif Require Import Base GenOsmModel GenOsmSpec GenFindModel GenMapModel.
Import ListNotations.
Local Open Scope list_scope.
Local Open Scope nat_scope.

(* ---- cutting the data into lines ---- *)
(* the sections of one line, in their order *)
Inductive of_line {K} (r : string) : list (section K) -> list (section K) -> Prop :=
| of_line_nil : of_line r [] []
| of_line_take s l l' : sc_line s = r -> of_line r l l' -> of_line r (s :: l) (s :: l')
| of_line_skip s l l' : sc_line s <> r -> of_line r l l' -> of_line r (s :: l) l'.
(* the stations that have sections of the line, each with these, in their order *)
Inductive cut_to {K} (r : string) : list (station K) -> list (station K) -> Prop :=
| cut_nil : cut_to r [] []
| cut_take st secs l l' : of_line r (st_secs st) secs -> secs <> [] -> cut_to r l l' ->
    cut_to r (st :: l) (mkst (st_name st) secs :: l')
| cut_skip st l l' : of_line r (st_secs st) [] -> cut_to r l l' -> cut_to r (st :: l) l'.

(* ---- placing elements ---- *)
(* what there is to place: the kind, the kilometrage, what is reported if no place
   is found, and the tags of the node *)
Record job : Type := mkjob { j_kind : kind; j_km : Q; j_text : string; j_tags : list tag }.
Definition element_tags (subtype : string) (more : list tag) : list tag :=
  [("type", "element"); ("subtype", subtype)]%string ++ more.
Definition falling_tag : tag := ("direction", "falling")%string.
Definition rising_tag : tag := ("direction", "rising")%string.
Definition name_tag (e : elem) : tag := ("id"%string, e_name e).
(* an element that is reported by its name, or by its kilometrage *)
Definition named (kd : kind) (subtype : string) (more : list tag) (e : elem) : job :=
  mkjob kd (e_km e) (e_name e) (element_tags subtype (more ++ [name_tag e])).
Definition plain (kd : kind) (subtype : string) (more : list tag) (e : elem) : job :=
  mkjob kd (e_km e) (e_text e) (element_tags subtype more).

(* the elements of a node of the track plan, but for main signals and switches *)
Definition jobs (k : knoten) : list job :=
  map (plain LineSwitch "line_switch" []) (k_line_switch k) ++
  map (plain KilometrageJump "km_jump" []) (k_km_jump k) ++
  map (plain Border "border" []) (k_border k) ++
  map (plain Bumper "bumper" []) (k_bumper k) ++
  map (named Tunnel "tunnel" []) (k_tunnel k) ++
  map (named TrackEnd "track_end" []) (k_track_end k) ++
  map (named ProtectionSignal "ps" [falling_tag]) (k_prot_f k) ++
  map (named ProtectionSignal "ps" [rising_tag]) (k_prot_s k) ++
  map (named ApproachSignal "as" [falling_tag]) (k_app_f k) ++
  map (named ApproachSignal "as" [rising_tag]) (k_app_s k) ++
  map (named Crosses "cross" []) (k_cross k) ++
  map (named Halt "hlt" [falling_tag]) (k_gz_f k ++ k_rz_f k) ++
  map (named Halt "hlt" [rising_tag]) (k_gz_s k ++ k_rz_s k) ++
  map (fun e => plain SpeedLimits "spl" [falling_tag; ("speed"%string, snd e)] (fst e)) (k_speed_f k) ++
  map (fun e => plain SpeedLimits "spl" [rising_tag; ("speed"%string, snd e)] (fst e)) (k_speed_s k) ++
  map (plain Eotds "eotd" [falling_tag]) (k_route_end_f k ++ k_signal_end_f k) ++
  map (plain Eotds "eotd" [rising_tag]) (k_route_end_s k ++ k_signal_end_s k) ++
  map (fun e => plain Slopes "slope" [("rising"%string, snd (fst e)); ("falling"%string, snd e)] (fst (fst e))) (k_slope k).
(* the main signals and switches that are left over *)
Definition left_over (falling rising switches : list elem) : list job :=
  map (named MainSignal "ms" [falling_tag]) falling ++
  map (named MainSignal "ms" [rising_tag]) rising ++
  map (named Switches "simple_switch" []) switches.

(* a decimal number with no superfluous digits *)
Definition decimal (n : N) : string := NilZero.string_of_uint (N.to_uint n).

(* jobs in the order in which they were tried, each with the new node if a place
   was found *)
Definition outcome : Type := list (job * option node).
Definition placed (out : outcome) : list node := flat_map (fun x => match snd x with Some n => [n] | None => [] end) out.
Definition not_placed (out : outcome) : list (kind * string) :=
  flat_map (fun x => match snd x with Some _ => [] | None => [(j_kind (fst x), j_text (fst x))] end) out.
(* l' is the list l of halts or signals with the placed ones of some kinds added *)
Definition entered (kinds : list kind) (out : outcome) (l l' : list (string * place)) : Prop :=
  forall id p, In (id, p) l' <-> In (id, p) l \/
    exists j n, In (j, Some n) out /\ In (j_kind j) kinds /\ id = n_id n /\ p = mkplace (j_text j) (n_lat n) (n_lon n).

(* the jobs are tried one by one, each in the data as it is by then; a search that
   finds a node for the kilometrage leads to a new node next to it, with the next
   id *)
Inductive tried (hav : node -> node -> Q) (fuel : nat) : osm -> N -> list (anchors * job) -> outcome -> osm -> Prop :=
| tried_nil o c : tried hav fuel o c [] [] o
| tried_missing o c order j l out o' : find_best_osm_node hav fuel o order (j_km j) = Ok None ->
    tried hav fuel o c l out o' -> tried hav fuel o c ((order, j) :: l) ((j, None) :: out) o'
| tried_placed o c order j l out o1 o' ref new : find_best_osm_node hav fuel o order (j_km j) = Ok (Some ref) ->
    n_tags new = j_tags j -> n_id new = decimal (c + 1) -> n_lat new = n_lat ref -> n_lon new = n_lon ref ->
    o_nodes o1 = o_nodes o ++ [new] -> o_rels o1 = o_rels o ->
    Forall2 (fun w w1 => w_tags w1 = w_tags w /\ w_id w1 = w_id w /\ beside (n_id new) (n_id ref) (w_nd w) (w_nd w1)) (o_ways o) (o_ways o1) ->
    tried hav fuel o1 (c + 1) l out o' -> tried hav fuel o c ((order, j) :: l) ((j, Some new) :: out) o'.

(* nds' is nds with ids from new put in *)
Inductive grown (new : list string) : list string -> list string -> Prop :=
| grown_nil : grown new [] []
| grown_keep x l l' : grown new l l' -> grown new (x :: l) (x :: l')
| grown_new x l l' : In x new -> grown new l l' -> grown new l (x :: l').
Definition same_ends (l l' : list string) : Prop := hd_error l = hd_error l' /\ hd_error (rev l) = hd_error (rev l').
(* new lies on the ways on which ref lies *)
Definition same_ways (o : osm) (new ref : string) : Prop := forall w, In w (o_ways o) -> (In new (w_nd w) <-> In ref (w_nd w)).

(* the ids above c are free *)
Definition unused (o : osm) (c : N) : Prop := forall k, (c < k)%N ->
  (forall n, In n (o_nodes o) -> n_id n <> decimal k) /\ forall w, In w (o_ways o) -> ~ In (decimal k) (w_nd w).

(* at most one way passes the node *)
Definition on_one_way (o : osm) (id : string) : Prop := forall i j wi wj,
  nth_error (o_ways o) i = Some wi -> nth_error (o_ways o) j = Some wj -> In id (w_nd wi) -> In id (w_nd wj) -> i = j.

(* ---- identifying main signals and switches ---- *)
(* a Go map may be ranged over in any order *)
Definition reorders (f : shuffle) : Prop := forall m, Permutation (f m) m.
(* a node of the track plan with an order for each of its main signals *)
Definition ordered (x : knoten * list shuffle * list shuffle) : Prop :=
  let '(k, f, s) := x in Forall reorders f /\ Forall reorders s /\
    List.length f = List.length (k_main_f k) /\ List.length s = List.length (k_main_s k).
Definition knoten_of (x : knoten * list shuffle * list shuffle) : knoten := fst (fst x).
Definition no_switches (k : knoten) : Prop := k_switch k = [] /\ k_stem k = [] /\ k_left k = [] /\ k_right k = [].
Definition one_signal (k : knoten) : Prop := List.length (k_main_f k) <= 1 /\ List.length (k_main_s k) <= 1.
(* the node is anchored at the kilometrage *)
Definition anchored (o : osm) (m : places_map) (km : Q) (n : node) : Prop :=
  exists k l i, In (k, l) m /\ (k == km)%Q /\ In i l /\ nth_error (o_nodes o) i = Some n.
(* the node stands for the main signal *)
Definition is_main_signal (s : elem) (n : node) : Prop :=
  n_tags n = element_tags "ms" [falling_tag; name_tag s] \/ n_tags n = element_tags "ms" [rising_tag; name_tag s].
(* no place has two kilometrages *)
Definition consistent (o : osm) (m : places_map) : Prop := forall k k' n n',
  anchored o m k n -> anchored o m k' n' -> n_lat n = n_lat n' -> n_lon n = n_lon n' -> (k == k')%Q.
(* the number of anchored nodes *)
Definition anchor_total (m : places_map) : nat := List.length (flat_map snd m).
(* a multiple of a thousandth that no other one is closer to *)
Definition to_thousandths (q r : Q) : Prop :=
  (exists z, r = (z # 1000)%Q) /\ (r - (1 # 2000) <= q)%Q /\ (q <= r + (1 # 2000))%Q.
(* reported as missing, under its kilometrage or that rounded to three digits *)
Definition reported (s : elem) (l : list elem) : Prop :=
  exists e, In e l /\ e_name e = e_name s /\ (e_km e = e_km s \/ to_thousandths (e_km s) (e_km e)).

(* a node of the OSM data that is a switch of this name *)
Definition switch_node (name : string) (n : node) : Prop :=
  first_tag "railway" "switch" (n_tags n) /\ (first_tag "ref" name (n_tags n) \/ first_tag "name" name (n_tags n)).
(* the switch is anchored and has a node of its own beside *)
Definition placed_switch (o : osm) (m : places_map) (s : elem) : Prop :=
  exists n new, anchored o m (e_km s) n /\ switch_node (e_name s) n /\
    In new (o_nodes o) /\ n_tags new = element_tags "simple_switch" [name_tag s] /\ n_lat new = n_lat n /\ n_lon new = n_lon n /\
    same_ways o (n_id new) (n_id n).

(* a name without its blanks *)
Inductive without_blanks : string -> string -> Prop :=
| wb_nil : without_blanks "" ""
| wb_blank s t : without_blanks s t -> without_blanks (String.String " " s) t
| wb_char c s t : c <> " "%char -> without_blanks s t -> without_blanks (String.String c s) (String.String c t).
(* a node of the OSM data that is a signal of this name *)
Definition signal_node (name : string) (n : node) : Prop :=
  first_tag "railway" "signal" (n_tags n) /\ exists v, first_tag "ref" v (n_tags n) /\ without_blanks v name.
(* it is the only one *)
Definition identified (o : osm) (s : elem) (n : node) : Prop :=
  exists pre post, o_nodes o = pre ++ n :: post /\ signal_node (e_name s) n /\ Forall (fun m => ~ signal_node (e_name s) m) (pre ++ post).
(* the main signals of a line with their directions, falling first *)
Definition signals_of (l : list (knoten * list shuffle * list shuffle)) : list (elem * bool) :=
  flat_map (fun x => map (fun s => (s, true)) (k_main_f (knoten_of x)) ++ map (fun s => (s, false)) (k_main_s (knoten_of x))) l.
(* signals at one place have one kilometrage *)
Definition agreeing (o : osm) (l : list (elem * bool)) : Prop := forall s f s' f' n n', In (s, f) l -> In (s', f') l ->
  identified o s n -> identified o s' n' -> n_lat n = n_lat n' -> n_lon n = n_lon n' -> (e_km s == e_km s')%Q.
