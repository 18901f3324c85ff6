(* Vocabulary for the exported map; only the records of OsmModel (the infrastructure
   as given, the document as written) and the geometry of GeoSpec are used. *)
From Coq Require Import Permutation String.
From Verif Require Import Base GeoModel GeoSpec OsmModel.

Section infrastructure.
  Variable iss : osm_infra.
  Notation n := (List.length (elements iss)).
  Notation m := (List.length (stations iss)).

  (* an element has another one as a neighbour; two elements are linked *)
  Definition has_neighbour (a b : N) : Prop :=
    exists el, nth_error (elements iss) (N.to_nat a) = Some el /\ In (Some b) (neighbours el).
  Definition linked (a b : N) : Prop := has_neighbour a b \/ has_neighbour b a.
  (* the element is in the station with this number *)
  Definition in_station (e : N) (s : nat) : Prop :=
    exists st, nth_error (stations iss) s = Some st /\ In e (station_elements st).
  Definition same_station (a b : N) : Prop := exists s, in_station a s /\ in_station b s.

  (* how many neighbours are noted in the whole infrastructure *)
  Definition slots : nat := list_sum (map (fun el => List.length (neighbours el)) (elements iss)).

  (* Every element is in exactly one station, every element and every station has a
     place, neighbours are elements, there is a station, and the numbers of the
     document fit into 32 bits. *)
  Record complete : Prop := {
    every_element : Permutation (concat (map station_elements (stations iss))) (map N.of_nat (seq 0 n));
    element_places : List.length (element_positions iss) = n;
    station_places : List.length (station_positions iss) = m;
    known_neighbours : forall a b, has_neighbour a b -> (b < N.of_nat n)%N;
    some_station : m <> 0%nat;
    room : (N.of_nat n + N.of_nat m + 101 * N.of_nat slots < 2 ^ 32)%N }.

  (* the node of an element, the node of a station *)
  Definition shows_element (x : xml) (e : nat) : Prop :=
    exists el p, nth_error (elements iss) e = Some el /\ nth_error (element_positions iss) e = Some p /\
      x = Node (N.of_nat e) p
            [("type", Text "element"); ("subtype", Text (type_name el)); ("id", Number (N.of_nat e));
             ("direction", Text (if rising el then "rising" else "falling"))]%string.
  Definition shows_station (x : xml) (s : nat) : Prop :=
    exists st p, nth_error (stations iss) s = Some st /\ nth_error (station_positions iss) s = Some p /\
      x = Node (N.of_nat (n + s)) p
            [("type", Text "station"); ("id", Number (N.of_nat s)); ("name", Text (ds100 st))]%string.
  (* the node of a point of a curve, a way *)
  Definition shows_point (x : xml) (p : nat * point) : Prop :=
    x = Node (N.of_nat (fst p)) (snd p) [("type", Text "interpolation")]%string.
  Definition shows_way (x : xml) (w : nat * (N * N)) : Prop :=
    x = Way (N.of_nat (fst w)) [fst (snd w); snd (snd w)] [("railway", Text "rail")]%string.

  (* ---- how curves are drawn ---- *)
  Local Open Scope R_scope.
  (* where the element is *)
  Definition placed (e : N) (p : point) : Prop := nth_error (element_positions iss) (N.to_nat e) = Some p.
  (* the track reaches e from e', when it is followed towards another element *)
  Definition comes_from (e towards e' : N) : Prop :=
    exists el l1 l2, nth_error (elements iss) (N.to_nat e) = Some el /\
      neighbours el = l1 ++ Some e' :: l2 /\ e' <> towards /\
      (forall x, In (Some x) l2 -> x = towards).
End infrastructure.

(* two ends, in any order *)
Definition ends (a b : N) (c : N * N) : Prop := c = (a, b) \/ c = (b, a).
(* exactly one entry of the list has these ends *)
Definition once (a b : N) (l : list (N * N)) : Prop :=
  exists l1 c l2, l = l1 ++ c :: l2 /\ ends a b c /\ (forall d, In d (l1 ++ l2) -> ~ ends a b d).

(* the steps along a list of stops *)
Fixpoint steps_along (l : list N) : list (N * N) :=
  match l with
  | a :: ((b :: _) as l') => (a, b) :: steps_along l'
  | _ => []
  end.
(* the way from a to b over the nodes first, first + 1, ..., first + 49 *)
Definition detour (first : nat) (a b : N) : list (N * N) :=
  steps_along (a :: map N.of_nat (seq first 50) ++ [b]).

(* ---- curves in space ---- *)
Definition mix (t : R) (u v : vec) : vec := plus (times (1 - t) u) (times t v).
(* the construction of de Casteljau *)
Definition casteljau (a b c d : vec) (t : R) : vec :=
  let ab := mix t a b in let bc := mix t b c in let cd := mix t c d in
  mix t (mix t ab bc) (mix t bc cd).
(* the place shown for a point in space: its longitude is the direction of the point,
   its latitude is that of the point of the globe at the same height; a degree has the
   given size *)
Definition shown_at (degree : R) (v : vec) (p : point) : Prop :=
  (sin (lat p * degree) = vz v /\ - PI / 2 <= lat p * degree <= PI / 2 /\
   - PI < lon p * degree <= PI /\
   exists r, 0 <= r /\ r * cos (lon p * degree) = vx v /\ r * sin (lon p * degree) = vy v)%R.
(* the points are drawn along the curve that leads from p to q and leaves and arrives
   towards the control points a and b *)
Definition drawn (degree : R) (p a b q : point) (pts : list point) : Prop :=
  let at_ g := at_degrees degree (lon g) (lat g) in
  Forall2 (fun k x => shown_at degree (casteljau (at_ p) (at_ a) (at_ b) (at_ q) ((2 * INR k + 1) / 100)) x)
    (seq 0 50) pts.
(* all of them, the first over the nodes first, ..., first + 49, the next over the
   fifty nodes after these *)
Fixpoint detours (first : nat) (l : list (N * N)) : list (N * N) :=
  match l with
  | [] => []
  | c :: l => detour first (fst c) (snd c) ++ detours (first + 50) l
  end.

(* the numbers of the nodes, of the ways, and the nodes that ways name *)
Definition node_numbers (doc : list xml) : list N :=
  flat_map (fun x => match x with Node id _ _ => [id] | Way _ _ _ => [] end) doc.
Definition way_numbers (doc : list xml) : list N :=
  flat_map (fun x => match x with Node _ _ _ => [] | Way id _ _ => [id] end) doc.
Definition named (doc : list xml) : list N :=
  flat_map (fun x => match x with Node _ _ _ => [] | Way _ refs _ => refs end) doc.

(* ---- control points ---- *)
Local Open Scope R_scope.
(* c lies straight ahead when one comes from q and passes p *)
Definition straight_on (q p c : point) : Prop :=
  exists r, 0 <= r /\ lon c = lon p + r * (lon p - lon q) /\ lat c = lat p + r * (lat p - lat q).
(* c lies due north or due south of p, on the other side than q *)
Definition north_or_south (q p c : point) : Prop :=
  lon c = lon p /\ (lat q < lat p -> lat p <= lat c) /\ (lat p <= lat q -> lat c <= lat p).
(* the control point of the curve that leaves e, which is at p, towards another element *)
Definition control (ahead : point -> point -> point -> Prop) (iss : osm_infra) (e towards : N) (p c : point) : Prop :=
  ((forall e', ~ comes_from iss e towards e') /\ c = p) \/
  (exists e' q, comes_from iss e towards e' /\ placed iss e' q /\ ahead q p c).
(* a rectangle of the map *)
Definition in_box (west east south north : R) (p : point) : Prop := west <= lon p <= east /\ south <= lat p <= north.

(* the size of a degree, with the half circle taken as 3.1415 *)
Definition degree : R := 31415 / 10000 / 180.
(* a track that comes from at least a hundredth of a degree to the east or the west is
   continued straight on, any other one due north or south *)
Definition ahead_by_hundredths (q p c : point) : Prop :=
  (1 / 100 <= Rabs (lon p - lon q) -> straight_on q p c) /\
  (Rabs (lon p - lon q) < 1 / 100 -> north_or_south q p c).
