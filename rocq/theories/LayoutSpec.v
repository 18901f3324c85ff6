(* Vocabulary for the statements about places on the map (PropsLayout). *)
From Coq Require Export QArith.
From Coq Require Import Ascii Qabs.
From Verif Require Import Base KssDates StockModel StockSpec LayoutModel.
Local Open Scope Q_scope.

(* ---- the drawing of the rail plan ---- *)
Section Drawing.
  Variable element_of : N -> option nat.         (* the element of a node of the plan *)
  Variable is_track : nat -> bool.
  Variable nodes : list rp_node.                 (* the nodes of all plans, in order *)
  Variable sections : list (list nat).           (* the elements of the sections, rising *)

  (* the node gives coordinates for element e *)
  Definition places (n : rp_node) (e : nat) : Prop :=
    rp_point n = false /\ rp_coord n <> None /\
    exists i, numeral (rp_id n) (Z.of_N i) /\ element_of i = Some e.
  (* these are its coordinates *)
  Definition coordinates (n : rp_node) (p : place) : Prop :=
    exists xt yt, rp_coord n = Some (xt, yt) /\ number xt (x_ p) /\ number yt (y_ p).
  (* the point that is i of n + 1 steps on the way from p to q *)
  Definition on_the_way (p q : place) (i n : nat) : place :=
    mk_place (x_ p + (x_ q - x_ p) * (inject_Z (Z.of_nat i) / inject_Z (Z.of_nat (S n))))
             (y_ p + (y_ q - y_ p) * (inject_Z (Z.of_nat i) / inject_Z (Z.of_nat (S n)))).

  (* where the plan draws an element *)
  Inductive drawn : nat -> place -> Prop :=
  (* the last node that gives coordinates counts *)
  | drawn_in_plan e before n after p :
      nodes = (before ++ n :: after)%list -> places n e -> coordinates n p ->
      (forall m, In m after -> ~ places m e) -> is_track e = false -> drawn e p
  (* without coordinates: at the largest number there is *)
  | drawn_nowhere e :
      (forall m, In m nodes -> ~ places m e) -> is_track e = false -> drawn e unplaced
  (* elements on the track lie between the ends of their section *)
  | drawn_between e first rest p q i :
      In (first :: rest) sections -> drawn first p -> drawn (last (first :: rest) first) q ->
      nth_error (filter is_track (first :: rest)) i = Some e ->
      drawn e (on_the_way p q i (length (first :: rest))).

  (* every node with coordinates has a readable number *)
  Definition numbered_nodes : Prop :=
    forall n, In n nodes -> rp_point n = false -> rp_coord n <> None ->
      exists i, numeral (rp_id n) (Z.of_N i) /\ (i < 2 ^ 64)%N.
  (* sections begin and end with elements that are not on the track, and no
     element on the track lies in two sections or twice in one *)
  Definition sections_ok : Prop :=
    (forall first rest, In (first :: rest) sections ->
       is_track first = false /\ is_track (last (first :: rest) first) = false) /\
    NoDup (flat_map (filter is_track) sections).
End Drawing.
(* numbers that double can represent *)
(* the largest number of the type double *)
Definition largest_double : Q := inject_Z (2 ^ 1024 - 2 ^ 971).
Definition fits (p : place) : Prop := x_ p <= largest_double /\ y_ p <= largest_double.
(* element e is placed at q *)
Definition placed_at (l : layout) (e : nat) (q : place) : Prop := nth_error l e = Some q.

(* ---- the places of the stations ---- *)
(* a place on earth that counts as given *)
Definition located (g : gps) : Prop :=
  - (360) <= lon_ g <= 360 /\ - (360) <= lat_ g <= 360.
Definition same_gps (g h : gps) : Prop := lon_ g == lon_ h /\ lat_ g == lat_ h.

Section Stations.
  Variable borders : nat -> list nat.            (* the neighbours at the borders of a station *)
  Variable coords : list gps.                    (* the given places *)
  Definition given (s : nat) (g : gps) : Prop := nth_error coords s = Some g /\ located g.

  (* from s to t in k steps over borders, past stations without place *)
  Inductive way : nat -> nat -> nat -> Prop :=
  | way_one s t : In t (borders s) -> way 1 s t
  | way_on k s t u : In t (borders s) -> ~ (exists g, given t g) -> way k t u -> way (S k) s u.
  (* t has a place, and the shortest way to it has k steps *)
  Definition near (s t k : nat) : Prop :=
    t <> s /\ (exists g, given t g) /\ way k s t /\ forall j, way j s t -> (k <= j)%nat.
  (* the list has exactly the stations near s, each once, with place and distance *)
  Definition surroundings (s : nat) (l : list (nat * gps * nat)) : Prop :=
    NoDup (map (fun x => fst (fst x)) l) /\
    (forall t g k, In (t, g, k) l -> given t g) /\
    (forall t k, near s t k <-> exists g, In (t, g, k) l).

  Definition sum (l : list Q) : Q := fold_right Qplus 0 l.
  Definition farthest (l : list (nat * gps * nat)) : nat :=
    fold_right (fun x m => Nat.max (snd x) m) 0%nat l.
  (* the nearer the heavier: the farthest counts 1, every step less counts one
     more; a direct neighbour at more than four borders counts double *)
  Definition weight_of (s : nat) (l : list (nat * gps * nat)) (x : nat * gps * nat) : Q :=
    let w := inject_Z (Z.of_nat (farthest l)) + 1 - inject_Z (Z.of_nat (snd x)) in
    if Nat.eqb (snd x) 1 && Nat.ltb 4 (count_occ Nat.eq_dec (borders s) (fst (fst x)))
    then 2 * w else w.
  Definition mean (s : nat) (l : list (nat * gps * nat)) (g : gps) : Prop :=
    let W := sum (map (weight_of s l) l) in
    lon_ g * W == sum (map (fun x => weight_of s l x * lon_ (snd (fst x))) l) /\
    lat_ g * W == sum (map (fun x => weight_of s l x * lat_ (snd (fst x))) l) /\
    ~ W == 0.
End Stations.

(* ---- the file of coordinates ---- *)
(* the text gives v degrees; nothing gives -361, which no place has *)
Definition degrees (t : text) (v : Q) : Prop := t = [] /\ v == - (361) \/ t <> [] /\ number t v.
Definition row_gives (r : coord_row) (g : gps) : Prop :=
  degrees (row_lon r) (lon_ g) /\ degrees (row_lat r) (lat_ g).
