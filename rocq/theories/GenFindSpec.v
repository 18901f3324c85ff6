(* Following tracks in OSM data, without reference to how the program walks. *)
From Coq Require Import String List QArith.
From Verif Require Import GenOsmModel.
Import ListNotations.
Local Open Scope list_scope.

(* n is the node with this id: the first one *)
Definition node_of (o : osm) (id : string) (n : node) : Prop :=
  exists pre post, o_nodes o = pre ++ n :: post /\ n_id n = id /\ Forall (fun m => n_id m <> id) pre.
(* a and b are neighbours in a list of nodes; in some way *)
Definition next_in (nds : list string) (a b : string) : Prop :=
  exists pre post, nds = pre ++ a :: b :: post \/ nds = pre ++ b :: a :: post.
Definition neighbours (o : osm) (a b : string) : Prop := exists w, In w (o_ways o) /\ next_in (w_nd w) a b.
(* exactly k ways pass the node *)
Definition ways_through (o : osm) (id : string) (k : nat) : Prop :=
  exists places, NoDup places /\ List.length places = k /\
    forall i, In i places <-> exists w, nth_error (o_ways o) i = Some w /\ In id (w_nd w).

(* the nodes visited from a start on, the last one first, each a neighbour of the
   one before, together with the length of the walk; nobody goes on from a node
   at which the distance is reached *)
Inductive trail (hav : node -> node -> Q) (o : osm) (dist : Q) : list string -> Q -> Prop :=
| trail_start a : trail hav o dist [a] 0
| trail_step a b na nb l d : trail hav o dist (a :: l) d -> (d < dist)%Q -> neighbours o a b ->
    node_of o a na -> node_of o b nb -> trail hav o dist (b :: a :: l) (d + hav na nb).
(* nobody turns round *)
Definition straight (l : list string) : Prop := forall pre a b c post, l = pre ++ a :: b :: c :: post -> a <> c.

(* every way has two nodes or more and passes none of them twice *)
Definition simple_ways (o : osm) : Prop := forall w, In w (o_ways o) -> NoDup (w_nd w) /\ (2 <= List.length (w_nd w))%nat.
(* no piece of track belongs to two ways *)
Definition separate_ways (o : osm) : Prop := forall i j wi wj a b, i <> j ->
  nth_error (o_ways o) i = Some wi -> nth_error (o_ways o) j = Some wj -> next_in (w_nd wi) a b -> ~ next_in (w_nd wj) a b.
(* every node of a way is there *)
Definition complete (o : osm) : Prop := forall w id, In w (o_ways o) -> In id (w_nd w) -> exists n, node_of o id n.
(* ways meet at their ends *)
Definition meet_at_ends (o : osm) : Prop := forall i j wi wj id, i <> j ->
  nth_error (o_ways o) i = Some wi -> nth_error (o_ways o) j = Some wj -> In id (w_nd wi) -> In id (w_nd wj) ->
  exists l, w_nd wi = id :: l \/ w_nd wi = l ++ [id].

(* following the track from n for the distance, unless it ends or forks before:
   the nodes visited after n, the last one first, the node reached and the length *)
Definition run (hav : node -> node -> Q) (o : osm) (dist : Q) (n : string) (l : list string) (e : string) (d : Q) : Prop :=
  trail hav o dist (l ++ [n]) d /\ hd_error (l ++ [n]) = Some e /\
  ((dist <= d)%Q \/ exists k, k <> 2%nat /\ ways_through o e k).
(* in both directions *)
Definition both_ends (hav : node -> node -> Q) (o : osm) (dist : Q) (n : string) (e1 : string) (d1 : Q) (e2 : string) (d2 : Q) : Prop :=
  exists l1 l2, run hav o dist n l1 e1 d1 /\ run hav o dist n l2 e2 d2 /\ straight (l1 ++ n :: rev l2).
(* from this node the track goes on in two directions or it ends: one way passes
   it, or one ends where another one begins *)
Definition usable (o : osm) (id : string) : Prop :=
  ways_through o id 1 \/
  ways_through o id 2 /\ exists i j wi wj l1 l2, i <> j /\ nth_error (o_ways o) i = Some wi /\ nth_error (o_ways o) j = Some wj /\
    w_nd wi = l1 ++ [id] /\ w_nd wj = id :: l2.

(* the node two searches agree on, given the ends of both with their lengths: one
   that is an end of both ... *)
Definition common_end (o : osm) (ends1 ends2 : list (string * Q)) (m : node) : Prop :=
  exists e d d', In (e, d) ends1 /\ In (e, d') ends2 /\ node_of o e m.
(* ... and if there is none, of the two ends closest to each other the one whose
   length is closer to what was wanted *)
Definition off (a b : Q) : Q := if Qlt_le_dec a b then (b - a)%Q else (a - b)%Q.
Definition closest_ends (hav : node -> node -> Q) (o : osm) (dist1 dist2 : Q) (ends1 ends2 : list (string * Q)) (m : node) : Prop :=
  (forall e d d', In (e, d) ends1 -> In (e, d') ends2 -> False) /\
  exists a da na b db nb, In (a, da) ends1 /\ In (b, db) ends2 /\ node_of o a na /\ node_of o b nb /\
    (forall x dx nx y dy ny, In (x, dx) ends1 -> In (y, dy) ends2 -> node_of o x nx -> node_of o y ny -> (hav na nb <= hav nx ny)%Q) /\
    ((off da dist1 <= off db dist2)%Q /\ m = na \/ (off db dist2 < off da dist1)%Q /\ m = nb).
(* the node the program chooses: the last case is a slip, an end of the first
   search in place of the end of the second one *)
Definition chosen (hav : node -> node -> Q) (o : osm) (dist1 dist2 : Q) (u1 w1 u2 w2 : string * Q) (m : node) : Prop :=
  common_end o [u1; w1] [u2; w2] m \/ closest_ends hav o dist1 dist2 [u1; w1] [u2; w2] m \/
  (off (snd w2) dist2 < off (snd u1) dist1)%Q /\ node_of o (fst w1) m /\
  (forall e d d', In (e, d) [u1; w1] -> In (e, d') [u2; w2] -> False) /\
  exists na nb, node_of o (fst u1) na /\ node_of o (fst w2) nb /\
    (forall x dx nx y dy ny, In (x, dx) [u1; w1] -> In (y, dy) [u2; w2] -> node_of o x nx -> node_of o y ny -> (hav na nb <= hav nx ny)%Q).

(* an anchor is a kilometrage with its nodes; n is the one that counts *)
Definition anchor_is (a : Q * list node) (n : node) : Prop := exists l, snd a = n :: l.
Definition good (o : osm) (a : Q * list node) : Prop := exists n, anchor_is a n /\ usable o (n_id n).
Definition bad (o : osm) (a : Q * list node) : Prop := forall n, anchor_is a n -> ~ usable o (n_id n).
Definition nearer (km : Q) (a b : Q * list node) : Prop := (off (fst a) km <= off (fst b) km)%Q.
Definition far (km : Q) (a : Q * list node) : Prop := ~ (off (fst a) km == 0)%Q.
(* m is what the searches from two anchors lead to *)
Definition from_pair (hav : node -> node -> Q) (o : osm) (km : Q) (a b : Q * list node) (m : node) : Prop :=
  exists na nb, anchor_is a na /\ anchor_is b nb /\ exists da db, (da == off (fst a) km)%Q /\ (db == off (fst b) km)%Q /\
    exists u1 du1 w1 dw1 u2 du2 w2 dw2,
      both_ends hav o da (n_id na) u1 du1 w1 dw1 /\ both_ends hav o db (n_id nb) u2 du2 w2 dw2 /\
      chosen hav o da db (u1, du1) (w1, dw1) (u2, du2) (w2, dw2) m.
