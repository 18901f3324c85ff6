(* Specification vocabulary: a way through a track plan *)
From Coq Require Import List Bool NArith QArith Qabs String.
From Verif Require Import Base TextModel InfraModel InfraSpec StationModel.
Import ListNotations.
Local Open Scope nat_scope.

(* driving along a section, true: rising *)
Definition leg : Type := (nat * bool)%type.
(* the end of the section the leg leads to, and the one it comes from *)
Definition leaves (w : leg) : place := w.
Definition enters (w : leg) : place := (fst w, negb (snd w)).
(* at these devices a course has an entry: switches and crossings with slips *)
Definition switchable (l : list xstation) (p : place) : Prop :=
  exists n, node_at l p n /\
    (In (part_of (sn_name n)) [Toe; Stem; Branch] \/
     exists q m, node_at l q m /\ device m = device n /\ has_slip m).
Definition counts (l : list xstation) (p : place) (k k' : nat) : Prop :=
  (switchable l p /\ k' = S k) \/ (~ switchable l p /\ k' = k).

(* from leg w on, with k entries of the course used up, the way goes over the legs
   ws: straight on or diverging as the course tells where the tracks diverge *)
Inductive follows (l : list xstation) (course : list string) : nat -> leg -> list leg -> Prop :=
| fl_end k w : follows l course k w []
| fl_straight k k' w w' ws n m :
    node_at l (leaves w) n -> node_at l (enters w') m -> device n = device m ->
    straight (part_of (sn_name n)) (part_of (sn_name m)) ->
    (forall q m', node_at l q m' -> device n = device m' -> diverging n m' ->
       nth_error course k = Some "Stamm"%string) ->
    counts l (leaves w) k k' -> follows l course k' w' ws ->
    follows l course k w (w' :: ws)
| fl_diverge k k' w w' ws n m c :
    node_at l (leaves w) n -> node_at l (enters w') m -> device n = device m ->
    diverging n m -> nth_error course k = Some c -> c <> "Stamm"%string ->
    counts l (leaves w) k k' -> follows l course k' w' ws ->
    follows l course k w (w' :: ws).

(* an end of a route: a device that ends a track, or a directed element that stands
   in the direction of the leg *)
Definition at_device (l : list xstation) (p : place) (id : N) : Prop :=
  exists n, node_at l p n /\ sn_id n = id /\ part_of (sn_name n) = Whole.
Definition at_track (l : list xstation) (w : leg) (id : N) (t : tnode) : Prop :=
  exists x, section_at l (fst w) x /\ In t (xs_track x) /\ tn_id t = id /\
            is_directed_track_element (tn_type t) = true /\ tn_rising t = snd w.

(* what a train drives over on the legs of a way *)
Definition line_of (run : nat -> bool -> list node) (arrive : nat -> bool -> node) (ws : list leg)
  : list node :=
  concat (map (fun w => run (fst w) (snd w) ++ [arrive (fst w) (snd w)]) ws).

(* nodes is the part of the way from the start to the end of a route *)
Definition goes (l : list xstation) (g : graph) (run : nat -> bool -> list node)
  (arrive : nat -> bool -> node) (start stop : N) (w : leg) (ws : list leg) (nodes : list node) : Prop :=
  exists dep pre post, dep ++ line_of run arrive (w :: ws) = pre ++ nodes ++ post /\
    ((exists n b, node_at l (enters w) n /\ sn_id n = start /\ is_device g n b /\ dep = [b] /\ pre = []) \/
     (exists t m, at_track l w start t /\ dep = [] /\ List.length pre < List.length (run (fst w) (snd w)) /\
        hd_error nodes = Some m /\ stands_for g t m)) /\
    ((at_device l (leaves (last ws w)) stop /\ post = []) \/
     (exists t m p, at_track l (last ws w) stop t /\
        0 < List.length post <= List.length (run (fst (last ws w)) (snd (last ws w))) /\
        nodes = p ++ [m] /\ stands_for g t m)).

(* the element t of the last leg is the first the way comes to that has its id: the way
   has not been on the last leg before, other than behind t, where it started *)
Definition first_reached (l : list xstation) (start : N) (w : leg) (ws : list leg) (t : tnode) : Prop :=
  (ws = [] -> forall t', at_track l w start t' -> t' = t \/ before (snd w) t' t) /\
  (ws <> [] -> ~ In (last ws w) (removelast ws) /\
     (last ws w = w -> exists t', at_track l w start t' /\ before (snd w) t t')).
(* the route drawn along a way: from its first leg, over it, to its last leg *)
Definition route_drawn (l : list xstation) (x : xroute) (w : leg) (ws : list leg) : Prop :=
  follows l (xr_course x) 0 w ws /\
  (at_device l (enters w) (xr_start x) \/ exists t, at_track l w (xr_start x) t) /\
  (at_device l (leaves (last ws w)) (xr_end x) \/
   exists t, at_track l (last ws w) (xr_end x) t /\ first_reached l (xr_start x) w ws t).
(* the same, from and to any device and any element met on the way *)
Definition device_with (l : list xstation) (p : place) (id : N) : Prop :=
  exists n, node_at l p n /\ sn_id n = id.
Definition element_with (l : list xstation) (w : leg) (id : N) (t : tnode) : Prop :=
  exists x, section_at l (fst w) x /\ In t (xs_track x) /\ tn_id t = id /\ met (snd w) t = true.
Definition any_route_drawn (l : list xstation) (x : xroute) (w : leg) (ws : list leg) : Prop :=
  follows l (xr_course x) 0 w ws /\
  (device_with l (enters w) (xr_start x) \/ exists t, element_with l w (xr_start x) t) /\
  (device_with l (leaves (last ws w)) (xr_end x) \/
   exists t, element_with l (last ws w) (xr_end x) t /\ first_reached l (xr_start x) w ws t).

(* the elements of the section lie between its ends, its kilometrage ascends *)
Definition between_ends (l : list xstation) (s : nat) : Prop :=
  forall x, section_at l s x -> (sn_km (xs_start x) <= sn_km (xs_end x))%Q /\
    forall t, In t (xs_track x) -> (sn_km (xs_start x) <= tn_km t <= sn_km (xs_end x))%Q.
(* the kilometrage of the start and of the end of a route on the first and last leg *)
Definition starts_km (l : list xstation) (w : leg) (id : N) (q : Q) : Prop :=
  (exists n, node_at l (enters w) n /\ sn_id n = id /\ q = sn_km n) \/
  (exists t, at_track l w id t /\ q = tn_km t).
Definition ends_km (l : list xstation) (w : leg) (id : N) (q : Q) : Prop :=
  (exists n, node_at l (leaves w) n /\ sn_id n = id /\ q = sn_km n) \/
  (exists t, at_track l w id t /\ q = tn_km t).
(* how far it is along a way from kilometre a of its first leg to kilometre b of its
   last leg: the devices between the legs have a kilometrage on each *)
Inductive distance (l : list xstation) : leg -> list leg -> Q -> Q -> Q -> Prop :=
| di_one w a b : distance l w [] a b (Qabs (b - a))
| di_more w w' ws n m a b d :
    node_at l (leaves w) n -> node_at l (enters w') m -> distance l w' ws (sn_km m) b d ->
    distance l w (w' :: ws) a b (Qabs (sn_km n - a) + d).
