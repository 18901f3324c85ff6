(* Specification vocabulary of the ordering graph: what the timetable says,
   without reference to the construction. *)
From Verif Require Import Base OrderingModel.
From Coq Require Import Permutation Sorting.Sorted.

(* the usage of one interlocking route by one trip *)
Record route_use : Type := mkU {
  u_train : nat;
  u_anchor : N;       (* the day the trip starts on *)
  u_pos : nat;        (* position of the route in the path of the trip *)
  u_ir : nat;
  u_start : N;        (* when the usage starts *)
  u_last : bool }.    (* last route of the trip *)

Fixpoint uses_from (id : nat) (anchor : N) (pos : nat) (path : list nat) (starts : list N) : list route_use :=
  match path, starts with
  | ir :: path, t :: starts =>
      mkU id anchor pos ir (add32 anchor t) (match path with [] => true | _ => false end)
      :: uses_from id anchor (S pos) path starts
  | _, _ => []
  end.

(* The first route is used from the departure on, every further one from the
   arrival at the main signal in front of it.  A train without main signals is
   ignored by the ordering graph. *)
Definition trip_uses (t : otrain) (anchor : N) : list route_use :=
  match ot_arrivals t with
  | [] => []
  | _ => uses_from (ot_id t) anchor 0 (ot_path t) (ot_first_departure t :: ot_arrivals t)
  end.

Definition selected (flt : list nat) (t : otrain) : bool :=
  match flt with [] => true | _ => existsb (Nat.eqb (ot_id t)) flt end.

(* all usages in the order of trains, trips and path positions *)
Definition all_uses (flt : list nat) (ts : list otrain) : list route_use :=
  flat_map (fun t => flat_map (trip_uses t) (ot_anchors t)) (filter (selected flt) ts).

(* one main signal between any two routes of the path *)
Definition well_formed (flt : list nat) (ts : list otrain) : Prop :=
  forall t, In t ts -> selected flt t = true -> ot_anchors t <> [] ->
    length (ot_path t) = S (length (ot_arrivals t)).

(* two routes exclude each other *)
Definition conflict (i2e : nat -> list nat) (es_count : nat) (r1 r2 : nat) : Prop :=
  exists es, es < es_count /\ In es (i2e r1) /\ In es (i2e r2).

(* a function that sorts by start time, as std::sort does *)
Definition sorts (sorter : list usage -> list usage) : Prop :=
  forall l, Permutation l (sorter l) /\ StronglySorted (fun a b => (fst a <= fst b)%N) (sorter l).
(* and keeps the order of elements with equal start times *)
Definition stable (sorter : list usage -> list usage) : Prop :=
  forall l t, filter (fun u => N.eqb (fst u) t) (sorter l) = filter (fun u => N.eqb (fst u) t) l.
