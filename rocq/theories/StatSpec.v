(* Specification vocabulary of the statistics: what is in a loaded network *)
From Coq Require Import List Bool NArith String.
From Verif Require Import Base TextModel InfraModel InfraSpec.
Import ListNotations.
Local Open Scope nat_scope.

Definition type_dec (a b : etype) : {a = b} + {a <> b}.
Proof. decide equality. Defined.

(* how many elements of a type the network has *)
Definition elements (g : graph) (t : etype) : nat := count_occ type_dec (map e_type (g_elems g)) t.

(* inside its sections a plan shows track elements and nodes soro does not know *)
Definition plain_inside (l : list xstation) : Prop :=
  forall s x n, section_at l s x -> In n (xs_track x) ->
    is_track_element (tn_type n) = true \/ tn_type n = INVALID.

(* the places of a plan at a border to a station that is not in the plan *)
Definition leads_out (l : list xstation) (p : place) : Prop :=
  exists n, node_at l p n /\ sn_name n = N_BORDER /\ ~ In (sn_station n) (map st_ds100 l).
Definition closed_plan (l : list xstation) : Prop := forall p, ~ leads_out l p.
(* the ways through a section on which nothing is met *)
Definition empty_way (l : list xstation) (p : place) : Prop :=
  exists x, section_at l (fst p) x /\ forall n, In n (xs_track x) -> met (snd p) n = false.

(* k things have a property *)
Definition number_of {A} (P : A -> Prop) (k : nat) : Prop :=
  exists xs, NoDup xs /\ (forall x, In x xs <-> P x) /\ List.length xs = k.
