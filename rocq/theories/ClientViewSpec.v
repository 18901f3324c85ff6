(* Vocabulary for the statements about components of the client (PropsClientView). *)
From Coq Require Import Ascii.
From Verif Require Import Base ClientViewModel.
Local Open Scope list_scope.
Local Open Scope nat_scope.

(* the text q stands in s behind k characters *)
Definition stands_at (q s : list ascii) (k : nat) : Prop := exists u v, s = u ++ q ++ v /\ List.length u = k.

(* a graph as graphology admits it: no node and no edge twice, edges between nodes *)
Definition simple (g : ordering) : Prop :=
  NoDup (o_nodes g) /\ NoDup (o_edges g) /\ forall a b, In (a, b) (o_edges g) -> In a (o_nodes g) /\ In b (o_nodes g).
(* An infrastructure, a timetable and a range of time have been chosen. *)
Definition filled_in (s : settings) : Prop := s_infra s <> [] /\ s_timetable s <> [] /\ s_range s <> None.
Definition requests (e : view_event) : Prop := exists s, e = Create s /\ filled_in s.
Definition fails (e : view_event) : Prop := exists k, e = Lose k.
(* the requests answered in the course of a history *)
Fixpoint arrived (srv : settings -> ordering) (es : list view_event) (v : view) : list settings :=
  match es with
  | [] => []
  | e :: es => match e with Arrive k => match nth_error (v_pending v) k with Some s => [s] | None => [] end | _ => [] end ++ arrived srv es (view_step srv v e)
  end.
