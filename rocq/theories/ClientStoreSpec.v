(* Vocabulary for the statements about the sidebar of the client (PropsClientStore). *)
From Verif Require Import Base ClientStoreModel.
Local Open Scope list_scope.
Local Open Scope nat_scope.

(* the request an event answers *)
Definition answers (c : client) (e : event) : option request :=
  match e with Answer k => nth_error (pending c) k | _ => None end.
Definition fails (c : client) (e : event) : option request :=
  match e with Fail k => nth_error (pending c) k | _ => None end.
(* every step of a history: the state before it, and the event *)
Inductive step_of (srv : server) : list event -> client -> client -> event -> Prop :=
| step_here e es c : step_of srv (e :: es) c c e
| step_later e es c c' e' : step_of srv es (on_event srv c e) c' e' -> step_of srv (e :: es) c c' e'.
(* the requests answered in the course of a history, in this order *)
Fixpoint received (srv : server) (es : list event) (c : client) : list request :=
  match es with
  | [] => []
  | e :: es => match answers c e with Some r => [r] | None => [] end ++ received srv es (on_event srv c e)
  end.

(* of the requests of kind P, none fails and none overtakes another one *)
Definition in_turn (P : request -> Prop) (srv : server) (es : list event) (c : client) : Prop :=
  forall c' e, step_of srv es c c' e ->
    (forall r, fails c' e = Some r -> ~ P r) /\
    (forall k r, e = Answer k -> nth_error (pending c') k = Some r -> P r ->
       forall j r', j < k -> nth_error (pending c') j = Some r' -> ~ P r').
(* no request of kind P is waiting *)
Definition idle (P : request -> Prop) (c : client) : Prop := forall r, In r (pending c) -> ~ P r.
Definition for_timetables (r : request) : Prop := exists i, r = AskTimetables i.
Definition for_timetable (r : request) : Prop := exists i t, r = AskTimetable i t.
Definition for_search (r : request) : Prop := exists i q, r = AskSearch i q.

(* how often a route is drawn *)
Definition drawn (id : nat) (l : list feature) : nat := List.length (filter (fun f => f_id f =? id) l).
(* how many answers bring the station route *)
Definition brought (id : nat) (l : list request) : nat :=
  List.length (filter (fun r => match r with AskStationRoute _ id' => id' =? id | _ => false end) l).
Definition brought_interlocking (id : nat) (l : list request) : nat :=
  List.length (filter (fun r => match r with AskInterlockingRoute _ id' => id' =? id | _ => false end) l).
(* the requests that failed in the course of a history *)
Fixpoint lost (srv : server) (es : list event) (c : client) : list request :=
  match es with
  | [] => []
  | e :: es => match fails c e with Some r => [r] | None => [] end ++ lost srv es (on_event srv c e)
  end.
(* how often a route was chosen while an infrastructure was chosen *)
Definition chosen (c : client) : bool := match infra c with Some i => negb (String.eqb i "") | None => false end.
Fixpoint shown_routes (srv : server) (id : nat) (es : list event) (c : client) : nat :=
  match es with
  | [] => 0
  | e :: es => (match e with ShowStationRoute id' => if (id' =? id) && chosen c then 1 else 0 | _ => 0 end) + shown_routes srv id es (on_event srv c e)
  end.
Fixpoint shown_interlocking (srv : server) (id : nat) (es : list event) (c : client) : nat :=
  match es with
  | [] => 0
  | e :: es => (match e with ShowInterlockingRoute id' => if (id' =? id) && chosen c then 1 else 0 | _ => 0 end) + shown_interlocking srv id es (on_event srv c e)
  end.
