(* Vocabulary for C125: what the user sees of the station pane. *)
From Verif Require Import Base ClientStationModel.
Local Open Scope nat_scope.

(* every event of l satisfies P at the page it happens on *)
Fixpoint along (srv : server) (P : page -> event -> Prop) (c : page) (l : list event) : Prop :=
  match l with [] => True | e :: l => P c e /\ along srv P (step srv c e) l end.
(* the user sees the overlay o *)
Definition seen (c : page) (o : overlay) : Prop := visible c = true /\ selected c = o.
(* the station clicked last, s if there is none in l *)
Fixpoint last_click (s : nat) (l : list event) : nat :=
  match l with [] => s | Click t :: l => last_click t l | _ :: l => last_click s l end.
(* the pane waits for an answer *)
Definition waiting (c : page) (p : pane) : Prop := exists i s, In (Fetch (p_no p) i s) (pending c).
(* no answer about a station overtakes another or fails, the infrastructure stays *)
Definition orderly (c : page) (e : event) : Prop :=
  match e with
  | Load _ => False
  | Answer n => forall p i s, nth_error (pending c) n = Some (Fetch p i s) ->
      forall m j t, m < n -> nth_error (pending c) m <> Some (Fetch p j t)
  | Fail n => forall p i s, nth_error (pending c) n <> Some (Fetch p i s)
  | _ => True
  end.
(* a route asked for has not arrived *)
Definition coming (c : page) (r : route) : Prop := exists i, In (Show i r) (pending c).
(* a switch rests until its route arrived, no station arrives while a route is coming, and no route fails *)
Definition calm (c : page) (e : event) : Prop :=
  match e with
  | Toggle r => infra c <> None /\ ~ coming c r
  | Answer n => forall p i s, nth_error (pending c) n = Some (Fetch p i s) -> forall r, ~ coming c r
  | Fail n => forall i r, nth_error (pending c) n <> Some (Show i r)
  | _ => True
  end.
(* r is a route of the station *)
Definition belongs (st : station) (r : route) : Prop :=
  match r with
  | (StationRoute, n) => In n (s_routes st)
  | (InterlockingRoute, n) => In n (s_interlocking st)
  end.
Definition no_route_twice (srv : server) : Prop :=
  forall i s st, srv i s = Some st -> NoDup (s_routes st) /\ NoDup (s_interlocking st).
