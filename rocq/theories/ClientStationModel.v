(* Model of the station pane of the web client: web/client/src/components/sidebar/station/station.vue,
   web/client/src/components/base/soro-switch.vue, web/client/src/components/sidebar/sidebar.vue,
   web/client/src/stores/stores.ts, the click on a station in
   web/client/src/components/infrastructure/infrastructure-map.vue:350-385, and the part of
   web/client/src/stores/sidebar-store.ts they use.

   Simplifications
   - handlers run to completion; a request is answered at any later moment, before or after other
     pending requests, or fails; Vue draws between handlers
   - infrastructures are numbers; routes have a path
   - highlightedStationRoutes and highlightedInterlockingRoutes are one list of tagged numbers
   - a component of v-for is kept as long as its key is drawn (Vue's :key)
   - labels and colours of switches are left out *)
From Verif Require Import Base.
Local Open Scope nat_scope.

Inductive overlay : Type := Menu | Searching | Stations.
Definition overlay_eqb (a b : overlay) : bool :=
  match a, b with Menu, Menu | Searching, Searching | Stations, Stations => true | _, _ => false end.
Inductive kind : Type := StationRoute | InterlockingRoute.
Definition route : Type := kind * nat.
Definition kind_eqb (a b : kind) : bool := match a, b with StationRoute, StationRoute | InterlockingRoute, InterlockingRoute => true | _, _ => false end.
Definition route_eqb (a b : route) : bool := kind_eqb (fst a) (fst b) && Nat.eqb (snd a) (snd b).
(* SoroClient.ts:12-17 *)
Record station : Type := mks { s_id : nat; s_name : nat; s_routes : list nat; s_interlocking : list nat }.
Definition server : Type := nat -> nat -> option station.

(* pane: the number of the instance, for requests that come back after it is gone *)
Inductive request : Type :=
| Fetch (pane : nat) (infra : option nat) (station : nat)
| Show (infra : nat) (r : route).
(* station.vue:53-60 (id -1: None) with the switches drawn for it, soro-switch.vue:44-48 *)
Record pane : Type := mkp { p_no : nat; p_station : option station; p_switches : list (route * bool) }.
(* stores.ts:16-24, sidebar-store.ts:53-79 *)
Record page : Type := mkpage {
  infra : option nat; current : option nat; selected : overlay; visible : bool; highlighted : list route;
  the_pane : option pane; fresh : nat; pending : list request }.
Definition start : page := mkpage None None Menu false [] None 0 [].

Definition ask (c : page) (r : request) : page :=
  mkpage (infra c) (current c) (selected c) (visible c) (highlighted c) (the_pane c) (fresh c) (pending c ++ [r]).
Definition set_pane (c : page) (p : pane) : page :=
  mkpage (infra c) (current c) (selected c) (visible c) (highlighted c) (Some p) (fresh c) (pending c).
Definition set_highlighted (c : page) (h : list route) : page :=
  mkpage (infra c) (current c) (selected c) (visible c) h (the_pane c) (fresh c) (pending c).
Definition set_pending (c : page) (l : list request) : page :=
  mkpage (infra c) (current c) (selected c) (visible c) (highlighted c) (the_pane c) (fresh c) l.
Definition set_infra (c : page) (i : option nat) : page :=
  mkpage i (current c) (selected c) (visible c) (highlighted c) (the_pane c) (fresh c) (pending c).

(* station.vue:99-108 *)
Definition fetch_station (c : page) (p : pane) (s : nat) : page := ask c (Fetch (p_no p) (infra c) s).
(* sidebar.vue:18-27, station.vue:84-88: which pane is there after the overlay became o *)
Definition draw (c : page) (o : overlay) : page :=
  match o with
  | Stations =>
      match the_pane c with
      | Some _ => mkpage (infra c) (current c) o (visible c) (highlighted c) (the_pane c) (fresh c) (pending c)
      | None =>
          let p := mkp (fresh c) None [] in
          let c := mkpage (infra c) (current c) o (visible c) (highlighted c) (Some p) (S (fresh c)) (pending c) in
          match current c with Some s => fetch_station c p s | None => c end
      end
  | _ => mkpage (infra c) (current c) o (visible c) (highlighted c) None (fresh c) (pending c)
  end.
Definition show (c : page) (v : bool) : page :=
  mkpage (infra c) (current c) (selected c) v (highlighted c) (the_pane c) (fresh c) (pending c).
(* sidebar.vue:91-103 *)
Definition press (c : page) (o : overlay) : page :=
  if overlay_eqb (selected c) o then show c (negb (visible c))
  else draw (if visible c then c else show c true) o.
(* infrastructure-map.vue:366-373, then the watchers: station.vue:78-82 of a pane that is there;
   sidebar.vue:77-87 does what the click has done *)
Definition click (c : page) (s : nat) : page :=
  let changed := match current c with Some t => negb (Nat.eqb s t) | None => true end in
  let old := the_pane c in
  let c := mkpage (infra c) (Some s) (selected c) true (highlighted c) (the_pane c) (fresh c) (pending c) in
  let c := draw c Stations in
  match old with
  | Some p => if changed then fetch_station c p s else c
  | None => c
  end.
(* sidebar-store.ts:183-186 *)
Definition load_infrastructure (c : page) (i : option nat) : page := set_infra c i.

Fixpoint switch_of (r : route) (l : list (route * bool)) : option bool :=
  match l with [] => None | (q, b) :: l => if route_eqb r q then Some b else switch_of r l end.
Fixpoint put_switch (r : route) (b : bool) (l : list (route * bool)) : list (route * bool) :=
  match l with [] => [] | (q, d) :: l => if route_eqb r q then (q, b) :: l else (q, d) :: put_switch r b l end.
(* sidebar-store.ts:122-133 *)
Definition without (r : route) (l : list route) : list route := filter (fun q => negb (route_eqb r q)) l.
(* soro-switch.vue:50-58, sidebar-store.ts:147-181 *)
Definition toggle (c : page) (r : route) : page :=
  match the_pane c with
  | None => c
  | Some p =>
      match switch_of r (p_switches p) with
      | None => c
      | Some b =>
          let c := set_pane c (mkp (p_no p) (p_station p) (put_switch r (negb b) (p_switches p))) in
          if negb b then match infra c with Some i => ask c (Show i r) | None => c end
          else set_highlighted c (without r (highlighted c))
      end
  end.

(* station.vue:8-36, 110-112: the switches drawn for a station; one that was there stays as it is *)
Definition routes_of (s : station) : list route :=
  map (fun n => (StationRoute, n)) (s_routes s) ++ map (fun n => (InterlockingRoute, n)) (s_interlocking s).
Definition redraw (old : list (route * bool)) (h : list route) (s : station) : list (route * bool) :=
  map (fun r => (r, match switch_of r old with Some b => b | None => existsb (route_eqb r) h end)) (routes_of s).
(* station.vue:104-108; the answer to a pane that is gone changes nothing *)
Definition fetched (c : page) (no : nat) (s : station) : page :=
  match the_pane c with
  | Some p => if Nat.eqb (p_no p) no then set_pane c (mkp no (Some s) (redraw (p_switches p) (highlighted c) s)) else c
  | None => c
  end.
Fixpoint remove_nth {A} (n : nat) (l : list A) : list A :=
  match l, n with [], _ => [] | _ :: l, 0 => l | x :: l, S n => x :: remove_nth n l end.
Definition answer (srv : server) (c : page) (n : nat) : page :=
  match nth_error (pending c) n with
  | None => c
  | Some q =>
      let c := set_pending c (remove_nth n (pending c)) in
      match q with
      | Fetch no (Some i) s => match srv i s with Some st => fetched c no st | None => c end
      | Fetch no None s => c
      | Show i r => set_highlighted c (highlighted c ++ [r])
      end
  end.
Definition fail (c : page) (n : nat) : page := set_pending c (remove_nth n (pending c)).

Inductive event : Type :=
| Click (s : nat) | Press (o : overlay) | Load (i : option nat) | Toggle (r : route) | Answer (n : nat) | Fail (n : nat).
Definition step (srv : server) (c : page) (e : event) : page :=
  match e with
  | Click s => click c s
  | Press o => press c o
  | Load i => load_infrastructure c i
  | Toggle r => toggle c r
  | Answer n => answer srv c n
  | Fail n => fail c n
  end.
Definition run (srv : server) (c : page) (l : list event) : page := fold_left (step srv) l c.
