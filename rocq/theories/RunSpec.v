(* Vocabulary for the statements about running times (PropsRun). *)
From Coq Require Export Sorting.Sorted Qround.
From Verif Require Import Base PhysModel PhysSpec RunModel.

(* closer than a centimetre *)
Definition near (x y : Q) : Prop := x - y < 1#100 /\ y - x < 1#100.

(* a train that stops leaves at its planned departure, but not before it has stood
   for the minimum stop time; one that does not stop leaves when it arrives *)
Definition leaves (st : option stop) (arr dep : N) : Prop :=
  match st with
  | Some s => dep = N.max (st_departure s) (arr + st_min_stop s)%N
  | None => dep = arr
  end.

(* the timestamp t of event e of an interval that is entered at time d and whose
   end is reached at arr and left at dep *)
Definition stamped (iv : interval) (d arr dep : N) (e : event) (t : timestamp) : Prop :=
  ts_elem t = ev_elem e /\
  (near (ev_dist e) (iv_dist iv) -> ts_arrival t = arr /\ ts_departure t = dep) /\
  (~ near (ev_dist e) (iv_dist iv) -> ts_departure t = ts_arrival t /\ (d <= ts_arrival t <= arr)%N).

(* no time of b is before the corresponding time of a *)
Definition not_before (a b : timestamp) : Prop :=
  (ts_arrival a <= ts_arrival b /\ ts_departure a <= ts_departure b)%N.

(* l is a timetable for the intervals il, the first of which is entered at d *)
Fixpoint timed (d : N) (il : list interval) (l : list timestamp) : Prop :=
  match il with
  | [] => l = []
  | iv :: il => exists arr dep here rest, l = here ++ rest /\ (d <= arr)%N /\
      leaves (iv_stop iv) arr dep /\
      Forall2 (stamped iv d arr dep) (iv_events iv) here /\
      StronglySorted not_before here /\
      timed dep il rest
  end.

(* distances of the interval ends ascend, events are in order and not beyond the
   end of their interval *)
Definition events_fit (iv : interval) : Prop :=
  StronglySorted (fun e f => ev_dist e <= ev_dist f) (iv_events iv) /\
  (forall e, In e (iv_events iv) -> ev_dist e < iv_dist iv + (1#100)).
Fixpoint intervals_fit (prev : interval) (il : list interval) : Prop :=
  match il with
  | [] => True
  | iv :: il => iv_dist prev < iv_dist iv /\ events_fit iv /\ intervals_fit iv il
  end.

(* ---- trains as lists of nodes ---- *)

(* the nodes with their distance from the start *)
Fixpoint placed (d : Q) (ns : list tnode) : list (tnode * Q) :=
  match ns with
  | [] => []
  | n :: ns => (n, d + tn_step n) :: placed (d + tn_step n) ns
  end.
(* the nodes a timestamp is asked for, in order of travel *)
Definition recorded (ns : list tnode) : list (tnode * Q) :=
  filter (fun x => tn_record (fst x) && negb (tn_omitted (fst x))) (placed 0 ns).
(* a main signal, a halt or the beginning of a speed limit *)
Definition border (n : tnode) : Prop :=
  tn_omitted n = false /\ (tn_kind n <> OTHER \/ tn_here n <> None).
(* the train stops at n *)
Definition stops (n : tnode) (st : stop) : Prop := border n /\ tn_stop n = Some st.
(* a train that starts at a border and ends at one *)
Definition proper_train (ns : list tnode) : Prop :=
  (forall n, In n ns -> 0 <= tn_step n) /\
  (exists n l, ns = n :: l /\ border n /\ tn_step n == 0) /\
  (exists k n, ns = k ++ [n] /\ border n).

(* ---- speed limits ---- *)
(* what is allowed at the end of a stretch is allowed on the next one *)
Fixpoint limits_meet (l : list interval) : Prop :=
  match l with
  | a :: ((b :: _) as l') => iv_left b = Some (iv_right a) /\ limits_meet l'
  | _ => True
  end.
(* any two borders are at least a centimetre apart *)
Definition borders_apart (ns : list tnode) : Prop :=
  StronglySorted (fun x y => border (fst x) -> border (fst y) -> 1#100 <= snd y - snd x) (placed 0 ns).
(* limits are not negative *)
Definition sane_limits (limit : Q) (ns : list tnode) : Prop :=
  0 <= limit /\ forall n q, In n ns -> tn_here n = Some q \/ tn_last_signal n = Some q -> 0 <= q.

(* no speed of the phases p exceeds q *)
Definition within (p : phases) (q : Q) : Prop :=
  forall s, inner (ph_accels p) s \/ In s (ph_coasts p) \/ In s (ph_deaccels p) \/
            (s = ph_accel p /\ ph_accels p <> []) -> s_speed s <= q.
(* the sample a stretch is left with *)
Definition exit_sample (p : phases) : sample :=
  match ph_deaccels p, ph_coasts p with
  | _ :: _, _ => ph_deaccel p
  | [], _ :: _ => ph_coast p
  | [], [] => ph_accel p
  end.
(* ps are the phases of a drive over the stretches il, entered with speed v *)
Fixpoint drive (fuel : nat) (tp : physics) (v : Q) (prev : interval) (il : list interval) (ps : list phases) : Prop :=
  match il, ps with
  | [], [] => True
  | iv :: il, p :: ps =>
      get_runtime_phases fuel tp v prev iv = Ok p /\ drive fuel tp (s_speed (exit_sample p)) iv il ps
  | _, _ => False
  end.
(* the borders of a train without limits that are valid from the last signal on:
   their distances and the limits from there on *)
Definition is_border (n : tnode) : bool :=
  negb (tn_omitted n) &&
  match tn_kind n, tn_here n with OTHER, None => false | _, _ => true end.
Fixpoint borders (d limit : Q) (ns : list tnode) : list (Q * Q) :=
  match ns with
  | [] => []
  | n :: ns =>
      let limit' := match tn_here n with Some q => if tn_omitted n then limit else q | None => limit end in
      (if is_border n then [(d + tn_step n, limit')] else []) ++ borders (d + tn_step n) limit' ns
  end.
(* the stretches: borders less than a centimetre behind the beginning of a stretch
   belong to it, the last one determines the limit *)
Definition nearb (x y : Q) : bool := negb (Qle_bool (1#100) (x - y)) && negb (Qle_bool (1#100) (y - x)).
Fixpoint stretches (d q : Q) (l : list (Q * Q)) : list (Q * Q) :=
  match l with
  | [] => [(d, q)]
  | (d', q') :: l => if nearb d d' then stretches d q' l else (d, q) :: stretches d' q' l
  end.
Definition in_force (limit : Q) (ns : list tnode) : list (Q * Q) :=
  match borders 0 limit ns with [] => [] | (d, q) :: l => stretches d q l end.

(* ---- times along the drive ---- *)
Definition drive_time (p : phases) : Q := s_time (ph_accel p) + s_time (ph_coast p) + s_time (ph_deaccel p).
(* s is the first sample of l at distance d or farther *)
Definition first_past (l : list sample) (d : Q) (s : sample) : Prop :=
  exists i, nth_error l i = Some s /\ d <= s_dist s /\
    forall j r, (j < i)%nat -> nth_error l j = Some r -> s_dist r < d.
(* a place d metres behind the beginning of the stretch is passed t seconds after
   the train has entered it: while accelerating, coasting or braking *)
Definition passes (p : phases) (d t : Q) : Prop :=
  let a := ph_accel p in let c := ph_coast p in
  (d <= s_dist a /\ exists s, first_past (ph_accels p) d s /\ t = s_time s) \/
  ((ph_accels p = [] \/ s_dist a < d) /\ d <= s_dist a + s_dist c /\
     exists s, first_past (ph_coasts p) (d - s_dist a) s /\ t = s_time a + s_time s) \/
  ((ph_accels p = [] \/ s_dist a < d) /\ (ph_coasts p = [] \/ s_dist a + s_dist c < d) /\
     exists s, first_past (ph_deaccels p) (d - s_dist a - s_dist c) s /\ t = s_time a + s_time c + s_time s).
Definition seconds (t : Q) : N := Z.to_N (Qfloor t).
(* l are the timestamps of a drive with phases ps over the stretches il; the first
   one is entered clock seconds after the start *)
Fixpoint clocked (start : N) (clock : Q) (prev : interval) (il : list interval) (ps : list phases) (l : list timestamp) : Prop :=
  match il, ps with
  | [], [] => l = []
  | iv :: il, p :: ps => exists arr dep here rest, l = here ++ rest /\
      arr = (start + seconds (clock + drive_time p))%N /\ leaves (iv_stop iv) arr dep /\
      Forall2 (fun e t => ts_elem t = ev_elem e /\
        (near (ev_dist e) (iv_dist iv) -> ts_arrival t = arr /\ ts_departure t = dep) /\
        (~ near (ev_dist e) (iv_dist iv) -> ts_departure t = ts_arrival t /\
           exists q, passes p (ev_dist e - iv_dist prev) q /\ ts_arrival t = (start + seconds clock + seconds q)%N))
        (iv_events iv) here /\
      clocked start (clock + drive_time p + inject_Z (Z.of_N (dep - arr))) iv il ps rest
  | _, _ => False
  end.
