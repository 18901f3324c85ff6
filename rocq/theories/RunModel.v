(* Model of the running time calculation:
   src/runtime/interval.cc, include/soro/runtime/interval.h, src/runtime/runtime.cc.

   Simplifications
   - quantities are exact rationals (see PhysModel)
   - times (relative_time, uint32 seconds) are natural numbers; where the C++
     would silently wrap around modulo 2^32 the model answers UB
   - the train is given by the list of nodes train::iterate yields, each with the
     distance to its predecessor, and by the speed limit get_initial_spl found
   - the speed limits of a node are those for which train::effected_by holds *)
From Verif Require Import Base PhysModel.
From Coq Require Import Qround.

(* a halting sequence point: min_stop_time_, departure_ (interval.h:44-54) *)
Record stop : Type := mkstop { st_min_stop : N; st_departure : N }.
Definition TIME_MAX : N := 4294967295.   (* INVALID<relative_time>, time.h:75-76 *)

(* an element as far as it is recorded: its id and whether it is a HALT *)
Record elem : Type := mkelem { e_id : N; e_halt : bool }.
(* interval.h:10-19 *)
Record event : Type := mkevent { ev_elem : elem; ev_dist : Q }.
(* interval.h:21-71; limit_left_ is NaN (None) for the first interval *)
Record interval : Type := mkiv {
  iv_dist : Q; iv_left : option Q; iv_right : Q; iv_stop : option stop; iv_events : list event }.

(* interval.h:44 *)
Definition is_halt (iv : interval) : bool := match iv_stop iv with Some _ => true | None => false end.
(* interval.h:56-62 *)
Definition target_speed (tp : physics) (iv : interval) : res Q :=
  do m <- max_speed tp;
  Ok (qmin (if is_halt iv then 0 else iv_right iv) m).
(* interval.h:31-42 *)
Definition append (iv o : interval) : res interval :=
  sassert (negb (is_halt iv && is_halt o)) ;;
  Ok (mkiv (iv_dist iv) (iv_left iv) (iv_right o)
           (match iv_stop o with Some s => Some s | None => iv_stop iv end)
           (iv_events iv ++ iv_events o)).
(* comparing or using NaN is not modelled *)
Definition left_limit (iv : interval) : res Q := match iv_left iv with Some q => Ok q | None => UB end.

(* ---- building the interval list: interval.cc ---- *)

(* the part of type used here: MAIN_SIGNAL, HALT, anything else *)
Inductive kind : Type := SIGNAL | HALTPOS | OTHER.
(* one train_node: distance to the previous node (element.cc:179-187), kind,
   element, recorded (its type is in event_types), omitted, here_ and last_signal_
   of speed_limit_duo (interval.cc:118-149), the sequence point if it is a halt *)
Record tnode : Type := mktn {
  tn_step : Q; tn_kind : kind; tn_elem : elem; tn_record : bool; tn_omitted : bool;
  tn_here : option Q; tn_last_signal : option Q; tn_stop : option stop }.

Definition set_right (q : Q) (iv : interval) : interval :=
  mkiv (iv_dist iv) (iv_left iv) q (iv_stop iv) (iv_events iv).
Definition set_left (q : Q) (iv : interval) : interval :=
  mkiv (iv_dist iv) (Some q) (iv_right iv) (iv_stop iv) (iv_events iv).

(* interval.cc:160-168: the loop over the intervals from last_ms on; returns them
   and how many were changed; after_change: the previous one was changed *)
Fixpoint spl_loop (new replaced : Q) (after_change : bool) (l : list interval)
  : list interval * nat :=
  match l with
  | [] => ([], O)
  | iv :: l =>
      let iv := if after_change then set_left new iv else iv in
      if fuzzy_eq (iv_right iv) replaced then
        let '(l', n) := spl_loop new replaced true l in (set_right new iv :: l', S n)
      else (iv :: l, O)
  end.
(* interval.cc:151-171 *)
Definition insert_last_signal_spl (new : Q) (l : list interval) (last_ms : nat)
  : list interval * nat :=
  match skipn last_ms l with
  | [] => (l, length l)
  | iv :: r =>
      let '(r', n) := spl_loop new (iv_right iv) false (iv :: r) in
      (firstn last_ms l ++ r', (last_ms + n)%nat)
  end.

(* the variables of get_interval_list (interval.cc:177-188) *)
Record ilstate : Type := mkil {
  il_list : list interval; il_dist : Q; il_last_ms : nat; il_prev : option Q; il_cur : Q;
  il_events : list event }.

(* interval.cc:228-238 *)
Definition push_interval (s : ilstate) (st : option stop) : res ilstate :=
  let iv := mkiv (il_dist s) (il_prev s) (il_cur s) st (il_events s) in
  do l <- match rev (il_list s) with
          | b :: r =>
              if fuzzy_eq (iv_dist b) (il_dist s)
              then do b' <- append b iv; Ok (rev (b' :: r))
              else Ok (il_list s ++ [iv])
          | [] => Ok [iv]
          end;
  Ok (mkil l (il_dist s) (il_last_ms s) (Some (il_cur s)) (il_cur s) []).

(* interval.cc:191-239 *)
Definition il_step (s : ilstate) (tn : tnode) : res ilstate :=
  let s := mkil (il_list s) (il_dist s + tn_step tn) (il_last_ms s) (il_prev s) (il_cur s) (il_events s) in
  if tn_omitted tn then Ok s
  else
    let s := match tn_last_signal tn with                       (* :200-207 *)
             | Some q =>
                 let '(l, upto) := insert_last_signal_spl q (il_list s) (il_last_ms s) in
                 if Nat.eqb upto (length l)
                 then mkil l (il_dist s) (il_last_ms s) (Some q) q (il_events s)
                 else mkil l (il_dist s) (il_last_ms s) (il_prev s) (il_cur s) (il_events s)
             | None => s
             end in
    let s := match tn_here tn with                              (* :209-212 *)
             | Some q => mkil (il_list s) (il_dist s) (il_last_ms s) (Some (il_cur s)) q (il_events s)
             | None => s
             end in
    let s := match tn_kind tn with                              (* :214-216 *)
             | SIGNAL => mkil (il_list s) (il_dist s) (length (il_list s)) (il_prev s) (il_cur s) (il_events s)
             | _ => s
             end in
    let s := if tn_record tn                                    (* :218-220 *)
             then mkil (il_list s) (il_dist s) (il_last_ms s) (il_prev s) (il_cur s)
                       (il_events s ++ [mkevent (tn_elem tn) (il_dist s)])
             else s in
    let border := match tn_kind tn with SIGNAL | HALTPOS => true | OTHER => false end in
    if border || match tn_here tn with Some _ => true | None => false end
    then push_interval s (tn_stop tn)                           (* :222-239 *)
    else Ok s.
Fixpoint il_steps (s : ilstate) (l : list tnode) : res ilstate :=
  match l with
  | [] => Ok s
  | tn :: l => do s <- il_step s tn; il_steps s l
  end.

(* interval.cc:73-78; returns the new speed *)
Fixpoint lower_speed (fuel : nat) (bfuel : nat) (tp : physics) (new target len : Q) : res Q :=
  if qlt target new then
    do b <- brake bfuel tp new target;
    if qle len (s_dist (back b)) then
      match fuel with
      | O => Fuel
      | S fuel => lower_speed fuel bfuel tp (new - 1) target len
      end
    else Ok new
  else Ok new.
(* interval.cc:52-90, one pass; prev is list[idx - 1] *)
Fixpoint adjust_pass (fuel : nat) (tp : physics) (prev : interval) (l : list interval)
  : res (list interval * bool) :=
  match l with
  | [] => Ok ([prev], false)
  | iv :: l =>
      do left <- left_limit iv;
      do m <- max_speed tp;
      let initial := qmin left m in
      if qle initial (iv_right iv) && negb (is_halt iv) then
        do ' (r, b) <- adjust_pass fuel tp iv l; Ok (prev :: r, b)
      else
        do target <- target_speed tp iv;
        do br <- brake fuel tp initial target;
        let len := iv_dist iv - iv_dist prev in
        if qle (s_dist (back br)) len then
          do ' (r, b) <- adjust_pass fuel tp iv l; Ok (prev :: r, b)
        else
          do new <- lower_speed fuel fuel tp (initial - 1) target len;
          let new := if qle new target then target else new in
          sassert (qlt new initial) ;;
          sassert (qlt 0 new) ;;
          do ' (r, _) <- adjust_pass fuel tp (set_left new iv) l;
          Ok (set_right new prev :: r, true)
  end.
Definition adjust_speed_limits (fuel : nat) (tp : physics) (l : list interval)
  : res (list interval * bool) :=
  match l with
  | [] => Ok ([], false)
  | iv :: l => adjust_pass fuel tp iv l
  end.
(* interval.cc:242-243 *)
Fixpoint adjust_all (fuel bfuel : nat) (tp : physics) (l : list interval) : res (list interval) :=
  do ' (l, again) <- adjust_speed_limits bfuel tp l;
  if again then
    match fuel with
    | O => Fuel
    | S fuel => adjust_all fuel bfuel tp l
    end
  else Ok l.
(* interval.cc:173-246 *)
Definition get_interval_list (fuel : nat) (tp : physics) (initial_limit : Q) (ns : list tnode)
  : res (list interval) :=
  do s <- il_steps (mkil [] 0 0 None initial_limit []) ns;
  adjust_all fuel fuel tp (il_list s).

(* ---- running time: runtime.cc ---- *)

(* runtime.cc:19-32 *)
Record phases : Type := mkph {
  ph_accel : sample; ph_accels : list sample;
  ph_coast : sample; ph_coasts : list sample;
  ph_deaccel : sample; ph_deaccels : list sample }.
Definition nonempty (l : list sample) : bool := match l with [] => false | _ => true end.

(* runtime.cc:43-60; l: the samples before accel_it, last one first *)
Fixpoint adjust_loop (fuel : nat) (tp : physics) (l : list sample) (delta next : Q)
  : res (sample * list sample) :=
  match l with
  | [] => Throw
  | a :: l =>
      if qle (s_speed a) next then Ok (a, [])
      else
        do b <- brake fuel tp (s_speed a) next;
        if qle (s_dist (back b) + s_dist a) delta then Ok (a, b)
        else adjust_loop fuel tp l delta next
  end.
(* runtime.cc:34-63 *)
Definition adjust_accel_and_deaccel (fuel : nat) (tp : physics) (accels : list sample)
  (delta next : Q) : res (sample * list sample) :=
  adjust_loop fuel tp (rev (removelast accels)) delta next.

(* runtime.cc:65-132 *)
Definition get_runtime_phases (fuel : nat) (tp : physics) (speed : Q) (prev iv : interval)
  : res phases :=
  let len := iv_dist iv - iv_dist prev in
  do m <- max_speed tp;
  do left <- left_limit iv;
  let top := qmin left m in
  (* :74-88 *)
  do ' (accel, accels, speed) <-
    (if qlt speed top then
       do rs <- accelerate fuel tp speed top len;
       match rs with
       | [] => UB
       | _ =>
           let b := back rs in
           let b := if qlt top (s_speed b) then mksample (s_time b) (s_dist b) top else b in
           Ok (b, rs, s_speed b)
       end
     else Ok (zero_sample, [], speed));
  (* :90-100 *)
  do target <- target_speed tp iv;
  do ' (deaccel, deaccels) <-
    (if qlt target speed then
       do rs <- brake fuel tp speed target;
       sassert (nonempty rs) ;;
       sassert (qlt 0 (s_time (back rs))) ;;
       sassert (qle (s_dist (back rs)) len) ;;
       Ok (back rs, rs)
     else Ok (zero_sample, []));
  (* :102-111 *)
  do ' (accel, deaccel, deaccels, speed) <-
    (if qle len (s_dist accel + s_dist deaccel) && nonempty accels && nonempty deaccels then
       do ' (a, ds) <- adjust_accel_and_deaccel fuel tp accels len target;
       Ok (a, back ds, ds, s_speed a)
     else Ok (accel, deaccel, deaccels, speed));
  (* :113-115 *)
  sassert (qle (s_dist accel + s_dist deaccel) len || negb (nonempty accels) || negb (nonempty deaccels)) ;;
  (* :117-125 *)
  let coast_distance := len - s_dist accel - s_dist deaccel in
  do ' (cst, coasts) <-
    (if qlt 0 coast_distance then
       do rs <- coast fuel speed coast_distance; Ok (back rs, rs)
     else Ok (zero_sample, []));
  (* :127-129 *)
  sassert (nonempty accels || nonempty coasts || nonempty deaccels) ;;
  Ok (mkph accel accels cst coasts deaccel deaccels).

(* runtime.cc:134-137; the conversion of an out of range value is undefined *)
Definition si_to_relative_time (t : Q) : res N :=
  let z := Qfloor t in
  if (0 <=? z)%Z && (z <=? Z.of_N TIME_MAX)%Z then Ok (Z.to_N z) else UB.
(* runtime.cc:139-141 *)
Definition relative_to_si_time (t : N) : Q := inject_Z (Z.of_N t).
(* sums and differences of uint32 times *)
Definition plus_time (a b : N) : res N := if (a + b <=? TIME_MAX)%N then Ok (a + b)%N else UB.
Definition minus_time (a b : N) : res N := if (b <=? a)%N then Ok (a - b)%N else UB.

(* runtime.cc:155-159 etc.: the first sample at or past the distance *)
Fixpoint first_at (offset : Q) (l : list sample) (d : Q) : option sample :=
  match l with
  | [] => None
  | s :: l => if qle d (offset + s_dist s) then Some s else first_at offset l d
  end.
(* runtime.cc:152-179 *)
Definition get_event_time (p : phases) (d : Q) : res Q :=
  if nonempty (ph_accels p) && qle d (s_dist (ph_accel p)) then
    match first_at 0 (ph_accels p) d with
    | Some s => Ok (s_time s)
    | None => Throw
    end
  else if nonempty (ph_coasts p) && qle d (s_dist (ph_accel p) + s_dist (ph_coast p)) then
    match first_at (s_dist (ph_accel p)) (ph_coasts p) d with
    | Some s => Ok (s_time (ph_accel p) + s_time s)
    | None => Throw
    end
  else if nonempty (ph_deaccels p) &&
          qle d (s_dist (ph_accel p) + s_dist (ph_coast p) + s_dist (ph_deaccel p)) then
    match first_at (s_dist (ph_accel p) + s_dist (ph_coast p)) (ph_deaccels p) d with
    | Some s => Ok (s_time (ph_accel p) + s_time (ph_coast p) + s_time s)
    | None => Throw
    end
  else Throw.

(* runtime.h:12-23 timestamp, and timestamps *)
Record timestamp : Type := mkts { ts_arrival : N; ts_departure : N; ts_elem : elem }.
Record timestamps : Type := mktss { tss_times : list timestamp; tss_halts : list nat }.
(* runtime.cc:261-278 *)
Definition event_reached (ts : timestamps) (arrival departure : N) (e : elem) : res timestamps :=
  sassert (match tss_times ts with [] => true | _ => negb (arrival =? TIME_MAX)%N end) ;;
  sassert (arrival <=? departure)%N ;;
  Ok (mktss (tss_times ts ++ [mkts arrival departure e])
            (if e_halt e then tss_halts ts ++ [length (tss_times ts)] else tss_halts ts)).

(* runtime.cc:181-193 *)
Fixpoint determine_events (prev iv : interval) (start_departure end_arrival end_departure : N)
  (p : phases) (evs : list event) (ts : timestamps) : res timestamps :=
  match evs with
  | [] => Ok ts
  | ev :: evs =>
      do ts <-
        (if fuzzy_eq (ev_dist ev) (iv_dist iv)
         then event_reached ts end_arrival end_departure (ev_elem ev)
         else
           do t <- get_event_time p (ev_dist ev - iv_dist prev);
           do s <- si_to_relative_time t;
           do stamp <- plus_time start_departure s;
           event_reached ts stamp stamp (ev_elem ev));
      determine_events prev iv start_departure end_arrival end_departure p evs ts
  end.

(* runtime.cc:213-254, one iteration: the clock, the speed and the timestamps *)
Definition run_interval (fuel : nat) (tp : physics) (start : N) (prev iv : interval)
  (st : Q * Q * timestamps) : res (Q * Q * timestamps) :=
  let '(clock, speed, ts) := st in
  sassert (negb (fuzzy_eq (iv_dist iv - iv_dist prev) 0)) ;;
  do p <- get_runtime_phases fuel tp speed prev iv;
  do s0 <- si_to_relative_time clock;
  do start_departure <- plus_time start s0;
  let speed := s_speed (ph_accel p) in
  let speed := if nonempty (ph_coasts p) then s_speed (ph_coast p) else speed in
  let speed := if nonempty (ph_deaccels p) then s_speed (ph_deaccel p) else speed in
  let clock := clock + (s_time (ph_accel p) + s_time (ph_coast p) + s_time (ph_deaccel p)) in
  do s1 <- si_to_relative_time clock;
  do end_arrival <- plus_time start s1;
  do ' (end_departure, clock) <-
    match iv_stop iv with
    | Some st =>
        do earliest <- plus_time end_arrival (st_min_stop st);
        let dep := N.max (st_departure st) earliest in
        do stand <- minus_time dep end_arrival;
        Ok (dep, clock + relative_to_si_time stand)
    | None => Ok (end_arrival, clock)
    end;
  do ts <- determine_events prev iv start_departure end_arrival end_departure p (iv_events iv) ts;
  sassert (qle speed (iv_right iv)) ;;
  Ok (clock, speed, ts).
Fixpoint run_intervals (fuel : nat) (tp : physics) (start : N) (prev : interval)
  (l : list interval) (st : Q * Q * timestamps) : res (Q * Q * timestamps) :=
  match l with
  | [] => Ok st
  | iv :: l => do st <- run_interval fuel tp start prev iv st; run_intervals fuel tp start iv l st
  end.

(* runtime.cc:205-210 *)
Fixpoint first_events (start : N) (first : interval) (evs : list event) (ts : timestamps)
  : res timestamps :=
  match evs with
  | [] => Ok ts
  | ev :: evs =>
      sassert (is_halt first) ;;
      do ts <- event_reached ts start start (ev_elem ev);
      first_events start first evs ts
  end.

(* runtime.cc:196-255 on a given interval list; start: the departure of the first
   sequence point, valid (train.cc:74-78) *)
Definition run_list (fuel : nat) (tp : physics) (start : N) (il : list interval)
  : res (Q * Q * timestamps) :=
  sassert (negb (start =? TIME_MAX)%N) ;;
  match il with
  | [] => UB
  | first :: il =>
      do ts <- first_events start first (iv_events first) (mktss [] []);
      run_intervals fuel tp start first il (0, 0, ts)
  end.
(* runtime.cc:257-283 *)
Definition runtime_calculation (fuel : nat) (tp : physics) (start : N) (initial_limit : Q)
  (ns : list tnode) : res timestamps :=
  do il <- get_interval_list fuel tp initial_limit ns;
  do ' (_, _, ts) <- run_list fuel tp start il;
  Ok ts.
