(* Model of polynomials, piecewise functions, train physics and the driving
   phases:
   include/soro/utls/math/polynomial.h, include/soro/utls/math/piecewise_function.h,
   src/rolling_stock/train_physics.cc, src/runtime/runtime_physics.cc.

   Simplifications
   - quantities (double) are exact rationals: rounding, infinities and NaN are
     not modelled.  Where the C++ divides by zero, or converts a negative or
     infinite quotient to size_t, the model answers UB
   - soro::equal (fp_precision.h) is not used here: all comparisons of
     runtime_physics.cc are <, > on the values *)
From Coq Require Export QArith.
From Verif Require Import Base.

Definition qle (x y : Q) : bool := Qle_bool x y.
Definition qlt (x y : Q) : bool := negb (Qle_bool y x).
(* std::min(a, b) = b < a ? b : a *)
Definition qmin (a b : Q) : Q := if qlt b a then b else a.

(* polynomial.h:81-107: Horner's scheme, factors in descending degree *)
Fixpoint horner (x acc : Q) (fs : list Q) : Q :=
  match fs with
  | [] => acc
  | f :: fs => horner x (f + acc * x) fs
  end.
Definition polynomial (fs : list Q) (x : Q) : Q :=
  match fs with
  | [] => 0
  | f :: fs => horner x f fs
  end.

(* piecewise_function.h:19-29 *)
Record piece : Type := mkpiece { p_factors : list Q; p_from : Q; p_to : Q }.
(* piecewise_function.h:50-66: the first piece with x < to_, utl::verify if none *)
Fixpoint piecewise (ps : list piece) (x : Q) : res Q :=
  match ps with
  | [] => Throw
  | p :: ps => if qlt x (p_to p) then Ok (polynomial (p_factors p) x) else piecewise ps x
  end.
(* fp_precision.h:16-20 equal, piecewise_function.h:37-45 is_continuous *)
Definition FP_PRECISION : Q := 1 # 100.
Definition qabs (x : Q) : Q := if qlt x 0 then - x else x.
Definition fuzzy_eq (x y : Q) : bool := qlt (qabs (x - y)) FP_PRECISION.
Fixpoint is_continuous (ps : list piece) : bool :=
  match ps with
  | p :: ((q :: _) as ps') => fuzzy_eq (qabs (p_to p - p_from q)) 0 && is_continuous ps'
  | _ => true
  end.
(* piecewise_function.h:71-77 make_piecewise *)
Definition make_piecewise (ps : list piece) : res (list piece) :=
  sassert (is_continuous ps) ;; Ok ps.

(* train_series.h:41-51; name and the vehicle's own weight are not read here *)
Record vehicle : Type := mkvehicle {
  v_max_speed : Q; v_deacceleration : Q; v_tractive : list piece; v_resistance : list Q }.
(* train_physics.h:9-48; length, ctc and freight are not read here *)
Record physics : Type := mkphysics {
  tp_vehicles : list vehicle; tp_weight : Q; tp_max : Q }.

(* std::min_element by max_speed_: the first smallest one *)
Fixpoint slowest (best : Q) (vs : list vehicle) : Q :=
  match vs with
  | [] => best
  | v :: vs => slowest (if qlt (v_max_speed v) best then v_max_speed v else best) vs
  end.
(* train_physics.cc:27-33; dereferencing the end iterator of an empty list is UB *)
Definition max_speed (tp : physics) : res Q :=
  match tp_vehicles tp with
  | [] => UB
  | v :: vs => Ok (qmin (slowest (v_max_speed v) vs) (tp_max tp))
  end.
(* train_physics.cc:35-39 *)
Fixpoint tractive_sum (acc : Q) (vs : list vehicle) (v : Q) : res Q :=
  match vs with
  | [] => Ok acc
  | vh :: vs => do f <- piecewise (v_tractive vh) v; tractive_sum (acc + f) vs v
  end.
Definition tractive_force (tp : physics) (v : Q) : res Q := tractive_sum 0 (tp_vehicles tp) v.
(* train_physics.cc:41-45 *)
Fixpoint resistive_sum (acc : Q) (vs : list vehicle) (v : Q) : Q :=
  match vs with
  | [] => acc
  | vh :: vs => resistive_sum (acc + polynomial (v_resistance vh) v) vs v
  end.
Definition resistive_force (tp : physics) (v : Q) : Q := resistive_sum 0 (tp_vehicles tp) v.
(* train_physics.cc:47-49; front() of an empty vector is UB *)
Definition deacceleration (tp : physics) : res Q :=
  match tp_vehicles tp with [] => UB | v :: _ => Ok (v_deacceleration v) end.

(* runtime_physics.h:11-22 *)
Definition DELTA_T : Q := 1 # 2.
Record sample : Type := mksample { s_time : Q; s_dist : Q; s_speed : Q }.
Definition zero_sample : sample := mksample 0 0 0.
(* results.back() of a non-empty list; results.back() = ... *)
Definition back (l : list sample) : sample := last l zero_sample.
Fixpoint map_last (f : sample -> sample) (l : list sample) : list sample :=
  match l with
  | [] => []
  | [a] => [f a]
  | a :: l => a :: map_last f l
  end.
Definition fix_last (f : sample -> sample) (l : list sample) : list sample :=
  if Nat.ltb 1 (length l) then map_last f l else l.
Definition with_dist (d : Q) (s : sample) : sample := mksample (s_time s) d (s_speed s).
Definition with_dist_speed (d v : Q) (s : sample) : sample := mksample (s_time s) d v.

(* runtime_physics.cc:24-29 *)
Fixpoint coast_loop (fuel : nat) (v distance t d : Q) : res (list sample) :=
  if qlt d distance then
    match fuel with
    | O => Fuel
    | S fuel =>
        let t := t + DELTA_T in
        let d := d + v * DELTA_T in
        do l <- coast_loop fuel v distance t d;
        Ok (mksample t d v :: l)
    end
  else Ok [].
(* runtime_physics.cc:13-36; :14-18 divide by the speed and convert the quotient
   to size_t *)
Definition coast (fuel : nat) (v distance : Q) : res (list sample) :=
  if qle v 0 then UB
  else
    do l <- coast_loop fuel v distance 0 0;
    Ok (fix_last (with_dist distance) (mksample 0 0 v :: l)).

(* runtime_physics.cc:59-65 *)
Fixpoint brake_loop (fuel : nat) (a braking_time t d v : Q) : res (list sample) :=
  if qlt t braking_time then
    match fuel with
    | O => Fuel
    | S fuel =>
        let t := t + DELTA_T in
        let d := d + v * DELTA_T in
        let v := v + a * DELTA_T in
        do l <- brake_loop fuel a braking_time t d v;
        Ok (mksample t d v :: l)
    end
  else Ok [].
(* runtime_physics.cc:44, 50-52 *)
Definition braking_time (a initial target : Q) : Q := - (initial - target) / a.
Definition braking_distance (a initial target : Q) : Q :=
  let t := braking_time a initial target in (1 # 2) * a * (t * t) + initial * t.
(* runtime_physics.cc:38-73; :44-48 divide by the deacceleration and convert the
   quotient to size_t *)
Definition brake (fuel : nat) (tp : physics) (initial target : Q) : res (list sample) :=
  sassert (qlt target initial) ;;
  do a <- deacceleration tp;
  if qle 0 a then UB
  else
    do l <- brake_loop fuel a (braking_time a initial target) 0 0 initial;
    Ok (fix_last (with_dist_speed (braking_distance a initial target) target)
                 (mksample 0 0 initial :: l)).

(* si/constants.h *)
Definition MASS_FACTOR : Q := 106 # 100.
(* runtime_physics.cc:89-93 *)
Definition acceleration (tp : physics) (v : Q) : res Q :=
  do f <- tractive_force tp v;
  if Qeq_bool (tp_weight tp * MASS_FACTOR) 0 then UB
  else Ok ((f - resistive_force tp v) / (tp_weight tp * MASS_FACTOR)).
(* runtime_physics.cc:86-101 *)
Fixpoint accelerate_loop (fuel : nat) (tp : physics) (vmax target max_distance t d v : Q)
  : res (list sample) :=
  if qlt v vmax && qlt v target && qlt d max_distance then
    match fuel with
    | O => Fuel
    | S fuel =>
        do a <- acceleration tp v;
        let v' := v + a * DELTA_T in
        let d := d + (v + v') * (1 # 2) * DELTA_T in
        let t := t + DELTA_T in
        do l <- accelerate_loop fuel tp vmax target max_distance t d v';
        Ok (mksample t d v' :: l)
    end
  else Ok [].
(* runtime_physics.cc:103-109 *)
Definition trim (max_distance : Q) (l : list sample) : list sample :=
  if qlt max_distance (s_dist (back l)) then
    fix_last (with_dist max_distance) (removelast l)
  else l.
(* runtime_physics.cc:75-112 *)
Definition accelerate (fuel : nat) (tp : physics) (initial target max_distance : Q)
  : res (list sample) :=
  do vmax <- max_speed tp;
  do l <- accelerate_loop fuel tp vmax target max_distance 0 0 initial;
  Ok (trim max_distance (mksample 0 0 initial :: l)).
