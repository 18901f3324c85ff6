(* Model of the calendar part of soro::tt::train:
   include/soro/timetable/train.h:44-75,85-96, src/timetable/train.cc:24-125 and
   include/soro/timetable/interval.h.

   Simplification: of the sequence points only the first departure and the last
   arrival are kept; everything else of a train plays no role here. *)
From Verif Require Import Base BitfieldModel.
Open Scope N_scope.

(* interval.h:8-21; default {absolute_time::min(), absolute_time::max()} *)
Record interval : Type := mkint { iv_start : N; iv_end : N }.
Definition interval_default : interval := mkint 0 4294967295.
Definition iv_valid (i : interval) : bool := iv_start i <=? iv_end i.
Definition iv_overlaps (a b : interval) : bool :=
  (iv_start a <=? iv_end b) && (iv_start b <=? iv_end a).

(* train.h:121-131 *)
Record train : Type := mktrain {
  tr_id : N;
  tr_days : bf;
  tr_first_departure : N;     (* sequence_points_.front().departure_ *)
  tr_last_arrival : N }.      (* sequence_points_.back().arrival_ *)

Definition REL_INVALID : N := 4294967295.               (* time.h:75-76 *)
(* train.cc:74-84 *)
Definition first_departure (t : train) : res N :=
  sassert (negb (tr_first_departure t =? REL_INVALID)) ;; Ok (tr_first_departure t).
Definition last_arrival (t : train) : res N :=
  sassert (negb (tr_last_arrival t =? REL_INVALID)) ;; Ok (tr_last_arrival t).

(* train.cc:86-93 *)
Definition first_absolute_departure (t : train) : res N :=
  do d <- bf_first_set_date (tr_days t);
  do r <- first_departure t; Ok (relative_to_absolute d r).
Definition last_absolute_arrival (t : train) : res N :=
  do d <- bf_last_set_date (tr_days t);
  do r <- last_arrival t; Ok (relative_to_absolute d r).

(* train.cc:95-107 *)
Definition event_interval (t : train) (m : N) : res interval :=
  sassert (midnight m =? m) ;;
  do v <- bf_at (tr_days t) (day_of m);
  sassert v ;;
  do d <- first_departure t;
  do a <- last_arrival t;
  Ok (mkint (relative_to_absolute m d) (relative_to_absolute m a)).

(* train.cc:33-39; the iterator is the index of its bitfield iterator.
   The comparison `*bitfield_it_ <= interval_.end_` converts the day number to
   uint32_t seconds. *)
Fixpoint advance (n : nat) (t : train) (iv : interval) (i : N) : res N :=
  do e <- bf_end (tr_days t);
  if i =? e then Ok i
  else
    do d <- it_deref (tr_days t) i;
    if day_to_abs d <=? iv_end iv then
      do d' <- it_deref (tr_days t) i;
      do ev <- event_interval t (day_to_abs d');
      if iv_overlaps iv ev then Ok i
      else match n with
           | O => Fuel
           | S n => do j <- it_inc (tr_days t) i; advance n t iv j
           end
    else Ok i.

Definition ADV : nat := N.to_nat 65536.

(* train.cc:24-31 *)
Definition train_it (t : train) (iv : interval) (fin : bool) : res N :=
  do i <- (if fin then bf_to (tr_days t) (iv_end iv) else bf_from (tr_days t) (iv_start iv));
  advance ADV t iv i.

(* train.cc:41-47 *)
Definition train_it_inc (t : train) (iv : interval) (i : N) : res N :=
  do e <- bf_end (tr_days t);
  sassert (negb (i =? e)) ;;
  do j <- it_inc (tr_days t) i;
  advance ADV t iv j.

(* train.cc:49-51 *)
Definition train_it_deref (t : train) (i : N) : res N :=
  do d <- it_deref (tr_days t) i; Ok (day_to_abs d).

Fixpoint train_loop (n : nat) (t : train) (iv : interval) (i e : N) : res (list N) :=
  if i =? e then Ok []
  else match n with
       | O => Fuel
       | S n => do d <- train_it_deref t i;
                do j <- train_it_inc t iv i;
                do l <- train_loop n t iv j e;
                Ok (d :: l)
       end.

(* train.cc:53-57: the range-for over departures(interval) *)
Definition departures (t : train) (iv : interval) : res (list N) :=
  do i <- train_it t iv false;
  do e <- train_it t iv true;
  train_loop ADV t iv i e.

(* train.cc:114 *)
Definition trip_count (t : train) : N := bf_count (tr_days t).

(* train.cc:116-125 *)
Definition trips (t : train) : res (list (N * N)) :=
  do l <- departures t interval_default;
  Ok (map (fun a => (tr_id t, a)) l).
