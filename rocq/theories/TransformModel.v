(* Model of the mapping from a sequence of station routes to a path of
   interlocking routes:
   src/timetable/parsers/station_route_to_interlocking_route.cc,
   src/timetable/sequence_point.cc (get_node_idx, get_node).

   Simplifications
   - station_route::runtime_checkpoint_ is given by a function
   - reading an empty optional stops the program (Throw), a read past the end of
     a vector is undefined (UB)
   - std::size_t arithmetic is modulo 2^64 *)
From Verif Require Import Base AlgoModel RouteModel.

(* sequence_point.h:24,48-55; times in seconds, 2^32 - 1 is the invalid time *)
Inductive stop_type : Type := TRANSIT | OPERATIONS | PASSENGER | REQUEST.
Record seqpoint : Type := mkpt {
  sp_type : stop_type; sp_arrival : N; sp_departure : N; sp_min_stop : N; sp_sr : nat }.
Definition TIME_INVALID : N := 4294967295.               (* time.h:75-76 *)
(* sequence_point.cc:8-10 is_halt *)
Definition sp_halt (p : seqpoint) : bool := match sp_type p with TRANSIT => false | _ => true end.
(* time.h:78-81 valid(departure_) *)
Definition sp_timed (p : seqpoint) : bool := negb (sp_departure p =? TIME_INVALID)%N.
(* stop_sequence.h:7-11 *)
Record stopseq : Type := mkss { ss_points : list seqpoint; ss_break_in : bool; ss_break_out : bool }.
(* station_route_to_interlocking_route.cc:63-87 *)
Record cover : Type := mkcover { cv_off : N; cv_idx : N }.
(* route_transform_error.h *)
Inductive rt_error : Type := NO_FIRST_IR | NO_UNIQUE_FIRST_IR | NO_UNIQUE_IR | NO_IR.

Definition M64 : N := 18446744073709551616.
Definition add64 (a b : N) : N := ((a + b) mod M64)%N.
Definition sub64 (a b : N) : N := ((a + (M64 - b mod M64)) mod M64)%N.
(* operator[] with a 64 bit index *)
Definition at64 {A} (l : list A) (i : N) : res A :=
  if (i <? N.of_nat (length l))%N then at_ l (N.to_nat i) else UB.

Section TRANSFORM.
  Variable srs : list sroute.
  Variable checkpoint : nat -> option nat.
  Variable irs : list iroute.
  Variables part starting_at halting_at : list (list N).   (* the interlocking tables *)
  Variable freight : bool.

  (* station_route.cc:88-91 *)
  Definition halt_idx (r : sroute) : option nat := if freight then sr_freight_halt r else sr_passenger_halt r.
  (* sequence_point.cc:20-22 has_transit_time *)
  Definition has_transit_time (p : seqpoint) : bool := negb (sp_halt p) && sp_timed p.
  (* sequence_point.h:33-35 *)
  Definition measurable (p : seqpoint) : bool := has_transit_time p || sp_halt p.
  (* sequence_point.cc:34-47 *)
  Definition node_idx (p : seqpoint) : res (option nat) :=
    do sr <- at_ srs (sp_sr p);
    Ok (if has_transit_time p then checkpoint (sp_sr p)
        else if sp_halt p then halt_idx sr else None).

  (* :18-36 *)
  Fixpoint prefix_length (l : list nat) (ps : list seqpoint) : nat :=
    match l, ps with
    | s :: l, p :: ps => if Nat.eqb s (sp_sr p) then S (prefix_length l ps) else 0
    | _, _ => 0
    end.
  (* :38-60; best and cur are longest_prefixes and current_longset_prefix *)
  Fixpoint longest_loop (cands : list N) (ps : list seqpoint) (best : list N) (cur : nat) : res (list N * nat) :=
    match cands with
    | [] => Ok (best, cur)
    | c :: cands =>
        do ir <- at_ irs (N.to_nat c);
        let l := prefix_length (ir_srs ir) ps in
        let best := if Nat.ltb cur l then [] else best in
        let cur := if Nat.ltb cur l then l else cur in
        longest_loop cands ps (if Nat.leb cur l then best ++ [c] else best) cur
    end.
  (* std::begin(points_) + sr_offset; callers have checked the offset *)
  Definition longest (cands : list N) (ss : stopseq) (off : N) : res (list N * nat) :=
    longest_loop cands (skipn (N.to_nat off) (ss_points ss)) [] 0.

  (* :64-83 *)
  Definition covers (c : cover) (ss : stopseq) : res bool :=
    if (cv_off c <? N.of_nat (length (ss_points ss) - 1))%N then Ok false
    else
      match rev (ss_points ss) with
      | [] => UB
      | p :: _ =>
          do sr <- at_ srs (sp_sr p);
          do last <- (if sp_halt p then match halt_idx sr with Some i => Ok (N.of_nat i) | None => Throw end
                      else if ss_break_out ss then do n <- sr_size sr; Ok (match n with 0 => 65535%N | S k => N.of_nat k end)
                      else Ok 65535%N);
          Ok (N.ltb last (cv_idx c))
      end.

  (* :91-120 *)
  Definition get_candidates (ss : stopseq) (c : cover) (last_node : option N) : res (list N) :=
    do sp <- at64 (ss_points ss) (cv_off c);
    do cands <- at_ part (sp_sr sp);
    do cands <- match last_node with
                | Some n => do st <- at_ starting_at (N.to_nat n); intersect cands st
                | None => Ok cands
                end;
    if Nat.eqb (length cands) 1 then Ok cands
    else if negb (sp_halt sp) then Ok cands
    else
      do i <- node_idx sp;
      match i with
      | None => Throw
      | Some i =>
          if N.leb (cv_idx c) (N.of_nat i) then
            do sr <- at_ srs (sp_sr sp);
            do n <- sr_node sr i;
            do h <- at_ halting_at (N.to_nat n);
            intersect cands h
          else Ok cands
      end.

  (* :127-175 *)
  Definition get_first_ir (ss : stopseq) : res (rt_error + N * cover) :=
    match ss_points ss with
    | [] => UB
    | p :: _ =>
        do fsr <- at_ srs (sp_sr p);
        do fn <- (if ss_break_in ss then do n <- sr_node fsr 0; Ok (Some n) else Ok None);
        do cands <- get_candidates ss (mkcover 0 0) fn;
        do ' (best, len) <- longest cands ss 0;
        match best with
        | [] => Ok (inl NO_FIRST_IR)
        | [b] =>
            do ir <- at_ irs (N.to_nat b);
            let off := if Nat.eqb len 0
                       then sub64 (sub64 (N.of_nat (length (ir_srs ir)))
                                         (N.of_nat (find_if (Nat.eqb (sp_sr p)) (ir_srs ir)))) 1
                       else N.of_nat (len - 1) in
            Ok (inr (b, mkcover off (N.of_nat (ir_end ir))))
        | _ => Ok (inl NO_UNIQUE_FIRST_IR)
        end
    end.

  (* :177-198; n points from index i on *)
  Fixpoint sequence_points (ir : iroute) (ss : stopseq) (i : N) (n : nat) : res (list seqpoint) :=
    match n with
    | 0 => Ok []
    | S n =>
        do sp <- at64 (ss_points ss) i;
        do idx <- node_idx sp;
        do t <- sequence_points ir ss (add64 i 1) n;
        Ok (match idx with
            | Some k => if ir_contains ir (sp_sr sp) k then sp :: t else t
            | None => t
            end)
    end.

  (* :224-272 *)
  Fixpoint transform_loop (fuel : nat) (ss : stopseq) (c : cover) (cur : iroute)
      (path : list N) (pts : list seqpoint) : res (rt_error + list N * list seqpoint) :=
    match fuel with
    | 0 => Fuel
    | S fuel =>
        do done <- covers c ss;
        if done then Ok (inr (path, pts))
        else
          do ln <- last_node srs cur;
          do cands <- get_candidates ss c (Some ln);
          do ' (best, len) <- longest cands ss (cv_off c);
          match best with
          | [] => Ok (inl NO_IR)
          | [b] =>
              do ir <- at_ irs (N.to_nat b);
              let path := path ++ [ir_id ir] in
              do more <- sequence_points ir ss (cv_off c) len;
              let pts := pts ++ more in
              if (N.of_nat (length (ss_points ss)) <? add64 (cv_off c) (N.of_nat (length (ir_srs ir))))%N
              then Ok (inr (path, pts))
              else
                do sp <- at64 (ss_points ss) (cv_off c);
                do lsr <- at_ srs (sp_sr sp);
                do ln' <- last_node srs ir;
                do back <- match rev (sr_nodes lsr) with n :: _ => Ok n | [] => UB end;
                let off := if N.eqb ln' back then add64 (cv_off c) (N.of_nat len)
                           else add64 (cv_off c) (sub64 (N.of_nat len) 1) in
                transform_loop fuel ss (mkcover off (N.of_nat (ir_end ir))) ir path pts
          | _ => Ok (inl NO_UNIQUE_IR)
          end
    end.

  (* :200-280 *)
  Definition transform_to_interlocking (fuel : nat) (ss : stopseq)
    : res (rt_error + list N * list seqpoint) :=
    do f <- get_first_ir ss;
    match f with
    | inl e => Ok (inl e)
    | inr (b, c) =>
        do ir <- at_ irs (N.to_nat b);
        do pts <- sequence_points ir ss 0 (N.to_nat (add64 (cv_off c) 1));
        do r <- transform_loop fuel ss c ir [b] pts;
        match r with
        | inl e => Ok (inl e)
        | inr (path, pts) =>
            sassert (Nat.eqb (length (filter measurable (ss_points ss))) (length pts)) ;;
            Ok (inr (path, pts))
        end
    end.
End TRANSFORM.
