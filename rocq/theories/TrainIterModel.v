(* Model of the iteration over the nodes a train passes:
   src/timetable/train.cc:152-256 and the constructor of train_node.

   Simplifications
   - a generator is the list of everything it yields; if it throws or runs out
     of bounds on the way, that is its result
   - a pointer to a sequence point is its index
   - reading an empty optional stops the program (Throw)
   - assertions throw *)
From Verif Require Import Base RouteModel TransformModel.

(* train.h:31-150, only the fields used below *)
Record train : Type := mktrain {
  tr_break_in : bool; tr_break_out : bool;
  tr_path : list N; tr_points : list seqpoint }.

(* train.h:20-27 *)
Record tnode : Type := mktn { tn_route : rnode; tn_point : option nat }.

Section TRAIN.
  Variable srs : list sroute.
  Variable checkpoint : nat -> option nat.
  Variable irs : list iroute.
  Variable freight : bool.

  (* *sequence_point.get_node_idx(...) (sequence_point.cc:34-47) *)
  Definition the_idx (p : seqpoint) : res nat :=
    do i <- node_idx srs checkpoint freight p;
    match i with Some i => Ok i | None => Throw end.

  (* *sequence_point.get_node(...) (sequence_point.cc:49-55) *)
  Definition the_node (p : seqpoint) : res N :=
    do sr <- at_ srs (sp_sr p);
    do i <- the_idx p;
    sr_node sr i.

  (* front() and back() of a vector *)
  Definition front {A} (l : list A) : res A := match l with a :: _ => Ok a | [] => UB end.
  Definition back {A} (l : list A) : res A := match rev l with a :: _ => Ok a | [] => UB end.

  (* train.cc:158-166 *)
  Definition first_ir (t : train) : res iroute := do i <- front (tr_path t); at_ irs (N.to_nat i).
  Definition last_ir (t : train) : res iroute := do i <- back (tr_path t); at_ irs (N.to_nat i).

  (* train.cc:171-195: the path is a single interlocking route *)
  Definition iterate_single (t : train) : res (list rnode) :=
    do r <- first_ir t;
    do from_sr <- (if tr_break_in t then front (ir_srs r)
                   else do p <- front (tr_points t); Ok (sp_sr p));
    do from <- (if tr_break_in t then Ok (ir_start r)
                else do p <- front (tr_points t); the_idx p);
    do q <- last_ir t;
    do to_sr <- (if tr_break_out t then back (ir_srs q)
                 else do p <- back (tr_points t); Ok (sp_sr p));
    do to <- (if tr_break_out t then Ok (ir_end r)
              else do p <- back (tr_points t); do i <- the_idx p; Ok (i + 1));
    ir_from_to srs r from_sr from to_sr to.

  (* train.cc:197-213 *)
  Definition iterate_first (t : train) : res (list rnode) :=
    do r <- first_ir t;
    if tr_break_in t then ir_iterate srs r
    else
      do p <- front (tr_points t);
      sassert (sp_halt p) ;;
      do i <- node_idx srs checkpoint freight p;
      match i with
      | Some i => ir_from srs r (sp_sr p) i
      | None => Throw
      end.

  (* train.cc:215-220: the routes between the first and the last one *)
  Fixpoint iterate_middle (l : list N) : res (list rnode) :=
    match l with
    | [] => Ok []
    | i :: l =>
        do r <- at_ irs (N.to_nat i);
        do s <- front (ir_srs r);
        do a <- ir_from srs r s (ir_start r + 1);
        do b <- iterate_middle l;
        Ok (a ++ b)
    end.

  (* train.cc:222-241 *)
  Definition iterate_last (t : train) : res (list rnode) :=
    do r <- last_ir t;
    do s <- front (ir_srs r);
    if tr_break_out t then ir_from srs r s (ir_start r + 1)
    else
      do p <- back (tr_points t);
      sassert (sp_halt p) ;;
      do i <- node_idx srs checkpoint freight p;
      match i with
      | Some i => ir_from_to srs r s (ir_start r + 1) (sp_sr p) (i + 1)
      | None => Throw
      end.

  (* train.cc:168-242; path_.front() of an empty path is undefined *)
  Definition iterate_train (t : train) : res (list rnode) :=
    match tr_path t with
    | [] => UB
    | [_] => iterate_single t
    | _ :: rest =>
        do a <- iterate_first t;
        do b <- iterate_middle (removelast rest);
        do c <- iterate_last t;
        Ok (a ++ b ++ c)
    end.

  (* train.cc:244-256; k is sp_idx *)
  Fixpoint attach (ps : list seqpoint) (k : nat) (l : list rnode) : res (list tnode) :=
    match l with
    | [] => Ok []
    | x :: l =>
        match ps with
        | [] => do r <- attach ps k l; Ok (mktn x None :: r)
        | p :: ps' =>
            do n <- the_node p;
            if N.eqb n (rn_node x)
            then do r <- attach ps' (S k) l; Ok (mktn x (Some k) :: r)
            else do r <- attach ps k l; Ok (mktn x None :: r)
        end
    end.
  Definition train_iterate (t : train) : res (list tnode) :=
    do l <- iterate_train t; attach (tr_points t) 0 l.

  (* train.cc:20-22; halt says whether a node is a HALT *)
  Definition tn_omitted (halt : N -> bool) (x : tnode) : bool :=
    rn_omitted (tn_route x) ||
    (halt (rn_node (tn_route x)) && match tn_point x with None => true | Some _ => false end).
End TRAIN.
