(* Model of the generic graph algorithms:
   include/soro/utls/graph/has_cycle.h and include/soro/utls/graph/traversal.h.

   Simplifications
   - node ids are nat, get_neighbours is a function nat -> list nat
   - the std::vector<bool> tables are total functions nat -> bool; indices are
     in range when all neighbour ids are below the number of nodes, which is a
     hypothesis of every theorem
   - the C++ recursion/loops carry fuel; running out of it is the outcome Fuel *)
From Verif Require Import Base.

Definition upd {A : Type} (f : nat -> A) (i : nat) (v : A) : nat -> A :=
  fun j => if Nat.eqb j i then v else f j.

(* ---- has_cycle.h:14-55 ---- *)

Section HasCycle.
  Variable nbrs : nat -> list nat.

  Definition marks : Type := ((nat -> bool) * (nat -> bool))%type.   (* visited, finished *)

  (* has_cycle.h:33-37: the loop over the neighbours, returns early on true *)
  Fixpoint nb_loop (rec : nat -> marks -> res (bool * marks)) (ns : list nat) (m : marks)
    : res (bool * marks) :=
    match ns with
    | [] => Ok (false, m)
    | x :: ns =>
        do r <- rec x m;
        if fst r then Ok (true, snd r) else nb_loop rec ns (snd r)
    end.

  (* has_cycle.h:21-42 *)
  Fixpoint detect (fuel : nat) (n : nat) (m : marks) : res (bool * marks) :=
    match fuel with
    | O => Fuel
    | S fuel =>
        if snd m n then Ok (false, m)
        else if fst m n then Ok (true, m)
        else
          do r <- nb_loop (detect fuel) (nbrs n) (upd (fst m) n true, snd m);
          if fst r then Ok (true, snd r)
          else Ok (false, (fst (snd r), upd (snd (snd r)) n true))
    end.

  (* has_cycle.h:47-54: any_of over 0 .. size-1, then the ensure *)
  Definition has_cycle (size : nat) : res bool :=
    do r <- nb_loop (detect (S size)) (seq 0 size) (fun _ => false, fun _ => false);
    sassert (fst r || (forallb (fst (snd r)) (seq 0 size) && forallb (snd (snd r)) (seq 0 size))) ;;
    Ok (fst r).
End HasCycle.

(* ---- traversal.h:15-54 ---- *)

Section Traversal.
  Variable St : Type.                                   (* state of the callbacks *)
  Variable is_bfs : bool.                               (* std::queue or std::stack *)
  Variable nbrs : nat -> list nat.
  Variable work_on_node : St -> nat -> nat -> St * bool.
  Variable work_on_edge : St -> nat -> nat -> St * bool.
  Variable start : nat.

  (* the todo container as a list whose head is the next element *)
  Definition push (q : list (nat * nat)) (x : nat * nat) : list (nat * nat) :=
    if is_bfs then q ++ [x] else x :: q.

  (* traversal.h:43-52 *)
  Fixpoint edge_loop (cur : nat) (ns : list nat) (q : list (nat * nat)) (seen : list nat) (s : St)
    : bool * list (nat * nat) * list nat * St :=
    match ns with
    | [] => (false, q, seen, s)
    | x :: ns =>
        let (s, stop) := work_on_edge s cur x in
        if stop then (true, q, seen, s)
        else if in_dec Nat.eq_dec x seen then edge_loop cur ns q seen s
        else edge_loop cur ns (push q (x, cur)) (x :: seen) s
    end.

  (* traversal.h:32-53 *)
  Fixpoint trav (fuel : nat) (q : list (nat * nat)) (seen : list nat) (s : St) : res St :=
    match q with
    | [] => Ok s
    | (cur, prev) :: q =>
        match fuel with
        | O => Fuel
        | S fuel =>
            let (s, stop) := if Nat.eqb cur start then (s, false) else work_on_node s cur prev in
            if stop then Ok s
            else match edge_loop cur (nbrs cur) q seen s with
                 | (true, _, _, s) => Ok s
                 | (false, q, seen, s) => trav fuel q seen s
                 end
        end
    end.

  (* traversal.h:27-30 *)
  Definition graph_traversal (fuel : nat) (s : St) : res St :=
    trav fuel [(start, start)] [] s.
End Traversal.

(* traversal.h:100-113,118-127: bfs and dfs *)
Definition bfs {St : Type} (fuel : nat) (start : nat) (nbrs : nat -> list nat)
  (wn we : St -> nat -> nat -> St * bool) (s : St) : res St :=
  graph_traversal St true nbrs wn we start fuel s.
Definition dfs {St : Type} (fuel : nat) (start : nat) (nbrs : nat -> list nat)
  (wn we : St -> nat -> nat -> St * bool) (s : St) : res St :=
  graph_traversal St false nbrs wn we start fuel s.
(* the overloads without an edge callback, traversal.h:109-117,130-138 *)
Definition no_edge {St : Type} (s : St) (_ _ : nat) : St * bool := (s, false).
