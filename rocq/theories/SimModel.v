(* Model of the simulation graph: src/simulation/sim_graph.cc, sim_graph.h.

   Simplifications
   - ids are natural numbers (uint32_t in the code); INVALID is None
   - the routes of a node (ir_id_) are left out: every node is created with INVALID
   - debug says whether utls::sassert is checked; if not, a failed one is passed over
   - of a distribution only whether it is empty matters for the order of the work *)
From Verif Require Import Base GraphModel DpdModel.
Local Open Scope nat_scope.

(* sim_graph.h:19-47 *)
Record snode : Type := mksn { s_id : nat; s_train : nat; s_pred : option nat; s_succ : option nat;
  s_order_in : list nat; s_order_out : list nat }.
(* sim_graph.cc:40-48 *)
Definition s_out (n : snode) : list nat := match s_succ n with Some s => [s] | None => [] end ++ s_order_out n.
(* sim_graph.cc:50-58 *)
Definition s_in (n : snode) : list nat := match s_pred n with Some p => [p] | None => [] end ++ s_order_in n.

(* sim_graph.cc:65-105: the first node, and after the assertion two more *)
Definition init_node (id tr : nat) : snode := mksn id tr None None [] [].
Fixpoint make_nodes (debug : bool) (trains : list nat) (nodes : list snode) (ranges : list (nat * nat)) :
    res (list snode * list (nat * nat)) :=
  match trains with
  | [] => Ok (nodes, ranges)
  | tr :: trains =>
      let first := length nodes in
      let nodes := nodes ++ [init_node first tr] in
      if debug then Throw
      else
        let nodes := nodes ++ [init_node (length nodes) tr] in
        let nodes := nodes ++ [init_node (length nodes) tr] in
        do ranges <- update ranges tr (fun _ => Ok (first, length nodes));
        make_nodes debug trains nodes ranges
  end.
(* sim_graph.cc:110-118 *)
Fixpoint connect (ranges : list (nat * nat)) (nodes : list snode) : res (list snode) :=
  match nodes with
  | [] => Ok []
  | n :: nodes =>
      match nth_error ranges (s_train n) with
      | None => UB
      | Some (from, to) =>
          do rest <- connect ranges nodes;
          Ok (mksn (s_id n) (s_train n)
                (if s_id n =? from then s_pred n else Some (s_id n - 1))
                (if s_id n =? to - 1 then s_succ n else Some (s_id n + 1))
                (s_order_in n) (s_order_out n) :: rest)
      end
  end.
(* sim_graph.cc:60-150; trains are the ids of the trains in the order of the timetable *)
Definition sim_graph (debug : bool) (trains : list nat) : res (list snode) :=
  do ' (nodes, ranges) <- make_nodes debug trains [] (repeat (0, 0) (length trains));
  connect ranges nodes.

(* sim_graph.cc:152-168: handle_node stops the search where it sets the result *)
Definition out_ids (g : list snode) (i : nat) : list nat := match nth_error g i with Some n => s_out n | None => [] end.
Definition sim_path_exists (g : list snode) (from to : nat) : res bool :=
  if from <? length g
  then bfs (S (length g)) from (out_ids g) (fun _ node _ => (node =? to, node =? to)) no_edge false
  else UB.

(* sim_graph.cc:175-185: every combination is inserted under the later time *)
Definition maxima (l1 l2 : list (Z * Q)) : list (Z * Q) :=
  flat_map (fun x => map (fun y => (Z.max (fst x) (fst y), (snd x * snd y)%Q)) l2) l1.
Definition fold_max (d1 d2 : dpd1) : res dpd1 :=
  match d1_mass d1 with
  | [] => Ok (empty1 time_primary)
  | _ =>
      do l1 <- entries1 time_primary d1;
      do l2 <- entries1 time_primary d2;
      inserts1 time_primary (empty1 time_primary) (maxima l1 l2)
  end.

(* sim_graph.cc:22-24, 170-173: results are the exit distributions *)
Definition finished (results : list dpd1) (n : snode) : res bool :=
  match nth_error results (s_id n) with Some d => Ok (match d1_mass d with [] => false | _ => true end) | None => UB end.
(* sim_graph.cc:26-29 *)
Fixpoint all_finished (g : list snode) (results : list dpd1) (l : list nat) : res bool :=
  match l with
  | [] => Ok true
  | i :: l => match nth_error g i with None => UB | Some n => do b <- finished results n; if b : bool then all_finished g results l else Ok false end
  end.
Definition ready (g : list snode) (results : list dpd1) (n : snode) : res bool := all_finished g results (s_in n).
(* std::set<id>::emplace *)
Fixpoint emplace (i : nat) (l : list nat) : list nat :=
  match l with [] => [i] | j :: l => if i <? j then i :: j :: l else if i =? j then j :: l else j :: emplace i l end.
(* sim_graph.cc:201-209 *)
Fixpoint first_todo (g : list snode) (results : list dpd1) (nodes : list snode) (todo : list nat) : res (list nat) :=
  match nodes with
  | [] => Ok todo
  | n :: nodes =>
      do f <- finished results n;
      if f : bool then first_todo g results nodes todo
      else do r <- ready g results n; first_todo g results nodes (if r : bool then emplace (s_id n) todo else todo)
  end.
(* sim_graph.cc:187-191: compute_dists does nothing but fail *)
Definition compute_dists (debug : bool) (results : list dpd1) : res (list dpd1) := if debug then Throw else Ok results.
(* sim_graph.cc:216-220 *)
Fixpoint next_todo (g : list snode) (results : list dpd1) (l todo : list nat) : res (list nat) :=
  match l with
  | [] => Ok todo
  | i :: l => match nth_error g i with None => UB | Some n => do r <- ready g results n; next_todo g results l (if r : bool then emplace i todo else todo) end
  end.
(* sim_graph.cc:211-221 *)
Fixpoint work (debug : bool) (fuel : nat) (g : list snode) (results : list dpd1) (todo : list nat) : res (list dpd1) :=
  match fuel with
  | O => Fuel
  | S fuel =>
      match todo with
      | [] => Ok results
      | i :: todo =>
          do results <- compute_dists debug results;
          do todo <- next_todo g results (out_ids g i) todo;
          work debug fuel g results todo
      end
  end.
(* sim_graph.cc:193-224: the constructor of the result does nothing but fail *)
Definition simulate (debug : bool) (fuel : nat) (g : list snode) : res (list dpd1) :=
  if debug then Throw
  else do todo <- first_todo g [] g []; work debug fuel g [] todo.
