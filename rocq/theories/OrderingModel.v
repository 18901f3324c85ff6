(* Model of the ordering graph: include/soro/simulation/ordering/*.h and
   src/simulation/ordering/{ordering_graph,remove_transitive_edges,get_cycle,
   check_exclusion_paths}.cc.

   Simplifications
   - the vector nodes_ is its size plus one total function per field; the id_
     of the node at position i is i (ordering_graph.cc sets it so); std::vector
     tables indexed by node id are total functions
   - node ids are nat; the sentinel values uint32_t max() of `depth` and `prev`
     are None (a graph has fewer than 2^32-1 nodes)
   - a train is given by its id, its path, first departure, last arrival, the
     anchors departures(filter.interval_) yields (TrainModel.departures) and
     the main signal timestamps runtime_calculation computes
   - the to_ time of a route_usage is stored but never read by the code; it is
     left out; logging and timers are left out
   - std::sort is not stable: the sorting function is a parameter, the theorems
     hold for every function that returns a sorted permutation *)
From Verif Require Import Base GraphModel.

(* ordering_graph.h:12-27,36-45 *)
Record ograph : Type := mkog {
  og_size : nat;
  og_ir : nat -> nat;
  og_train : nat -> nat;
  og_in : nat -> list nat;
  og_out : nat -> list nat;
  og_trips : list ((nat * N) * (nat * nat)) }.   (* trip_to_nodes_ *)

Definition FUEL (og : ograph) : nat := S (og_size og).

(* ---- check_exclusion_paths.cc ---- *)

(* check_exclusion_paths.cc:10-27 *)
Definition get_reachable_nodes (og : ograph) (start : nat) : res (nat -> bool) :=
  bfs (FUEL og) start (og_out og)
      (fun r to _ => (upd r to true, false)) no_edge
      (upd (fun _ => false) start true).

(* check_exclusion_paths.cc:29-50 *)
Definition path_exists (og : ograph) (start target : nat) : res bool :=
  bfs (FUEL og) start (og_out og)
      (fun r to _ => if Nat.eqb to target then (true, true) else (r, false)) no_edge
      false.

(* check_exclusion_paths.cc:52-63; irs_to_es: irs_to_exclusion_sets_,
   es: the elements of exclusion_sets_[id] *)
Definition get_exclusions (irs_to_es es : nat -> list nat) (ir : nat) : nat -> bool :=
  fold_left (fun t s => fold_left (fun t x => upd t x true) (es s) t) (irs_to_es ir) (fun _ => false).

(* utls::all_of with a predicate that may fail *)
Fixpoint all_of (p : nat -> res bool) (l : list nat) : res bool :=
  match l with
  | [] => Ok true
  | x :: l => do b <- p x; if b then all_of p l else Ok false
  end.

(* check_exclusion_paths.cc:65-95 *)
Definition has_exclusion_paths_from (og : ograph) (irs_to_es es : nat -> list nat) (start : nat) : res bool :=
  do reachable <- get_reachable_nodes og start;
  let exclusions := get_exclusions irs_to_es es (og_ir og start) in
  all_of (fun target =>
    if Nat.eqb start target then Ok true
    else if exclusions (og_ir og target) then
      let start_target := reachable target in
      do target_start <- (if start_target then Ok true else path_exists og target start);
      Ok (start_target || target_start)
    else Ok true) (seq 0 (og_size og)).

(* check_exclusion_paths.cc:97-102 *)
Definition has_exclusion_paths (og : ograph) (irs_to_es es : nat -> list nat) : res bool :=
  all_of (has_exclusion_paths_from og irs_to_es es) (seq 0 (og_size og)).

(* ---- get_cycle.cc ---- *)

Definition cyc_state : Type := ((nat -> option nat) * (nat -> option nat))%type.   (* depth, prev *)

(* get_cycle.cc:19-26 *)
Definition cyc_node (s : cyc_state) (to from : nat) : cyc_state * bool :=
  match fst s to with
  | None => ((upd (fst s) to (option_map S (fst s from)), upd (snd s) to (Some from)), false)
  | Some _ => (s, false)
  end.
(* get_cycle.cc:28-35 *)
Definition cyc_edge (start : nat) (s : cyc_state) (from to : nat) : cyc_state * bool :=
  if Nat.eqb to start then ((fst s, upd (snd s) to (Some from)), true) else (s, false).

(* get_cycle.cc:49-53: while (current != start); an INVALID entry would be used
   as an index: UB *)
Fixpoint walk_back (fuel : nat) (prev : nat -> option nat) (start cur : nat) (c : list nat) : res (list nat) :=
  if Nat.eqb cur start then Ok c
  else match fuel with
       | O => Fuel
       | S fuel => match prev cur with
                   | Some p => walk_back fuel prev start p (c ++ [cur])
                   | None => UB
                   end
       end.

(* get_cycle.cc:9-58 *)
Definition get_shortest_cycle_from_node (og : ograph) (start : nat) : res (option (list nat)) :=
  do s <- bfs (FUEL og) start (og_out og) cyc_node (cyc_edge start)
              (upd (fun _ => None) start (Some 0), fun _ => None);
  match snd s start with
  | None => Ok None
  | Some cur => do c <- walk_back (FUEL og) (snd s) start cur [start]; Ok (Some (rev c))
  end.

(* get_cycle.cc:60-72 *)
Fixpoint cycles_of (og : ograph) (starts : list nat) : res (list (list nat)) :=
  match starts with
  | [] => Ok []
  | s :: starts =>
      do c <- get_shortest_cycle_from_node og s;
      do cs <- cycles_of og starts;
      Ok (match c with Some c => c :: cs | None => cs end)
  end.
Definition get_cycles (og : ograph) : res (list (list nat)) := cycles_of og (seq 0 (og_size og)).

(* std::min_element by size: the first smallest *)
Fixpoint min_by_size (best : list nat) (cs : list (list nat)) : list nat :=
  match cs with
  | [] => best
  | c :: cs => min_by_size (if Nat.ltb (length c) (length best) then c else best) cs
  end.

(* get_cycle.cc:74-83 *)
Definition get_cycle (og : ograph) : res (option (list nat)) :=
  do cs <- get_cycles og;
  match cs with
  | [] => Ok None
  | c :: cs => Ok (Some (min_by_size c cs))
  end.

(* ---- remove_transitive_edges.cc ---- *)

(* remove_transitive_edges.cc:21-29; max_depth never exceeds the number of
   processed edges, no uint32_t overflow is modelled *)
Definition depth_node (d : nat -> nat) (to from : nat) : (nat -> nat) * bool :=
  (upd d to (Nat.max (d to) (d from + 1)), false).
Definition depth_edge (d : nat -> nat) (from to : nat) : (nat -> nat) * bool :=
  (upd d to (Nat.max (d to) (d from + 1)), false).

(* remove_transitive_edges.cc:15-43 *)
Definition transitive_edges_from (og : ograph) (start : nat) : res (list (nat * nat)) :=
  do d <- dfs (FUEL og) start (og_out og) depth_node depth_edge (fun _ => 0);
  Ok (map (fun to => (start, to)) (filter (fun to => Nat.ltb 1 (d to)) (og_out og start))).

(* remove_transitive_edges.cc:45-53 *)
Fixpoint transitive_edges (og : ograph) (starts : list nat) : res (list (nat * nat)) :=
  match starts with
  | [] => Ok []
  | s :: starts =>
      do a <- transitive_edges_from og s;
      do b <- transitive_edges og starts;
      Ok (a ++ b)
  end.

(* utl::erase(vec, value) *)
Definition erase (l : list nat) (x : nat) : list nat := filter (fun y => negb (Nat.eqb y x)) l.

(* remove_transitive_edges.cc:60-63 *)
Definition erase_edge (og : ograph) (e : nat * nat) : ograph :=
  mkog (og_size og) (og_ir og) (og_train og)
       (upd (og_in og) (snd e) (erase (og_in og (snd e)) (fst e)))
       (upd (og_out og) (fst e) (erase (og_out og (fst e)) (snd e)))
       (og_trips og).

(* remove_transitive_edges.cc:55-64 *)
Definition remove_transitive_edges (og : ograph) : res ograph :=
  do es <- transitive_edges og (seq 0 (og_size og));
  Ok (fold_left erase_edge es og).

(* ---- ordering_graph.cc ---- *)

Record otrain : Type := mkotrain {
  ot_id : nat;
  ot_path : list nat;               (* interlocking route ids *)
  ot_first_departure : N;
  ot_anchors : list N;              (* departures(filter.interval_) *)
  ot_arrivals : list N }.           (* arrival_ of the main signal timestamps *)

(* a node under construction, with its route_usage (ordering_graph.cc:57-61) *)
Record pnode : Type := mkpn {
  pn_ir : nat; pn_train : nat; pn_in : list nat; pn_out : list nat;
  pn_from : N }.

(* ordering_graph.cc:135-152: the nodes between the first and the last; the
   usage starts at the arrival at the preceding main signal *)
Fixpoint mid_nodes (train : nat) (anchor : N) (cur : nat) (path : list nat) (arrivals : list N) : list pnode :=
  match arrivals with
  | [] => []
  | a :: rest =>
      match rest, path with
      | _ :: _, ir :: path =>
          mkpn ir train [cur - 1] [cur + 1] (add32 anchor a) :: mid_nodes train anchor (S cur) path rest
      | _, _ => []
      end
  end.

(* ordering_graph.cc:118-169 *)
Definition trip_nodes_gen (t : otrain) (anchor : N) (cur : nat) : list pnode :=
  mkpn (hd 0 (ot_path t)) (ot_id t) [] [cur + 1] (add32 anchor (ot_first_departure t))
  :: mid_nodes (ot_id t) anchor (cur + 1) (tl (ot_path t)) (ot_arrivals t)
  ++ [mkpn (last (ot_path t) 0) (ot_id t) [cur + length (ot_path t) - 2] []
           (add32 anchor (last (ot_arrivals t) 0%N))].

(* std::map::emplace does not replace an existing entry *)
Definition trip_eqb (a b : nat * N) : bool := Nat.eqb (fst a) (fst b) && N.eqb (snd a) (snd b).
Definition emplace (m : list ((nat * N) * (nat * nat))) (k : nat * N) (v : nat * nat) :=
  if existsb (fun e => trip_eqb (fst e) k) m then m else m ++ [(k, v)].

Definition gstate : Type := (list pnode * list ((nat * N) * (nat * nat)))%type.

(* ordering_graph.cc:86-171 for one anchor after the other *)
Fixpoint gen_anchors (t : otrain) (anchors : list N) (g : gstate) : res gstate :=
  match anchors with
  | [] => Ok g
  | a :: anchors =>
      sassert (Nat.eqb (length (ot_path t)) (length (ot_arrivals t) + 1)) ;;
      match ot_arrivals t with
      | [] => Ok g                                            (* no main signal: return *)
      | _ =>
          let cur := length (fst g) in
          gen_anchors t anchors
            (fst g ++ trip_nodes_gen t a cur,
             emplace (snd g) (ot_id t, a) (cur, cur + length (ot_path t)))
      end
  end.

(* ordering_graph.cc:175-181; filter.trains_ *)
Fixpoint gen_trains (flt : list nat) (ts : list otrain) (g : gstate) : res gstate :=
  match ts with
  | [] => Ok g
  | t :: ts =>
      if negb (match flt with [] => true | _ => false end) && negb (existsb (Nat.eqb (ot_id t)) flt)
      then gen_trains flt ts g
      else do g <- gen_anchors t (ot_anchors t) g; gen_trains flt ts g
  end.

Definition usage : Type := (N * nat)%type.                (* from_, id_ *)

(* ordering_graph.cc:76-81: the usages of one exclusion set in insertion order *)
Definition ordering_of (irs_to_es : nat -> list nat) (ns : list pnode) (es : nat) : list usage :=
  flat_map (fun i => match nth_error ns i with
                     | Some n => map (fun _ => (pn_from n, i)) (filter (Nat.eqb es) (irs_to_es (pn_ir n)))
                     | None => []
                     end) (seq 0 (length ns)).

(* utl::pairwise *)
Fixpoint pairwise {A : Type} (l : list A) : list (A * A) :=
  match l with
  | [] => []
  | a :: rest => match rest with
                 | [] => []
                 | b :: _ => (a, b) :: pairwise rest
                 end
  end.

(* utl::erase_duplicates: sort, unique, erase *)
Fixpoint insert_uniq (x : nat) (l : list nat) : list nat :=
  match l with
  | [] => [x]
  | y :: l' => if Nat.ltb x y then x :: l else if Nat.eqb x y then l else y :: insert_uniq x l'
  end.
Definition erase_duplicates (l : list nat) : list nat := fold_right insert_uniq [] l.

Section Build.
  Variable sorter : list usage -> list usage.     (* utls::sort by from_ *)
  Variable irs_to_es : nat -> list nat.           (* irs_to_exclusion_sets_ *)
  Variable es_count : nat.                        (* exclusion_sets_.size() *)

  (* ordering_graph.cc:189-199: the edges added from the sorted usages *)
  Definition order_edges (ns : list pnode) : list (nat * nat) :=
    flat_map (fun es => map (fun p => (snd (fst p), snd (snd p)))
                            (pairwise (sorter (ordering_of irs_to_es ns es)))) (seq 0 es_count).

  Definition field {A} (f : pnode -> A) (d : A) (ns : list pnode) (i : nat) : A :=
    match nth_error ns i with Some n => f n | None => d end.

  (* ordering_graph.cc:189-204 *)
  Definition with_edges (g : gstate) : ograph :=
    let es := order_edges (fst g) in
    mkog (length (fst g)) (field pn_ir 0 (fst g)) (field pn_train 0 (fst g))
         (fun i => erase_duplicates
                     (field pn_in [] (fst g) i ++ map fst (filter (fun e => Nat.eqb (snd e) i) es)))
         (fun i => erase_duplicates
                     (field pn_out [] (fst g) i ++ map snd (filter (fun e => Nat.eqb (fst e) i) es)))
         (snd g).

  (* ordering_graph.cc:67-209 *)
  Definition make_ordering_graph (flt : list nat) (ts : list otrain) : res ograph :=
    do g <- gen_trains flt ts ([], []);
    remove_transitive_edges (with_edges g).
End Build.

(* ordering_graph.cc:211-219 *)
Definition trip_nodes (og : ograph) (trip : nat * N) : res (list nat) :=
  match find (fun e => trip_eqb (fst e) trip) (og_trips og) with
  | Some (_, (a, b)) => Ok (seq a (b - a))
  | None => Throw
  end.

(* ordering_graph.cc:221-229 *)
Definition next (og : ograph) (n : nat) : res nat :=
  match og_out og n with
  | [] => Throw
  | m :: _ => sassert (Nat.eqb (og_train og m) (og_train og n)) ;; Ok m
  end.
