(* Model of station routes and interlocking routes:
   src/infrastructure/station/station_route.cc,
   src/infrastructure/station/station_route_graph.cc (predecessor table),
   src/infrastructure/interlocking/interlocking_route.cc,
   src/infrastructure/interlocking/get_interlocking.cc.

   Simplifications
   - nodes, stations and interlocking routes are ids (N); station routes and
     positions inside a station route are nat
   - pointers to nodes are compared through the ids
   - a generator is the list of everything it yields; if it throws or runs out
     of bounds on the way, that is its result
   - a pointer into extra_speed_limits_ is the position it points to
   - requires_etcs (station_route.cc:58-67) is a field of the station route
   - assertions throw *)
From Verif Require Import Base AlgoModel Par.

(* station_route.h:28-107, only the fields used below.  sr_spls are the nodes of
   extra_speed_limits_ in order *)
Record sroute : Type := mksr {
  sr_nodes : list N;
  sr_main : list nat;
  sr_omitted : list nat;
  sr_spls : list N;
  sr_passenger_halt : option nat;
  sr_freight_halt : option nat;
  sr_station : N;
  sr_requires_etcs : bool;
}.

(* station_route.h:19-25 *)
Record rnode : Type := mkrn { rn_node : N; rn_spl : option nat; rn_omitted : bool }.

Definition at_ {A} (l : list A) (i : nat) : res A :=
  match nth_error l i with Some a => Ok a | None => UB end.

(* station_route.cc:12-18; node::idx is uint16_t *)
Definition sr_size (r : sroute) : res nat :=
  sassert (N.of_nat (length (sr_nodes r)) <? 65535)%N ;; Ok (length (sr_nodes r)).

(* station_route.cc:20-22 *)
Definition sr_node (r : sroute) (i : nat) : res N := at_ (sr_nodes r) i.

(* station_route.cc:127-137: how far the pointer into extra_speed_limits_ gets
   when the nodes ns before ff_to are skipped *)
Fixpoint ff_spl (spls : list N) (ns : list N) (i : nat) : nat :=
  match ns with
  | [] => i
  | n :: ns =>
      match nth_error spls i with
      | None => i
      | Some s => ff_spl spls ns (if N.eqb s n then S i else i)
      end
  end.

(* station_route.cc:106-142 fast_forward_indices.  For an empty list the code
   uses INVALID_IDX; as the index is only compared with the size of that list, 0
   says the same *)
Definition fast_forward_indices (r : sroute) (ff_to : nat) : nat * nat :=
  if Nat.eqb ff_to 0 then (0, 0)
  else (find_if (fun o => Nat.leb ff_to o) (sr_omitted r),
        ff_spl (sr_spls r) (firstn ff_to (sr_nodes r)) 0).

(* station_route.cc:156-181; k nodes remain, cur is result.extra_spl_, which the
   loop never resets *)
Fixpoint ft_loop (r : sroute) (k node_idx omit_idx spl_idx : nat) (cur : option nat)
  : res (list rnode) :=
  match k with
  | O => Ok []
  | S k =>
      do n <- sr_node r node_idx;
      let omitted := match nth_error (sr_omitted r) omit_idx with
                     | Some o => Nat.eqb o node_idx | None => false end in
      let extra := negb omitted && match nth_error (sr_spls r) spl_idx with
                                   | Some s => N.eqb s n | None => false end in
      let cur' := if extra then Some spl_idx else cur in
      do l <- ft_loop r k (S node_idx) (if omitted then S omit_idx else omit_idx)
                      (if extra then S spl_idx else spl_idx) cur';
      Ok (mkrn n cur' omitted :: l)
  end.

(* station_route.cc:148-182 *)
Definition sr_from_to (r : sroute) (from to : nat) : res (list rnode) :=
  sassert (Nat.leb from to) ;;
  do sz <- sr_size r;
  if Nat.leb sz from then Ok []
  else let '(o, s) := fast_forward_indices r from in ft_loop r (to - from) from o s None.
(* station_route.cc:144-146, 184-191 *)
Definition sr_iterate (r : sroute) : res (list rnode) := do sz <- sr_size r; sr_from_to r 0 sz.
Definition sr_from (r : sroute) (from : nat) : res (list rnode) := do sz <- sr_size r; sr_from_to r from sz.
Definition sr_to (r : sroute) (to : nat) : res (list rnode) := sr_from_to r 0 to.

(* ---- station_route_graph.cc ---- *)
(* station_route_graph.cc:116-122: predecessors from successors *)
Fixpoint add_preds (s : nat) (succs : list nat) (p : list (list nat)) : res (list (list nat)) :=
  match succs with
  | [] => Ok p
  | t :: succs => do row <- at_ p t; add_preds s succs (upd p t (row ++ [s]))
  end.
Fixpoint preds_loop (ss : list nat) (succ : list (list nat)) (p : list (list nat)) : res (list (list nat)) :=
  match ss with
  | [] => Ok p
  | s :: ss => do row <- at_ succ s; do p' <- add_preds s row p; preds_loop ss succ p'
  end.
Definition predecessors (succ : list (list nat)) : res (list (list nat)) :=
  preds_loop (seq 0 (length succ)) succ (repeat [] (length succ)).

(* station_route_graph.h:8-11 *)
Record srgraph : Type := mksrg { g_succ : list (list nat); g_pred : list (list nat) }.

(* station_route.cc:69-78 *)
Definition can_start (r : sroute) (g : srgraph) (id : nat) : res bool :=
  do p <- at_ (g_pred g) id;
  Ok (negb (match sr_main r with [] => true | _ => false end)
      || match p with [] => true | _ => false end).
Definition can_end (r : sroute) (g : srgraph) (id : nat) : res bool :=
  do s <- at_ (g_succ g) id;
  Ok (negb (match sr_main r with [] => true | _ => false end)
      || match s with [] => true | _ => false end).

(* ---- interlocking_route.cc ---- *)
(* interlocking_route.h:22-85 *)
Record iroute : Type := mkir { ir_id : N; ir_start : nat; ir_end : nat; ir_srs : list nat }.

Section IROUTE.
  Variable srs : list sroute.     (* infra->station_routes_ *)

  Definition first_sr (r : iroute) : res sroute :=
    match ir_srs r with [] => UB | s :: _ => at_ srs s end.
  Definition last_sr_id (r : iroute) : res nat :=
    match rev (ir_srs r) with [] => UB | s :: _ => Ok s end.
  Definition last_sr (r : iroute) : res sroute := do s <- last_sr_id r; at_ srs s.

  (* interlocking_route.cc:93-99 *)
  Definition first_node (r : iroute) : res N := do s <- first_sr r; sr_node s (ir_start r).
  Definition last_node (r : iroute) : res N :=
    do s <- last_sr r; match ir_end r with O => UB | S e => sr_node s e end.

  (* interlocking_route.cc:116-119 *)
  Definition follows (r other : iroute) : res bool :=
    do a <- first_node r; do b <- last_node other; Ok (N.eqb a b).

  Definition w16 (z : Z) : Z := Z.modulo z 65536.
  Fixpoint sum_sizes (l : list nat) (acc : Z) : res Z :=
    match l with
    | [] => Ok acc
    | s :: l => do r <- at_ srs s; do n <- sr_size r; sum_sizes l (w16 (acc + Z.of_nat n))
    end.
  (* interlocking_route.cc:28-43, in uint16_t arithmetic *)
  Definition ir_size (r : iroute) : res Z :=
    match ir_srs r with
    | [_] => Ok (w16 (Z.of_nat (ir_end r) - Z.of_nat (ir_start r)))
    | _ => do sum <- sum_sizes (ir_srs r) 0%Z;
           do l <- last_sr r; do n <- sr_size l;
           Ok (w16 (sum - Z.of_nat (ir_start r) - (Z.of_nat n - Z.of_nat (ir_end r))))
    end.

  (* interlocking_route.cc:45-64 *)
  Definition ir_contains (r : iroute) (sr idx : nat) : bool :=
    match ir_srs r with
    | [] => false
    | [s] => Nat.eqb s sr && Nat.leb (ir_start r) idx && Nat.ltb idx (ir_end r)
    | s :: t =>
        if Nat.eqb s sr && Nat.leb (ir_start r) idx then true
        else if Nat.eqb (last t 0) sr && Nat.ltb idx (ir_end r) then true
        else existsb (Nat.eqb sr) (removelast t)
    end.

  Fixpoint iterate_whole (l : list nat) : res (list rnode) :=
    match l with
    | [] => Ok []
    | s :: l => do r <- at_ srs s; do a <- sr_iterate r; do b <- iterate_whole l; Ok (a ++ b)
    end.

  (* interlocking_route.cc:127-160 detail::from_to; from_it and to_it are the
     positions of the iterators *)
  Definition ir_detail (r : iroute) (from_it from to_it to : nat) : res (list rnode) :=
    sassert (Nat.ltb 1 (length (ir_srs r))) ;;
    sassert (Nat.ltb from_it (length (ir_srs r))) ;;
    sassert (Nat.ltb to_it (length (ir_srs r))) ;;
    sassert (Nat.leb from_it to_it) ;;
    do fs <- at_ (ir_srs r) from_it;
    do ts <- at_ (ir_srs r) to_it;
    sassert (negb (Nat.eqb fs ts)) ;;
    do fr <- at_ srs fs;
    do a <- sr_from fr from;
    do b <- iterate_whole (firstn (to_it - S from_it) (skipn (S from_it) (ir_srs r)));
    do tr <- at_ srs ts;
    do c <- sr_to tr to;
    Ok (a ++ b ++ c).

  (* interlocking_route.cc:164-199; find_if on the ids is utls::find *)
  Definition ir_from_to (r : iroute) (from_sr from to_sr to : nat) : res (list rnode) :=
    match ir_srs r with
    | [s] => sassert (Nat.eqb from_sr to_sr) ;;
             do fr <- first_sr r; sr_from_to fr from to
    | _ =>
        let from_it := find_if (Nat.eqb from_sr) (ir_srs r) in
        let to_it := find_if (Nat.eqb to_sr) (ir_srs r) in
        sassert (Nat.ltb from_it (length (ir_srs r))) ;;
        sassert (Nat.ltb to_it (length (ir_srs r))) ;;
        sassert (Nat.leb from_it to_it) ;;
        if Nat.eqb from_sr to_sr
        then do s <- at_ srs from_sr; sr_from_to s from to
        else ir_detail r from_it from to_it to
    end.

  (* interlocking_route.cc:201-213 *)
  Definition ir_to (r : iroute) (sr to : nat) : res (list rnode) :=
    match ir_srs r with [] => UB | s :: _ => ir_from_to r s (ir_start r) sr to end.
  Definition ir_from (r : iroute) (sr from : nat) : res (list rnode) :=
    do l <- last_sr_id r; ir_from_to r sr from l (ir_end r).

  (* interlocking_route.cc:215-224 *)
  Definition ir_iterate (r : iroute) : res (list rnode) :=
    match ir_srs r with
    | [_] => do s <- first_sr r; sr_from_to s (ir_start r) (ir_end r)
    | _ => ir_detail r 0 (ir_start r) (length (ir_srs r) - 1) (ir_end r)
    end.

  (* interlocking_route.cc:226-252: station route, from, to *)
  Fixpoint whole_sub_paths (l : list nat) : res (list (nat * nat * nat)) :=
    match l with
    | [] => Ok []
    | s :: l => do r <- at_ srs s; do n <- sr_size r; do t <- whole_sub_paths l; Ok ((s, 0, n) :: t)
    end.
  Definition sub_paths (r : iroute) : res (list (nat * nat * nat)) :=
    match ir_srs r with
    | [] => UB
    | [s] => do _ <- at_ srs s; Ok [(s, ir_start r, ir_end r)]
    | s :: t =>
        do fr <- at_ srs s; do n <- sr_size fr;
        do mid <- whole_sub_paths (removelast t);
        do _ <- at_ srs (last t 0);
        Ok ((s, ir_start r, n) :: mid ++ [(last t 0, 0, ir_end r)])
    end.

  (* ---- get_interlocking.cc: the indices ---- *)
  (* table[key].emplace_back(id) for a list of (key, id) in order *)
  Fixpoint fill (ps : list (N * N)) (t : list (list N)) : res (list (list N)) :=
    match ps with
    | [] => Ok t
    | (k, v) :: ps => do row <- at_ t (N.to_nat k); fill ps (upd t (N.to_nat k) (row ++ [v]))
    end.
  Definition sort_rows (t : list (list N)) : list (list N) := map (sort_by N.leb) t.
  (* utl::erase_duplicates: sort, unique, erase *)
  Definition erase_duplicates (l : list N) : list N := std_unique (sort_by N.leb l).
  Definition total (t : list (list N)) : nat := fold_left (fun a r => a + length r) t 0.

  Fixpoint mapM {A B} (f : A -> res B) (l : list A) : res (list B) :=
    match l with
    | [] => Ok []
    | a :: l => do b <- f a; do t <- mapM f l; Ok (b :: t)
    end.

  (* get_interlocking.cc:88-115 (60-86 for ending_at); the loop touches one route
     after the other, so keys are computed in order *)
  Definition get_starting_at (node_count : nat) (irs : list iroute) : res (list (list N)) :=
    do ks <- mapM (fun r => do n <- first_node r; Ok (n, ir_id r)) irs;
    do t <- fill ks (repeat [] node_count);
    let t := sort_rows t in
    sassert (Nat.eqb (total t) (length irs)) ;; Ok t.
  Definition get_ending_at (node_count : nat) (irs : list iroute) : res (list (list N)) :=
    do ks <- mapM (fun r => do n <- last_node r; Ok (n, ir_id r)) irs;
    do t <- fill ks (repeat [] node_count);
    let t := sort_rows t in
    sassert (Nat.eqb (total t) (length irs)) ;; Ok t.

  (* get_interlocking.cc:117-138 *)
  Definition get_sr_to_participating_irs (irs : list iroute) : res (list (list N)) :=
    do t <- fill (concat (map (fun r => map (fun s => (N.of_nat s, ir_id r)) (ir_srs r)) irs))
                 (repeat [] (length srs));
    Ok (sort_rows t).

  (* get_interlocking.cc:280-304 *)
  Definition get_station_to_irs (station_count : nat) (irs : list iroute) : res (list (list N)) :=
    do ks <- mapM (fun r => mapM (fun s => do sr <- at_ srs s; Ok (sr_station sr, ir_id r)) (ir_srs r)) irs;
    do t <- fill (concat ks) (repeat [] station_count);
    Ok (map erase_duplicates t).

  (* get_interlocking.cc:23-58; a halt outside the sub path is not looked up *)
  Definition halt_key (sp : nat * nat * nat) (h : option nat) (id : N) : res (list (N * N)) :=
    let '(s, from, to) := sp in
    match h with
    | None => Ok []
    | Some i => if Nat.leb from i && Nat.ltb i to
                then do sr <- at_ srs s; do n <- sr_node sr i; Ok [(n, id)]
                else Ok []
    end.
  Definition halt_keys (r : iroute) : res (list (N * N)) :=
    do sps <- sub_paths r;
    do l <- mapM (fun sp => do sr <- at_ srs (fst (fst sp));
                            do a <- halt_key sp (sr_passenger_halt sr) (ir_id r);
                            do b <- halt_key sp (sr_freight_halt sr) (ir_id r);
                            Ok (a ++ b)) sps;
    Ok (concat l).
  Definition get_halting_at (node_count : nat) (irs : list iroute) : res (list (list N)) :=
    do ks <- mapM halt_keys irs;
    do t <- fill (concat ks) (repeat [] node_count);
    Ok (sort_rows t).

  (* ---- get_interlocking.cc: the routes ---- *)
  Variable g : srgraph.

  (* get_interlocking.cc:148-161: routes between consecutive main signals *)
  Fixpoint internal_routes (sr : nat) (ms : list nat) : list iroute :=
    match ms with
    | a :: ((b :: _) as t) => mkir 0 a (S b) [sr] :: internal_routes sr t
    | _ => []
    end.

  (* get_interlocking.cc:190-212 fill_paths; fuel bounds the recursion depth.
     path holds ir.station_routes_ so far *)
  Fixpoint fill_paths (fuel : nat) (start : nat) (path : list nat) (s : nat) : res (list iroute) :=
    match fuel with
    | O => Fuel
    | S fuel =>
        do r <- at_ srs s;
        if sr_requires_etcs r then Ok []
        else
          do e <- can_end r g s;
          if e then
            match sr_main r with
            | [] => do n <- sr_size r; Ok [mkir 0 start n (path ++ [s])]
            | m :: _ => Ok [mkir 0 start (S m) (path ++ [s])]
            end
          else
            do succ <- at_ (g_succ g) s;
            do ls <- mapM (fill_paths fuel start (path ++ [s])) succ;
            Ok (concat ls)
    end.

  (* get_interlocking.cc:179-226 *)
  Definition routes_from_sr (fuel : nat) (s : nat) : res (list iroute) :=
    do r <- at_ srs s;
    do c <- can_start r g s;
    sassert c ;;
    do succ <- at_ (g_succ g) s;
    do ls <- mapM (fill_paths fuel (last (sr_main r) 0) [s]) succ;
    Ok (concat ls).

  (* get_interlocking.cc:235-258, one station route *)
  Definition routes_of_sr (fuel : nat) (s : nat) : res (list iroute) :=
    do r <- at_ srs s;
    do c <- can_start r g s;
    do a <- (if c && negb (sr_requires_etcs r) then routes_from_sr fuel s else Ok []);
    let b := if Nat.ltb 1 (length (sr_main r)) then internal_routes s (sr_main r) else [] in
    do p <- at_ (g_pred g) s;
    do q <- at_ (g_succ g) s;
    let lead := match sr_main r, p with m :: _, [] => [mkir 0 0 (S m) [s]] | _, _ => [] end in
    do trail <- match sr_main r, q with
                | _ :: _, [] => do n <- sr_size r; Ok [mkir 0 (last (sr_main r) 0) n [s]]
                | _, _ => Ok [] end;
    Ok (a ++ b ++ lead ++ trail).

  (* get_interlocking.cc:260-263 *)
  Definition set_ids (l : list iroute) : list iroute :=
    map (fun p => mkir (N.of_nat (fst p)) (ir_start (snd p)) (ir_end (snd p)) (ir_srs (snd p)))
        (combine (seq 0 (length l)) l).

  (* get_interlocking.cc:228-266 *)
  Definition get_interlocking_routes (fuel : nat) : res (list iroute) :=
    do ls <- mapM (routes_of_sr fuel) (seq 0 (length srs));
    Ok (set_ids (concat ls)).
End IROUTE.
