(* Model of the exclusion data of an infrastructure:
   src/infrastructure/exclusion/get_exclusion.cc,
   src/infrastructure/exclusion/get_exclusion_graph.cc,
   src/infrastructure/exclusion/exclusion_elements.cc,
   src/infrastructure/exclusion/read_cliques.cc,
   include/soro/infrastructure/graph/section.h.

   Simplifications
   - elements, interlocking routes and exclusion sets are ids (N); pointers to
     elements are compared through the ids
   - a thread is a worker in the sense of Par.v; std::thread and
     utl::parallel_for_run run their jobs in any interleaving (more than a real
     thread pool does) and return when all jobs are done
   - assertions throw *)
From Coq Require Import Ascii.
From Verif Require Import Base AlgoModel Par RouteModel.
From Verif Require ExclusionSetModel TextModel.
Import ExclusionSetModel(es, es_default, make_es, INVALID).
Import TextModel(parse_int).

(* ---- get_exclusion.cc ---- *)
(* get_exclusion.cc:16-32 *)
Definition get_irs_to_exclusion_sets (sets : list (list N)) (ir_count : nat) : res (list (list N)) :=
  fill (concat (map (fun p => map (fun ir => (ir, N.of_nat (fst p))) (snd p))
                    (combine (seq 0 (length sets)) sets)))
       (repeat [] ir_count).

(* get_exclusion.cc:51-55: the routes [from, to) of thread t_id *)
Definition batch (ir_count thread_count t_id : nat) : nat * nat :=
  let batch_size := ir_count / thread_count in
  (t_id * batch_size,
   if Nat.eqb t_id (thread_count - 1) then ir_count else S t_id * batch_size).

(* get_exclusion.cc:59 thread_results[t_id][e_id].emplace_back(ir_id) *)
Definition push (ir e : N) (tbl : list (list N)) : res (list (list N)) :=
  do row <- at_ tbl (N.to_nat e); Ok (upd tbl (N.to_nat e) (row ++ [ir])).

(* get_exclusion.cc:57-61: the (route, element) pairs of a thread in order *)
Definition uses (closed : list (list N)) (from to : nat) : list (N * N) :=
  concat (map (fun i => map (fun e => (N.of_nat i, e)) (nth i closed []))
              (seq from (to - from))).

(* get_exclusion.cc:51-62 *)
Definition generate_used_by (closed : list (list N)) (thread_count t_id : nat)
  : list (@action (list (list N))) :=
  let '(from, to) := batch (length closed) thread_count t_id in
  map (fun p => (t_id, push (fst p) (snd p))) (uses closed from to).

(* get_exclusion.cc:78-83 *)
Definition combine_results (thread_results : list (list (list N))) (e : nat) : list (@action (list N)) :=
  map (fun tr => (e, fun row => do r <- at_ tr e; Ok (row ++ r))) thread_results.

(* get_exclusion.cc:87-90 *)
Definition remove_duplicates (e : nat) : list (@action (list N)) :=
  [(e, fun row => Ok (erase_duplicates row))].

(* get_exclusion.cc:35-98; thread_count is hardware_concurrency(), the schedules
   order the steps of the workers of the three parallel phases *)
Definition get_closed_element_used_by (thread_count : nat) (sched1 sched2 sched3 : list nat)
    (closed : list (list N)) (element_count : nat) : res (list (list N)) :=
  do tr <- par_run sched1 (map (generate_used_by closed thread_count) (seq 0 thread_count))
                   (repeat (repeat [] element_count) thread_count);
  do t2 <- par_run sched2 (map (combine_results tr) (seq 0 element_count)) (repeat [] element_count);
  do t3 <- par_run sched3 (map remove_duplicates (seq 0 element_count)) t2;
  sassert (Nat.eqb (length t3) element_count) ;; Ok t3.

(* ---- get_exclusion_graph.cc ---- *)
(* std::set_difference *)
Fixpoint set_difference (l1 : list N) : list N -> list N :=
  fix go (l2 : list N) : list N :=
    match l1, l2 with
    | [], _ => []
    | _, [] => l1
    | a :: t1, b :: t2 =>
        if N.ltb a b then a :: set_difference t1 l2
        else if N.ltb b a then go t2
        else set_difference t1 t2
    end.

Section GRAPH.
  Variable pick : list (list N) -> nat.    (* std::priority_queue::top, see AlgoModel *)
  Variable srs : list sroute.
  Variables closed used_by starting_at ending_at : list (list N).

  (* get_exclusion_graph.cc:36-60 *)
  Definition neighbours (ir_id : nat) (ir : iroute) : res es :=
    do els <- at_ closed ir_id;
    do ranges <- mapM (fun e => at_ used_by (N.to_nat e)) els;
    do merged <- multi_set_merge pick ranges;
    do last <- last_node srs ir;
    do a <- at_ starting_at (N.to_nat last);
    do first <- first_node srs ir;
    do b <- at_ ending_at (N.to_nat first);
    make_es INVALID (set_difference merged (erase_duplicates (a ++ b))).

  (* get_exclusion_graph.cc:14-64 *)
  Definition get_exclusion_graph (sched : list nat) (irs : list iroute) : res (list es) :=
    sassert (forallb is_sorted used_by) ;;
    sassert (forallb is_sorted closed) ;;
    par_run sched
      (map (fun i => [(i, fun _ => do ir <- at_ irs i; neighbours i ir)]) (seq 0 (length closed)))
      (repeat es_default (length closed)).
End GRAPH.

(* ---- exclusion_elements.cc ---- *)
(* section.h:19-85: the elements of a section in rising and in falling order *)
Record section : Type := mksec { sec_rising : list N; sec_falling : list N }.

(* section.h:40-70 *)
Definition sec_order (s : section) (rising : bool) : list N :=
  if rising then sec_rising s else sec_falling s.
Definition sec_from (v : list N) (e : N) : list N := skipn (find_if (N.eqb e) v) v.
Definition sec_to (v : list N) (e : N) : res (list N) :=
  let t := find_if (N.eqb e) v in
  if Nat.ltb t (length v) then Ok (firstn (S t) v) else UB.
Definition sec_from_to (v : list N) (from to : N) : res (list N) :=
  let f := find_if (N.eqb from) v in
  let t := find_if (N.eqb to) v in
  if Nat.ltb t (length v) && Nat.leb f (S t) then Ok (firstn (S t - f) (skipn f v)) else UB.

Section ELEMENTS.
  Variable srs : list sroute.
  Variable elem : N -> N.                (* node -> element *)
  Variable is_track : N -> bool.         (* element::is_track_element *)
  Variable rising : N -> bool.           (* track_element::rising_ *)
  Variable is_excl : N -> bool.          (* exclusion_elements.cc:16-19 *)
  Variable secs_of : N -> list nat.      (* element_id_to_section_ids_ *)
  Variable sections : list section.

  (* exclusion_elements.cc:52-67 *)
  Fixpoint used_loop (els : list N) (used : list nat) : res (list nat) :=
    match els with
    | [] => Ok used
    | e :: els =>
        if negb (is_track e) then used_loop els used
        else match secs_of e with
             | [s] => used_loop els (match rev used with
                                     | b :: _ => if Nat.eqb b s then used else used ++ [s]
                                     | [] => [s] end)
             | _ => Throw
             end
    end.
  (* exclusion_elements.cc:49-70 *)
  Definition get_used_sections (ir : iroute) : res (list nat) :=
    do l <- ir_iterate srs ir; used_loop (map (fun x => elem (rn_node x)) l) [].

  (* exclusion_elements.cc:72-94 *)
  Definition one_section (first last : N) (s : section) : res (list N) :=
    let dir := if is_track first then rising first
               else if is_track last then rising last else true in
    do l <- sec_from_to (sec_order s dir) first last;
    Ok (erase_duplicates (filter is_excl l)).

  (* exclusion_elements.cc:127-131 *)
  Fixpoint whole_sections (l : list nat) : res (list N) :=
    match l with
    | [] => Ok []
    | s :: l => do sec <- at_ sections s; do t <- whole_sections l; Ok (filter is_excl (sec_rising sec) ++ t)
    end.

  (* exclusion_elements.cc:96-148 *)
  Definition get_exclusion_elements (ir : iroute) : res (list N) :=
    do used <- get_used_sections ir;
    match used with
    | [] => Throw
    | s :: rest =>
        do fn <- first_node srs ir;
        do ln <- last_node srs ir;
        let first := elem fn in
        let last := elem ln in
        do fsec <- at_ sections s;
        do lsec <- at_ sections (List.last used 0);
        match rest with
        | [] => one_section first last fsec
        | _ =>
            let a := if is_track first then sec_from (sec_order fsec (rising first)) first
                     else sec_rising fsec in
            do mid <- whole_sections (removelast rest);
            do z <- (if is_track last then sec_to (sec_order lsec (rising last)) last
                     else Ok (sec_rising lsec));
            Ok (erase_duplicates (filter is_excl a ++ mid ++ filter is_excl z))
        end
    end.

  (* exclusion_elements.cc:150-155 *)
  Definition get_closed_exclusion_elements (irs : list iroute) : res (list (list N)) :=
    mapM get_exclusion_elements irs.

  (* exclusion_elements.cc:157-171; utl::erase removes every occurrence *)
  Definition erase_value (x : N) (l : list N) : list N := filter (fun y => negb (N.eqb y x)) l.
  Fixpoint open_loop (irs : list iroute) (t : list (list N)) : res (list (list N)) :=
    match irs with
    | [] => Ok t
    | ir :: irs =>
        do fn <- first_node srs ir;
        do ln <- last_node srs ir;
        do row <- at_ t (N.to_nat (ir_id ir));
        open_loop irs (upd t (N.to_nat (ir_id ir)) (erase_value (elem ln) (erase_value (elem fn) row)))
    end.
  Definition get_open_exclusion_elements (closed : list (list N)) (irs : list iroute) : res (list (list N)) :=
    open_loop irs closed.
End ELEMENTS.

(* ---- read_cliques.cc ---- *)
(* operator< of vectors: lexicographic *)
Fixpoint lex_leb (a b : list N) : bool :=
  match a, b with
  | [], _ => true
  | _, [] => false
  | x :: a, y :: b => if N.ltb x y then true else if N.ltb y x then false else lex_leb a b
  end.
(* read_cliques.cc:21-26: one line; parse_int<uint32_t> *)
Definition read_clique (line : list ascii) : res (list N) :=
  do toks <- TextModel.split line [" "%char];
  mapM (fun s => do z <- parse_int 0 4294967295 s; Ok (Z.to_N z)) toks.
(* read_cliques.cc:13-36 over the lines of the file *)
Definition read_cliques (lines : list (list ascii)) : res (list (list N)) :=
  do cs <- mapM read_clique lines;
  Ok (sort_by lex_leb (map (sort_by N.leb) cs)).
