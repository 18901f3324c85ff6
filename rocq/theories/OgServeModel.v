(* Model of the web server's ordering graph request:
   web/server/src/modules/ordering/serve_ordering_graph.cc,
   include/soro/base/time.h:63-71.

   Simplifications
   - a request is the list of the parameters its address contains; JSON texts are
     left out: an answer is the values it contains
   - of an infrastructure the exclusion sets are kept, of a train what
     TrainModel keeps, its path and the arrivals at the main signals of its path
     (runtime_calculation)
   - first_departure() asserts that the first departure is valid; departures()
     has asserted the same for every trip of the graph, so the assertion is left
     out where the trips are sorted
   - ids of nodes are nat as in OrderingModel, where the graph has less than 2^32
     nodes *)
From Coq Require Import Ascii.
From Verif Require Import Base TextModel BitfieldModel TrainModel OrderingModel.
From Verif Require ServeModel.

Notation text := (list ascii).
Notation mapM := ServeModel.mapM.

(* include/soro/timetable/train.h:121-131 *)
Record ttrain : Type := mk_ttrain {
  tt_train : train;
  tt_path : list nat;
  tt_arrivals : list N }.

(* include/soro/infrastructure/infrastructure_t.h: exclusion_ *)
Record exclusion : Type := mk_exclusion {
  ex_of : nat -> list nat;
  ex_count : nat }.

(* ---- the filter ---- *)
Definition filter_ : Type := (interval * list N)%type.

(* time.h:63-71; serve_ordering_graph.cc:125 *)
Definition str_to_u32 (s : text) : option N :=
  match try_parse_int 0 4294967295 s with inl v => Some (Z.to_N v) | inr _ => None end.

(* serve_ordering_graph.cc:117-133 *)
Fixpoint all_ids (l : list text) : option (list N) :=
  match l with
  | [] => Some []
  | s :: l => match str_to_u32 s with
              | None => None
              | Some v => match all_ids l with None => None | Some vs => Some (v :: vs) end
              end
  end.
Definition comma_values_to_train_ids (csv : text) : res (option (list N)) :=
  do l <- split csv [","%char]; Ok (all_ids l).

(* serve_ordering_graph.cc:135-156 *)
Definition params_to_filter (from to ids : text) : res (option filter_) :=
  match str_to_u32 from with
  | None => Ok None
  | Some a =>
      match str_to_u32 to with
      | None => Ok None
      | Some b =>
          if iv_valid (mkint a b)
          then do l <- comma_values_to_train_ids ids;
               Ok (match l with None => None | Some l => Some (mkint a b, l) end)
          else Ok None
      end
  end.

(* ---- the answer ---- *)
(* serve_ordering_graph.cc:61-82 *)
Record jnode : Type := mk_jnode {
  jn_key : nat;
  jn_train : nat;
  jn_offset : nat;
  jn_rel : nat;
  jn_route : nat }.

Record janswer : Type := mk_janswer {
  ja_total : nat;
  ja_max : nat;
  ja_nodes : list jnode;
  ja_edges : list (nat * nat) }.

Definition tentry : Type := ((nat * N) * (nat * nat))%type.

Section Request.
  Variable usort : list usage -> list usage.                    (* utls::sort in ordering_graph.cc *)
  Variable tsort : list (N * tentry) -> list (N * tentry).      (* utls::sort here *)

  (* serve_ordering_graph.cc:30-33 *)
  Definition departure (trains : list ttrain) (e : tentry) : res (N * tentry) :=
    match nth_error trains (fst (fst e)) with
    | Some t => Ok (relative_to_absolute (snd (fst e)) (tr_first_departure (tt_train t)), e)
    | None => UB
    end.

  (* serve_ordering_graph.cc:58-82 *)
  Definition node_json (og : ograph) (first rel n : nat) : res jnode :=
    if Nat.ltb n (og_size og) then Ok (mk_jnode n (og_train og n) (n - first) rel (og_ir og n)) else UB.
  (* serve_ordering_graph.cc:83-90 *)
  Definition edges_json (og : ograph) (n : nat) : list (nat * nat) := map (pair n) (og_out og n).

  (* serve_ordering_graph.cc:52-94 *)
  Fixpoint trips_json (og : ograph) (rel : nat) (l : list tentry) (a : janswer) : res janswer :=
    match l with
    | [] => Ok a
    | e :: l =>
        let first := fst (snd e) in
        let ids := seq first (snd (snd e) - first) in
        do ns <- mapM (node_json og first rel) ids;
        trips_json og (S rel) l
          (mk_janswer (S (ja_total a)) (Nat.max (ja_max a) (snd (snd e) - first))
                      (ja_nodes a ++ ns) (ja_edges a ++ flat_map (edges_json og) ids))
    end.

  (* serve_ordering_graph.cc:18-115 *)
  Definition serialize_ordering_graph (og : ograph) (trains : list ttrain) : res janswer :=
    do keyed <- mapM (departure trains) (og_trips og);
    trips_json og 0 (map snd (tsort keyed)) (mk_janswer 0 0 [] []).

  (* ordering_graph.cc:83-85,175-181: a train and its departures in the interval,
     which are asked for if the train passes the filter *)
  Definition otrain_of (f : filter_) (t : ttrain) : res otrain :=
    let id := tr_id (tt_train t) in
    do anchors <- (if match snd f with [] => true | _ => existsb (N.eqb id) (snd f) end
                   then departures (tt_train t) (fst f) else Ok []);
    Ok (mkotrain (N.to_nat id) (tt_path t) (tr_first_departure (tt_train t)) anchors (tt_arrivals t)).
  Definition request_graph (x : exclusion) (trains : list ttrain) (f : filter_) : res ograph :=
    do ts <- mapM (otrain_of f) trains;
    make_ordering_graph usort (ex_of x) (ex_count x) (map N.to_nat (snd f)) ts.

  Variable get_infra : text -> option exclusion.
  Variable get_timetable : text -> text -> option (list ttrain).

  (* serve_ordering_graph.cc:160-187 *)
  Definition serve_ordering_graph (infra_name timetable_name from to ids : text) : res (ServeModel.response janswer) :=
    match get_infra infra_name with
    | None => Ok ServeModel.Not_found
    | Some x =>
        match get_timetable infra_name timetable_name with
        | None => Ok ServeModel.Not_found
        | Some trains =>
            do f <- params_to_filter from to ids;
            match f with
            | None => Ok ServeModel.Bad_request
            | Some f => do og <- request_graph x trains f;
                        do a <- serialize_ordering_graph og trains;
                        Ok (ServeModel.Answer a)
            end
        end
    end.
End Request.
