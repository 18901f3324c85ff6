(* Vocabulary of the route properties. *)
From Coq Require Import Sorted.
From Verif Require Import Base RouteModel.

(* a station route that node::idx (uint16_t) can index *)
Definition indexable (r : sroute) : Prop := (N.of_nat (length (sr_nodes r)) < 65535)%N.

(* the cells of an infrastructure are the pairs (station route, index) *)
Definition cell : Type := (nat * nat)%type.
Definition sr_of (srs : list sroute) (s : nat) : option sroute := nth_error srs s.
Definition sr_len (srs : list sroute) (s : nat) : nat :=
  match sr_of srs s with Some r => length (sr_nodes r) | None => 0 end.
Definition cell_node (srs : list sroute) (c : cell) (n : N) : Prop :=
  exists r, sr_of srs (fst c) = Some r /\ nth_error (sr_nodes r) (snd c) = Some n.
Definition cell_omitted (srs : list sroute) (c : cell) : Prop :=
  exists r, sr_of srs (fst c) = Some r /\ In (snd c) (sr_omitted r).

(* the cells of a list of station routes, one after the other *)
Definition cells_of (srs : list sroute) (l : list nat) : list cell :=
  concat (map (fun s => map (fun i => (s, i)) (seq 0 (sr_len srs s))) l).
(* the cells of an interlocking route: all cells of its station routes without
   those before the start offset in the first one and those from the end offset
   on in the last one *)
Definition ir_cells (srs : list sroute) (r : iroute) : list cell :=
  let all := cells_of srs (ir_srs r) in
  skipn (ir_start r)
    (firstn (length all - (sr_len srs (last (ir_srs r) 0) - ir_end r)) all).

(* a generated route node shows the node of the cell and whether it is omitted *)
Definition shows (srs : list sroute) (x : rnode) (c : cell) : Prop :=
  cell_node srs c (rn_node x) /\ (rn_omitted x = true <-> cell_omitted srs c).

(* the omitted nodes of a station route are listed in ascending order *)
Definition omitted_sorted (srs : list sroute) : Prop :=
  forall s r, sr_of srs s = Some r -> StronglySorted lt (sr_omitted r).

Record wf_ir (srs : list sroute) (r : iroute) : Prop := {
  wf_nonempty : ir_srs r <> [];
  wf_srs : forall s, In s (ir_srs r) -> exists sr, sr_of srs s = Some sr /\ indexable sr;
  wf_start : ir_start r <= sr_len srs (hd 0 (ir_srs r));
  wf_end : ir_end r <= sr_len srs (last (ir_srs r) 0);
  wf_single : length (ir_srs r) = 1 -> ir_start r <= ir_end r;
}.

(* ---- indices ---- *)
Definition starts_at (srs : list sroute) (r : iroute) (n : N) : Prop :=
  cell_node srs (hd (0, 0) (ir_cells srs r)) n.
Definition ends_at (srs : list sroute) (r : iroute) (n : N) : Prop :=
  cell_node srs (last (ir_cells srs r) (0, 0)) n.
Definition through_station (srs : list sroute) (r : iroute) (st : N) : Prop :=
  exists s sr, In s (ir_srs r) /\ sr_of srs s = Some sr /\ sr_station sr = st.
(* the route visits a halt at node n *)
Definition halts_at (srs : list sroute) (r : iroute) (n : N) : Prop :=
  exists c sr, In c (ir_cells srs r) /\ sr_of srs (fst c) = Some sr /\ cell_node srs c n /\
    (sr_passenger_halt sr = Some (snd c) \/ sr_freight_halt sr = Some (snd c)).

(* row k of the table lists, in ascending order, exactly the ids of the routes
   with the property P _ k *)
Definition lists_exactly (t : list (list N)) (irs : list iroute) (P : iroute -> N -> Prop) : Prop :=
  forall k row, nth_error t k = Some row ->
    StronglySorted N.le row /\
    forall id, In id row <-> exists r, In r irs /\ ir_id r = id /\ P r (N.of_nat k).
Definition no_repetition (t : list (list N)) : Prop :=
  forall k row, nth_error t k = Some row -> StronglySorted N.lt row.

(* ---- generated routes ---- *)
Definition succ_of (g : srgraph) (s : nat) : list nat := nth s (g_succ g) [].
Definition pred_of (g : srgraph) (s : nat) : list nat := nth s (g_pred g) [].
Definition mains (srs : list sroute) (s : nat) : list nat :=
  match sr_of srs s with Some r => sr_main r | None => [] end.
Definition etcs (srs : list sroute) (s : nat) : Prop :=
  exists r, sr_of srs s = Some r /\ sr_requires_etcs r = true.

(* consecutive station routes are connected *)
Fixpoint connected (g : srgraph) (l : list nat) : Prop :=
  match l with
  | a :: ((b :: _) as t) => In b (succ_of g a) /\ connected g t
  | _ => True
  end.

(* a route across several station routes: from the last signal of the first one
   to the first signal of the last one, without a signal on the way *)
Definition crossing_route (srs : list sroute) (g : srgraph) (a b : nat) (l : list nat) : Prop :=
  exists s mid t, l = s :: mid ++ [t] /\ connected g l /\
    (forall x, In x l -> ~ etcs srs x) /\
    (mains srs s <> [] \/ pred_of g s = []) /\
    (forall x, In x mid -> mains srs x = [] /\ succ_of g x <> []) /\
    (mains srs t <> [] \/ succ_of g t = []) /\
    a = last (mains srs s) 0 /\
    b = match mains srs t with m :: _ => S m | [] => sr_len srs t end.
(* between two consecutive signals of one station route *)
Definition inner_route (srs : list sroute) (a b : nat) (l : list nat) : Prop :=
  exists s m1 x y m2, l = [s] /\ mains srs s = m1 ++ x :: y :: m2 /\ a = x /\ b = S y.
(* from the start of the network to the first signal *)
Definition leading_route (srs : list sroute) (g : srgraph) (a b : nat) (l : list nat) : Prop :=
  exists s x m, l = [s] /\ s < length srs /\ pred_of g s = [] /\ mains srs s = x :: m /\ a = 0 /\ b = S x.
(* from the last signal to the end of the network *)
Definition trailing_route (srs : list sroute) (g : srgraph) (a b : nat) (l : list nat) : Prop :=
  exists s, l = [s] /\ s < length srs /\ succ_of g s = [] /\ mains srs s <> [] /\
    a = last (mains srs s) 0 /\ b = sr_len srs s.

Definition signal_to_signal (srs : list sroute) (g : srgraph) (a b : nat) (l : list nat) : Prop :=
  crossing_route srs g a b l \/ inner_route srs a b l \/
  leading_route srs g a b l \/ trailing_route srs g a b l.

(* the graph belongs to the station routes *)
Record graph_ok (srs : list sroute) (g : srgraph) : Prop := {
  go_succ : length (g_succ g) = length srs;
  go_pred : length (g_pred g) = length srs;
  go_range : forall s t, In t (succ_of g s) -> t < length srs;
}.
Definition all_indexable (srs : list sroute) : Prop := forall s r, sr_of srs s = Some r -> indexable r.
