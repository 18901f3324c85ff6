(* C16 - C18: has_cycle and the generic graph traversal.

   Reading guide: a graph is its neighbour function; `edge nbrs a b` is an edge
   a -> b, `walk nbrs a b` a walk of at least one edge from a to b
   (GraphProofs.v, inductive definitions without reference to the algorithms);
   `in_range nbrs n`: edges from nodes 0..n-1 lead to nodes 0..n-1. *)
From Verif Require Import Base GraphModel GraphProofs.
From Coq Require Import Permutation.

Definition cyclic (nbrs : nat -> list nat) (n : nat) : Prop := exists x, x < n /\ walk nbrs x x.

Theorem C16_has_cycle :
  forall nbrs n, in_range nbrs n ->
    exists b, has_cycle nbrs n = Ok b /\ (b = true <-> cyclic nbrs n).
Proof.
  intros nbrs n R. destruct (has_cycle_ok nbrs n R) as [b [E [T F]]].
  exists b. split; [exact E|]. split; [exact T|]. intros [x [L W]].
  destruct b; [reflexivity|exfalso]. exact (wf_no_walk nbrs x (F eq_refl x L) W).
Qed.
Print Assumptions C16_has_cycle.

Definition table (l : list (list nat)) (n : nat) : list nat := nth n l [].
Lemma table_in_range l : forallb (forallb (fun x => Nat.ltb x (length l))) l = true ->
  in_range (table l) (length l).
Proof.
  intros H a b La E. rewrite forallb_forall in H. specialize (H (table l a) (nth_In l [] La)).
  rewrite forallb_forall in H. apply Nat.ltb_lt, H, E.
Qed.
Example ex_C16_cycle : has_cycle (table [[1; 2]; [3]; [3]; [4]; [1]]) 5 = Ok true.
Proof. vm_compute. reflexivity. Qed.
Example ex_C16_diamond : has_cycle (table [[1; 2]; [3]; [3]; [4]; []]) 5 = Ok false.
Proof. vm_compute. reflexivity. Qed.
Example ex_C16_hyp : in_range (table [[1; 2]; [3]; [3]; [4]; [1]]) 5.
Proof. apply (table_in_range [[1; 2]; [3]; [3]; [4]; [1]]). reflexivity. Qed.

(* ---- the calls of a traversal ---- *)

(* callbacks that only record their calls *)
Definition rec_node (s : list event) (a b : nat) : list event * bool := (s ++ [NodeEv a b], false).
Definition rec_edge (s : list event) (a b : nat) : list event * bool := (s ++ [EdgeEv a b], false).

(* all calls of bfs (true) / dfs (false) from start when no callback stops it *)
Definition calls (is_bfs : bool) (nbrs : nat -> list nat) (start fuel : nat) : res (list event) :=
  graph_traversal (list event) is_bfs nbrs rec_node rec_edge start fuel [].

Definition visited (evs : list event) : list nat :=
  flat_map (fun e => match e with NodeEv to _ => [to] | EdgeEv _ _ => [] end) evs.

Lemma run_rec evs : forall s, run rec_node rec_edge evs s = (false, s ++ evs).
Proof.
  induction evs as [|e evs IH]; intros s; cbn [run].
  - rewrite app_nil_r. reflexivity.
  - destruct e; cbn [rec_node rec_edge]; rewrite IH, <- app_assoc; reflexivity.
Qed.

Lemma visited_edges c l : visited (map (EdgeEv c) l) = [].
Proof. induction l as [|x l IH]; [reflexivity|exact IH]. Qed.

Lemma visited_app a b : visited (a ++ b) = visited a ++ visited b.
Proof. unfold visited. apply flat_map_app. Qed.

Lemma visited_trace nbrs start l :
  visited (trace nbrs start l) = filter (fun x => negb (Nat.eqb x start)) (map fst l).
Proof.
  induction l as [|[c p] l IH]; [reflexivity|].
  change (trace nbrs start ((c, p) :: l)) with (visit nbrs start c p ++ trace nbrs start l).
  rewrite visited_app, IH. unfold visit. rewrite visited_app, visited_edges, app_nil_r.
  cbn [map filter fst]. destruct (Nat.eqb c start); reflexivity.
Qed.

(* The traversal performs the recorded calls, in that order, up to and
   including the first one that returns true. *)
Theorem C17_any_callbacks :
  forall (St : Type) (wn we : St -> nat -> nat -> St * bool) is_bfs nbrs n start fuel s,
    in_range nbrs n -> start < n -> S n <= fuel ->
    exists evs, calls is_bfs nbrs start fuel = Ok evs /\
      graph_traversal St is_bfs nbrs wn we start fuel s = Ok (snd (run wn we evs s)).
Proof.
  intros St wn we is_bfs nbrs n start fuel s R L F.
  destruct (pops_ok is_bfs nbrs start n R L fuel F) as [rest [E _]].
  exists (trace nbrs start ((start, start) :: rest)). split.
  - unfold calls, graph_traversal. rewrite (trav_run _ _ _ _ _ _ _ _ _ _ E), run_rec. reflexivity.
  - unfold graph_traversal. apply trav_run, E.
Qed.
Print Assumptions C17_any_callbacks.

Theorem C17_traversal_visits_reachable :
  forall is_bfs nbrs n start fuel,
    in_range nbrs n -> start < n -> S n <= fuel ->
    exists evs, calls is_bfs nbrs start fuel = Ok evs /\
      NoDup (visited evs) /\
      (forall x, In x (visited evs) <-> x <> start /\ walk nbrs start x) /\
      (forall to from, In (NodeEv to from) evs ->
         edge nbrs from to /\ (from = start \/ walk nbrs start from)).
Proof.
  intros is_bfs nbrs n start fuel R L F.
  destruct (pops_ok is_bfs nbrs start n R L fuel F) as [rest [E [N [K Ed]]]].
  exists (trace nbrs start ((start, start) :: rest)). split.
  { unfold calls, graph_traversal. rewrite (trav_run _ _ _ _ _ _ _ _ _ _ E), run_rec. reflexivity. }
  rewrite visited_trace. cbn [map fst filter]. rewrite Nat.eqb_refl. cbn [negb]. split; [|split].
  - apply NoDup_filter, N.
  - intros x. rewrite filter_In, K, negb_true_iff, Nat.eqb_neq. tauto.
  - intros to from H. unfold trace in H. apply in_flat_map in H. destruct H as [[c p] [H1 H2]].
    cbn [fst snd] in H2. unfold visit in H2. apply in_app_iff in H2. destruct H2 as [H2|H2].
    + destruct (Nat.eqb_spec c start) as [Ec|Ec]; [destruct H2|]. destruct H2 as [[= -> ->]|[]].
      destruct H1 as [[= -> ->]|H1]; [congruence|]. destruct (Ed _ _ H1) as [X Y]. split; [exact X|].
      destruct Y as [Y|Y]; [left; exact Y|right; apply K, Y].
    + apply in_map_iff in H2. destruct H2 as [x [H2 _]]. discriminate.
Qed.
Print Assumptions C17_traversal_visits_reachable.

Definition ex_g : list (list nat) := [[1; 2]; [3]; [3]; [4]; [1]; [0]].
Example ex_C17_bfs : calls true (table ex_g) 0 7 =
  Ok [EdgeEv 0 1; EdgeEv 0 2; NodeEv 1 0; EdgeEv 1 3; NodeEv 2 0; EdgeEv 2 3;
      NodeEv 3 1; EdgeEv 3 4; NodeEv 4 3; EdgeEv 4 1].
Proof. vm_compute. reflexivity. Qed.
Example ex_C17_hyp : in_range (table ex_g) 6.
Proof. apply (table_in_range ex_g). reflexivity. Qed.

(* ---- C18 ---- *)

Definition ev_dec (a b : event) : {a = b} + {a <> b}.
Proof. decide equality; apply Nat.eq_dec. Defined.

(* how often the edge callback is called for the edge a -> b *)
Definition times_called (evs : list event) (a b : nat) : nat := count_occ ev_dec evs (EdgeEv a b).

(* how often the neighbour list of a contains b *)
Definition multiplicity (nbrs : nat -> list nat) (a b : nat) : nat := count_occ Nat.eq_dec (nbrs a) b.

Lemma count_map_edges c l a b :
  count_occ ev_dec (map (EdgeEv c) l) (EdgeEv a b) =
  if Nat.eq_dec c a then count_occ Nat.eq_dec l b else 0.
Proof.
  induction l as [|x l IH]; cbn [map count_occ].
  - destruct (Nat.eq_dec c a); reflexivity.
  - destruct (ev_dec (EdgeEv c x) (EdgeEv a b)) as [E|E].
    + injection E as -> ->. rewrite IH. destruct (Nat.eq_dec a a); [|congruence].
      destruct (Nat.eq_dec b b); [reflexivity|congruence].
    + rewrite IH. destruct (Nat.eq_dec c a) as [->|]; [|reflexivity].
      destruct (Nat.eq_dec x b) as [->|]; [congruence|reflexivity].
Qed.

Lemma count_trace nbrs start l a b :
  times_called (trace nbrs start l) a b =
  count_occ Nat.eq_dec (map fst l) a * multiplicity nbrs a b.
Proof.
  unfold times_called. induction l as [|[c p] l IH]; [reflexivity|].
  change (trace nbrs start ((c, p) :: l)) with (visit nbrs start c p ++ trace nbrs start l).
  cbn [map fst count_occ]. rewrite count_occ_app, IH.
  unfold visit. rewrite count_occ_app, count_map_edges.
  replace (count_occ ev_dec (if Nat.eqb c start then [] else [NodeEv c p]) (EdgeEv a b)) with 0.
  2:{ destruct (Nat.eqb c start); [reflexivity|]. cbn [count_occ].
      destruct (ev_dec (NodeEv c p) (EdgeEv a b)); [discriminate|reflexivity]. }
  destruct (Nat.eq_dec c a) as [->|]; [|reflexivity]. unfold multiplicity. cbn. lia.
Qed.

Lemma walk_dec is_bfs nbrs n start : in_range nbrs n -> start < n ->
  exists rest, pops is_bfs nbrs (S n) [(start, start)] [] = Some ((start, start) :: rest) /\
    forall x, (In x (map fst rest) <-> walk nbrs start x).
Proof.
  intros R L. destruct (pops_ok is_bfs nbrs start n R L (S n)) as [rest [E [_ [K _]]]]; [lia|].
  exists rest. auto.
Qed.

(* Exactly how often the edge callback is called: once per edge leaving a
   reached node, but twice for the edges of the start node if it lies on a
   cycle.  The documented "exactly once" therefore holds whenever the start
   node is not on a cycle. *)
Theorem C18_edge_calls_partial :
  forall is_bfs nbrs n start fuel,
    in_range nbrs n -> start < n -> S n <= fuel ->
    exists evs, calls is_bfs nbrs start fuel = Ok evs /\
      (forall a b, a <> start -> walk nbrs start a ->
         times_called evs a b = multiplicity nbrs a b) /\
      (forall a b, a <> start -> ~ walk nbrs start a -> times_called evs a b = 0) /\
      (forall b, ~ walk nbrs start start -> times_called evs start b = multiplicity nbrs start b) /\
      (forall b, walk nbrs start start -> times_called evs start b = 2 * multiplicity nbrs start b).
Proof.
  intros is_bfs nbrs n start fuel R L F.
  destruct (pops_ok is_bfs nbrs start n R L fuel F) as [rest [E [N [K _]]]].
  exists (trace nbrs start ((start, start) :: rest)). split.
  { unfold calls, graph_traversal. rewrite (trav_run _ _ _ _ _ _ _ _ _ _ E), run_rec. reflexivity. }
  assert (One : forall a, walk nbrs start a -> count_occ Nat.eq_dec (map fst rest) a = 1).
  { intros a W. apply K in W. pose proof (proj1 (NoDup_count_occ Nat.eq_dec _) N a).
    apply (count_occ_In Nat.eq_dec) in W. lia. }
  assert (Zero : forall a, ~ walk nbrs start a -> count_occ Nat.eq_dec (map fst rest) a = 0).
  { intros a W. apply count_occ_not_In. rewrite K. exact W. }
  split; [|split; [|split]].
  - intros a b Ne W. rewrite count_trace. cbn [map fst count_occ].
    destruct (Nat.eq_dec start a); [congruence|]. rewrite (One a W). lia.
  - intros a b Ne W. rewrite count_trace. cbn [map fst count_occ].
    destruct (Nat.eq_dec start a); [congruence|]. rewrite (Zero a W). lia.
  - intros b W. rewrite count_trace. cbn [map fst count_occ].
    destruct (Nat.eq_dec start start); [|congruence]. rewrite (Zero start W). lia.
  - intros b W. rewrite count_trace. cbn [map fst count_occ].
    destruct (Nat.eq_dec start start); [|congruence]. rewrite (One start W). lia.
Qed.
Print Assumptions C18_edge_calls_partial.

(* The documented promise is false: on the two-node cycle the edge 0 -> 1 is
   handed out twice. *)
Theorem C18_edge_once_refuted :
  exists nbrs n start evs, in_range nbrs n /\ start < n /\
    calls true nbrs start (S n) = Ok evs /\ multiplicity nbrs 0 1 = 1 /\ times_called evs 0 1 = 2.
Proof.
  exists (table [[1]; [0]]), 2, 0, [EdgeEv 0 1; NodeEv 1 0; EdgeEv 1 0; EdgeEv 0 1].
  split; [apply (table_in_range [[1]; [0]]); reflexivity|]. split; [lia|].
  split; [vm_compute; reflexivity|]. split; vm_compute; reflexivity.
Qed.
Print Assumptions C18_edge_once_refuted.
