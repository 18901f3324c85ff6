(* Properties of station routes and interlocking routes: C36, C37, C38, C54. *)
From Coq Require Import Sorted Permutation.
From Verif Require Import Base Par RouteModel RouteProofs RouteSpec RouteIter RouteIndex RouteGen.

(* ------------------------------------------------------------------ *)
(* C36: from_to(a, b) yields exactly the nodes a .. b-1, each flagged omitted
   iff it is listed as omitted *)
Theorem C36_nodes : forall r a b,
  indexable r -> StronglySorted lt (sr_omitted r) -> a <= b <= length (sr_nodes r) ->
  exists l, sr_from_to r a b = Ok l /\ length l = b - a /\
    forall j, a <= j < b -> exists x, nth_error l (j - a) = Some x /\
      nth_error (sr_nodes r) j = Some (rn_node x) /\ (rn_omitted x = true <-> In j (sr_omitted r)).
Proof.
  intros r a b F S L. destruct (sr_from_to_ok r a b F L) as [l [E [Ll [N [O _]]]]].
  exists l. split; [exact E|]. split; [exact Ll|]. intros j Lj.
  destruct (nth_error l (j - a)) as [x|] eqn:Ex; [|apply nth_error_None in Ex; lia].
  exists x. split; [reflexivity|]. specialize (O S).
  specialize (N _ _ Ex). specialize (O _ _ Ex). replace (a + (j - a)) with j in * by lia. split; assumption.
Qed.
Print Assumptions C36_nodes.

Theorem C36_wrong_range : forall r a b, b < a -> sr_from_to r a b = Throw.
Proof. apply sr_from_to_unsorted_range. Qed.
Print Assumptions C36_wrong_range.

(* The nodes with an extra speed limit: positions P, in the order of the limits *)
Definition limits_at (r : sroute) (P : list nat) : Prop :=
  NoDup (sr_nodes r) /\ StronglySorted lt P /\
  Forall2 (fun s p => nth_error (sr_nodes r) p = Some s) (sr_spls r) P /\
  Forall (fun p => ~ In p (sr_omitted r)) P.

(* Missing from the full claim: a node without an extra speed limit carries the
   latest one of the nodes before it in the range, and not none *)
Theorem C36_extra_spl_partial : forall r a b P,
  indexable r -> StronglySorted lt (sr_omitted r) -> limits_at r P -> a <= b <= length (sr_nodes r) ->
  exists l, sr_from_to r a b = Ok l /\
    forall j, a <= j < b -> exists x, nth_error l (j - a) = Some x /\
      (* a node with an extra speed limit carries it *)
      (forall q, nth_error P q = Some j -> rn_spl x = Some q) /\
      (* any other node carries the limit of the closest such node before it in the range *)
      (forall q, rn_spl x = Some q <->
         exists p, nth_error P q = Some p /\ a <= p <= j /\ forall p', In p' P -> a <= p' <= j -> p' <= p).
Proof.
  intros r a b P F S HP L. destruct (sr_from_to_ok r a b F L) as [l [E [Ll [_ [_ H]]]]].
  exists l. split; [exact E|]. intros j Lj.
  destruct (nth_error l (j - a)) as [x|] eqn:Ex; [|apply nth_error_None in Ex; lia].
  exists x. split; [reflexivity|]. specialize (H P HP S _ _ Ex).
  replace (a + (j - a)) with j in H by lia. split; [|exact H].
  intros q Eq. apply H. exists j. split; [exact Eq|]. split; [lia|]. intros p' _ Lp. lia.
Qed.
Print Assumptions C36_extra_spl_partial.

(* the full claim fails: iterating [1,2) shows no limit at the node, the full
   iteration shows the limit of the node before it *)
Theorem C36_extra_spl_refuted :
  exists r, indexable r /\ limits_at r [0] /\
    exists full part, sr_iterate r = Ok full /\ sr_from_to r 1 2 = Ok part /\
      part <> firstn 1 (skipn 1 full) /\
      (exists x, nth_error full 1 = Some x /\ rn_node x = 11%N /\ ~ In 11%N (sr_spls r) /\ rn_spl x = Some 0).
Proof.
  exists (mksr [10; 11; 12]%N [] [] [10%N] None None 0 false). split; [reflexivity|]. split.
  { repeat constructor; cbn; intros H; intuition discriminate. }
  eexists. eexists. split; [reflexivity|]. split; [reflexivity|]. split; [discriminate|].
  eexists. split; [reflexivity|]. split; [reflexivity|]. split; [intros [H|[]]; discriminate H|reflexivity].
Qed.
Print Assumptions C36_extra_spl_refuted.

(* an extra speed limit on an omitted node hides all later ones *)
Theorem C36_limit_on_omitted_node_refuted :
  exists r full, indexable r /\ sr_iterate r = Ok full /\
    In 12%N (sr_spls r) /\ exists x, nth_error full 2 = Some x /\ rn_node x = 12%N /\ rn_spl x = None.
Proof.
  exists (mksr [10; 11; 12]%N [] [1] [11; 12]%N None None 0 false). eexists. split; [reflexivity|].
  split; [reflexivity|]. split; [right; left; reflexivity|]. eexists. repeat split; reflexivity.
Qed.
Print Assumptions C36_limit_on_omitted_node_refuted.

Definition ex_sr := mksr [10; 11; 12; 13; 14]%N [1; 3] [2; 3] [11; 14]%N (Some 1) None 7 false.
Example C36_example :
  indexable ex_sr /\ StronglySorted lt (sr_omitted ex_sr) /\ limits_at ex_sr [1; 4] /\
  sr_from_to ex_sr 1 4 =
    Ok [mkrn 11 (Some 0) false; mkrn 12 (Some 0) true; mkrn 13 (Some 0) true] /\
  sr_from_to ex_sr 2 5 =
    Ok [mkrn 12 None true; mkrn 13 None true; mkrn 14 (Some 1) false].
Proof.
  split; [reflexivity|]. split; [repeat constructor; cbn; lia|]. split.
  { split; [repeat constructor; cbn; intros H; intuition discriminate|].
    split; [repeat constructor; cbn; lia|]. split; [repeat constructor|].
    repeat constructor; cbn; intros H; intuition discriminate. }
  split; reflexivity.
Qed.

(* ------------------------------------------------------------------ *)
(* C37: iterating an interlocking route *)
Theorem C37_iterate : forall srs r,
  omitted_sorted srs -> wf_ir srs r ->
  (1 < length (ir_srs r) -> hd 0 (ir_srs r) <> last (ir_srs r) 0) ->
  exists l, ir_iterate srs r = Ok l /\ Forall2 (shows srs) l (ir_cells srs r).
Proof.
  intros srs r OS W H. apply (ir_iterate_vis srs OS r W). intros N. apply H.
  pose proof (wf_nonempty _ _ W). destruct (ir_srs r) as [|x [|y l]]; cbn in *; [congruence|congruence|lia].
Qed.
Print Assumptions C37_iterate.

(* the size is the number of visited nodes, in 16 bit arithmetic *)
Theorem C37_size : forall srs r, wf_ir srs r ->
  ir_size srs r = Ok (Z.modulo (Z.of_nat (length (ir_cells srs r))) 65536).
Proof. exact ir_size_ok. Qed.
Print Assumptions C37_size.

Theorem C37_contains : forall srs r s i, wf_ir srs r -> i < sr_len srs s ->
  (ir_contains r s i = true <-> In (s, i) (ir_cells srs r)).
Proof. exact ir_contains_ok. Qed.
Print Assumptions C37_contains.

(* at every position of the route, to() and from() split the iteration *)
Theorem C37_split : forall srs r s i,
  omitted_sorted srs -> wf_ir srs r -> NoDup (ir_srs r) -> In s (ir_srs r) -> i <= sr_len srs s ->
  (s = hd 0 (ir_srs r) -> ir_start r <= i) -> (s = last (ir_srs r) 0 -> i <= ir_end r) ->
  exists cs1 cs2 l1 l2, ir_cells srs r = cs1 ++ cs2 /\
    (forall c, In c cs1 -> fst c = s -> snd c < i) /\ (forall c, In c cs2 -> fst c = s -> i <= snd c) /\
    ir_to srs r s i = Ok l1 /\ Forall2 (shows srs) l1 cs1 /\
    ir_from srs r s i = Ok l2 /\ Forall2 (shows srs) l2 cs2.
Proof. intros srs r s i OS. apply (to_from_cells srs OS). Qed.
Print Assumptions C37_split.

(* the sub paths are the pieces of the route *)
Theorem C37_sub_paths : forall srs r, wf_ir srs r ->
  exists sps, sub_paths srs r = Ok sps /\
    concat (map (fun '(s, f, t) => map (fun i => (s, i)) (seq f (t - f))) sps) = ir_cells srs r /\
    forall s f t, In (s, f, t) sps -> In s (ir_srs r) /\ t <= sr_len srs s.
Proof. exact sub_paths_ok. Qed.
Print Assumptions C37_sub_paths.

Theorem C37_first_last : forall srs r, wf_ir srs r -> ir_cells srs r <> [] ->
  ir_start r < sr_len srs (hd 0 (ir_srs r)) -> 0 < ir_end r ->
  exists a b, first_node srs r = Ok a /\ last_node srs r = Ok b /\
    cell_node srs (hd (0, 0) (ir_cells srs r)) a /\ cell_node srs (last (ir_cells srs r) (0, 0)) b.
Proof.
  intros srs r W N LS LE. destruct (first_node_ok srs r W N LS) as [a [Ea Ca]].
  destruct (last_node_ok srs r W N LE) as [b [Eb Cb]]. exists a, b. auto.
Qed.
Print Assumptions C37_first_last.

(* Two station routes and a loop; the interlocking route from the signal of
   station route 0 around the loop back to it is generated, but iterating it
   fails *)
Definition loop_srs : list sroute :=
  [mksr [10; 11; 12]%N [1] [] [] None None 0 false; mksr [13; 14]%N [] [] [] None None 0 false].
Definition loop_g : srgraph := mksrg [[1]; [0]] [[1]; [0]].
Theorem C37_loop_refuted :
  exists irs r, get_interlocking_routes loop_srs loop_g 5 = Ok irs /\ In r irs /\
    wf_ir loop_srs r /\ length (ir_cells loop_srs r) = 6 /\ ir_iterate loop_srs r = Throw.
Proof.
  eexists. exists (mkir 0 1 2 [0; 1; 0]). split; [vm_compute; reflexivity|]. split; [left; reflexivity|].
  split; [|split; reflexivity]. constructor; cbn; try lia; [discriminate|].
  intros s [<-|[<-|[<-|[]]]]; eexists; (split; [reflexivity|reflexivity]).
Qed.
Print Assumptions C37_loop_refuted.

Definition ex_srs : list sroute :=
  [mksr [10; 11; 12]%N [1] [2] [] (Some 2) None 0 false;
   mksr [12; 13]%N [] [0] [] None None 1 false;
   mksr [13; 14; 15]%N [1; 2] [] [] (Some 2) (Some 1) 1 false].
Definition ex_g : srgraph := mksrg [[1]; [2]; []] [[]; [0]; [1]].
Definition ex_ir := mkir 0 1 2 [0; 1; 2].
Lemma ex_wf : wf_ir ex_srs ex_ir.
Proof.
  constructor; cbn; try lia; [discriminate|].
  intros s [<-|[<-|[<-|[]]]]; eexists; (split; [reflexivity|reflexivity]).
Qed.
Lemma ex_omitted : omitted_sorted ex_srs.
Proof. intros [|[|[|s]]] r E; try (injection E as <-; repeat constructor); destruct s; discriminate E. Qed.
Example C37_example :
  omitted_sorted ex_srs /\ wf_ir ex_srs ex_ir /\ hd 0 (ir_srs ex_ir) <> last (ir_srs ex_ir) 0 /\
  NoDup (ir_srs ex_ir) /\
  ir_cells ex_srs ex_ir = [(0, 1); (0, 2); (1, 0); (1, 1); (2, 0); (2, 1)] /\
  ir_iterate ex_srs ex_ir =
    Ok [mkrn 11 None false; mkrn 12 None true; mkrn 12 None true; mkrn 13 None false;
        mkrn 13 None false; mkrn 14 None false] /\
  ir_size ex_srs ex_ir = Ok 6%Z /\
  ir_to ex_srs ex_ir 1 1 = Ok [mkrn 11 None false; mkrn 12 None true; mkrn 12 None true].
Proof.
  split; [exact ex_omitted|]. split; [exact ex_wf|]. split; [discriminate|].
  split; [repeat constructor; cbn; intuition discriminate|]. repeat split; reflexivity.
Qed.

(* ------------------------------------------------------------------ *)
(* C38: the tables *)

(* routes that can be looked up: well formed, not empty *)
Definition proper_route (srs : list sroute) (r : iroute) : Prop :=
  wf_ir srs r /\ ir_cells srs r <> [] /\ ir_start r < sr_len srs (hd 0 (ir_srs r)) /\ 0 < ir_end r.
Definition node_ids_below (srs : list sroute) (n : nat) : Prop :=
  forall s sr x, sr_of srs s = Some sr -> In x (sr_nodes sr) -> N.to_nat x < n.

Theorem C38_starting_at : forall srs n irs,
  Forall (proper_route srs) irs -> node_ids_below srs n ->
  exists t, get_starting_at srs n irs = Ok t /\ length t = n /\
    lists_exactly t irs (starts_at srs) /\ (NoDup (map ir_id irs) -> no_repetition t).
Proof. exact starting_at_ok. Qed.
Print Assumptions C38_starting_at.

Theorem C38_ending_at : forall srs n irs,
  Forall (proper_route srs) irs -> node_ids_below srs n ->
  exists t, get_ending_at srs n irs = Ok t /\ length t = n /\
    lists_exactly t irs (ends_at srs) /\ (NoDup (map ir_id irs) -> no_repetition t).
Proof. exact ending_at_ok. Qed.
Print Assumptions C38_ending_at.

Theorem C38_participating : forall srs irs, (forall r, In r irs -> wf_ir srs r) ->
  exists t, get_sr_to_participating_irs srs irs = Ok t /\ length t = length srs /\
    lists_exactly t irs (fun r k => In (N.to_nat k) (ir_srs r)) /\
    (NoDup (map ir_id irs) -> (forall r, In r irs -> NoDup (ir_srs r)) -> no_repetition t).
Proof. intros srs irs W. apply participating_ok. intros r I. exact (wf_srs _ _ (W r I)). Qed.
Print Assumptions C38_participating.

Theorem C38_station : forall srs n irs, (forall r, In r irs -> wf_ir srs r) ->
  (forall s sr, sr_of srs s = Some sr -> N.to_nat (sr_station sr) < n) ->
  exists t, get_station_to_irs srs n irs = Ok t /\ length t = n /\
    lists_exactly t irs (through_station srs) /\ no_repetition t.
Proof. intros srs n irs W. apply station_to_irs_ok. intros r I. exact (wf_srs _ _ (W r I)). Qed.
Print Assumptions C38_station.

Theorem C38_halting_at : forall srs n irs, (forall r, In r irs -> wf_ir srs r) -> node_ids_below srs n ->
  exists t, get_halting_at srs n irs = Ok t /\ length t = n /\ lists_exactly t irs (halts_at srs).
Proof. exact halting_at_ok. Qed.
Print Assumptions C38_halting_at.

(* a route whose passenger halt is also its freight halt is listed twice *)
Theorem C38_halting_at_repetition_refuted :
  exists srs r, wf_ir srs r /\ get_halting_at srs 2 [r] = Ok [[]; [5; 5]]%N.
Proof.
  exists [mksr [0; 1]%N [] [] [] (Some 1) (Some 1) 0 false], (mkir 5 0 2 [0]).
  split; [|reflexivity]. constructor; cbn; try lia; [discriminate|].
  intros s [<-|[]]. eexists; (split; [reflexivity|reflexivity]).
Qed.
Print Assumptions C38_halting_at_repetition_refuted.

(* the predecessor table is the transposed successor table: s is listed for t as
   often as t is listed for s, in ascending order *)
Theorem C38_predecessors : forall succ, (forall s t, In t (nth s succ []) -> t < length succ) ->
  exists p, predecessors succ = Ok p /\ length p = length succ /\
    forall t row, nth_error p t = Some row -> StronglySorted le row /\
      forall s, count_occ Nat.eq_dec row s = count_occ Nat.eq_dec (nth s succ []) t.
Proof.
  intros succ R. destruct (predecessors_ok succ R) as [p [E [L H]]]. exists p. split; [exact E|]. split; [exact L|].
  intros t row Er. rewrite (H t row Er). split; [apply pred_row_sorted|]. intros s.
  rewrite pred_row_count by apply seq_NoDup.
  destruct (in_dec Nat.eq_dec s (seq 0 (length succ))) as [I|N]; [reflexivity|].
  rewrite nth_overflow; [reflexivity|]. destruct (Nat.lt_ge_cases s (length succ)) as [Ls|Ls]; [|exact Ls].
  exfalso. apply N. apply in_seq. lia.
Qed.
Print Assumptions C38_predecessors.

Definition ex_irs := [mkir 0 1 2 [0; 1; 2]; mkir 1 0 2 [0]; mkir 2 1 3 [2]; mkir 3 2 3 [2]].
Lemma ex_sr_of (P : nat -> sroute -> Prop) : (forall s sr, nth_error ex_srs s = Some sr -> s < 3 -> P s sr) ->
  forall s sr, sr_of ex_srs s = Some sr -> P s sr.
Proof. intros H s sr E. apply H; [exact E|]. apply (proj1 (nth_error_Some ex_srs s)). unfold sr_of in E. congruence. Qed.
Example C38_example :
  get_interlocking_routes ex_srs ex_g 4 = Ok ex_irs /\
  Forall (proper_route ex_srs) ex_irs /\ node_ids_below ex_srs 16 /\ NoDup (map ir_id ex_irs) /\
  get_starting_at ex_srs 16 ex_irs =
    Ok [[]; []; []; []; []; []; []; []; []; []; [1]; [0]; []; []; [2]; [3]]%N /\
  get_ending_at ex_srs 16 ex_irs =
    Ok [[]; []; []; []; []; []; []; []; []; []; []; [1]; []; []; [0]; [2; 3]]%N /\
  get_sr_to_participating_irs ex_srs ex_irs = Ok [[0; 1]; [0]; [0; 2; 3]]%N /\
  get_station_to_irs ex_srs 2 ex_irs = Ok [[0; 1]; [0; 2; 3]]%N /\
  predecessors [[1; 2]; [2]; []] = Ok [[]; [0]; [0; 1]].
Proof.
  split; [reflexivity|]. split.
  { repeat constructor; cbn; try lia; try discriminate;
      intros s Hs; intuition subst; eexists; (split; [reflexivity|reflexivity]). }
  split. { intros s sr x E I. revert I. revert s sr E. apply (ex_sr_of (fun s sr => In x (sr_nodes sr) -> N.to_nat x < 16)).
    intros [|[|[|s]]] sr E L I; [injection E as <-|injection E as <-|injection E as <-|lia];
      cbn in I; intuition subst; cbn; lia. }
  split; [repeat constructor; cbn; intuition discriminate|]. repeat split; reflexivity.
Qed.

(* ------------------------------------------------------------------ *)
(* C54: the generated interlocking routes *)

(* exactly the routes from main signal to main signal, numbered consecutively *)
Theorem C54_routes : forall srs g fuel irs,
  graph_ok srs g -> all_indexable srs -> get_interlocking_routes srs g fuel = Ok irs ->
  (forall k r, nth_error irs k = Some r -> ir_id r = N.of_nat k) /\
  (forall a b l, (exists id, In (mkir id a b l) irs) <-> signal_to_signal srs g a b l).
Proof. intros srs g fuel irs GO AI. apply (gen_spec srs g GO AI). Qed.
Print Assumptions C54_routes.

(* the search ends if the signal free station routes form no cycle *)
Theorem C54_terminates : forall srs g (rank : nat -> nat) fuel,
  graph_ok srs g -> all_indexable srs ->
  (forall s t, In t (succ_of g s) -> mains srs s = [] -> ~ etcs srs s -> rank t < rank s) ->
  (forall s, s < length srs -> rank s < fuel) ->
  exists irs, get_interlocking_routes srs g fuel = Ok irs.
Proof. intros srs g rank fuel GO AI. apply (gen_total srs g GO AI rank). Qed.
Print Assumptions C54_terminates.

(* station routes as the parser produces them *)
Definition signals_ok (srs : list sroute) : Prop :=
  (forall s m, In m (mains srs s) -> m < sr_len srs s) /\
  (forall s, StronglySorted lt (mains srs s)) /\
  (forall s, s < length srs -> 0 < sr_len srs s).

Theorem C54_routes_proper : forall srs g fuel irs r,
  graph_ok srs g -> all_indexable srs -> signals_ok srs ->
  get_interlocking_routes srs g fuel = Ok irs -> In r irs -> proper_route srs r.
Proof.
  intros srs g fuel irs [id a b l] GO AI [MR [MS NZ]] E I.
  apply (generated_proper srs g GO AI MR MS NZ). apply (gen_spec srs g GO AI fuel irs E). exists id. exact I.
Qed.
Print Assumptions C54_routes_proper.

(* no main signal strictly between the first and the last node of a route *)
Theorem C54_no_signal_inside : forall srs g fuel irs r c1 l1 c l2 c2,
  graph_ok srs g -> all_indexable srs -> signals_ok srs ->
  get_interlocking_routes srs g fuel = Ok irs -> In r irs ->
  ir_cells srs r = (c1 :: l1) ++ c :: (l2 ++ [c2]) -> ~ In (snd c) (mains srs (fst c)).
Proof.
  intros srs g fuel irs [id a b l] c1 l1 c l2 c2 GO AI [MR [MS NZ]] E I EC.
  apply (no_signal_inside srs g GO AI MR MS NZ id a b l c).
  - apply (gen_spec srs g GO AI fuel irs E). exists id. exact I.
  - exists c1, l1, l2, c2. exact EC.
Qed.
Print Assumptions C54_no_signal_inside.

(* a cycle of station routes without main signals: the search does not end *)
Definition cycle_srs : list sroute :=
  [mksr [10; 11]%N [1] [] [] None None 0 false; mksr [12]%N [] [] [] None None 0 false;
   mksr [13]%N [] [] [] None None 0 false].
Definition cycle_g : srgraph := mksrg [[1]; [2]; [1]] [[]; [0; 2]; [1]].
Theorem C54_cycle_refuted : graph_ok cycle_srs cycle_g /\
  forall fuel, get_interlocking_routes cycle_srs cycle_g fuel = Fuel.
Proof.
  split.
  { constructor; [reflexivity|reflexivity|]. intros [|[|[|s]]] t I; cbn in *; try lia. destruct s; destruct I. }
  assert (S1 : forall fuel p, fill_paths cycle_srs cycle_g (S fuel) 1 p 1 =
    (do a <- fill_paths cycle_srs cycle_g fuel 1 (p ++ [1]) 2; Ok (a ++ []))).
  { intros fuel p. transitivity (do ls <- mapM (fill_paths cycle_srs cycle_g fuel 1 (p ++ [1])) [2]; Ok (concat ls));
      [reflexivity|]. cbn [mapM]. destruct (fill_paths _ _ fuel 1 (p ++ [1]) 2); reflexivity. }
  assert (S2 : forall fuel p, fill_paths cycle_srs cycle_g (S fuel) 1 p 2 =
    (do a <- fill_paths cycle_srs cycle_g fuel 1 (p ++ [2]) 1; Ok (a ++ []))).
  { intros fuel p. transitivity (do ls <- mapM (fill_paths cycle_srs cycle_g fuel 1 (p ++ [2])) [1]; Ok (concat ls));
      [reflexivity|]. cbn [mapM]. destruct (fill_paths _ _ fuel 1 (p ++ [2]) 1); reflexivity. }
  assert (H : forall fuel p, fill_paths cycle_srs cycle_g fuel 1 p 1 = Fuel /\
                             fill_paths cycle_srs cycle_g fuel 1 p 2 = Fuel).
  { induction fuel as [|fuel IH]; intros p; [split; reflexivity|].
    rewrite S1, S2. rewrite (proj1 (IH _)), (proj2 (IH _)). split; reflexivity. }
  intros fuel.
  assert (R : routes_from_sr cycle_srs cycle_g fuel 0 = Fuel).
  { transitivity (do ls <- mapM (fill_paths cycle_srs cycle_g fuel 1 [0]) [1]; Ok (concat ls)); [reflexivity|].
    cbn [mapM]. rewrite (proj1 (H fuel [0])). reflexivity. }
  assert (Q : routes_of_sr cycle_srs cycle_g fuel 0 = Fuel).
  { transitivity (do a <- routes_from_sr cycle_srs cycle_g fuel 0; Ok (a ++ [mkir 0 0 2 [0]])); [|rewrite R; reflexivity].
    unfold routes_of_sr. cbn [at_ nth_error cycle_srs bind can_start g_pred g_succ cycle_g sr_main negb orb andb sr_requires_etcs].
    fold cycle_srs. fold cycle_g. destruct (routes_from_sr cycle_srs cycle_g fuel 0); reflexivity. }
  unfold get_interlocking_routes. change (seq 0 (length cycle_srs)) with [0; 1; 2]. cbn [mapM]. rewrite Q. reflexivity.
Qed.
Print Assumptions C54_cycle_refuted.

Example C54_example :
  graph_ok ex_srs ex_g /\ all_indexable ex_srs /\ signals_ok ex_srs /\
  (forall s t, In t (succ_of ex_g s) -> mains ex_srs s = [] -> ~ etcs ex_srs s -> 3 - t < 3 - s) /\
  get_interlocking_routes ex_srs ex_g 4 = Ok ex_irs.
Proof.
  split. { constructor; [reflexivity|reflexivity|]. intros [|[|[|s]]] t I; cbn in *; try lia. destruct s; destruct I. }
  split. { intros s r. revert s r. apply ex_sr_of. intros [|[|[|s]]] sr E L;
             [injection E as <-; reflexivity|injection E as <-; reflexivity|injection E as <-; reflexivity|lia]. }
  split.
  { split; [|split].
    - intros [|[|[|s]]] m I; cbn in I |- *; try lia. unfold mains, sr_of in I. destruct s; destruct I.
    - intros [|[|[|s]]]; unfold mains, sr_of; cbn [nth_error ex_srs sr_main].
      + repeat constructor.
      + constructor.
      + repeat constructor.
      + destruct s; constructor.
    - intros [|[|[|s]]] L; cbn in *; lia. }
  split.
  { intros s t I _ _. destruct s as [|[|[|s]]]; cbn in I; [lia|lia|destruct I|].
    unfold succ_of in I. cbn in I. destruct s; destruct I. }
  reflexivity.
Qed.
