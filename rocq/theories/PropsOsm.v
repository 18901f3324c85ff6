(* C83, C84, C85: the exported map of an infrastructure. *)
From Coq Require Import Permutation String Lra.
From Verif Require Import Base LayoutModel LayoutProofs GeoModel GeoSpec GeoProofs OsmModel OsmSpec OsmNodes OsmWays OsmProofs OsmCurves.
Local Open Scope nat_scope.

(* ---- C83: nodes ---- *)
(* The document starts with one node per element and one per station, in the order of
   their ids, at their places; what follows are points of curves and ways. *)
Theorem C83_nodes : forall iss threads, complete iss -> threads <> 0 ->
  exists els sts rest, export_to_osm threads iss = Ok (els ++ sts ++ rest) /\
    Forall2 (shows_element iss) els (seq 0 (List.length (elements iss))) /\
    Forall2 (shows_station iss) sts (seq 0 (List.length (stations iss))) /\
    (forall x, In x rest -> (exists p, shows_point x p) \/ (exists w, shows_way x w)).
Proof.
  intros iss t C T. destruct (export_whole iss C) as (els & sts & direct & curves & E & F1 & F2 & _).
  eexists els, sts, _. split; [exact (E t T)|]. split; [exact F1|]. split; [exact F2|].
  intros x Hx. apply in_app_iff in Hx. destruct Hx as [Hx|Hx]; apply in_map_iff in Hx; destruct Hx as (y & <- & _); [left|right];
    exists y; reflexivity.
Qed.
Print Assumptions C83_nodes.

(* The nodes are numbered 0, 1, 2, ... without gaps, the ways after them; ways name
   only nodes of the document. *)
Theorem C83_numbers : forall iss threads doc, complete iss -> threads <> 0 -> export_to_osm threads iss = Ok doc ->
  exists a b, node_numbers doc = map N.of_nat (seq 0 a) /\ way_numbers doc = map N.of_nat (seq a b) /\
    (forall r, In r (named doc) -> In r (node_numbers doc)).
Proof.
  intros iss t doc C T Hd. destruct (export_whole iss C) as (els & sts & direct & curves & E & F1 & F2 & info & -> & -> & I).
  rewrite (E t T) in Hd. apply Ok_eq in Hd. subst doc. set (n := List.length (elements iss)) in *. set (m := List.length (stations iss)) in *.
  set (cs := interpolations info) in *. set (c := List.length cs) in *.
  assert (N1 : node_numbers els = map N.of_nat (seq 0 n) /\ way_numbers els = [] /\ named els = []).
  { clear -F1. induction F1 as [|x e els l (el & p & _ & _ & ->) F IH]; [repeat split|]. destruct IH as (A & B & D).
    unfold node_numbers, way_numbers, named in *. cbn [flat_map map app] in *. rewrite A, B, D. auto. }
  assert (N2 : node_numbers sts = map N.of_nat (seq n m) /\ way_numbers sts = [] /\ named sts = []).
  { rewrite <- (Nat.add_0_r n). unfold n. clearbody m. clear -F2. revert F2. generalize 0 as a. revert sts. induction m as [|m IH]; intros sts a F2; inversion F2 as [|x e l l' (st & p & _ & _ & ->) F]; subst.
    - repeat split.
    - destruct (IH _ _ F) as (A & B & D). unfold node_numbers, way_numbers, named in *. cbn [flat_map map app seq] in *. rewrite A, B, D.
      replace (List.length (elements iss) + S a) with (S (List.length (elements iss) + a)) by lia. auto. }
  assert (L50 : forall i, In i cs -> List.length (points i) = 50) by (intros i Hi; apply (inv_curve _ _ _ _ I i Hi)).
  assert (Lp : List.length (flat_map points cs) = 50 * c).
  { unfold c. clear -L50. induction cs as [|i cs IH]; [reflexivity|]. cbn [flat_map List.length]. rewrite app_length, (L50 i (or_introl eq_refl)).
    rewrite IH; [lia|]. intros j Hj. apply L50. right. exact Hj. }
  assert (P : forall (l : list point) k, node_numbers (map point_node (with_ids k l)) = map N.of_nat (seq k (List.length l)) /\
     way_numbers (map point_node (with_ids k l)) = [] /\ named (map point_node (with_ids k l)) = []).
  { induction l as [|p l IH]; intros k; [repeat split|]. destruct (IH (S k)) as (A & B & D).
    unfold node_numbers, way_numbers, named in *. cbn [with_ids map flat_map point_node fst snd app seq List.length] in *. rewrite A, B, D. auto. }
  assert (W : forall (l : list (N * N)) k, node_numbers (map way_node (with_ids k l)) = [] /\
     way_numbers (map way_node (with_ids k l)) = map N.of_nat (seq k (List.length l)) /\
     named (map way_node (with_ids k l)) = flat_map (fun w => [fst w; snd w]) l).
  { induction l as [|p l IH]; intros k; [repeat split|]. destruct (IH (S k)) as (A & B & D).
    unfold node_numbers, way_numbers, named in *. cbn [with_ids map flat_map way_node fst snd app seq List.length] in *. rewrite A, B, D. auto. }
  destruct N1 as (A1 & A2 & A3). destruct N2 as (B1 & B2 & B3). set (pts := flat_map points cs) in *.
  set (ws := ways info ++ _) in *. destruct (P pts (n + m)) as (C1 & C2 & C3). destruct (W ws (n + m + 50 * c)) as (D1 & D2 & D3).
  assert (Nn : node_numbers (els ++ sts ++ map point_node (with_ids (n + m) pts) ++ map way_node (with_ids (n + m + 50 * c) ws)) =
    map N.of_nat (seq 0 (n + m + 50 * c))).
  { unfold node_numbers in *. rewrite !flat_map_app, A1, B1, C1, D1, app_nil_r, Lp, <- !map_app. f_equal.
    rewrite (seq_app (n + m)). rewrite (seq_app n m). rewrite <- app_assoc. reflexivity. }
  exists (n + m + 50 * c), (List.length ws). split; [exact Nn|]. split.
  - unfold way_numbers in *. rewrite !flat_map_app, A2, B2, C2, D2. reflexivity.
  - intros r Hr. rewrite Nn. assert (Hw : In r (flat_map (fun w => [fst w; snd w]) ws)).
    { unfold named in *. rewrite !flat_map_app, A3, B3, C3, D3 in Hr. exact Hr. }
    clear Hr. apply in_flat_map in Hw. destruct Hw as (w & Hw & Hr).
    assert (Kn : forall x, In x (conns info) -> In (fst x) (map N.of_nat (seq 0 n)) /\ In (snd x) (map N.of_nat (seq 0 n))).
    { intros x Hx. pose proof (inv_conn _ _ _ _ I x Hx) as Hn. pose proof (has_neighbour_fst iss _ _ Hn) as L1.
      pose proof (known_neighbours iss C _ _ Hn) as L2. fold n in L1, L2.
      split; apply in_map_iff; [exists (N.to_nat (fst x))|exists (N.to_nat (snd x))]; rewrite N2Nat.id; (split; [reflexivity|]); apply in_seq; lia. }
    assert (Sub : forall x, In x (map N.of_nat (seq 0 n)) -> In x (map N.of_nat (seq 0 (n + m + 50 * c)))).
    { intros x Hx. apply in_map_iff in Hx. destruct Hx as (j & <- & Hj). apply in_map, in_seq. apply in_seq in Hj. lia. }
    unfold ws in Hw. apply in_app_iff in Hw. destruct Hw as [Hw|Hw].
    + destruct (Kn w) as (K1 & K2); [unfold conns; apply in_app_iff; left; exact Hw|].
      destruct Hr as [<-|[<-|[]]]; apply Sub; assumption.
    + assert (Dt : forall l k x, (forall y, In y l -> In (fst y) (map N.of_nat (seq 0 n)) /\ In (snd y) (map N.of_nat (seq 0 n))) ->
        In x (flat_map (fun w => [fst w; snd w]) (detours k l)) ->
        In x (map N.of_nat (seq 0 n)) \/ In x (map N.of_nat (seq k (50 * List.length l)))).
      { clear. induction l as [|y l IH]; intros k x Ky Hx; [destruct Hx|]. cbn [detours] in Hx. rewrite flat_map_app, in_app_iff in Hx.
        destruct (Ky y (or_introl eq_refl)) as (Y1 & Y2). destruct Hx as [Hx|Hx].
        - unfold detour in Hx. change 50 with (S 49) in Hx. rewrite (steps_seq 49) in Hx. cbn [flat_map] in Hx.
          assert (Rg : forall j, k <= j < k + 50 -> In (N.of_nat j) (map N.of_nat (seq k (50 * List.length (y :: l))))).
          { intros j Lj. apply in_map, in_seq. cbn [List.length]. lia. }
          apply in_app_iff in Hx. destruct Hx as [[<-|[<-|[]]]|Hx]; [left; exact Y1|right; apply Rg; lia|].
          rewrite flat_map_app in Hx. apply in_app_iff in Hx. destruct Hx as [Hx|Hx].
          + apply in_flat_map in Hx. destruct Hx as (w & Hw & Hx). apply in_map_iff in Hw. destruct Hw as (j & <- & Hj). apply in_seq in Hj.
            destruct Hx as [<-|[<-|[]]]; right; apply Rg; lia.
          + destruct Hx as [<-|[<-|[]]]; [right; apply Rg; lia|left; exact Y2].
        - destruct (IH _ _ (fun z Hz => Ky z (or_intror Hz)) Hx) as [H|H]; [auto|]. right. apply in_map_iff in H. destruct H as (j & <- & Hj).
          apply in_map, in_seq. apply in_seq in Hj. cbn [List.length]. lia. }
      destruct (Dt (map (fun i => (first_elem i, second_elem i)) cs) (n + m) r) as [H|H].
      * intros y Hy. apply Kn. unfold conns. apply in_app_iff. right. exact Hy.
      * apply in_flat_map. eauto.
      * apply Sub, H.
      * rewrite map_length in H. apply in_map_iff in H. destruct H as (j & <- & Hj). apply in_map, in_seq. apply in_seq in Hj. fold c in Hj. lia.
Qed.
Print Assumptions C83_numbers.

(* The document does not depend on the number of threads, whatever the infrastructure. *)
Theorem C83_threads : forall iss t1 t2, t1 <> 0 -> t2 <> 0 -> export_to_osm t1 iss = export_to_osm t2 iss.
Proof.
  intros iss t1 t2 T1 T2. unfold export_to_osm. destruct (for_each (export_station iss) _ _) as [info| | |]; cbn [bind]; [|reflexivity..].
  cbv zeta. destruct (Nat.eqb_spec t1 0) as [E|_]; [contradiction|]. destruct (Nat.eqb_spec t2 0) as [E|_]; [contradiction|].
  pose proof (export_parts iss (sort_nodes (nodes info)) t1 T1) as X1. pose proof (export_parts iss (sort_nodes (nodes info)) t2 T2) as X2.
  cbv zeta in X1, X2. rewrite X1, X2. reflexivity.
Qed.
Print Assumptions C83_threads.

(* ---- C84: connections ---- *)
(* Two neighbouring elements are connected exactly once: by one way if they are in the
   same station, otherwise by a chain of ways over fifty nodes of their own. There are no
   other ways. *)
Theorem C84_connections : forall iss threads, complete iss -> threads <> 0 ->
  exists nodes pts places ws direct curves,
    export_to_osm threads iss = Ok (nodes ++ pts ++ ws) /\
    List.length nodes = List.length (elements iss) + List.length (stations iss) /\
    List.length places = 50 * List.length curves /\
    Forall2 shows_point pts (combine (seq (List.length nodes) (List.length places)) places) /\
    way_numbers nodes = [] /\
    (let steps := direct ++ detours (List.length nodes) curves in
     Forall2 shows_way ws (combine (seq (List.length nodes + List.length places) (List.length steps)) steps)) /\
    (forall c, In c direct -> linked iss (fst c) (snd c) /\ same_station iss (fst c) (snd c)) /\
    (forall c, In c curves -> linked iss (fst c) (snd c) /\ ~ same_station iss (fst c) (snd c)) /\
    (forall a b, linked iss a b -> once a b (direct ++ curves)).
Proof.
  intros iss t C T. destruct (export_whole iss C) as (els & sts & direct & cs & E & F1 & F2 & info & -> & -> & I).
  set (n := List.length (elements iss)) in *. set (m := List.length (stations iss)) in *.
  assert (L1 : List.length els = n) by (rewrite (Forall2_len _ _ _ F1), seq_length; reflexivity).
  assert (L2 : List.length sts = m) by (rewrite (Forall2_len _ _ _ F2), seq_length; reflexivity).
  assert (L50 : forall i, In i (interpolations info) -> List.length (points i) = 50) by (intros i Hi; apply (inv_curve _ _ _ _ I i Hi)).
  exists (els ++ sts), (map point_node (with_ids (n + m) (flat_map points (interpolations info)))), (flat_map points (interpolations info)).
  eexists. exists (ways info), (map (fun i => (first_elem i, second_elem i)) (interpolations info)).
  rewrite map_length, app_length, L1, L2.
  assert (Lp : List.length (flat_map points (interpolations info)) = 50 * List.length (interpolations info)).
  { clear -L50. induction (interpolations info) as [|i l IH]; [reflexivity|]. cbn [flat_map List.length].
    rewrite app_length, (L50 i (or_introl eq_refl)), IH; [lia|]. intros j Hj. apply L50. right. exact Hj. }
  split; [rewrite (E t T), <- app_assoc; reflexivity|]. split; [reflexivity|]. split; [exact Lp|].
  assert (Fm : forall A (f : nat * A -> xml) (Q : xml -> nat * A -> Prop) l k, (forall p, Q (f p) p) ->
    Forall2 Q (map f (with_ids k l)) (combine (seq k (List.length l)) l)).
  { intros A f Q l k H. rewrite <- with_ids_eq. generalize (with_ids k l). induction l0; constructor; auto. }
  split; [apply Fm; reflexivity|]. split.
  { clear -F1 F2. unfold way_numbers. rewrite flat_map_app.
    assert (X1 : flat_map (fun x => match x with Node _ _ _ => [] | Way id _ _ => [id] end) els = []).
    { induction F1 as [|x e els l (el & p & _ & _ & ->) F IH]; [reflexivity|exact IH]. }
    assert (X2 : flat_map (fun x => match x with Node _ _ _ => [] | Way id _ _ => [id] end) sts = []).
    { clear F1 X1. induction F2 as [|x e sts l (el & p & _ & _ & ->) F IH]; [reflexivity|exact IH]. }
    rewrite X1, X2. reflexivity. }
  split; [cbv zeta; rewrite Lp; apply Fm; reflexivity|]. split; [|split].
  - intros c Hc. split; [left; apply (inv_conn _ _ _ _ I); unfold conns; apply in_app_iff; left; exact Hc|apply (inv_way _ _ _ _ I), Hc].
  - intros c Hc. split; [left; apply (inv_conn _ _ _ _ I); unfold conns; apply in_app_iff; right; exact Hc|].
    apply in_map_iff in Hc. destruct Hc as (i & <- & Hi). apply (inv_curve _ _ _ _ I i Hi).
  - intros a b [H|H]; destruct (inv_done _ _ _ _ I _ _ H) as (c & Hc & Ec).
    + exact (NoDup_once a b _ c (inv_nodup _ _ _ _ I) Hc Ec).
    + exact (NoDup_once a b _ c (inv_nodup _ _ _ _ I) Hc (ends_sym _ _ _ Ec)).
Qed.
Print Assumptions C84_connections.

(* ---- C85: curves ---- *)
(* Two neighbouring elements in different stations are connected by fifty points of the
   cubic curve in space that is given by their places and two control points; the chain of
   ways leads over these points. The control point of an element continues the track that
   ends there. The points stay in every rectangle of the map (of at most half the
   globe) that contains the four. *)
Theorem C85_curves_partial : forall iss threads doc, complete iss -> threads <> 0 -> export_to_osm threads iss = Ok doc ->
  forall a b, linked iss a b -> ~ same_station iss a b ->
  exists a' b' first pts p c d q, ends a b (a', b') /\
    placed iss a' p /\ placed iss b' q /\
    control ahead_by_hundredths iss a' b' p c /\ control ahead_by_hundredths iss b' a' q d /\
    drawn degree p c d q pts /\
    (forall h x, nth_error pts h = Some x -> In (Node (N.of_nat (first + h)) x [("type", Text "interpolation")]%string) doc) /\
    (forall s, In s (detour first a' b') -> exists id, In (Way id [fst s; snd s] [("railway", Text "rail")]%string) doc) /\
    (forall west east south north,
       (-180 <= west /\ west <= east /\ east <= 180 /\ east - west <= 180 /\ -90 <= south /\ north <= 90)%R ->
       Forall (in_box west east south north) [p; c; d; q] -> Forall (in_box west east south north) pts).
Proof.
  intros iss t doc C T Hd a b Hl Hs. destruct (export_whole iss C) as (els & sts & direct & cs & E & F1 & F2 & info & -> & -> & I).
  rewrite (E t T) in Hd. apply Ok_eq in Hd. subst doc.
  assert (Found : exists i, In i (interpolations info) /\ ends a b (first_elem i, second_elem i)).
  { assert (Hc : exists c, In c (conns info) /\ ends a b c).
    { destruct Hl as [H|H]; destruct (inv_done _ _ _ _ I _ _ H) as (c & Hc & Ec); exists c; [auto|split; [exact Hc|apply ends_sym, Ec]]. }
    destruct Hc as (c & Hc & Ec). unfold conns in Hc. apply in_app_iff in Hc. destruct Hc as [Hc|Hc].
    - exfalso. apply Hs. destruct (inv_way _ _ _ _ I c Hc) as (s & S1 & S2). exists s. destruct Ec as [->| ->]; auto.
    - apply in_map_iff in Hc. destruct Hc as (i & <- & Hi). exists i. auto. }
  destruct Found as (i & Hi & Ei). destruct (inv_curve _ _ _ _ I i Hi) as (_ & Gi & Li).
  destruct (interpolation_drawn _ _ _ _ Gi) as (p & c & d & q & P & Q & Kc & Kd & Dr).
  assert (L50 : forall i, In i (interpolations info) -> List.length (points i) = 50) by (intros j Hj; apply (inv_curve _ _ _ _ I j Hj)).
  destruct (curve_found (interpolations info) i L50 Hi (List.length (elements iss) + List.length (stations iss))) as (k & K1 & K2).
  exists (first_elem i), (second_elem i), k, (points i), p, c, d, q. split; [exact Ei|]. split; [exact P|]. split; [exact Q|].
  split; [exact Kc|]. split; [exact Kd|]. split; [exact Dr|]. split; [|split].
  - intros h x Hx. apply in_app_iff. right. apply in_app_iff. right. apply in_app_iff. left. apply in_map_iff.
    exists (k + h, x). split; [reflexivity|]. apply K1, Hx.
  - intros s Hst. apply K2 in Hst. set (ws := detours _ _) in *.
    assert (Hw : In s (ways info ++ ws)) by (apply in_app_iff; right; exact Hst).
    apply In_nth_error in Hw. destruct Hw as (j & Hj).
    exists (N.of_nat (List.length (elements iss) + List.length (stations iss) + 50 * List.length (interpolations info) + j)).
    apply in_app_iff. right. apply in_app_iff. right. apply in_app_iff. right. apply in_map_iff. eexists (_, s). split; [reflexivity|].
    apply with_ids_In. split; [lia|]. rewrite <- Hj. f_equal. lia.
  - intros w e s n (B1 & B2 & B3 & B4 & B5 & B6) F. inversion F as [|? ? X1 F3]; subst. inversion F3 as [|? ? X2 F4]; subst.
    inversion F4 as [|? ? X3 F5]; subst. inversion F5 as [|? ? X4 _]; subst. eapply drawn_box; eassumption.
Qed.
Print Assumptions C85_curves_partial.

(* ---- concrete cases ---- *)
(* two stations, A with the elements 1 and 0, B with the element 2; the track runs 0 - 1 - 2 *)
Definition two_stations (p0 p1 p2 pa pb : point) : osm_infra :=
  mk_infra [mk_element "border" true [None; Some 1%N]; mk_element "ms" true [Some 0%N; Some 2%N];
            mk_element "bumper" false [Some 1%N]]
           [mk_station "A" [1%N; 0%N]; mk_station "B" [2%N]] [pa; pb] [p0; p1; p2].
Lemma two_stations_complete p0 p1 p2 pa pb : complete (two_stations p0 p1 p2 pa pb).
Proof.
  constructor; try reflexivity; try discriminate.
  - cbn. apply perm_swap.
  - intros a b (el & H & Hn). cbn [two_stations elements] in *.
    destruct (N.to_nat a) as [|[|[|k]]]; cbn in H; try (destruct k; discriminate H); injection H as <-; cbn in Hn;
      repeat (destruct Hn as [Hn|Hn]; [try discriminate Hn; injection Hn as <-; reflexivity|]); destruct Hn.
Qed.

Example C83_sat : complete (two_stations (mk_point 8 49) (mk_point 9 49) (mk_point 10 50) (mk_point 8 49) (mk_point 10 50)) /\ 4 <> 0.
Proof. split; [apply two_stations_complete|discriminate]. Qed.
Example C84_sat : let iss := two_stations (mk_point 8 49) (mk_point 9 49) (mk_point 10 50) (mk_point 8 49) (mk_point 10 50) in
  complete iss /\ linked iss 0 1 /\ same_station iss 0 1 /\ linked iss 1 2 /\ ~ same_station iss 1 2.
Proof.
  intros iss. split; [apply two_stations_complete|]. split; [|split; [|split]].
  - left. eexists. split; [reflexivity|]. cbn. auto.
  - exists 0. split; eexists; (split; [reflexivity|]); cbn; auto.
  - left. eexists. split; [reflexivity|]. cbn. auto.
  - intros (s & (st & H1 & E1) & (st' & H2 & E2)). assert (st' = st) by congruence. subst st'.
    destruct s as [|[|[|s]]]; cbn in H1; try discriminate H1; injection H1 as <-; cbn in E1, E2;
      repeat (destruct E1 as [E1|E1]; try discriminate E1); repeat (destruct E2 as [E2|E2]; try discriminate E2); auto.
Qed.
Example C85_sat : let iss := two_stations (mk_point 8 49) (mk_point 9 49) (mk_point 10 50) (mk_point 8 49) (mk_point 10 50) in
  complete iss /\ linked iss 1 2 /\ ~ same_station iss 1 2 /\ comes_from iss 1 2 0.
Proof.
  intros iss. destruct C84_sat as (A & _ & _ & B & D). split; [exact A|]. split; [exact B|]. split; [exact D|].
  eexists _, [], [Some 2%N]. split; [reflexivity|]. split; [reflexivity|]. split; [discriminate|].
  intros x [E|[]]. congruence.
Qed.

(* ---- what does not hold ---- *)
(* Not every infrastructure can be exported on every machine: the standard library may
   report zero threads, and an infrastructure without stations has no last node. *)
Theorem C83_always_refuted :
  (exists iss, complete iss /\ export_to_osm 0 iss = UB) /\
  (forall threads, threads <> 0 -> export_to_osm threads (mk_infra [] [] [] []) = UB).
Proof.
  split.
  - exists (two_stations (mk_point 8 49) (mk_point 9 49) (mk_point 10 50) (mk_point 8 49) (mk_point 10 50)).
    split; [apply two_stations_complete|]. unfold export_to_osm.
    destruct (gathered _ (two_stations_complete (mk_point 8 49) (mk_point 9 49) (mk_point 10 50) (mk_point 8 49) (mk_point 10 50))) as (info & -> & _).
    reflexivity.
  - intros t T. unfold export_to_osm. change (numbered_stations (mk_infra [] [] [] [])) with (@nil (N * osm_station)).
    cbn [for_each bind nodes]. cbv zeta. change (sort_nodes []) with (@nil (N * item)).
    destruct (Nat.eqb_spec t 0) as [E|_]; [contradiction|].
    pose proof (export_parts (mk_infra [] [] [] []) [] t T) as X. cbv zeta in X. rewrite X. reflexivity.
Qed.
Print Assumptions C83_always_refuted.

(* A line that runs along the equator is not drawn along the equator: where its elements
   are less than a hundredth of a degree apart, the curve starts due south. *)
Theorem C85_straight_refuted :
  ~ (forall iss threads doc, complete iss -> threads <> 0 -> export_to_osm threads iss = Ok doc ->
     (forall p, In p (element_positions iss) -> lat p = 0%R) -> (forall p, In p (station_positions iss) -> lat p = 0%R) ->
     forall id p tags, In (Node id p tags) doc -> lat p = 0%R).
Proof.
  intros H. set (p0 := mk_point (5 / 1000) 0). set (p1 := mk_point 0 0). set (p2 := mk_point 1 0).
  pose proof (two_stations_complete p0 p1 p2 p1 p2) as C. set (iss := two_stations p0 p1 p2 p1 p2) in *.
  destruct (export_whole iss C) as (els & sts & direct & cs & E & F1 & F2 & info & -> & -> & I).
  specialize (H iss 1 _ C ltac:(discriminate) (E 1 ltac:(discriminate))).
  assert (L12 : has_neighbour iss 1 2) by (eexists; split; [reflexivity|]; cbn; auto).
  assert (Ns : ~ same_station iss 1 2).
  { intros (s & (st & H1 & E1) & (st' & H2 & E2)). assert (st' = st) by congruence. subst st'.
    destruct s as [|[|[|s]]]; cbn in H1; try discriminate H1; injection H1 as <-; cbn in E1, E2;
      repeat (destruct E1 as [E1|E1]; try discriminate E1); repeat (destruct E2 as [E2|E2]; try discriminate E2); auto. }
  destruct (inv_done _ _ _ _ I _ _ L12) as (c & Hc & Ec). unfold conns in Hc. apply in_app_iff in Hc. destruct Hc as [Hc|Hc].
  { apply Ns. destruct (inv_way _ _ _ _ I c Hc) as (s & S1 & S2). exists s. destruct Ec as [->| ->]; auto. }
  apply in_map_iff in Hc. destruct Hc as (i & <- & Hi). destruct (inv_curve _ _ _ _ I i Hi) as (_ & Gi & Li).
  assert (L50 : forall i, In i (interpolations info) -> List.length (points i) = 50) by (intros j Hj; apply (inv_curve _ _ _ _ I j Hj)).
  destruct (curve_found (interpolations info) i L50 Hi (List.length (elements iss) + List.length (stations iss))) as (k & K1 & _).
  assert (All : forall x, In x (points i) -> lat x = 0%R).
  { intros x Hx. apply In_nth_error in Hx. destruct Hx as (h & Hx).
    apply (H ltac:(intros p [<-|[<-|[<-|[]]]]; reflexivity) ltac:(intros p [<-|[<-|[]]]; reflexivity)
             (N.of_nat (k + h)) x [("type", Text "interpolation")]%string).
    apply in_app_iff. right. apply in_app_iff. right. apply in_app_iff. left. apply in_map_iff.
    exists (k + h, x). split; [reflexivity|]. apply K1, Hx. }
  (* the auxiliary points *)
  assert (A21 : get_auxiliary_point iss 2 1 = Ok p2) by reflexivity.
  assert (A12 : get_auxiliary_point iss 1 2 = Ok (auxiliary p1 p2 p0)) by reflexivity.
  set (u := (units p1 p2 / 1000000)%R).
  assert (Eu : auxiliary p1 p2 p0 = mk_point 0 (0 - u)).
  { unfold auxiliary. cbv zeta. unfold equal_. cbn [p0 p1 lon lat]. destruct (Rlt_dec _ _) as [_|N].
    - destruct (Rlt_dec 0 (0 - 0)); [lra|]. reflexivity.
    - exfalso. apply N. replace (0 - 5 / 1000 - 0)%R with (- (5 / 1000))%R by lra. rewrite Rabs_Ropp, Rabs_pos_eq; lra. }
  pose proof PI_bounds as PB.
  assert (Ub : (0 < u < 1)%R).
  { unfold u, units. cbv zeta. cbn [p1 p2 lon lat]. replace (to_rad 0) with 0%R by (unfold to_rad; lra). rewrite sin_0, cos_0.
    replace (to_rad (0 - 1)) with (- degree)%R by (rewrite to_rad_degree; lra). rewrite cos_neg.
    replace (0 * 0 + 1 * 1 * cos degree)%R with (cos degree) by ring.
    rewrite acos_cos by (unfold degree; lra). unfold degree, EARTH_RADIUS, PI_. lra. }
  assert (Low : forall a b cc, lat a = 0%R -> lat b = 0%R -> lat cc = 0%R ->
     lat (get_bezier_curve a (mk_point 0 (0 - u)) b cc (1 / 100)) <> 0%R /\
     lat (get_bezier_curve a b (mk_point 0 (0 - u)) cc (1 / 100)) <> 0%R).
  { intros a b cc Za Zb Zc. assert (Sn : (sin ((0 - u) * degree) < 0)%R).
    { apply sin_lt_0_var; unfold degree in *; nra. }
    assert (T : (0 < 1 / 100 < 1)%R) by lra. split.
    - destruct (bezier_shown a (mk_point 0 (0 - u)) b cc (1 / 100) T) as (Z & _). intros X. rewrite X in Z.
      rewrite casteljau_z in Z. unfold at_degrees, sphere in Z. cbn [vz lat] in Z. rewrite Za, Zb, Zc, !Rmult_0_l, !sin_0 in Z.
      unfold bezier in Z. nra.
    - destruct (bezier_shown a b (mk_point 0 (0 - u)) cc (1 / 100) T) as (Z & _). intros X. rewrite X in Z.
      rewrite casteljau_z in Z. unfold at_degrees, sphere in Z. cbn [vz lat] in Z. rewrite Za, Zb, Zc, !Rmult_0_l, !sin_0 in Z.
      unfold bezier in Z. nra. }
  assert (First : forall a1 a2 r1 r2, get_auxiliary_point iss (first_elem i) (second_elem i) = Ok a1 ->
     get_auxiliary_point iss (second_elem i) (first_elem i) = Ok a2 ->
     nth_error (element_positions iss) (N.to_nat (first_elem i)) = Some r1 ->
     nth_error (element_positions iss) (N.to_nat (second_elem i)) = Some r2 ->
     In (get_bezier_curve r1 a1 a2 r2 (1 / 100)) (points i)).
  { intros a1 a2 r1 r2 E1 E2 E3 E4. unfold compute_interpolation in Gi. rewrite E1, E2 in Gi. cbn [bind] in Gi.
    rewrite (proj2 (at_N_Ok _ _ _) E3), (proj2 (at_N_Ok _ _ _) E4) in Gi. cbn [bind] in Gi. apply Ok_eq in Gi.
    rewrite <- Gi. cbn [points]. unfold counters. rewrite map_map. apply in_map_iff. exists 0. split; [|apply in_seq; lia].
    f_equal. }
  destruct Ec as [Ec|Ec]; injection Ec as Ef Es; rewrite Ef, Es in First.
  - specialize (First _ _ p1 p2 A12 A21 eq_refl eq_refl). apply All in First. rewrite Eu in First.
    destruct (Low p1 p2 p2 eq_refl eq_refl eq_refl) as (X & _). contradiction.
  - specialize (First _ _ p2 p1 A21 A12 eq_refl eq_refl). apply All in First. rewrite Eu in First.
    destruct (Low p2 p2 p1 eq_refl eq_refl eq_refl) as (_ & X). contradiction.
Qed.
Print Assumptions C85_straight_refuted.
