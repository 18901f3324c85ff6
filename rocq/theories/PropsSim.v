(* The simulation graph and the later of two random times. *)
From Verif Require Import Base GraphModel GraphProofs DpdModel DpdSpec DpdProofs SimModel SimSpec SimProofs SimProofs2.
From Verif Require PropsDpd.
From Coq Require Import Sorting.Sorted.
Local Open Scope Z_scope.

(* ---- C110 ---- *)
(* Combining two distributions gives the distribution of the later of the two times:
   for every moment, the probability that it is not later is the product. *)
Theorem C110_later_partial l1 l2 : l1 <> [] -> l2 <> [] ->
  (forall h p, In (h, p) l1 -> moderate h) -> (forall h p, In (h, p) l2 -> moderate h) ->
  first_least 6 (map fst l1) -> first_least 6 (map fst l2) ->
  exists d1 d2 d es1 es2 es,
    inserts1 time_primary (empty1 time_primary) l1 = Ok d1 /\ inserts1 time_primary (empty1 time_primary) l2 = Ok d2 /\
    fold_max d1 d2 = Ok d /\
    entries1 time_primary d1 = Ok es1 /\ entries1 time_primary d2 = Ok es2 /\ entries1 time_primary d = Ok es /\
    (forall x, upto x es == upto x es1 * upto x es2)%Q /\
    (forall x q1 q2, mass_upto 6 x l1 q1 -> mass_upto 6 x l2 q2 -> upto x es == q1 * q2)%Q.
Proof.
  intros N1 N2 M1 M2 F1 F2. destruct (history_fair l1 N1 M1 F1) as (d1 & es1 & E1 & G1 & A1).
  destruct (history_fair l2 N2 M2 F2) as (d2 & es2 & E2 & G2 & A2).
  destruct (fold_max_ok d1 d2 es1 es2 G1 G2) as (d & es & E & EE & U). exists d1, d2, d, es1, es2, es.
  do 6 (split; [solve [assumption|apply G1|apply G2]|]). split; [exact U|]. intros x q1 q2 U1 U2. rewrite U.
  rewrite (listed_upto l1 es1 A1 x q1 U1), (listed_upto l2 es2 A2 x q2 U2). reflexivity.
Qed.
Print Assumptions C110_later_partial.
(* A distribution of moderate times exists exactly if its first insertion is the earliest (any
   other insertion never works, see C46). *)
Lemma early_only l : forall d d', good1 early d -> (forall h p, In (h, p) l -> moderate h) -> inserts1 time_primary d l = Ok d' ->
  forall h p r, In (h, p) l -> rounds 6 h r -> d1_first d <= r.
Proof.
  induction l as [|[h p] l IH]; intros d d' G M E h' p' r I R; [destruct I|]. cbn [inserts1] in E.
  assert (Mh : moderate h) by (apply (M h p); left; reflexivity).
  destruct (round_ok early early_norm_ok h) as (r1 & _ & R1 & _); [unfold moderate in Mh; lia|unfold moderate in Mh; cbn [pr_gran pr_max early]; lia|].
  cbn [pr_gran early] in R1.
  assert (LE : d1_first d <= r1).
  { destruct (Z_lt_le_dec r1 (d1_first d)) as [LT|LE]; [|exact LE]. exfalso. destruct G as [NE F D L]. cbn [pr_gran pr_max early] in *.
    assert (1 <= Z.of_nat (length (d1_mass d))) by (destruct (d1_mass d); [congruence|cbn [length]; lia]).
    destruct (PropsDpd.C46_below_first_refuted d h p r1) as [K|K]; try assumption; try lia; [unfold moderate, ordinary in *; lia|rewrite K in E; discriminate|rewrite K in E; discriminate]. }
  destruct (insert1_good early early_norm_ok d h p r1 G (early_fits h Mh) R1 LE) as (d1 & E1 & G1 & F1 & _).
  change (insert1 early d h p) with (insert1 time_primary d h p) in E1. rewrite E1 in E. cbn [bind] in E.
  destruct I as [[= <- <-]|I]; [rewrite (rounds_unique 6 h r r1 eq_refl R R1); exact LE|].
  rewrite <- F1. apply (IH d1 d' G1) with (h := h') (p := p'); try assumption. intros h2 p2 I2. apply (M h2 p2). right. exact I2.
Qed.
Theorem C110_exists l : (forall h p, In (h, p) l -> moderate h) ->
  (exists d, inserts1 time_primary (empty1 time_primary) l = Ok d) <-> first_least 6 (map fst l).
Proof.
  intros M. destruct l as [|[h p] l]; [split; [constructor|intros _; eexists; reflexivity]|]. split.
  - intros (d & E). cbn [map fst first_least]. intros h' x0 x I R0 R. apply in_map_iff in I as ((h1 & p') & <- & I). cbn [fst] in *.
    assert (Mh : moderate h) by (apply (M h p); left; reflexivity). cbn [inserts1] in E.
    destruct (insert1_empty early early_norm_ok h p x0 (early_fits h Mh) R0) as (d1 & E1 & G1 & F1 & _).
    change (insert1 early (empty1 early) h p) with (insert1 time_primary (empty1 time_primary) h p) in E1. rewrite E1 in E. cbn [bind] in E.
    rewrite <- F1. apply (early_only l d1 d G1) with (h := h1) (p := p'); try assumption. intros h2 p2 I2. apply (M h2 p2). right. exact I2.
  - intros F. destruct (history_fair ((h, p) :: l)) as (d & _ & E & _); [discriminate|exact M|exact F|]. exists d. exact E.
Qed.
Print Assumptions C110_exists.
(* Combining any two distributions of moderate times gives the distribution of the later of the
   two times: for every moment, the probability that it is not later is the product. *)
Theorem C110_later l1 l2 d1 d2 : (forall h p, In (h, p) l1 -> moderate h) -> (forall h p, In (h, p) l2 -> moderate h) ->
  inserts1 time_primary (empty1 time_primary) l1 = Ok d1 -> inserts1 time_primary (empty1 time_primary) l2 = Ok d2 ->
  exists d es, fold_max d1 d2 = Ok d /\ entries1 time_primary d = Ok es /\ (forall x q1 q2, mass_upto 6 x l1 q1 -> mass_upto 6 x l2 q2 -> upto x es == q1 * q2)%Q.
Proof.
  intros M1 M2 E1 E2.
  destruct l1 as [|e1 l1].
  { injection E1 as <-. exists (empty1 time_primary), []. split; [reflexivity|]. split; [reflexivity|]. intros x q1 q2 U _. inversion U; subst. cbn [upto]. ring. }
  assert (F1 : first_least 6 (map fst (e1 :: l1))) by (apply C110_exists; eauto).
  destruct (history_fair (e1 :: l1)) as (d1' & es1 & E1' & G1 & A1); [discriminate|exact M1|exact F1|]. assert (d1' = d1) by congruence. subst d1'.
  destruct l2 as [|e2 l2].
  { injection E2 as <-. exists (empty1 time_primary), []. split; [|split; [reflexivity|intros x q1 q2 _ U; inversion U; subst; cbn [upto]; ring]].
    pose proof (f_entries _ _ G1) as EE. unfold fold_max. destruct (d1_mass d1); [reflexivity|]. rewrite EE. cbn [bind].
    change (entries1 time_primary (empty1 time_primary)) with (@Ok (list (Z * Q)) []). cbn [bind].
    replace (maxima es1 []) with (@nil (Z * Q)); [reflexivity|]. clear. unfold maxima. induction es1 as [|e es IH]; [reflexivity|exact IH]. }
  assert (F2 : first_least 6 (map fst (e2 :: l2))) by (apply C110_exists; eauto).
  destruct (history_fair (e2 :: l2)) as (d2' & es2 & E2' & G2 & A2); [discriminate|exact M2|exact F2|]. assert (d2' = d2) by congruence. subst d2'.
  destruct (fold_max_ok d1 d2 es1 es2 G1 G2) as (d & es & E & EE & U). exists d, es. split; [exact E|]. split; [exact EE|].
  intros x q1 q2 U1 U2. rewrite U, (listed_upto _ es1 A1 x q1 U1), (listed_upto _ es2 A2 x q2 U2). reflexivity.
Qed.
Print Assumptions C110_later.
(* Nothing combined with anything is nothing. *)
Theorem C110_nothing d es : entries1 time_primary d = Ok es ->
  fold_max (empty1 time_primary) d = Ok (empty1 time_primary) /\ fold_max d (empty1 time_primary) = Ok (empty1 time_primary).
Proof.
  intros E. split; [reflexivity|]. unfold fold_max. destruct (d1_mass d); [reflexivity|]. rewrite E. cbn [bind].
  change (entries1 time_primary (empty1 time_primary)) with (@Ok (list (Z * Q)) []). cbn [bind].
  replace (maxima es []) with (@nil (Z * Q)); [reflexivity|]. clear E. unfold maxima. induction es as [|e es IH]; [reflexivity|exact IH].
Qed.
Print Assumptions C110_nothing.
(* Two trains, due at 0 or 12 and at 6 or 12. *)
Example ex_C110 :
  (do d1 <- inserts1 time_primary (empty1 time_primary) [(0, (1#2)%Q); (12, (1#2)%Q)];
   do d2 <- inserts1 time_primary (empty1 time_primary) [(7, (1#4)%Q); (11, (3#4)%Q)];
   do d <- fold_max d1 d2; do es <- entries1 time_primary d; Ok (map (fun e => (fst e, Qred (snd e))) es))
  = Ok [(6, (1#8)%Q); (12, (7#8)%Q)].
Proof. reflexivity. Qed.
Example ex_C110_meets : first_least 6 (map fst [(0, (1#2)%Q); (12, (1#2)%Q)]) /\ first_least 6 (map fst [(7, (1#4)%Q); (11, (3#4)%Q)]) /\
  mass_upto 6 6 [(7, (1#4)%Q); (11, (3#4)%Q)] ((1#4) + 0) /\ moderate 12.
Proof.
  cbn [map fst first_least]. split; [|split; [|split]].
  - intros h x0 x [<-|[]] ((a & ->) & A) ((b & ->) & B). cbn [fst] in *. lia.
  - intros h x0 x [<-|[]] ((a & ->) & A) ((b & ->) & B). cbn [fst] in *. lia.
  - apply (upto_in 6 6 7 _ _ _ 6); [split; [exists 1; reflexivity|lia]|lia|].
    apply (upto_out 6 6 11 _ _ _ 12); [split; [exists 2; reflexivity|lia]|lia|]. constructor.
  - unfold moderate. lia.
Qed.

(* ---- C111 ---- *)
Local Open Scope nat_scope.
(* Built without assertions, the graph has three nodes for each train, chained in
   their order; there are no edges between trains. *)
Theorem C111_nodes_partial trains : numbered_trains trains ->
  exists g, sim_graph false trains = Ok g /\ length g = 3 * length trains /\
    forall k tr, nth_error trains k = Some tr ->
      nth_error g (3 * k) = Some (mksn (3 * k) tr None (Some (3 * k + 1)) [] []) /\
      nth_error g (3 * k + 1) = Some (mksn (3 * k + 1) tr (Some (3 * k)) (Some (3 * k + 2)) [] []) /\
      nth_error g (3 * k + 2) = Some (mksn (3 * k + 2) tr (Some (3 * k + 1)) None [] []).
Proof.
  intros (ND & HR). destruct (sim_graph_ok trains ND HR) as (g & E & L & K). exists g. split; [exact E|]. split; [exact L|].
  assert (D : forall k r, r < 3 -> (3 * k + r) / 3 = k /\ (3 * k + r) mod 3 = r).
  { intros k r R. split; symmetry; [apply (Nat.div_unique _ 3 k r)|apply (Nat.mod_unique _ 3 k r)]; lia. }
  intros k tr T. split; [|split].
  - destruct (D k 0) as (D1 & D2); [lia|]. rewrite Nat.add_0_r in *. rewrite (K _ tr) by (rewrite D1; exact T). rewrite D2. reflexivity.
  - destruct (D k 1) as (D1 & D2); [lia|]. rewrite (K _ tr) by (rewrite D1; exact T). rewrite D2. cbn [Nat.eqb].
    replace (3 * k + 1 - 1) with (3 * k) by lia. replace (3 * k + 1 + 1) with (3 * k + 2) by lia. reflexivity.
  - destruct (D k 2) as (D1 & D2); [lia|]. rewrite (K _ tr) by (rewrite D1; exact T). rewrite D2. cbn [Nat.eqb].
    replace (3 * k + 2 - 1) with (3 * k + 1) by lia. reflexivity.
Qed.
Print Assumptions C111_nodes_partial.
(* In every graph, with order edges as well, a path is reported exactly where there is
   one; from a node to itself none is reported. *)
Lemma follows_edge g a b : follows g a b <-> edge (out_ids g) a b.
Proof.
  unfold follows, edge, out_ids, s_out. destruct (nth_error g a) as [n|].
  - split.
    + intros (m & [= <-] & [H|H]); [rewrite H; left; reflexivity|apply in_or_app; right; exact H].
    + intros H. exists n. split; [reflexivity|]. apply in_app_or in H. destruct H as [H|H]; [|auto].
      destruct (s_succ n); [destruct H as [->|[]]; auto|destruct H].
  - split; [intros (m & H & _); discriminate|intros []].
Qed.
Lemma leads_walk g a b : leads_to g a b <-> GraphProofs.walk (out_ids g) a b.
Proof.
  split; induction 1; [apply walk_one|eapply walk_step; [|eassumption]|apply leads_one|eapply leads_more; [|eassumption]];
    apply follows_edge; assumption.
Qed.
Theorem C111_path_exists g a b : complete g -> a < length g ->
  exists r, sim_path_exists g a b = Ok r /\ (r = true <-> a <> b /\ leads_to g a b).
Proof.
  intros C L. destruct (sim_path_ok g a b) as (r & E & K).
  - intros x y _ H. apply follows_edge in H. exact (C x y H).
  - exact L.
  - exists r. split; [exact E|]. rewrite K, leads_walk. intuition congruence.
Qed.
Print Assumptions C111_path_exists.
(* In the graph as built: exactly to the later nodes of the same train. *)
Theorem C111_paths trains g : numbered_trains trains -> sim_graph false trains = Ok g ->
  complete g /\ forall a b, a < length g -> sim_path_exists g a b = Ok true <-> a < b /\ a / 3 = b / 3.
Proof.
  intros (ND & HR) E. destruct (sim_graph_ok trains ND HR) as (g' & E' & L & K). rewrite E in E'. injection E' as <-.
  assert (F : forall a b, follows g a b <-> a < length g /\ a mod 3 <> 2 /\ b = a + 1).
  { intros a b. split.
    - intros (n & Hn & H). assert (La : a < length g) by (apply nth_error_Some; congruence).
      destruct (nth_error trains (a / 3)) as [tr|] eqn:T.
      2:{ apply nth_error_None in T. pose proof (Nat.div_lt_upper_bound a 3 (length trains)). lia. }
      rewrite (K a tr T) in Hn. assert (S1 := f_equal (option_map s_succ) Hn). assert (S2 := f_equal (option_map s_order_out) Hn).
      cbn [option_map s_succ s_order_out] in S1, S2. apply (f_equal (fun o => match o with Some x => x | None => [] end)) in S2.
      apply (f_equal (fun o => match o with Some x => x | None => None end)) in S1. cbn beta iota in S1, S2. rewrite <- S1, <- S2 in H. clear S1 S2 Hn.
      destruct (Nat.eqb_spec (a mod 3) 2); destruct H as [H|[]]; [discriminate|]. injection H as <-. auto.
    - intros (La & M & ->). destruct (nth_error trains (a / 3)) as [tr|] eqn:T.
      2:{ apply nth_error_None in T. pose proof (Nat.div_lt_upper_bound a 3 (length trains)). lia. }
      eexists. split; [apply (K a tr T)|]. left. cbn [s_succ]. destruct (Nat.eqb_spec (a mod 3) 2); [lia|reflexivity]. }
  assert (DM : forall a, a = 3 * (a / 3) + a mod 3 /\ a mod 3 < 3).
  { intros a. split; [apply Nat.div_mod; lia|apply Nat.mod_upper_bound; lia]. }
  assert (C : complete g).
  { intros a b H. apply F in H. destruct H as (La & M & ->). destruct (DM a) as (D1 & D2).
    pose proof (Nat.div_lt_upper_bound a 3 (length trains)). lia. }
  assert (ST : forall a, a mod 3 <> 2 -> (a + 1) / 3 = a / 3).
  { intros a M. destruct (DM a) as (D1 & D2). symmetry. apply (Nat.div_unique _ 3 (a / 3) (a mod 3 + 1)); lia. }
  assert (W : forall a b, a < length g -> leads_to g a b <-> a < b /\ a / 3 = b / 3).
  { intros a b La. split.
    - clear - F ST. intros W. induction W as [a b H|a b c H W IH]; apply F in H; destruct H as (La & M & ->).
      + rewrite ST by exact M. split; [lia|reflexivity].
      + destruct IH as (I1 & I2). rewrite ST in I2 by exact M. split; [lia|exact I2].
    - intros (LT & Q). remember (b - a) as k eqn:Ek. revert a La LT Q Ek. induction k as [|k IH]; intros a La LT Q Ek; [lia|].
      destruct (DM a) as (D1 & D2). destruct (DM b) as (D3 & D4). assert (M : a mod 3 <> 2) by lia.
      assert (FA : follows g a (a + 1)) by (apply F; auto).
      destruct (Nat.eq_dec b (a + 1)) as [->|Ne]; [apply leads_one; exact FA|].
      apply leads_more with (a + 1); [exact FA|]. apply IH; [exact (C _ _ FA)|lia|rewrite ST by exact M; exact Q|lia]. }
  split; [exact C|]. intros a b La. destruct (C111_path_exists g a b C La) as (r & Er & Kr). rewrite Er, <- W by exact La.
  split.
  - intros [= ->]. apply Kr. reflexivity.
  - intros H. f_equal. apply Kr. split; [|exact H]. apply W in H; [lia|exact La].
Qed.
Print Assumptions C111_paths.
Example ex_C111 : numbered_trains [1; 0] /\ (do g <- sim_graph false [1; 0]; sim_path_exists g 3 5) = Ok true /\ (do g <- sim_graph false [1; 0]; sim_path_exists g 2 3) = Ok false.
Proof.
  split; [|split; reflexivity]. split; [repeat constructor; cbn; intuition discriminate|]. intros tr [<-|[<-|[]]]; cbn; lia.
Qed.
(* an order edge from the end of the first train to the second node of the other *)
Definition ex_sim : list snode :=
  [mksn 0 0 None (Some 1) [] []; mksn 1 0 (Some 0) None [] [3]; mksn 2 1 None (Some 3) [] []; mksn 3 1 (Some 2) None [1] []].
Example ex_C111_order : complete ex_sim /\ sim_path_exists ex_sim 0 3 = Ok true /\ sim_path_exists ex_sim 0 2 = Ok false.
Proof.
  split; [|split; reflexivity]. intros a b (n & Hn & H).
  destruct a as [|[|[|[|a]]]]; try discriminate; [| | | |destruct a; discriminate]; injection Hn as <-; cbn in H;
    (destruct H as [H|H]; [try discriminate; injection H as <-; cbn; lia|]); cbn in H; try contradiction.
  destruct H as [<-|[]]. cbn. lia.
Qed.
(* The work starts with exactly the nodes that are unfinished and wait for finished
   nodes only, the smallest first. *)
Theorem C111_first_work g results : well_numbered g -> length results = length g ->
  exists todo, first_todo g results g [] = Ok todo /\ StronglySorted lt todo /\
    forall i, In i todo <-> i < length g /\ ~ finished_node results i /\ forall j, waits_for g i j -> finished_node results j.
Proof.
  intros W L. destruct (first_todo_ok g results g W L 0 []) as (t & T & S & I); [auto|constructor|].
  exists t. split; [exact T|]. split; [exact S|]. intros i. rewrite I. cbn [In]. rewrite Nat.add_0_l. intuition lia.
Qed.
Print Assumptions C111_first_work.
Example ex_C111_work : well_numbered ex_sim /\
  first_todo ex_sim (repeat (empty1 time_primary) 4) ex_sim [] = Ok [0; 2] /\
  first_todo ex_sim [mkdpd1 0 [1%Q]; mkdpd1 0 [1%Q]; mkdpd1 0 [1%Q]; empty1 time_primary] ex_sim [] = Ok [3].
Proof.
  split; [|split; reflexivity]. split.
  - intros i n H. destruct i as [|[|[|[|i]]]]; try (injection H as <-; reflexivity). destruct i; discriminate.
  - intros i j (n & Hn & H). destruct i as [|[|[|[|i]]]]; try discriminate; [| | | |destruct i; discriminate]; injection Hn as <-; cbn in H;
      (destruct H as [H|H]; [try discriminate; injection H as <-; cbn; lia|]); cbn in H; try contradiction.
    destruct H as [<-|[]]. cbn. lia.
Qed.
(* Having worked on a node, the simulation goes on with what was left and exactly those
   of the nodes following it that wait for finished nodes only, the smallest first. *)
Lemma next_todo_ok g results l : well_numbered g -> length results = length g -> (forall i, In i l -> i < length g) ->
  forall todo, StronglySorted lt todo ->
  exists todo', next_todo g results l todo = Ok todo' /\ StronglySorted lt todo' /\
    forall i, In i todo' <-> In i todo \/ In i l /\ forall j, waits_for g i j -> finished_node results j.
Proof.
  intros W L. induction l as [|i l IH]; intros H todo SO; cbn [next_todo].
  - exists todo. split; [reflexivity|]. split; [exact SO|]. intros i. cbn [In]. tauto.
  - destruct (nth_error g i) as [n|] eqn:E; [|apply nth_error_None in E; specialize (H i (or_introl eq_refl)); lia].
    destruct (ready_ok g results i n W L E) as (b & Rb & Kb). rewrite Rb. cbn [bind].
    destruct (IH (fun j Hj => H j (or_intror Hj)) (if b then emplace i todo else todo)) as (t & T & S & I).
    { destruct b; [apply emplace_sorted|]; exact SO. }
    exists t. split; [exact T|]. split; [exact S|]. intros k. rewrite I. cbn [In]. destruct b.
    + rewrite emplace_in. split; [intros [[->|?]|?]|intros [?|[[<-|?] ?]]]; intuition (apply Kb; auto; fail || auto).
    + assert (NR : ~ forall j, waits_for g i j -> finished_node results j) by (intros C; apply Kb in C; discriminate).
      split; [tauto|]. intros [?|[[<-|?] ?]]; tauto.
Qed.
Theorem C111_next_work g results i todo fuel : well_numbered g -> complete g -> length results = length g -> StronglySorted lt todo ->
  exists todo', work false (S fuel) g results (i :: todo) = work false fuel g results todo' /\ StronglySorted lt todo' /\
    forall k, In k todo' <-> In k todo \/ follows g i k /\ forall j, waits_for g k j -> finished_node results j.
Proof.
  intros W C L SO. destruct (next_todo_ok g results (out_ids g i) W L) with (todo := todo) as (t & T & S & I).
  - intros k Hk. apply (C i). apply follows_edge. exact Hk.
  - exact SO.
  - exists t. cbn [work compute_dists bind]. rewrite T. cbn [bind]. split; [reflexivity|]. split; [exact S|].
    intros k. rewrite I, (follows_edge g i k). reflexivity.
Qed.
Print Assumptions C111_next_work.
Example ex_C111_next : next_todo ex_sim [mkdpd1 0 [1%Q]; mkdpd1 0 [1%Q]; empty1 time_primary; empty1 time_primary] (out_ids ex_sim 1) [2] = Ok [2] /\
  next_todo ex_sim [mkdpd1 0 [1%Q]; mkdpd1 0 [1%Q]; mkdpd1 0 [1%Q]; empty1 time_primary] (out_ids ex_sim 1) [] = Ok [3].
Proof. split; reflexivity. Qed.
(* FINDING.  Neither the graph nor the simulation is finished: with assertions every
   timetable that has a train is refused; without them the simulation reads results
   that were never allocated. *)
Theorem C111_debug_refuted trains : trains <> [] -> sim_graph true trains = Throw.
Proof. destruct trains as [|tr trains]; [congruence|reflexivity]. Qed.
Print Assumptions C111_debug_refuted.
Theorem C111_simulate_refuted g fuel : simulate true fuel g = Throw /\ (g <> [] -> simulate false fuel g = UB).
Proof.
  split; [reflexivity|]. destruct g as [|n g]; [congruence|]. intros _. unfold simulate. cbn [first_todo]. unfold finished at 1.
  rewrite (proj2 (nth_error_None _ _)) by (cbn [length]; lia). reflexivity.
Qed.
Print Assumptions C111_simulate_refuted.
