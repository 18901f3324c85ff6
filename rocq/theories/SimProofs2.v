(* Proofs about the nodes and paths of the simulation graph. *)
From Verif Require Import Base GraphModel GraphProofs GraphBfs OrderingProofs DpdModel SimModel SimSpec.
From Coq Require Import Sorting.Sorted.
Local Open Scope nat_scope.

Fixpoint built (k : nat) (trains : list nat) : list snode :=
  match trains with
  | [] => []
  | tr :: trains => init_node (3 * k) tr :: init_node (3 * k + 1) tr :: init_node (3 * k + 2) tr :: built (S k) trains
  end.
Lemma built_length trains : forall k, length (built k trains) = 3 * length trains.
Proof. induction trains as [|tr trains IH]; intros k; [reflexivity|]. cbn [built length]. rewrite IH. lia. Qed.
Lemma built_nth trains : forall k i, nth_error (built k trains) i =
  match nth_error trains (i / 3) with Some tr => Some (init_node (3 * k + i) tr) | None => None end.
Proof.
  induction trains as [|tr trains IH]; intros k i.
  - cbn [built]. rewrite !(proj2 (nth_error_None _ _)) by (cbn [length]; lia). reflexivity.
  - cbn [built]. destruct i as [|[|[|i]]]; cbn [nth_error]; try (replace (3 * k + 0) with (3 * k) by lia; reflexivity); try reflexivity.
    rewrite IH. replace (S (S (S i)) / 3) with (S (i / 3)).
    + cbn [nth_error]. destruct (nth_error trains (i / 3)); [|reflexivity]. do 2 f_equal. lia.
    + replace (S (S (S i))) with (i + 1 * 3) by lia. rewrite Nat.div_add by lia. lia.
Qed.
Lemma update_const {A} (l : list A) (a : A) : forall i, i < length l ->
  exists l', update l i (fun _ => Ok a) = Ok l' /\ length l' = length l /\ nth_error l' i = Some a /\
    forall j, j <> i -> nth_error l' j = nth_error l j.
Proof.
  induction l as [|b l IH]; intros [|i] L; cbn [length] in L; try lia; cbn [update bind].
  - eexists. split; [reflexivity|]. split; [reflexivity|]. split; [reflexivity|]. intros [|j] N; [congruence|reflexivity].
  - destruct (IH i) as (l' & E & L' & K & O); [lia|]. rewrite E. cbn [bind]. eexists. split; [reflexivity|].
    split; [cbn [length]; lia|]. split; [exact K|]. intros [|j] N; [reflexivity|]. apply O. congruence.
Qed.
Lemma make_nodes_ok trains : forall k nodes ranges, length nodes = 3 * k -> NoDup trains ->
  (forall tr, In tr trains -> tr < length ranges) ->
  exists ranges', make_nodes false trains nodes ranges = Ok (nodes ++ built k trains, ranges') /\
    (forall i tr, nth_error trains i = Some tr -> nth_error ranges' tr = Some (3 * (k + i), 3 * (k + i) + 3)) /\
    (forall tr, ~ In tr trains -> nth_error ranges' tr = nth_error ranges tr).
Proof.
  induction trains as [|tr trains IH]; intros k nodes ranges L ND HR.
  - exists ranges. cbn [make_nodes built]. rewrite app_nil_r. split; [reflexivity|]. split; [|reflexivity].
    intros [|i] tr; discriminate.
  - inversion ND as [|? ? NI ND']; subst. cbn [make_nodes]. cbn zeta. rewrite !app_length. cbn [length].
    destruct (update_const ranges (length nodes, length nodes + 1 + 1 + 1) tr) as (r1 & E & L1 & K1 & O1).
    { apply HR. left. reflexivity. }
    rewrite E. cbn [bind].
    destruct (IH (S k) (((nodes ++ [init_node (length nodes) tr]) ++ [init_node (length nodes + 1) tr]) ++ [init_node (length nodes + 1 + 1) tr]) r1)
      as (r2 & E2 & K2 & O2).
    { rewrite !app_length. cbn [length]. lia. } { exact ND'. }
    { intros x I. rewrite L1. apply HR. right. exact I. }
    exists r2. split; [|split].
    + rewrite E2. do 2 f_equal. cbn [built]. rewrite <- !app_assoc. cbn [app]. rewrite L.
      replace (3 * k + 1 + 1) with (3 * k + 2) by lia. reflexivity.
    + intros [|i] x Hx; cbn [nth_error] in Hx.
      * injection Hx as <-. rewrite O2 by exact NI. rewrite K1. rewrite L. do 2 f_equal; lia.
      * rewrite (K2 i x Hx). do 2 f_equal; lia.
    + intros x Hx. cbn [In] in Hx. rewrite O2 by tauto. apply O1. intros ->. tauto.
Qed.
Definition linked (r : nat * nat) (n : snode) : snode :=
  mksn (s_id n) (s_train n) (if s_id n =? fst r then s_pred n else Some (s_id n - 1))
    (if s_id n =? snd r - 1 then s_succ n else Some (s_id n + 1)) (s_order_in n) (s_order_out n).
Lemma connect_ok ranges nodes : (forall n, In n nodes -> nth_error ranges (s_train n) <> None) ->
  exists g, connect ranges nodes = Ok g /\ length g = length nodes /\
    forall i n r, nth_error nodes i = Some n -> nth_error ranges (s_train n) = Some r -> nth_error g i = Some (linked r n).
Proof.
  induction nodes as [|n nodes IH]; intros H; cbn [connect].
  - exists []. split; [reflexivity|]. split; [reflexivity|]. intros [|i]; discriminate.
  - destruct IH as (g & E & L & K); [intros; apply H; right; assumption|].
    destruct (nth_error ranges (s_train n)) as [[from to]|] eqn:R; [|exfalso; eapply H; [left; reflexivity|exact R]].
    rewrite E. cbn [bind]. eexists. split; [reflexivity|]. split; [cbn [length]; lia|].
    intros [|i] m r Hm Hr; cbn [nth_error] in *.
    + injection Hm as <-. rewrite R in Hr. injection Hr as <-. reflexivity.
    + apply K; assumption.
Qed.
Lemma sim_graph_ok trains : NoDup trains -> (forall tr, In tr trains -> tr < length trains) ->
  exists g, sim_graph false trains = Ok g /\ length g = 3 * length trains /\
    forall i tr, nth_error trains (i / 3) = Some tr ->
      nth_error g i = Some (mksn i tr (if i mod 3 =? 0 then None else Some (i - 1)) (if i mod 3 =? 2 then None else Some (i + 1)) [] []).
Proof.
  intros ND HR. unfold sim_graph.
  destruct (make_nodes_ok trains 0 [] (repeat (0, 0) (length trains))) as (rs & E & K & _); [reflexivity|exact ND| |].
  { intros tr I. rewrite repeat_length. apply HR. exact I. }
  rewrite E. cbn [bind app]. destruct (connect_ok rs (built 0 trains)) as (g & E2 & L & G).
  { intros n I. apply In_nth_error in I. destruct I as (i & I). rewrite built_nth in I.
    destruct (nth_error trains (i / 3)) as [tr|] eqn:T; [|discriminate]. injection I as <-. cbn [s_train init_node].
    rewrite (K _ _ T). discriminate. }
  exists g. split; [exact E2|]. split; [rewrite L; apply built_length|]. intros i tr T.
  rewrite (G i (init_node (3 * 0 + i) tr) (3 * (0 + i / 3), 3 * (0 + i / 3) + 3)).
  - unfold linked. cbn [init_node s_id s_train s_pred s_succ s_order_in s_order_out fst snd].
    pose proof (Nat.div_mod i 3 ltac:(lia)) as DM. pose proof (Nat.mod_upper_bound i 3 ltac:(lia)) as MB.
    replace (3 * 0 + i) with i by lia. replace (0 + i / 3) with (i / 3) by lia. f_equal. f_equal.
    + destruct (Nat.eqb_spec i (3 * (i / 3))); destruct (Nat.eqb_spec (i mod 3) 0); try reflexivity; lia.
    + destruct (Nat.eqb_spec i (3 * (i / 3) + 3 - 1)); destruct (Nat.eqb_spec (i mod 3) 2); try reflexivity; lia.
  - rewrite built_nth, T. reflexivity.
  - cbn [s_train init_node]. apply K. exact T.
Qed.
Lemma run_last t l : forall b, snd (run (fun (_ : bool) to (_ : nat) => (to =? t, to =? t)) no_edge
        (map (fun cp : nat * nat => NodeEv (fst cp) (snd cp)) l) b) = true <-> (l = [] /\ b = true) \/ In t (map fst l).
Proof.
  induction l as [|[c p] l IH]; intros b; cbn [map run fst snd In].
  - tauto.
  - destruct (Nat.eqb_spec c t) as [->|Ne].
    + cbn. tauto.
    + rewrite IH. intuition congruence.
Qed.
(* any graph of nodes whose ids are in range *)
Lemma sim_path_ok g from to : in_range (out_ids g) (length g) -> from < length g ->
  exists b, sim_path_exists g from to = Ok b /\ (b = true <-> to <> from /\ walk (out_ids g) from to).
Proof.
  intros R L. destruct (pops_ok true _ _ _ R L (S (length g))) as [rest [E [_ [K _]]]]; [lia|].
  eexists. split.
  - unfold sim_path_exists, bfs, graph_traversal. replace (from <? length g) with true by (symmetry; apply Nat.ltb_lt; exact L).
    rewrite (trav_run _ _ _ _ _ _ _ _ _ _ E). reflexivity.
  - rewrite run_nodes. rewrite run_last. rewrite in_fst_filter. cbn [map fst In]. rewrite K.
    split; [intros [[_ H]|[Ne [H|H]]]; [discriminate|congruence|tauto]|]. tauto.
Qed.

(* ---- the work list ---- *)
Lemma finished_ok results n i : s_id n = i -> i < length results ->
  exists b, finished results n = Ok b /\ (b = true <-> finished_node results i).
Proof.
  intros <- L. unfold finished, finished_node. destruct (nth_error results (s_id n)) as [d|] eqn:E.
  - eexists. split; [reflexivity|]. destruct (d1_mass d) as [|q m] eqn:M.
    + split; [discriminate|]. intros (d' & [= <-] & H). congruence.
    + split; [|reflexivity]. intros _. exists d. split; [reflexivity|congruence].
  - apply nth_error_None in E. lia.
Qed.
Lemma all_finished_ok g results l : well_numbered g -> length results = length g -> (forall j, In j l -> j < length g) ->
  exists b, all_finished g results l = Ok b /\ (b = true <-> forall j, In j l -> finished_node results j).
Proof.
  intros (ID & _) L. induction l as [|j l IH]; intros H; cbn [all_finished].
  - exists true. split; [reflexivity|]. split; [intros _ j []|reflexivity].
  - assert (Lj : j < length g) by (apply H; left; reflexivity).
    destruct (nth_error g j) as [n|] eqn:E; [|apply nth_error_None in E; lia].
    destruct (finished_ok results n j (ID _ _ E)) as (b & F & K); [lia|]. rewrite F. cbn [bind]. destruct b.
    + destruct IH as (b & A & K2); [intros; apply H; right; assumption|]. exists b. split; [exact A|]. rewrite K2.
      split; [intros Q x [<-|I]; [apply K; reflexivity|auto]|intros Q x I; apply Q; right; exact I].
    + exists false. split; [reflexivity|]. split; [discriminate|]. intros Q. specialize (Q j (or_introl eq_refl)).
      apply K in Q. discriminate.
Qed.
Lemma ready_ok g results i n : well_numbered g -> length results = length g -> nth_error g i = Some n ->
  exists b, ready g results n = Ok b /\ (b = true <-> forall j, waits_for g i j -> finished_node results j).
Proof.
  intros W L E. assert (S : forall j, In j (s_in n) <-> waits_for g i j).
  { intros j. unfold waits_for, s_in. rewrite E. split.
    - intros H. exists n. split; [reflexivity|]. apply in_app_or in H. destruct H as [H|H]; [|auto].
      destruct (s_pred n); [destruct H as [->|[]]; auto|destruct H].
    - intros (m & [= <-] & [H|H]); [rewrite H; left; reflexivity|apply in_or_app; right; exact H]. }
  destruct (all_finished_ok g results (s_in n) W L) as (b & A & K).
  { intros j I. apply S in I. eapply W. exact I. }
  exists b. split; [exact A|]. rewrite K. split; intros H j I; apply H, S, I.
Qed.
Lemma emplace_in i l j : In j (emplace i l) <-> j = i \/ In j l.
Proof.
  induction l as [|k l IH]; cbn [emplace].
  - cbn [In]. intuition congruence.
  - destruct (Nat.ltb_spec i k); [cbn [In]; intuition congruence|]. destruct (Nat.eqb_spec i k); cbn [In]; [intuition congruence|].
    rewrite IH. intuition congruence.
Qed.
Lemma emplace_sorted i l : StronglySorted lt l -> StronglySorted lt (emplace i l).
Proof.
  induction 1 as [|k l S IH F]; cbn [emplace].
  - repeat constructor.
  - destruct (Nat.ltb_spec i k).
    + constructor; [constructor; assumption|]. constructor; [assumption|]. eapply Forall_impl; [|exact F]. cbn beta. intros; lia.
    + destruct (Nat.eqb_spec i k); [constructor; assumption|]. constructor; [assumption|].
      apply Forall_forall. intros x I. apply emplace_in in I. destruct I as [->|I]; [lia|].
      rewrite Forall_forall in F. apply F. exact I.
Qed.
Lemma first_todo_ok g results nodes : well_numbered g -> length results = length g ->
  forall k todo, (forall i n, nth_error nodes i = Some n -> nth_error g (k + i) = Some n) -> StronglySorted lt todo ->
  exists todo', first_todo g results nodes todo = Ok todo' /\ StronglySorted lt todo' /\
    forall i, In i todo' <-> In i todo \/ (k <= i < k + length nodes /\ ~ finished_node results i /\ forall j, waits_for g i j -> finished_node results j).
Proof.
  intros W L. induction nodes as [|n nodes IH]; intros k todo H SO; cbn [first_todo].
  - exists todo. split; [reflexivity|]. split; [exact SO|]. intros i. cbn [length]. intuition lia.
  - assert (E : nth_error g k = Some n) by (rewrite <- (Nat.add_0_r k); apply H; reflexivity).
    assert (Lk : k < length g) by (apply nth_error_Some; congruence).
    destruct (finished_ok results n k) as (b & F & K); [apply W; exact E|lia|]. rewrite F. cbn [bind].
    assert (H' : forall i m, nth_error nodes i = Some m -> nth_error g (S k + i) = Some m).
    { intros i m Hi. replace (S k + i) with (k + S i) by lia. apply H. exact Hi. }
    destruct (ready_ok g results k n W L E) as (r & R & Kr).
    assert (CASE : forall i (Q : nat -> Prop), (k <= i < k + length (n :: nodes) /\ Q i) <-> (i = k /\ Q k) \/ (S k <= i < S k + length nodes /\ Q i)).
    { intros i Q. cbn [length]. split.
      - intros (B & q). destruct (Nat.eq_dec i k) as [->|]; [left; auto|right; split; [lia|exact q]].
      - intros [(-> & q)|(B & q)]; split; auto; lia. }
    destruct b.
    + destruct (IH (S k) todo H' SO) as (t & T & TS & TI). exists t. split; [exact T|]. split; [exact TS|].
      intros i. rewrite TI. rewrite (CASE i (fun i => ~ finished_node results i /\ forall j, waits_for g i j -> finished_node results j)).
      assert (finished_node results k) by (apply K; reflexivity). intuition.
    + assert (NF : ~ finished_node results k) by (intros Q; apply K in Q; discriminate).
      rewrite R. cbn [bind]. destruct r.
      * destruct (IH (S k) (emplace (s_id n) todo) H' (emplace_sorted _ _ SO)) as (t & T & TS & TI). exists t. split; [exact T|]. split; [exact TS|].
        intros i. rewrite TI. rewrite (CASE i (fun i => ~ finished_node results i /\ forall j, waits_for g i j -> finished_node results j)).
        rewrite emplace_in. replace (s_id n) with k by (symmetry; apply W; exact E).
        assert (RK := proj1 Kr eq_refl). intuition.
      * destruct (IH (S k) todo H' SO) as (t & T & TS & TI). exists t. split; [exact T|]. split; [exact TS|].
        intros i. rewrite TI. rewrite (CASE i (fun i => ~ finished_node results i /\ forall j, waits_for g i j -> finished_node results j)).
        assert (NR : ~ forall j, waits_for g k j -> finished_node results j) by (intros Q; apply Kr in Q; discriminate). intuition.
Qed.
