(* Station routes are as their descriptions say: single routes *)
From Coq Require Import List Bool NArith QArith String Arith Lia Sorted Permutation.
From Verif Require Import Base PhysModel TextModel InfraModel InfraHeap StationModel StationSpec StationPath StationRoute.
Import ListNotations.
Local Open Scope nat_scope.

(* ---- attributes ---- *)
Lemma index_of_some l a : forall i k, index_of l a i = Some k -> i <= k /\ nth_error l (k - i) = Some a.
Proof.
  induction l as [|b l IH]; intros i k; cbn [index_of]; [discriminate|].
  destruct (String.eqb_spec a b) as [->|N].
  - intros [= <-]. rewrite Nat.sub_diag. auto.
  - intros H. apply IH in H. destruct H as [H1 H2]. split; [lia|].
    replace (k - i) with (S (k - S i)) by lia. exact H2.
Qed.
Lemma attribute_index_spec a k : attribute_index a = Some k -> nth_error attribute_names k = Some a.
Proof.
  intros H. apply index_of_some in H. destruct H as [_ H]. rewrite Nat.sub_0_r in H. exact H.
Qed.
Lemma names_nodup : NoDup attribute_names.
Proof. repeat constructor; cbn; intuition discriminate. Qed.
Lemma set_attributes_spec l : forall arr arr', List.length arr = 11 -> set_attributes arr l = Ok arr' ->
  List.length arr' = 11 /\
  (forall k, nth_error arr' k = Some true <->
     nth_error arr k = Some true \/ exists a, nth_error attribute_names k = Some a /\ In a l) /\
  forall a, In a l -> In a attribute_names.
Proof.
  induction l as [|a l IH]; intros arr arr' L; cbn [set_attributes].
  - intros [= <-]. split; [exact L|]. split; [|intros a []]. intros k. split; [auto|]. intros [H|(a & _ & [])]. exact H.
  - destruct (attribute_index a) as [i|] eqn:A; [|discriminate]. intros H. apply attribute_index_spec in A.
    apply IH in H; [|rewrite upd_length; exact L]. destruct H as (H1 & H2 & H3). split; [exact H1|]. split.
    + intros k. rewrite H2, nth_upd. destruct (Nat.eqb_spec k i) as [->|N].
      * split; intros _; [right; exists a; split; [exact A|left; auto]|left].
        assert (Li : i < 11) by (change 11 with (List.length attribute_names); apply nth_error_Some; congruence).
        rewrite <- L in Li. apply nth_error_Some in Li. destruct (nth_error arr i); [reflexivity|congruence].
      * split.
        -- intros [X|(b & X & Y)]; [auto|]. right. exists b. split; [exact X|right; exact Y].
        -- intros [X|(b & X & [<-|Y])]; [auto| |right; eauto]. exfalso. apply N.
           eapply (proj1 (NoDup_nth_error attribute_names) names_nodup); [apply nth_error_Some; congruence|congruence].
    + intros b [<-|B]; [|auto]. eapply nth_error_In; eauto.
Qed.

(* ---- reading a route ---- *)
Lemma parse_limits_spec g l : forall r, parse_limits g l = Ok r ->
  Forall2 (fun y ve => fst ve = xl_value y /\ names g (xl_id y) (snd ve))
          (filter (fun y => negb (String.eqb (xl_type y) "Warnfeld")) l) r.
Proof.
  induction l as [|x l IH]; intros r; cbn [parse_limits filter].
  - intros [= <-]. constructor.
  - destruct (String.eqb (xl_type x) "Warnfeld"); cbn [negb]; [apply IH|]. intros H. inv_bind H. injection H as <-.
    constructor; [|auto]. cbn. split; [reflexivity|]. unfold rp_at in Hx. unfold names.
    destruct (rp_find (g_rp g) (xl_id x)); congruence.
Qed.
Lemma parse_route_spec g st n x i : parse_station_route g st n x = Ok i ->
  i = mkisr n st (xr_name x) (xr_start x) (xr_end x) (or_invalid (xr_checkpoint x))
            (or_invalid (xr_passenger x)) (or_invalid (xr_freight x)) (xr_omitted x)
            (is_attributes i) (is_course i) (is_limits i) /\
  (List.length (is_attributes i) = 11 /\
   (forall k, nth_error (is_attributes i) k = Some true <->
      exists a, nth_error attribute_names k = Some a /\ In a (xr_attributes x)) /\
   forall a, In a (xr_attributes x) -> In a attribute_names) /\
  Forall2 advice (xr_course x) (is_course i) /\
  Forall2 (fun y ve => fst ve = xl_value y /\ names g (xl_id y) (snd ve))
          (filter (fun y => negb (String.eqb (xl_type y) "Warnfeld")) (xr_limits x)) (is_limits i).
Proof.
  unfold parse_station_route. intros H. inv_bind H. injection H as <-. cbn [is_attributes is_course is_limits].
  split; [reflexivity|]. split; [|split].
  - apply set_attributes_spec in Hx; [|reflexivity]. destruct Hx as (A & B & C). split; [exact A|]. split; [|exact C].
    intros k. rewrite B. split; [|auto]. intros [X|X]; [|auto]. exfalso.
    do 11 (destruct k as [|k]; [discriminate X|]). destruct k; discriminate X.
  - induction (xr_course x) as [|c l IH]; cbn [map]; constructor; [|exact IH].
    unfold advice. destruct (String.eqb_spec c "Stamm"); split; congruence.
  - apply parse_limits_spec, Hx0.
Qed.

(* ---- the nodes of the network ---- *)
Lemma connect_nth g ls i l : connect_nodes g = Ok ls -> nth_error ls i = Some l ->
  exists e, elem_at g i e /\ connect_elem g i e = Ok l.
Proof.
  unfold connect_nodes, elem_at.
  assert (G : forall es k ls, connect_from g k es = Ok ls -> nth_error ls i = Some l ->
              exists e, nth_error es i = Some e /\ connect_elem g (k + i) e = Ok l).
  { clear ls. revert i. intros i es. revert i. induction es as [|e es IH]; intros i k ls; cbn [connect_from].
    - intros [= <-]. destruct i; discriminate.
    - intros H. inv_bind H. injection H as <-. destruct i as [|i]; cbn [nth_error].
      + intros [= <-]. exists e. rewrite Nat.add_0_r. auto.
      + intros N. destruct (IH i _ _ Hx0 N) as (e' & A & B). exists e'. split; [exact A|].
        rewrite Nat.add_succ_r. exact B. }
  intros C N. destruct (G _ _ _ C N) as (e & A & B). eauto.
Qed.
Lemma connect_len g ls : connect_nodes g = Ok ls -> List.length ls = List.length (g_elems g).
Proof.
  unfold connect_nodes. generalize 0 (g_elems g). intros k es. revert k ls.
  induction es as [|e es IH]; intros k ls; cbn [connect_from].
  - intros [= <-]. reflexivity.
  - intros H. inv_bind H. injection H as <-. cbn. f_equal. eauto.
Qed.
Definition own_slots (k : kind) (l : links) : Prop :=
  forall s, (fst (l s) <> None \/ snd (l s) <> None) -> In s (node_slots k).
Lemma connect_slots g i e l : connect_elem g i e = Ok l -> own_slots (e_kind e) l.
Proof.
  assert (RN : forall k, own_slots k no_links) by (intros k s [H|H]; cbn in H; congruence).
  assert (SN : forall k s n l, In s (node_slots k) -> own_slots k l -> own_slots k (set_next s n l)).
  { intros k s n l0 I G s' H. unfold set_next in H. destruct (slot_eqb s' s) eqn:E; [|auto].
    apply slot_eqb_eq in E. subst. exact I. }
  assert (SB : forall k s n l, In s (node_slots k) -> own_slots k l -> own_slots k (set_branch s n l)).
  { intros k s n l0 I G s' H. unfold set_branch in H. destruct (slot_eqb s' s) eqn:E; [|auto].
    apply slot_eqb_eq in E. subst. exact I. }
  intros H. unfold connect_elem, connect_side in H.
  destruct (e_kind e);
  repeat (inv_bind H; try match type of H with
          | (if ?b then _ else _) = _ => destruct b
          | (match ?b with Some _ => _ | None => _ end) = _ => destruct b
          end);
  repeat match goal with X : (match ?b with Some _ => _ | None => _ end) = Ok _ |- _ =>
           destruct b; inv_bind X end;
  repeat match goal with X : Ok _ = Ok _ |- _ => injection X as <- end;
  repeat match goal with |- context [if ?b then _ else _] => destruct b end;
  repeat first [apply SN; [cbn; tauto|] | apply SB; [cbn; tauto|]]; apply RN.
Qed.
Lemma nodes_from_in es : forall i n, In n (nodes_from i es) <->
  exists e, i <= fst n /\ nth_error es (fst n - i) = Some e /\ In (snd n) (node_slots (e_kind e)).
Proof.
  induction es as [|e es IH]; intros i n; cbn [nodes_from].
  - split; [intros []|]. intros (e & _ & H & _). destruct (fst n - i); discriminate.
  - rewrite in_app_iff, in_map_iff, IH. split.
    + intros [(s & <- & H)|(e' & A & B & C)].
      * exists e. cbn [fst snd]. rewrite Nat.sub_diag. auto.
      * exists e'. split; [lia|]. replace (fst n - i) with (S (fst n - S i)) by lia. auto.
    + intros (e' & A & B & C). destruct (Nat.eq_dec (fst n) i) as [E|E].
      * left. rewrite E, Nat.sub_diag in B. injection B as <-. exists (snd n). split; [|exact C].
        destruct n; cbn in *. congruence.
      * right. exists e'. split; [lia|]. replace (fst n - i) with (S (fst n - S i)) in B by lia. auto.
Qed.
Lemma all_nodes_in g n : In n (all_nodes g) <-> exists e, elem_at g (fst n) e /\ In (snd n) (node_slots (e_kind e)).
Proof.
  unfold all_nodes. rewrite nodes_from_in, Nat.sub_0_r. split; intros (e & H); exists e.
  - destruct H as (_ & H). exact H.
  - split; [lia|exact H].
Qed.
Lemma leads_to_eq o m : leads_to o m = true <-> o = Some m.
Proof.
  unfold leads_to. destruct o as [n|]; [rewrite node_eqb_eq; split; congruence|split; discriminate].
Qed.
Lemma linked_node g ls m n : connect_nodes g = Ok ls -> next_node ls m = Some n \/ branch_node ls m = Some n ->
  In m (all_nodes g).
Proof.
  intros C H. unfold next_node, branch_node in H. destruct (nth_error ls (fst m)) as [l|] eqn:L; [|destruct H; discriminate].
  destruct (connect_nth g ls _ _ C L) as (e & A & B). apply all_nodes_in. exists e. split; [exact A|].
  apply (connect_slots _ _ _ _ B). destruct H as [H|H]; [left|right]; congruence.
Qed.
Lemma reverse_edges_in g ls m n : connect_nodes g = Ok ls ->
  In m (reverse_edges g ls n) <-> next_node ls m = Some n \/ branch_node ls m = Some n.
Proof.
  intros C. unfold reverse_edges. rewrite in_flat_map. split.
  - intros (x & _ & H). apply in_app_or in H. destruct H as [H|H].
    + destruct (leads_to (next_node ls x) n) eqn:E; [|destruct H]. apply leads_to_eq in E. destruct H as [->|[]]. auto.
    + destruct (leads_to (branch_node ls x) n) eqn:E; [|destruct H]. apply leads_to_eq in E. destruct H as [->|[]]. auto.
  - intros H. exists m. split; [eapply linked_node; eauto|]. apply in_or_app.
    destruct H as [H|H]; [left|right]; apply leads_to_eq in H; rewrite H; left; reflexivity.
Qed.

(* ---- start and end of a route ---- *)
Lemma get_e_at g i e : get_e g i = Ok e <-> elem_at g i e.
Proof. unfold get_e, elem_at. destruct (nth_error (g_elems g) i); split; congruence. Qed.
Lemma route_node_start g i n : route_node g i true = Ok n -> starts_at g i n.
Proof.
  unfold route_node. intros H. inv_bind H. apply get_e_at in Hx. exists x. split; [exact Hx|].
  destruct (ty_between BORDER BORDER (e_type x) || is_end_element (e_type x)) eqn:T.
  - apply edge_type in T. left. split; [exact T|]. congruence.
  - right. split.
    + unfold at_edge. rewrite <- edge_type. congruence.
    + destruct (is_track_element (e_type x)); [|discriminate]. destruct (e_kind x); try discriminate. split; congruence.
Qed.
Lemma route_node_end g i n : route_node g i false = Ok n -> ends_at g i n.
Proof.
  unfold route_node. intros H. inv_bind H. apply get_e_at in Hx. exists x. split; [exact Hx|].
  destruct (ty_between BORDER BORDER (e_type x) || is_end_element (e_type x)) eqn:T.
  - apply edge_type in T. left. split; [exact T|]. congruence.
  - right. split.
    + unfold at_edge. rewrite <- edge_type. congruence.
    + destruct (is_track_element (e_type x)); [|discriminate]. destruct (e_kind x); try discriminate. split; congruence.
Qed.
Lemma rp_at_names g id i : rp_at g id = Ok i <-> names g id i.
Proof. unfold rp_at, names. destruct (rp_find (g_rp g) id); split; congruence. Qed.

Section ROUTE.
  Variables (g : graph) (ls : list links).
  Hypothesis C : connect_nodes g = Ok ls.

  Lemma starts_real i a : starts_at g i a -> real g a /\ fst a < List.length (g_elems g).
  Proof.
    intros (e & E & H). unfold elem_at in E. assert (F : fst a = i) by (destruct H as [(_ & ->)|(_ & _ & ->)]; reflexivity).
    split; [|rewrite F; apply nth_error_Some; congruence].
    intros e' E' T NE. rewrite F in E'. unfold elem_at in E'. assert (e' = e) by congruence. subst e'.
    destruct H as [(A & ->)|(_ & _ & ->)]; [|reflexivity]. tauto.
  Qed.

  Lemma make_path_spec i s e p : make_path g ls i s e = Ok p ->
    exists a b, starts_at g s a /\ ends_at g e b /\ p_start p = s /\ p_end p = e /\ p_course p = is_course i /\
      drive_to g ls (is_course i) a b (p_nodes p) /\ (forall n, In n (p_nodes p) -> real g n) /\
      ((N.of_nat (List.length (p_nodes p)) < 65536)%N ->
        marks (p_nodes p) (fun n => node_type g n MAIN_SIGNAL /\
              ~ exists id, In (id, MAIN_SIGNAL) (is_omitted i) /\ names g id (fst n)) (p_main p) /\
        marks (p_nodes p) (fun n => node_type g n ETCS_START) (p_etcs_starts p) /\
        marks (p_nodes p) (fun n => node_type g n ETCS_END) (p_etcs_ends p)).
  Proof.
    unfold make_path. intros H. inv_bind H. rename x into a, x0 into b, x1 into ns, x2 into ms.
    destruct (get_etcs g ns) as [es ee] eqn:Et. injection H as <-. cbn [p_nodes p_start p_end p_course p_main p_etcs_starts p_etcs_ends].
    apply route_node_start in Hx. apply route_node_end in Hx0. destruct (starts_real _ _ Hx) as [Ra La].
    exists a, b. split; [exact Hx|]. split; [exact Hx0|]. split; [reflexivity|]. split; [reflexivity|]. split; [reflexivity|].
    pose proof (path_ok g ls (is_course i) a b ns (connect_closed g ls C) La Hx1) as PO.
    split; [exact PO|].
    assert (RN : forall n, In n ns -> real g n) by (intros n N; eapply drive_real; eauto; apply PO).
    split; [exact RN|]. intros Sz. split; [|split].
    - unfold get_main_signals in Hx2. inv_bind Hx2. injection Hx2 as <-. rewrite positions_idx16 by exact Sz.
      apply positions_marks. intros n N. rewrite andb_true_iff, negb_true_iff, node_is_type.
      destruct (track_nodes_spec g _ _ Hx3) as [T1 T2].
      enough (M : node_type g n MAIN_SIGNAL -> mem x n = true <-> exists id, In (id, MAIN_SIGNAL) (is_omitted i) /\ names g id (fst n)).
      { split; intros [X Y]; (split; [exact X|]); specialize (M X); destruct (mem x n); intuition congruence. }
      intros (em & E1 & E2). rewrite mem_in, T2. unfold omitted_main. split.
        * intros (id & k & I1 & I2 & ->). apply in_map_iff in I1. destruct I1 as ([id' t] & E & I1). cbn in E. subst id'.
          apply filter_In in I1. destruct I1 as [I1 I3]. unfold is_main in I3. cbn in I3. apply ty_is in I3. subst t. eauto.
        * intros (id & I1 & I2).
          assert (I3 : In id (omitted_main i)).
          { unfold omitted_main. apply in_map_iff. exists (id, MAIN_SIGNAL). split; [reflexivity|]. apply filter_In. auto. }
          exists id, (fst n). split; [exact I3|]. split; [exact I2|].
          destruct (T1 _ I3) as (k & e' & I4 & I5 & I6). unfold names in *. rewrite I4 in I2. injection I2 as ->.
          assert (e' = em) by (unfold elem_at in *; congruence). subst e'.
          assert (NE : ~ at_edge em) by (unfold at_edge; rewrite E2; cbn; intuition discriminate).
          specialize (RN n N em I5 I6 NE). destruct n; cbn in *. congruence.
    - unfold get_etcs in Et. rewrite idx16_id, firstn_all in Et by exact Sz. injection Et as <- <-.
      apply positions_marks. intros n _. apply node_is_type.
    - unfold get_etcs in Et. rewrite idx16_id, firstn_all in Et by exact Sz. injection Et as <- <-.
      apply positions_marks. intros n _. apply node_is_type.
  Qed.

  Lemma omitted_nodes_spec l : forall ns, omitted_nodes g l = Ok ns ->
    (forall id, In id l -> exists i e, names g id i /\ elem_at g i e /\ e_kind e = KTrack /\ is_track_element (e_type e) = true) /\
    (forall n, In n ns <-> exists id i, In id l /\ names g id i /\ n = (i, Top)).
  Proof.
    induction l as [|id l IH]; intros ns; cbn [omitted_nodes].
    - intros [= <-]. split; [intros id []|]. intros n. split; [intros []|]. intros (id & _ & [] & _).
    - intros H. inv_bind H. apply rp_at_names in Hx. apply get_e_at in Hx0. rename x into i, x0 into e.
      destruct (is_track_element (e_type e)) eqn:T; [|discriminate]. cbn [negb] in H.
      destruct (e_kind e) eqn:Ke; try discriminate. inv_bind H. injection H as <-.
      destruct (IH _ Hx1) as [I1 I2]. split.
      + intros id' [<-|H]; [exists i, e; auto|auto].
      + intros n. cbn [In]. rewrite I2. split.
        * intros [<-|(id' & j & A & B)]; [exists id, i|exists id', j]; auto.
        * intros (id' & j & [<-|A] & B & D); [left|right; eauto]. unfold names in *. congruence.
  Qed.

  Lemma halt_spec nodes o e : rp_id_to_element g (or_invalid o) = Ok e ->
    halt_as_described g nodes o (last_position (at_element g e) 0 nodes None).
  Proof.
    unfold rp_id_to_element, or_invalid, halt_as_described. change RP_MAX with (2 ^ 64 - 1)%N.
    assert (NoneCase : last_position (at_element g None) 0 nodes None = None).
    { generalize 0. induction nodes as [|n nodes IH]; intros i; cbn [last_position]; [reflexivity|].
      replace (at_element g None n) with false by (unfold at_element; rewrite andb_false_r; reflexivity). apply IH. }
    destruct o as [id|].
    - destruct (N.eqb_spec id (2 ^ 64 - 1)) as [E|E].
      + intros [= <-]. exact NoneCase.
      + intros H. inv_bind H. injection H as <-. apply rp_at_names in Hx. exists x. split; [exact Hx|].
        apply last_position_spec. intros n _. unfold at_element. rewrite andb_true_iff, node_is_track_on, Nat.eqb_eq. tauto.
    - rewrite N.eqb_refl. intros [= <-]. exact NoneCase.
  Qed.

  Lemma place_limits_spec nodes l : forall r, place_limits nodes l = Ok r ->
    map fst r = l /\ forall v i n, In (v, i, n) r ->
      first_at nodes i (first_position i 0 nodes) /\ nth_error nodes (first_position i 0 nodes) = Some n.
  Proof.
    induction l as [|[v e] l IH]; intros r; cbn [place_limits].
    - intros [= <-]. split; [reflexivity|intros v i n []].
    - destruct (nth_error nodes (first_position e 0 nodes)) as [n|] eqn:N; [|discriminate].
      intros H. inv_bind H. injection H as <-. destruct (IH _ Hx) as [I1 I2]. split; [cbn; congruence|].
      intros v' i' n' [[= <- <- <-]|H]; [|eauto]. split; [eapply first_position_at; eauto|exact N].
  Qed.

  Lemma make_route_spec lp st x i before k p s e r sts0 :
    parse_stations no_graph 0 (firstn (S st) (map fst lp)) = Ok sts0 ->
    parse_station_route sts0 st (is_id i) x = Ok i ->
    names g (xr_start x) s -> names g (xr_end x) e -> make_path g ls i s e = Ok p ->
    make_route g ls before k p i = Ok r ->
    ro_path_id r = k /\ ro_id r = is_id i /\ path_as_described g ls x r /\ contents_as_described lp g ls st x r /\
    path_length g (ro_nodes r) = Ok (ro_length r) /\
    forall j, In j before -> (is_station j, is_name j) <> (is_station i, is_name i).
  Proof.
    intros PS PR Ns Ne MP. apply parse_route_spec in PR. destruct PR as (Ei & At & Co & Li).
    destruct (make_path_spec _ _ _ _ MP) as (a & b & Sa & Eb & _ & _ & _ & Dr & RN & Ma).
    unfold make_route.
    destruct (existsb _ before) eqn:Ex; [discriminate|]. cbn [negb]. rewrite sassert_true by reflexivity. intros H.
    destruct (rev (p_nodes p)) as [|ln rn] eqn:Er; [discriminate|]. cbn [bind] in H.
    destruct (p_nodes p) as [|fn pn] eqn:Ep; [discriminate|]. cbn [bind] in H. rewrite <- Ep in *.
    inv_bind H. rename x0 into to, x1 into from, x2 into pass, x3 into frei, x4 into chk, x5 into om, x7 into lims, x8 into len.
    destruct (N.of_nat (List.length (p_nodes p)) <? 65535)%N eqn:Sz; [|discriminate]. apply N.ltb_lt in Sz.
    assert (Cnt : List.length (positions (fun n => node_is_track g n && mem om n) 0 (p_nodes p)) = List.length (is_omitted i)).
    { apply Nat.eqb_eq. unfold sassert in Hx8. destruct (Nat.eqb _ _) in Hx8 |- *; [reflexivity|discriminate]. }
    clear Hx5 Hx8. rename Hx6 into Hx5, Hx7 into Hx6.
    injection H as <-. unfold path_as_described, ro_nodes. cbn [ro_path_id ro_id ro_path ro_length].
    destruct Ma as (M1 & M2 & M3); [lia|]. rewrite Ei in M1, Cnt, Hx4. cbn [is_omitted is_omitted] in M1, Cnt, Hx4.
    split; [reflexivity|]. split; [reflexivity|]. split; [|split; [|split]].
    - exists s, e, a, b, (is_course i). auto 8.
    - destruct (omitted_nodes_spec _ _ Hx4) as [O1 O2].
      destruct (place_limits_spec _ _ _ Hx5) as [L1 L2].
      assert (SP : Permutation lims (sort_limits (p_nodes p) lims)) by apply sort_perm.
      split; unfold ro_nodes; cbn [ro_name ro_station ro_attributes ro_path ro_omitted ro_checkpoint ro_passenger
          ro_freight ro_limits ro_to ro_from].
      + rewrite Ei. reflexivity.
      + rewrite Ei. reflexivity.
      + split; apply At.
      + apply At.
      + exact M1.
      + exact M2.
      + exact M3.
      + apply positions_marks. intros n N. rewrite andb_true_iff, node_is_track_on, mem_in, O2. split.
        * intros [_ (id & j & I1 & I2 & ->)]. apply in_map_iff in I1. destruct I1 as ([id' t] & E & I1). cbn in E. subst id'. eauto.
        * intros (id & t & I1 & I2). assert (I3 : In id (map fst (xr_omitted x))) by (apply in_map_iff; exists (id, t); auto).
          destruct (O1 _ I3) as (j & e' & I4 & I5 & I6 & I7). unfold names in *. rewrite I4 in I2. injection I2 as ->.
          split; [exists e'; split; [exact I5|apply track_type; exact I7]|]. exists id, (fst n). split; [exact I3|]. split; [exact I4|].
          assert (NE : ~ at_edge e').
          { unfold at_edge. intros X. apply (proj1 (track_type _) I7). unfold section_types. cbn in X |- *. tauto. }
          specialize (RN n N e' I5 I6 NE). destruct n; cbn in *. congruence.
      + exact Cnt.
      + rewrite Ei in Hx3. apply halt_spec, Hx3.
      + rewrite Ei in Hx1. apply halt_spec, Hx1.
      + rewrite Ei in Hx2. apply halt_spec, Hx2.
      + exists (is_limits i). split.
        * eapply Forall2_impl; [|exact Li]. intros y ve [Y1 Y2]. split; [exact Y1|]. exists sts0. auto.
        * rewrite <- L1. apply Permutation_map, Permutation_sym, SP.
      + intros v j n I. eapply Permutation_in in I; [|apply Permutation_sym, SP]. exists (first_position j 0 (p_nodes p)). eapply L2; eauto.
      + assert (SS : StronglySorted (fun a b : N * nat * node => first_position (snd (fst a)) 0 (p_nodes p) <= first_position (snd (fst b)) 0 (p_nodes p))
                     (sort_limits (p_nodes p) lims)).
        { apply sort_sorted; intros u v.
          - rewrite Nat.ltb_lt. lia.
          - rewrite Nat.ltb_ge. lia.
          - intros w. lia. }
        eapply sorted_impl; [|exact SS]. cbn beta. intros u v Luv i1 j1 F1 F2.
        assert (FP : forall z q, first_at (p_nodes p) z q -> first_position z 0 (p_nodes p) = q).
        { intros z q F. destruct (first_position_spec z (p_nodes p) 0) as (A1 & A2 & A3 & A4).
          destruct F as [(n & F3 & F4) F5].
          assert (Lq : q < List.length (p_nodes p)) by (apply nth_error_Some; congruence).
          destruct (Nat.lt_trichotomy (first_position z 0 (p_nodes p)) q) as [L|[L|L]]; [|exact L|]; exfalso.
          - destruct A4 as (m & A5 & A6); [lia|]. rewrite Nat.sub_0_r in A5. eapply F5; eauto.
          - eapply (A2 q n); [lia|rewrite Nat.sub_0_r; exact F3|exact F4]. }
        rewrite (FP _ _ F1), (FP _ _ F2) in Luv. exact Luv.
      + change (2 ^ 16 - 1)%N with 65535%N. exact Sz.
      + assert (Pl : p_nodes p = rev rn ++ [ln]).
        { rewrite <- (rev_involutive (p_nodes p)), Er. reflexivity. }
        intros s'. unfold other_station in Hx. rewrite Ei in Hx. cbn [is_station] in Hx. split.
        * intros ->. destruct (next_node ls ln) as [m|] eqn:Nx; [|discriminate]. inv_bind Hx. apply get_e_at in Hx7.
          destruct (Nat.eqb_spec (e_station x0) st); [discriminate|]. injection Hx as <-. split; [auto|].
          exists (rev rn), ln, m, x0. auto.
        * intros (D & q & n & m & e' & Q1 & Q2 & Q3 & Q4). rewrite Pl in Q1. apply app_inj_tail in Q1. destruct Q1 as [_ ->].
          rewrite Q2 in Hx. apply get_e_at in Q3. rewrite Q3 in Hx. cbn [bind] in Hx. subst s'.
          destruct (Nat.eqb_spec (e_station e') st); [congruence|]. congruence.
      + intros n q Q Un s'. rewrite Ep in Q. injection Q as -> ->.
        unfold other_station in Hx0. rewrite Ei in Hx0. cbn [is_station] in Hx0.
        pose proof (fun m => reverse_edges_in g ls m n C) as RE.
        destruct (reverse_edges g ls n) as [|m ms].
        * cbn in Hx0. injection Hx0 as <-. split; [discriminate|]. intros (_ & m & e' & M & _). apply RE in M. destruct M.
        * cbn [hd_error] in Hx0. inv_bind Hx0. apply get_e_at in Hx7. assert (Mm := proj1 (RE m) (or_introl eq_refl)). split.
          -- intros ->. destruct (Nat.eqb_spec (e_station x0) st); [discriminate|]. injection Hx0 as <-. split; [auto|]. exists m, x0. auto.
          -- intros (D & m' & e' & M & M1' & M2'). pose proof (Un m m' x0 e' Mm M Hx7 M1') as Ue.
             destruct (Nat.eqb_spec (e_station x0) st); congruence.
    - exact Hx6.
    - intros j J [= E1 E2]. assert (existsb (fun j => Nat.eqb (is_station j) (is_station i) && String.eqb (is_name j) (is_name i)) before = true).
      { apply existsb_exists. exists j. split; [exact J|]. rewrite E1, E2, Nat.eqb_refl, String.eqb_refl. reflexivity. }
      congruence.
  Qed.
End ROUTE.
