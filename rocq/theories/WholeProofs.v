(* Proofs about the loaded infrastructure *)
From Coq Require Import List Bool NArith ZArith QArith String Sorted Permutation Arith Lia.
From Verif Require Import Base PhysModel TextModel InfraModel InfraOrder InfraSpec InfraHeap InfraScan InfraLay InfraLaid
  InfraPlace InfraAdd InfraInv InfraBorder InfraDrive InfraNet
  StationModel StationSpec StationPath StationRoute StationProofs StationNet StationWay StationDrawn WholeModel WholeSpec.
From Verif Require AlgoModel RouteModel RouteSpec RouteIter RouteIndex RouteGen TrainIterProofs LineModel.
Import ListNotations.
Local Open Scope nat_scope.

(* ---- every node of a route is a node of the graph ---- *)
Lemma get_node_slot g p r i n : get_node g p r i = Ok n -> In n (all_nodes g).
Proof.
  unfold get_node. destruct p as [j|]; [|discriminate]. unfold get_e.
  destruct (nth_error (g_elems g) j) as [e|] eqn:N; [|discriminate]. cbn [bind].
  intros H. apply all_nodes_in. exists e.
  unfold get_node_e in H. destruct (e_kind e);
    repeat match type of H with context [if ?b then _ else _] => destruct b end;
    try discriminate H; injection H as <-; (split; [exact N|cbn; tauto]).
Qed.
Definition good_to (g : graph) (l : links) : Prop :=
  forall s m, fst (l s) = Some m \/ snd (l s) = Some m -> In m (all_nodes g).
Lemma good_to_none g : good_to g no_links.
Proof. intros s m [H|H]; discriminate H. Qed.
Lemma good_to_next g s n l : In n (all_nodes g) -> good_to g l -> good_to g (set_next s n l).
Proof.
  intros L G s' m H. unfold set_next in H. destruct (slot_eqb s' s); [|eapply G; eauto].
  cbn in H. destruct H as [[= <-]|H]; auto. eapply G; eauto.
Qed.
Lemma good_to_branch g s n l : In n (all_nodes g) -> good_to g l -> good_to g (set_branch s n l).
Proof.
  intros L G s' m H. unfold set_branch in H. destruct (slot_eqb s' s); [|eapply G; eauto].
  cbn in H. destruct H as [H|[= <-]]; auto. eapply G; eauto.
Qed.
Lemma connect_good_to g i e l : connect_elem g i e = Ok l -> good_to g l.
Proof.
  intros H. unfold connect_elem, connect_side in H.
  destruct (e_kind e);
  repeat (inv_bind H; try match type of H with
          | (if ?b then _ else _) = _ => destruct b
          | (match ?b with Some _ => _ | None => _ end) = _ => destruct b
          end);
  repeat match goal with X : (match ?b with Some _ => _ | None => _ end) = Ok _ |- _ =>
           destruct b; inv_bind X end;
  repeat match goal with X : Ok _ = Ok _ |- _ => injection X as <- end;
  repeat match goal with X : get_node _ _ _ _ = Ok _ |- _ => apply get_node_slot in X end;
  repeat match goal with |- context [if ?b then _ else _] => destruct b end;
  repeat first [apply good_to_next; [assumption|] | apply good_to_branch; [assumption|]]; apply good_to_none.
Qed.
Lemma target_node g ls n m : connect_nodes g = Ok ls -> may_go ls n m -> In m (all_nodes g).
Proof.
  unfold connect_nodes. assert (H : forall es i ls, connect_from g i es = Ok ls -> Forall (good_to g) ls).
  { induction es as [|e es IH]; intros i ls'; cbn [connect_from].
    - intros [= <-]. constructor.
    - intros H. inv_bind H. injection H as <-. constructor; [eapply connect_good_to; eauto|eauto]. }
  intros C. apply H in C. intros X. unfold may_go, next_node, branch_node in X.
  destruct (nth_error ls (fst n)) as [l|] eqn:N; [|destruct X; discriminate].
  apply nth_error_In in N. rewrite Forall_forall in C. eapply C; eauto.
Qed.

Lemma drive_may_go g ls course a p : drive g ls course a p -> unbroken ls p.
Proof.
  intros [_ D] k x y X Y. specialize (D k x y X Y). unfold drives_on in D. unfold may_go.
  destruct (branch_node ls x); [|auto]. destruct D as [[_ D]|[_ D]]; auto.
Qed.
Lemma drive_last g ls course a b p : drive_to g ls course a b p -> exists q, p = q ++ [b].
Proof.
  intros [[H _] D]. destruct p as [|x p]; [discriminate|].
  destruct (exists_last (l := x :: p)) as (q & y & E); [discriminate|]. exists q. rewrite E in *.
  f_equal. f_equal. specialize (D (List.length q)).
  rewrite nth_error_app2, Nat.sub_diag, app_length in D by lia. cbn in D.
  destruct D as [_ D]. specialize (D ltac:(lia)). congruence.
Qed.

Lemma route_nodes_valid g ls x r : connect_nodes g = Ok ls -> path_as_described g ls x r ->
  forall n, In n (ro_nodes r) -> In n (all_nodes g).
Proof.
  intros C (i & j & a & b & course & _ & _ & S1 & E1 & _ & D) n H.
  pose proof (drive_may_go _ _ _ _ _ (proj1 D)) as U. apply In_nth_error in H. destruct H as [k K].
  destruct k as [|k].
  - destruct (nth_error (ro_nodes r) 1) as [y|] eqn:Y.
    + specialize (U 0 n y K Y). exact (linked_node g ls n y C U).
    + destruct (drive_last _ _ _ _ _ _ D) as (q & Q). destruct D as [[Hd _] _].
      destruct (ro_nodes r) as [|z [|z' p]]; try discriminate. cbn in K, Hd. injection K as ->. injection Hd as ->.
      assert (a = b) by (destruct q as [|? [|? ?]]; cbn in Q; congruence). subst b. apply all_nodes_in.
      destruct S1 as (e & He & [(A & ->)|(A & Kd & ->)]); [|exists e; split; [exact He|rewrite Kd; cbn; auto]].
      destruct E1 as (e' & He' & [(A' & E2)|(A' & Kd' & E2)]).
      * assert (i = j) by congruence. subst j. unfold elem_at in *. rewrite He in He'. injection He' as <-.
        destruct (e_rise e S0); discriminate.
      * exists e'. assert (i = j) by congruence. subst j. split; [exact He'|]. rewrite Kd'. cbn. left. congruence.
  - destruct (nth_error (ro_nodes r) k) as [x0|] eqn:X.
    + exact (target_node g ls x0 n C (U k x0 n X K)).
    + exfalso. apply nth_error_None in X. assert (S k < List.length (ro_nodes r)) by (apply nth_error_Some; congruence). lia.
Qed.

Lemma find_if_in (l : list node) n : In n l -> nth_error l (AlgoModel.find_if (node_eqb n) l) = Some n.
Proof.
  induction l as [|m l IH]; [intros []|]. intros H. cbn [AlgoModel.find_if].
  destruct (node_eqb n m) eqn:E; [apply node_eqb_eq in E; subst m; reflexivity|].
  cbn [nth_error]. apply IH. destruct H as [->|H]; [|exact H]. exfalso.
  assert (node_eqb n n = true) by (apply node_eqb_eq; reflexivity). congruence.
Qed.
Lemma node_id_at g n : In n (all_nodes g) -> nth_error (all_nodes g) (N.to_nat (node_id g n)) = Some n.
Proof. intros H. unfold node_id. rewrite Nat2N.id. apply find_if_in, H. Qed.
Lemma node_id_inj g n m : In n (all_nodes g) -> In m (all_nodes g) -> node_id g n = node_id g m -> n = m.
Proof. intros A B E. apply node_id_at in A, B. rewrite E in A. congruence. Qed.
Lemma node_id_lt g n : In n (all_nodes g) -> N.to_nat (node_id g n) < List.length (all_nodes g).
Proof. intros A. apply node_id_at in A. apply nth_error_Some. congruence. Qed.

(* ---- from one station route to the next ---- *)
Lemma border_facts l : well_drawn l -> exists g ls run arrive,
  import l = Ok g /\ connect_nodes g = Ok ls /\ net_facts l g ls run arrive /\
  forall p q n m, node_at l p n -> node_at l q m -> partners l p q ->
    exists i e, names g (sn_id m) i /\ elem_at g i e /\ at_edge e /\
      next_node ls (arrive (fst p) (snd p)) = Some (i, if e_rise e S0 then Bot else Top).
Proof.
  intros WD. destruct (parse_all l WD) as (g0 & dev & run & H1 & I).
  destruct (close_borders l WD g0 dev run I) as (g & H2 & B).
  destruct (connect_all g (all_connect l WD g0 g dev run I B)) as (ls & H3 & Ls).
  exists g, ls, (runn g run), (arrive g dev run). split; [unfold import; rewrite H1; exact H2|].
  split; [exact H3|]. split; [exact (facts l WD g0 g dev run I B ls Ls)|].
  intros p q n m Hn Hm Pq.
  destruct (partners_names l WD g0 dev run I _ _ Pq) as (n' & m' & Y1 & Y2 & Y3 & Y4 & Y5).
  rewrite (node_fun l _ _ _ Y1 Hn) in Y3. rewrite (node_fun l _ _ _ Y2 Hm) in Y4.
  destruct (border_ok l WD g0 g dev run I B p n Hn Y3) as (e & lk & X1 & X2 & X3 & X4 & X5 & X6 & X7).
  destruct (dev_fact l WD g0 g dev run I B q m Hm) as [f D].
  destruct (is_device_dev l WD g0 g dev run I B q m Top Hm) as [R _]. cbn [fst] in R.
  assert (Rs : e_rise f S0 = snd q).
  { apply (df_rise _ _ _ _ _ _ _ D). unfold flagged. rewrite Y4. reflexivity. }
  exists (dev q), f. split; [exact R|]. split; [apply (df_E _ _ _ _ _ _ _ D)|].
  split; [unfold at_edge; rewrite (df_type _ _ _ _ _ _ _ D), Y4; cbn; auto|].
  rewrite X4, (proj1 (next_eq g ls Ls _ _ _ _ X1 X2)), (X6 q Pq). cbn [fst]. rewrite Rs.
  destruct (partner_one l WD p q q Pq Pq) as [_ Dd]. unfold tslot. destruct (snd p), (snd q); try reflexivity; congruence.
Qed.

Section NEXT.
  Variables (l : list (xstation * list xroute)) (inf : infrastructure).
  Hypothesis WD : well_drawn (map fst l).
  Hypothesis AH : at_home l.
  Hypothesis IM : import_routes l = Ok inf.

  Lemma section_node w x : section_at (map fst l) (fst w) x -> exists n, node_at (map fst l) w n.
  Proof. intros H. exists (if snd w then xs_end x else xs_start x). exists x. split; [exact H|reflexivity]. Qed.
  Lemma station_fun p st st' : station_at (map fst l) p st -> station_at (map fst l) p st' -> st = st'.
  Proof. intros (x & A) (x' & B). congruence. Qed.

  Lemma next_route k r h q : nth_error (inf_routes inf) k = Some r -> nth_error (inf_routes inf) h = Some q ->
    continues (inf_graph inf) (inf_links inf) r q ->
    exists p n p' m, ro_nodes r = p ++ [n] /\ ro_nodes q = m :: p' /\ next_node (inf_links inf) n = Some m.
  Proof.
    intros R Q (p & n & m & m' & p' & Hr & Hn & Hq & Hf & Hs & _).
    exists p, n, p', m'. split; [exact Hr|]. split; [exact Hq|]. rewrite Hn. f_equal.
    destruct (import_spec l inf IM) as (I1 & I2 & _ & Len & B & _).
    destruct (border_facts _ WD) as (g & ls & run & arrive & G1 & G2 & F & BF).
    assert (g = inf_graph inf) by congruence. subst g. assert (ls = inf_links inf) by congruence. subst ls.
    destruct (nth_error (routes_of l) k) as [[st x]|] eqn:X.
    2:{ apply nth_error_None in X. assert (k < List.length (inf_routes inf)) by (apply nth_error_Some; congruence). lia. }
    destruct (nth_error (routes_of l) h) as [[st' x']|] eqn:X'.
    2:{ apply nth_error_None in X'. assert (h < List.length (inf_routes inf)) by (apply nth_error_Some; congruence). lia. }
    destruct (B k st x r X R) as (_ & Pr & Cr & _). destruct (B h st' x' q X' Q) as (_ & Pq & Cq & _).
    assert (Ds : st' <> st) by (rewrite <- (co_station _ _ _ _ _ _ Cr), <- (co_station _ _ _ _ _ _ Cq); exact Hs).
    destruct Pr as (i0 & j & a0 & b & c0 & _ & Nj & _ & Eb & _ & Db).
    destruct Pq as (i' & j0 & a' & b0 & c1 & Ni' & _ & Sa' & _ & _ & Da').
    destruct (drive_last _ _ _ _ _ _ Db) as (p0 & Hp0). rewrite Hr in Hp0. apply app_inj_tail in Hp0. destruct Hp0 as [_ <-].
    destruct Da' as [[Ha' _] _]. rewrite Hq in Ha'. cbn in Ha'. injection Ha' as <-.
    assert (Fi : fst m' = i') by (destruct Sa' as (e & _ & [(_ & ->)|(_ & _ & ->)]); reflexivity).
    apply nth_error_In in X, X'. destruct (AH st x X) as [_ HE]. destruct (AH st' x' X') as [HS _].
    destruct HE as [(pl & (nd & Hnd & Idn & Wh) & St)|(w & t & At & St)].
    - destruct (nf_whole _ _ _ _ _ F pl nd Hnd Wh) as (i & e & Ni & He & Ed & Ar & _).
      unfold names in *. rewrite Idn in Ni. assert (i = j) by congruence. subst i.
      assert (n = arrive (fst pl) (snd pl)) as En.
      { rewrite Ar. destruct Eb as (e' & He' & [(_ & ->)|(NE & _)]); unfold elem_at in *; rewrite He in He'; injection He' as <-;
          [reflexivity|tauto]. }
      assert (C : (sn_name nd = N_BUMPER \/ sn_name nd = N_TRACK_END) \/ sn_name nd = N_BORDER) by (destruct (sn_name nd); try discriminate; auto).
      destruct C as [C|C].
      { pose proof (dr_stop _ _ _ _ _ (nf_drawn _ _ _ _ _ F) pl nd Hnd C) as Z. rewrite <- En in Z. congruence. }
      destruct (in_dec string_dec (sn_station nd) (map st_ds100 (map fst l))) as [Kn|Un].
      2:{ pose proof (dr_edge _ _ _ _ _ (nf_drawn _ _ _ _ _ F) pl nd Hnd C Un) as Z. rewrite <- En in Z. congruence. }
      destruct (wd_border _ WD pl nd Hnd C Kn) as (ql & Pq & _). pose proof Pq as Pq'.
      destruct Pq' as (_ & md & _ & _ & _ & _ & _ & _ & Hmd & _).
      destruct (BF pl ql nd md Hnd Hmd Pq) as (i2 & e2 & N2 & He2 & Ed2 & Z). rewrite <- En, Hn in Z. injection Z as ->.
      cbn [fst] in *. subst i'. destruct Sa' as (e' & He' & S). rewrite Hf in He'. unfold elem_at in *. rewrite He2 in He'. injection He' as <-.
      destruct S as [(_ & ->)|(NE & _)]; [|tauto]. cbn [fst] in *. congruence.
    - destruct (nf_elem _ _ _ _ _ F w _ t At) as (xs & i & e & kk & Hx & Ni & He & NEd & Kd & Sf & _ & Rk).
      unfold names in *. assert (i = j) by congruence. subst i.
      assert (n = (j, Top)) as En.
      { destruct Eb as (e' & He' & [(Ed & _)|(_ & _ & ->)]); [|reflexivity]. unfold elem_at in *. rewrite He in He'. injection He' as <-. tauto. }
      destruct (dr_along _ _ _ _ _ (nf_drawn _ _ _ _ _ F) (fst w) xs (snd w) kk n Hx) as [Al _]; [rewrite En; exact Rk|].
      rewrite Hn in Al. injection Al as Al.
      destruct (nth_error (run (fst w) (snd w)) (S kk)) as [z|] eqn:Z.
      + rewrite (nth_error_nth _ _ _ Z) in Al. subst z. apply nth_error_In in Z.
        destruct Sa' as (e' & He' & [(Ed & _)|(_ & Kd' & S)]).
        { exfalso. subst i'. rewrite Hf in He'. apply (nf_edge_apart _ _ _ _ _ F (fst m) e' (fst w) xs (snd w) (snd m) He' Ed Hx).
          destruct m; exact Z. }
        rewrite S in Hf |- *. cbn [fst] in Hf.
        pose proof (target_node _ _ n m G2 (or_introl Hn)) as V. apply all_nodes_in in V. destruct V as (e2 & He2 & V).
        unfold elem_at in *. rewrite <- Hf in He2. rewrite He' in He2. injection He2 as <-. rewrite Kd' in V.
        destruct V as [V|[]]. destruct m as [m1 m2]. cbn [fst snd] in *. congruence.
      + rewrite nth_overflow in Al by (apply nth_error_None; exact Z).
        destruct (section_node w xs Hx) as (nw & Hnw).
        destruct HS as [(pl & (nd & Hnd & Idn & Wh) & St')|(w' & t' & At' & St')].
        * exfalso. destruct (nf_whole _ _ _ _ _ F pl nd Hnd Wh) as (i & e0 & Ni2 & _ & _ & Ar & _).
          unfold names in *. rewrite Idn in Ni2. assert (i = i') by congruence. subst i.
          assert (pl = w).
          { apply (nf_whole_inj _ _ _ _ _ F pl w nd nw Hnd Hnw Wh). rewrite Ar. rewrite <- Al. cbn [fst]. congruence. }
          subst pl. apply Ds. exact (station_fun w _ _ St' St).
        * exfalso. destruct (nf_elem _ _ _ _ _ F w' _ t' At') as (_ & i & e0 & _ & _ & Ni2 & He0 & _ & _ & Sf0 & _ & _).
          unfold names in *. assert (i = i') by congruence. subst i.
          destruct (dr_arrive _ _ _ _ _ (nf_drawn _ _ _ _ _ F) w nw Hnw) as (_ & e1 & He1 & T1).
          destruct Sf0 as (_ & e2 & He2 & T2 & _). cbn [fst] in He2. rewrite <- Al, <- Hf, Fi in He1.
          assert (e1 = e2) by congruence. subst e2. destruct At' as (_ & _ & _ & _ & Dt & _).
          rewrite T2 in T1. rewrite T1 in Dt. destruct (sn_name nw); discriminate Dt.
  Qed.
End NEXT.

(* ---- the station routes of the interlocking ---- *)
Lemma sroutes_nth lines g rs srs : RouteModel.mapM (to_sroute lines g) rs = Ok srs ->
  List.length srs = List.length rs /\
  forall k sr, nth_error srs k = Some sr -> exists r, nth_error rs k = Some r /\ to_sroute lines g r = Ok sr.
Proof.
  revert srs. induction rs as [|r rs IH]; intros srs; cbn [RouteModel.mapM].
  - intros [= <-]. split; [reflexivity|]. intros [|k] sr; discriminate.
  - intros H. inv_bind H. injection H as <-. destruct (IH _ Hx0) as [A B]. split; [cbn; lia|].
    intros [|k] sr E; [cbn in E; injection E as <-; exists r; auto|exact (B k sr E)].
Qed.
Lemma to_sroute_fields lines g r sr : to_sroute lines g r = Ok sr ->
  RouteModel.sr_nodes sr = map (node_id g) (ro_nodes r) /\ RouteModel.sr_main sr = p_main (ro_path r) /\
  RouteModel.sr_omitted sr = ro_omitted r /\ RouteModel.sr_passenger_halt sr = ro_passenger r /\
  RouteModel.sr_freight_halt sr = ro_freight r /\ RouteModel.sr_station sr = N.of_nat (ro_station r) /\
  requires_etcs lines g r = Ok (RouteModel.sr_requires_etcs sr).
Proof. unfold to_sroute. intros H. inv_bind H. injection H as <-. cbn. auto 10. Qed.

Lemma load_parts fuel l files ld : load fuel l files = Ok ld ->
  import_routes l = Ok (ld_infra ld) /\
  (exists lines, LineModel.parse_lines files = Ok lines /\
     RouteModel.mapM (to_sroute lines (inf_graph (ld_infra ld))) (inf_routes (ld_infra ld)) = Ok (ld_srs ld)) /\
  get_interlocking fuel (List.length l) (inf_graph (ld_infra ld)) (ld_srs ld) (inf_successors (ld_infra ld)) = Ok (ld_il ld).
Proof. unfold load. intros H. inv_bind H. injection H as <-. cbn. split; [assumption|]. split; [exists x0; auto|assumption]. Qed.

Section SROUTES.
  Variables (l : list (xstation * list xroute)) (inf : infrastructure) (lines : list (Z * LineModel.line)).
  Variable srs : list RouteModel.sroute.
  Hypothesis IM : import_routes l = Ok inf.
  Hypothesis MS : RouteModel.mapM (to_sroute lines (inf_graph inf)) (inf_routes inf) = Ok srs.

  Lemma route_at k sr : RouteSpec.sr_of srs k = Some sr -> exists st x r,
    nth_error (routes_of l) k = Some (st, x) /\ nth_error (inf_routes inf) k = Some r /\
    to_sroute lines (inf_graph inf) r = Ok sr /\
    path_as_described (inf_graph inf) (inf_links inf) x r /\
    contents_as_described l (inf_graph inf) (inf_links inf) st x r.
  Proof.
    intros E. destruct (sroutes_nth _ _ _ _ MS) as [_ B]. destruct (B k sr E) as (r & R & T).
    destruct (import_spec l inf IM) as (_ & _ & _ & Len & D & _).
    destruct (nth_error (routes_of l) k) as [[st x]|] eqn:X.
    2:{ apply nth_error_None in X. assert (k < List.length (inf_routes inf)) by (apply nth_error_Some; congruence). lia. }
    destruct (D k st x r X R) as (_ & P & C & _). exists st, x, r. auto.
  Qed.
  Lemma srs_len : List.length srs = List.length (inf_routes inf).
  Proof. exact (proj1 (sroutes_nth _ _ _ _ MS)). Qed.
  Lemma sroute_at k r : nth_error (inf_routes inf) k = Some r ->
    exists sr, RouteSpec.sr_of srs k = Some sr /\ to_sroute lines (inf_graph inf) r = Ok sr.
  Proof.
    intros R. destruct (RouteSpec.sr_of srs k) as [sr|] eqn:E.
    - destruct (sroutes_nth _ _ _ _ MS) as [_ B]. destruct (B k sr E) as (r' & R' & T). exists sr. split; [reflexivity|]. congruence.
    - unfold RouteSpec.sr_of in E. apply nth_error_None in E. rewrite srs_len in E.
      assert (k < List.length (inf_routes inf)) by (apply nth_error_Some; congruence). lia.
  Qed.
  Lemma len_at k r : nth_error (inf_routes inf) k = Some r -> RouteSpec.sr_len srs k = List.length (ro_nodes r).
  Proof.
    intros R. destruct (sroute_at k r R) as (sr & E & T). unfold RouteSpec.sr_len. rewrite E.
    rewrite (proj1 (to_sroute_fields _ _ _ _ T)). apply map_length.
  Qed.

  Lemma r_indexable : RouteSpec.all_indexable srs.
  Proof.
    intros k sr E. destruct (route_at k sr E) as (st & x & r & _ & _ & T & _ & C). unfold RouteSpec.indexable.
    rewrite (proj1 (to_sroute_fields _ _ _ _ T)), map_length. exact (co_size _ _ _ _ _ _ C).
  Qed.
  Lemma r_omitted : RouteSpec.omitted_sorted srs.
  Proof.
    intros k sr E. destruct (route_at k sr E) as (st & x & r & _ & _ & T & _ & C).
    destruct (to_sroute_fields _ _ _ _ T) as (_ & _ & -> & _). exact (proj1 (co_omitted _ _ _ _ _ _ C)).
  Qed.
  Lemma main_at k sr st x r : RouteSpec.sr_of srs k = Some sr -> to_sroute lines (inf_graph inf) r = Ok sr ->
    contents_as_described l (inf_graph inf) (inf_links inf) st x r ->
    RouteSpec.mains srs k = p_main (ro_path r).
  Proof.
    intros E T C. unfold RouteSpec.mains. rewrite E. exact (proj1 (proj2 (to_sroute_fields _ _ _ _ T))).
  Qed.
  Lemma r_signals : (forall s m, In m (RouteSpec.mains srs s) -> m < RouteSpec.sr_len srs s) /\
    (forall s, StronglySorted lt (RouteSpec.mains srs s)) /\
    (forall s, s < List.length srs -> 0 < RouteSpec.sr_len srs s).
  Proof.
    split; [|split].
    - intros s m M. destruct (RouteSpec.sr_of srs s) as [sr|] eqn:E.
      + destruct (route_at s sr E) as (st & x & r & _ & R & T & _ & C).
        rewrite (main_at s sr st x r E T C) in M. rewrite (len_at s r R).
        apply (proj2 (co_main _ _ _ _ _ _ C)) in M. destruct M as (n & M & _). apply nth_error_Some. unfold StationModel.ro_nodes in *. congruence.
      + unfold RouteSpec.mains in M. rewrite E in M. destruct M.
    - intros s. destruct (RouteSpec.sr_of srs s) as [sr|] eqn:E.
      + destruct (route_at s sr E) as (st & x & r & _ & R & T & _ & C).
        rewrite (main_at s sr st x r E T C). exact (proj1 (co_main _ _ _ _ _ _ C)).
      + unfold RouteSpec.mains. rewrite E. constructor.
    - intros s L. destruct (RouteSpec.sr_of srs s) as [sr|] eqn:E.
      + destruct (route_at s sr E) as (st & x & r & _ & R & T & P & C). rewrite (len_at s r R).
        destruct P as (i & j & a & b & course & _ & _ & _ & _ & _ & [[H _] _]). destruct (ro_nodes r); [discriminate|cbn; lia].
      + apply nth_error_None in E. lia.
  Qed.
  Lemma r_node_ids : forall s sr x, RouteSpec.sr_of srs s = Some sr -> In x (RouteModel.sr_nodes sr) ->
    N.to_nat x < List.length (all_nodes (inf_graph inf)).
  Proof.
    intros s sr x E H. destruct (route_at s sr E) as (st & xr & r & _ & R & T & P & C).
    rewrite (proj1 (to_sroute_fields _ _ _ _ T)) in H. apply in_map_iff in H. destruct H as (n & <- & H).
    apply node_id_lt. destruct (import_spec l inf IM) as (_ & I2 & _). exact (route_nodes_valid _ _ _ _ I2 P n H).
  Qed.
  Lemma r_graph : RouteSpec.graph_ok srs (inf_successors inf).
  Proof.
    constructor.
    - rewrite srs_len. exact (successors_len l inf IM).
    - rewrite srs_len. exact (proj1 (predecessors_spec l inf IM)).
    - intros s t H. unfold RouteSpec.succ_of in H. rewrite srs_len.
      destruct (nth_error (RouteModel.g_succ (inf_successors inf)) s) as [row|] eqn:E.
      2:{ rewrite nth_overflow in H by (apply nth_error_None; exact E). destruct H. }
      rewrite (nth_error_nth _ _ _ E) in H.
      destruct (nth_error (inf_routes inf) s) as [r|] eqn:R.
      2:{ apply nth_error_None in R. assert (s < List.length (RouteModel.g_succ (inf_successors inf))) by (apply nth_error_Some; congruence).
          rewrite (successors_len l inf IM) in *. lia. }
      destruct (successors_spec l inf IM s r row R E) as (qs & _ & _ & _ & Hh). apply Hh in H.
      destruct H as (q & Q & _). apply nth_error_Some. congruence.
  Qed.
  Lemma succ_continues s t : In t (RouteSpec.succ_of (inf_successors inf) s) ->
    exists r q, nth_error (inf_routes inf) s = Some r /\ nth_error (inf_routes inf) t = Some q /\
      continues (inf_graph inf) (inf_links inf) r q.
  Proof.
    intros H. unfold RouteSpec.succ_of in H.
    destruct (nth_error (RouteModel.g_succ (inf_successors inf)) s) as [row|] eqn:E.
    2:{ rewrite nth_overflow in H by (apply nth_error_None; exact E). destruct H. }
    rewrite (nth_error_nth _ _ _ E) in H.
    destruct (nth_error (inf_routes inf) s) as [r|] eqn:R.
    2:{ apply nth_error_None in R. assert (s < List.length (RouteModel.g_succ (inf_successors inf))) by (apply nth_error_Some; congruence).
        rewrite (successors_len l inf IM) in *. lia. }
    destruct (successors_spec l inf IM s r row R E) as (qs & _ & _ & _ & Hh). apply Hh in H.
    destruct H as (q & Q & C & _). exists r, q. auto.
  Qed.
  Lemma r_stations : forall s sr, RouteSpec.sr_of srs s = Some sr -> N.to_nat (RouteModel.sr_station sr) < List.length l.
  Proof.
    intros s sr E. destruct (route_at s sr E) as (st & x & r & X & R & T & P & C).
    destruct (to_sroute_fields _ _ _ _ T) as (_ & _ & _ & _ & _ & -> & _). rewrite Nat2N.id, (co_station _ _ _ _ _ _ C).
    apply nth_error_In in X. clear - X. unfold routes_of in X.
    assert (H : forall ll k, In (st, x) (routes_from k ll) -> st < k + List.length ll).
    { clear. induction ll as [|[y xs] ll IH]; intros k H; [destruct H|]. cbn [routes_from] in H. apply in_app_or in H. destruct H as [H|H].
      - apply in_map_iff in H. destruct H as (z & [= <- _] & _). cbn. lia.
      - apply IH in H. cbn. lia. }
    apply (H l 0 X).
  Qed.

  (* consecutive cells of connected station routes *)
  Lemma cells_step r : RouteSpec.connected (inf_successors inf) r ->
    (forall s, In s r -> s < List.length srs) ->
    forall k s i t j, nth_error (RouteSpec.cells_of srs r) k = Some (s, i) ->
      nth_error (RouteSpec.cells_of srs r) (S k) = Some (t, j) ->
      (t = s /\ j = S i) \/ (S i = RouteSpec.sr_len srs s /\ j = 0 /\ In t (RouteSpec.succ_of (inf_successors inf) s)).
  Proof.
    induction r as [|x r IH]; intros Cn In_ k s i t j A B; [destruct k; discriminate|].
    rewrite TrainIterProofs.cells_cons in A, B.
    assert (Pn : forall i, i < RouteSpec.sr_len srs x -> nth_error (RouteIter.pairs x 0 (RouteSpec.sr_len srs x)) i = Some (x, i)).
    { intros i' L. unfold RouteIter.pairs. rewrite nth_error_map.
      rewrite (nth_error_nth' _ 0) by (rewrite seq_length; lia). rewrite seq_nth by lia. reflexivity. }
    assert (Pl : List.length (RouteIter.pairs x 0 (RouteSpec.sr_len srs x)) = RouteSpec.sr_len srs x)
      by (unfold RouteIter.pairs; rewrite map_length, seq_length; reflexivity).
    destruct (Nat.ltb_spec k (RouteSpec.sr_len srs x)) as [L|L].
    - rewrite nth_error_app1 in A by lia. rewrite Pn in A by lia. injection A as <- <-.
      destruct (Nat.ltb_spec (S k) (RouteSpec.sr_len srs x)) as [L'|L'].
      + rewrite nth_error_app1 in B by lia. rewrite Pn in B by lia. injection B as <- <-. left. auto.
      + rewrite nth_error_app2 in B by lia. rewrite Pl in B. replace (S k - RouteSpec.sr_len srs x) with 0 in B by lia.
        destruct r as [|y r]; [discriminate|]. rewrite TrainIterProofs.cells_cons in B.
        assert (0 < RouteSpec.sr_len srs y) as Ly by (apply r_signals, In_; cbn; auto).
        unfold RouteIter.pairs in B. destruct (RouteSpec.sr_len srs y) as [|u]; [lia|]. cbn in B. injection B as <- <-.
        right. split; [lia|]. split; [reflexivity|]. destruct Cn as [Cn _]. exact Cn.
    - rewrite nth_error_app2 in A by lia. rewrite nth_error_app2 in B by lia. rewrite Pl in A, B.
      replace (S k - RouteSpec.sr_len srs x) with (S (k - RouteSpec.sr_len srs x)) in B by lia.
      apply (IH ltac:(destruct r; [exact I|apply Cn]) ltac:(intros z Z; apply In_; right; exact Z) _ _ _ _ _ A B).
  Qed.
End SROUTES.
