(* Lemmas about the interlocking of a loaded infrastructure *)
From Coq Require Import List Bool NArith ZArith QArith String Sorted Arith Lia.
From Verif Require Import Base TextModel InfraModel InfraSpec StationModel StationSpec StationPath StationProofs StationNet StationWay
  WholeModel WholeSpec WholeProofs WholeWay.
From Verif Require RouteWay RouteModel RouteSpec RouteIter RouteGen RouteIndex PropsRoute PropsTransform TrainIterProofs LineModel.
Import ListNotations.
Local Open Scope nat_scope.

Section LOADED.
  Variables (fuel : nat) (l : list (xstation * list xroute)) (files : list (list LineModel.xml_line)) (ld : loaded).
  Hypothesis LD : load fuel l files = Ok ld.
  Notation inf := (ld_infra ld).
  Notation srs := (ld_srs ld).
  Notation srg := (inf_successors (ld_infra ld)).

  Lemma ld_im : import_routes l = Ok inf.
  Proof. exact (proj1 (load_parts _ _ _ _ LD)). Qed.
  Lemma ld_lines : exists lines, RouteModel.mapM (to_sroute lines (inf_graph inf)) (inf_routes inf) = Ok srs.
  Proof. destruct (proj1 (proj2 (load_parts _ _ _ _ LD))) as (lines & _ & H). eauto. Qed.
  Lemma ld_graph_ok : RouteSpec.graph_ok srs srg.
  Proof. destruct ld_lines as [lines H]. exact (r_graph _ _ _ _ ld_im H). Qed.
  Lemma ld_indexable : RouteSpec.all_indexable srs.
  Proof. destruct ld_lines as [lines H]. exact (r_indexable _ _ _ _ ld_im H). Qed.
  Lemma ld_signals : PropsRoute.signals_ok srs.
  Proof. destruct ld_lines as [lines H]. exact (r_signals _ _ _ _ ld_im H). Qed.
  Lemma ld_routes : RouteModel.get_interlocking_routes srs srg fuel = Ok (il_routes (ld_il ld)).
  Proof.
    pose proof (proj2 (proj2 (load_parts _ _ _ _ LD))) as H. unfold get_interlocking in H. inv_bind H.
    destruct x; [discriminate|]. injection H as <-. cbn. assumption.
  Qed.
  Lemma ld_gen r : In r (il_routes (ld_il ld)) ->
    RouteSpec.signal_to_signal srs srg (RouteModel.ir_start r) (RouteModel.ir_end r) (RouteModel.ir_srs r).
  Proof.
    intros H. destruct (RouteGen.gen_spec srs srg ld_graph_ok ld_indexable fuel _ ld_routes) as [_ G].
    apply G. exists (RouteModel.ir_id r). destruct r; exact H.
  Qed.
  Lemma ld_proper r : In r (il_routes (ld_il ld)) -> PropsRoute.proper_route srs r.
  Proof.
    intros H. exact (PropsRoute.C54_routes_proper srs srg fuel _ r ld_graph_ok ld_indexable ld_signals ld_routes H).
  Qed.
  Lemma ld_main s i : In i (RouteSpec.mains srs s) <-> signal_at l inf (s, i).
  Proof. destruct ld_lines as [lines H]. exact (main_iff _ _ _ _ ld_im H s i). Qed.

  Lemma cells_in rs s i : In (s, i) (RouteSpec.cells_of srs rs) -> In s rs /\ i < RouteSpec.sr_len srs s.
  Proof.
    unfold RouteSpec.cells_of. intros H. apply in_concat in H. destruct H as (c & A & B). apply in_map_iff in A.
    destruct A as (s' & <- & A). apply in_map_iff in B. destruct B as (j & [= <- <-] & B). apply in_seq in B. split; [exact A|lia].
  Qed.
  Lemma ir_cells_in r c : In c (RouteSpec.ir_cells srs r) -> In c (RouteSpec.cells_of srs (RouteModel.ir_srs r)).
  Proof. unfold RouteSpec.ir_cells. intros H. apply PropsTransform.in_skipn in H. apply PropsTransform.in_firstn in H. exact H. Qed.

  Lemma cell_node_ex c : In (fst c) (seq 0 (List.length srs)) -> snd c < RouteSpec.sr_len srs (fst c) ->
    exists n, node_of inf c n /\ In n (all_nodes (inf_graph inf)) /\ RouteSpec.cell_node srs c (node_id (inf_graph inf) n).
  Proof.
    intros A B. destruct ld_lines as [lines H]. apply in_seq in A.
    destruct (RouteSpec.sr_of srs (fst c)) as [sr|] eqn:E; [|apply nth_error_None in E; lia].
    destruct (route_at _ _ _ _ ld_im H (fst c) sr E) as (st & x & r & X & R & T & P & C).
    rewrite (len_at _ _ _ H (fst c) r R) in B.
    destruct (nth_error (ro_nodes r) (snd c)) as [n|] eqn:N; [|apply nth_error_None in N; lia].
    exists n. split; [exists r; auto|].
    destruct (import_spec l inf ld_im) as (_ & I2 & _).
    split; [exact (route_nodes_valid _ _ _ _ I2 P n (nth_error_In _ _ N))|].
    exists sr. split; [exact E|]. rewrite (proj1 (to_sroute_fields _ _ _ _ T)), nth_error_map, N. reflexivity.
  Qed.
  Lemma node_of_fun c n m : node_of inf c n -> node_of inf c m -> n = m.
  Proof. intros (r & R & N) (r' & R' & M). congruence. Qed.
  Lemma node_of_valid c n : node_of inf c n -> In n (all_nodes (inf_graph inf)) /\
    RouteSpec.cell_node srs c (node_id (inf_graph inf) n).
  Proof.
    intros (r & R & N). destruct ld_lines as [lines H].
    destruct (cell_node_ex c) as (m & (r' & R' & M) & V).
    - apply in_seq. rewrite (srs_len _ _ _ H). split; [lia|]. apply nth_error_Some. congruence.
    - rewrite (len_at _ _ _ H _ _ R). apply nth_error_Some. congruence.
    - assert (m = n) by congruence. subst m. exact V.
  Qed.
  Lemma cell_node_is c n : In n (all_nodes (inf_graph inf)) ->
    (RouteSpec.cell_node srs c (node_id (inf_graph inf) n) <-> node_of inf c n).
  Proof.
    intros V. split.
    - intros (sr & E & K). destruct ld_lines as [lines H].
      destruct (route_at _ _ _ _ ld_im H (fst c) sr E) as (st & x & r & X & R & T & P & C).
      rewrite (proj1 (to_sroute_fields _ _ _ _ T)), nth_error_map in K.
      destruct (nth_error (ro_nodes r) (snd c)) as [m|] eqn:M; [|discriminate]. cbn in K. injection K as K.
      destruct (node_of_valid c m) as [Vm _]; [exists r; auto|].
      rewrite <- (node_id_inj _ m n Vm V K). exists r. auto.
    - intros N. apply (node_of_valid c n N).
  Qed.

  Lemma route_srs r s : In r (il_routes (ld_il ld)) -> In s (RouteModel.ir_srs r) -> s < List.length srs.
  Proof.
    intros R S. destruct (ld_proper r R) as [W _]. destruct (RouteSpec.wf_srs _ _ W s S) as (sr & E & _).
    apply nth_error_Some. unfold RouteSpec.sr_of in E. congruence.
  Qed.
  Lemma nodes_ex r : In r (il_routes (ld_il ld)) -> exists p, nodes_of ld r p.
  Proof.
    intros R. unfold nodes_of.
    assert (H : forall c, In c (RouteSpec.ir_cells srs r) -> exists n, node_of inf c n).
    { intros [s i] C. apply ir_cells_in in C. apply cells_in in C. destruct C as [C1 C2].
      destruct (cell_node_ex (s, i)) as (n & N & _); [apply in_seq; cbn; pose proof (route_srs r s R C1); lia|exact C2|eauto]. }
    induction (RouteSpec.ir_cells srs r) as [|c cs IH]; [exists []; constructor|].
    destruct IH as [p P]; [intros c' C'; apply H; right; exact C'|].
    destruct (H c (or_introl eq_refl)) as [n N]. exists (n :: p). constructor; auto.
  Qed.
  Lemma route_connected r : In r (il_routes (ld_il ld)) -> RouteSpec.connected srg (RouteModel.ir_srs r).
  Proof.
    intros R. destruct (ld_gen r R) as [(s & mid & t & -> & C & _)|[(s & m1 & x & y & m2 & -> & _)|[(s & x & m & -> & _)|(s & -> & _)]]];
      [exact C|exact I|exact I|exact I].
  Qed.
  Lemma nth_slice {A} a b (L : list A) k x : nth_error (skipn a (firstn b L)) k = Some x -> nth_error L (a + k) = Some x.
  Proof.
    rewrite TrainIterProofs.nth_error_skipn_add. intros H.
    assert (a + k < b).
    { assert (a + k < List.length (firstn b L)) by (apply nth_error_Some; congruence). rewrite firstn_length in *. lia. }
    rewrite TrainIterProofs.nth_error_firstn_lt in H by assumption. exact H.
  Qed.
  Lemma ir_cells_step r k s i t j : In r (il_routes (ld_il ld)) ->
    nth_error (RouteSpec.ir_cells srs r) k = Some (s, i) -> nth_error (RouteSpec.ir_cells srs r) (S k) = Some (t, j) ->
    (t = s /\ j = S i) \/ (S i = RouteSpec.sr_len srs s /\ j = 0 /\ In t (RouteSpec.succ_of srg s)).
  Proof.
    intros R A B. unfold RouteSpec.ir_cells in A, B. apply nth_slice in A. apply nth_slice in B.
    rewrite Nat.add_succ_r in B. destruct ld_lines as [lines H].
    exact (cells_step _ _ _ _ ld_im H _ (route_connected r R) (fun s => route_srs r s R) _ _ _ _ _ A B).
  Qed.
  Lemma Forall2_nth {A B} (P : A -> B -> Prop) xs ys : Forall2 P xs ys -> forall k y, nth_error ys k = Some y ->
    exists x, nth_error xs k = Some x /\ P x y.
  Proof.
    induction 1 as [|x y xs ys H _ IH]; intros [|k] z E; try discriminate.
    - cbn in E. injection E as <-. exists x. auto.
    - exact (IH k z E).
  Qed.

  Lemma route_unbroken r p : well_drawn (map fst l) -> at_home l -> In r (il_routes (ld_il ld)) -> nodes_of ld r p ->
    unbroken (inf_links inf) p.
  Proof.
    intros WD AH R P k a b A B. unfold nodes_of in P.
    destruct (Forall2_nth _ _ _ P k a A) as ([s i] & Ca & (ra & Ra & Na)).
    destruct (Forall2_nth _ _ _ P (S k) b B) as ([t j] & Cb & (rb & Rb & Nb)). cbn [fst snd] in *.
    destruct (ir_cells_step r k s i t j R Ca Cb) as [[-> ->]|(L & -> & Sc)].
    - assert (rb = ra) by congruence. subst rb.
      destruct ld_lines as [lines H]. destruct (sroute_at _ _ _ H s ra Ra) as (sr & E & T).
      destruct (route_at _ _ _ _ ld_im H s sr E) as (st & x & r' & X & R' & _ & P' & C). assert (r' = ra) by congruence. subst r'.
      destruct P' as (i0 & j0 & a0 & b0 & course & _ & _ & _ & _ & _ & [D _]).
      exact (drive_may_go _ _ _ _ _ D i a b Na Nb).
    - destruct (succ_continues l inf ld_im s t Sc) as (r1 & q1 & R1 & Q1 & Cn). 
      assert (r1 = ra) by congruence. assert (q1 = rb) by congruence. subst r1 q1.
      destruct (next_route l inf WD AH ld_im s ra t rb Ra Rb Cn) as (p0 & n & p' & m & E1 & E2 & E3).
      destruct ld_lines as [lines H]. rewrite (len_at _ _ _ H s ra Ra), E1, app_length in L. cbn in L.
      rewrite E1, nth_error_app2 in Na by lia. replace (i - List.length p0) with 0 in Na by lia. cbn in Na. injection Na as <-.
      rewrite E2 in Nb. cbn in Nb. injection Nb as <-. left. exact E3.
  Qed.

  (* ---- the interlocking routes are the ways between signals ---- *)
  Lemma ld_way cs : (exists r, In r (il_routes (ld_il ld)) /\ RouteSpec.ir_cells srs r = cs) <-> way_between_signals l files inf cs.
  Proof.
    destruct (proj1 (proj2 (load_parts _ _ _ _ LD))) as (lines & PL & MS).
    rewrite <- (way_iff l files inf lines srs ld_im PL MS cs). destruct ld_signals as (MR & SO & NZ). split.
    - intros (r & R & <-). pose proof (ld_gen r R) as G. destruct r as [id a b rs].
      exact (RouteWay.route_is_way srs srg ld_graph_ok ld_indexable MR SO NZ id a b rs G).
    - intros W. destruct (RouteWay.way_is_route srs srg ld_graph_ok MR SO NZ cs W) as (a & b & rs & G & E).
      destruct (RouteGen.gen_spec srs srg ld_graph_ok ld_indexable fuel _ ld_routes) as [_ Q].
      apply Q in G. destruct G as (id & G). exists (RouteModel.mkir id a b rs). split; [exact G|apply E].
  Qed.
  Lemma ld_id k r : nth_error (il_routes (ld_il ld)) k = Some r -> RouteModel.ir_id r = N.of_nat k.
  Proof. apply (RouteGen.gen_spec srs srg ld_graph_ok ld_indexable fuel _ ld_routes). Qed.
  Lemma ld_in r : In r (il_routes (ld_il ld)) <-> nth_error (il_routes (ld_il ld)) (N.to_nat (RouteModel.ir_id r)) = Some r.
  Proof.
    split; [|apply nth_error_In]. intros H. apply In_nth_error in H. destruct H as [k K]. rewrite (ld_id k r K), Nat2N.id. exact K.
  Qed.

  (* ---- tables ---- *)
  Lemma ld_below : PropsRoute.node_ids_below srs (List.length (all_nodes (inf_graph inf))).
  Proof. destruct ld_lines as [lines H]. exact (r_node_ids _ _ _ _ ld_im H). Qed.
  Lemma ld_wf r : In r (il_routes (ld_il ld)) -> RouteSpec.wf_ir srs r.
  Proof. intros R. exact (proj1 (ld_proper r R)). Qed.
  Lemma ld_tables :
    RouteModel.get_halting_at srs (List.length (all_nodes (inf_graph inf))) (il_routes (ld_il ld)) = Ok (il_halting_at (ld_il ld)) /\
    RouteModel.get_starting_at srs (List.length (all_nodes (inf_graph inf))) (il_routes (ld_il ld)) = Ok (il_starting_at (ld_il ld)) /\
    RouteModel.get_ending_at srs (List.length (all_nodes (inf_graph inf))) (il_routes (ld_il ld)) = Ok (il_ending_at (ld_il ld)) /\
    RouteModel.get_sr_to_participating_irs srs (il_routes (ld_il ld)) = Ok (il_participating (ld_il ld)) /\
    RouteModel.get_station_to_irs srs (List.length l) (il_routes (ld_il ld)) = Ok (il_stations (ld_il ld)).
  Proof.
    pose proof (proj2 (proj2 (load_parts _ _ _ _ LD))) as H. unfold get_interlocking in H. inv_bind H.
    destruct x; [discriminate|]. injection H as <-. cbn. auto.
  Qed.
  Lemma row_of t P n : RouteSpec.lists_exactly t (il_routes (ld_il ld)) P -> List.length t = List.length (all_nodes (inf_graph inf)) ->
    In n (all_nodes (inf_graph inf)) ->
    row_lists (inf_graph inf) t n (fun id => exists r, nth_error (il_routes (ld_il ld)) (N.to_nat id) = Some r /\ P r (node_id (inf_graph inf) n)).
  Proof.
    intros LE Len V. unfold row_lists. destruct (nth_error t (N.to_nat (node_id (inf_graph inf) n))) as [row|] eqn:E.
    2:{ apply nth_error_None in E. pose proof (node_id_lt _ _ V). lia. }
    exists row. split; [reflexivity|]. intros id. rewrite (proj2 (LE _ _ E) id), N2Nat.id. split.
    - intros (r & R & <- & Q). exists r. split; [apply ld_in; exact R|exact Q].
    - intros (r & R & Q). exists r. split; [exact (nth_error_In _ _ R)|]. split; [|exact Q]. rewrite (ld_id _ _ R). apply N2Nat.id.
  Qed.
  Lemma row_ext t n P Q : row_lists (inf_graph inf) t n P -> (forall id, P id <-> Q id) -> row_lists (inf_graph inf) t n Q.
  Proof. intros (row & E & H) PQ. exists row. split; [exact E|]. intros id. rewrite H. apply PQ. Qed.

  Lemma hd_node r n : In r (il_routes (ld_il ld)) -> In n (all_nodes (inf_graph inf)) ->
    (RouteSpec.starts_at srs r (node_id (inf_graph inf) n) <-> exists p, nodes_of ld r (n :: p)).
  Proof.
    intros R V. unfold RouteSpec.starts_at. rewrite (cell_node_is _ _ V). destruct (nodes_ex r R) as [p P]. unfold nodes_of in *.
    destruct (RouteSpec.ir_cells srs r) as [|c cs] eqn:E.
    - exfalso. apply (ld_proper r R). exact E.
    - inversion P as [|? m ? ms M1 M2]; subst. cbn [hd]. split.
      + intros H. exists ms. constructor; assumption.
      + intros (p & Hp). inversion Hp; subst. assumption.
  Qed.
  Lemma last_node r n : In r (il_routes (ld_il ld)) -> In n (all_nodes (inf_graph inf)) ->
    (RouteSpec.ends_at srs r (node_id (inf_graph inf) n) <-> exists p, nodes_of ld r (p ++ [n])).
  Proof.
    intros R V. unfold RouteSpec.ends_at. rewrite (cell_node_is _ _ V). destruct (nodes_ex r R) as [p P]. unfold nodes_of in *.
    destruct (@exists_last _ (RouteSpec.ir_cells srs r)) as (cs & c & E).
    - apply (ld_proper r R).
    - rewrite E in *. rewrite last_last. apply Forall2_app_inv_l in P. destruct P as (ms & q & M1 & M2 & ->).
      inversion M2 as [|? m ? ? M3 M4]; subst. inversion M4; subst. split.
      + intros H. exists ms. apply Forall2_app; [exact M1|]. constructor; [exact H|constructor].
      + intros (p & Hp). apply Forall2_app_inv_r in Hp. destruct Hp as (u & v & _ & H2 & E2).
        inversion H2 as [|? ? ? ? H3 H4]; subst. inversion H4; subst. apply app_inj_tail in E2. destruct E2 as [_ ->]. exact H3.
  Qed.
  Lemma halt_node r n : In r (il_routes (ld_il ld)) -> In n (all_nodes (inf_graph inf)) ->
    (RouteSpec.halts_at srs r (node_id (inf_graph inf) n) <->
     exists c q, In c (RouteSpec.ir_cells srs r) /\ node_of inf c n /\ nth_error (inf_routes inf) (fst c) = Some q /\
       (ro_passenger q = Some (snd c) \/ ro_freight q = Some (snd c))).
  Proof.
    intros R V. destruct ld_lines as [lines MS]. unfold RouteSpec.halts_at. split.
    - intros (c & sr & C & E & N & H). apply (cell_node_is _ _ V) in N.
      destruct (route_at _ _ _ _ ld_im MS (fst c) sr E) as (st & x & q & X & Q & T & _).
      destruct (to_sroute_fields _ _ _ _ T) as (_ & _ & _ & T1 & T2 & _). exists c, q. rewrite T1, T2 in H. auto.
    - intros (c & q & C & N & Q & H). destruct (sroute_at _ _ _ MS (fst c) q Q) as (sr & E & T).
      destruct (to_sroute_fields _ _ _ _ T) as (_ & _ & _ & T1 & T2 & _). exists c, sr. rewrite T1, T2.
      split; [exact C|]. split; [exact E|]. split; [apply (cell_node_is _ _ V); exact N|exact H].
  Qed.
  Lemma srs_cells r s : In r (il_routes (ld_il ld)) -> (In s (RouteModel.ir_srs r) <-> exists i, In (s, i) (RouteSpec.ir_cells srs r)).
  Proof.
    intros R. split.
    - intros S'. destruct (ld_proper r R) as (W & NE & Ls & Le). pose proof (route_srs r s R S') as Lv. destruct ld_signals as (_ & _ & NZ).
      destruct r as [id a b rs]. cbn [RouteModel.ir_srs] in *.
      destruct rs as [|x rs]; [destruct S'|]. destruct rs as [|y rs].
      + destruct S' as [->|[]]. destruct (RouteSpec.ir_cells srs (RouteModel.mkir id a b [s])) as [|[s' i] cs] eqn:E; [congruence|].
        assert (C : In (s', i) (RouteSpec.ir_cells srs (RouteModel.mkir id a b [s]))) by (rewrite E; left; reflexivity).
        apply ir_cells_in in C. apply cells_in in C. destruct C as [[<-|[]] _]. exists i. left. reflexivity.
      + destruct (@exists_last _ (y :: rs)) as (mid & t & E); [discriminate|]. rewrite E in *.
        destruct W as [_ W1 W2 W3 _]. cbn [RouteModel.ir_srs RouteModel.ir_start RouteModel.ir_end hd] in *.
        change (x :: mid ++ [t]) with ((x :: mid) ++ [t]) in W3. rewrite last_last in W3.
        rewrite RouteIter.ir_cells_multi by assumption.
        destruct S' as [->|S'].
        * exists a. apply in_or_app. left. apply RouteIter.in_pairs. cbn. lia.
        * apply in_app_or in S'. destruct S' as [S'|[->|[]]].
          -- exists 0. apply in_or_app. right. apply in_or_app. left. unfold RouteSpec.cells_of. apply in_concat.
             eexists. split; [apply in_map; exact S'|]. apply in_map_iff. exists 0. split; [reflexivity|]. apply in_seq. specialize (NZ s Lv). lia.
          -- exists 0. apply in_or_app. right. apply in_or_app. right. apply RouteIter.in_pairs. cbn. lia.
    - intros (i & H). apply ir_cells_in in H. apply cells_in in H. exact (proj1 H).
  Qed.
End LOADED.

(* ---- when loading succeeds ---- *)
Section LOADS.
  Variables (l : list (xstation * list xroute)) (files : list (list LineModel.xml_line))
    (inf : infrastructure) (lines : list (Z * LineModel.line)).
  Hypothesis IM : import_routes l = Ok inf.
  Hypothesis PL : LineModel.parse_lines files = Ok lines.
  Hypothesis LC : lines_cover files inf.

  Lemma etcs_known k r : nth_error (inf_routes inf) k = Some r -> exists b, requires_etcs lines (inf_graph inf) r = Ok b.
  Proof.
    intros R. destruct (import_spec l inf IM) as (_ & _ & _ & Len & D & _).
    destruct (nth_error (routes_of l) k) as [[st x]|] eqn:X.
    2:{ apply nth_error_None in X. assert (k < List.length (inf_routes inf)) by (apply nth_error_Some; congruence). lia. }
    destruct (D k st x r X R) as (_ & _ & C & _).
    pose proof (last_mark _ _ _ (co_etcs_starts _ _ _ _ _ _ C)) as LM.
    unfold requires_etcs. destruct (rev (p_etcs_starts (ro_path r))) as [|i rest]; [eauto|].
    destruct LM as (V & n & N & T). unfold RouteModel.at_. rewrite N. cbn [bind].
    destruct (LC k r n R (nth_error_In _ _ N) T) as (e & sg & (r' & i' & n' & lines' & nr & ln & R' & V' & N' & E' & P' & L' & I' & G') & KT).
    assert (r' = r) by congruence. subst r'. assert (lines' = lines) by congruence. subst lines'.
    assert (i' = i) by exact (last_visit_fun _ _ _ _ V' V). subst i'. assert (n' = n) by congruence. subst n'.
    unfold get_e. unfold elem_at in E'. rewrite E'. cbn [bind]. rewrite KT, L'.
    apply (at_key_in _ _ _ (lines_nodup _ _ PL)) in I'. rewrite I'. cbn [bind]. unfold LineModel.has_signalling. rewrite G'. cbn [bind]. eauto.
  Qed.
  Lemma srs_ex : exists srs, RouteModel.mapM (to_sroute lines (inf_graph inf)) (inf_routes inf) = Ok srs.
  Proof.
    assert (H : forall r, In r (inf_routes inf) -> exists b, requires_etcs lines (inf_graph inf) r = Ok b).
    { intros r R. apply In_nth_error in R. destruct R as [k K]. exact (etcs_known k r K). }
    induction (inf_routes inf) as [|r rs IH]; [exists []; reflexivity|].
    destruct IH as [srs E]; [intros r' R'; apply H; right; exact R'|].
    destruct (H r (or_introl eq_refl)) as [b B]. cbn [RouteModel.mapM]. unfold to_sroute at 1. rewrite B. cbn [bind]. rewrite E. cbn [bind]. eauto.
  Qed.

  Lemma load_total (rank : nat -> nat) fuel :
    (forall s row t, nth_error (RouteModel.g_succ (inf_successors inf)) s = Some row -> In t row ->
       (forall i, ~ signal_at l inf (s, i)) -> ~ needs_etcs files inf s -> rank t < rank s) ->
    (forall s, s < List.length (inf_routes inf) -> rank s < fuel) ->
    exists srs il, RouteModel.mapM (to_sroute lines (inf_graph inf)) (inf_routes inf) = Ok srs /\
      RouteModel.get_interlocking_routes srs (inf_successors inf) fuel = Ok il /\
      load fuel l files = match il with [] => UB | _ => load fuel l files end /\
      (il <> [] -> exists ld, load fuel l files = Ok ld).
  Proof.
    intros RK FU. destruct srs_ex as [srs MS]. exists srs.
    pose proof (r_graph _ _ _ _ IM MS) as GO. pose proof (r_indexable _ _ _ _ IM MS) as AI. pose proof (r_signals _ _ _ _ IM MS) as SO.
    destruct (PropsRoute.C54_terminates srs (inf_successors inf) rank fuel GO AI) as [irs E].
    - intros s t T M NE. unfold RouteSpec.succ_of in T. destruct (nth_error (RouteModel.g_succ (inf_successors inf)) s) as [row|] eqn:Er.
      2:{ rewrite nth_overflow in T by (apply nth_error_None; exact Er). destruct T. }
      rewrite (nth_error_nth _ _ [] Er) in T. apply (RK s row t Er T).
      + intros i Sg. apply (main_iff _ _ _ _ IM MS) in Sg. rewrite M in Sg. destruct Sg.
      + rewrite <- (etcs_iff l files inf lines srs IM PL MS). exact NE.
    - intros s L. apply FU. rewrite <- (srs_len _ _ _ MS). exact L.
    - exists irs. split; [exact MS|]. split; [exact E|].
      assert (PR : Forall (PropsRoute.proper_route srs) irs).
      { apply Forall_forall. intros r R. exact (PropsRoute.C54_routes_proper srs _ fuel _ r GO AI SO E R). }
      assert (WF : forall r, In r irs -> RouteSpec.wf_ir srs r).
      { intros r R. rewrite Forall_forall in PR. exact (proj1 (PR r R)). }
      pose proof (r_node_ids _ _ _ _ IM MS) as NB.
      destruct (PropsRoute.C38_halting_at srs _ irs WF NB) as (t1 & T1 & _).
      destruct (PropsRoute.C38_starting_at srs _ irs PR NB) as (t2 & T2 & _).
      destruct (PropsRoute.C38_ending_at srs _ irs PR NB) as (t3 & T3 & _).
      destruct (PropsRoute.C38_participating srs irs WF) as (t4 & T4 & _).
      destruct (PropsRoute.C38_station srs (List.length l) irs WF (r_stations _ _ _ _ IM MS)) as (t5 & T5 & _).
      assert (LDE : load fuel l files = match irs with [] => UB | _ => Ok (mkloaded inf srs (mkil irs t2 t3 t1 t4 t5)) end).
      { unfold load. rewrite IM. cbn [bind]. rewrite PL. cbn [bind]. rewrite MS. cbn [bind]. unfold get_interlocking.
        rewrite E. cbn [bind]. rewrite T1. cbn [bind]. rewrite T2. cbn [bind]. rewrite T3. cbn [bind]. rewrite T4. cbn [bind].
        rewrite T5. cbn [bind]. destruct irs; reflexivity. }
      rewrite LDE. split; [destruct irs; reflexivity|]. intros NE. destruct irs; [congruence|eauto].
  Qed.

  Lemma way_ex srs fuel irs : RouteModel.mapM (to_sroute lines (inf_graph inf)) (inf_routes inf) = Ok srs ->
    RouteModel.get_interlocking_routes srs (inf_successors inf) fuel = Ok irs ->
    (irs <> [] <-> exists cs, way_between_signals l files inf cs).
  Proof.
    intros MS E. pose proof (r_graph _ _ _ _ IM MS) as GO. pose proof (r_indexable _ _ _ _ IM MS) as AI.
    pose proof (r_signals _ _ _ _ IM MS) as (MR & SO & NZ).
    destruct (RouteGen.gen_spec srs _ GO AI fuel _ E) as [_ G]. split.
    - intros NE. destruct irs as [|[id a b rs] irs]; [congruence|].
      exists (RouteSpec.ir_cells srs (RouteModel.mkir id a b rs)). apply (way_iff l files inf lines srs IM PL MS).
      apply (RouteWay.route_is_way srs _ GO AI MR SO NZ). apply G. exists id. left. reflexivity.
    - intros (cs & W). apply (way_iff l files inf lines srs IM PL MS) in W.
      destruct (RouteWay.way_is_route srs _ GO MR SO NZ cs W) as (a & b & rs & Q & _). apply G in Q. destruct Q as (id & Q).
      intros ->. destruct Q.
  Qed.
End LOADS.
