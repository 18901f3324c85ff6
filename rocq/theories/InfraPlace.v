(* The ends of a section put into the network, and facts about plans *)
From Coq Require Import List Bool NArith QArith Arith String Sorted Permutation Lia.
From Verif Require Import Base PhysModel TextModel InfraModel InfraOrder InfraSpec InfraHeap InfraScan InfraLay.
Import ListNotations.
Local Open Scope nat_scope.

Lemma device_main n : device n = main_id n.
Proof. unfold device, main_id. destruct (sn_name n); reflexivity. Qed.

(* ---- one end ---- *)
Definition d_rise (n : snode) (at_end : bool) (e : elem) : elem :=
  if leading (part_of (sn_name n)) then set_rise S0 at_end e else e.
Definition d_flag (n : snode) (at_end : bool) (e : elem) : elem :=
  match flag_side (sn_name n) with Some s => set_rise s at_end e | None => e end.
Definition d_arcs (n : snode) (e : elem) : elem :=
  match sn_name n with
  | N_CROSS_SWITCH_START_LEFT => set_arcs (sn_branch n) (e_arc_rl e) e
  | N_CROSS_SWITCH_END_LEFT => set_arcs (e_arc_lr e) (sn_branch n) e
  | _ => e
  end.
Definition dress (sec : nat) (ln : N) (n : snode) (at_end : bool) (e : elem) : elem :=
  push_sec sec (set_km_point_and_line (sn_name n) (sn_km n) ln (d_arcs n (d_flag n at_end (d_rise n at_end e)))).

Definition flagged (n : snode) (s : side) : bool :=
  (leading (part_of (sn_name n)) && side_eqb s S0) ||
  match flag_side (sn_name n) with Some s' => side_eqb s s' | None => false end.

Lemma dress_kind sec ln n at_end e :
  e_type (dress sec ln n at_end e) = e_type e /\ e_kind (dress sec ln n at_end e) = e_kind e /\
  e_nb (dress sec ln n at_end e) = e_nb e /\ e_station (dress sec ln n at_end e) = e_station e /\
  e_secs (dress sec ln n at_end e) = e_secs e ++ [sec].
Proof.
  unfold dress, d_arcs, d_flag, d_rise, set_km_point_and_line.
  destruct (sn_name n); cbn; destruct (e_kind e) eqn:K; cbn; rewrite ?K; repeat split; auto.
Qed.
Lemma dress_rise sec ln n at_end e s :
  e_rise (dress sec ln n at_end e) s = if flagged n s then at_end else e_rise e s.
Proof.
  unfold dress, d_arcs, d_flag, d_rise, flagged, set_km_point_and_line.
  destruct (sn_name n); cbn; destruct (e_kind e), s; reflexivity.
Qed.
Lemma dress_line sec ln n at_end e :
  kind_of (stype (sn_name n)) = Some (e_kind e) ->
  e_line (dress sec ln n at_end e) (side_of (sn_name n) at_end) = Some ln /\
  e_km (dress sec ln n at_end e) (side_of (sn_name n) at_end) = sn_km n /\
  (sn_name n <> N_BORDER -> forall s, s <> side_of (sn_name n) at_end ->
     e_line (dress sec ln n at_end e) s = e_line e s /\ e_km (dress sec ln n at_end e) s = e_km e s).
Proof.
  intros K.
  unfold dress, d_arcs, d_flag, d_rise, set_km_point_and_line.
  destruct (sn_name n); cbn in K; injection K as K; cbn; rewrite <- ?K; cbn;
    (destruct at_end; cbn; repeat split; auto; try congruence; intros; rewrite side_eqb_ne; auto).
Qed.
Lemma dress_arc_lr sec ln n at_end e :
  e_arc_lr (dress sec ln n at_end e) =
  match sn_name n with N_CROSS_SWITCH_START_LEFT => sn_branch n | _ => e_arc_lr e end.
Proof.
  unfold dress, d_arcs, d_flag, d_rise, set_km_point_and_line.
  destruct (sn_name n); cbn; destruct (e_kind e); reflexivity.
Qed.
Lemma dress_arc_rl sec ln n at_end e :
  e_arc_rl (dress sec ln n at_end e) =
  match sn_name n with N_CROSS_SWITCH_END_LEFT => sn_branch n | _ => e_arc_rl e end.
Proof.
  unfold dress, d_arcs, d_flag, d_rise, set_km_point_and_line.
  destruct (sn_name n); cbn; destruct (e_kind e); reflexivity.
Qed.

Lemma kind_eqb_refl k : kind_eqb k k = true.
Proof. destruct k; reflexivity. Qed.

Definition border_of (st : nat) (ln : N) (n : snode) (i : nat) (is_start : bool) : list border :=
  match sn_name n with
  | N_BORDER => [mkborder st (sn_station n) (sn_sign n) ln i is_start]
  | _ => []
  end.

Definition placed_graph (g : graph) (i : nat) (sec : nat) (ln : N) (n : snode) : graph :=
  upd_e (upd_e g i (set_km_point_and_line (sn_name n) (sn_km n) ln)) i (push_sec sec).

Lemma emplace_ok g st sec ln n is_start :
  (sn_id n = main_id n <-> leading (part_of (sn_name n)) = true) ->
  (forall i, rp_find (g_rp g) (main_id n) = Some i ->
     exists e, E g i = Some e /\ kind_of (stype (sn_name n)) = Some (e_kind e)) ->
  exists g1 i e, emplace g st ln n is_start = Ok (g1, i) /\
    let g2 := placed_graph g1 i sec ln n in
    (rp_find (g_rp g) (main_id n) = Some i /\ E g i = Some e /\ len g2 = len g \/
     rp_find (g_rp g) (main_id n) = None /\ i = len g /\ len g2 = S (len g) /\
     exists k, kind_of (stype (sn_name n)) = Some k /\ e = fresh st (stype (sn_name n)) k false) /\
    kind_of (stype (sn_name n)) = Some (e_kind e) /\
    E g2 i = Some (dress sec ln n (negb is_start) e) /\
    (forall j, j <> i -> E g2 j = E g j) /\
    g_secs g2 = g_secs g /\
    g_borders g2 = g_borders g ++ border_of st ln n i is_start /\
    rp_find (g_rp g2) (main_id n) = Some i /\ rp_find (g_rp g2) (sn_id n) = Some i /\
    (forall id, id <> main_id n -> id <> sn_id n -> rp_find (g_rp g2) id = rp_find (g_rp g) id).
Proof.
  intros Hlead Hold.
  destruct (stype_kind (sn_name n)) as (k & Hk & _).
  (* get or create *)
  assert (H0 : exists g0 i e,
    get_or_create_element g st (stype (sn_name n)) (main_id n) false = Ok (g0, i) /\
    (rp_find (g_rp g) (main_id n) = Some i /\ E g i = Some e /\ len g0 = len g \/
     rp_find (g_rp g) (main_id n) = None /\ i = len g /\ len g0 = S (len g) /\
     exists k, kind_of (stype (sn_name n)) = Some k /\ e = fresh st (stype (sn_name n)) k false) /\
    kind_of (stype (sn_name n)) = Some (e_kind e) /\ E g0 i = Some e /\
    (forall j, j <> i -> E g0 j = E g j) /\ g_secs g0 = g_secs g /\ g_borders g0 = g_borders g /\
    rp_find (g_rp g0) (main_id n) = Some i /\
    (forall id, id <> main_id n -> rp_find (g_rp g0) id = rp_find (g_rp g) id)).
  { unfold get_or_create_element. destruct (rp_find (g_rp g) (main_id n)) as [i|] eqn:R.
    - destruct (Hold i eq_refl) as (e & He & Ke). exists g, i, e. repeat split; auto.
    - exists (app_e g (fresh st (stype (sn_name n)) k false) (main_id n)), (len g), (fresh st (stype (sn_name n)) k false).
      split; [apply create_ok; auto|]. split.
      { right. repeat split; auto. { apply len_app. } eauto. }
      split; [auto|]. split; [apply E_app_new|]. split.
      { intros j Hj. destruct (Nat.lt_ge_cases j (len g)).
        - apply E_app_old; auto.
        - rewrite !E_ge; auto. rewrite len_app. lia. }
      split; [reflexivity|]. split; [reflexivity|]. cbn [app_e g_rp rp_find].
      rewrite N.eqb_refl. split; [reflexivity|]. intros id Hid.
      destruct (N.eqb_spec (main_id n) id); congruence. }
  destruct H0 as (g0 & i & e & Hg & Hc & Ke & He & Hf & Hs & Hb & Hr & Hro).
  set (g1 := if N.eqb (sn_id n) (main_id n) then upd_e g0 i (set_rise S0 (negb is_start)) else add_rp g0 (sn_id n) i).
  assert (H1 : E g1 i = Some (d_rise n (negb is_start) e) /\ (forall j, j <> i -> E g1 j = E g0 j) /\ len g1 = len g0 /\
               g_secs g1 = g_secs g0 /\ g_borders g1 = g_borders g0 /\
               rp_find (g_rp g1) (main_id n) = Some i /\ rp_find (g_rp g1) (sn_id n) = Some i /\
               forall id, id <> main_id n -> id <> sn_id n -> rp_find (g_rp g1) id = rp_find (g_rp g0) id).
  { unfold g1, d_rise. destruct (N.eqb_spec (sn_id n) (main_id n)) as [X|X].
    - rewrite (proj1 Hlead X). split; [apply E_upd_eq; auto|]. split; [intros; apply E_upd_ne; auto|].
      split; [apply len_upd|]. cbn [upd_e g_rp g_secs g_borders]. repeat split; auto. congruence.
    - destruct (leading (part_of (sn_name n))) eqn:Le; [exfalso; apply X, Hlead; auto|].
      split; [exact He|]. split; [reflexivity|]. split; [reflexivity|].
      cbn [add_rp g_rp g_secs g_borders rp_find]. rewrite N.eqb_refl. repeat split; auto.
      + destruct (N.eqb_spec (sn_id n) (main_id n)); auto.
      + intros id I1 I2. destruct (N.eqb_spec (sn_id n) id); congruence. }
  destruct H1 as (H1e & H1f & H1l & H1s & H1b & H1m & H1i & H1o).
  set (g2 := match flag_side (sn_name n) with Some s => upd_e g1 i (set_rise s (negb is_start)) | None => g1 end).
  assert (H2 : E g2 i = Some (d_flag n (negb is_start) (d_rise n (negb is_start) e)) /\
               (forall j, j <> i -> E g2 j = E g1 j) /\ len g2 = len g1 /\
               g_secs g2 = g_secs g1 /\ g_borders g2 = g_borders g1 /\ g_rp g2 = g_rp g1).
  { unfold g2, d_flag. destruct (flag_side (sn_name n)).
    - split; [apply E_upd_eq; auto|]. split; [intros; apply E_upd_ne; auto|].
      split; [apply len_upd|]. auto.
    - split; [auto|]. split; [reflexivity|]. auto. }
  destruct H2 as (H2e & H2f & H2l & H2s & H2b & H2r).
  set (g3 := match sn_name n with
           | N_CROSS_SWITCH_START_LEFT =>
               upd_e g2 i (fun e => set_arcs (sn_branch n) (e_arc_rl e) e)
           | N_CROSS_SWITCH_END_LEFT =>
               upd_e g2 i (fun e => set_arcs (e_arc_lr e) (sn_branch n) e)
           | _ => g2
           end).
  assert (H3 : E g3 i = Some (d_arcs n (d_flag n (negb is_start) (d_rise n (negb is_start) e))) /\
               (forall j, j <> i -> E g3 j = E g2 j) /\ len g3 = len g2 /\
               g_secs g3 = g_secs g2 /\ g_borders g3 = g_borders g2 /\ g_rp g3 = g_rp g2).
  { unfold g3, d_arcs. destruct (sn_name n);
      try (split; [exact H2e|split; [reflexivity|auto]]);
      (split; [erewrite E_upd_eq by exact H2e; reflexivity|]; split; [intros; apply E_upd_ne; auto|];
      split; [apply len_upd|]; auto). }
  destruct H3 as (H3e & H3f & H3l & H3s & H3b & H3r).
  set (g4 := match sn_name n with
           | N_BORDER => mkgraph (g_elems g3) (g_rp g3) (g_secs g3)
                           (g_borders g3 ++ [mkborder st (sn_station n) (sn_sign n) ln i is_start])
           | _ => g3
           end).
  assert (H4 : g_elems g4 = g_elems g3 /\ g_secs g4 = g_secs g3 /\ g_rp g4 = g_rp g3 /\
               g_borders g4 = g_borders g3 ++ border_of st ln n i is_start).
  { unfold g4, border_of. destruct (sn_name n); cbn; rewrite ?app_nil_r; auto. }
  destruct H4 as (H4e & H4s & H4r & H4b).
  assert (EE : forall j, E g4 j = E g3 j) by (intros j; unfold E; rewrite H4e; reflexivity).
  assert (LL : len g4 = len g3) by (unfold len; rewrite H4e; reflexivity).
  exists g4, i, e. split.
  { unfold emplace. cbv zeta. rewrite Hg. cbn [bind]. rewrite (get_e_ok _ _ _ He). cbn [bind].
    rewrite Ke, kind_eqb_refl. reflexivity. }
  unfold placed_graph. rewrite !len_upd.
  split. { destruct Hc as [(C1 & C2 & C3)|(C1 & C2 & C3 & C4)]; [left|right].
    - split; [auto|]. split; [auto|]. congruence.
    - split; [auto|]. split; [auto|]. split; [congruence|auto]. }
  split; [auto|]. split.
  { unfold dress. apply E_upd_eq, E_upd_eq. rewrite EE. exact H3e. }
  split. { intros j Hj. rewrite !E_upd_ne by auto. rewrite EE, H3f, H2f, H1f, Hf; auto. }
  cbn [upd_e g_rp g_secs g_borders]. rewrite H4r, H3r, H2r.
  split; [congruence|]. split; [congruence|]. split; [auto|]. split; [auto|].
  intros id I1 I2. rewrite H1o, Hro; auto.
Qed.

(* ---- facts about a plan ---- *)
Lemma NoDup_concat_nth {A} (ls : list (list A)) : NoDup (concat ls) ->
  forall i j a b x, nth_error ls i = Some a -> nth_error ls j = Some b -> In x a -> In x b -> i = j.
Proof.
  induction ls as [|l ls IH]; intros H i j a b x Ha Hb Xa Xb; [destruct i; discriminate|].
  cbn in H. assert (D : forall y k c, In y l -> nth_error ls k = Some c -> In y c -> False).
  { intros y k c Y K C. clear - H Y K C. induction l as [|z l IHl]; [destruct Y|].
    cbn in H. inversion H as [|? ? N1 N2]; subst. destruct Y as [->|Y]; [|apply IHl; auto].
    apply N1. apply in_or_app. right. apply in_concat. exists c. split; auto. eapply nth_error_In; eauto. }
  assert (H' : NoDup (concat ls)).
  { clear - H. induction l; cbn in H; auto. inversion H; auto. }
  destruct i as [|i], j as [|j]; auto.
  - cbn in Ha. injection Ha as <-. exfalso. eapply D; eauto.
  - cbn in Hb. injection Hb as <-. exfalso. eapply D; eauto.
  - f_equal. eapply IH; eauto.
Qed.
Lemma NoDup_concat_in {A} (ls : list (list A)) a : NoDup (concat ls) -> In a ls -> NoDup a.
Proof.
  induction ls as [|l ls IH]; intros H Hi; [destruct Hi|]. destruct Hi as [<-|Hi].
  - cbn in H. eapply NoDup_left; eauto.
  - apply IH; auto. cbn in H. clear - H. induction l; cbn in H; auto. inversion H; auto.
Qed.

Section PLAN.
  Variable l : list xstation.
  Hypothesis WD : well_drawn l.

  Definition ids_of (x : xsection) : list N :=
    sn_id (xs_start x) :: sn_id (xs_end x) :: map tn_id (xs_track x).
  Lemma all_ids_eq : all_ids l = concat (map (fun p => ids_of (snd p)) (plan l)).
  Proof. reflexivity. Qed.
  Lemma ids_nth s x : section_at l s x -> nth_error (map (fun p => ids_of (snd p)) (plan l)) s = Some (ids_of x).
  Proof. intros (st & H). rewrite nth_error_map, H. reflexivity. Qed.
  Lemma ids_section s s' x x' i : section_at l s x -> section_at l s' x' -> In i (ids_of x) -> In i (ids_of x') -> s = s'.
  Proof.
    intros H H' I I'. pose proof (wd_ids l WD) as ND. rewrite all_ids_eq in ND.
    eapply NoDup_concat_nth; [exact ND|apply ids_nth|apply ids_nth| |]; eauto.
  Qed.
  Lemma section_fun s x x' : section_at l s x -> section_at l s x' -> x = x'.
  Proof. intros (st & H) (st' & H'). congruence. Qed.
  Lemma ids_nodup s x : section_at l s x -> NoDup (ids_of x).
  Proof.
    intros (st & H). pose proof (wd_ids l WD) as ND. rewrite all_ids_eq in ND.
    eapply NoDup_concat_in; [exact ND|]. apply in_map_iff. exists (st, x). split; auto.
    eapply nth_error_In; eauto.
  Qed.
  Lemma node_id_in p n : node_at l p n -> exists x, section_at l (fst p) x /\ In (sn_id n) (ids_of x).
  Proof. intros (x & H & ->). exists x. split; auto. destruct (snd p); unfold ids_of; cbn; auto. Qed.
  Lemma node_fun p n m : node_at l p n -> node_at l p m -> n = m.
  Proof. intros (x & H & ->) (x' & H' & ->). rewrite (section_fun _ _ _ H H'). reflexivity. Qed.
  Lemma place_inj p q n m : node_at l p n -> node_at l q m -> sn_id n = sn_id m -> p = q.
  Proof.
    intros Hn Hm H. destruct (node_id_in _ _ Hn) as (x & Hx & I). destruct (node_id_in _ _ Hm) as (y & Hy & J).
    rewrite <- H in J. pose proof (ids_section _ _ _ _ _ Hx Hy I J) as F.
    destruct p as [s a], q as [s' b]. cbn in *. subst s'. pose proof (section_fun _ _ _ Hx Hy). subst y.
    pose proof (ids_nodup _ _ Hx) as ND. unfold ids_of in ND. inversion ND as [|? ? N1 N2]; subst.
    destruct Hn as (x1 & X1 & ->), Hm as (x2 & X2 & ->). cbn in *.
    rewrite (section_fun _ _ _ X1 Hx), (section_fun _ _ _ X2 Hx) in H.
    destruct a, b; auto; exfalso; apply N1; left; congruence.
  Qed.
  Lemma track_not_node s x n p m : section_at l s x -> In n (xs_track x) -> node_at l p m -> tn_id n <> sn_id m.
  Proof.
    intros Hs Hn Hm H. destruct (node_id_in _ _ Hm) as (y & Hy & J). rewrite <- H in J.
    assert (I : In (tn_id n) (ids_of x)) by (right; right; apply in_map; auto).
    pose proof (ids_section _ _ _ _ _ Hs Hy I J). subst s. pose proof (section_fun _ _ _ Hs Hy). subst y.
    pose proof (ids_nodup _ _ Hs) as ND. unfold ids_of in ND. inversion ND as [|? ? N1 N2]; subst.
    inversion N2 as [|? ? N3 N4]; subst.
    destruct Hm as (x2 & X2 & ->). rewrite (section_fun _ _ _ X2 Hs) in H.
    destruct (snd p).
    - apply N3. rewrite <- H. apply in_map; auto.
    - apply N1. right. rewrite <- H. apply in_map; auto.
  Qed.
  Lemma track_section s s' x x' n n' : section_at l s x -> section_at l s' x' -> In n (xs_track x) ->
    In n' (xs_track x') -> tn_id n = tn_id n' -> s = s'.
  Proof.
    intros H H' I I' T. eapply ids_section; [exact H|exact H'| |]; right; right.
    - apply in_map; eauto.
    - rewrite T. apply in_map; auto.
  Qed.
  Lemma track_ids s x : section_at l s x -> NoDup (map tn_id (xs_track x)).
  Proof.
    intros H. apply ids_nodup in H. unfold ids_of in H. inversion H as [|? ? _ H2]; subst.
    inversion H2; auto.
  Qed.
  Lemma track_range s x n : section_at l s x -> In n (xs_track x) -> tn_id n <> RP_MAX.
  Proof.
    intros (st & H) Hn. pose proof (wd_range l WD (tn_id n)) as R.
    assert (I : In (tn_id n) (all_ids l)).
    { rewrite all_ids_eq. apply in_concat. exists (ids_of x). split.
      - apply in_map_iff. exists (st, x). split; auto. eapply nth_error_In; eauto.
      - right; right. apply in_map; auto. }
    specialize (R I). unfold RP_MAX. lia.
  Qed.
  Lemma node_range p n : node_at l p n -> sn_id n <> RP_MAX.
  Proof.
    intros Hn. destruct (node_id_in _ _ Hn) as (x & (st & H) & J). pose proof (wd_range l WD (sn_id n)) as R.
    assert (I : In (sn_id n) (all_ids l)).
    { rewrite all_ids_eq. apply in_concat. exists (ids_of x). split; auto.
      apply in_map_iff. exists (st, x). split; auto. eapply nth_error_In; eauto. }
    specialize (R I). unfold RP_MAX. lia.
  Qed.
  (* the leading node of a device *)
  Lemma lead_self p n : node_at l p n -> (sn_id n = main_id n <-> leading (part_of (sn_name n)) = true).
  Proof.
    intros Hn. rewrite <- device_main. split.
    - intros H. destruct (wd_lead l WD p n Hn) as (q & m & Hq & Hm & Le & _).
      assert (p = q) by (eapply place_inj; eauto; congruence). subst q.
      rewrite (node_fun _ _ _ Hn Hq). exact Le.
    - unfold device. intros ->. reflexivity.
  Qed.
  Lemma same_device_type p q n m : node_at l p n -> node_at l q m -> device n = device m ->
    stype (sn_name n) = stype (sn_name m).
  Proof.
    intros Hn Hm H. destruct (wd_lead l WD p n Hn) as (p' & n' & A1 & A2 & _ & A3).
    destruct (wd_lead l WD q m Hm) as (q' & m' & B1 & B2 & _ & B3).
    assert (p' = q') by (eapply place_inj; eauto; congruence). subst q'.
    rewrite (node_fun _ _ _ A1 B1) in A3. congruence.
  Qed.
  Lemma device_not_track p n s x t : node_at l p n -> section_at l s x -> In t (xs_track x) -> tn_id t <> device n.
  Proof.
    intros Hn Hs Ht. destruct (wd_lead l WD p n Hn) as (p' & n' & A1 & A2 & _).
    rewrite <- A2. eapply track_not_node; eauto.
  Qed.
  Lemma device_range p n : node_at l p n -> device n <> RP_MAX.
  Proof.
    intros Hn. destruct (wd_lead l WD p n Hn) as (p' & n' & A1 & A2 & _). rewrite <- A2.
    eapply node_range; eauto.
  Qed.
  (* an id of a node that is also the name of a device *)
  Lemma id_is_device p q n m : node_at l p n -> node_at l q m -> sn_id n = device m -> device n = device m.
  Proof.
    intros Hn Hm H. destruct (wd_lead l WD q m Hm) as (q' & m' & A1 & A2 & A3 & _).
    assert (p = q') by (eapply place_inj; eauto; congruence). subst q'.
    rewrite (node_fun _ _ _ Hn A1). unfold device. rewrite A3. exact A2.
  Qed.
End PLAN.

(* sides of different parts *)
Lemma side_part n m a b : stype n = stype m -> part_of n <> part_of m -> side_of n a <> side_of m b.
Proof. destruct n, m; cbn; intros H X; try discriminate; try congruence. Qed.
Lemma whole_part n m : stype n = stype m -> part_of n = Whole -> part_of m = Whole.
Proof. destruct n, m; cbn; intros; congruence. Qed.
Lemma flagged_side n a s : part_of (sn_name n) <> Whole -> flagged n s = true -> s = side_of (sn_name n) a.
Proof. unfold flagged. destruct (sn_name n), s; cbn; congruence. Qed.
Lemma whole_border n : part_of n <> Whole -> n <> N_BORDER.
Proof. destruct n; cbn; congruence. Qed.
