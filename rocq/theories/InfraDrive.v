(* The nodes of a network: connect_nodes on the network of a whole plan *)
From Coq Require Import List Bool NArith ZArith QArith Arith String Sorted Permutation Lia.
From Verif Require Import Base PhysModel TextModel InfraModel InfraOrder InfraSpec InfraHeap InfraScan InfraLay InfraLaid InfraPlace InfraAdd InfraInv InfraBorder.
Import ListNotations.
Local Open Scope nat_scope.

Definition tslot (d : bool) : slot := if d then Top else Bot.
Definition lslot (d : bool) : slot := if d then Lft else Rgt.
(* the node of a track element in a direction *)
Definition rnode (g : graph) (d : bool) (z : nat) : node :=
  (z, match E g z with
      | Some e => match e_kind e with KUndirected => tslot d | _ => Top end
      | None => Top
      end).

Lemma last_in' {A} (q : list A) a : q <> [] -> In (last q a) q.
Proof. intros H. destruct (exists_last H) as (r & z & ->). rewrite last_last. apply in_or_app; right; left; auto. Qed.

Lemma connect_all g : (forall i e, E g i = Some e -> exists lk, connect_elem g i e = Ok lk) ->
  exists ls, connect_nodes g = Ok ls /\
    forall i e lk, E g i = Some e -> connect_elem g i e = Ok lk -> nth_error ls i = Some lk.
Proof.
  intros H. unfold connect_nodes.
  assert (G : forall es k, (forall j, nth_error es j = E g (k + j)) ->
     exists ls, connect_from g k es = Ok ls /\
       forall j e lk, nth_error es j = Some e -> connect_elem g (k + j) e = Ok lk -> nth_error ls j = Some lk).
  { induction es as [|e es IH]; intros k Hk; cbn [connect_from].
    - exists []. split; auto. intros [|j] e lk X; discriminate.
    - destruct (H k e) as [lk Hlk].
      { specialize (Hk 0). rewrite Nat.add_0_r in Hk. cbn in Hk. auto. }
      rewrite Hlk. cbn [bind].
      destruct (IH (S k)) as (ls & H1 & H2).
      { intros j. specialize (Hk (S j)). cbn in Hk. rewrite Hk. f_equal. lia. }
      rewrite H1. cbn [bind]. exists (lk :: ls). split; auto.
      intros [|j] e' lk' X Y; cbn in *.
      + injection X as <-. rewrite Nat.add_0_r in Y. congruence.
      + apply (H2 j e' lk' X). rewrite Nat.add_succ_r in Y. exact Y. }
  destruct (G (g_elems g) 0) as (ls & H1 & H2); [reflexivity|]. exists ls. split; [exact H1|].
  intros i e lk X Y. exact (H2 i e lk X Y).
Qed.

Section DRIVE.
  Variable l : list xstation.
  Hypothesis WD : well_drawn l.
  Variables (g0 g : graph) (dev : place -> nat) (run : nat -> bool -> list nat).
  Hypothesis I : Inv l (length (plan l)) g0 dev run.
  Hypothesis B : closed_borders l dev g0 g.
  Let K := length (plan l).

  Lemma frame_dev p n : node_at l p n -> sn_name n <> N_BORDER -> E g (dev p) = E g0 (dev p).
  Proof.
    intros Hn Hb. apply (cb_frame _ _ _ _ B). intros p' q H X.
    destruct (partners_names l WD g0 dev run I _ _ H) as (n' & m & X1 & X2 & X3 & X4 & X5).
    assert (p' = p).
    { eapply (dev_whole l WD g0 dev run I p' p n' n); eauto. rewrite X3. reflexivity. }
    subst p'. rewrite (node_fun l _ _ _ X1 Hn) in X3. auto.
  Qed.
  Lemma frame_run s d z : s < K -> In z (run s d) -> E g z = E g0 z.
  Proof.
    intros Hs Hz. apply (cb_frame _ _ _ _ B). intros p' q H X.
    destruct (partners_names l WD g0 dev run I _ _ H) as (n' & m & X1 & X2 & X3 & X4 & X5).
    subst z. exact (dev_not_run l g0 dev run I _ _ _ _ X1 Hs Hz).
  Qed.

  Record dfacts (p : place) (n : snode) (e : elem) : Prop := {
    df_E : E g (dev p) = Some e;
    df_type : e_type e = stype (sn_name n);
    df_kind : kind_of (stype (sn_name n)) = Some (e_kind e);
    df_rise : forall s, flagged n s = true -> e_rise e s = snd p;
    df_line : forall ln, line_at l p ln -> e_line e (side_of (sn_name n) (snd p)) = Some ln;
    df_km : e_km e (side_of (sn_name n) (snd p)) = sn_km n;
    df_nb : forall r, e_nb e (side_of (sn_name n) (snd p)) r =
       if Bool.eqb r (snd p) then Some (last (run (fst p) r) 0) else hd_error (run (fst p) r);
    df_free : sn_name n = N_BORDER -> forall s r v, s <> side_of (sn_name n) (snd p) -> e_nb e s r = Some v ->
       exists q m, node_at l q m /\ v = dev q;
    df_lr : sn_name n = N_CROSS_SWITCH_START_LEFT -> e_arc_lr e = sn_branch n;
    df_rl : sn_name n = N_CROSS_SWITCH_END_LEFT -> e_arc_rl e = sn_branch n }.

  Lemma dev_fact p n : node_at l p n -> exists e, dfacts p n e.
  Proof.
    intros Hn. destruct (in_dev _ _ _ _ _ I p n Hn (place_lt l _ _ Hn)) as (e & X1 & X2 & X3 & X4 & X5 & X6 & X7 & X8 & X9 & X10 & X11 & X12).
    assert (D : sn_name n = N_BORDER \/ sn_name n <> N_BORDER) by (destruct (sn_name n); auto; right; discriminate).
    assert (Free : sn_name n = N_BORDER -> forall s r v, s <> side_of (sn_name n) (snd p) -> e_nb e s r <> Some v).
    { intros DB s r v Ns Hv.
      destruct (in_slots _ _ _ _ _ I p n e s r v Hn (place_lt l _ _ Hn) X1 Hv) as (q & m & Y1 & Y2 & Y3 & Y4 & Y5).
      assert (q = p) by (symmetry; eapply (dev_whole l WD g0 dev run I p q n m); eauto; rewrite DB; reflexivity).
      subst q. rewrite (node_fun l _ _ _ Y1 Hn) in Y4. congruence. }
    assert (Old : E g (dev p) = Some e -> dfacts p n e).
    { intros; split; auto. intros DB s r v Ns Hv. exfalso. exact (Free DB s r v Ns Hv). }
    destruct D as [D|D]; [|exists e; apply Old; rewrite (frame_dev p n Hn D); auto].
    (* a border: connected or not *)
    assert (P : (exists q, partners l p q) \/ E g (dev p) = Some e).
    { destruct (in_dec string_dec (sn_station n) (map st_ds100 l)) as [S1|S1].
      - left. destruct (wd_border l WD p n Hn D S1) as (q & Q & _). eauto.
      - right. rewrite (cb_frame _ _ _ _ B); auto. intros p' q H X.
        destruct (partners_names l WD g0 dev run I _ _ H) as (n' & m & Y1 & Y2 & Y3 & Y4 & Y5).
        assert (p' = p) by (eapply (dev_whole l WD g0 dev run I p' p n' n); eauto; rewrite Y3; reflexivity).
        subst p'. apply S1.
        destruct H as (n2 & m2 & ln & sp & sq & xp & xq & H1 & H2 & H3 & H4 & H5 & H6 & H7 & H8 & H9 & H10 & H11 & H12 & H13).
        rewrite (node_fun l _ _ _ Hn H1), H12. apply in_map. eapply nth_error_In; eauto. }
    destruct P as [(q & Q)|P]; [|exists e; auto].
    destruct (cb_border _ _ _ _ B p q e Q X1) as (e' & xs & e1 & Z1 & Z2 & Z3 & Z4).
    apply core_inv in Z3. destruct Z3 as (C1 & C2 & C3 & C4 & C5 & C6 & C7 & C8 & C9).
    exists e'. subst e'. split; auto; cbn [add_secs e_type e_kind e_rise e_line e_nb e_arc_lr e_arc_rl]; try congruence.
    - intros s Hs. rewrite C3. auto.
    - intros ln Hln. rewrite C4. auto.
    - change (e_km (add_secs xs e1)) with (e_km e1). rewrite C5. exact X8.
    - intros r. rewrite Z4, side_eqb_ne; [auto|]. rewrite D. unfold side_of, free_side; cbn. destruct (snd p); discriminate.
    - intros _ s r v Ns. rewrite Z4. destruct (side_eqb s (free_side (snd p))).
      + intros X. injection X as <-. destruct (partners_names l WD g0 dev run I _ _ Q) as (_ & m & _ & Hm & _). eauto.
      + intros X. exfalso. exact (Free D s r v Ns X).
  Qed.

  Lemma slot_fact p n e s r v : node_at l p n -> dfacts p n e -> sn_name n <> N_BORDER -> e_nb e s r = Some v ->
    exists q m, node_at l q m /\ dev q = dev p /\ s = side_of (sn_name m) (snd q) /\ In v (run (fst q) r).
  Proof.
    intros Hn D Hb Hv. pose proof (df_E _ _ _ D) as He. rewrite (frame_dev p n Hn Hb) in He.
    destruct (in_slots _ _ _ _ _ I p n e s r v Hn (place_lt l _ _ Hn) He Hv) as (q & m & Y1 & Y2 & Y3 & Y4 & Y5).
    eauto 7.
  Qed.

  (* the kilometrage of a device, seen from its neighbour in a section *)
  Lemma km_seen p n e r v : node_at l p n -> dfacts p n e ->
    e_nb e (side_of (sn_name n) (snd p)) r = Some v -> get_km e v = Ok (sn_km n).
  Proof.
    intros Hn D Hv. pose proof (place_lt l _ _ Hn) as L.
    assert (Vr : In v (run (fst p) r)).
    { rewrite (df_nb _ _ _ D) in Hv. pose proof (in_some _ _ _ _ _ I (fst p) r L) as NE.
      destruct (Bool.eqb r (snd p)).
      - injection Hv as <-. apply last_in', NE.
      - destruct (run (fst p) r); [discriminate|]. cbn in Hv. injection Hv as ->. left; reflexivity. }
    assert (At : at_side e (side_of (sn_name n) (snd p)) v = true).
    { unfold at_side, nb_is. destruct r; rewrite Hv, Nat.eqb_refl; [reflexivity|apply orb_true_r]. }
    assert (Bd : sn_name n = N_BORDER \/ sn_name n <> N_BORDER) by (destruct (sn_name n); auto; right; discriminate).
    assert (Oth : forall s r', s <> side_of (sn_name n) (snd p) -> e_nb e s r' <> Some v \/ sn_name n = N_BORDER).
    { intros s r' Ns. destruct Bd as [Bd|Bd]; [right; exact Bd|left]. intros X.
      destruct (slot_fact p n e s r' v Hn D Bd X) as (q & m & Hm & Dq & Sq & Vq).
      pose proof (place_lt l _ _ Hm) as Lq.
      pose proof (run_section l g0 dev run I (fst p) (fst q) r r' v L Lq Vr Vq) as F.
      assert (Q : q = p \/ q = (fst p, negb (snd p))).
      { destruct q as [a b], p as [a' b']. cbn in F. subst a'. cbn. destruct b, b'; auto. }
      destruct Q as [-> | ->].
      - rewrite (node_fun l _ _ _ Hm Hn) in Sq. congruence.
      - pose proof (proj1 (dev_same l g0 dev run I _ _ _ _ Hm Hn) Dq) as Dd.
        destruct (node_end_inv l p n Hn) as (st & x & Hx & En). destruct (node_end_inv l _ m Hm) as (st' & x' & Hx' & Em).
        cbn [fst snd] in *. assert (x' = x) by congruence. subst x'.
        apply (wd_ends l WD (fst p) x); [exists st; exact Hx|]. subst n m.
        destruct (snd p); cbn in Dd; congruence. }
    assert (Far : forall s, s <> side_of (sn_name n) (snd p) -> sn_name n <> N_BORDER -> at_side e s v = false).
    { intros s Ns Nb. unfold at_side.
      destruct (Oth s true Ns) as [X|X]; [|congruence]. destruct (Oth s false Ns) as [Y|Y]; [|congruence].
      rewrite (nb_is_false _ _ _ _ X), (nb_is_false _ _ _ _ Y). reflexivity. }
    assert (Nv : is_neighbour e v = true).
    { apply is_neighbour_in with (s := side_of (sn_name n) (snd p)) (r := r); [|exact Hv].
      apply slots_in, (df_kind _ _ _ D). }
    pose proof (df_km _ _ _ D) as Km. pose proof (df_kind _ _ _ D) as Kd.
    unfold get_km. rewrite Nv. cbn [sassert bind].
    destruct Bd as [Bd|Bd].
    - rewrite Bd in *. cbn in Kd. injection Kd as Kd. rewrite <- Kd.
      cbn [side_of part_of] in *. f_equal. destruct (snd p) eqn:Sp.
      + assert (at_side e S0 v = false) as ->; [|exact Km].
        assert (F : forall r', e_nb e S0 r' <> Some v).
        { intros r' X. destruct (df_free _ _ _ D) with (s := S0) (r := r') (v := v) as (q & m & Hm & ->); auto.
          - rewrite Bd, Sp. discriminate.
          - exact (dev_not_run l g0 dev run I q m (fst p) r Hm L Vr). }
        unfold at_side. rewrite (nb_is_false _ _ _ _ (F true)), (nb_is_false _ _ _ _ (F false)). reflexivity.
      + rewrite At. exact Km.
    - destruct (sn_name n) eqn:Nm; cbn [stype kind_of] in Kd; injection Kd as Kd; rewrite <- Kd;
        cbn [side_of part_of] in *; f_equal;
        rewrite ?At; try exact Km;
        rewrite ?(Far S0), ?(Far S1), ?(Far S2) by discriminate; rewrite ?At; try exact Km; congruence.
  Qed.

  (* leaving a device *)
  Definition out (p : place) : option node := hd_error (map (rnode g (negb (snd p))) (run (fst p) (negb (snd p)))).
  Lemma get_track s d z i : s < K -> In z (run s d) -> get_node g (Some z) d i = Ok (rnode g d z).
  Proof.
    intros Hs Hz. destruct (run_track l g0 dev run I s d z Hs Hz) as (st & x & e & _ & He & _ & _ & _ & _ & Kd).
    rewrite <- (frame_run s d z Hs Hz) in He.
    unfold get_node. rewrite (get_e_ok _ _ _ He). cbn [bind]. unfold get_node_e, rnode. rewrite He.
    destruct Kd as [[-> _]| ->]; reflexivity.
  Qed.
  Lemma leave p n e i : node_at l p n -> dfacts p n e -> exists w, out p = Some w /\
    get_node g (e_nb e (side_of (sn_name n) (snd p)) (negb (snd p))) (negb (snd p)) i = Ok w.
  Proof.
    intros Hn D. pose proof (place_lt l _ _ Hn) as L. rewrite (df_nb _ _ _ D).
    replace (Bool.eqb (negb (snd p)) (snd p)) with false by (destruct (snd p); reflexivity).
    pose proof (in_some _ _ _ _ _ I (fst p) (negb (snd p)) L) as NE.
    unfold out. destruct (run (fst p) (negb (snd p))) as [|z r] eqn:R; [congruence|].
    exists (rnode g (negb (snd p)) z). split; [reflexivity|]. cbn [hd_error].
    apply (get_track (fst p)); auto. rewrite R. left; auto.
  Qed.
  Lemma out_some p n : node_at l p n -> exists w, out p = Some w.
  Proof. intros Hn. destruct (dev_fact p n Hn) as [e D]. destruct (leave p n e 0 Hn D) as (w & H & _). eauto. Qed.

  (* arriving at a device *)
  Definition arrive (s : nat) (d : bool) : node :=
    match get_node g (Some (dev (s, d))) d (last (run s d) 0) with Ok n => n | _ => (0, Top) end.
  Lemma arrive_eq p n e s : node_at l p n -> dfacts p n e ->
    get_node_e e (dev p) (snd p) (last (run (fst p) (snd p)) 0) = Ok (dev p, s) ->
    get_node g (Some (dev p)) (snd p) (last (run (fst p) (snd p)) 0) = Ok (dev p, s) /\
    arrive (fst p) (snd p) = (dev p, s).
  Proof.
    intros Hn D H.
    assert (G : get_node g (Some (dev p)) (snd p) (last (run (fst p) (snd p)) 0) = Ok (dev p, s)).
    { unfold get_node. rewrite (get_e_ok _ _ _ (df_E _ _ _ D)). exact H. }
    split; auto. unfold arrive. destruct p as [a b]; cbn [fst snd] in *. rewrite G. reflexivity.
  Qed.
  Lemma at_own p n e : node_at l p n -> dfacts p n e ->
    at_side e (side_of (sn_name n) (snd p)) (last (run (fst p) (snd p)) 0) = true.
  Proof.
    intros Hn D. unfold at_side, nb_is. rewrite !(df_nb _ _ _ D). destruct (snd p); cbn; rewrite Nat.eqb_refl; auto.
    apply orb_true_r.
  Qed.
  Lemma at_other p n e s : node_at l p n -> dfacts p n e -> sn_name n <> N_BORDER ->
    s <> side_of (sn_name n) (snd p) -> at_side e s (last (run (fst p) (snd p)) 0) = false.
  Proof.
    intros Hn D Hb Hs. pose proof (place_lt l _ _ Hn) as L.
    assert (G : forall r, nb_is e s r (last (run (fst p) (snd p)) 0) = false).
    { intros r. unfold nb_is. destruct (e_nb e s r) as [v|] eqn:V; [|reflexivity].
      apply Nat.eqb_neq. intros ->.
      destruct (slot_fact p n e s r _ Hn D Hb V) as (q & m & Q1 & Q2 & Q3 & Q4).
      assert (F : fst q = fst p).
      { eapply (run_section l g0 dev run I); [exact (place_lt l _ _ Q1)|exact L|exact Q4|].
        apply last_in'. apply (in_some _ _ _ _ _ I); auto. }
      assert (X : snd q <> snd p).
      { intros X. apply Hs. rewrite Q3. destruct p, q; cbn in *; subst. rewrite (node_fun l _ _ _ Q1 Hn). auto. }
      destruct (node_end_inv _ _ _ Hn) as (st & x & Hx & ->). destruct (node_end_inv _ _ _ Q1) as (st' & x' & Hx' & ->).
      rewrite F, Hx in Hx'. injection Hx' as <- <-.
      apply (dev_same l g0 dev run I q p _ _ Q1 Hn) in Q2.
      apply (wd_ends l WD (fst p) x); [exists st; auto|]. destruct (snd p), (snd q); cbn [end_of] in *; congruence. }
    unfold at_side. rewrite !G. reflexivity.
  Qed.

  (* two places at one device *)
  Lemma same_elem p q n m e e' : node_at l p n -> node_at l q m -> device n = device m ->
    dfacts p n e -> dfacts q m e' -> e = e' /\ dev p = dev q.
  Proof.
    intros Hn Hm H D D'. apply (dev_same l g0 dev run I p q n m Hn Hm) in H.
    pose proof (df_E _ _ _ D). pose proof (df_E _ _ _ D'). split; congruence.
  Qed.
  Lemma lines_differ p q n m a b : node_at l p n -> node_at l q m -> device n = device m ->
    stype (sn_name n) = SIMPLE_SWITCH \/ stype (sn_name n) = CROSS ->
    straight (part_of (sn_name n)) (part_of (sn_name m)) -> line_at l p a -> line_at l q b ->
    snd p = snd q -> a <> b.
  Proof. intros Hn Hm H T S1 La Lb X ->. exact (wd_aligned l WD p q n m b Hn Hm H T S1 La Lb X). Qed.
  Lemma line_ex p n : node_at l p n -> exists ln, line_at l p ln.
  Proof. intros (x & H & _). exists (xs_line x), x. auto. Qed.

  (* ends of tracks *)
  Definition oslot (d : bool) : slot := tslot (negb d).
  Lemma end_ok p n : node_at l p n -> sn_name n = N_BUMPER \/ sn_name n = N_TRACK_END ->
    exists e lk, E g (dev p) = Some e /\ connect_elem g (dev p) e = Ok lk /\
      get_node g (Some (dev p)) (snd p) (last (run (fst p) (snd p)) 0) = Ok (dev p, tslot (snd p)) /\
      arrive (fst p) (snd p) = (dev p, tslot (snd p)) /\
      lk (tslot (snd p)) = (None, None) /\ lk (oslot (snd p)) = (out p, None).
  Proof.
    intros Hn T. destruct (dev_fact p n Hn) as [e D].
    assert (Kd : e_kind e = KEnd).
    { pose proof (df_kind _ _ _ D) as X. destruct T as [T|T]; rewrite T in X; cbn in X; congruence. }
    destruct (leave p n e (dev p) Hn D) as (w & W1 & W2).
    assert (Sd : side_of (sn_name n) (snd p) = S0) by (destruct T as [-> | ->]; reflexivity).
    assert (R : e_rise e S0 = snd p).
    { apply (df_rise _ _ _ D). destruct T as [T|T]; unfold flagged; rewrite T; reflexivity. }
    rewrite Sd in W2.
    destruct (arrive_eq p n e (tslot (snd p)) Hn D) as [A1 A2].
    { unfold get_node_e. rewrite Kd. reflexivity. }
    exists e. unfold connect_elem. rewrite Kd, R. destruct (snd p); cbn [negb] in *; rewrite W2; cbn [bind];
      eexists; (split; [apply (df_E _ _ _ D)|]); (split; [reflexivity|]); (split; [exact A1|]); (split; [exact A2|]);
      cbn; rewrite W1; auto.
  Qed.

  (* two parts: change of kilometrage or line *)
  Lemma two_ok p q n m : node_at l p n -> node_at l q m -> device n = device m ->
    part_of (sn_name n) = First -> part_of (sn_name m) = Second ->
    exists e lk u v, E g (dev p) = Some e /\ connect_elem g (dev p) e = Ok lk /\
      get_node g (Some (dev p)) (snd p) (last (run (fst p) (snd p)) 0) = Ok (dev p, u) /\
      get_node g (Some (dev q)) (snd q) (last (run (fst q) (snd q)) 0) = Ok (dev p, v) /\
      arrive (fst p) (snd p) = (dev p, u) /\ arrive (fst q) (snd q) = (dev p, v) /\
      lk u = (out q, None) /\ lk v = (out p, None).
  Proof.
    intros Hn Hm Hd Pn Pm. destruct (dev_fact p n Hn) as [e D]. destruct (dev_fact q m Hm) as [e' D'].
    destruct (same_elem _ _ _ _ _ _ Hn Hm Hd D D') as [<- Dv].
    pose proof (same_device_type l WD _ _ _ _ Hn Hm Hd) as Ty.
    destruct (leave p n e (dev p) Hn D) as (w & W1 & W2). destruct (leave q m e (dev p) Hm D') as (w' & W1' & W2').
    assert (Sn : side_of (sn_name n) (snd p) = S0) by (unfold side_of; rewrite Pn; reflexivity).
    assert (Sm : side_of (sn_name m) (snd q) = S1) by (unfold side_of; rewrite Pm; reflexivity).
    rewrite Sn in W2. rewrite Sm in W2'.
    assert (Kd : e_kind e = KSimple).
    { pose proof (df_kind _ _ _ D) as X. destruct (sn_name n); cbn in *; congruence. }
    assert (R0 : e_rise e S0 = snd p).
    { apply (df_rise _ _ _ D). unfold flagged. rewrite Pn. reflexivity. }
    pose proof (df_type _ _ _ D) as Te.
    assert (C : sn_name n = N_KM_JUMP_START /\ sn_name m = N_KM_JUMP_END \/
                sn_name n = N_LINE_SWITCH_ZERO /\ sn_name m = N_LINE_SWITCH_ONE).
    { destruct (sn_name n); cbn in Pn; try discriminate; destruct (sn_name m); cbn in Pm, Ty; try discriminate; auto. }
    assert (Bn : sn_name n <> N_BORDER) by (destruct C as [[-> _]|[-> _]]; discriminate).
    assert (Bm : sn_name m <> N_BORDER) by (destruct C as [[_ ->]|[_ ->]]; discriminate).
    destruct C as [[Nn Nm]|[Nn Nm]].
    - assert (Jn : snd p = false) by (apply (wd_jump l WD p n Hn); auto).
      assert (Jm : snd q = true) by (apply (wd_jump l WD q m Hm); auto).
      assert (T : ty_between LINE_SWITCH LINE_SWITCH (e_type e) = false) by (rewrite Te, Nn; reflexivity).
      destruct (arrive_eq p n e Bot Hn D) as [A1 A2].
      { unfold get_node_e. rewrite Kd, T, Jn. reflexivity. }
      destruct (arrive_eq q m e Top Hm D') as [A3 A4].
      { unfold get_node_e. rewrite Kd, T, Jm. reflexivity. }
      rewrite <- Dv in A3, A4.
      rewrite Jn in W2. rewrite Jm in W2'. cbn [negb] in *.
      unfold connect_elem. exists e. rewrite Kd, T.
      assert (X1 : exists v, e_nb e S0 true = Some v) by (destruct (e_nb e S0 true); [eauto|discriminate]).
      assert (X2 : exists v, e_nb e S1 false = Some v) by (destruct (e_nb e S1 false); [eauto|discriminate]).
      destruct X1 as [x1 X1], X2 as [x2 X2]. rewrite X1 in *. rewrite X2 in *. rewrite W2. cbn [bind]. rewrite W2'. cbn [bind].
      eexists _, Bot, Top. split; [apply (df_E _ _ _ D)|]. split; [reflexivity|].
      rewrite <- Dv in *. split; [exact A1|]. split; [exact A3|]. split; [exact A2|]. split; [exact A4|].
      cbn. rewrite W1, W1'. auto.
    - assert (T : ty_between LINE_SWITCH LINE_SWITCH (e_type e) = true) by (rewrite Te, Nn; reflexivity).
      assert (R1 : e_rise e S1 = snd q).
      { apply (df_rise _ _ _ D'). unfold flagged. rewrite Nm. reflexivity. }
      destruct (arrive_eq p n e (tslot (snd p)) Hn D) as [A1 A2].
      { unfold get_node_e. rewrite Kd, T. rewrite (at_other p n e S1 Hn D Bn) by congruence. reflexivity. }
      destruct (arrive_eq q m e (oslot (snd p)) Hm D') as [A3 A4].
      { unfold get_node_e. rewrite Kd, T. pose proof (at_own q m e Hm D') as Ao. rewrite Sm in Ao. rewrite Ao.
        rewrite R0, R1. unfold oslot, tslot. destruct (snd p), (snd q); reflexivity. }
      rewrite <- Dv in A3, A4.
      unfold connect_elem. exists e. rewrite Kd, T, R0, R1.
      assert (Y : (if snd q then e_nb e S1 false else e_nb e S1 true) = e_nb e S1 (negb (snd q))) by (destruct (snd q); auto).
      rewrite Y, W2'. destruct (snd p) eqn:Sp; cbn [negb] in W2; rewrite W2; cbn [bind];
        eexists _, _, _; (split; [apply (df_E _ _ _ D)|]); (split; [reflexivity|]); rewrite <- Dv in *;
        (split; [exact A1|]); (split; [exact A3|]); (split; [exact A2|]); (split; [exact A4|]);
        cbn; rewrite W1, W1'; auto.
  Qed.

  (* three parts: a switch *)
  Lemma three_ok p q r n m k : node_at l p n -> node_at l q m -> node_at l r k ->
    device n = device m -> device n = device k ->
    part_of (sn_name n) = Toe -> part_of (sn_name m) = Stem -> part_of (sn_name k) = Branch ->
    exists e lk u v, E g (dev p) = Some e /\ connect_elem g (dev p) e = Ok lk /\
      get_node g (Some (dev p)) (snd p) (last (run (fst p) (snd p)) 0) = Ok (dev p, u) /\
      get_node g (Some (dev q)) (snd q) (last (run (fst q) (snd q)) 0) = Ok (dev p, v) /\
      get_node g (Some (dev r)) (snd r) (last (run (fst r) (snd r)) 0) = Ok (dev p, v) /\
      arrive (fst p) (snd p) = (dev p, u) /\ arrive (fst q) (snd q) = (dev p, v) /\ arrive (fst r) (snd r) = (dev p, v) /\
      lk u = (out q, out r) /\ lk v = (out p, None).
  Proof.
    intros Hn Hm Hk Hd Hd' Pn Pm Pk.
    destruct (dev_fact p n Hn) as [e D]. destruct (dev_fact q m Hm) as [e' D']. destruct (dev_fact r k Hk) as [e'' D''].
    destruct (same_elem _ _ _ _ _ _ Hn Hm Hd D D') as [<- Dv].
    destruct (same_elem _ _ _ _ _ _ Hn Hk Hd' D D'') as [<- Dv'].
    destruct (leave p n e (dev p) Hn D) as (w & W1 & W2). destruct (leave q m e (dev p) Hm D') as (w' & W1' & W2').
    destruct (leave r k e (dev p) Hk D'') as (w'' & W1'' & W2'').
    assert (Sn : side_of (sn_name n) (snd p) = S0) by (unfold side_of; rewrite Pn; reflexivity).
    assert (Sm : side_of (sn_name m) (snd q) = S1) by (unfold side_of; rewrite Pm; reflexivity).
    assert (Sk : side_of (sn_name k) (snd r) = S2) by (unfold side_of; rewrite Pk; reflexivity).
    rewrite Sn in W2. rewrite Sm in W2'. rewrite Sk in W2''.
    assert (Kd : e_kind e = KSwitch).
    { pose proof (df_kind _ _ _ D) as X. destruct (sn_name n); cbn in *; congruence. }
    assert (Tn : stype (sn_name n) = SIMPLE_SWITCH) by (destruct (sn_name n); cbn in *; congruence).
    assert (R0 : e_rise e S0 = snd p).
    { apply (df_rise _ _ _ D). unfold flagged. rewrite Pn. reflexivity. }
    assert (R1 : e_rise e S1 = snd q).
    { apply (df_rise _ _ _ D'). unfold flagged. destruct (sn_name m); cbn in *; try discriminate; reflexivity. }
    assert (R2 : e_rise e S2 = snd r).
    { apply (df_rise _ _ _ D''). unfold flagged. destruct (sn_name k); cbn in *; try discriminate; reflexivity. }
    assert (Bn : sn_name n <> N_BORDER) by (intros X; rewrite X in Pn; discriminate).
    assert (Bm : sn_name m <> N_BORDER) by (intros X; rewrite X in Pm; discriminate).
    assert (Bk : sn_name k <> N_BORDER) by (intros X; rewrite X in Pk; discriminate).
    destruct (line_ex p n Hn) as [a La]. destruct (line_ex q m Hm) as [b Lb]. destruct (line_ex r k Hk) as [c Lc].
    pose proof (df_line _ _ _ D a La) as E0. pose proof (df_line _ _ _ D' b Lb) as E1. pose proof (df_line _ _ _ D'' c Lc) as E2.
    rewrite Sn in E0. rewrite Sm in E1. rewrite Sk in E2.
    assert (Ab : snd p = snd q -> N.eqb b a = false).
    { intros X. apply N.eqb_neq. intros Y. apply (lines_differ p q n m a b Hn Hm Hd (or_introl Tn)); auto.
      rewrite Pn, Pm. exact Logic.I. }
    assert (Ac : snd p = snd r -> N.eqb c a = false).
    { intros X. apply N.eqb_neq. intros Y. apply (lines_differ r p k n c a Hk Hn (eq_sym Hd')); auto.
      - left. rewrite <- Tn. symmetry. exact (same_device_type l WD _ _ _ _ Hn Hk Hd').
      - rewrite Pn, Pk. exact Logic.I. }
    destruct (arrive_eq p n e (tslot (snd p)) Hn D) as [A1 A2].
    { unfold get_node_e. rewrite Kd. rewrite (at_other p n e S1 Hn D Bn), (at_other p n e S2 Hn D Bn) by congruence.
      cbn [andb orb]. rewrite andb_false_r. reflexivity. }
    destruct (arrive_eq q m e (oslot (snd p)) Hm D') as [A3 A4].
    { unfold get_node_e, misaligned_join, joins_lines. pose proof (at_own q m e Hm D') as Ao. rewrite Sm in Ao.
      rewrite (at_other q m e S2 Hm D' Bm) by congruence.
      rewrite Kd, Ao, R0, R1, R2, E0, E1, E2. cbn [oN_eqb andb orb].
      rewrite (N.eqb_sym a b).
      destruct (Bool.eqb_spec (snd p) (snd q)) as [X|X].
      - rewrite (Ab X). cbn. unfold oslot, tslot. destruct (snd p), (snd q), (snd r); cbn; congruence.
      - rewrite andb_false_r, orb_false_r, !andb_false_r. unfold oslot, tslot. destruct (snd p), (snd q); cbn; congruence. }
    destruct (arrive_eq r k e (oslot (snd p)) Hk D'') as [A5 A6].
    { unfold get_node_e, misaligned_join, joins_lines. pose proof (at_own r k e Hk D'') as Ao. rewrite Sk in Ao.
      rewrite (at_other r k e S1 Hk D'' Bk) by congruence.
      rewrite Kd, Ao, R0, R1, R2, E0, E1, E2. cbn [oN_eqb andb orb].
      rewrite (N.eqb_sym a c).
      destruct (Bool.eqb_spec (snd p) (snd r)) as [X|X].
      - rewrite (Ac X). rewrite !andb_false_r. cbn. unfold oslot, tslot. destruct (snd p), (snd q), (snd r); cbn; congruence.
      - rewrite !andb_false_r. unfold oslot, tslot. destruct (snd p), (snd r); cbn; congruence. }
    rewrite <- Dv in A3, A4. rewrite <- Dv' in A5, A6.
    unfold connect_elem, connect_side. exists e. rewrite Kd, R0, R1, R2, W2, W2', W2''. cbn [bind].
    rewrite W1, W1', W1''.
    destruct (snd p) eqn:Sp; eexists _, _, _; (split; [apply (df_E _ _ _ D)|]); (split; [reflexivity|]); rewrite <- Dv, <- Dv' in *;
      (split; [exact A1|]); (split; [exact A3|]); (split; [exact A5|]); (split; [exact A2|]); (split; [exact A4|]); (split; [exact A6|]);
      cbn; auto.
  Qed.

  (* four parts: a crossing *)
  Lemma four_ok pa pb pc pd na nb nc nd : node_at l pa na -> node_at l pb nb -> node_at l pc nc -> node_at l pd nd ->
    device na = device nb -> device na = device nc -> device na = device nd ->
    part_of (sn_name na) = StartLeft -> part_of (sn_name nb) = EndLeft ->
    part_of (sn_name nc) = StartRight -> part_of (sn_name nd) = EndRight ->
    exists e lk u v u' v', E g (dev pa) = Some e /\ connect_elem g (dev pa) e = Ok lk /\
      get_node g (Some (dev pa)) (snd pa) (last (run (fst pa) (snd pa)) 0) = Ok (dev pa, u) /\
      get_node g (Some (dev pb)) (snd pb) (last (run (fst pb) (snd pb)) 0) = Ok (dev pa, v) /\
      get_node g (Some (dev pc)) (snd pc) (last (run (fst pc) (snd pc)) 0) = Ok (dev pa, u') /\
      get_node g (Some (dev pd)) (snd pd) (last (run (fst pd) (snd pd)) 0) = Ok (dev pa, v') /\
      arrive (fst pa) (snd pa) = (dev pa, u) /\ arrive (fst pb) (snd pb) = (dev pa, v) /\
      arrive (fst pc) (snd pc) = (dev pa, u') /\ arrive (fst pd) (snd pd) = (dev pa, v') /\
      lk u = (out pb, if e_arc_lr e then out pd else None) /\
      lk v = (out pa, if e_arc_rl e then out pc else None) /\
      lk u' = (out pd, if e_arc_rl e then out pb else None) /\
      lk v' = (out pc, if e_arc_lr e then out pa else None).
  Proof.
    intros Ha Hb Hc Hd Db Dc Dd Pa Pb Pc Pd.
    destruct (dev_fact pa na Ha) as [e Fa]. destruct (dev_fact pb nb Hb) as [e1 Fb].
    destruct (dev_fact pc nc Hc) as [e2 Fc]. destruct (dev_fact pd nd Hd) as [e3 Fd].
    destruct (same_elem _ _ _ _ _ _ Ha Hb Db Fa Fb) as [<- Vb].
    destruct (same_elem _ _ _ _ _ _ Ha Hc Dc Fa Fc) as [<- Vc].
    destruct (same_elem _ _ _ _ _ _ Ha Hd Dd Fa Fd) as [<- Vd].
    destruct (leave pa na e (dev pa) Ha Fa) as (wa & O_a & G_a). destruct (leave pb nb e (dev pa) Hb Fb) as (wb & O_b & G_b).
    destruct (leave pc nc e (dev pa) Hc Fc) as (wc & O_c & G_c). destruct (leave pd nd e (dev pa) Hd Fd) as (wd & O_d & G_d).
    assert (Sa : side_of (sn_name na) (snd pa) = S0) by (unfold side_of; rewrite Pa; reflexivity).
    assert (Sb : side_of (sn_name nb) (snd pb) = S1) by (unfold side_of; rewrite Pb; reflexivity).
    assert (Sc : side_of (sn_name nc) (snd pc) = S2) by (unfold side_of; rewrite Pc; reflexivity).
    assert (Sd : side_of (sn_name nd) (snd pd) = S3) by (unfold side_of; rewrite Pd; reflexivity).
    rewrite Sa in G_a. rewrite Sb in G_b. rewrite Sc in G_c. rewrite Sd in G_d.
    assert (Kd : e_kind e = KCross).
    { pose proof (df_kind _ _ _ Fa) as X. destruct (sn_name na); cbn in *; congruence. }
    assert (Ta : stype (sn_name na) = CROSS) by (destruct (sn_name na); cbn in *; congruence).
    assert (Tc : stype (sn_name nc) = CROSS) by (destruct (sn_name nc); cbn in *; congruence).
    assert (R0 : e_rise e S0 = snd pa).
    { apply (df_rise _ _ _ Fa). unfold flagged. rewrite Pa. reflexivity. }
    assert (R1 : e_rise e S1 = snd pb).
    { apply (df_rise _ _ _ Fb). unfold flagged. destruct (sn_name nb); cbn in *; try discriminate; reflexivity. }
    assert (R2 : e_rise e S2 = snd pc).
    { apply (df_rise _ _ _ Fc). unfold flagged. destruct (sn_name nc); cbn in *; try discriminate; reflexivity. }
    assert (R3 : e_rise e S3 = snd pd).
    { apply (df_rise _ _ _ Fd). unfold flagged. destruct (sn_name nd); cbn in *; try discriminate; reflexivity. }
    assert (Ba : sn_name na <> N_BORDER) by (intros X; rewrite X in Pa; discriminate).
    assert (Bb : sn_name nb <> N_BORDER) by (intros X; rewrite X in Pb; discriminate).
    assert (Bc : sn_name nc <> N_BORDER) by (intros X; rewrite X in Pc; discriminate).
    assert (Bd : sn_name nd <> N_BORDER) by (intros X; rewrite X in Pd; discriminate).
    destruct (line_ex pa na Ha) as [la La]. destruct (line_ex pb nb Hb) as [lb Lb].
    destruct (line_ex pc nc Hc) as [lc Lc]. destruct (line_ex pd nd Hd) as [ld Ld].
    pose proof (df_line _ _ _ Fa la La) as E0. pose proof (df_line _ _ _ Fb lb Lb) as E1.
    pose proof (df_line _ _ _ Fc lc Lc) as E2. pose proof (df_line _ _ _ Fd ld Ld) as E3.
    rewrite Sa in E0. rewrite Sb in E1. rewrite Sc in E2. rewrite Sd in E3.
    assert (Ab : snd pa = snd pb -> N.eqb lb la = false).
    { intros X. apply N.eqb_neq. intros Y. apply (lines_differ pa pb na nb la lb Ha Hb Db (or_intror Ta)); auto.
      rewrite Pa, Pb. exact Logic.I. }
    assert (Acd : snd pc = snd pd -> N.eqb ld lc = false).
    { intros X. apply N.eqb_neq. intros Y. apply (lines_differ pc pd nc nd lc ld Hc Hd); auto; [congruence|].
      rewrite Pc, Pd. exact Logic.I. }
    destruct (arrive_eq pa na e (lslot (snd pa)) Ha Fa) as [A1 A2].
    { unfold get_node_e. rewrite Kd. pose proof (at_own pa na e Ha Fa) as Ao. rewrite Sa in Ao. rewrite Ao. reflexivity. }
    destruct (arrive_eq pb nb e (lslot (negb (snd pa))) Hb Fb) as [A3 A4].
    { unfold get_node_e, misaligned_join, joins_lines. rewrite Kd.
      pose proof (at_own pb nb e Hb Fb) as Ao. rewrite Sb in Ao. rewrite Ao.
      rewrite (at_other pb nb e S0 Hb Fb Bb) by congruence.
      rewrite R0, R1, R2, R3, E0, E1, E2, E3. cbn [oN_eqb].
      rewrite (N.eqb_sym la lb).
      destruct (Bool.eqb_spec (snd pa) (snd pb)) as [X|X].
      - rewrite (Ab X). cbn [andb negb]. unfold lslot. destruct (snd pa), (snd pb), (snd pc), (snd pd); cbn; congruence.
      - rewrite !andb_false_r. unfold lslot. destruct (snd pa), (snd pb); cbn; congruence. }
    destruct (arrive_eq pc nc e (tslot (snd pc)) Hc Fc) as [A5 A6].
    { unfold get_node_e. rewrite Kd. pose proof (at_own pc nc e Hc Fc) as Ao. rewrite Sc in Ao. rewrite Ao.
      rewrite (at_other pc nc e S0 Hc Fc Bc), (at_other pc nc e S1 Hc Fc Bc) by congruence. reflexivity. }
    destruct (arrive_eq pd nd e (oslot (snd pc)) Hd Fd) as [A7 A8].
    { unfold get_node_e, misaligned_join, joins_lines. rewrite Kd.
      pose proof (at_own pd nd e Hd Fd) as Ao. rewrite Sd in Ao. rewrite Ao.
      rewrite (at_other pd nd e S0 Hd Fd Bd), (at_other pd nd e S1 Hd Fd Bd), (at_other pd nd e S2 Hd Fd Bd) by congruence.
      rewrite R0, R1, R2, R3, E0, E1, E2, E3. cbn [oN_eqb].
      rewrite (N.eqb_sym lc ld).
      destruct (Bool.eqb_spec (snd pc) (snd pd)) as [X|X].
      - rewrite (Acd X). rewrite !andb_false_r. cbn [negb orb andb]. rewrite orb_true_r. cbn [andb]. unfold oslot, tslot.
        destruct (snd pc), (snd pd); cbn; congruence.
      - rewrite !andb_false_r. unfold oslot, tslot. destruct (snd pc), (snd pd); cbn; congruence. }
    rewrite <- Vb in A3, A4. rewrite <- Vc in A5, A6. rewrite <- Vd in A7, A8.
    unfold connect_elem, connect_side. exists e. rewrite Kd, R0, R1, R2, R3, G_a, G_b, G_c, G_d. cbn [bind].
    rewrite O_a, O_b, O_c, O_d.
    eexists _, _, _, _, _. split; [apply (df_E _ _ _ Fa)|]. split; [reflexivity|]. rewrite <- Vb, <- Vc, <- Vd in *.
    split; [exact A1|]. split; [exact A3|]. split; [exact A5|]. split; [exact A7|].
    split; [exact A2|]. split; [exact A4|]. split; [exact A6|]. split; [exact A8|].
    unfold lslot, oslot, tslot. destruct (snd pa), (snd pc), (e_arc_lr e), (e_arc_rl e); cbn; auto.
  Qed.

  (* borders *)
  Lemma border_ok p n : node_at l p n -> sn_name n = N_BORDER ->
    exists e lk, E g (dev p) = Some e /\ connect_elem g (dev p) e = Ok lk /\
      get_node g (Some (dev p)) (snd p) (last (run (fst p) (snd p)) 0) = Ok (dev p, tslot (snd p)) /\
      arrive (fst p) (snd p) = (dev p, tslot (snd p)) /\
      lk (oslot (snd p)) = (out p, None) /\
      (forall q, partners l p q -> lk (tslot (snd p)) = (Some (dev q, tslot (snd p)), None)) /\
      (~ In (sn_station n) (map st_ds100 l) -> lk (tslot (snd p)) = (None, None)).
  Proof.
    intros Hn Nb. destruct (dev_fact p n Hn) as [e D].
    assert (Kd : e_kind e = KSimple).
    { pose proof (df_kind _ _ _ D) as X. rewrite Nb in X. cbn in X. congruence. }
    assert (T : ty_between LINE_SWITCH LINE_SWITCH (e_type e) = false).
    { rewrite (df_type _ _ _ D), Nb. reflexivity. }
    destruct (leave p n e (dev p) Hn D) as (w & W1 & W2).
    destruct (arrive_eq p n e (tslot (snd p)) Hn D) as [A1 A2].
    { unfold get_node_e. rewrite Kd, T. reflexivity. }
    assert (Sd : side_of (sn_name n) (snd p) = if snd p then S1 else S0) by (rewrite Nb; reflexivity).
    rewrite Sd in W2.
    (* the other side *)
    assert (Fr : (exists q, partners l p q /\ forall r, e_nb e (free_side (snd p)) r = Some (dev q)) \/
                 (~ In (sn_station n) (map st_ds100 l)) /\ forall r, e_nb e (free_side (snd p)) r = None).
    { destruct (in_dev _ _ _ _ _ I p n Hn (place_lt l _ _ Hn)) as (e0 & X1 & _).
      destruct (in_dec string_dec (sn_station n) (map st_ds100 l)) as [S1|S1].
      - left. destruct (wd_border l WD p n Hn Nb S1) as (q & Q & _). exists q. split; auto.
        destruct (cb_border _ _ _ _ B p q e0 Q X1) as (e' & xs & e1 & Z1 & Z2 & Z3 & Z4).
        rewrite (df_E _ _ _ D) in Z1. injection Z1 as <-. intros r. rewrite Z2. cbn. rewrite Z4, side_eqb_refl. auto.
      - right. split; auto. intros r.
        assert (He : E g0 (dev p) = Some e).
        { rewrite <- (df_E _ _ _ D). symmetry. apply (cb_frame _ _ _ _ B). intros p' q H X.
          destruct (partners_names l WD g0 dev run I _ _ H) as (n' & m & Y1 & Y2 & Y3 & Y4 & Y5).
          assert (p' = p) by (eapply (dev_whole l WD g0 dev run I p' p n' n); eauto; rewrite Y3; reflexivity).
          subst p'. apply S1.
          destruct H as (n2 & m2 & ln & sp & sq & xp & xq & H1 & H2 & H3 & H4 & H5 & H6 & H7 & H8 & H9 & H10 & H11 & H12 & H13).
          rewrite (node_fun l _ _ _ Hn H1), H12. apply in_map. eapply nth_error_In; eauto. }
        destruct (e_nb e (free_side (snd p)) r) as [v|] eqn:V; [|auto]. exfalso.
        destruct (in_slots _ _ _ _ _ I p n e _ r v Hn (place_lt l _ _ Hn) He V) as (q & m & Y1 & Y2 & Y3 & Y4 & Y5).
        assert (p = q) by (eapply (dev_whole l WD g0 dev run I p q n m); eauto; rewrite Nb; reflexivity).
        subst q. rewrite (node_fun l _ _ _ Y1 Hn), Sd in Y4. unfold free_side in Y4. destruct (snd p); discriminate. }
    assert (Gq : forall q, partners l p q -> get_node g (Some (dev q)) (snd p) (dev p) = Ok (dev q, tslot (snd p))).
    { intros q Q. destruct (partners_names l WD g0 dev run I _ _ Q) as (n' & m & Y1 & Y2 & Y3 & Y4 & Y5).
      destruct (dev_fact q m Y2) as [e' D']. unfold get_node. rewrite (get_e_ok _ _ _ (df_E _ _ _ D')). cbn [bind].
      unfold get_node_e. pose proof (df_kind _ _ _ D') as Kq. pose proof (df_type _ _ _ D') as Tq. rewrite Y4 in *.
      cbn in Kq. injection Kq as Kq. rewrite <- Kq, Tq. reflexivity. }
    assert (Other : forall q, partners l p q -> forall X, (forall r, e_nb e (free_side (snd p)) r = Some (dev X)) -> partners l p X -> q = X).
    { intros q Q X _ HX. eapply (proj1 (partner_one l WD _ _ _ Q HX)). }
    exists e. unfold connect_elem. rewrite Kd, T.
    destruct (snd p) eqn:Sp; cbn [negb free_side] in *.
    - (* end of a section: the free side is S0 *)
      assert (X2 : exists v, e_nb e S1 false = Some v) by (destruct (e_nb e S1 false); [eauto|discriminate]).
      destruct X2 as [x2 X2]. rewrite X2 in *.
      destruct Fr as [(q & Q & Hq)|[No Hq]].
      + rewrite Hq, (Gq q Q). cbn [bind]. rewrite W2. cbn [bind]. eexists. split; [apply (df_E _ _ _ D)|]. split; [reflexivity|].
        split; [exact A1|]. split; [exact A2|]. cbn. rewrite W1. split; [auto|]. split.
        * intros q' Q'. rewrite (proj1 (partner_one l WD _ _ _ Q' Q)). auto.
        * intros No. exfalso. apply No.
          destruct Q as (n2 & m2 & ln & sp & sq & xp & xq & H1 & H2 & H3 & H4 & H5 & H6 & H7 & H8 & H9 & H10 & H11 & H12 & H13).
          rewrite (node_fun l _ _ _ Hn H1), H12. apply in_map. eapply nth_error_In; eauto.
      + rewrite Hq. cbn [bind]. rewrite W2. cbn [bind]. eexists. split; [apply (df_E _ _ _ D)|]. split; [reflexivity|].
        split; [exact A1|]. split; [exact A2|]. cbn. rewrite W1. split; [auto|]. split; [|auto].
        intros q Q. exfalso. apply No.
          destruct Q as (n2 & m2 & ln & sp & sq & xp & xq & H1 & H2 & H3 & H4 & H5 & H6 & H7 & H8 & H9 & H10 & H11 & H12 & H13).
          rewrite (node_fun l _ _ _ Hn H1), H12. apply in_map. eapply nth_error_In; eauto.
    - assert (X2 : exists v, e_nb e S0 true = Some v) by (destruct (e_nb e S0 true); [eauto|discriminate]).
      destruct X2 as [x2 X2]. rewrite X2 in *. rewrite W2. cbn [bind].
      destruct Fr as [(q & Q & Hq)|[No Hq]].
      + rewrite Hq, (Gq q Q). cbn [bind]. eexists. split; [apply (df_E _ _ _ D)|]. split; [reflexivity|].
        split; [exact A1|]. split; [exact A2|]. cbn. rewrite W1. split; [auto|]. split.
        * intros q' Q'. rewrite (proj1 (partner_one l WD _ _ _ Q' Q)). auto.
        * intros No. exfalso. apply No.
          destruct Q as (n2 & m2 & ln & sp & sq & xp & xq & H1 & H2 & H3 & H4 & H5 & H6 & H7 & H8 & H9 & H10 & H11 & H12 & H13).
          rewrite (node_fun l _ _ _ Hn H1), H12. apply in_map. eapply nth_error_In; eauto.
      + rewrite Hq. cbn [bind]. eexists. split; [apply (df_E _ _ _ D)|]. split; [reflexivity|].
        split; [exact A1|]. split; [exact A2|]. cbn. rewrite W1. split; [auto|]. split; [|auto].
        intros q Q. exfalso. apply No.
          destruct Q as (n2 & m2 & ln & sp & sq & xp & xq & H1 & H2 & H3 & H4 & H5 & H6 & H7 & H8 & H9 & H10 & H11 & H12 & H13).
          rewrite (node_fun l _ _ _ Hn H1), H12. apply in_map. eapply nth_error_In; eauto.
  Qed.
End DRIVE.
