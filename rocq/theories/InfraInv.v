(* The network after the first sections of a plan *)
From Coq Require Import List Bool NArith QArith Arith String Sorted Permutation Lia.
From Verif Require Import Base PhysModel TextModel InfraModel InfraOrder InfraSpec InfraHeap InfraScan InfraLay InfraLaid InfraPlace InfraAdd.
Import ListNotations.
Local Open Scope nat_scope.

(* the name of the border record of a place *)
Definition border_rec (l : list xstation) (dev : place -> nat) (p : place) (b : border) : Prop :=
  exists st x, nth_error (plan l) (fst p) = Some (st, x) /\
    sn_name (end_of x (snd p)) = N_BORDER /\
    b = mkborder st (sn_station (end_of x (snd p))) (sn_sign (end_of x (snd p))) (xs_line x)
                 (dev p) (negb (snd p)).

Record Inv (l : list xstation) (k : nat) (g : graph) (dev : place -> nat) (run : nat -> bool -> list nat)
  : Prop := {
  in_dev : forall p n, node_at l p n -> fst p < k -> exists e, E g (dev p) = Some e /\
    e_type e = stype (sn_name n) /\ kind_of (stype (sn_name n)) = Some (e_kind e) /\
    rp_find (g_rp g) (sn_id n) = Some (dev p) /\ rp_find (g_rp g) (device n) = Some (dev p) /\
    (forall s, flagged n s = true -> e_rise e s = snd p) /\
    (forall ln, line_at l p ln -> e_line e (side_of (sn_name n) (snd p)) = Some ln) /\
    e_km e (side_of (sn_name n) (snd p)) = sn_km n /\
    (forall r, e_nb e (side_of (sn_name n) (snd p)) r =
       if Bool.eqb r (snd p) then Some (last (run (fst p) r) 0) else hd_error (run (fst p) r)) /\
    (sn_name n = N_CROSS_SWITCH_START_LEFT -> e_arc_lr e = sn_branch n) /\
    (sn_name n = N_CROSS_SWITCH_END_LEFT -> e_arc_rl e = sn_branch n) /\
    In (fst p) (e_secs e);
  in_same : forall p q n m, node_at l p n -> node_at l q m -> fst p < k -> fst q < k ->
    dev p = dev q -> device n = device m;
  in_elem : forall i, i < len g -> (exists p n, node_at l p n /\ fst p < k /\ dev p = i) \/
                                   (exists s d, s < k /\ In i (run s d));
  in_slots : forall p n e s r v, node_at l p n -> fst p < k -> E g (dev p) = Some e ->
    e_nb e s r = Some v -> exists q m, node_at l q m /\ fst q < k /\ dev q = dev p /\
      s = side_of (sn_name m) (snd q) /\ In v (run (fst q) r);
  in_arcs : forall p n e, node_at l p n -> fst p < k -> E g (dev p) = Some e ->
    (e_arc_lr e = true -> exists q m, node_at l q m /\ fst q < k /\ dev q = dev p /\
       sn_name m = N_CROSS_SWITCH_START_LEFT /\ sn_branch m = true) /\
    (e_arc_rl e = true -> exists q m, node_at l q m /\ fst q < k /\ dev q = dev p /\
       sn_name m = N_CROSS_SWITCH_END_LEFT /\ sn_branch m = true);
  in_esecs : forall p n e s, node_at l p n -> fst p < k -> E g (dev p) = Some e -> In s (e_secs e) ->
    s < k /\ exists t, dev (s, t) = dev p;
  in_run : forall s st x d j i, nth_error (plan l) s = Some (st, x) -> s < k ->
    nth_error (run s d) j = Some i -> exists e, E g i = Some e /\
      bk d e = nth_error (dev (s, negb d) :: run s d) j /\
      fw d e = nth_error (run s d ++ [dev (s, d)]) (S j) /\ track_elem s (xs_line x) d e;
  in_nodup : forall s d, s < k -> NoDup (run s d);
  in_some : forall s d, s < k -> run s d <> [];
  in_nodes : forall s st x d, nth_error (plan l) s = Some (st, x) -> s < k ->
    match nodes_in (tracks x) d with
    | [] => exists m e, run s d = [m] /\ E g m = Some e /\ e_type e = META /\ e_km e S0 = sn_km (end_of x (negb d))
    | _ => length (run s d) = length (nodes_in (tracks x) d)
    end;
  in_made : forall s st x d j n i, nth_error (plan l) s = Some (st, x) -> s < k ->
    nth_error (nodes_in (tracks x) d) j = Some n -> nth_error (run s d) j = Some i ->
    exists e, E g i = Some e /\ made st s (xs_line x) n e /\ rp_find (g_rp g) (tn_id n) = Some i;
  in_both : forall s d i e, s < k -> In i (run s d) -> E g i = Some e -> e_kind e = KUndirected ->
    In i (run s (negb d));
  in_rp : forall id i, rp_find (g_rp g) id = Some i -> id = RP_MAX \/
    (exists p n, node_at l p n /\ fst p < k /\ dev p = i /\ (id = sn_id n \/ id = device n)) \/
    (exists s x n, section_at l s x /\ s < k /\ In n (xs_track x) /\ tn_id n = id);
  in_borders : forall b, In b (g_borders g) <-> exists p, fst p < k /\ border_rec l dev p b;
  in_len : length (g_secs g) = k;
  in_secs : forall s st x, nth_error (plan l) s = Some (st, x) -> s < k ->
    exists sc all, nth_error (g_secs g) s = Some sc /\
      sc_rising sc = dev (s, false) :: sort_elems true g all ++ [dev (s, true)] /\
      sc_falling sc = dev (s, true) :: sort_elems false g all ++ [dev (s, false)] /\
      sc_length sc = qabs' (sn_km (xs_start x)) (sn_km (xs_end x)) /\ sc_line sc = xs_line x /\
      NoDup all /\ forall j, In j all <-> In j (run s true) \/ In j (run s false);
  in_mono : forall s d k1 k2 i1 i2 e, s < k -> k1 < k2 -> nth_error (run s d) k1 = Some i1 ->
    nth_error (run s d) k2 = Some i2 -> E g i2 = Some e -> e_kind e = KTrack \/ d = true -> i1 < i2;
  in_once : forall p n e, node_at l p n -> fst p < k -> E g (dev p) = Some e -> NoDup (e_secs e) }.

Lemma node_end l s st x t : nth_error (plan l) s = Some (st, x) -> node_at l (s, t) (end_of x t).
Proof. intros H. exists x. split; [exists st; auto|]. destruct t; reflexivity. Qed.
Lemma node_end_inv l p n : node_at l p n -> exists st x, nth_error (plan l) (fst p) = Some (st, x) /\ n = end_of x (snd p).
Proof. intros (x & (st & H) & ->). exists st, x. split; auto. Qed.

Lemma sort_ext {A} (f h : A -> A -> bool) l : (forall a b, In a l -> In b l -> f a b = h a b) -> sort f l = sort h l.
Proof.
  induction l as [|x l IH]; intros H; [reflexivity|]. cbn [sort].
  rewrite IH by (intros; apply H; right; auto).
  assert (G : forall r, (forall a, In a r -> In a l) -> insert f x r = insert h x r).
  { induction r as [|y r IHr]; intros Hr; [reflexivity|]. cbn [insert].
    rewrite H; [|left; reflexivity|right; apply Hr; left; reflexivity].
    destruct (h x y); [reflexivity|]. f_equal. apply IHr. intros; apply Hr; right; auto. }
  apply G. intros a Ha. eapply Permutation_in; [apply sort_perm|exact Ha].
Qed.
Lemma sort_elems_ext up g g' l : (forall i, In i l -> E g i = E g' i) -> sort_elems up g l = sort_elems up g' l.
Proof.
  intros H. unfold sort_elems. apply sort_ext. intros a b Ha Hb.
  pose proof (H a Ha) as X. pose proof (H b Hb) as Y. unfold E in X, Y. rewrite X, Y. reflexivity.
Qed.

Section STEP.
  Variable l : list xstation.
  Hypothesis WD : well_drawn l.

  Lemma inv_addable k g dev run st x : Inv l k g dev run -> nth_error (plan l) k = Some (st, x) -> addable st x g.
  Proof.
    intros I Hx.
    assert (Nt : forall t, node_at l (k, t) (end_of x t)) by (intros t; eapply node_end; eauto).
    assert (Sx : section_at l k x) by (exists st; auto).
    assert (R : forall t i, rp_find (g_rp g) (device (end_of x t)) = Some i ->
       exists p n, node_at l p n /\ fst p < k /\ dev p = i /\ device n = device (end_of x t)).
    { intros t i Hi. destruct (in_rp _ _ _ _ _ I _ _ Hi) as [H|[(p & n & H1 & H2 & H3 & H4)|(s & y & n & H1 & H2 & H3 & H4)]].
      - exfalso. eapply device_range; eauto.
      - exists p, n. repeat split; auto. destruct H4 as [H4|H4]; [|congruence].
        eapply id_is_device; eauto.
      - exfalso. eapply (device_not_track l WD (k, t)); eauto. }
    split.
    - intros t. eapply lead_self; eauto.
    - eapply wd_ends; eauto.
    - assert (D := wd_ends l WD k x Sx). repeat split.
      + intros H. apply D. apply (id_is_device l WD (k, false) (k, true)); auto; [apply (Nt false)|apply (Nt true)].
      + intros H. apply D. symmetry. apply (id_is_device l WD (k, true) (k, false)); auto; [apply (Nt true)|apply (Nt false)].
      + intros H. assert ((k, false) = (k, true)); [|discriminate].
        eapply (place_inj l WD); [apply (Nt false)|apply (Nt true)|exact H].
    - intros t i Hi. destruct (R t i Hi) as (p & n & H1 & H2 & <- & H4).
      destruct (in_dev _ _ _ _ _ I p n H1 H2) as (e & X1 & X2 & X3 & _).
      assert (Ty : stype (sn_name n) = stype (sn_name (end_of x t))).
      { eapply (same_device_type l WD); eauto. }
      exists e. rewrite <- Ty. repeat split; auto.
      intros s r v Hv. destruct (in_slots _ _ _ _ _ I p n e s r v H1 H2 X1 Hv) as (q & m & Y1 & Y2 & Y3 & Y4 & Y5).
      apply In_nth_error in Y5. destruct Y5 as [j J].
      destruct Y1 as (y & (sty & Y1) & _).
      destruct (in_run _ _ _ _ _ I _ _ _ _ _ _ Y1 Y2 J) as (ev & Z1 & _ & _ & (_ & _ & Z2 & _)). eauto.
    - intros i H1 H2. apply (wd_ends l WD k x Sx).
      destruct (R false i H1) as (p & n & A1 & A2 & A3 & A4). destruct (R true i H2) as (q & m & B1 & B2 & B3 & B4).
      cbn [end_of] in *. rewrite <- A4, <- B4. eapply (in_same _ _ _ _ _ I p q); eauto. congruence.
    - eapply track_ids; eauto.
    - intros n Hn. eapply track_range; eauto.
    - intros n t Hn. split.
      + eapply (device_not_track l WD (k, t)); eauto.
      + eapply (track_not_node l WD k x n (k, t)); eauto.
    - intros t. split; [eapply device_range; eauto|eapply node_range; eauto].
  Qed.

  Lemma flagged_part n m s : stype (sn_name n) = stype (sn_name m) -> part_of (sn_name n) <> part_of (sn_name m) ->
    flagged n s = true -> flagged m s = false.
  Proof.
    unfold flagged. intros H P F. destruct (sn_name n), (sn_name m); cbn in *; try discriminate; try congruence;
      destruct s; cbn in *; congruence.
  Qed.

  Lemma inv_step k g dev run st x : Inv l k g dev run -> nth_error (plan l) k = Some (st, x) ->
    exists g' dev' run', parse_section g st x = Ok g' /\ Inv l (S k) g' dev' run'.
  Proof.
    intros I Hx.
    destruct (add_ok st x g (inv_addable _ _ _ _ _ _ I Hx)) as (g' & dv & q & Hg & A).
    rewrite (in_len _ _ _ _ _ I) in A.
    exists g', (fun p => if fst p =? k then dv (snd p) else dev p), (fun s d => if s =? k then q d else run s d).
    split; [exact Hg|].
    set (dev' := fun p : place => if fst p =? k then dv (snd p) else dev p).
    set (run' := fun (s : nat) (d : bool) => if s =? k then q d else run s d).
    assert (Dk : forall t, dev' (k, t) = dv t) by (intros t; unfold dev'; cbn; rewrite Nat.eqb_refl; reflexivity).
    assert (Do : forall p, fst p < k -> dev' p = dev p).
    { intros p Hp. unfold dev'. destruct (Nat.eqb_spec (fst p) k); [lia|reflexivity]. }
    assert (Rk : forall d, run' k d = q d) by (intros d; unfold run'; rewrite Nat.eqb_refl; reflexivity).
    assert (Ro : forall s d, s < k -> run' s d = run s d).
    { intros s d Hs. unfold run'. destruct (Nat.eqb_spec s k); [lia|reflexivity]. }
    assert (Cases : forall p n, node_at l p n -> fst p < S k ->
              fst p < k \/ exists t, p = (k, t) /\ n = end_of x t).
    { intros [s t] n Hn Hp. cbn in Hp. destruct (Nat.eq_dec s k) as [->|]; [right|left; cbn; lia].
      exists t. split; [reflexivity|]. eapply node_fun; [exact Hn|]. eapply node_end; eauto. }
    assert (Nt : forall t, node_at l (k, t) (end_of x t)) by (intros t; eapply node_end; eauto).
    assert (Sx : section_at l k x) by (exists st; auto).
    assert (Lx : forall t ln, line_at l (k, t) ln -> ln = xs_line x).
    { intros t ln (y & Hy & ->). f_equal. eapply section_fun; eauto. }
    destruct A as [Aend Arpe Ane Aelem And Asome Anodes Amade Aboth Afr Agrow Anew Arp Abor Asecs Amono].
    (* the ends of the section and the devices there were *)
    assert (Dev_old : forall t p n, node_at l p n -> fst p < k -> device n = device (end_of x t) -> dv t = dev p).
    { intros t p n Hn Hp Hd. destruct (in_dev _ _ _ _ _ I p n Hn Hp) as (e & _ & _ & _ & _ & R & _).
      rewrite Hd in R. destruct (Aend t) as (e0 & e1 & [(X & _)|(X & _)] & _); congruence. }
    assert (Dev_new : forall t p n, node_at l p n -> fst p < k -> dv t = dev p -> device n = device (end_of x t)).
    { intros t p n Hn Hp Hd. destruct (Aend t) as (e0 & e1 & [(X & _)|(_ & X & _)] & _).
      - destruct (in_rp _ _ _ _ _ I _ _ X) as [H|[(p' & n' & H1 & H2 & H3 & H4)|(s & y & m & H1 & H2 & H3 & H4)]].
        + exfalso. exact (device_range l WD _ _ (Nt t) H).
        + rewrite Hd in H3. transitivity (device n').
          * eapply (in_same _ _ _ _ _ I p p'); eauto.
          * destruct H4 as [H4|H4]; [|congruence]. eapply id_is_device; eauto.
        + exfalso. eapply (device_not_track l WD (k, t)); eauto.
      - destruct (in_dev _ _ _ _ _ I p n Hn Hp) as (e & X1 & _). apply E_lt in X1. lia. }
    assert (DevP : forall p n, node_at l p n -> fst p < k -> dev p < len g).
    { intros p n Hn Hp. destruct (in_dev _ _ _ _ _ I p n Hn Hp) as (e & X1 & _). eapply E_lt; eauto. }
    assert (RunP : forall s sst y d i, nth_error (plan l) s = Some (sst, y) -> s < k -> In i (run s d) ->
               exists e, E g i = Some e /\ is_track_e e = true /\ E g' i = Some e).
    { intros s sst y d i Hs Hk Hi. apply In_nth_error in Hi. destruct Hi as [j J].
      destruct (in_run _ _ _ _ _ I _ _ _ _ _ _ Hs Hk J) as (e & X1 & _ & _ & (_ & _ & X2 & _)).
      exists e. split; auto. split; auto. rewrite Afr; auto; [eapply E_lt; eauto|].
      intros t ->. destruct (Aend t) as (e0 & e1 & [(_ & Y)|(_ & Y & _)] & _ & Ty & _).
      - rewrite X1 in Y. injection Y as <-. unfold is_track_e in X2. rewrite Ty, stype_not_track in X2. discriminate.
      - apply E_lt in X1. lia. }
    assert (PlanOld : forall s, s < S k -> exists sst y, nth_error (plan l) s = Some (sst, y)).
    { intros s Hs. destruct (nth_error (plan l) s) as [[sst y]|] eqn:P; eauto.
      apply nth_error_None in P. assert (k < length (plan l)) by (apply nth_error_Some; congruence). lia. }
    assert (RpOld : forall id, (exists i, rp_find (g_rp g) id = Some i) -> 
              (forall n, In n (xs_track x) -> tn_id n <> id) -> id <> RP_MAX ->
              (forall t, id <> sn_id (end_of x t)) -> 
              (forall t, id <> device (end_of x t)) -> rp_find (g_rp g') id = rp_find (g_rp g) id).
    { intros id _ H1 H2 H3 H4. apply Arp; auto. intros X. apply in_map_iff in X.
      destruct X as (n & X1 & X2). apply filter_In in X2. eapply H1; eauto. apply X2. }
    (* what a device there was looks like now *)
    assert (DevE : forall p n e, node_at l p n -> fst p < k -> E g (dev p) = Some e ->
       (forall t, dv t <> dev p) /\ E g' (dev p) = Some e \/
       exists t e', dv t = dev p /\ E g' (dev p) = Some e' /\
         core e' = core (dress k (xs_line x) (end_of x t) t e) /\
         forall s r, e_nb e' s r = if side_eqb s (side_of (sn_name (end_of x t)) t)
                              then (if Bool.eqb r t then Some (last (q r) 0) else hd_error (q r))
                              else e_nb e s r).
    { intros p n e Hn Hp He.
      assert (T : forall t, dv t = dev p -> exists e', E g' (dev p) = Some e' /\
         core e' = core (dress k (xs_line x) (end_of x t) t e) /\
         forall s r, e_nb e' s r = if side_eqb s (side_of (sn_name (end_of x t)) t)
                              then (if Bool.eqb r t then Some (last (q r) 0) else hd_error (q r))
                              else e_nb e s r).
      { intros t Ht. destruct (Aend t) as (e0 & e1 & [(_ & Y)|(_ & Y & _)] & _ & _ & X1 & X2 & X3).
        - rewrite Ht, He in Y. injection Y as <-. rewrite Ht in X1. eauto.
        - apply E_lt in He. lia. }
      destruct (Nat.eq_dec (dv true) (dev p)) as [Et|Et].
      { right. exists true. destruct (T true Et) as (e' & X). exists e'. tauto. }
      destruct (Nat.eq_dec (dv false) (dev p)) as [Ef|Ef].
      { right. exists false. destruct (T false Ef) as (e' & X). exists e'. tauto. }
      left. assert (H : forall t, dv t <> dev p) by (intros [|]; auto). split; auto.
      rewrite Afr; auto. eapply E_lt; eauto. }
    (* an old place and a new one at the same device are at different sides *)
    assert (Sides : forall p n t, node_at l p n -> fst p < k -> dv t = dev p ->
       stype (sn_name n) = stype (sn_name (end_of x t)) /\ part_of (sn_name n) <> part_of (sn_name (end_of x t)) /\
       side_of (sn_name n) (snd p) <> side_of (sn_name (end_of x t)) t /\
       part_of (sn_name (end_of x t)) <> Whole).
    { intros p n t Hn Hp Hd. pose proof (Dev_new t p n Hn Hp Hd) as Hdev.
      assert (Ty : stype (sn_name n) = stype (sn_name (end_of x t))) by (eapply (same_device_type l WD); eauto).
      assert (Pt : part_of (sn_name n) <> part_of (sn_name (end_of x t))).
      { intros X. assert (p = (k, t)) by (eapply wd_once; eauto). subst p. cbn in Hp. lia. }
      split; auto. split; auto. split; [apply side_part; auto|].
      intros W. apply Pt. rewrite W. eapply whole_part; [symmetry; exact Ty|exact W]. }
    assert (RpDev : forall p n id, node_at l p n -> fst p < k -> id = sn_id n \/ id = device n ->
              rp_find (g_rp g') id = Some (dev p)).
    { intros p n id Hn Hp Hid.
      assert (Hold : rp_find (g_rp g) id = Some (dev p)).
      { destruct (in_dev _ _ _ _ _ I p n Hn Hp) as (e & _ & _ & _ & R1 & R2 & _). destruct Hid; congruence. }
      assert (Same : forall t, id = sn_id (end_of x t) \/ id = device (end_of x t) -> device n = device (end_of x t)).
      { intros t HH. destruct HH as [H|H], Hid as [H'|H'].
        - exfalso. assert (p = (k, t)) by (eapply (place_inj l WD); eauto; congruence). subst p. cbn in Hp. lia.
        - symmetry. eapply (id_is_device l WD (k, t) p); eauto. congruence.
        - eapply (id_is_device l WD p (k, t)); eauto. congruence.
        - congruence. }
      assert (Hit : forall t, id = sn_id (end_of x t) \/ id = device (end_of x t) -> rp_find (g_rp g') id = Some (dev p)).
      { intros t H. pose proof (Same t H) as H'. rewrite <- (Dev_old t p n Hn Hp H').
        destruct (Arpe t) as [R1 R2]. destruct H as [-> | ->]; auto. }
      destruct (N.eq_dec id (sn_id (end_of x true))) as [|N1]; [eapply (Hit true); auto|].
      destruct (N.eq_dec id (sn_id (end_of x false))) as [|N2]; [eapply (Hit false); auto|].
      destruct (N.eq_dec id (device (end_of x true))) as [|N3]; [eapply (Hit true); auto|].
      destruct (N.eq_dec id (device (end_of x false))) as [|N4]; [eapply (Hit false); auto|].
      rewrite RpOld; eauto.
      - intros m Hm. destruct Hid as [-> | ->]; [eapply track_not_node|eapply device_not_track]; eauto.
      - destruct Hid as [-> | ->]; [eapply node_range|eapply device_range]; eauto.
      - intros [|]; auto.
      - intros [|]; auto. }
    assert (Back : forall t, (exists p n, node_at l p n /\ fst p < k /\ dev p = dv t) \/
                             exists e kd, E g' (dv t) = Some e /\
                               core e = core (dress k (xs_line x) (end_of x t) t (fresh st (stype (sn_name (end_of x t))) kd false)) /\
                               forall s r, e_nb e s r = if side_eqb s (side_of (sn_name (end_of x t)) t)
                                 then (if Bool.eqb r t then Some (last (q r) 0) else hd_error (q r)) else None).
    { intros t. destruct (Aend t) as (e0 & e1 & [(X & _)|(_ & X & kd & X1 & X2)] & _ & _ & Y1 & Y2 & Y3).
      - left. destruct (in_rp _ _ _ _ _ I _ _ X) as [H|[(p' & n' & H1 & H2 & H3 & H4)|(s & y & m & H1 & H2 & H3 & H4)]].
        + exfalso. exact (device_range l WD _ _ (Nt t) H).
        + eauto.
        + exfalso. eapply (device_not_track l WD (k, t)); eauto.
      - right. exists e1, kd. subst e0. auto. }
    assert (Hq : forall t r v, (if Bool.eqb r t then Some (last (q r) 0) else hd_error (q r)) = Some v -> In v (q r)).
    { intros t r v H. pose proof (Asome r) as NE. destruct (Bool.eqb r t).
      - injection H as <-. destruct (exists_last NE) as (l0 & z & ->). rewrite last_last.
        apply in_or_app; right; left; auto.
      - destruct (q r); [discriminate|]. injection H as ->. left; auto. }
    change (Inv l (S k) g' dev' run'). clearbody dev' run'. split.
    - (* in_dev *)
      intros p n Hn Hp. destruct (Cases p n Hn Hp) as [Hk|(t & -> & ->)].
      + rewrite (Do p Hk).
        assert (Ro' : forall r, run' (fst p) r = run (fst p) r) by (intros; apply Ro; auto).
        destruct (in_dev _ _ _ _ _ I p n Hn Hk) as (e & X1 & X2 & X3 & X4 & X5 & X6 & X7 & X8 & X9 & X10 & X11 & X12).
        destruct (DevE p n e Hn Hk X1) as [(_ & H)|(t & e' & Ht & H1 & H2 & H3)].
        * exists e. split; [auto|]. split; [auto|]. split; [auto|].
          split; [eapply RpDev; eauto|]. split; [eapply RpDev; eauto|].
          split; [auto|]. split; [auto|]. split; [auto|].
          split; [intros r; rewrite Ro'; apply X9|]. auto.
        * destruct (Sides p n t Hn Hk Ht) as (S1 & S2 & S3 & S4).
          destruct (dress_kind k (xs_line x) (end_of x t) t e) as (D1 & D2 & D3 & D4 & D5).
          destruct (dress_line k (xs_line x) (end_of x t) t e) as (_ & _ & D6); [congruence|].
          specialize (D6 (whole_border _ S4) _ S3). destruct D6 as [D6 D7].
          apply core_inv in H2. destruct H2 as (C1 & C2 & C3 & C4 & C5 & C6 & C7 & C8 & C9).
          exists e'. rewrite C1, C2, C4, C5, C6, C7, C9.
          split; [auto|]. split; [congruence|]. split; [congruence|].
          split; [eapply RpDev; eauto|]. split; [eapply RpDev; eauto|].
          split. { intros s Hs. rewrite C3, dress_rise. rewrite (flagged_part n (end_of x t) s S1 S2 Hs). auto. }
          split. { intros ln Hln. rewrite D6. auto. }
          split. { rewrite D7. auto. }
          split. { intros r. rewrite H3, Ro', side_eqb_ne by auto. apply X9. }
          split. { intros Hs. rewrite dress_arc_lr. rewrite <- (X10 Hs).
                   destruct (sn_name (end_of x t)) eqn:Y; auto. rewrite Hs in S2. cbn in S2. congruence. }
          split. { intros Hs. rewrite dress_arc_rl. rewrite <- (X11 Hs).
                   destruct (sn_name (end_of x t)) eqn:Y; auto. rewrite Hs in S2. cbn in S2. congruence. }
          rewrite D5. apply in_or_app; auto.
      + cbn [fst snd]. rewrite Dk.
        destruct (Aend t) as (e0 & e & _ & K0 & T0 & He & Hc & Hnb).
        destruct (dress_kind k (xs_line x) (end_of x t) t e0) as (D1 & D2 & D3 & D4 & D5).
        destruct (dress_line k (xs_line x) (end_of x t) t e0 K0) as (D6 & D7 & _).
        apply core_inv in Hc. destruct Hc as (C1 & C2 & C3 & C4 & C5 & C6 & C7 & C8 & C9).
        exists e. rewrite C1, C2, C4, C5, C6, C7, C9.
        split; [auto|]. split; [congruence|]. split; [congruence|].
        split; [apply Arpe|]. split; [apply Arpe|].
        split. { intros s Hs. rewrite C3, dress_rise, Hs. reflexivity. }
        split. { intros ln Hln. rewrite D6. f_equal. symmetry. eapply Lx; eauto. }
        split; [auto|].
        split. { intros r. rewrite Hnb, side_eqb_refl, Rk. reflexivity. }
        split. { intros Hs. rewrite dress_arc_lr, Hs. reflexivity. }
        split. { intros Hs. rewrite dress_arc_rl, Hs. reflexivity. }
        rewrite D5. apply in_or_app; right; left; reflexivity.
    - (* in_same *)
      intros p p' n m Hn Hm Hp Hp' H.
      destruct (Cases p n Hn Hp) as [Hk|(t & -> & ->)], (Cases p' m Hm Hp') as [Hk'|(t' & -> & ->)].
      + rewrite !Do in H by auto. eapply (in_same _ _ _ _ _ I p p'); eauto.
      + rewrite Do, Dk in H by auto. eapply Dev_new; eauto.
      + rewrite (Do p' Hk'), Dk in H. symmetry. eapply Dev_new; eauto.
      + rewrite !Dk in H. assert (t = t') by (destruct t, t'; congruence). subst. reflexivity.
    - (* in_elem *)
      intros i Hi. destruct (Nat.lt_ge_cases i (len g)) as [L|L].
      + destruct (in_elem _ _ _ _ _ I i L) as [(p & n & H1 & H2 & H3)|(s & d & H1 & H2)].
        * left. exists p, n. rewrite Do by auto. repeat split; auto.
        * right. exists s, d. rewrite Ro by auto. auto.
      + destruct (Anew i (conj L Hi)) as [(t & ->)|(d & Hd)].
        * left. exists (k, t), (end_of x t). rewrite Dk. repeat split; auto.
        * right. exists k, d. rewrite Rk. auto.
    - (* in_slots *)
      assert (Old : forall p n e s r v, node_at l p n -> fst p < k -> E g' (dev p) = Some e ->
        e_nb e s r = Some v -> exists q m, node_at l q m /\ fst q < S k /\ dev' q = dev p /\
          s = side_of (sn_name m) (snd q) /\ In v (run' (fst q) r)).
      { intros p n e s r v Hn Hp He Hv.
        destruct (in_dev _ _ _ _ _ I p n Hn Hp) as (e0 & X1 & _).
        assert (Case : e_nb e0 s r = Some v -> exists q m, node_at l q m /\ fst q < S k /\ dev' q = dev p /\
          s = side_of (sn_name m) (snd q) /\ In v (run' (fst q) r)).
        { intros H. destruct (in_slots _ _ _ _ _ I p n e0 s r v Hn Hp X1 H) as (p' & m & Y1 & Y2 & Y3 & Y4 & Y5).
          exists p', m. rewrite Do, Ro by auto. repeat split; auto. }
        destruct (DevE p n e0 Hn Hp X1) as [(_ & H)|(t & e' & Ht & H1 & H2 & H3)].
        - rewrite He in H. injection H as <-. auto.
        - rewrite He in H1. injection H1 as <-. rewrite H3 in Hv.
          destruct (side_eqb s (side_of (sn_name (end_of x t)) t)) eqn:SE; [|auto].
          apply side_eqb_eq in SE. exists (k, t), (end_of x t). rewrite Dk. cbn [fst snd]. rewrite Rk.
          repeat split; auto. eapply Hq; eauto. }
      intros p n e s r v Hn Hp He Hv. destruct (Cases p n Hn Hp) as [Hk|(t & -> & ->)].
      + rewrite (Do p Hk) in He. rewrite (Do p Hk). eapply Old; eauto.
      + rewrite Dk in He. rewrite Dk. destruct (Back t) as [(p' & n' & H1 & H2 & H3)|(e1 & kd & H1 & H2 & H3)].
        * rewrite <- H3 in *. eapply Old; eauto.
        * rewrite He in H1. injection H1 as <-. rewrite H3 in Hv.
          destruct (side_eqb s (side_of (sn_name (end_of x t)) t)) eqn:SE; [|discriminate].
          apply side_eqb_eq in SE. exists (k, t), (end_of x t). rewrite Dk. cbn [fst snd]. rewrite Rk.
          repeat split; auto. eapply Hq; eauto.
    - (* in_arcs *)
      assert (New : forall t e e0, core e = core (dress k (xs_line x) (end_of x t) t e0) ->
         (e_arc_lr e = true -> (sn_name (end_of x t) = N_CROSS_SWITCH_START_LEFT /\ sn_branch (end_of x t) = true) \/ e_arc_lr e0 = true) /\
         (e_arc_rl e = true -> (sn_name (end_of x t) = N_CROSS_SWITCH_END_LEFT /\ sn_branch (end_of x t) = true) \/ e_arc_rl e0 = true)).
      { intros t e e0 H. apply core_inv in H. destruct H as (_ & _ & _ & _ & _ & C6 & C7 & _).
        rewrite C6, C7, dress_arc_lr, dress_arc_rl. destruct (sn_name (end_of x t)); auto. }
      assert (Old : forall p n e, node_at l p n -> fst p < k -> E g' (dev p) = Some e ->
        (e_arc_lr e = true -> exists q m, node_at l q m /\ fst q < S k /\ dev' q = dev p /\
           sn_name m = N_CROSS_SWITCH_START_LEFT /\ sn_branch m = true) /\
        (e_arc_rl e = true -> exists q m, node_at l q m /\ fst q < S k /\ dev' q = dev p /\
           sn_name m = N_CROSS_SWITCH_END_LEFT /\ sn_branch m = true)).
      { intros p n e Hn Hp He.
        destruct (in_dev _ _ _ _ _ I p n Hn Hp) as (e0 & X1 & _).
        destruct (in_arcs _ _ _ _ _ I p n e0 Hn Hp X1) as [Y1 Y2].
        assert (Z1 : e_arc_lr e0 = true -> exists q m, node_at l q m /\ fst q < S k /\ dev' q = dev p /\
           sn_name m = N_CROSS_SWITCH_START_LEFT /\ sn_branch m = true).
        { intros H. destruct (Y1 H) as (p' & m & W1 & W2 & W3 & W4 & W5). exists p', m. rewrite Do by auto.
          repeat split; auto. }
        assert (Z2 : e_arc_rl e0 = true -> exists q m, node_at l q m /\ fst q < S k /\ dev' q = dev p /\
           sn_name m = N_CROSS_SWITCH_END_LEFT /\ sn_branch m = true).
        { intros H. destruct (Y2 H) as (p' & m & W1 & W2 & W3 & W4 & W5). exists p', m. rewrite Do by auto.
          repeat split; auto. }
        destruct (DevE p n e0 Hn Hp X1) as [(_ & H)|(t & e' & Ht & H1 & H2 & H3)].
        - rewrite He in H. injection H as <-. auto.
        - rewrite He in H1. injection H1 as <-. destruct (New t e e0 H2) as [N1 N2].
          split; intros H; [destruct (N1 H) as [[W1 W2]|W]|destruct (N2 H) as [[W1 W2]|W]]; auto;
            exists (k, t), (end_of x t); rewrite Dk; repeat split; auto. }
      intros p n e Hn Hp He. destruct (Cases p n Hn Hp) as [Hk|(t & -> & ->)].
      + rewrite (Do p Hk) in *. eapply Old; eauto.
      + rewrite Dk in *. destruct (Back t) as [(p' & n' & H1 & H2 & H3)|(e1 & kd & H1 & H2 & H3)].
        * rewrite <- H3 in *. eapply Old; eauto.
        * rewrite He in H1. injection H1 as <-. destruct (New t e _ H2) as [N1 N2].
          split; intros H; [destruct (N1 H) as [[W1 W2]|W]|destruct (N2 H) as [[W1 W2]|W]]; try discriminate;
            exists (k, t), (end_of x t); rewrite Dk; repeat split; auto.
    - (* in_esecs *)
      assert (Old : forall p n e s, node_at l p n -> fst p < k -> E g' (dev p) = Some e -> In s (e_secs e) ->
         s < S k /\ exists t, dev' (s, t) = dev p).
      { intros p n e s Hn Hp He Hs.
        destruct (in_dev _ _ _ _ _ I p n Hn Hp) as (e0 & X1 & _).
        assert (Z : In s (e_secs e0) -> s < S k /\ exists t, dev' (s, t) = dev p).
        { intros H. destruct (in_esecs _ _ _ _ _ I p n e0 s Hn Hp X1 H) as (Y1 & t & Y2).
          split; [lia|]. exists t. rewrite Do by auto. auto. }
        destruct (DevE p n e0 Hn Hp X1) as [(_ & H)|(t & e' & Ht & H1 & H2 & H3)].
        - rewrite He in H. injection H as <-. auto.
        - rewrite He in H1. injection H1 as <-. apply core_inv in H2.
          destruct H2 as (_ & _ & _ & _ & _ & _ & _ & _ & C9).
          destruct (dress_kind k (xs_line x) (end_of x t) t e0) as (_ & _ & _ & _ & D5).
          rewrite C9, D5 in Hs. apply in_app_or in Hs. destruct Hs as [Hs|[<-|[]]]; auto.
          split; [lia|]. exists t. rewrite Dk. auto. }
      intros p n e s Hn Hp He Hs. destruct (Cases p n Hn Hp) as [Hk|(t & -> & ->)].
      + rewrite (Do p Hk) in *. eapply Old; eauto.
      + rewrite Dk in *. destruct (Back t) as [(p' & n' & H1 & H2 & H3)|(e1 & kd & H1 & H2 & H3)].
        * rewrite <- H3 in *. eapply Old; eauto.
        * rewrite He in H1. injection H1 as <-. apply core_inv in H2.
          destruct H2 as (_ & _ & _ & _ & _ & _ & _ & _ & C9).
          destruct (dress_kind k (xs_line x) (end_of x t) t (fresh st (stype (sn_name (end_of x t))) kd false)) as (_ & _ & _ & _ & D5).
          rewrite C9, D5 in Hs. cbn in Hs. destruct Hs as [<-|[]]. split; [lia|]. exists t. rewrite Dk. auto.
    - (* in_run *)
      intros s sst y d j i Hs Hk Hj. destruct (Nat.eq_dec s k) as [->|Hne].
      + rewrite Hx in Hs. injection Hs as <- <-. rewrite Rk in *. rewrite !Dk.
        destruct (Aelem d j i Hj) as (e & X1 & X2 & X3 & X4 & _). eauto.
      + assert (Hk' : s < k) by lia. rewrite Ro in * by auto. rewrite !Do by auto.
        destruct (in_run _ _ _ _ _ I _ _ _ _ _ _ Hs Hk' Hj) as (e & X1 & X2 & X3 & X4).
        destruct (RunP s sst y d i Hs Hk') as (e' & Y1 & _ & Y2); [eapply nth_error_In; eauto|].
        exists e. split; [congruence|auto].
    - intros s d Hs. destruct (Nat.eq_dec s k) as [->|Hne].
      + rewrite Rk. auto.
      + rewrite Ro by lia. eapply in_nodup; eauto. lia.
    - intros s d Hs. destruct (Nat.eq_dec s k) as [->|Hne].
      + rewrite Rk. auto.
      + rewrite Ro by lia. eapply in_some; eauto. lia.
    - intros s sst y d Hs Hk. destruct (Nat.eq_dec s k) as [->|Hne].
      + rewrite Hx in Hs. injection Hs as <- <-. rewrite Rk. apply Anodes.
      + assert (Hk' : s < k) by lia. rewrite Ro by auto.
        pose proof (in_nodes _ _ _ _ _ I s sst y d Hs Hk') as H.
        destruct (nodes_in (tracks y) d); auto. destruct H as (m & e & H1 & H2 & H3 & H4).
        destruct (RunP s sst y d m Hs Hk') as (e' & Y1 & _ & Y2); [rewrite H1; left; auto|].
        exists m, e. split; [auto|]. split; [congruence|]. auto.
    - intros s sst y d j n i Hs Hk Hn Hi. destruct (Nat.eq_dec s k) as [->|Hne].
      + rewrite Hx in Hs. injection Hs as <- <-. rewrite Rk in Hi. eapply Amade; eauto.
      + assert (Hk' : s < k) by lia. rewrite Ro in Hi by auto.
        destruct (in_made _ _ _ _ _ I s sst y d j n i Hs Hk' Hn Hi) as (e & X1 & X2 & X3).
        destruct (RunP s sst y d i Hs Hk') as (e' & Y1 & _ & Y2); [eapply nth_error_In; eauto|].
        exists e. split; [congruence|]. split; [auto|].
        assert (Sy : section_at l s y) by (exists sst; auto).
        assert (Hny : In n (xs_track y)).
        { apply nth_error_In in Hn. apply nodes_in_spec in Hn. destruct Hn as [Hn _]. apply filter_In in Hn. apply Hn. }
        rewrite RpOld; eauto.
        * intros m Hm H. apply Hne. eapply (track_section l WD); [exact Sy|exact Sx|exact Hny|exact Hm|congruence].
        * eapply track_range; eauto.
        * intros t. eapply (track_not_node l WD s y n (k, t)); eauto.
        * intros t. eapply (device_not_track l WD (k, t)); eauto.
    - intros s d i e Hs Hi He K. destruct (Nat.eq_dec s k) as [->|Hne].
      + rewrite Rk in *. eapply Aboth; eauto.
      + assert (Hk' : s < k) by lia. rewrite Ro in * by auto.
        destruct (PlanOld s Hs) as (sst & y & Hy).
        destruct (RunP s sst y d i Hy Hk' Hi) as (e' & Y1 & _ & Y2).
        eapply (in_both _ _ _ _ _ I); eauto. congruence.
    - (* in_rp *)
      intros id i Hi.
      destruct (N.eq_dec id RP_MAX) as [|N0]; [auto|right].
      assert (Hit : forall t, id = sn_id (end_of x t) \/ id = device (end_of x t) ->
         (exists p n, node_at l p n /\ fst p < S k /\ dev' p = i /\ (id = sn_id n \/ id = device n)) \/
         (exists s x0 n, section_at l s x0 /\ s < S k /\ In n (xs_track x0) /\ tn_id n = id)).
      { intros t H. left. exists (k, t), (end_of x t). rewrite Dk. repeat split; auto.
        destruct (Arpe t) as [R1 R2]. destruct H as [-> | ->]; congruence. }
      destruct (N.eq_dec id (sn_id (end_of x true))) as [|N1]; [eapply (Hit true); auto|].
      destruct (N.eq_dec id (sn_id (end_of x false))) as [|N2]; [eapply (Hit false); auto|].
      destruct (N.eq_dec id (device (end_of x true))) as [|N3]; [eapply (Hit true); auto|].
      destruct (N.eq_dec id (device (end_of x false))) as [|N4]; [eapply (Hit false); auto|].
      destruct (in_dec N.eq_dec id (map tn_id (tracks x))) as [T|T].
      { right. apply in_map_iff in T. destruct T as (n & T1 & T2). apply filter_In in T2.
        exists k, x, n. repeat split; auto. apply T2. }
      rewrite Arp in Hi; auto; [|intros [|]; auto].
      destruct (in_rp _ _ _ _ _ I _ _ Hi) as [H|[(p' & n' & H1 & H2 & H3 & H4)|(s & y & m & H1 & H2 & H3 & H4)]].
      + congruence.
      + left. exists p', n'. rewrite Do by auto. repeat split; auto.
      + right. exists s, y, m. repeat split; auto.
    - (* in_borders *)
      intros b. rewrite Abor, !in_app_iff, (in_borders _ _ _ _ _ I).
      assert (Bn : forall t, In b (border_of st (xs_line x) (end_of x t) (dv t) (negb t)) <-> border_rec l dev' (k, t) b).
      { intros t. unfold border_of, border_rec. cbn [fst snd]. rewrite Dk. split.
        - intros H. exists st, x. split; [auto|]. destruct (sn_name (end_of x t)); try destruct H as [H|[]]; try destruct H.
          auto.
        - intros (st' & x' & H1 & H2 & ->). rewrite Hx in H1. injection H1 as <- <-. rewrite H2. left; auto. }
      pose proof (Bn true) as Bt. pose proof (Bn false) as Bf. cbn [end_of negb] in Bt, Bf. rewrite Bt, Bf.
      split.
      + intros [(p & H1 & (st' & x' & H2 & H3 & H4))|[H|H]].
        * exists p. split; [lia|]. exists st', x'. rewrite Do by auto. auto.
        * exists (k, false). split; [cbn; lia|auto].
        * exists (k, true). split; [cbn; lia|auto].
      + intros (p & H1 & (st' & x' & H2 & H3 & H4)). destruct (Nat.eq_dec (fst p) k) as [F|F].
        * destruct p as [s [|]]; cbn in F; subst s; right; [right|left]; exists st', x'; auto.
        * left. exists p. split; [lia|]. exists st', x'. rewrite Do in H4 by lia. auto.
    - destruct Asecs as (sc & all & H & _). rewrite H, app_length, (in_len _ _ _ _ _ I). cbn. lia.
    - (* in_secs *)
      intros s sst y Hs Hk. destruct Asecs as (sc & all & H0 & H1 & H2 & H3 & H4 & H5 & H6).
      destruct (Nat.eq_dec s k) as [->|Hne].
      + rewrite Hx in Hs. injection Hs as <- <-. exists sc, all. rewrite !Dk, !Rk, H0.
        rewrite <- (in_len _ _ _ _ _ I), nth_app_len. repeat split; auto; apply H6.
      + assert (Hk' : s < k) by lia.
        destruct (in_secs _ _ _ _ _ I s sst y Hs Hk') as (sc' & all' & X1 & X2 & X3 & X4 & X5 & X6 & X7).
        exists sc', all'. rewrite !Do, !Ro by auto. rewrite H0, nth_error_app1 by (rewrite (in_len _ _ _ _ _ I); auto).
        assert (Same : forall i, In i all' -> E g' i = E g i).
        { intros i Hi. apply X7 in Hi.
          assert (Hd : exists d, In i (run s d)) by (destruct Hi; eauto). destruct Hd as [d Hd].
          destruct (RunP s sst y d i Hs Hk' Hd) as (e' & Y1 & _ & Y2). congruence. }
        rewrite !(sort_elems_ext _ g' g all') by auto. repeat split; auto; apply X7.
    - intros s d k1 k2 i1 i2 e Hs Hk H1 H2 He Ho. destruct (Nat.eq_dec s k) as [->|Hne].
      + rewrite Rk in *. exact (Amono d k1 k2 i1 i2 e Hk H1 H2 He Ho).
      + assert (Hk' : s < k) by lia. rewrite Ro in H1, H2 by auto.
        destruct (PlanOld s Hs) as (sst & y & Hy).
        destruct (RunP s sst y d i2 Hy Hk') as (e' & Y1 & _ & Y2); [eapply nth_error_In; eauto|].
        apply (in_mono _ _ _ _ _ I s d k1 k2 i1 i2 e Hk' Hk H1 H2); auto. congruence.
    - (* in_once *)
      assert (Old : forall p n e, node_at l p n -> fst p < k -> E g' (dev p) = Some e -> NoDup (e_secs e)).
      { intros p n e Hn Hp He.
        destruct (in_dev _ _ _ _ _ I p n Hn Hp) as (e0 & X1 & _).
        pose proof (in_once _ _ _ _ _ I p n e0 Hn Hp X1) as Z.
        destruct (DevE p n e0 Hn Hp X1) as [(_ & H)|(t & e' & Ht & H1 & H2 & H3)].
        - rewrite He in H. injection H as <-. auto.
        - rewrite He in H1. injection H1 as <-. apply core_inv in H2.
          destruct H2 as (_ & _ & _ & _ & _ & _ & _ & _ & C9).
          destruct (dress_kind k (xs_line x) (end_of x t) t e0) as (_ & _ & _ & _ & D5).
          rewrite C9, D5. apply NoDup_app_parts; auto.
          + constructor; [intros []|constructor].
          + intros s H4 [<-|[]]. destruct (in_esecs _ _ _ _ _ I p n e0 k Hn Hp X1 H4) as (Y1 & _). lia. }
      intros p n e Hn Hp He. destruct (Cases p n Hn Hp) as [Hk|(t & -> & ->)].
      + rewrite (Do p Hk) in *. eapply Old; eauto.
      + rewrite Dk in *. destruct (Back t) as [(p' & n' & H1 & H2 & H3)|(e1 & kd & H1 & H2 & H3)].
        * rewrite <- H3 in *. eapply Old; eauto.
        * rewrite He in H1. injection H1 as <-. apply core_inv in H2.
          destruct H2 as (_ & _ & _ & _ & _ & _ & _ & _ & C9).
          destruct (dress_kind k (xs_line x) (end_of x t) t (fresh st (stype (sn_name (end_of x t))) kd false)) as (_ & _ & _ & _ & D5).
          rewrite C9, D5. cbn. constructor; [intros []|constructor].
  Qed.
End STEP.

(* ---- all sections ---- *)
Definition no_dev : place -> nat := fun _ => 0.
Definition no_run : nat -> bool -> list nat := fun _ _ => [].
Lemma inv_init l : Inv l 0 no_graph no_dev no_run.
Proof.
  split; try (intros; exfalso; lia); try (intros; lia).
  - intros i H. cbn in H. lia.
  - intros id i H. discriminate.
  - intros b. split; [intros []|]. intros (p & H & _). lia.
  - reflexivity.
Qed.

Fixpoint parse_plan (g : graph) (ps : list (nat * xsection)) : res graph :=
  match ps with
  | [] => Ok g
  | (st, x) :: ps => do g <- parse_section g st x; parse_plan g ps
  end.
Lemma parse_plan_app ps qs : forall g, parse_plan g (ps ++ qs) = do g <- parse_plan g ps; parse_plan g qs.
Proof.
  induction ps as [|[st x] ps IH]; intros g; cbn [app parse_plan]; [reflexivity|].
  destruct (parse_section g st x); cbn [bind]; auto.
Qed.
Lemma parse_sections_plan st xs : forall g, parse_sections g st xs = parse_plan g (map (fun x => (st, x)) xs).
Proof.
  induction xs as [|x xs IH]; intros g; cbn [parse_sections map parse_plan]; [reflexivity|].
  destruct (parse_section g st x); cbn [bind]; auto.
Qed.
Lemma parse_stations_plan l : forall n g, parse_stations g n l =
  parse_plan g (concat (map (fun p => map (fun x => (fst p, x)) (st_sections (snd p))) (combine (seq n (length l)) l))).
Proof.
  induction l as [|x l IH]; intros n g; cbn [parse_stations length seq combine map concat fst snd]; [reflexivity|].
  rewrite parse_plan_app, parse_sections_plan. destruct (parse_plan g _); cbn [bind]; auto.
Qed.

Lemma parse_all l : well_drawn l -> exists g dev run,
  parse_stations no_graph 0 l = Ok g /\ Inv l (length (plan l)) g dev run.
Proof.
  intros WD. rewrite parse_stations_plan. change (concat _) with (plan l).
  assert (G : forall ps k g dev run, Inv l k g dev run -> (forall j, nth_error ps j = nth_error (plan l) (k + j)) ->
            exists g' dev' run', parse_plan g ps = Ok g' /\ Inv l (k + length ps) g' dev' run').
  { induction ps as [|[st x] ps IH]; intros k g dev run I H; cbn [parse_plan length].
    - exists g, dev, run. rewrite Nat.add_0_r. auto.
    - pose proof (H 0) as H0. cbn in H0. rewrite Nat.add_0_r in H0. symmetry in H0.
      destruct (inv_step l WD k g dev run st x I H0) as (g1 & dev1 & run1 & Hg & I1).
      rewrite Hg. cbn [bind]. rewrite Nat.add_succ_r, <- Nat.add_succ_l. apply IH with (dev := dev1) (run := run1); auto.
      intros j. specialize (H (S j)). cbn in H. rewrite H. f_equal. lia. }
  destruct (G (plan l) 0 no_graph no_dev no_run (inv_init l)) as (g & dev & run & H1 & H2); [reflexivity|].
  exists g, dev, run. auto.
Qed.
