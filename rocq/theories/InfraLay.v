(* The track of a section in one direction *)
From Coq Require Import List Bool NArith QArith Arith String Sorted Permutation Lia.
From Verif Require Import Base PhysModel TextModel InfraModel InfraSpec InfraHeap InfraScan.
Import ListNotations.
Local Open Scope nat_scope.

Definition nb_of (s : side) (d : bool) (v : nat) (e e' : elem) : Prop :=
  core e' = core e /\
  forall s' r, e_nb e' s' r = if side_eqb s' s && Bool.eqb r d then Some v else e_nb e s' r.

Definition track_elem (sec : nat) (ln : N) (d : bool) (e : elem) : Prop :=
  e_secs e = [sec] /\ kind_of (e_type e) = Some (e_kind e) /\ is_track_e e = true /\ e_line e S0 = Some ln /\
  (e_kind e = KTrack /\ e_rise e S0 = d \/ e_kind e = KUndirected).

Record one_way (st sec : nat) (ln : N) (d : bool) (g0 : graph) (p t : nat) (sp ss : side)
  (und0 : list (N * nat)) (all0 : list nat) (ns : list tnode)
  (q : list nat) (und1 : list (N * nat)) (all1 : list nat) (g : graph) : Prop := {
  ow_p : forall e, E g0 p = Some e -> exists e' v, E g p = Some e' /\ hd_error q = Some v /\ nb_of sp d v e e';
  ow_t : forall e, E g0 t = Some e -> exists e', E g t = Some e' /\ nb_of ss d (last q p) e e';
  ow_elem : forall k i, nth_error q k = Some i -> exists e, E g i = Some e /\
    bk d e = nth_error (p :: q) k /\ fw d e = nth_error (q ++ [t]) (S k) /\
    track_elem sec ln d e /\
    (e_kind e = KUndirected -> d = true -> ready false e) /\
    (e_kind e = KUndirected -> d = false ->
       exists e0, E g0 i = Some e0 /\ core e = core e0 /\ same_dir true e0 e) /\
    (e_kind e = KTrack \/ d = true -> len g0 <= i);
  ow_nodup : NoDup (p :: t :: q);
  ow_nodes : match ns with
    | [] => exists m e, q = [m] /\ E g m = Some e /\ e_type e = META /\
        forall e0, E g0 p = Some e0 -> e_km e S0 = e_km e0 sp
    | _ => length q = length ns
    end;
  ow_made : forall k n i, nth_error ns k = Some n -> nth_error q k = Some i ->
    exists e, E g i = Some e /\ made st sec ln n e /\ rp_find (g_rp g) (tn_id n) = Some i /\
              (und n = true -> rp_find und1 (tn_id n) = Some i);
  ow_frame : forall j, ~ In j (p :: t :: q) -> E g j = E g0 j;
  ow_secs : g_secs g = g_secs g0;
  ow_borders : g_borders g = g_borders g0;
  ow_grow : len g0 <= len g;
  ow_new : forall j, len g0 <= j < len g -> In j q;
  ow_rp : forall id, ~ In id (map tn_id ns) -> id <> RP_MAX ->
    rp_find (g_rp g) id = rp_find (g_rp g0) id;
  ow_und0 : d = false -> und1 = und0;
  ow_und : forall id, (forall n, In n ns -> und n = true -> tn_id n <> id) ->
    rp_find und1 id = rp_find und0 id;
  ow_all : all1 = all0 ++ filter (fun i => len g0 <=? i) q;
  ow_mono : forall k1 k2 i1 i2, k1 < k2 -> nth_error q k1 = Some i1 -> nth_error q k2 = Some i2 ->
    len g0 <= i2 -> i1 < i2 }.

Lemma slots_in n d at_end k : kind_of (stype n) = Some k -> In (side_of n at_end, d) (slots k).
Proof. destruct n; cbn; intros H; injection H as <-; destruct d, at_end; cbn; tauto. Qed.
Lemma nb_is_true e s r v : e_nb e s r = Some v -> nb_is e s r v = true.
Proof. unfold nb_is. intros ->. apply Nat.eqb_refl. Qed.
Lemma is_neighbour_in e s r v : In (s, r) (slots (e_kind e)) -> e_nb e s r = Some v -> is_neighbour e v = true.
Proof.
  intros H N. apply existsb_exists. exists (s, r). split; auto. cbn [fst snd]. apply nb_is_true; auto.
Qed.
Lemma get_km_ok e v : is_neighbour e v = true -> exists q, get_km e v = Ok q.
Proof.
  intros H. unfold get_km. destruct (e_kind e); eauto; rewrite H; cbn [sassert bind]; eauto.
Qed.
Lemma nb_is_false e s r v : e_nb e s r <> Some v -> nb_is e s r v = false.
Proof.
  unfold nb_is. destruct (e_nb e s r) as [x|]; [|reflexivity]. intros H. apply Nat.eqb_neq. congruence.
Qed.
Lemma get_km_set np ap d t e : kind_of (stype np) = Some (e_kind e) -> (np = N_BORDER -> e_rise e S0 = ap) ->
  (forall s r, e_nb e s r <> Some t) ->
  get_km (set_nb (side_of np ap) d (Some t) e) t = Ok (e_km e (side_of np ap)).
Proof.
  intros K _ N.
  assert (I : is_neighbour (set_nb (side_of np ap) d (Some t) e) t = true).
  { apply is_neighbour_in with (s := side_of np ap) (r := d).
    - apply slots_in. exact K.
    - cbn. rewrite side_eqb_refl, eqb_reflx. reflexivity. }
  assert (A : forall s, at_side (set_nb (side_of np ap) d (Some t) e) s t = side_eqb s (side_of np ap)).
  { intros s. unfold at_side, nb_is. cbn [set_nb e_nb].
    destruct (side_eqb s (side_of np ap)); cbn [andb].
    - destruct d; cbn [Bool.eqb]; rewrite Nat.eqb_refl; [reflexivity|apply orb_true_r].
    - pose proof (nb_is_false e s true t (N s true)) as X. pose proof (nb_is_false e s false t (N s false)) as Y.
      unfold nb_is in X, Y. rewrite X, Y. reflexivity. }
  unfold get_km. change (e_kind (set_nb (side_of np ap) d (Some t) e)) with (e_kind e).
  change (e_km (set_nb (side_of np ap) d (Some t) e)) with (e_km e). rewrite !A, I. cbn [sassert bind].
  destruct np; cbn in K; injection K as K; rewrite <- K; try reflexivity; destruct ap; reflexivity.
Qed.
Lemma nb_of_set s d v e : nb_of s d v e (set_nb s d (Some v) e).
Proof. split; [reflexivity|]. intros s' r. reflexivity. Qed.
Lemma nb_of_replace s d v w e : (forall s' r, e_nb e s' r <> Some v) ->
  nb_of s d w e (replace_nb v w (set_nb s d (Some v) e)).
Proof.
  intros H. split; [reflexivity|]. intros s' r. cbn.
  destruct (side_eqb s' s && Bool.eqb r d).
  - rewrite Nat.eqb_refl. reflexivity.
  - destruct (e_nb e s' r) as [x|] eqn:X; [|reflexivity].
    destruct (Nat.eqb_spec x v) as [->|]; [|reflexivity]. exfalso. eapply H; eauto.
Qed.
Lemma nth_app_S {A} (q : list A) (t : A) k i : nth_error q k = Some i ->
  nth_error (q ++ [t]) (S k) = match nth_error q (S k) with Some j => Some j | None => Some t end.
Proof.
  intros H. assert (k < length q) by (apply nth_error_Some; congruence).
  destruct (Nat.eq_dec (S k) (length q)) as [L|L].
  - rewrite nth_error_app2 by lia. rewrite L, Nat.sub_diag.
    destruct (nth_error q (length q)) eqn:X; [|reflexivity].
    assert (length q < length q) by (apply nth_error_Some; congruence). lia.
  - rewrite nth_error_app1 by lia. destruct (nth_error q (S k)) eqn:X; [reflexivity|].
    apply nth_error_None in X. lia.
Qed.

Section CLOSE.
  Variables (st sec : nat) (ln : N) (d : bool) (g0 : graph) (p t : nat) (np nt : sname) (ap at_ : bool).
  Variables (und0 : list (N * nat)) (all0 : list nat) (ns : list tnode) (ep et : elem).
  Hypothesis Start : startable st sec ln d g0 p und0 ns.
  Hypothesis Hp : E g0 p = Some ep.
  Hypothesis Ht : E g0 t = Some et.
  Hypothesis Hpt : p <> t.
  Hypothesis Kp : kind_of (stype np) = Some (e_kind ep).
  Hypothesis Kt : kind_of (stype nt) = Some (e_kind et).
  Hypothesis Bp : np = N_BORDER -> e_rise ep S0 = ap.
  Hypothesis Bt : nt = N_BORDER -> e_rise et S0 = at_.
  Hypothesis Tt : is_track_e et = false.
  Hypothesis Np : forall s r, e_nb ep s r <> Some t.
  Hypothesis Nt : forall s r, e_nb et s r <> Some p.
  Hypothesis Range : forall n, In n ns -> tn_id n <> RP_MAX.

  Lemma scanned_prev q c :
    scanned st sec ln d g0 p np und0 all0 ns q c ->
    exists ev, E (sn_graph c) (sn_prev c) = Some ev /\ sn_prev c <> t /\ E (sn_graph c) t = Some et.
  Proof.
    intros [Gl Gp Gn Ge Gnd Gf Gp0 Gs Gb Gg Gnew Grp Gund0 Gund Gall Gmono].
    destruct Start as [(e0 & He0 & Ht0) Sids Str Sund Sinj].
    assert (Lt := E_lt _ _ _ Ht).
    assert (Hnt : ~ In t q).
    { intros X. apply In_nth_error in X. destruct X as [k K].
      assert (k < length q) by (apply nth_error_Some; congruence).
      destruct (ex_nth ns k) as [n N]; [lia|].
      destruct (Ge _ _ _ N K) as (e & He & Hm & _ & _ & _ & _ & _ & Ho & _).
      destruct (und n && negb d).
      - destruct Ho as (e1 & H1 & H2 & _). rewrite Ht in H1. injection H1 as <-.
        apply core_inv in H2. destruct H2 as (H2 & _). unfold is_track_e in Tt. rewrite <- H2 in Tt.
        destruct Hm as (Hm & _). rewrite Hm in Tt. destruct (Str n) as [X _]; [eapply nth_error_In; eauto|].
        congruence.
      - lia. }
    assert (Hc : E (sn_graph c) t = Some et).
    { rewrite Gf; auto. intros [X|X]; auto. }
    destruct q as [|x q'].
    - cbn in Gp. rewrite Gp. exists ep. rewrite (Gp0 _ Hp). auto.
    - set (q := x :: q') in *.
      destruct (ex_nth q (length q - 1)) as [z Z]; [unfold q; cbn; lia|].
      destruct (ex_nth ns (length q - 1)) as [m M]; [rewrite <- Gl; unfold q; cbn; lia|].
      rewrite Gp, (nth_last q p z) by (auto; unfold q; congruence).
      destruct (Ge _ _ _ M Z) as (e & He & _). exists e. split; auto. split; auto.
      intros ->. apply Hnt. eapply nth_error_In; eauto.
  Qed.

  Lemma close_ok q c g2 :
    scanned st sec ln d g0 p np und0 all0 ns q c ->
    (forall ev, E (sn_graph c) (sn_prev c) = Some ev ->
       E g2 (sn_prev c) = Some (set_neighbour_e (sn_prev_name c) t (if is_track_e ev then true else d) ev)) ->
    E g2 t = Some (set_neighbour_e (Some nt) (sn_prev c) d et) ->
    (forall j, j <> t -> j <> sn_prev c -> E g2 j = E (sn_graph c) j) ->
    len g2 = len (sn_graph c) -> g_rp g2 = g_rp (sn_graph c) -> g_secs g2 = g_secs (sn_graph c) ->
    g_borders g2 = g_borders (sn_graph c) ->
    exists g3 all1 q1,
      (if Nat.eqb (sn_prev c) p
       then do ' (g, m) <- insert_meta g2 st ln sec p t d; Ok (g, sn_all c ++ [m])
       else Ok (g2, sn_all c)) = Ok (g3, all1) /\
      one_way st sec ln d g0 p t (side_of np ap) (side_of nt at_) und0 all0 ns q1 (sn_und c) all1 g3.
  Proof.
    intros G Hv Hgt Hf Hl Hr Hs Hb.
    destruct G as [Gl Gp Gn Ge Gnd Gf Gp0 Gs Gb Gg Gnew Grp Gund0 Gund Gall Gmono].
    destruct Start as [(e0 & He0 & Ht0) Sids Str Sund Sinj].
    rewrite Hp in He0. injection He0 as <-.
    set (g := sn_graph c) in *.
    assert (Lt := E_lt _ _ _ Ht). assert (Lp := E_lt _ _ _ Hp).
    assert (Hnt : ~ In t q).
    { intros X. apply In_nth_error in X. destruct X as [k K].
      assert (k < length q) by (apply nth_error_Some; congruence).
      destruct (ex_nth ns k) as [n N]; [lia|].
      destruct (Ge _ _ _ N K) as (e & He & Hm & _ & _ & _ & _ & _ & Ho & _).
      destruct (und n && negb d).
      - destruct Ho as (e1 & H1 & H2 & _). rewrite Ht in H1. injection H1 as <-.
        apply core_inv in H2. destruct H2 as (H2 & _). unfold is_track_e in Tt. rewrite <- H2 in Tt.
        destruct Hm as (Hm & _). rewrite Hm in Tt. destruct (Str n) as [X _]; [eapply nth_error_In; eauto|].
        congruence.
      - lia. }
    assert (Hnp : ~ In p q) by (inversion Gnd; auto).
    assert (Hsn : set_neighbour_e (Some nt) (sn_prev c) d et = set_nb (side_of nt at_) d (Some (sn_prev c)) et).
    { apply sn_section; auto. }
    rewrite Hsn in Hgt. clear Hsn.
    destruct q as [|q0 q'].
    - (* nothing met: a meta element *)
      cbn in Gp, Gn. rewrite Gp, Nat.eqb_refl in *.
      assert (Hns : ns = []) by (destruct ns; [reflexivity|discriminate]).
      specialize (Hv _ (Gp0 _ Hp)). cbn iota in Hv. rewrite Ht0, Gn in Hv.
      rewrite (sn_section np t d ep ap Kp Bp) in Hv.
      assert (Lg : len g = len g0).
      { destruct (Nat.eq_dec (len g) (len g0)); auto. exfalso.
        apply (Gnew (len g0)). lia. }
      assert (Hn1 : is_neighbour (set_nb (side_of np ap) d (Some t) ep) t = true).
      { apply is_neighbour_in with (s := side_of np ap) (r := d).
        - apply slots_in. exact Kp.
        - cbn. rewrite side_eqb_refl, eqb_reflx. reflexivity. }
      assert (Hn2 : is_neighbour (set_nb (side_of nt at_) d (Some p) et) p = true).
      { apply is_neighbour_in with (s := side_of nt at_) (r := d).
        - apply slots_in. exact Kt.
        - cbn. rewrite side_eqb_refl, eqb_reflx. reflexivity. }
      pose proof (get_km_set np ap d t ep Kp Bp Np) as Hkm. set (km := e_km ep (side_of np ap)) in Hkm.
      unfold insert_meta. rewrite (get_e_ok _ _ _ Hv), (get_e_ok _ _ _ Hgt). cbn [bind].
      rewrite Hn1, Hn2. cbn [sassert bind].
      rewrite (create_ok g2 st META RP_MAX d KTrack eq_refl). cbn [bind].
      rewrite Hkm. cbn [bind].
      set (em := push_sec sec (set_nb S0 false (Some p) (set_nb S0 true (Some t) (set_km S0 km ln (fresh st META KTrack d))))).
      set (ga := app_e g2 (fresh st META KTrack d) RP_MAX).
      set (g3 := upd_e (upd_e (upd_e (upd_e ga (len g2)
                   (fun e => set_nb S0 false (Some p) (set_nb S0 true (Some t) (set_km S0 km ln e))))
                   (len g2) (push_sec sec)) p (replace_nb t (len g2))) t (replace_nb p (len g2))).
      assert (Hm : E g3 (len g2) = Some em).
      { unfold g3. rewrite !E_upd_ne by lia. unfold em.
        erewrite E_upd_eq; [reflexivity|]. erewrite E_upd_eq; [reflexivity|]. apply E_app_new. }
      assert (H3p : E g3 p = Some (replace_nb t (len g2) (set_nb (side_of np ap) d (Some t) ep))).
      { unfold g3. rewrite E_upd_ne by auto. apply E_upd_eq. rewrite !E_upd_ne by lia.
        apply E_app_old'. exact Hv. }
      assert (H3t : E g3 t = Some (replace_nb p (len g2) (set_nb (side_of nt at_) d (Some p) et))).
      { unfold g3. apply E_upd_eq. rewrite !E_upd_ne by lia.
        apply E_app_old'. exact Hgt. }
      assert (H3l : len g3 = S (len g2)).
      { unfold g3. rewrite !len_upd. apply len_app. }
      assert (H3f : forall j, j <> p -> j <> t -> j <> len g2 -> E g3 j = E g2 j).
      { intros j J1 J2 J3. unfold g3. rewrite !E_upd_ne by auto.
        destruct (Nat.lt_ge_cases j (len g2)).
        - apply E_app_old; auto.
        - rewrite !E_ge; auto. unfold ga. rewrite len_app. lia. }
      exists g3, (sn_all c ++ [len g2]), [len g2]. split; [reflexivity|].
      split.
      + intros e He. rewrite Hp in He. injection He as <-. eexists _, (len g2). split; [exact H3p|].
        split; [reflexivity|]. apply nb_of_replace. exact Np.
      + intros e He. rewrite Ht in He. injection He as <-. eexists. split; [exact H3t|].
        cbn [last]. apply nb_of_replace. exact Nt.
      + intros [|[|k]] i K; try discriminate. cbn in K. injection K as <-.
        exists em. split; [exact Hm|]. split; [reflexivity|]. split; [reflexivity|].
        split. { unfold track_elem, em. cbn. repeat split; auto. }
        split; [discriminate|]. split; [discriminate|]. intros _. lia.
      + constructor.
        * intros [X|[X|[]]]; [congruence|lia].
        * constructor; [|constructor; [|constructor]]. 
          -- intros [X|[]]. lia.
          -- intros [].
      + rewrite Hns. exists (len g2), em. repeat split; auto.
        intros e0 H0. rewrite Hp in H0. injection H0 as <-. reflexivity.
      + rewrite Hns. intros [|k] ? ? K; discriminate.
      + intros j Hj. cbn in Hj. rewrite H3f by intuition.
        rewrite Hf by intuition. rewrite Gf; [reflexivity|]. cbn; intuition.
      + change (g_secs g3) with (g_secs g2). congruence.
      + change (g_borders g3) with (g_borders g2). congruence.
      + lia.
      + intros j Hj. left. lia.
      + intros id _ Hid. change (g_rp g3) with ((RP_MAX, len g2) :: g_rp g2). cbn [rp_find].
        destruct (N.eqb_spec RP_MAX id); [congruence|]. rewrite Hr. apply Grp. rewrite Hns. cbn. auto.
      + exact Gund0.
      + exact Gund.
      + rewrite Gall. cbn [filter]. rewrite app_nil_r.
        destruct (Nat.leb_spec (len g0) (len g2)); [reflexivity|lia].
      + intros ? [|[|k2]] ? ? L K1 X; try discriminate. lia.
    - (* some elements *)
      set (q := q0 :: q') in *.
      assert (Hq : q <> []) by (unfold q; congruence).
      assert (Hlq : 0 < length q) by (unfold q; cbn; lia).
      destruct (ex_nth q (length q - 1)) as [z Z]; [lia|].
      assert (Hz : sn_prev c = z) by (rewrite Gp; apply nth_last; auto).
      assert (Hzq : In z q) by (eapply nth_error_In; eauto).
      rewrite Hz in *.
      assert (Hzp : z <> p) by congruence.
      assert (Hzt : z <> t) by congruence.
      apply Nat.eqb_neq in Hzp as Hzp'. rewrite Hzp'.
      exists g2, (sn_all c), q. split; [reflexivity|].
      destruct (ex_nth ns (length q - 1)) as [nz NZ]; [lia|].
      destruct (Ge _ _ _ NZ Z) as (ez & Hez & Mz & Bz & Fz & Hhz & Rz & Uz & Oz & _).
      replace (S (length q - 1)) with (length q) in * by lia.
      assert (Hnone : nth_error q (length q) = None) by (apply nth_error_None; lia).
      specialize (Hhz Hnone).
      assert (Hnm : sn_prev_name c = None) by (rewrite Gn; reflexivity).
      specialize (Hv _ Hez).
      assert (Trz : is_track_e ez = true).
      { unfold is_track_e. destruct Mz as (-> & _). apply (Str nz). eapply nth_error_In; eauto. }
      rewrite Trz in Hv.
      destruct (sn_fw d ez (sn_prev_name c) t Hhz) as (F1 & F2 & F3).
      assert (Helem : forall k n i, nth_error ns k = Some n -> nth_error q k = Some i ->
        exists e e1, E g2 i = Some e /\ E g i = Some e1 /\ core e = core e1 /\ 
          bk d e = bk d e1 /\ fw d e = match nth_error q (S k) with Some j => Some j | None => Some t end /\
          (e_kind e = KUndirected -> same_dir (negb d) e1 e)).
      { intros k n i N I. destruct (Ge _ _ _ N I) as (e & He & _ & _ & Hfw & _).
        destruct (Nat.eq_dec i z) as [->|Hiz].
        - rewrite Hez in He. injection He as <-.
          exists (set_neighbour_e (sn_prev_name c) t true ez), ez.
          split; [auto|]. split; [auto|]. split; [apply core_sn|]. split; [auto|].
          assert (Hk : k = length q - 1).
          { assert (ND : NoDup q) by (inversion Gnd; auto). rewrite NoDup_nth_error in ND.
            apply ND; [apply nth_error_Some; congruence|congruence]. }
          subst k. replace (S (length q - 1)) with (length q) by lia. rewrite Hnone. split; auto.
          pose proof (core_sn (sn_prev_name c) t true ez) as C. apply core_inv in C.
          destruct C as (_ & C & _). rewrite C. auto.
        - exists e, e. rewrite Hf; auto. 2: { intros ->. apply Hnt. eapply nth_error_In; eauto. }
          split; [auto|]. split; [auto|]. split; [auto|]. split; [auto|].
          split; [|intros; split; reflexivity].
          assert (k < length q) by (apply nth_error_Some; congruence).
          destruct (nth_error q (S k)) eqn:X; [congruence|].
          exfalso. apply nth_error_None in X. apply Hiz. replace k with (length q - 1) in I by lia. congruence. }
      split.
      + intros e He. rewrite Hp in He. injection He as <-.
        exists (set_neighbour_e (Some np) q0 d ep), q0. rewrite Hf by auto.
        rewrite (Gp0 _ Hp). split; [reflexivity|]. split; [reflexivity|].
        rewrite (sn_section np q0 d ep ap Kp Bp). apply nb_of_set.
      + intros e He. rewrite Ht in He. injection He as <-. eexists. split; [exact Hgt|].
        rewrite (nth_last q p z Hq Z). apply nb_of_set.
      + intros k i K.
        assert (k < length q) by (apply nth_error_Some; congruence).
        destruct (ex_nth ns k) as [n N]; [lia|].
        destruct (Helem _ _ _ N K) as (e & e1 & He & He1 & Hc & Hbk & Hfw & Hsd).
        destruct (Ge _ _ _ N K) as (e1' & He1' & Hm & Hbk1 & Hfw1 & Hh1 & _ & _ & Ho & Hfree).
        rewrite He1 in He1'. injection He1' as <-.
        exists e. split; [auto|]. split; [congruence|].
        split; [rewrite (nth_app_S _ _ _ _ K); auto|].
        assert (Hn : In n ns) by (eapply nth_error_In; eauto).
        destruct (Str n Hn) as [Tn Kn].
        assert (Hme : made st sec ln n e) by (eapply made_core; [|exact Hm]; auto).
        destruct Hme as (M1 & M2 & M3 & M4 & M5 & M6 & M7).
        assert (HK : e_kind e = KTrack /\ und n = false /\ tn_rising n = d /\ e_rise e S0 = d \/
                     e_kind e = KUndirected /\ und n = true).
        { unfold und. destruct (track_cases _ Tn) as [D|[D U]].
          - left. pose proof (kind_directed _ D). rewrite D in *. split; [congruence|]. split; [reflexivity|].
            pose proof (keep_rising d n Kn D). split; congruence.
          - right. apply kind_undirected in U. rewrite D. split; [congruence|reflexivity]. }
        split.
        { repeat split; auto. - congruence. - unfold is_track_e. rewrite M1. exact Tn. - tauto. }
        split; [|split].
        * intros KU Hd. rewrite Hd in *. specialize (Hsd KU). cbn [negb] in Hsd.
          destruct HK as [[KT _]|[_ U]]; [congruence|].
          destruct (Hfree U eq_refl) as [X1 X2]. destruct Hsd as [Y1 Y2].
          split; [congruence|]. split; [congruence|]. right. split; [auto|].
          split; unfold is_some.
          -- rewrite Hbk, Hbk1. intros X. apply nth_error_None in X. cbn [length] in X. lia.
          -- rewrite Hfw. destruct (nth_error q (S k)); congruence.
        * intros KU Hd. destruct HK as [[KT _]|[_ U]]; [congruence|]. rewrite U, Hd in Ho. cbn in Ho.
          destruct Ho as (ea & A1 & A2 & A3). exists ea. split; [auto|]. split; [congruence|].
          specialize (Hsd KU). rewrite Hd in Hsd. unfold same_dir in *. cbn in Hsd. destruct A3, Hsd. split; congruence.
        * intros Hor. destruct HK as [(KT & U & _)|[KU U]]; rewrite U in Ho; cbn in Ho; [exact Ho|].
          destruct Hor as [?| ->]; [congruence|]. cbn in Ho. exact Ho.
      + constructor.
        * intros [X|X]; [congruence|auto].
        * constructor; auto. inversion Gnd; auto.
      + destruct ns; [discriminate|]. exact Gl.
      + intros k n i N I. destruct (Helem _ _ _ N I) as (e & e1 & He & He1 & Hc & _).
        destruct (Ge _ _ _ N I) as (e1' & He1' & Hm & _ & _ & _ & Hrp & Hun & _).
        rewrite He1 in He1'. injection He1' as <-.
        exists e. split; [auto|]. split; [eapply made_core; [|exact Hm]; auto|].
        rewrite Hr. auto.
      + intros j Hj. rewrite Hf.
        * apply Gf. intros [X|X]; apply Hj; [left|right; right]; auto.
        * intros ->. apply Hj. right; left; auto.
        * intros ->. apply Hj. right; right; auto.
      + congruence.
      + congruence.
      + lia.
      + intros j Hj. apply Gnew. lia.
      + intros id Hid _. rewrite Hr. auto.
      + auto.
      + auto.
      + auto.
      + auto.
  Qed.
End CLOSE.

(* parse_section between the emplacement of its ends and its record *)
Definition lay (g : graph) (st : nat) (ln : N) (sec : nat) (na nb : sname) (nodes : list tnode)
  (a b : nat) : res (graph * list nat) :=
  do c <- insert_in_direction st ln sec true (sort_nodes true nodes) (mkscan g a (Some na) [] []);
  let g := set_neighbour (sn_graph c) (sn_prev c) (sn_prev_name c) b true in
  let g := set_neighbour g b (Some nb) (sn_prev c) true in
  do ' (g, all) <- (if Nat.eqb (sn_prev c) a
                    then do ' (g, m) <- insert_meta g st ln sec a b true; Ok (g, sn_all c ++ [m])
                    else Ok (g, sn_all c));
  do d <- insert_in_direction st ln sec false (sort_nodes false (sort_nodes true nodes))
            (mkscan g b (Some nb) (sn_und c) all);
  let g := set_neighbour (sn_graph d) a (Some na) (sn_prev d) false in
  do p <- get_e g (sn_prev d);
  let g := if is_track_e p then set_neighbour g (sn_prev d) (sn_prev_name d) a true
           else set_neighbour g (sn_prev d) (sn_prev_name d) a false in
  (if Nat.eqb (sn_prev d) b
   then do ' (g, m) <- insert_meta g st ln sec b a false; Ok (g, sn_all d ++ [m])
   else Ok (g, sn_all d)).

Lemma parse_section_eq g st x :
  parse_section g st x =
  let sec := length (g_secs g) in
  let ln := xs_line x in
  let g := mkgraph (g_elems g) (g_rp g)
                   (g_secs g ++ [mksec [] [] (qabs' (sn_km (xs_start x)) (sn_km (xs_end x))) ln])
                   (g_borders g) in
  do ' (g, a) <- emplace g st ln (xs_start x) true;
  let g := upd_e g a (set_km_point_and_line (sn_name (xs_start x)) (sn_km (xs_start x)) ln) in
  let g := upd_e g a (push_sec sec) in
  do ' (g, b) <- emplace g st ln (xs_end x) false;
  let g := upd_e g b (set_km_point_and_line (sn_name (xs_end x)) (sn_km (xs_end x)) ln) in
  let g := upd_e g b (push_sec sec) in
  do ' (g, all) <- lay g st ln sec (sn_name (xs_start x)) (sn_name (xs_end x))
                       (filter (fun n => is_track_element (tn_type n)) (xs_track x)) a b;
  Ok (mkgraph (g_elems g) (g_rp g)
        (upd (g_secs g) sec (fun s =>
           mksec ([a] ++ sort_elems true g all ++ [b]) ([b] ++ sort_elems false g all ++ [a])
                 (sc_length s) (sc_line s)))
        (g_borders g)).
Proof.
  unfold parse_section. cbv zeta.
  destruct (emplace _ st (xs_line x) (xs_start x) true) as [[g1 a]| | |]; cbn [bind]; try reflexivity.
  destruct (emplace _ st (xs_line x) (xs_end x) false) as [[g2 b]| | |]; cbn [bind]; try reflexivity.
  unfold lay. cbv zeta.
  destruct (insert_in_direction st (xs_line x) (length (g_secs g)) true _ _) as [c| | |]; cbn [bind]; try reflexivity.
  match goal with |- bind ?m _ = bind (bind ?m _) _ => destruct m as [[g3 all]| | |] end; cbn [bind]; try reflexivity.
  destruct (insert_in_direction st (xs_line x) (length (g_secs g)) false _ _) as [d| | |]; cbn [bind]; try reflexivity.
  match goal with |- bind ?m _ = bind (bind ?m _) _ => destruct m as [p| | |] end; cbn [bind]; try reflexivity.
Qed.

Definition nodes_in (nodes : list tnode) (d : bool) : list tnode :=
  filter (keep d) (if d then sort_nodes true nodes else sort_nodes false (sort_nodes true nodes)).

Record laid (st sec : nat) (ln : N) (g0 : graph) (a b : nat) (sa sb : side) (nodes : list tnode)
  (q : bool -> list nat) (all : list nat) (g : graph) : Prop := {
  la_a : forall e, E g0 a = Some e -> exists e', E g a = Some e' /\ core e' = core e /\
    forall s r, e_nb e' s r = if side_eqb s sa
                              then (if r then hd_error (q true) else Some (last (q false) b))
                              else e_nb e s r;
  la_b : forall e, E g0 b = Some e -> exists e', E g b = Some e' /\ core e' = core e /\
    forall s r, e_nb e' s r = if side_eqb s sb
                              then (if r then Some (last (q true) a) else hd_error (q false))
                              else e_nb e s r;
  la_elem : forall d k i, nth_error (q d) k = Some i -> exists e, E g i = Some e /\
    bk d e = nth_error ((if d then a else b) :: q d) k /\
    fw d e = nth_error (q d ++ [if d then b else a]) (S k) /\
    track_elem sec ln d e /\ len g0 <= i;
  la_nodup : forall d, NoDup (q d);
  la_some : forall d, q d <> [];
  la_nodes : forall d, match nodes_in nodes d with
    | [] => exists m e, q d = [m] /\ E g m = Some e /\ e_type e = META /\
        forall e0, E g0 (if d then a else b) = Some e0 -> e_km e S0 = e_km e0 (if d then sa else sb)
    | _ => length (q d) = length (nodes_in nodes d)
    end;
  la_made : forall d k n i, nth_error (nodes_in nodes d) k = Some n -> nth_error (q d) k = Some i ->
    exists e, E g i = Some e /\ made st sec ln n e /\ rp_find (g_rp g) (tn_id n) = Some i;
  la_both : forall d i e, In i (q d) -> E g i = Some e -> e_kind e = KUndirected -> In i (q (negb d));
  la_frame : forall j, j <> a -> j <> b -> j < len g0 -> E g j = E g0 j;
  la_new : forall j, len g0 <= j < len g -> exists d, In j (q d);
  la_grow : len g0 <= len g;
  la_rp : forall id, ~ In id (map tn_id nodes) -> id <> RP_MAX -> rp_find (g_rp g) id = rp_find (g_rp g0) id;
  la_secs : g_secs g = g_secs g0;
  la_borders : g_borders g = g_borders g0;
  la_all : NoDup all /\ forall j, In j all <-> In j (q true) \/ In j (q false);
  la_mono : forall d k1 k2 i1 i2 e, k1 < k2 -> nth_error (q d) k1 = Some i1 ->
    nth_error (q d) k2 = Some i2 -> E g i2 = Some e -> e_kind e = KTrack \/ d = true -> i1 < i2 }.
