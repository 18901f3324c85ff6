(* One scan over the track elements of a section *)
From Coq Require Import List Bool NArith QArith Arith String Sorted Permutation.
From Verif Require Import Base PhysModel TextModel InfraModel InfraSpec InfraHeap.
Import ListNotations.
Local Open Scope nat_scope.

Section SCAN.
  Variables (st sec : nat) (ln : N).

  (* an element made from a track node *)
  Definition made (n : tnode) (e : elem) : Prop :=
    e_type e = tn_type n /\ kind_of (tn_type n) = Some (e_kind e) /\
    e_rise e S0 = (if is_directed_track_element (tn_type n) then tn_rising n else false) /\
    e_km e S0 = tn_km n /\ e_line e S0 = Some ln /\ e_station e = st /\ e_secs e = [sec].

  Lemma made_core n e e' : core e = core e' -> made n e -> made n e'.
  Proof.
    intros H. apply core_inv in H. destruct H as (A & B & C & D & F & _ & _ & G & H).
    unfold made. rewrite A, B, C, D, F, G, H. auto.
  Qed.

  Definition create1 (d : bool) (n : tnode) (c : scan) : res scan :=
    if is_directed_track_element (tn_type n) then create_directed st ln sec d n c
    else create_undirected st ln sec d n c.

  Record stepped (d : bool) (n : tnode) (c c' : scan) (i : nat) : Prop := {
    sp_prev : sn_prev c' = i;
    sp_name : sn_prev_name c' = None;
    sp_ne : i <> sn_prev c;
    sp_elem : exists e, E (sn_graph c') i = Some e /\ made n e /\ half d e /\ bk d e = Some (sn_prev c);
    sp_frame : forall j, j <> i -> j <> sn_prev c -> E (sn_graph c') j = E (sn_graph c) j;
    sp_secs : g_secs (sn_graph c') = g_secs (sn_graph c);
    sp_borders : g_borders (sn_graph c') = g_borders (sn_graph c);
    sp_kind :
      (i = len (sn_graph c) /\ len (sn_graph c') = S (len (sn_graph c)) /\
       g_rp (sn_graph c') = (tn_id n, i) :: g_rp (sn_graph c) /\
       sn_all c' = sn_all c ++ [i] /\
       sn_und c' = (if is_directed_track_element (tn_type n) then sn_und c else (tn_id n, i) :: sn_und c) /\
       (is_directed_track_element (tn_type n) = true \/ d = true)) \/
      (is_directed_track_element (tn_type n) = false /\ d = false /\
       rp_find (sn_und c) (tn_id n) = Some i /\
       len (sn_graph c') = len (sn_graph c) /\ g_rp (sn_graph c') = g_rp (sn_graph c) /\
       sn_all c' = sn_all c /\ sn_und c' = sn_und c /\
       forall e0 e, E (sn_graph c) i = Some e0 -> E (sn_graph c') i = Some e ->
         core e = core e0 /\ same_dir true e0 e) }.

  Lemma step d n c ep :
    is_track_element (tn_type n) = true ->
    (is_directed_track_element (tn_type n) = true -> tn_rising n = d) ->
    E (sn_graph c) (sn_prev c) = Some ep ->
    (is_directed_track_element (tn_type n) = false ->
     if d then rp_find (sn_und c) (tn_id n) = None
     else exists i e, rp_find (sn_und c) (tn_id n) = Some i /\ E (sn_graph c) i = Some e /\
                      ready false e /\ made n e /\ i <> sn_prev c) ->
    exists c' i, create1 d n c = Ok c' /\ stepped d n c c' i /\
      E (sn_graph c') (sn_prev c) =
        Some (set_neighbour_e (sn_prev_name c) i (if is_track_e ep then true else d) ep).
  Proof.
    intros Ht Hd Hp Hu. destruct c as [g p nm und all]. cbn [sn_graph sn_prev sn_prev_name sn_und sn_all] in *.
    assert (Lp := E_lt _ _ _ Hp).
    destruct (track_cases _ Ht) as [D|[D U]]; unfold create1; rewrite D.
    - (* directed *)
      unfold create_directed, parse_track_element. cbn [sn_graph sn_prev sn_prev_name sn_und sn_all].
      rewrite (create_ok _ _ _ _ _ _ (kind_directed _ D)). cbn [bind].
      assert (Hp' : E (upd_e (app_e g (fresh st (tn_type n) KTrack (tn_rising n)) (tn_id n)) (len g)
                          (set_km S0 (tn_km n) ln)) p = Some ep).
      { rewrite E_upd_ne by lia. apply E_app_old'; auto. }
      assert (Hi : E (upd_e (app_e g (fresh st (tn_type n) KTrack (tn_rising n)) (tn_id n)) (len g)
                          (set_km S0 (tn_km n) ln)) (len g) =
                   Some (set_km S0 (tn_km n) ln (fresh st (tn_type n) KTrack (tn_rising n)))).
      { apply E_upd_eq, E_app_new. }
      assert (Hlen : len (upd_e (app_e g (fresh st (tn_type n) KTrack (tn_rising n)) (tn_id n)) (len g)
                          (set_km S0 (tn_km n) ln)) = S (len g)) by (rewrite len_upd; apply len_app).
      assert (Hfr : forall j, j <> len g -> E (upd_e (app_e g (fresh st (tn_type n) KTrack (tn_rising n)) (tn_id n)) (len g)
                          (set_km S0 (tn_km n) ln)) j = E g j).
      { intros j Hj. rewrite E_upd_ne by auto. destruct (Nat.lt_ge_cases j (len g)).
        - apply E_app_old; auto.
        - rewrite !E_ge; auto. rewrite len_app. lia. }
      assert (Hrp : g_rp (upd_e (app_e g (fresh st (tn_type n) KTrack (tn_rising n)) (tn_id n)) (len g)
                          (set_km S0 (tn_km n) ln)) = (tn_id n, len g) :: g_rp g) by reflexivity.
      assert (Hsec : g_secs (upd_e (app_e g (fresh st (tn_type n) KTrack (tn_rising n)) (tn_id n)) (len g)
                          (set_km S0 (tn_km n) ln)) = g_secs g) by reflexivity.
      assert (Hbor : g_borders (upd_e (app_e g (fresh st (tn_type n) KTrack (tn_rising n)) (tn_id n)) (len g)
                          (set_km S0 (tn_km n) ln)) = g_borders g) by reflexivity.
      revert Hp' Hi Hlen Hfr Hrp Hsec Hbor.
      generalize (upd_e (app_e g (fresh st (tn_type n) KTrack (tn_rising n)) (tn_id n)) (len g)
                          (set_km S0 (tn_km n) ln)) as g1. intros g1 Hp' Hi Hlen Hfr Hrp Hsec Hbor.
      rewrite (get_e_ok _ _ _ Hp'). cbn [bind].
      set (f := if is_track_e ep then true else d).
      replace (if d || is_track_e ep
               then set_neighbour (set_neighbour g1 p nm (len g) true) (len g) None p false
               else set_neighbour (set_neighbour g1 p nm (len g) false) (len g) None p false)
        with (set_neighbour (set_neighbour g1 p nm (len g) f) (len g) None p false)
        by (unfold f; destruct d, (is_track_e ep); reflexivity).
      eexists _, (len g). split; [reflexivity|].
      set (e0 := set_km S0 (tn_km n) ln (fresh st (tn_type n) KTrack (tn_rising n))) in *.
      assert (Hr0 : ready d e0).
      { unfold ready, bk, fw; cbn. repeat split; auto. }
      destruct (sn_bk d e0 None p false Hr0 (fun _ => eq_refl)) as (Hh & Hb & _).
      cbn [sn_graph sn_prev sn_prev_name sn_und sn_all]. split.
      + split; cbn [sn_graph sn_prev sn_prev_name sn_und sn_all]; auto.
        * lia.
        * exists (push_sec sec (set_neighbour_e None p false e0)).
          repeat split; auto.
          -- apply E_upd_eq. apply E_upd_eq. unfold set_neighbour. rewrite E_upd_ne by lia. exact Hi.
          -- unfold e0, fresh. cbn. apply kind_directed; auto.
          -- cbn. rewrite D. reflexivity.
          -- apply Hh.
        * intros j H1 H2. rewrite !E_upd_ne by auto. unfold set_neighbour. rewrite !E_upd_ne by auto. auto.
        * left. rewrite D. repeat split; auto. unfold set_neighbour. rewrite !len_upd. auto.
      + unfold set_neighbour. rewrite !E_upd_ne by lia. apply E_upd_eq. exact Hp'.
    - (* undirected *)
      specialize (Hu D). unfold create_undirected. cbn [sn_graph sn_prev sn_prev_name sn_und sn_all].
      destruct d.
      + rewrite Hu. unfold parse_track_element.
        rewrite (create_ok _ _ _ _ _ _ (kind_undirected _ U)). cbn [bind].
        set (g1 := upd_e (app_e g (fresh st (tn_type n) KUndirected false) (tn_id n)) (len g)
                          (set_km S0 (tn_km n) ln)).
        set (e0 := set_km S0 (tn_km n) ln (fresh st (tn_type n) KUndirected false)).
        assert (Hp' : E g1 p = Some ep).
        { unfold g1. rewrite E_upd_ne by lia. apply E_app_old'; auto. }
        assert (Hi : E g1 (len g) = Some e0) by (apply E_upd_eq, E_app_new).
        assert (Hlen : len g1 = S (len g)) by (unfold g1; rewrite len_upd; apply len_app).
        assert (Hfr : forall j, j <> len g -> E g1 j = E g j).
        { intros j Hj. unfold g1. rewrite E_upd_ne by auto. destruct (Nat.lt_ge_cases j (len g)).
          - apply E_app_old; auto.
          - rewrite !E_ge; auto. rewrite len_app. lia. }
        assert (Hrp : g_rp g1 = (tn_id n, len g) :: g_rp g) by reflexivity.
        assert (Hsec : g_secs g1 = g_secs g) by reflexivity.
        assert (Hbor : g_borders g1 = g_borders g) by reflexivity.
        rewrite (get_e_ok _ _ _ Hp'). cbn [bind]. clearbody g1.
        set (f := if is_track_e ep then true else true).
        replace (if negb (is_track_e ep) then set_neighbour g1 p nm (len g) true
                 else set_neighbour g1 p nm (len g) true)
          with (set_neighbour g1 p nm (len g) f) by (unfold f; destruct (is_track_e ep); reflexivity).
        eexists _, (len g). split; [reflexivity|].
        assert (Hr0 : ready true e0).
        { unfold ready, bk, fw; cbn. repeat split; auto. }
        destruct (sn_bk true e0 None p (negb true) Hr0 (fun _ => eq_refl)) as (Hh & Hb & _).
        cbn [sn_graph sn_prev sn_prev_name sn_und sn_all]. split.
        * split; cbn [sn_graph sn_prev sn_prev_name sn_und sn_all]; auto.
          -- lia.
          -- exists (push_sec sec (set_neighbour_e None p (negb true) e0)).
             repeat split; auto.
             ++ erewrite E_upd_eq. 2: { apply E_upd_eq. unfold set_neighbour. rewrite E_upd_ne by lia. exact Hi. }
                cbv beta. reflexivity.
             ++ cbn. apply kind_undirected; auto.
             ++ cbn. rewrite D. reflexivity.
             ++ apply Hh.
          -- intros j H1 H2. rewrite !E_upd_ne by auto. unfold set_neighbour. rewrite !E_upd_ne by auto. auto.
          -- left. repeat split; auto.
             ++ unfold set_neighbour. rewrite !len_upd. auto.
             ++ rewrite D. reflexivity.
        * unfold set_neighbour. rewrite !E_upd_ne by lia. apply E_upd_eq. exact Hp'.
      + destruct Hu as (i & e0 & Hu & Hi & Hr0 & Hm & Hne). rewrite Hu. cbn [bind].
        rewrite (get_e_ok _ _ _ Hp). cbn [bind].
        set (f := if is_track_e ep then true else false).
        replace (if negb (is_track_e ep) then set_neighbour g p nm i false
                 else set_neighbour g p nm i true)
          with (set_neighbour g p nm i f) by (unfold f; destruct (is_track_e ep); reflexivity).
        eexists _, i. split; [reflexivity|].
        assert (Kt : e_kind e0 = KUndirected).
        { destruct Hm as (_ & Hk & _). rewrite (kind_undirected _ U) in Hk. congruence. }
        destruct (sn_bk false e0 None p (negb false) Hr0) as (Hh & Hb & Ho); [congruence|].
        assert (Hsecs : e_secs (set_neighbour_e None p (negb false) e0) = [sec]).
        { pose proof (core_sn None p (negb false) e0) as C. apply core_inv in C.
          destruct C as (_&_&_&_&_&_&_&_&C). rewrite C. apply Hm. }
        assert (Hi' : E (upd_e (set_neighbour (set_neighbour g p nm i f) i None p (negb false)) i
                    (fun e => match e_secs e with [] => push_sec sec e | _ => e end)) i =
                  Some (set_neighbour_e None p (negb false) e0)).
        { erewrite E_upd_eq. 2: { apply E_upd_eq. unfold set_neighbour. rewrite E_upd_ne by auto. exact Hi. }
          rewrite Hsecs. reflexivity. }
        cbn [sn_graph sn_prev sn_prev_name sn_und sn_all]. split.
        * split; cbn [sn_graph sn_prev sn_prev_name sn_und sn_all]; auto.
          -- eexists. split; [exact Hi'|]. split; [|split; auto].
             eapply made_core; [|exact Hm]. symmetry; apply core_sn.
          -- intros j H1 H2. rewrite !E_upd_ne by auto. unfold set_neighbour. rewrite !E_upd_ne by auto. auto.
          -- right. repeat split; auto.
             ++ unfold set_neighbour. rewrite !len_upd. auto.
             ++ rewrite Hi' in H0. injection H0 as <-. rewrite Hi in H. injection H as <-. apply core_sn.
             ++ rewrite Hi' in H0. injection H0 as <-. rewrite Hi in H. injection H as <-. apply Ho; auto.
             ++ rewrite Hi' in H0. injection H0 as <-. rewrite Hi in H. injection H as <-. apply Ho; auto.
        * unfold set_neighbour. rewrite !E_upd_ne by auto. apply E_upd_eq. exact Hp.
  Qed.

  Fixpoint pass (d : bool) (l : list tnode) (c : scan) : res scan :=
    match l with
    | [] => Ok c
    | n :: l => do c <- create1 d n c; pass d l c
    end.
  Definition keep (d : bool) (n : tnode) : bool :=
    negb (is_directed_track_element (tn_type n) && negb (Bool.eqb (tn_rising n) d)).
  Lemma insert_pass d l : forall c,
    insert_in_direction st ln sec d l c = pass d (filter (keep d) l) c.
  Proof.
    induction l as [|n l IH]; intros c; [reflexivity|].
    cbn [insert_in_direction filter]. unfold keep at 1.
    destruct (is_directed_track_element (tn_type n) && negb (Bool.eqb (tn_rising n) d)); cbn [negb].
    - apply IH.
    - cbn [pass]. unfold create1. destruct (is_directed_track_element (tn_type n)).
      + destruct (create_directed st ln sec d n c); cbn [bind]; auto.
      + destruct (create_undirected st ln sec d n c); cbn [bind]; auto.
  Qed.
  Lemma pass_app d l1 l2 : forall c, pass d (l1 ++ l2) c = do c <- pass d l1 c; pass d l2 c.
  Proof.
    induction l1 as [|n l IH]; intros c; cbn [app pass]; [reflexivity|].
    destruct (create1 d n c); cbn [bind]; auto.
  Qed.

  Definition und (n : tnode) : bool := negb (is_directed_track_element (tn_type n)).

  Record scanned (d : bool) (g0 : graph) (p0 : nat) (nm0 : sname) (und0 : list (N * nat))
    (all0 : list nat) (ns : list tnode) (q : list nat) (c : scan) : Prop := {
    sd_len : length q = length ns;
    sd_prev : sn_prev c = last q p0;
    sd_name : sn_prev_name c = match q with [] => Some nm0 | _ => None end;
    sd_elem : forall k n i, nth_error ns k = Some n -> nth_error q k = Some i ->
      exists e, E (sn_graph c) i = Some e /\ made n e /\
        bk d e = nth_error (p0 :: q) k /\ fw d e = nth_error q (S k) /\
        (nth_error q (S k) = None -> half d e) /\
        rp_find (g_rp (sn_graph c)) (tn_id n) = Some i /\
        (und n = true -> rp_find (sn_und c) (tn_id n) = Some i) /\
        (if und n && negb d
         then exists e0, E g0 i = Some e0 /\ core e = core e0 /\ same_dir true e0 e
         else len g0 <= i) /\
        (und n = true -> d = true -> bk false e = None /\ fw false e = None);
    sd_nodup : NoDup (p0 :: q);
    sd_frame : forall j, ~ In j (p0 :: q) -> E (sn_graph c) j = E g0 j;
    sd_p0 : forall e0, E g0 p0 = Some e0 ->
      E (sn_graph c) p0 = Some (match q with [] => e0 | i :: _ => set_neighbour_e (Some nm0) i d e0 end);
    sd_secs : g_secs (sn_graph c) = g_secs g0;
    sd_borders : g_borders (sn_graph c) = g_borders g0;
    sd_grow : len g0 <= len (sn_graph c);
    sd_new : forall j, len g0 <= j < len (sn_graph c) -> In j q;
    sd_rp : forall id, ~ In id (map tn_id ns) ->
      rp_find (g_rp (sn_graph c)) id = rp_find (g_rp g0) id;
    sd_und0 : d = false -> sn_und c = und0;
    sd_und : forall id, (forall n, In n ns -> und n = true -> tn_id n <> id) ->
      rp_find (sn_und c) id = rp_find und0 id;
    sd_all : sn_all c = all0 ++ filter (fun i => len g0 <=? i) q;
    sd_mono : forall k1 k2 i1 i2, k1 < k2 -> nth_error q k1 = Some i1 -> nth_error q k2 = Some i2 ->
    len g0 <= i2 -> i1 < i2 }.

  Record startable (d : bool) (g0 : graph) (p0 : nat) (und0 : list (N * nat)) (ns : list tnode)
    : Prop := {
    sa_p0 : exists e0, E g0 p0 = Some e0 /\ is_track_e e0 = false;
    sa_ids : NoDup (map tn_id ns);
    sa_track : forall n, In n ns -> is_track_element (tn_type n) = true /\ keep d n = true;
    sa_und : forall n, In n ns -> und n = true ->
      if d then rp_find und0 (tn_id n) = None
      else exists i e, rp_find und0 (tn_id n) = Some i /\ E g0 i = Some e /\ ready false e /\
                       made n e /\ i <> p0 /\ rp_find (g_rp g0) (tn_id n) = Some i;
    sa_inj : forall a b i, rp_find und0 a = Some i -> rp_find und0 b = Some i -> a = b }.

  Lemma nth_last {A} (q : list A) (p x : A) : q <> [] -> nth_error q (length q - 1) = Some x -> last q p = x.
  Proof.
    intros H. destruct (exists_last H) as (l & a & ->). rewrite last_last, app_length. cbn.
    rewrite nth_error_app2 by lia. replace (length l + 1 - 1 - length l) with 0 by lia. cbn. congruence.
  Qed.
  Lemma last_in {A} (q : list A) p : In (last q p) (p :: q).
  Proof.
    destruct q as [|x q]; [left; reflexivity|]. right.
    destruct (@exists_last _ (x :: q)) as (l & a & H); [congruence|]. rewrite H, last_last.
    apply in_or_app. right; left; reflexivity.
  Qed.
  Lemma keep_rising d n : keep d n = true -> is_directed_track_element (tn_type n) = true -> tn_rising n = d.
  Proof.
    unfold keep. intros H D. rewrite D in H. cbn in H. rewrite negb_involutive in H.
    apply eqb_prop in H. exact H.
  Qed.
  Lemma nth_cons_app {A} (p : A) q r k : k <= length q -> nth_error (p :: q ++ r) k = nth_error (p :: q) k.
  Proof. intros H. change (p :: q ++ r) with ((p :: q) ++ r). apply nth_error_app1. cbn. lia. Qed.

  Lemma nth_app_len {A} (q : list A) x : nth_error (q ++ [x]) (length q) = Some x.
  Proof. rewrite nth_error_app2, Nat.sub_diag; auto. Qed.
  Lemma ex_nth {A} (q : list A) k : k < length q -> exists x, nth_error q k = Some x.
  Proof. intros H. destruct (nth_error q k) eqn:X; eauto. apply nth_error_None in X. lia. Qed.

  Lemma pass_step d g0 p0 nm0 und0 all0 ns q c n :
    startable d g0 p0 und0 (ns ++ [n]) ->
    scanned d g0 p0 nm0 und0 all0 ns q c ->
    exists c' i, create1 d n c = Ok c' /\ scanned d g0 p0 nm0 und0 all0 (ns ++ [n]) (q ++ [i]) c'.
  Proof.
    intros [(e0 & He0 & Ht0) Sids Str Sund Sinj] G.
    assert (Hn : In n (ns ++ [n])) by (apply in_or_app; right; left; reflexivity).
    destruct (Str n Hn) as [Tn Kn].
    assert (Nid : ~ In (tn_id n) (map tn_id ns)).
    { rewrite map_app in Sids. cbn in Sids. apply NoDup_remove_2 in Sids. rewrite app_nil_r in Sids. auto. }
    destruct G as [Gl Gp Gn Ge Gnd Gf Gp0 Gs Gb Gg Gnew Grp Gund0 Gund Gall Gmono].
    assert (Nid' : forall m, In m ns -> und m = true -> tn_id m <> tn_id n).
    { intros m Hm _ X. apply Nid. rewrite <- X. apply in_map; auto. }
    set (g := sn_graph c) in *.
    (* the previous element *)
    assert (Hprev : exists ep, E g (sn_prev c) = Some ep /\
              (q = [] /\ ep = e0 \/
               q <> [] /\ is_track_e ep = true /\ half d ep)).
    { rewrite Gp. destruct q as [|x q'].
      - exists e0. split; [cbn; apply Gp0; auto|left; auto].
      - set (qq := x :: q') in *.
        assert (Hq : qq <> []) by (unfold qq; congruence).
        assert (Hl : length qq - 1 < length qq) by (unfold qq; cbn; lia).
        destruct (ex_nth _ _ Hl) as [z Z].
        destruct (ex_nth ns (length qq - 1)) as [m M]; [lia|].
        destruct (Ge _ _ _ M Z) as (e & He & Hm & _ & _ & Hh & _).
        exists e. rewrite (nth_last qq p0 z Hq Z). split; auto. right. split; auto. split.
        + unfold is_track_e. destruct Hm as (-> & _).
          apply (Str m). apply in_or_app. left. eapply nth_error_In; eauto.
        + apply Hh. apply nth_error_None. lia. }
    destruct Hprev as (ep & Hep & Hcase).
    assert (Hpin : In (sn_prev c) (p0 :: q)) by (rewrite Gp; apply last_in).
    assert (Hold : forall i e, rp_find und0 (tn_id n) = Some i -> E g0 i = Some e -> d = false ->
                   i <> p0 -> ~ In i (p0 :: q)).
    { intros i e H1 H2 Hd H5 [Hi|Hi]; [congruence|]. apply In_nth_error in Hi. destruct Hi as [k Hk].
      assert (Hkl : k < length q) by (apply nth_error_Some; congruence).
      destruct (ex_nth ns k) as [m M]; [lia|].
      destruct (Ge _ _ _ M Hk) as (e' & _ & _ & _ & _ & _ & _ & Hu & Ho & _).
      destruct (und m) eqn:Um.
      - specialize (Hu eq_refl). rewrite (Gund0 Hd) in Hu.
        apply Nid. rewrite (Sinj _ _ _ H1 Hu). apply in_map. eapply nth_error_In; eauto.
      - cbn in Ho. apply E_lt in H2. lia. }
    (* the undirected element of the node *)
    assert (Hu : is_directed_track_element (tn_type n) = false ->
      if d then rp_find (sn_und c) (tn_id n) = None
      else exists i e, rp_find (sn_und c) (tn_id n) = Some i /\ E g i = Some e /\
                    ready false e /\ made n e /\ i <> sn_prev c).
    { intros D. assert (U : und n = true) by (unfold und; rewrite D; reflexivity).
      specialize (Sund n Hn U). destruct d.
      - rewrite Gund; auto.
      - destruct Sund as (i & e & H1 & H2 & H3 & H4 & H5 & H6).
        pose proof (Hold i e H1 H2 eq_refl H5) as Hni.
        exists i, e. rewrite Gund, Gf by auto. split; [auto|]. split; [auto|]. split; [auto|].
        split; [auto|]. intros ->. auto. }
    destruct (step d n c ep Tn (keep_rising d n Kn) Hep Hu) as (c' & i & Hc' & St & Hp').
    exists c', i. split; [exact Hc'|].
    destruct St as [Tp Tname Tne (ei & Hei & Hmade & Hhalf & Hbk) Tf Ts Tb Tk]. fold g in Tf, Ts, Tb, Tk.
    set (g' := sn_graph c') in *.
    (* the new element is not one of the chain *)
    assert (Hnin : ~ In i (p0 :: q)).
    { destruct Tk as [(-> & _)|(D & Hd & Hf & _)].
      - intros [Hi|Hi].
        + apply E_lt in He0. lia.
        + apply In_nth_error in Hi. destruct Hi as [k Hk].
          assert (Hkl : k < length q) by (apply nth_error_Some; congruence).
          destruct (ex_nth ns k) as [m M]; [lia|].
          destruct (Ge _ _ _ M Hk) as (e' & He' & _). apply E_lt in He'. lia.
      - assert (U : und n = true) by (unfold und; rewrite D; reflexivity).
        specialize (Sund n Hn U). rewrite Hd in Sund.
        destruct Sund as (i' & e & H1 & H2 & H3 & H4 & H5 & H6).
        rewrite (Gund0 Hd), H1 in Hf. injection Hf as <-. eapply Hold; eauto. }
    assert (Hlq : length (q ++ [i]) = S (length q)) by (rewrite app_length; cbn; lia).
    assert (Hlen0 : len g0 <= len g') by (destruct Tk as [(_ & H & _)|(_ & _ & _ & H & _)]; lia).
    assert (Hrpn : rp_find (g_rp g') (tn_id n) = Some i).
    { destruct Tk as [(_ & _ & -> & _)|(D & Hd & Hf & _ & -> & _)].
      - cbn. rewrite N.eqb_refl. reflexivity.
      - assert (U : und n = true) by (unfold und; rewrite D; reflexivity).
        specialize (Sund n Hn U). rewrite Hd in Sund.
        destruct Sund as (i' & e & H1 & H2 & H3 & H4 & H5 & H6).
        rewrite (Gund0 Hd), H1 in Hf. injection Hf as <-. rewrite Grp by auto. exact H6. }
    assert (Hrpo : forall id, id <> tn_id n -> rp_find (g_rp g') id = rp_find (g_rp g) id).
    { intros id Hid. destruct Tk as [(_ & _ & -> & _)|(_ & _ & _ & _ & -> & _)]; [|reflexivity].
      cbn. destruct (N.eqb (tn_id n) id) eqn:X; [|reflexivity]. apply N.eqb_eq in X. congruence. }
    assert (Huo : forall id, (und n = true -> tn_id n <> id) -> rp_find (sn_und c') id = rp_find (sn_und c) id).
    { intros id Hid. destruct Tk as [(_ & _ & _ & _ & -> & _)|(_ & _ & _ & _ & _ & _ & -> & _)]; [|reflexivity].
      unfold und in Hid. destruct (is_directed_track_element (tn_type n)); [reflexivity|].
      cbn. destruct (N.eqb (tn_id n) id) eqn:X; [|reflexivity]. apply N.eqb_eq in X. exfalso; apply Hid; auto. }
    assert (Hun : und n = true -> rp_find (sn_und c') (tn_id n) = Some i).
    { intros U. unfold und in U. destruct (is_directed_track_element (tn_type n)) eqn:D; [discriminate|].
      destruct Tk as [(_ & _ & _ & _ & -> & _)|(_ & _ & Hf & _ & _ & _ & -> & _)]; [|exact Hf].
      cbn. rewrite N.eqb_refl. reflexivity. }
    split; fold g'.
    - rewrite Hlq, app_length, Gl. cbn. lia.
    - rewrite last_last. exact Tp.
    - rewrite Tname. destruct q; reflexivity.
    - intros k m j M J.
      assert (Hk : k < length (q ++ [i])) by (apply nth_error_Some; congruence). rewrite Hlq in Hk.
      destruct (Nat.eq_dec k (length q)) as [->|Hkn].
      + (* the new one *)
        rewrite nth_app_len in J. injection J as <-.
        rewrite Gl in M. rewrite nth_app_len in M. injection M as <-.
        exists ei. split; [exact Hei|]. split; [exact Hmade|]. split; [|split; [|split; [|split; [|split; [|split]]]]].
        * rewrite Hbk, Gp. rewrite nth_cons_app by lia.
          destruct q as [|x q']; [reflexivity|]. cbn [length nth_error].
          destruct (ex_nth (x :: q') (length q')) as [z Z]; [cbn; lia|]. rewrite Z.
          f_equal. symmetry. symmetry. apply nth_last; [congruence|]. cbn [length].
          replace (S (length q') - 1) with (length q') by lia. exact Z.
        * destruct Hhalf as (_ & -> & _). symmetry. apply nth_error_None. lia.
        * auto.
        * exact Hrpn.
        * exact Hun.
        * destruct Tk as [(-> & _ & _ & _ & _ & Hor)|(D & Hd & Hf & _ & _ & _ & _ & Hold2)].
          -- unfold und. destruct Hor as [-> | ->]; cbn; [exact Gg|]. rewrite andb_false_r. exact Gg.
          -- unfold und. rewrite D, Hd. cbn.
             assert (U : und n = true) by (unfold und; rewrite D; reflexivity).
             specialize (Sund n Hn U). rewrite Hd in Sund.
             destruct Sund as (i' & e & H1 & H2 & H3 & H4 & H5 & H6).
             rewrite (Gund0 Hd), H1 in Hf. injection Hf as <-.
             exists e. split; auto. apply Hold2; auto. rewrite Gf; auto.
        * intros U ->. destruct Hhalf as (_ & _ & [K|[_ K]]); [|exact K].
          exfalso. destruct Hmade as (_ & K' & _). unfold und in U.
          destruct (track_cases _ Tn) as [D|[_ D]]; [rewrite D in U; discriminate|].
          apply kind_undirected in D. congruence.
      + assert (Hkl : k < length q) by lia.
        rewrite nth_error_app1 in J by auto. rewrite nth_error_app1 in M by lia.
        destruct (Ge _ _ _ M J) as (e & He & Hm & Hb & Hfw & Hh & Hr & Hud & Ho & Hfree).
        assert (Hji : j <> i). { intros ->. apply Hnin. right. eapply nth_error_In; eauto. }
        assert (Hmid : tn_id m <> tn_id n).
        { intros X. apply Nid. rewrite <- X. apply in_map. eapply nth_error_In; eauto. }
        rewrite Hrpo, Huo by auto.
        rewrite nth_cons_app by lia.
        destruct (Nat.eq_dec (S k) (length q)) as [Hlast|Hnl].
        * (* the one before it *)
          assert (Hjp : sn_prev c = j).
          { rewrite Gp. apply nth_last; [intros ->; cbn in *; lia|].
            replace (length q - 1) with k by lia. exact J. }
          assert (Hq : q <> []) by (intros ->; cbn in *; lia).
          destruct Hcase as [[? _]|(_ & Htr & Hh')]; [contradiction|].
          rewrite Hjp in Hep, Hp'. rewrite He in Hep. injection Hep as <-.
          rewrite Htr in Hp'.
          assert (Hnm : sn_prev_name c = None) by (rewrite Gn; destruct q; congruence).
          destruct (sn_fw d e (sn_prev_name c) i Hh') as (F1 & F2 & F3).
          exists (set_neighbour_e (sn_prev_name c) i true e). split; [exact Hp'|].
          split; [eapply made_core; [|exact Hm]; rewrite core_sn; reflexivity|].
          split; [congruence|]. split; [rewrite F2, Hlast, nth_app_len; reflexivity|].
          split; [intros X; rewrite Hlast, nth_app_len in X; discriminate|].
          split; [auto|]. split; [auto|].
          assert (KU : und m = true -> e_kind e = KUndirected).
          { intros Um. destruct Hm as (_ & K & _). assert (Tm : is_track_element (tn_type m) = true).
            { apply (Str m). apply in_or_app. left. eapply nth_error_In; eauto. }
            unfold und in Um. destruct (track_cases _ Tm) as [D|[_ U]]; [rewrite D in Um; discriminate|].
            apply kind_undirected in U. congruence. }
          split.
          { destruct (und m && negb d) eqn:UD; [|exact Ho].
            destruct Ho as (e1 & X1 & X2 & X3). exists e1. split; auto. rewrite core_sn. split; auto.
            apply andb_prop in UD. destruct UD as [Um Dn]. destruct d; [discriminate|].
            specialize (F3 (KU Um)). cbn [negb] in F3. unfold same_dir in *. destruct X3, F3. split; congruence. }
          intros Um ->. specialize (F3 (KU Um)). cbn [negb] in F3. destruct F3. destruct (Hfree Um eq_refl).
          split; congruence.
        * exists e. rewrite Tf.
          -- split; [auto|]. split; [auto|]. split; [auto|].
             rewrite nth_error_app1 by lia. split; [auto|]. split; [auto|]. split; [auto|]. split; [auto|].
             split; [exact Ho|exact Hfree].
          -- auto.
          -- intros ->. rewrite Gp in J. 
             assert (Hq : q <> []) by (intros ->; cbn in *; lia).
             destruct (ex_nth q (length q - 1)) as [z Z]; [lia|].
             rewrite (nth_last q p0 z Hq Z) in J.
             assert (NoDup q) by (inversion Gnd; auto).
             rewrite NoDup_nth_error in H. specialize (H k (length q - 1) Hkl). rewrite J, Z in H.
             specialize (H eq_refl). lia.
    - rewrite app_comm_cons. apply NoDup_Add with (a := i) (l := p0 :: q).
      + rewrite <- (app_nil_r (p0 :: q)) at 1. apply Add_app.
      + split; auto.
    - intros j Hj. rewrite Tf.
      + apply Gf. intros X. apply Hj. rewrite app_comm_cons. apply in_or_app; auto.
      + intros ->. apply Hj. rewrite app_comm_cons. apply in_or_app; right; left; auto.
      + intros ->. apply Hj. rewrite app_comm_cons. apply in_or_app; auto.
    - intros e1 He1. rewrite He0 in He1. injection He1 as <-.
      destruct Hcase as [[Hq ->]|(Hq & _)].
      + subst q. cbn in Gp, Gn. rewrite Gp, Gn in Hp'. rewrite Ht0 in Hp'. exact Hp'.
      + assert (sn_prev c <> p0).
        { rewrite Gp. intros X. inversion Gnd as [|a b Hni _]. subst. apply Hni.
          destruct (exists_last Hq) as (l & z & ->). rewrite last_last in *.
          apply in_or_app; right; left; congruence. }
        rewrite Tf; auto.
        * rewrite (Gp0 _ He0). destruct q; [congruence|reflexivity].
        * intros ->. apply Hnin. left; reflexivity.
    - congruence.
    - congruence.
    - lia.
    - intros j Hj. apply in_or_app.
      destruct Tk as [(Hi & Hl & _)|(_ & _ & _ & Hl & _)].
      + destruct (Nat.eq_dec j i); [right; left; auto|]. left. apply Gnew. lia.
      + left. apply Gnew. lia.
    - intros id Hid. rewrite map_app in Hid. rewrite Hrpo.
      + apply Grp. intros X. apply Hid. apply in_or_app; auto.
      + intros ->. apply Hid. apply in_or_app; right; left; auto.
    - intros Hd. destruct Tk as [(_ & _ & _ & _ & -> & [->|Hd'])|(_ & _ & _ & _ & _ & _ & -> & _)]; auto.
      congruence.
    - intros id Hid. rewrite Huo.
      + apply Gund. intros m Hm. apply Hid. apply in_or_app; auto.
      + apply Hid; auto.
    - rewrite filter_app. cbn [filter]. rewrite app_assoc.
      destruct Tk as [(Hi & _ & _ & -> & _)|(D & Hd & Hf & _ & _ & -> & _)].
      + rewrite Gall. destruct (Nat.leb_spec (len g0) i); [reflexivity|lia].
      + assert (U : und n = true) by (unfold und; rewrite D; reflexivity).
        specialize (Sund n Hn U). rewrite Hd in Sund.
        destruct Sund as (i' & e & H1 & H2 & H3 & H4 & H5 & H6).
        rewrite (Gund0 Hd), H1 in Hf. injection Hf as <-. apply E_lt in H2.
        destruct (Nat.leb_spec (len g0) i'); [lia|]. rewrite app_nil_r. exact Gall.
    - intros k1 k2 i1 i2 Hk H1 H2 Hi2.
      assert (Hk2 : k2 < length (q ++ [i])) by (apply nth_error_Some; congruence). rewrite Hlq in Hk2.
      rewrite nth_error_app1 in H1 by lia.
      destruct (Nat.eq_dec k2 (length q)) as [->|Hkn].
      + rewrite nth_app_len in H2. injection H2 as <-.
        assert (Hk1 : k1 < length q) by (apply nth_error_Some; congruence).
        destruct (ex_nth ns k1) as [m M]; [lia|].
        destruct (Ge _ _ _ M H1) as (e' & He' & _). apply E_lt in He'.
        destruct Tk as [(Hi & _)|(D & Hd & Hf & _)]; [lia|].
        assert (U : und n = true) by (unfold und; rewrite D; reflexivity).
        specialize (Sund n Hn U). rewrite Hd in Sund.
        destruct Sund as (i' & e & X1 & X2 & _).
        rewrite (Gund0 Hd), X1 in Hf. injection Hf as <-. apply E_lt in X2. lia.
      + rewrite nth_error_app1 in H2 by lia. exact (Gmono k1 k2 i1 i2 Hk H1 H2 Hi2).
  Qed.

  Lemma NoDup_left {A} (a b : list A) : NoDup (a ++ b) -> NoDup a.
  Proof.
    induction a as [|x a IH]; cbn; intros H; [constructor|]. inversion H; subst.
    constructor; auto. intros X. apply H2, in_or_app; auto.
  Qed.
  Lemma pass_ok d g0 p0 nm0 und0 all0 ns :
    startable d g0 p0 und0 ns ->
    exists q c, pass d ns (mkscan g0 p0 (Some nm0) und0 all0) = Ok c /\
                scanned d g0 p0 nm0 und0 all0 ns q c.
  Proof.
    induction ns as [|n ns IH] using rev_ind; intros S.
    - destruct S as [(e0 & He0 & Ht0) _ _ _ _].
      exists [], (mkscan g0 p0 (Some nm0) und0 all0). split; [reflexivity|].
      split; cbn [sn_graph sn_prev sn_prev_name sn_und sn_all]; auto.
      + intros [|k] ? ? H; discriminate.
      + constructor; auto. constructor.
      + lia.
      + cbn. rewrite app_nil_r. auto.
      + intros ? [|k2] ? ? _ _ X; discriminate.
    - destruct IH as (q & c & Hc & G).
      { destruct S as [A B C D F]. split; auto.
        - rewrite map_app in B. apply NoDup_left in B. auto.
        - intros m Hm. apply C. apply in_or_app; auto.
        - intros m Hm. apply D. apply in_or_app; auto. }
      destruct (pass_step _ _ _ _ _ _ _ _ _ _ S G) as (c' & i & Hc' & G').
      exists (q ++ [i]), c'. split; auto. rewrite pass_app, Hc. cbn [bind pass]. rewrite Hc'. reflexivity.
  Qed.
End SCAN.
