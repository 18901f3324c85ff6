(* The track of a section in both directions *)
From Coq Require Import List Bool NArith QArith Arith String Sorted Permutation Lia.
From Verif Require Import Base PhysModel TextModel InfraModel InfraOrder InfraSpec InfraHeap InfraScan InfraLay.
Import ListNotations.
Local Open Scope nat_scope.

Lemma filter_NoDup_map {A B} (f : A -> B) (h : A -> bool) l : NoDup (map f l) -> NoDup (map f (filter h l)).
Proof.
  induction l as [|x l IH]; cbn; intros H; [constructor|]. inversion H; subst.
  destruct (h x); cbn; auto. constructor; auto. intros X. apply H2.
  apply in_map_iff in X. destruct X as (y & Y1 & Y2). rewrite <- Y1. apply in_map.
  apply filter_In in Y2. tauto.
Qed.

Lemma NoDup_app_parts {A} (x y : list A) : NoDup x -> NoDup y -> (forall i, In i x -> In i y -> False) ->
  NoDup (x ++ y).
Proof.
  induction x as [|a x IH]; cbn; intros Hx Hy H; auto. inversion Hx; subst. constructor.
  - intros X. apply in_app_or in X. destruct X; auto. eapply H; eauto.
  - apply IH; auto. intros i Hi. apply H. right; auto.
Qed.

Section LAY.
  Variables (st sec : nat) (ln : N) (g0 : graph) (a b : nat) (na nb : sname) (nodes : list tnode) (ea eb : elem).
  Hypothesis Ha : E g0 a = Some ea.
  Hypothesis Hb : E g0 b = Some eb.
  Hypothesis Hab : a <> b.
  Hypothesis Ka : kind_of (stype na) = Some (e_kind ea).
  Hypothesis Kb : kind_of (stype nb) = Some (e_kind eb).
  Hypothesis Ta : is_track_e ea = false.
  Hypothesis Tb : is_track_e eb = false.
  Hypothesis Ba : na = N_BORDER -> e_rise ea S0 = false.
  Hypothesis Bb : nb = N_BORDER -> e_rise eb S0 = true.
  Hypothesis Na : forall s r, e_nb ea s r <> Some b.
  Hypothesis Nb : forall s r, e_nb eb s r <> Some a.
  Hypothesis Ids : NoDup (map tn_id nodes).
  Hypothesis Range : forall n, In n nodes -> tn_id n <> RP_MAX.
  Hypothesis Track : forall n, In n nodes -> is_track_element (tn_type n) = true.

  Lemma nodes_in_perm (d : bool) : Permutation (if d then sort_nodes true nodes else sort_nodes false (sort_nodes true nodes)) nodes.
  Proof.
    unfold sort_nodes. destruct d.
    - apply sort_perm.
    - eapply perm_trans; apply sort_perm.
  Qed.
  Lemma nodes_in_spec d n : In n (nodes_in nodes d) <-> In n nodes /\ keep d n = true.
  Proof.
    unfold nodes_in. rewrite filter_In. split; intros [H1 H2]; split; auto.
    - eapply Permutation_in; [apply nodes_in_perm|exact H1].
    - eapply Permutation_in; [apply Permutation_sym, nodes_in_perm|exact H1].
  Qed.
  Lemma nodes_in_ids d : NoDup (map tn_id (nodes_in nodes d)).
  Proof.
    unfold nodes_in. apply filter_NoDup_map.
    eapply Permutation_NoDup; [|exact Ids]. apply Permutation_map, Permutation_sym, nodes_in_perm.
  Qed.
  Lemma same_id n m : In n nodes -> In m nodes -> tn_id n = tn_id m -> n = m.
  Proof.
    clear - Ids. induction nodes as [|x l IH]; intros Hn Hm H; [destruct Hn|].
    cbn in Ids. inversion Ids as [|? ? H1 H2]; subst. destruct Hn as [<-|Hn], Hm as [<-|Hm]; auto.
    - exfalso. apply H1. rewrite H. apply in_map; auto.
    - exfalso. apply H1. rewrite <- H. apply in_map; auto.
  Qed.
  Lemma keep_und d n : und n = true -> keep d n = true.
  Proof. unfold und, keep. destruct (is_directed_track_element (tn_type n)); [discriminate|reflexivity]. Qed.

  Lemma lay_ok : exists g all q, lay g0 st ln sec na nb nodes a b = Ok (g, all) /\
    laid st sec ln g0 a b (side_of na false) (side_of nb true) nodes q all g.
  Proof.
    assert (La := E_lt _ _ _ Ha). assert (Lb := E_lt _ _ _ Hb).
    (* rising *)
    assert (S1 : startable st sec ln true g0 a [] (nodes_in nodes true)).
    { split.
      - eauto.
      - apply nodes_in_ids.
      - intros n Hn. apply nodes_in_spec in Hn. destruct Hn. auto.
      - intros n Hn U. reflexivity.
      - intros ? ? ? X; discriminate. }
    destruct (pass_ok st sec ln true g0 a na [] [] _ S1) as (q1 & c & Hc & G1).
    unfold lay. rewrite insert_pass. change (filter (keep true) (sort_nodes true nodes)) with (nodes_in nodes true).
    rewrite Hc. cbn [bind]. cbv zeta.
    assert (Range1 : forall n, In n (nodes_in nodes true) -> tn_id n <> RP_MAX).
    { intros n Hn. apply nodes_in_spec in Hn. apply Range, Hn. }
    assert (Range2 : forall n, In n (nodes_in nodes false) -> tn_id n <> RP_MAX).
    { intros n Hn. apply nodes_in_spec in Hn. apply Range, Hn. }
    assert (Hpv : exists ev, E (sn_graph c) (sn_prev c) = Some ev /\ sn_prev c <> b /\ E (sn_graph c) b = Some eb).
    { eapply scanned_prev; eauto. }
    destruct Hpv as (ev & Hev & Hvb & Hcb).
    destruct (close_ok st sec ln true g0 a b na nb false true [] [] _ ea eb S1 Ha Hb Hab Ka Kb Ba Bb Tb Na Nb Range1
                 q1 c (set_neighbour (set_neighbour (sn_graph c) (sn_prev c) (sn_prev_name c) b true) b (Some nb) (sn_prev c) true) G1)
      as (g1 & all1 & qr & Hm1 & W1).
    { intros ev' Hev'. rewrite Hev in Hev'. injection Hev' as <-. unfold set_neighbour.
      rewrite E_upd_ne by auto. erewrite E_upd_eq by exact Hev. destruct (is_track_e ev); reflexivity. }
    { unfold set_neighbour. apply E_upd_eq. rewrite E_upd_ne by auto. exact Hcb. }
    { intros j J1 J2. unfold set_neighbour. rewrite !E_upd_ne by auto. reflexivity. }
    { unfold set_neighbour. rewrite !len_upd. reflexivity. }
    { reflexivity. } { reflexivity. } { reflexivity. }
    rewrite Hm1. cbn [bind].
    destruct W1 as [Wp Wt We Wnd Wn Wm Wf Ws Wb Wg Wnew Wrp _ Wu Wall Wmono].
    destruct (Wp _ Ha) as (ea1 & v1 & Ea1 & Hv1 & Ca1 & Fa1).
    destruct (Wt _ Hb) as (eb1 & Eb1 & Cb1 & Fb1).
    (* falling *)
    assert (Hqr : forall i, In i qr -> len g0 <= i).
    { intros i Hi. apply In_nth_error in Hi. destruct Hi as [k K].
      destruct (We _ _ K) as (e & _ & _ & _ & _ & _ & _ & H). auto. }
    assert (Hlr : forall n, In n (nodes_in nodes true) -> exists k i, nth_error (nodes_in nodes true) k = Some n /\ nth_error qr k = Some i).
    { intros n Hn. apply In_nth_error in Hn. destruct Hn as [k K].
      assert (k < length (nodes_in nodes true)) by (apply nth_error_Some; congruence).
      assert (Hlen : length qr = length (nodes_in nodes true)).
      { destruct (nodes_in nodes true); [destruct k; discriminate|exact Wn]. }
      destruct (ex_nth qr k) as [i I]; [lia|]. eauto. }
    assert (Hundr : forall n, In n nodes -> und n = true -> exists i e, rp_find (sn_und c) (tn_id n) = Some i /\
              E g1 i = Some e /\ made st sec ln n e /\ rp_find (g_rp g1) (tn_id n) = Some i /\ In i qr /\
              exists k, nth_error (nodes_in nodes true) k = Some n /\ nth_error qr k = Some i).
    { intros n Hn U. destruct (Hlr n) as (k & i & K1 & K2).
      - apply nodes_in_spec. split; auto. apply keep_und; auto.
      - destruct (Wm _ _ _ K1 K2) as (e & X1 & X2 & X3 & X4). exists i, e.
        repeat (split; [eauto; try (eapply nth_error_In; eauto)|]). eauto. }
    assert (KU : forall n e, In n nodes -> und n = true -> made st sec ln n e -> e_kind e = KUndirected).
    { intros n e Hn U (_ & K & _). specialize (Track n Hn). unfold und in U.
      destruct (track_cases _ Track) as [D|[_ D]]; [rewrite D in U; discriminate|].
      apply kind_undirected in D. congruence. }
    assert (S2 : startable st sec ln false g1 b (sn_und c) (nodes_in nodes false)).
    { split.
      - exists eb1. split; auto. apply core_inv in Cb1. destruct Cb1 as (X & _).
        unfold is_track_e. rewrite X. exact Tb.
      - apply nodes_in_ids.
      - intros n Hn. apply nodes_in_spec in Hn. destruct Hn. auto.
      - intros n Hn U. apply nodes_in_spec in Hn. destruct Hn as [Hn _].
        destruct (Hundr n Hn U) as (i & e & X1 & X2 & X3 & X4 & X5 & k & K1 & K2).
        exists i, e. split; auto. split; auto. split; [|split; [auto|split; [|auto]]].
        + destruct (We _ _ K2) as (e' & Y1 & _ & _ & _ & Y2 & _). rewrite X2 in Y1. injection Y1 as <-.
          apply Y2; auto. eapply KU; eauto.
        + apply Hqr in X5. lia.
      - intros x y i X Y.
        assert (F : forall x, rp_find (sn_und c) x = Some i -> exists n, In n nodes /\ und n = true /\ tn_id n = x).
        { intros z Z. destruct (existsb (fun n => und n && N.eqb (tn_id n) z) nodes) eqn:B.
          - apply existsb_exists in B. destruct B as (n & Hn & B). apply andb_prop in B.
            destruct B as [B1 B2]. apply N.eqb_eq in B2. eauto.
          - exfalso. rewrite Wu in Z; [discriminate|]. intros n Hn U I.
            assert (existsb (fun n => und n && N.eqb (tn_id n) z) nodes = true); [|congruence].
            apply existsb_exists. exists n. split; [apply nodes_in_spec in Hn; apply Hn|].
            rewrite U. cbn. apply N.eqb_eq; auto. }
        destruct (F x X) as (n & Hn & Un & <-). destruct (F y Y) as (m & Hm & Um & <-).
        destruct (Hundr n Hn Un) as (i1 & e1 & A1 & _ & _ & _ & _ & k1 & A2 & A3).
        destruct (Hundr m Hm Um) as (i2 & e2 & B1 & _ & _ & _ & _ & k2 & B2 & B3).
        assert (i1 = i) by congruence. assert (i2 = i) by congruence. subst.
        assert (ND : NoDup qr) by (inversion Wnd as [|? ? ? ND]; inversion ND; auto).
        rewrite NoDup_nth_error in ND. assert (k1 = k2).
        { apply ND; [apply nth_error_Some; congruence|congruence]. }
        subst. congruence. }
    destruct (pass_ok st sec ln false g1 b nb (sn_und c) all1 _ S2) as (q2 & dd & Hd & G2).
    rewrite insert_pass. change (filter (keep false) (sort_nodes false (sort_nodes true nodes))) with (nodes_in nodes false).
    rewrite Hd. cbn [bind].
    assert (Hpv : exists ev, E (sn_graph dd) (sn_prev dd) = Some ev /\ sn_prev dd <> a /\ E (sn_graph dd) a = Some ea1).
    { eapply scanned_prev; [exact S2|exact Eb1|exact Ea1|congruence| |exact G2].
      apply core_inv in Ca1. destruct Ca1 as (X & _). unfold is_track_e. rewrite X. exact Ta. }
    destruct Hpv as (ev2 & Hev2 & Hva & Hda).
    assert (Hge : get_e (set_neighbour (sn_graph dd) a (Some na) (sn_prev dd) false) (sn_prev dd) = Ok ev2).
    { apply get_e_ok. unfold set_neighbour. rewrite E_upd_ne by auto. exact Hev2. }
    rewrite Hge. cbn [bind].
    assert (Core1 : e_kind ea1 = e_kind ea /\ e_rise ea1 = e_rise ea /\ is_track_e ea1 = is_track_e ea).
    { apply core_inv in Ca1. destruct Ca1 as (X1 & X2 & X3 & _). unfold is_track_e. rewrite X1. auto. }
    assert (Core2 : e_kind eb1 = e_kind eb /\ e_rise eb1 = e_rise eb /\ is_track_e eb1 = is_track_e eb).
    { apply core_inv in Cb1. destruct Cb1 as (X1 & X2 & X3 & _). unfold is_track_e. rewrite X1. auto. }
    destruct Core1 as (C1 & C2 & C3). destruct Core2 as (D1 & D2 & D3).
    set (gd := if is_track_e ev2
               then set_neighbour (set_neighbour (sn_graph dd) a (Some na) (sn_prev dd) false) (sn_prev dd) (sn_prev_name dd) a true
               else set_neighbour (set_neighbour (sn_graph dd) a (Some na) (sn_prev dd) false) (sn_prev dd) (sn_prev_name dd) a false).
    assert (Hlast : In (last qr a) qr).
    { destruct qr as [|x r]; [discriminate|]. destruct (@exists_last _ (x :: r)) as (l & z & ->); [congruence|].
      rewrite last_last. apply in_or_app; right; left; auto. }
    destruct (close_ok st sec ln false g1 b a nb na true false (sn_und c) all1 _ eb1 ea1 S2 Eb1 Ea1)
      with (q := q2) (c := dd) (g2 := gd) as (g2 & all2 & qf & Hm2 & W2); auto.
    { congruence. } { congruence. }
    { intros X. rewrite D2; auto. }
    { intros X. rewrite C2; auto. }
    { congruence. }
    { intros s r. rewrite Fb1. destruct (side_eqb s (side_of nb true) && eqb r true); [|apply Nb].
      intros X. injection X as X. apply Hqr in Hlast. lia. }
    { intros s r. rewrite Fa1. destruct (side_eqb s (side_of na false) && eqb r true); [|apply Na].
      intros X. injection X as ->. assert (In b qr); [|apply Hqr in H; lia].
      destruct qr; [discriminate|]. injection Hv1 as ->. left; auto. }
    { intros e He. rewrite Hev2 in He. injection He as <-. unfold gd, set_neighbour.
      destruct (is_track_e ev2); apply E_upd_eq; rewrite E_upd_ne by auto; exact Hev2. }
    { unfold gd, set_neighbour. destruct (is_track_e ev2); rewrite E_upd_ne by auto; apply E_upd_eq; exact Hda. }
    { intros j J1 J2. unfold gd, set_neighbour. destruct (is_track_e ev2); rewrite !E_upd_ne by auto; reflexivity. }
    { unfold gd, set_neighbour. destruct (is_track_e ev2); rewrite !len_upd; reflexivity. }
    { unfold gd; destruct (is_track_e ev2); reflexivity. }
    { unfold gd; destruct (is_track_e ev2); reflexivity. }
    { unfold gd; destruct (is_track_e ev2); reflexivity. }
    exists g2, all2, (fun d : bool => if d then qr else qf). split; [exact Hm2|].
    destruct W2 as [Vp Vt Ve Vnd Vn Vm Vf Vs Vb Vg Vnew Vrp Vu0 Vu Vall Vmono].
    specialize (Vu0 eq_refl).
    destruct (Vp _ Eb1) as (eb2 & v2 & Eb2 & Hv2 & Cb2 & Fb2).
    destruct (Vt _ Ea1) as (ea2 & Ea2 & Ca2 & Fa2).
    (* elements of the rising run after the falling scan *)
    assert (Hkeep : forall i e1, In i qr -> E g1 i = Some e1 -> exists e, E g2 i = Some e /\ core e = core e1 /\ same_dir true e1 e).
    { intros i e1 Hi He1. destruct (in_dec Nat.eq_dec i qf) as [Hf|Hf].
      - apply In_nth_error in Hf. destruct Hf as [k K].
        destruct (Ve _ _ K) as (e & X1 & _ & _ & (_ & _ & _ & _ & [[T _]|U]) & _ & X2 & X3).
        + specialize (X3 (or_introl T)). apply E_lt in He1. lia.
        + destruct (X2 U eq_refl) as (e0 & Y1 & Y2 & Y3). rewrite He1 in Y1. injection Y1 as <-. eauto.
      - exists e1. rewrite Vf; auto. { split; auto. split; auto. split; auto. }
        intros [X|[X|X]]; auto; apply Hqr in Hi; lia. }
    assert (Hlf : forall k i, nth_error qf k = Some i -> nodes_in nodes false = [] \/
              exists n, nth_error (nodes_in nodes false) k = Some n).
    { intros k i K. destruct (nodes_in nodes false) as [|n0 r] eqn:X; [auto|right].
      apply ex_nth. rewrite <- Vn. apply nth_error_Some. congruence. }
    assert (Hqu : forall i e, In i qf -> E g2 i = Some e -> e_kind e = KUndirected -> In i qr).
    { intros i e Hi He KE. apply In_nth_error in Hi. destruct Hi as [k K].
      destruct (Hlf _ _ K) as [X|[n N]].
      - rewrite X in Vn. destruct Vn as (m & em & -> & Hm & Tm & _).
        destruct k as [|[|k]]; try discriminate. injection K as <-. rewrite He in Hm. injection Hm as <-.
        destruct (Ve 0 m eq_refl) as (e' & Y1 & _ & _ & (_ & Y2 & _) & _).
        rewrite He in Y1. injection Y1 as <-. rewrite Tm in Y2. cbn in Y2. congruence.
      - destruct (Vm _ _ _ N K) as (e' & Y1 & Y2 & Y3 & Y4). rewrite He in Y1. injection Y1 as <-.
        assert (Hn : In n nodes).
        { apply nth_error_In in N. apply nodes_in_spec in N. apply N. }
        assert (U : und n = true).
        { unfold und. destruct (is_directed_track_element (tn_type n)) eqn:D; [|reflexivity].
          apply kind_directed in D. destruct Y2 as (_ & Y2 & _). congruence. }
        specialize (Y4 U). rewrite Vu0 in Y4.
        destruct (Hundr n Hn U) as (i' & e' & A1 & _ & _ & _ & A2 & _). congruence. }
    assert (Hqf : forall i, In i qf -> len g0 <= i).
    { intros i Hi. pose proof Hi as Hi'. apply In_nth_error in Hi. destruct Hi as [k K].
      destruct (Ve _ _ K) as (e & X1 & _ & _ & (X4 & _ & _ & _ & [[T _]|U]) & _ & X2 & X3).
      - specialize (X3 (or_introl T)). lia.
      - apply Hqr. eapply Hqu; eauto. }
    assert (Hlast2 : In (last qf b) qf).
    { destruct qf as [|x r]; [discriminate|]. destruct (@exists_last _ (x :: r)) as (l & z & ->); [congruence|].
      rewrite last_last. apply in_or_app; right; left; auto. }
    assert (NDr : NoDup qr) by (inversion Wnd as [|? ? ? ND]; inversion ND; auto).
    assert (NDf : NoDup qf) by (inversion Vnd as [|? ? ? ND]; inversion ND; auto).
    split.
    - intros e He. rewrite Ha in He. injection He as <-. exists ea2. split; [auto|]. split; [congruence|].
      intros s r. rewrite Fa2, Fa1. destruct (side_eqb s (side_of na false)), r; cbn; congruence.
    - intros e He. rewrite Hb in He. injection He as <-. exists eb2. split; [auto|]. split; [congruence|].
      intros s r. rewrite Fb2, Fb1. destruct (side_eqb s (side_of nb true)), r; cbn; congruence.
    - intros [|] k i K.
      + destruct (We _ _ K) as (e1 & X1 & X2 & X3 & X4 & _).
        destruct (Hkeep i e1) as (e & Y1 & Y2 & Y3 & Y4); [eapply nth_error_In; eauto|auto|].
        exists e. split; [auto|]. split; [congruence|]. split; [congruence|].
        split; [|apply Hqr; eapply nth_error_In; eauto].
        apply core_inv in Y2. destruct Y2 as (Z1 & Z2 & Z3 & Z4 & _ & _ & _ & _ & Z9).
        unfold track_elem, is_track_e in *. rewrite Z1, Z2, Z3, Z4, Z9. exact X4.
      + destruct (Ve _ _ K) as (e & X1 & X2 & X3 & X4 & _). exists e. repeat (split; [auto|]).
        apply Hqf. eapply nth_error_In; eauto.
    - intros [|]; auto.
    - intros [|] X; [rewrite X in Hv1|rewrite X in Hv2]; discriminate.
    - intros [|].
      + destruct (nodes_in nodes true); [|exact Wn].
        destruct Wn as (m & e & Q & Em & Tm & Km).
        destruct (Hkeep m e) as (e' & Y1 & Y2 & _); [rewrite Q; left; auto|auto|].
        exists m, e'. split; [auto|]. split; [auto|]. apply core_inv in Y2. destruct Y2 as (-> & _ & _ & _ & -> & _). auto.
      + destruct (nodes_in nodes false); [|exact Vn]. destruct Vn as (m & e & Q & Em & Tm & Km).
        exists m, e. split; [auto|]. split; [auto|]. split; [auto|]. intros e0 H0.
        rewrite Hb in H0. injection H0 as <-. rewrite (Km _ Eb1).
        apply core_inv in Cb1. destruct Cb1 as (_ & _ & _ & _ & -> & _). reflexivity.
    - intros [|] k n i N I.
      + destruct (Wm _ _ _ N I) as (e1 & X1 & X2 & X3 & X4).
        destruct (Hkeep i e1) as (e & Y1 & Y2 & Y3); [eapply nth_error_In; eauto|auto|].
        exists e. split; [auto|]. split; [eapply made_core; [symmetry; exact Y2|auto]|].
        assert (Hn : In n nodes) by (apply nth_error_In in N; apply nodes_in_spec in N; apply N).
        destruct (in_dec N.eq_dec (tn_id n) (map tn_id (nodes_in nodes false))) as [Hin|Hin].
        * apply in_map_iff in Hin. destruct Hin as (n' & Z1 & Z2).
          pose proof Z2 as Z3. apply nodes_in_spec in Z3. destruct Z3 as [Z3 Z4].
          assert (n' = n) by (apply same_id; auto). subst n'.
          assert (U : und n = true).
          { unfold und. destruct (is_directed_track_element (tn_type n)) eqn:D; [|reflexivity].
            apply nth_error_In in N. apply nodes_in_spec in N. destruct N as [_ N].
            pose proof (keep_rising true n N D). pose proof (keep_rising false n Z4 D). congruence. }
          apply In_nth_error in Z2. destruct Z2 as [k' K'].
          destruct (ex_nth qf k') as [i' I'].
          { destruct (nodes_in nodes false) eqn:NF; [destruct k'; discriminate|]. rewrite Vn.
            apply nth_error_Some. congruence. }
          destruct (Vm _ _ _ K' I') as (e' & _ & _ & V1 & V2). specialize (V2 U). rewrite Vu0 in V2.
          specialize (X4 U). congruence.
        * rewrite Vrp; auto.
      + destruct (Vm _ _ _ N I) as (e1 & X1 & X2 & X3 & X4). eauto.
    - intros [|] i e Hi He KE; cbn [negb].
      + apply In_nth_error in Hi. destruct Hi as [k K].
        assert (Hn : exists n, nth_error (nodes_in nodes true) k = Some n).
        { destruct (nodes_in nodes true) as [|n0 r] eqn:X.
          - exfalso. destruct Wn as (m & em & -> & Hm & Tm & _).
            destruct k as [|[|k]]; try discriminate. injection K as <-.
            destruct (We 0 m eq_refl) as (e' & Y1 & _ & _ & (_ & Y2 & _) & _).
            rewrite Hm in Y1. injection Y1 as <-. rewrite Tm in Y2. cbn in Y2.
            destruct (Hkeep m em) as (e' & Z1 & Z2 & _); [left; auto|auto|].
            rewrite He in Z1. injection Z1 as <-. apply core_inv in Z2. destruct Z2 as (_ & Z2 & _). congruence.
          - apply ex_nth. rewrite <- Wn. apply nth_error_Some. congruence. }
        destruct Hn as [n N].
        destruct (Wm _ _ _ N K) as (e1 & X1 & X2 & X3 & X4).
        destruct (Hkeep i e1) as (e' & Y1 & Y2 & Y3); [eapply nth_error_In; eauto|auto|].
        rewrite He in Y1. injection Y1 as <-.
        assert (Hn : In n nodes) by (apply nth_error_In in N; apply nodes_in_spec in N; apply N).
        assert (U : und n = true).
        { unfold und. destruct (is_directed_track_element (tn_type n)) eqn:D; [|reflexivity].
          apply kind_directed in D. destruct X2 as (_ & X2 & _).
          apply core_inv in Y2. destruct Y2 as (_ & Y2 & _). congruence. }
        assert (Hf : In n (nodes_in nodes false)) by (apply nodes_in_spec; split; auto; apply keep_und; auto).
        apply In_nth_error in Hf. destruct Hf as [k' K'].
        destruct (ex_nth qf k') as [i' I'].
        { destruct (nodes_in nodes false) eqn:NF; [destruct k'; discriminate|]. rewrite Vn.
          apply nth_error_Some. congruence. }
        destruct (Vm _ _ _ K' I') as (e' & _ & _ & V1 & V2). specialize (V2 U). rewrite Vu0 in V2.
        specialize (X4 U). assert (i' = i) by congruence. subst. eapply nth_error_In; eauto.
      + eapply Hqu; eauto.
    - intros j J1 J2 J3. rewrite Vf, Wf; auto.
      + intros [X|[X|X]]; auto. apply Hqr in X. lia.
      + intros [X|[X|X]]; auto. apply Hqf in X. lia.
    - intros j Hj. destruct (Nat.lt_ge_cases j (len g1)).
      + exists true. apply Wnew. lia.
      + exists false. apply Vnew. lia.
    - lia.
    - intros id Hid Hr. rewrite Vrp, Wrp; auto; intros X; apply Hid; apply in_map_iff in X;
        destruct X as (n & <- & X); apply in_map; apply nodes_in_spec in X; apply X.
    - congruence.
    - congruence.
    - assert (A1 : all1 = qr).
      { rewrite Wall. cbn [app]. clear - Hqr. induction qr as [|x r IH]; cbn; [reflexivity|].
        destruct (Nat.leb_spec (len g0) x) as [_|H].
        - f_equal. apply IH. intros; apply Hqr; right; auto.
        - specialize (Hqr x (or_introl eq_refl)). lia. }
      rewrite Vall, A1.
      assert (Hin1 : forall i, In i qr -> i < len g1).
      { intros i Hi. apply In_nth_error in Hi. destruct Hi as [k K].
        destruct (We _ _ K) as (e & X & _). eapply E_lt; eauto. }
      split.
      + apply NoDup_app_parts; auto.
        * apply NoDup_filter; auto.
        * intros i H1 H2. apply filter_In in H2. destruct H2 as [_ H2]. apply Nat.leb_le in H2.
          apply Hin1 in H1. lia.
      + intros j. rewrite in_app_iff, filter_In. split; [intuition|].
        intros [H|H]; [auto|]. destruct (Nat.leb_spec (len g1) j) as [L|L]; [auto|left].
        pose proof (Hqf _ H) as H0. apply Wnew. lia.
    - intros [|] k1 k2 i1 i2 e Hk H1 H2 He Ho.
      + apply (Wmono k1 k2 i1 i2 Hk H1 H2). apply Hqr. eapply nth_error_In; eauto.
      + destruct Ho as [Ho|Ho]; [|discriminate]. apply (Vmono k1 k2 i1 i2 Hk H1 H2).
        destruct (Ve _ _ H2) as (e' & X1 & _ & _ & _ & _ & _ & X3). rewrite He in X1. injection X1 as <-.
        apply X3; auto.
  Qed.
End LAY.
