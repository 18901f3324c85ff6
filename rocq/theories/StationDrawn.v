(* Station routes on a well-drawn plan: the way drawn is the path found *)
From Coq Require Import List Bool NArith QArith String Sorted Permutation Arith Lia.
From Verif Require Import Base PhysModel TextModel InfraModel InfraOrder InfraSpec InfraHeap InfraScan InfraLay InfraLaid
  InfraPlace InfraAdd InfraInv InfraBorder InfraDrive InfraNet
  StationModel StationSpec StationPath StationRoute StationProofs StationWay.
Import ListNotations.
Local Open Scope nat_scope.

Record net_facts (l : list xstation) (g : graph) (ls : list links) (run : nat -> bool -> list node)
  (arrive : nat -> bool -> node) : Prop := {
  nf_drawn : drives_as_drawn l g ls run arrive;
  nf_some : forall s x d, section_at l s x -> run s d <> [];
  nf_plain : forall s x d n, section_at l s x -> In n (run s d) -> takes_decision g n = false;
  nf_switch : forall p n, node_at l p n -> (takes_decision g (arrive (fst p) (snd p)) = true <-> switchable l p);
  nf_whole : forall p n, node_at l p n -> part_of (sn_name n) = Whole -> exists i e,
    names g (sn_id n) i /\ elem_at g i e /\ at_edge e /\
    arrive (fst p) (snd p) = (i, if e_rise e S0 then Top else Bot) /\
    next_node ls (i, if e_rise e S0 then Bot else Top) = hd_error (run (fst p) (negb (snd p))) /\
    branch_node ls (i, if e_rise e S0 then Bot else Top) = None;
  nf_whole_inj : forall p q n m, node_at l p n -> node_at l q m -> part_of (sn_name n) = Whole ->
    fst (arrive (fst p) (snd p)) = fst (arrive (fst q) (snd q)) -> p = q;
  nf_elem : forall w id t, at_track l w id t -> exists x i e k, section_at l (fst w) x /\
    names g id i /\ elem_at g i e /\ ~ at_edge e /\ e_kind e = KTrack /\ stands_for g t (i, Top) /\
    nth_error (nodes_in (tracks x) (snd w)) k = Some t /\ nth_error (run (fst w) (snd w)) k = Some (i, Top);
  nf_met : forall s x d, section_at l s x -> met_in_order x d (nodes_in (tracks x) d);
  nf_inj : forall s x d k s' x' d' k' n, section_at l s x -> section_at l s' x' ->
    nth_error (run s d) k = Some n -> nth_error (run s' d') k' = Some n -> s = s' /\ d = d' /\ k = k';
  nf_same : forall p q n m, node_at l p n -> node_at l q m -> device n = device m ->
    fst (arrive (fst p) (snd p)) = fst (arrive (fst q) (snd q));
  nf_track : forall s x d n, section_at l s x -> In n (run s d) -> exists e, elem_at g (fst n) e /\
    (e_kind e = KTrack \/ e_kind e = KUndirected);
  nf_apart : forall p n s x d, node_at l p n -> section_at l s x -> ~ In (arrive (fst p) (snd p)) (run s d);
  nf_edge_apart : forall i e s x d sl, elem_at g i e -> at_edge e -> section_at l s x -> ~ In (i, sl) (run s d);
  nf_dev_kind : forall p n, node_at l p n -> exists i e, names g (sn_id n) i /\ elem_at g i e /\
    e_type e = stype (sn_name n) /\ kind_of (stype (sn_name n)) = Some (e_kind e);
  nf_run_kind : forall s x d n e, section_at l s x -> In n (run s d) -> elem_at g (fst n) e ->
    kind_of (e_type e) = Some (e_kind e) }.

Section FACTS.
  Variable l : list xstation.
  Hypothesis WD : well_drawn l.
  Variables (g0 g : graph) (dev : place -> nat) (run : nat -> bool -> list nat).
  Hypothesis I : Inv l (List.length (plan l)) g0 dev run.
  Hypothesis B : closed_borders l dev g0 g.
  Variable ls : list links.
  Hypothesis Ls : forall i e lk, E g i = Some e -> connect_elem g i e = Ok lk -> nth_error ls i = Some lk.

  Lemma run_node s x d n : section_at l s x -> In n (runn g run s d) ->
    exists z e, In z (run s d) /\ n = rnode g d z /\ E g z = Some e /\ track_elem s (xs_line x) d e.
  Proof.
    intros (st & Hx) H. assert (Hs : s < List.length (plan l)) by (apply nth_error_Some; congruence).
    unfold runn in H. apply in_map_iff in H. destruct H as (z & <- & Z).
    destruct (run_track l g0 dev run I s d z Hs Z) as (st' & x' & e & P & He & T).
    assert (x' = x) by congruence. subst x'. exists z, e. split; [exact Z|]. split; [reflexivity|]. split; [|exact T].
    rewrite (frame_run l WD g0 g dev run I B s d z Hs Z). exact He.
  Qed.
  Lemma section_lt s x : section_at l s x -> s < List.length (plan l).
  Proof. intros (st & Hx). apply nth_error_Some. congruence. Qed.
  Lemma device_arrive p n : node_at l p n -> fst (arrive g dev run (fst p) (snd p)) = dev p.
  Proof. intros Hn. destruct (device_ok l WD g0 g dev run I B p n Hn) as (e & lk & _ & _ & _ & F). exact F. Qed.
  Lemma track_not_edge e : is_track_e e = true -> ~ at_edge e.
  Proof. unfold is_track_e, at_edge. destruct (e_type e); cbn; intuition discriminate. Qed.
  Lemma part_switch n : In (part_of (sn_name n)) [Toe; Stem; Branch] <-> stype (sn_name n) = SIMPLE_SWITCH.
  Proof. destruct (sn_name n); cbn; intuition discriminate. Qed.
  Lemma slip_cross n : has_slip n -> stype (sn_name n) = CROSS.
  Proof. intros [[->| ->] _]; reflexivity. Qed.

  Lemma facts : net_facts l g ls (runn g run) (arrive g dev run).
  Proof.
    split.
    - exact (drives l WD g0 g dev run I B ls Ls).
    - intros s x d Hx H. pose proof (in_some _ _ _ _ _ I s d (section_lt s x Hx)) as NE. unfold runn in H.
      destruct (run s d); [congruence|discriminate].
    - intros s x d n Hx H. destruct (run_node s x d n Hx H) as (z & e & Z & -> & He & T).
      unfold takes_decision. cbn [rnode fst]. unfold E in He. rewrite He.
      destruct T as (_ & _ & T & _). unfold is_track_e in T. destruct (e_type e); cbn in T; discriminate || reflexivity.
    - intros p n Hn. destruct (dev_fact l WD g0 g dev run I B p n Hn) as [e D].
      pose proof (df_E _ _ _ _ _ _ _ D) as He. pose proof (df_type _ _ _ _ _ _ _ D) as Ty.
      unfold takes_decision. rewrite (device_arrive p n Hn). unfold E in He. rewrite He, Ty.
      assert (Sl : forall q m, node_at l q m -> device m = device n -> has_slip m ->
          stype (sn_name n) = CROSS /\ (e_arc_lr e || e_arc_rl e = true)).
      { intros q m Hm Hd Sm. assert (Tn : stype (sn_name n) = stype (sn_name m)).
        { symmetry. exact (same_device_type l WD q p m n Hm Hn Hd). }
        split; [rewrite Tn; apply slip_cross, Sm|].
        assert (V : dev q = dev p) by (apply (dev_same l g0 dev run I q p m n Hm Hn); exact Hd).
        destruct Sm as [Nm Bm]. destruct Nm as [Nm|Nm].
        - assert (e_arc_lr e = true) as ->; [|reflexivity].
          apply (slip_lr l WD g0 g dev run I B p n q m e Hn Hm Hd V He); [rewrite Nm; reflexivity|split; auto].
        - assert (e_arc_rl e = true) as ->; [|apply orb_true_r].
          apply (slip_rl l WD g0 g dev run I B p n q m e Hn Hm Hd V He); [rewrite Nm; reflexivity|split; auto]. }
      split.
      + intros H. exists n. split; [exact Hn|]. rewrite part_switch.
        destruct (stype (sn_name n)) eqn:St; try discriminate H; [left; reflexivity|right].
        assert (Nb : sn_name n <> N_BORDER) by (intros X; rewrite X in St; discriminate).
        destruct (arcs_fact l WD g0 g dev run I B p n e Hn Nb He) as [A1 A2]. apply orb_true_iff in H. destruct H as [H|H].
        * destruct (A1 H) as (q & m & Z1 & Z2 & Z3 & Z4). exists q, m. split; [exact Z1|]. split; [exact Z2|]. split; auto.
        * destruct (A2 H) as (q & m & Z1 & Z2 & Z3 & Z4). exists q, m. split; [exact Z1|]. split; [exact Z2|]. split; auto.
      + intros (n' & Hn' & H). rewrite (node_fun l _ _ _ Hn' Hn) in H. rewrite part_switch in H. destruct H as [->|(q & m & Hm & Hd & Sm)]; [reflexivity|].
        destruct (Sl q m Hm Hd Sm) as [-> ->]. reflexivity.
    - intros p n Hn W. destruct (is_device_dev l WD g0 g dev run I B p n Top Hn) as [R _]. cbn [fst] in R.
      assert (C : (sn_name n = N_BUMPER \/ sn_name n = N_TRACK_END) \/ sn_name n = N_BORDER) by (destruct (sn_name n); try discriminate; auto).
      destruct (dev_fact l WD g0 g dev run I B p n Hn) as [e D].
      assert (Rs : e_rise e S0 = snd p).
      { apply (df_rise _ _ _ _ _ _ _ D). unfold flagged. rewrite W. reflexivity. }
      assert (Ed : at_edge e).
      { unfold at_edge. rewrite (df_type _ _ _ _ _ _ _ D). destruct C as [[-> | ->]| ->]; cbn; auto. }
      exists (dev p), e. split; [exact R|]. split; [apply (df_E _ _ _ _ _ _ _ D)|]. split; [exact Ed|]. rewrite Rs.
      replace (if snd p then Top else Bot) with (tslot (snd p)) by reflexivity.
      replace (if snd p then Bot else Top) with (oslot (snd p)) by (unfold oslot, tslot; destruct (snd p); reflexivity).
      destruct C as [C|C].
      + destruct (end_ok l WD g0 g dev run I B p n Hn C) as (e' & lk & X1 & X2 & X3 & X4 & X5 & X6).
        destruct (next_eq g ls Ls _ _ _ (oslot (snd p)) X1 X2) as [N1 N2]. rewrite X6 in N1, N2. auto.
      + destruct (border_ok l WD g0 g dev run I B p n Hn C) as (e' & lk & X1 & X2 & X3 & X4 & X5 & X6 & X7).
        destruct (next_eq g ls Ls _ _ _ (oslot (snd p)) X1 X2) as [N1 N2]. rewrite X5 in N1, N2. auto.
    - intros p q n m Hn Hm W H. rewrite (device_arrive p n Hn), (device_arrive q m Hm) in H.
      exact (dev_whole l WD g0 dev run I p q n m Hn Hm H W).
    - intros w id t (x & (st & Hx) & Ht & Id & Dt & Rt). assert (Hs : fst w < List.length (plan l)) by (apply nth_error_Some; congruence).
      pose proof (nodes_met l WD (fst w) x (snd w) (ex_intro _ st Hx)) as [Pm _].
      assert (In t (nodes_in (tracks x) (snd w))) as M.
      { eapply Permutation_in; [apply Permutation_sym, Pm|]. apply filter_In. split; [exact Ht|]. unfold met.
        rewrite Dt, Rt, Bool.eqb_reflx. apply orb_true_r. }
      apply In_nth_error in M. destruct M as [j J].
      pose proof (in_nodes _ _ _ _ _ I (fst w) st x (snd w) Hx Hs) as Nd.
      destruct (nodes_in (tracks x) (snd w)) as [|n0 ns0] eqn:Ns; [destruct j; discriminate|].
      destruct (nth_error (run (fst w) (snd w)) j) as [i|] eqn:Ri.
      2:{ apply nth_error_None in Ri. rewrite Nd in Ri. assert (nth_error (n0 :: ns0) j <> None) as X by congruence.
          apply nth_error_Some in X. lia. }
      rewrite <- Ns in J. destruct (in_made _ _ _ _ _ I (fst w) st x (snd w) j t i Hx Hs J Ri) as (e & He & Hm & R).
      assert (In i (run (fst w) (snd w))) as Ini by (eapply nth_error_In; eauto).
      rewrite <- (frame_run l WD g0 g dev run I B (fst w) (snd w) i Hs Ini) in He.
      destruct Hm as (M1 & M2 & _ & M4 & _).
      assert (Kd : e_kind e = KTrack) by (destruct (tn_type t); cbn in M2, Dt; congruence).
      exists x, i, e, j. split; [exists st; exact Hx|].
      split; [unfold names; rewrite (cb_rp _ _ _ _ B), <- Id; exact R|]. split; [exact He|].
      split; [unfold at_edge; rewrite M1; destruct (tn_type t); cbn in *; intuition discriminate|]. split; [exact Kd|].
      split; [split; [cbn; rewrite (cb_rp _ _ _ _ B); exact R|exists e; split; [exact He|split; [exact M1|rewrite M4; reflexivity]]]|].
      split; [exact J|].
      unfold runn. rewrite nth_error_map, Ri. cbn [option_map]. unfold rnode. rewrite He, Kd. reflexivity.
    - intros s x d Hx. exact (nodes_met l WD s x d Hx).
    - intros s x d k s' x' d' k' n Hx Hx' N1 N2. unfold runn in N1, N2. rewrite nth_error_map in N1, N2.
      destruct (nth_error (run s d) k) as [z|] eqn:Z; [|discriminate].
      destruct (nth_error (run s' d') k') as [z'|] eqn:Z'; [|discriminate]. cbn in N1, N2. 
      assert (N3 : rnode g d z = rnode g d' z') by congruence. clear N1 N2.
      assert (z = z') by (apply (f_equal fst) in N3; exact N3). subst z'.
      assert (A : In z (run s d)) by (eapply nth_error_In; eauto). assert (A' : In z (run s' d')) by (eapply nth_error_In; eauto).
      pose proof (section_lt _ _ Hx) as L. pose proof (section_lt _ _ Hx') as L'.
      assert (s = s') by (exact (run_section l g0 dev run I s s' d d' z L L' A A')). subst s'.
      destruct (run_node s x d (rnode g d z) Hx) as (z1 & e & _ & E1 & He & T); [apply in_map, A|]. apply (f_equal fst) in E1; cbn in E1; subst z1.
      destruct (run_node s x' d' (rnode g d' z) Hx') as (z2 & e' & _ & E2 & He' & T'); [apply in_map, A'|]. apply (f_equal fst) in E2; cbn in E2; subst z2.
      rewrite He in He'. injection He' as <-.
      assert (d = d').
      { destruct T as (_ & _ & _ & _ & [[K1 R1]|K1]), T' as (_ & _ & _ & _ & [[K2 R2]|K2]); try congruence.
        unfold rnode in N3. rewrite He, K1 in N3. unfold tslot in N3. destruct d, d'; congruence. }
      subst d'. split; [reflexivity|]. split; [reflexivity|].
      pose proof (in_nodup _ _ _ _ _ I s d L) as ND. rewrite NoDup_nth_error in ND. apply ND; [apply nth_error_Some; congruence|congruence].
    - intros p q n m Hn Hm Hd. rewrite (device_arrive p n Hn), (device_arrive q m Hm).
      exact (proj2 (dev_same l g0 dev run I p q n m Hn Hm) Hd).
    - intros s x d n Hx H. destruct (run_node s x d _ Hx H) as (z & e & Z & -> & He & T).
      exists e. split; [exact He|]. destruct T as (_ & _ & _ & _ & [[T _]|T]); auto.
    - intros p n s x d Hn Hx H. destruct (run_node s x d _ Hx H) as (z & e & Z & Ea & _).
      apply (dev_not_run l g0 dev run I p n s d Hn (section_lt _ _ Hx)). rewrite <- (device_arrive p n Hn), Ea. exact Z.
    - intros i e s x d sl He Ed Hx H. destruct (run_node s x d _ Hx H) as (z & e' & Z & Ea & He' & T).
      apply (f_equal fst) in Ea; cbn in Ea; subst z. unfold elem_at in He. unfold E in He'. rewrite He in He'. injection He' as <-.
      apply (track_not_edge e); [apply T|exact Ed].
    - intros p n Hn. destruct (dev_fact l WD g0 g dev run I B p n Hn) as [e D].
      destruct (is_device_dev l WD g0 g dev run I B p n Top Hn) as [R _]. cbn [fst] in R.
      exists (dev p), e. split; [exact R|]. split; [apply (df_E _ _ _ _ _ _ _ D)|].
      split; [apply (df_type _ _ _ _ _ _ _ D)|apply (df_kind _ _ _ _ _ _ _ D)].
    - intros s x d n e Hx H He. destruct (run_node s x d _ Hx H) as (z & e' & Z & -> & He' & T).
      cbn [rnode fst] in He. unfold elem_at in He. unfold E in He'. rewrite He in He'. injection He' as <-.
      destruct T as (_ & T & _). exact T.
  Qed.
End FACTS.

Lemma network_facts l : well_drawn l -> exists g ls run arrive,
  import l = Ok g /\ connect_nodes g = Ok ls /\ net_facts l g ls run arrive.
Proof.
  intros WD. destruct (parse_all l WD) as (g0 & dev & run & H1 & I).
  destruct (close_borders l WD g0 dev run I) as (g & H2 & B).
  destruct (connect_all g (all_connect l WD g0 g dev run I B)) as (ls & H3 & Ls).
  exists g, ls, (runn g run), (arrive g dev run). split.
  - unfold import. rewrite H1. exact H2.
  - split; [exact H3|]. exact (facts l WD g0 g dev run I B ls Ls).
Qed.

(* ---- the drive along a way ---- *)
Section WAY.
  Variables (l : list xstation) (g : graph) (ls : list links) (run : nat -> bool -> list node) (arrive : nat -> bool -> node).
  Hypothesis F : net_facts l g ls run arrive.
  Variables (xcourse : list string) (course : list decision).
  Hypothesis Adv : Forall2 advice xcourse course.

  Definition step (k : nat) (x : node) (y : option node) : Prop :=
    match branch_node ls x with
    | None => y = next_node ls x
    | Some c => (nth_error course k = Some STEM /\ y = next_node ls x) \/
                (nth_error course k = Some BRANCH /\ y = Some c)
    end.
  Definition steps (k : nat) (W : list node) : Prop :=
    forall i x y, nth_error W i = Some x -> nth_error W (S i) = Some y -> step (k + decisions g (firstn i W)) x (Some y).
  Definition rn (w : leg) : list node := run (fst w) (snd w).
  Definition ar (w : leg) : node := arrive (fst w) (snd w).
  Definition valid (w : leg) : Prop := exists x, section_at l (fst w) x.

  Lemma advice_stem k : nth_error xcourse k = Some "Stamm"%string -> nth_error course k = Some STEM.
  Proof.
    revert course Adv k. induction xcourse as [|c xs IH]; intros cs A k H; [destruct k; discriminate|].
    inversion A as [|? d ? ds Ad A']; subst. destruct k as [|k]; [|exact (IH _ A' k H)].
    cbn in *. injection H as ->. f_equal. apply Ad. reflexivity.
  Qed.
  Lemma advice_branch k c : nth_error xcourse k = Some c -> c <> "Stamm"%string -> nth_error course k = Some BRANCH.
  Proof.
    revert course Adv k. induction xcourse as [|c' xs IH]; intros cs A k H N; [destruct k; discriminate|].
    inversion A as [|? d ? ds Ad A']; subst. destruct k as [|k]; [|exact (IH _ A' k H N)].
    cbn in *. injection H as ->. f_equal. destruct d; [|reflexivity]. exfalso. apply N, Ad. reflexivity.
  Qed.
  Lemma decisions_app p q : decisions g (p ++ q) = decisions g p + decisions g q.
  Proof. unfold decisions. rewrite filter_app, app_length. reflexivity. Qed.
  Lemma decisions_run w q r : valid w -> rn w = q ++ r -> decisions g q = 0.
  Proof.
    intros (x & Hx) H. unfold decisions. replace (filter (takes_decision g) q) with (@nil node); [reflexivity|].
    symmetry. assert (P : forall n, In n q -> takes_decision g n = false).
    { intros n Hn. apply (nf_plain _ _ _ _ _ F (fst w) x (snd w) n Hx). unfold rn in H. rewrite H. apply in_or_app. auto. }
    clear H. induction q as [|n q IH]; [reflexivity|]. cbn [filter]. rewrite P by (left; reflexivity). apply IH. intros; apply P; right; auto.
  Qed.
  Lemma line_cons w ws : line_of run arrive (w :: ws) = rn w ++ ar w :: line_of run arrive ws.
  Proof. unfold line_of, rn, ar. cbn [map concat]. rewrite <- app_assoc. reflexivity. Qed.
  Lemma line_app p q : line_of run arrive (p ++ q) = line_of run arrive p ++ line_of run arrive q.
  Proof. unfold line_of. rewrite map_app, concat_app. reflexivity. Qed.
  Lemma valid_node w n : node_at l (leaves w) n -> valid w.
  Proof. intros (x & H & _). exists x. exact H. Qed.
  Lemma valid_enter w n : node_at l (enters w) n -> valid w.
  Proof. intros (x & H & _). exists x. exact H. Qed.
  Lemma line_hd w ws : valid w -> hd_error (line_of run arrive (w :: ws)) = hd_error (rn w).
  Proof.
    intros (x & Hx). rewrite line_cons. pose proof (nf_some _ _ _ _ _ F (fst w) x (snd w) Hx) as NE. unfold rn.
    destruct (run (fst w) (snd w)); [congruence|reflexivity].
  Qed.
  Lemma counts_dec w n k k' : node_at l (leaves w) n -> counts l (leaves w) k k' -> k' = k + decisions g [ar w].
  Proof.
    intros Hn C. pose proof (nf_switch _ _ _ _ _ F _ _ Hn) as S. unfold leaves in *. unfold decisions, ar. cbn [filter].
    destruct C as [[C ->]|[C ->]].
    - rewrite (proj2 S C). cbn. lia.
    - destruct (takes_decision g (arrive (fst w) (snd w))); [exfalso; apply C, S; reflexivity|]. cbn. lia.
  Qed.

  Lemma steps_join k w W : valid w -> (forall y, hd_error W = Some y -> step k (ar w) (Some y)) ->
    steps (k + decisions g [ar w]) W -> steps k (rn w ++ ar w :: W).
  Proof.
    intros V J H i x y X Y. pose proof V as (sx & Sx).
    destruct (Nat.lt_trichotomy i (List.length (rn w))) as [L|[L|L]].
    - rewrite nth_error_app1 in X by exact L.
      destruct (dr_along _ _ _ _ _ (nf_drawn _ _ _ _ _ F) (fst w) sx (snd w) i x Sx X) as [N1 N2].
      unfold step. rewrite N2, N1. f_equal. symmetry. change (run (fst w) (snd w)) with (rn w).
      destruct (Nat.eq_dec (S i) (List.length (rn w))) as [E|E].
      + rewrite nth_error_app2 in Y by lia. rewrite E, Nat.sub_diag in Y. cbn in Y. injection Y as <-. apply nth_overflow. lia.
      + rewrite nth_error_app1 in Y by lia. apply nth_error_nth. exact Y.
    - subst i. rewrite nth_error_app2, Nat.sub_diag in X by lia. cbn in X. injection X as <-.
      rewrite nth_error_app2 in Y by lia. replace (S (List.length (rn w)) - List.length (rn w)) with 1 in Y by lia.
      rewrite firstn_app, Nat.sub_diag, firstn_all, firstn_O, app_nil_r.
      rewrite (decisions_run w (rn w) []) by (auto using app_nil_r with *; rewrite app_nil_r; reflexivity).
      rewrite Nat.add_0_r. apply J. cbn in Y. destruct W; [discriminate|exact Y].
    - destruct (Nat.le_exists_sub (S (List.length (rn w))) i L) as (j & -> & _).
      rewrite nth_error_app2 in X, Y by lia.
      replace (j + S (List.length (rn w)) - List.length (rn w)) with (S j) in X by lia.
      replace (S (j + S (List.length (rn w))) - List.length (rn w)) with (S (S j)) in Y by lia. cbn in X, Y.
      rewrite firstn_app, firstn_all2 by lia. replace (j + S (List.length (rn w)) - List.length (rn w)) with (S j) by lia.
      cbn [firstn]. rewrite decisions_app. change (ar w :: firstn j W) with ([ar w] ++ firstn j W). rewrite decisions_app.
      rewrite (decisions_run w (rn w) []) by (auto; rewrite app_nil_r; reflexivity).
      replace (k + (0 + (decisions g [ar w] + decisions g (firstn j W)))) with (k + decisions g [ar w] + decisions g (firstn j W)) by lia.
      apply H; auto.
  Qed.

  Lemma way_steps k w ws : follows l xcourse k w ws -> valid w -> steps k (line_of run arrive (w :: ws)).
  Proof.
    intros H. induction H as [k w|k k' w w' ws n m Hn Hm Hd Sd Dv C H IH|k k' w w' ws n m c Hn Hm Hd Dv Cc Nc C H IH]; intros V; rewrite line_cons.
    - apply steps_join; auto; [discriminate|]. intros i x y X. destruct i; discriminate.
    - pose proof (valid_enter _ _ Hm) as V'. apply steps_join; auto.
      + rewrite (line_hd _ _ V'). intros y Y. pose proof (dr_straight _ _ _ _ _ (nf_drawn _ _ _ _ _ F) _ _ n m Hn Hm Hd Sd) as N.
        unfold enters in N. cbn [fst snd] in N. rewrite negb_involutive in N. change (run (fst w') (snd w')) with (rn w') in N. rewrite Y in N.
        change (next_node ls (ar w) = Some y) in N.
        unfold step. destruct (branch_node ls (ar w)) as [c|] eqn:Bn; [|congruence]. left. split; [|congruence].
        destruct (nth_error course k) as [[]|] eqn:Nc; [reflexivity| |];
        exfalso; (enough (branch_node ls (ar w) = None) by congruence);
        (apply (dr_no_diverge _ _ _ _ _ (nf_drawn _ _ _ _ _ F) (leaves w) n Hn); intros q m' Q1 Q2 Q3;
         pose proof (advice_stem _ (Dv q m' Q1 Q2 Q3)); congruence).
      + rewrite <- (counts_dec w n k k' Hn C). exact (IH V').
    - pose proof (valid_enter _ _ Hm) as V'. apply steps_join; auto.
      + rewrite (line_hd _ _ V'). intros y Y. pose proof (dr_diverge _ _ _ _ _ (nf_drawn _ _ _ _ _ F) _ _ n m Hn Hm Hd Dv) as N.
        unfold enters in N. cbn [fst snd] in N. rewrite negb_involutive in N. change (run (fst w') (snd w')) with (rn w') in N. rewrite Y in N.
        change (branch_node ls (ar w) = Some y) in N.
        unfold step. rewrite N. right. split; [|reflexivity]. exact (advice_branch _ _ Cc Nc).
      + rewrite <- (counts_dec w n k k' Hn C). exact (IH V').
  Qed.

  Lemma steps_prefix k W1 W2 : steps k (W1 ++ W2) -> steps k W1.
  Proof.
    intros H i x y X Y. assert (L : S i < List.length W1) by (apply nth_error_Some; congruence).
    assert (Ef : firstn i (W1 ++ W2) = firstn i W1).
    { rewrite firstn_app. replace (i - List.length W1) with 0 by lia. rewrite firstn_O, app_nil_r. reflexivity. }
    rewrite <- Ef. apply H; rewrite nth_error_app1 by lia; auto.
  Qed.
  Lemma steps_drive pre P a : steps 0 (pre ++ P) -> decisions g pre = 0 -> hd_error P = Some a -> drive g ls course a P.
  Proof.
    intros H D A. split; [exact A|]. intros i x y X Y.
    assert (S1 : step (0 + decisions g (firstn (List.length pre + i) (pre ++ P))) x (Some y)).
    { apply H; rewrite nth_error_app2 by lia.
      - replace (List.length pre + i - List.length pre) with i by lia. exact X.
      - replace (S (List.length pre + i) - List.length pre) with (S i) by lia. exact Y. }
    rewrite firstn_app, firstn_all2 in S1 by lia. replace (List.length pre + i - List.length pre) with i in S1 by lia.
    rewrite decisions_app, D in S1. exact S1.
  Qed.

  (* interior legs do not end at the end of a track *)
  Lemma interior k w ws : follows l xcourse k w ws -> valid w ->
    Forall valid (w :: ws) /\
    forall w', In w' (removelast (w :: ws)) -> exists n, node_at l (leaves w') n /\ part_of (sn_name n) <> Whole.
  Proof.
    intros H. induction H as [k w|k k' w w' ws n m Hn Hm Hd Sd Dv C H IH|k k' w w' ws n m c Hn Hm Hd Dv Cc Nc C H IH]; intros V.
    - split; [auto|intros ? []].
    - destruct (IH (valid_enter _ _ Hm)) as [A B]. split; [auto|]. change (removelast (w :: w' :: ws)) with (w :: removelast (w' :: ws)).
      intros z [<-|Z]; [|auto]. exists n. split; [exact Hn|]. intros X. rewrite X in Sd. exact Sd.
    - destruct (IH (valid_enter _ _ Hm)) as [A B]. split; [auto|]. change (removelast (w :: w' :: ws)) with (w :: removelast (w' :: ws)).
      intros z [<-|Z]; [|auto]. exists n. split; [exact Hn|]. intros X. unfold diverging in Dv. rewrite X in Dv. exact Dv.
  Qed.
  Lemma in_line ws n : In n (line_of run arrive ws) -> exists w, In w ws /\ (In n (rn w) \/ n = ar w).
  Proof.
    unfold line_of. rewrite in_concat. intros (q & Q & H). apply in_map_iff in Q. destruct Q as (w & <- & W).
    exists w. split; [exact W|]. apply in_app_or in H. destruct H as [H|[H|[]]]; auto.
  Qed.

  Lemma last_split {A} (w : A) ws init wl : w :: ws = init ++ [wl] -> last ws w = wl /\ removelast (w :: ws) = init.
  Proof.
    intros H. split; [|rewrite H; apply removelast_last].
    destruct ws as [|v ws]; [destruct init as [|? [|]]; cbn in H; injection H; intros; subst; try discriminate; reflexivity|].
    assert (E : last (w :: v :: ws) w = wl) by (rewrite H; apply last_last). exact E.
  Qed.
  Lemma before_rank t k k' : rank t k -> rank t k' -> k = k'.
  Proof.
    intros A B. assert (ND : NoDup ranks) by (unfold ranks; repeat constructor; cbn; intuition discriminate).
    rewrite NoDup_nth_error in ND. apply ND; [apply nth_error_Some; unfold rank in A; congruence|]. unfold rank in A, B. congruence.
  Qed.
  Lemma before_asym d a b : before d a b -> before d b a -> False.
  Proof.
    intros [A|(A & i & j & I & J & A')] [B|(B & j' & i' & J' & I' & B')].
    - destruct d; apply (Qlt_irrefl (tn_km a)); eapply Qlt_trans; eauto.
    - destruct d; rewrite B in A; exact (Qlt_irrefl _ A).
    - destruct d; rewrite A in B; exact (Qlt_irrefl _ B).
    - pose proof (before_rank _ _ _ I I'). pose proof (before_rank _ _ _ J J'). subst i' j'.
      destruct A' as [A'|[A1 A2]], B' as [B'|[B1 B2]]; try lia.
  Qed.
  Lemma sorted_pos {A} (R : A -> A -> Prop) q : StronglySorted R q -> forall i j a b, i < j ->
    nth_error q i = Some a -> nth_error q j = Some b -> R a b.
  Proof.
    induction 1 as [|z q S IH Al]; intros i j a b L I J; [destruct i; discriminate|].
    destruct j as [|j]; [lia|]. destruct i as [|i].
    - cbn in I, J. injection I as <-. rewrite Forall_forall in Al. apply Al. eapply nth_error_In; eauto.
    - cbn in I, J. eapply IH; [|exact I|exact J]. lia.
  Qed.

  (* where a route starts *)
  Definition from_device (w : leg) (start : N) (a : node) : Prop :=
    exists n, node_at l (enters w) n /\ sn_id n = start /\ part_of (sn_name n) = Whole /\ is_device g n a /\
      next_node ls a = hd_error (rn w) /\ branch_node ls a = None /\ takes_decision g a = false /\
      (forall s x d, section_at l s x -> ~ In a (run s d)) /\
      fst a = fst (arrive (fst (enters w)) (snd (enters w))) /\ a <> arrive (fst (enters w)) (snd (enters w)).
  Lemma device_start w start : at_device l (enters w) start ->
    exists i a, names g start i /\ starts_at g i a /\ from_device w start a.
  Proof.
    intros (n & Hn & Id & Wh). destruct (nf_whole _ _ _ _ _ F _ n Hn Wh) as (i & e & R & He & Ed & Ar & Nx & Br).
    exists i, (i, if e_rise e S0 then Bot else Top). split; [rewrite <- Id; exact R|]. split; [exists e; split; [exact He|auto]|].
    exists n. split; [exact Hn|]. split; [exact Id|]. split; [exact Wh|].
    split. { pose proof (dr_arrive _ _ _ _ _ (nf_drawn _ _ _ _ _ F) _ n Hn) as D. rewrite Ar in D. exact D. }
    split; [unfold enters in Nx; cbn [fst snd] in Nx; rewrite negb_involutive in Nx; exact Nx|]. split; [exact Br|].
    split. { unfold takes_decision. cbn [fst]. unfold elem_at in He. rewrite He. unfold at_edge in Ed. destruct (e_type e); cbn in Ed; intuition discriminate. }
    split; [intros s x d Hx; exact (nf_edge_apart _ _ _ _ _ F i e s x d _ He Ed Hx)|].
    rewrite Ar. split; [reflexivity|]. destruct (e_rise e S0); congruence.
  Qed.
  Lemma device_end w stop : at_device l (leaves w) stop -> exists j, names g stop j /\ ends_at g j (ar w).
  Proof.
    intros (n & Hn & Id & Wh). destruct (nf_whole _ _ _ _ _ F _ n Hn Wh) as (i & e & R & He & Ed & Ar & Nx & Br).
    exists i. split; [rewrite <- Id; exact R|]. unfold leaves in Ar. unfold ar. rewrite Ar. exists e. split; [exact He|auto].
  Qed.
  Lemma track_start w id t : at_track l w id t -> exists i k, names g id i /\ starts_at g i (i, Top) /\ ends_at g i (i, Top) /\
    stands_for g t (i, Top) /\ nth_error (rn w) k = Some (i, Top).
  Proof.
    intros H. destruct (nf_elem _ _ _ _ _ F w id t H) as (x & i & e & k & X1 & X2 & X3 & X4 & X5 & X6 & X7 & X8).
    exists i, k. split; [exact X2|]. split; [exists e; auto|]. split; [exists e; auto|]. auto.
  Qed.
  Lemma track_order w id t id' t' i i' k k' : at_track l w id t -> at_track l w id' t' -> t = t' \/ before (snd w) t t' ->
    names g id i -> names g id' i' -> nth_error (rn w) k = Some (i, Top) -> nth_error (rn w) k' = Some (i', Top) -> k <= k'.
  Proof.
    intros T T' O N N' K K'.
    destruct (nf_elem _ _ _ _ _ F w id t T) as (x & j & e & h & X1 & X2 & X3 & X4 & X5 & X6 & X7 & X8).
    destruct (nf_elem _ _ _ _ _ F w id' t' T') as (x' & j' & e' & h' & Y1 & Y2 & Y3 & Y4 & Y5 & Y6 & Y7 & Y8).
    assert (x' = x) by (destruct X1 as (? & X1), Y1 as (? & Y1); congruence). subst x'.
    unfold names in *. assert (j = i) by congruence. assert (j' = i') by congruence. subst j j'.
    destruct (nf_inj _ _ _ _ _ F _ x _ _ _ x _ _ _ X1 X1 K X8) as (_ & _ & ->).
    destruct (nf_inj _ _ _ _ _ F _ x _ _ _ x _ _ _ X1 X1 K' Y8) as (_ & _ & ->).
    destruct O as [<-|O].
    - assert (i' = i) by (destruct T as (? & _ & _ & T & _), T' as (? & _ & _ & T' & _); congruence). subst i'.
      destruct (nf_inj _ _ _ _ _ F _ x _ _ _ x _ _ _ X1 X1 X8 Y8) as (_ & _ & ->). lia.
    - destruct (Nat.le_gt_cases h h') as [L|L]; [exact L|]. exfalso.
      pose proof (nf_met _ _ _ _ _ F (fst w) x (snd w) X1) as [_ Sm].
      exact (before_asym _ _ _ O (sorted_pos _ _ Sm _ _ _ _ L Y7 X7)).
  Qed.

  Lemma track_order_lt w id t id' t' i i' k k' : at_track l w id t -> at_track l w id' t' -> before (snd w) t t' ->
    names g id i -> names g id' i' -> nth_error (rn w) k = Some (i, Top) -> nth_error (rn w) k' = Some (i', Top) -> k < k'.
  Proof.
    intros T T' O N N' K K'. pose proof (track_order w id t id' t' i i' k k' T T' (or_intror O) N N' K K') as Le.
    enough (k <> k') by lia. intros <-. assert (i' = i) by congruence. subst i'.
    destruct (nf_elem _ _ _ _ _ F w id t T) as (x & j & e & h & X1 & X2 & X3 & X4 & X5 & X6 & X7 & X8).
    destruct (nf_elem _ _ _ _ _ F w id' t' T') as (x' & j' & e' & h' & Y1 & Y2 & Y3 & Y4 & Y5 & Y6 & Y7 & Y8).
    assert (x' = x) by (destruct X1 as (? & X1), Y1 as (? & Y1); congruence). subst x'.
    unfold names in *. assert (j = i) by congruence. assert (j' = i) by congruence. subst j j'.
    destruct (nf_inj _ _ _ _ _ F _ x _ _ _ x _ _ _ X1 X1 X8 Y8) as (_ & _ & ->).
    assert (t' = t) by congruence. subst t'. exact (before_asym _ _ _ O O).
  Qed.
  Lemma leg_eq_dec : forall a b : leg, {a = b} + {a <> b}.
  Proof. decide equality; [apply Bool.bool_dec|apply Nat.eq_dec]. Qed.

  Lemma to_end (P Q : list node) b : P = Q ++ [b] -> ~ In b Q -> forall i : nat, nth_error P i = Some b <-> S i = List.length P.
  Proof.
    intros -> N i. rewrite app_length. cbn [List.length]. split.
    - intros H. destruct (Nat.lt_ge_cases i (List.length Q)) as [L|L].
      + rewrite nth_error_app1 in H by exact L. exfalso. apply N. eapply nth_error_In; eauto.
      + assert (nth_error (Q ++ [b]) i <> None) as X by congruence. apply nth_error_Some in X. rewrite app_length in X. cbn in X. lia.
    - intros H. rewrite nth_error_app2 by lia. replace (i - List.length Q) with 0 by lia. reflexivity.
  Qed.

  Lemma firstn_app_le {A} (p q : list A) n : List.length p <= n -> firstn n (p ++ q) = p ++ firstn (n - List.length p) q.
  Proof. intros H. rewrite firstn_app, firstn_all2 by exact H. reflexivity. Qed.

  Lemma drawn_drive start stop w ws : follows l xcourse 0 w ws ->
    (at_device l (enters w) start \/ exists t, at_track l w start t) ->
    (at_device l (leaves (last ws w)) stop \/
     exists t, at_track l (last ws w) stop t /\ first_reached l start w ws t) ->
    exists i j a b P, names g start i /\ names g stop j /\ starts_at g i a /\ ends_at g j b /\
      drive_to g ls course a b P /\ goes l g run arrive start stop w ws P.
  Proof.
    intros Fo St En.
    assert (V : valid w).
    { destruct St as [(n & Hn & _)|(t & x & Hx & _)]; [exact (valid_enter _ _ Hn)|exists x; exact Hx]. }
    destruct (interior 0 w ws Fo V) as [Vs In1].
    assert (NE : w :: ws <> []) by discriminate. destruct (exists_last NE) as (init & wl & Sp).
    destruct (last_split w ws init wl Sp) as [Lw Ri]. rewrite Lw in *. rewrite Ri in In1. clear NE.
    assert (Vl : valid wl) by (rewrite Sp in Vs; apply Forall_app in Vs; destruct Vs as [_ Vs]; inversion Vs; auto).
    assert (Vi : forall z, In z init -> valid z) by (intros z Z; rewrite Sp in Vs; rewrite Forall_forall in Vs; apply Vs, in_or_app; auto).
    pose proof (way_steps 0 w ws Fo V) as Sw.
    assert (Ln : line_of run arrive (w :: ws) = line_of run arrive init ++ rn wl ++ [ar wl]).
    { rewrite Sp, line_app. f_equal. unfold line_of. cbn. rewrite app_nil_r. reflexivity. }
    (* the start *)
    assert (ST : exists i a dep pre, names g start i /\ starts_at g i a /\ decisions g pre = 0 /\
       steps 0 (dep ++ line_of run arrive (w :: ws)) /\
       ((dep = [a] /\ pre = [] /\ from_device w start a) \/
        (exists t r, at_track l w start t /\ stands_for g t a /\ a = (i, Top) /\ dep = [] /\ rn w = pre ++ a :: r))).
    { destruct St as [St|(t & St)].
      - destruct (device_start w start St) as (i & a & N & Sa & Fd). exists i, a, [a], []. split; [exact N|]. split; [exact Sa|].
        split; [reflexivity|]. split; [|left; auto]. destruct Fd as (n & _ & _ & _ & _ & Nx & Br & Td & _).
        intros k x y X Y. destruct k as [|k].
        + cbn in X. injection X as <-. unfold step. rewrite Br, Nx, <- (line_hd w ws V). revert Y. generalize (line_of run arrive (w :: ws)). intros [|z q] Y; [discriminate|cbn in *; congruence].
        + cbn [app nth_error] in X, Y. cbn [app firstn]. assert (Dd : forall q, decisions g (a :: q) = decisions g q) by (intros q; unfold decisions; cbn [filter]; rewrite Td; reflexivity).
          rewrite Dd. apply Sw; auto.
      - destruct (track_start w start t St) as (i & k & N & Sa & _ & Sf & K). exists i, (i, Top), [], (firstn k (rn w)).
        destruct (nth_error_split _ _ K) as (pre & r & Er & Lr).
        assert (Ef : firstn k (rn w) = pre) by (rewrite Er, firstn_app, <- Lr, Nat.sub_diag, firstn_all, firstn_O, app_nil_r; reflexivity).
        rewrite Ef. split; [exact N|]. split; [exact Sa|]. split; [exact (decisions_run w pre _ V Er)|]. split; [exact Sw|].
        right. exists t, r. auto. }
    destruct ST as (i & a & dep & pre & Ni & Sa & Dp & Sd & SC).
    (* the end: lp is driven on the last leg, b its last node *)
    assert (EN : exists j b lp post, names g stop j /\ ends_at g j b /\ rn wl ++ [ar wl] = lp ++ [b] ++ post /\
       (forall q, dep ++ line_of run arrive init ++ lp = pre ++ q -> ~ In b q) /\
       ((at_device l (leaves wl) stop /\ post = [] /\ lp = rn wl) \/
        (exists t, at_track l wl stop t /\ stands_for g t b /\ 0 < List.length post <= List.length (rn wl) /\
           nth_error (rn wl) (List.length lp) = Some b /\ b = (j, Top) /\
           (ws = [] -> forall t', at_track l w start t' -> t' = t \/ before (snd w) t' t)))).
    { destruct En as [En|(t & Tk & Ord & Once)].
      - destruct (device_end wl stop En) as (j & Nj & Ej). exists j, (ar wl), (rn wl), []. split; [exact Nj|]. split; [exact Ej|].
        split; [reflexivity|]. split; [|left; auto]. destruct En as (n & Hn & Id & Wh).
        intros q Eq H0. assert (H : In (ar wl) (dep ++ line_of run arrive init ++ rn wl)) by (rewrite Eq; apply in_or_app; auto).
        clear Eq H0. apply in_app_or in H. destruct H as [H|H].
        + destruct SC as [(-> & _ & Fd)|(t & r & _ & _ & _ & -> & _)]; [|destruct H]. destruct H as [H|[]].
          destruct Fd as (n' & Hn' & _ & Wh' & _ & _ & _ & _ & _ & Fa & Na). rewrite H in Fa, Na.
          assert (leaves wl = enters w).
          { apply (nf_whole_inj _ _ _ _ _ F _ _ n n' Hn Hn' Wh). exact Fa. }
          unfold leaves in H0. apply Na. unfold ar. rewrite H0. reflexivity.
        + apply in_app_or in H. destruct Vl as (x & Hx). destruct H as [H|H].
          * destruct (in_line _ _ H) as (z & Z & [H'|H']).
            -- destruct (Vi z Z) as (xz & Hz). exact (nf_apart _ _ _ _ _ F _ n _ xz _ Hn Hz H').
            -- destruct (In1 z Z) as (nz & Hnz & NW).
               assert (leaves wl = leaves z).
               { apply (nf_whole_inj _ _ _ _ _ F _ _ n nz Hn Hnz Wh). unfold leaves. apply (f_equal fst) in H'. exact H'. }
               unfold leaves in *. subst z. apply NW. rewrite (node_fun l _ _ _ Hnz Hn). exact Wh.
          * exact (nf_apart _ _ _ _ _ F _ n _ x _ Hn Hx H).
      - destruct (track_start wl stop t Tk) as (j & k & Nj & _ & Ej & Sf & K). destruct (nth_error_split _ _ K) as (lp & r & Er & Lr).
        exists j, (j, Top), lp, (r ++ [ar wl]). split; [exact Nj|]. split; [exact Ej|].
        split; [rewrite Er, <- app_assoc; reflexivity|]. split.
        + pose proof Vl as (x & Hx).
          assert (No : forall z k', valid z -> nth_error (rn z) k' = Some (j, Top) -> z = wl /\ k' = k).
          { intros z k' (xz & Hz) Z. destruct (nf_inj _ _ _ _ _ F _ xz _ _ _ x _ _ _ Hz Hx Z K) as (A1 & A2 & A3).
            split; [destruct z, wl; cbn in *; congruence|exact A3]. }
          assert (Nar : forall z, In z init -> (j, Top) <> ar z).
          { intros z Z H'. destruct (In1 z Z) as (nz & Hnz & _). apply (nf_apart _ _ _ _ _ F _ nz (fst wl) x (snd wl) Hnz Hx).
            unfold leaves. unfold ar in H'. rewrite <- H'. eapply nth_error_In; eauto. }
          assert (Nlp : ~ In (j, Top) lp).
          { intros H. apply In_nth_error in H. destruct H as (k' & H).
            assert (L : k' < List.length lp) by (apply nth_error_Some; intros X'; pose proof (eq_trans (eq_sym X') H); discriminate).
            destruct (No wl k' Vl) as [_ X]; [rewrite Er, nth_error_app1 by exact L; exact H|]. lia. }
          intros q Eq H0. destruct (in_dec leg_eq_dec wl init) as [Wi|Wi].
          { (* the last leg is the first one, too: the route starts behind its end *)
            destruct ws as [|v ws']; [destruct init as [|? [|]]; [destruct Wi|discriminate Sp|discriminate Sp]|].
            destruct Once as [O1 O2]; [discriminate|]. rewrite Lw in O1, O2.
            change (removelast (w :: v :: ws')) with (w :: removelast (v :: ws')) in Ri. rewrite <- Ri in Wi, Nar, Vi, Eq.
            destruct Wi as [->|Wi]; [|exact (O1 Wi)]. destruct (O2 eq_refl) as (t' & Tt & Bf).
            destruct SC as [(_ & _ & Fd)|(t2 & r' & Ts & _ & Ea & -> & Er')].
            { destruct Fd as (n' & Hn' & Id' & Wh' & _).
              destruct (nf_whole _ _ _ _ _ F _ n' Hn' Wh') as (i1 & e1 & R1 & He1 & Ed1 & _).
              destruct (nf_elem _ _ _ _ _ F wl start t' Tt) as (x2 & i2 & e2 & k2 & _ & R2 & He2 & Ed2 & _).
              unfold names, elem_at in *. rewrite Id' in R1. assert (i2 = i1) by congruence. subst i2. assert (e2 = e1) by congruence. subst e2. exact (Ed2 Ed1). }
            assert (Na : nth_error (rn wl) (List.length pre) = Some (i, Top)) by (rewrite Er', nth_error_app2, Nat.sub_diag by lia; cbn [nth_error]; rewrite Ea; reflexivity).
            pose proof (track_order_lt wl stop t start t' j i _ _ Tk Tt Bf Nj Ni K Na) as Lt.
            rewrite line_cons, Er' in Eq. cbn [app] in Eq. rewrite <- !app_assoc in Eq. apply app_inv_head in Eq. subst q.
            change ((a :: r') ++ (ar wl :: line_of run arrive (removelast (v :: ws'))) ++ lp) with ((a :: r') ++ [ar wl] ++ line_of run arrive (removelast (v :: ws')) ++ lp) in H0.
            apply in_app_or in H0. destruct H0 as [H|H].
            { apply In_nth_error in H. destruct H as (k' & H). destruct (No wl (List.length pre + k') Vl) as [_ X]; [|lia].
              rewrite Er', nth_error_app2 by lia. replace (List.length pre + k' - List.length pre) with k' by lia. exact H. }
            apply in_app_or in H. destruct H as [[H|[]]|H]; [exact (Nar wl (or_introl eq_refl) (eq_sym H))|].
            apply in_app_or in H. destruct H as [H|H]; [|exact (Nlp H)].
            destruct (in_line _ _ H) as (z & Z & [H'|H']); [|exact (Nar z (or_intror Z) H')].
            apply In_nth_error in H'. destruct H' as (k' & H'). destruct (No z k' (Vi z (or_intror Z)) H') as [-> _]. exact (O1 Z). }
          assert (H : In (j, Top) (dep ++ line_of run arrive init ++ lp)) by (rewrite Eq; apply in_or_app; auto). clear q Eq H0.
          apply in_app_or in H. destruct H as [H|H].
          * destruct SC as [(-> & _ & Fd)|(t' & r' & _ & _ & _ & -> & _)]; [|destruct H]. destruct H as [H|[]].
            destruct Fd as (n' & Hn' & _ & Wh' & _ & _ & _ & _ & Ap & _). apply (Ap (fst wl) x (snd wl) Hx). rewrite H. eapply nth_error_In; eauto.
          * apply in_app_or in H. destruct H as [H|H].
            -- destruct (in_line _ _ H) as (z & Z & [H'|H']).
               ++ apply In_nth_error in H'. destruct H' as (k' & H'). destruct (No z k' (Vi z Z) H') as [-> _]. exact (Wi Z).
               ++ exact (Nar z Z H').
            -- exact (Nlp H).
        + right. exists t. split; [exact Tk|]. split; [exact Sf|].
          split; [rewrite app_length; cbn; rewrite Er, app_length; cbn; lia|]. split; [rewrite Lr; exact K|]. auto. }
    destruct EN as (j & b & lp & post & Nj & Ej & Sl & Nb & EC).
    (* the path *)
    assert (PA : exists rest, dep ++ line_of run arrive init ++ lp ++ [b] = pre ++ a :: rest).
    { destruct SC as [(-> & -> & _)|(t & r & Ts & _ & Ea & -> & Er)]; [eexists; reflexivity|].
      cbn [app]. destruct init as [|w0 init].
      - cbn in Sp. injection Sp as <- Ews. cbn [app line_of map concat].
        destruct EC as [(_ & _ & ->)|(t' & Tt & _ & Lp & Nl & Eb & Ord)].
        + rewrite Er, <- app_assoc. eexists; reflexivity.
        + assert (Na : nth_error (rn w) (List.length pre) = Some (i, Top)) by (rewrite Er, nth_error_app2, Nat.sub_diag by lia; cbn [nth_error]; rewrite Ea; reflexivity).
          rewrite Eb in Nl.
          pose proof (track_order w start t stop t' i j _ _ Ts Tt (Ord Ews t Ts) Ni Nj Na Nl) as Le.
          assert (Ex : lp ++ [b] = firstn (S (List.length lp)) (rn w)).
          { assert (X : rn w = firstn (List.length (rn w)) (rn w ++ [ar w])) by (rewrite firstn_app, Nat.sub_diag, firstn_O, app_nil_r, firstn_all; reflexivity).
            assert (Lw' : List.length lp < List.length (rn w)) by (apply nth_error_Some; intros X'; pose proof (eq_trans (eq_sym X') Nl); discriminate).
            rewrite X, firstn_firstn, Nat.min_l by lia. rewrite Sl.
            replace (S (List.length lp)) with (List.length (lp ++ [b])) by (rewrite app_length; cbn; lia).
            rewrite app_assoc, firstn_app, Nat.sub_diag, firstn_O, app_nil_r, firstn_all. reflexivity. }
          rewrite Ex, Er, firstn_app_le by lia. replace (S (List.length lp) - List.length pre) with (S (List.length lp - List.length pre)) by lia.
          cbn [firstn]. eexists; reflexivity.
      - cbn in Sp. injection Sp as <- _. rewrite line_cons, Er. rewrite <- !app_assoc. cbn [app]. eexists; reflexivity. }
    destruct PA as (rest & PA).
    assert (W0 : dep ++ line_of run arrive (w :: ws) = (pre ++ a :: rest) ++ post).
    { rewrite <- PA, Ln, Sl, <- !app_assoc. reflexivity. }
    exists i, j, a, b, (a :: rest). split; [exact Ni|]. split; [exact Nj|]. split; [exact Sa|]. split; [exact Ej|]. split.
    - split.
      + apply (steps_drive pre); [|exact Dp|reflexivity]. rewrite W0 in Sd. exact (steps_prefix _ _ _ Sd).
      + assert (NE : a :: rest <> []) by discriminate. destruct (exists_last NE) as (Q & b' & EQ).
        rewrite EQ in PA. rewrite !app_assoc in PA. apply app_inj_tail in PA. destruct PA as [PA <-].
        apply (to_end _ Q b EQ). apply Nb. rewrite app_assoc. exact PA.
    - exists dep, pre, post. split; [rewrite W0, <- app_assoc; reflexivity|]. split.
      + destruct SC as [(-> & -> & Fd)|(t & r & Ts & Sf & Ea & -> & Er)].
        * left. destruct Fd as (n & Hn & Id & Wh & Dv & _). exists n, a. auto 6.
        * right. exists t, a. split; [exact Ts|]. split; [reflexivity|]. split; [unfold rn in Er; rewrite Er, app_length; cbn; lia|]. split; [reflexivity|exact Sf].
      + rewrite Lw. destruct EC as [(Dv & -> & _)|(t & Tt & Sf & Lp & _)]; [left; auto|right].
        assert (NE : a :: rest <> []) by discriminate. destruct (exists_last NE) as (Q & b' & EQ).
        exists t, b, Q. split; [exact Tt|]. split; [exact Lp|]. split; [|exact Sf].
        rewrite EQ in PA. rewrite !app_assoc in PA. apply app_inj_tail in PA. destruct PA as [_ <-]. exact EQ.
  Qed.
End WAY.
