(* The network of a well drawn plan is driven as drawn *)
From Coq Require Import List Bool NArith ZArith QArith Arith String Sorted Permutation Lia.
From Verif Require Import Base PhysModel TextModel InfraModel InfraOrder InfraSpec InfraHeap InfraScan InfraLay InfraLaid InfraPlace InfraAdd InfraInv InfraBorder InfraDrive.
Import ListNotations.
Local Open Scope nat_scope.

(* ---- the order of the track nodes ---- *)
Definition ridx (t : etype) : nat :=
  match t with
  | TUNNEL => 0 | SLOPE => 1 | ENTRY => 2 | RUNTIME_CHECKPOINT_UNDIRECTED => 3 | RUNTIME_CHECKPOINT => 4
  | HALT => 5 | MAIN_SIGNAL => 6 | APPROACH_SIGNAL => 7 | PROTECTION_SIGNAL => 8 | EOTD => 9
  | LZB_START => 10 | LZB_BLOCK_SIGN => 11 | LZB_END => 12 | ETCS_START => 13 | ETCS_BLOCK_SIGN => 14
  | ETCS_END => 15 | SPEED_LIMIT => 16 | FORCED_HALT => 17 | POINT_SPEED => 18 | BRAKE_PATH => 19
  | TRACK_NAME => 20 | LEVEL_CROSSING => 21 | META => 22 | _ => 23
  end.
Lemma rank_ridx t : is_track_element t = true -> rank t (ridx t).
Proof. destruct t; cbn; intros H; try discriminate; reflexivity. Qed.
Lemma key_lt a b (d : bool) : is_track_element a = true -> is_track_element b = true ->
  (get_type_order_key a d < get_type_order_key b d)%Z -> ridx a < ridx b.
Proof.
  intros Ta Tb. destruct a; try discriminate Ta; destruct b; try discriminate Tb; destruct d; cbn; lia.
Qed.
Lemma key_eq a b (d : bool) : is_track_element a = true -> is_track_element b = true ->
  get_type_order_key a d = get_type_order_key b d -> ridx a = ridx b.
Proof.
  intros Ta Tb. destruct a; try discriminate Ta; destruct b; try discriminate Tb; destruct d; cbn; lia.
Qed.
Lemma key_und t (r r' : bool) : is_directed_track_element t = false -> get_type_order_key t r = get_type_order_key t r'.
Proof. destruct t; cbn; try discriminate; reflexivity. Qed.

Lemma keep_key d n : is_track_element (tn_type n) = true -> keep d n = true ->
  tkey (node_key n) = get_type_order_key (tn_type n) d.
Proof.
  intros T K. unfold tkey, node_key; cbn. destruct (is_directed_track_element (tn_type n)) eqn:D.
  - rewrite (keep_rising d n K D). reflexivity.
  - apply key_und; auto.
Qed.
Lemma before_of_klt d a b : is_track_element (tn_type a) = true -> is_track_element (tn_type b) = true ->
  keep d a = true -> keep d b = true -> klt d (node_key a) (node_key b) -> before d a b.
Proof.
  intros Ta Tb Ka Kb [H|[H1 H2]]; [left; exact H|]. right. split; [exact H1|].
  exists (ridx (tn_type a)), (ridx (tn_type b)). split; [apply rank_ridx; auto|]. split; [apply rank_ridx; auto|].
  rewrite (keep_key d a Ta Ka), (keep_key d b Tb Kb) in H2.
  destruct H2 as [H2|[H2 H3]]; [left; eapply key_lt; eauto|right].
  split; [eapply key_eq; eauto|]. exact H3.
Qed.
Lemma met_keep d n : met d n = is_track_element (tn_type n) && keep d n.
Proof. unfold met, keep. destruct (tn_type n), d, (tn_rising n); reflexivity. Qed.

Lemma filter_filter {A} (f h : A -> bool) q : filter f (filter h q) = filter (fun x => h x && f x) q.
Proof.
  induction q as [|x q IH]; [reflexivity|]. cbn. destruct (h x) eqn:H; cbn.
  - rewrite IH. reflexivity.
  - exact IH.
Qed.
Lemma Permutation_filter {A} (f : A -> bool) (p q : list A) : Permutation p q -> Permutation (filter f p) (filter f q).
Proof.
  induction 1; cbn; auto.
  - destruct (f x); auto.
  - destruct (f x), (f y); auto. constructor.
  - eapply perm_trans; eauto.
Qed.
Lemma sorted_filter {A} (R : A -> A -> Prop) f (q : list A) : StronglySorted R q -> StronglySorted R (filter f q).
Proof.
  induction 1 as [|x q S1 IH F]; cbn; [constructor|]. destruct (f x); auto. constructor; auto.
  rewrite Forall_forall in *. intros y Hy. apply filter_In in Hy. apply F, Hy.
Qed.
Lemma sorted_weaken {A} (R R' : A -> A -> Prop) (q : list A) : (forall a b, In a q -> In b q -> R a b -> R' a b) ->
  StronglySorted R q -> StronglySorted R' q.
Proof.
  intros H S1. induction S1 as [|x q S1 IH F]; [constructor|]. constructor.
  - apply IH. intros; apply H; auto; right; auto.
  - rewrite Forall_forall in *. intros y Hy. apply H; [left; auto|right; auto|auto].
Qed.

Section NET.
  Variable l : list xstation.
  Hypothesis WD : well_drawn l.

  Lemma nodes_met s x d : section_at l s x -> met_in_order x d (nodes_in (tracks x) d).
  Proof.
    intros Hx. split.
    - unfold nodes_in. eapply perm_trans.
      + apply Permutation_filter, nodes_in_perm.
      + unfold tracks. rewrite filter_filter. apply Permutation_refl'. apply filter_ext. intros n. symmetry. apply met_keep.
    - assert (Sp : forall (t : list tnode), Permutation t (tracks x) -> 
         StronglySorted (fun a b => klt d (node_key a) (node_key b)) (sort_nodes d t)).
      { intros t Ht. apply sort_nodes_sorted.
        - intros a b Ha Hb. apply (wd_apart l WD s x); auto.
          + eapply Permutation_in in Ha; [|exact Ht]. apply filter_In in Ha. apply Ha.
          + eapply Permutation_in in Hb; [|exact Ht]. apply filter_In in Hb. apply Hb.
        - eapply Permutation_NoDup; [apply Permutation_map, Permutation_sym; exact Ht|].
          apply filter_NoDup_map. exact (wd_low_ids l WD s x Hx). }
      apply (sorted_weaken (fun a b => klt d (node_key a) (node_key b))).
      + intros a b Ha Hb. apply nodes_in_spec in Ha, Hb. destruct Ha as [Ha Ka], Hb as [Hb Kb].
        apply filter_In in Ha, Hb. apply before_of_klt; auto; [apply Ha|apply Hb].
      + unfold nodes_in. apply sorted_filter. destruct d; apply Sp; auto. apply sort_perm.
  Qed.

  Variables (g0 g : graph) (dev : place -> nat) (run : nat -> bool -> list nat).
  Hypothesis I : Inv l (length (plan l)) g0 dev run.
  Hypothesis B : closed_borders l dev g0 g.

  (* the places of the device at a place *)
  Definition at_dev (p : place) (q : place) (m : snode) (t : part) : Prop :=
    node_at l q m /\ dev q = dev p /\ part_of (sn_name m) = t.
  Inductive group (p : place) (n : snode) : Prop :=
  | g_end : sn_name n = N_BUMPER \/ sn_name n = N_TRACK_END -> group p n
  | g_border : sn_name n = N_BORDER -> group p n
  | g_two pa na pb nb : node_at l pa na -> node_at l pb nb -> device na = device n -> device nb = device n ->
      part_of (sn_name na) = First -> part_of (sn_name nb) = Second ->
      (p = pa /\ n = na \/ p = pb /\ n = nb) -> group p n
  | g_three pa na pb nb pc nc : node_at l pa na -> node_at l pb nb -> node_at l pc nc ->
      device na = device n -> device nb = device n -> device nc = device n ->
      part_of (sn_name na) = Toe -> part_of (sn_name nb) = Stem -> part_of (sn_name nc) = Branch ->
      (p = pa /\ n = na \/ p = pb /\ n = nb \/ p = pc /\ n = nc) -> group p n
  | g_four pa na pb nb pc nc pd nd : node_at l pa na -> node_at l pb nb -> node_at l pc nc -> node_at l pd nd ->
      device na = device n -> device nb = device n -> device nc = device n -> device nd = device n ->
      part_of (sn_name na) = StartLeft -> part_of (sn_name nb) = EndLeft ->
      part_of (sn_name nc) = StartRight -> part_of (sn_name nd) = EndRight ->
      (p = pa /\ n = na \/ p = pb /\ n = nb \/ p = pc /\ n = nc \/ p = pd /\ n = nd) -> group p n.

  Lemma group_of p n : node_at l p n -> group p n.
  Proof.
    intros Hn. destruct (wd_lead l WD p n Hn) as (q & m & Hm & Id & Ld & Ty).
    assert (Dm : device m = device n) by (unfold device at 1; rewrite Ld; auto).
    assert (Same : forall q' m', node_at l q' m' -> device m' = device n -> part_of (sn_name n) = part_of (sn_name m') ->
                   p = q' /\ n = m').
    { intros q' m' Hq Hd Hp. assert (p = q') by (eapply (wd_once l WD p q' n m'); eauto). subst q'.
      split; auto. eapply node_fun; eauto. }
    destruct (part_of (sn_name m)) eqn:Pm; try discriminate.
    - assert (W : part_of (sn_name n) = Whole) by (eapply whole_part; [exact Ty|exact Pm]).
      destruct (sn_name n) eqn:Nn; try discriminate; [apply g_end|apply g_end|apply g_border]; auto.
    - destruct (wd_parts l WD q m Second Hm) as (q2 & m2 & H2 & D2 & P2); [rewrite Pm; cbn; auto|].
      apply (g_two p n q m q2 m2); auto; [congruence|].
      destruct (part_of (sn_name n)) eqn:Pn.
      2:{ left. apply Same; auto; congruence. } 2:{ right. apply Same; auto; congruence. }
      all: exfalso; destruct (sn_name m); try discriminate Pm; destruct (sn_name n); try discriminate Pn; discriminate Ty.
    - destruct (wd_parts l WD q m Stem Hm) as (q2 & m2 & H2 & D2 & P2); [rewrite Pm; cbn; auto|].
      destruct (wd_parts l WD q m Branch Hm) as (q3 & m3 & H3 & D3 & P3); [rewrite Pm; cbn; auto|].
      apply (g_three p n q m q2 m2 q3 m3); auto; try congruence.
      destruct (part_of (sn_name n)) eqn:Pn.
      4:{ left. apply Same; auto; congruence. } 4:{ right; left. apply Same; auto; congruence. }
      4:{ right; right. apply Same; auto; congruence. }
      all: exfalso; destruct (sn_name m); try discriminate Pm; destruct (sn_name n); try discriminate Pn; discriminate Ty.
    - destruct (wd_parts l WD q m EndLeft Hm) as (q2 & m2 & H2 & D2 & P2); [rewrite Pm; cbn; auto|].
      destruct (wd_parts l WD q m StartRight Hm) as (q3 & m3 & H3 & D3 & P3); [rewrite Pm; cbn; auto|].
      destruct (wd_parts l WD q m EndRight Hm) as (q4 & m4 & H4 & D4 & P4); [rewrite Pm; cbn; auto|].
      apply (g_four p n q m q2 m2 q3 m3 q4 m4); auto; try congruence.
      destruct (part_of (sn_name n)) eqn:Pn.
      7:{ left. apply Same; auto; congruence. } 7:{ right; left. apply Same; auto; congruence. }
      7:{ right; right; left. apply Same; auto; congruence. } 7:{ right; right; right. apply Same; auto; congruence. }
      all: exfalso; destruct (sn_name m); try discriminate Pm; destruct (sn_name n); try discriminate Pn; discriminate Ty.
  Qed.

  Notation arr p := (arrive g dev run (fst p) (snd p)).
  Notation outp p := (out g run p).
  Lemma Dv p q n m : node_at l p n -> node_at l q m -> device n = device m -> dev p = dev q.
  Proof. intros Hn Hm H. apply (dev_same l g0 dev run I p q n m Hn Hm). auto. Qed.

  (* what the links of a device are *)
  Lemma device_ok p n : node_at l p n -> exists e lk, E g (dev p) = Some e /\ connect_elem g (dev p) e = Ok lk /\
      get_node g (Some (dev p)) (snd p) (last (run (fst p) (snd p)) 0) = Ok (arr p) /\ fst (arr p) = dev p.
  Proof.
    intros Hn. destruct (group_of p n Hn) as [T|T|pa na pb nb Ha Hb Da Db Pa Pb Q
      |pa na pb nb pc nc Ha Hb Hc Da Db Dc Pa Pb Pc Q|pa na pb nb pc nc pd nd Ha Hb Hc Hd Da Db Dc Dd Pa Pb Pc Pd Q].
    - destruct (end_ok l WD g0 g dev run I B p n Hn T) as (e & lk & X1 & X2 & X3 & X4 & _).
      exists e, lk. rewrite X3, X4. auto.
    - destruct (border_ok l WD g0 g dev run I B p n Hn T) as (e & lk & X1 & X2 & X3 & X4 & _).
      exists e, lk. rewrite X3, X4. auto.
    - assert (Eb : device na = device nb) by congruence.
      destruct (two_ok l WD g0 g dev run I B pa pb na nb Ha Hb Eb Pa Pb) as (e & lk & u & v & X1 & X2 & X3 & X4 & X5 & X6 & _).
      pose proof (Dv pa pb na nb Ha Hb Eb) as V.
      exists e, lk. destruct Q as [[-> ->]|[-> ->]]; rewrite <- ?V in *; rewrite ?X3, ?X4, ?X5, ?X6; auto.
    - assert (Eb : device na = device nb) by congruence. assert (Ec : device na = device nc) by congruence.
      destruct (three_ok l WD g0 g dev run I B pa pb pc na nb nc Ha Hb Hc Eb Ec Pa Pb Pc) as (e & lk & u & v & X1 & X2 & X3 & X4 & X5 & X6 & X7 & X8 & _).
      pose proof (Dv pa pb na nb Ha Hb Eb) as V. pose proof (Dv pa pc na nc Ha Hc Ec) as V'.
      exists e, lk. destruct Q as [[-> ->]|[[-> ->]|[-> ->]]]; rewrite <- ?V, <- ?V' in *; rewrite ?X3, ?X4, ?X5, ?X6, ?X7, ?X8; auto.
    - assert (Eb : device na = device nb) by congruence. assert (Ec : device na = device nc) by congruence.
      assert (Ed : device na = device nd) by congruence.
      destruct (four_ok l WD g0 g dev run I B pa pb pc pd na nb nc nd Ha Hb Hc Hd Eb Ec Ed Pa Pb Pc Pd)
        as (e & lk & u & v & u' & v' & X1 & X2 & X3 & X4 & X5 & X6 & X7 & X8 & X9 & X10 & _).
      pose proof (Dv pa pb na nb Ha Hb Eb) as V. pose proof (Dv pa pc na nc Ha Hc Ec) as V'.
      pose proof (Dv pa pd na nd Ha Hd Ed) as V''.
      exists e, lk. destruct Q as [[-> ->]|[[-> ->]|[[-> ->]|[-> ->]]]]; rewrite <- ?V, <- ?V', <- ?V'' in *;
        rewrite ?X3, ?X4, ?X5, ?X6, ?X7, ?X8, ?X9, ?X10; auto.
  Qed.

  (* along a section *)
  Lemma next_in s x d j z e : section_at l s x -> nth_error (run s d) j = Some z -> E g z = Some e ->
    get_node g (fw d e) d z = Ok (nth (S j) (map (rnode g d) (run s d)) (arrive g dev run s d)).
  Proof.
    intros [st Hx] J He. assert (Hs : s < length (plan l)) by (apply nth_error_Some; congruence).
    assert (Hz : In z (run s d)) by (eapply nth_error_In; eauto).
    rewrite (frame_run l WD g0 g dev run I B s d z Hs Hz) in He.
    destruct (in_run _ _ _ _ _ I s st x d j z Hx Hs J) as (e' & X1 & _ & X3 & _).
    rewrite He in X1. injection X1 as <-. rewrite X3, (nth_app_S (run s d) (dev (s, d)) j z J).
    destruct (nth_error (run s d) (S j)) as [w|] eqn:W.
    - rewrite (get_track l WD g0 g dev run I B s d w z Hs) by (eapply nth_error_In; eauto).
      f_equal. symmetry. apply nth_error_nth. apply map_nth_error. auto.
    - rewrite nth_overflow by (rewrite map_length; apply nth_error_None; auto).
      assert (Lz : last (run s d) 0 = z).
      { assert (j < length (run s d)) by (apply nth_error_Some; congruence).
        apply nth_error_None in W. assert (S j = length (run s d)) by lia.
        assert (NE : run s d <> []) by (intros X; rewrite X in Hz; destruct Hz).
        destruct (exists_last NE) as (q & y & R). rewrite R, last_last. rewrite R in J, H0. rewrite app_length in H0. cbn in H0.
        assert (j = length q) by lia. subst j. rewrite nth_app_len in J. congruence. }
      destruct (device_ok (s, d) (end_of x d) (node_end _ _ _ _ d Hx)) as (e1 & lk & _ & _ & X & _).
      cbn [fst snd] in X. rewrite Lz in X. exact X.
  Qed.
  Lemma along_ok s x d j z : section_at l s x -> nth_error (run s d) j = Some z ->
    exists e lk, E g z = Some e /\ connect_elem g z e = Ok lk /\
      lk (snd (rnode g d z)) = (Some (nth (S j) (map (rnode g d) (run s d)) (arrive g dev run s d)), None).
  Proof.
    intros Hx J. pose proof Hx as [st Hx']. assert (Hs : s < length (plan l)) by (apply nth_error_Some; congruence).
    assert (Hz : In z (run s d)) by (eapply nth_error_In; eauto).
    destruct (run_track l g0 dev run I s d z Hs Hz) as (st' & x' & e & _ & He & _ & _ & _ & _ & Kd).
    pose proof He as He0. rewrite <- (frame_run l WD g0 g dev run I B s d z Hs Hz) in He.
    pose proof (next_in s x d j z e Hx J He) as Nx.
    exists e. unfold rnode at 1. rewrite He. destruct Kd as [[Kd R]|Kd].
    - unfold connect_elem. rewrite Kd. unfold fw in Nx. rewrite Kd in Nx. rewrite R, Nx. cbn [bind].
      eexists. split; [auto|]. split; [reflexivity|]. reflexivity.
    - pose proof (in_both _ _ _ _ _ I s d z e Hs Hz He0 Kd) as Hz'.
      apply In_nth_error in Hz'. destruct Hz' as [j' J'].
      pose proof (next_in s x (negb d) j' z e Hx J' He) as Nx'.
      unfold connect_elem. rewrite Kd. unfold fw in Nx, Nx'. rewrite Kd in Nx, Nx'.
      destruct d; cbn [negb] in *.
      + destruct (e_nb e S0 true) as [a|]; [|discriminate]. destruct (e_nb e S1 false) as [b|]; [|discriminate].
        rewrite Nx, Nx'. cbn [bind]. eexists. split; [auto|]. split; reflexivity.
      + destruct (e_nb e S0 true) as [a|]; [|discriminate]. destruct (e_nb e S1 false) as [b|]; [|discriminate].
        rewrite Nx'. cbn [bind]. rewrite Nx. cbn [bind]. eexists. split; [auto|]. split; reflexivity.
  Qed.

  Lemma all_connect : forall i e, E g i = Some e -> exists lk, connect_elem g i e = Ok lk.
  Proof.
    intros i e He. assert (L : i < len g0) by (rewrite <- (cb_len _ _ _ _ B); eapply E_lt; eauto).
    destruct (in_elem _ _ _ _ _ I i L) as [(p & n & Hn & Hp & <-)|(s & d & Hs & Hi)].
    - destruct (device_ok p n Hn) as (e' & lk & X1 & X2 & _). rewrite He in X1. injection X1 as <-. eauto.
    - apply In_nth_error in Hi. destruct Hi as [j J].
      destruct (nth_error (plan l) s) as [[st x]|] eqn:P; [|apply nth_error_None in P; lia].
      destruct (along_ok s x d j i (ex_intro _ st P) J) as (e' & lk & X1 & X2 & _). rewrite He in X1. injection X1 as <-. eauto.
  Qed.

  Definition runn (s : nat) (d : bool) : list node := map (rnode g d) (run s d).

  Lemma arcs_fact p n e : node_at l p n -> sn_name n <> N_BORDER -> E g (dev p) = Some e ->
    (e_arc_lr e = true -> exists q m, node_at l q m /\ device m = device n /\
       sn_name m = N_CROSS_SWITCH_START_LEFT /\ sn_branch m = true) /\
    (e_arc_rl e = true -> exists q m, node_at l q m /\ device m = device n /\
       sn_name m = N_CROSS_SWITCH_END_LEFT /\ sn_branch m = true).
  Proof.
    intros Hn Hb He. rewrite (frame_dev l WD g0 g dev run I B p n Hn Hb) in He.
    destruct (in_arcs _ _ _ _ _ I p n e Hn (place_lt l _ _ Hn) He) as [X Y].
    split; intros H; [destruct (X H) as (q & m & Z1 & Z2 & Z3 & Z4 & Z5)|destruct (Y H) as (q & m & Z1 & Z2 & Z3 & Z4 & Z5)];
      exists q, m; repeat split; auto; apply (dev_same l g0 dev run I q p m n Z1 Hn); auto.
  Qed.
  Lemma slip_lr p n q m e : node_at l p n -> node_at l q m -> device m = device n -> dev q = dev p -> E g (dev p) = Some e ->
    part_of (sn_name m) = StartLeft -> (has_slip m <-> e_arc_lr e = true).
  Proof.
    intros Hn Hm Hd V He Pm. destruct (dev_fact l WD g0 g dev run I B q m Hm) as [e' D].
    pose proof (df_E _ _ _ _ _ _ _ D) as He'. rewrite V, He in He'. injection He' as <-. split.
    - intros [N1 N2]. rewrite (df_lr _ _ _ _ _ _ _ D); auto. destruct N1 as [->|N1]; [auto|]. rewrite N1 in Pm. discriminate.
    - intros H.
      assert (Nb : sn_name m <> N_BORDER) by (intros X; rewrite X in Pm; discriminate).
      assert (He2 : E g (dev q) = Some e) by congruence.
      destruct (proj1 (arcs_fact q m e Hm Nb He2) H) as (q' & m' & Z1 & Z2 & Z3 & Z4).
      assert (q' = q).
      { eapply (wd_once l WD q' q m' m); eauto. rewrite Z3, Pm. reflexivity. }
      subst q'. rewrite (node_fun l _ _ _ Hm Z1). split; auto.
  Qed.
  Lemma slip_rl p n q m e : node_at l p n -> node_at l q m -> device m = device n -> dev q = dev p -> E g (dev p) = Some e ->
    part_of (sn_name m) = EndLeft -> (has_slip m <-> e_arc_rl e = true).
  Proof.
    intros Hn Hm Hd V He Pm. destruct (dev_fact l WD g0 g dev run I B q m Hm) as [e' D].
    pose proof (df_E _ _ _ _ _ _ _ D) as He'. rewrite V, He in He'. injection He' as <-. split.
    - intros [N1 N2]. rewrite (df_rl _ _ _ _ _ _ _ D); auto. destruct N1 as [N1| ->]; [|auto]. rewrite N1 in Pm. discriminate.
    - intros H.
      assert (Nb : sn_name m <> N_BORDER) by (intros X; rewrite X in Pm; discriminate).
      assert (He2 : E g (dev q) = Some e) by congruence.
      destruct (proj2 (arcs_fact q m e Hm Nb He2) H) as (q' & m' & Z1 & Z2 & Z3 & Z4).
      assert (q' = q).
      { eapply (wd_once l WD q' q m' m); eauto. rewrite Z3, Pm. reflexivity. }
      subst q'. rewrite (node_fun l _ _ _ Hm Z1). split; auto.
  Qed.

  Variable ls : list links.
  Hypothesis Ls : forall i e lk, E g i = Some e -> connect_elem g i e = Ok lk -> nth_error ls i = Some lk.

  Lemma next_eq i e lk s : E g i = Some e -> connect_elem g i e = Ok lk ->
    next_node ls (i, s) = fst (lk s) /\ branch_node ls (i, s) = snd (lk s).
  Proof. intros H1 H2. unfold next_node, branch_node; cbn. rewrite (Ls i e lk H1 H2). auto. Qed.

  Lemma out_eq p : outp p = hd_error (runn (fst p) (negb (snd p))).
  Proof. reflexivity. Qed.

  (* straight on and diverging, for one device *)
  Lemma ways p n q m : node_at l p n -> node_at l q m -> device n = device m ->
    (straight (part_of (sn_name n)) (part_of (sn_name m)) -> next_node ls (arr p) = outp q) /\
    (diverging n m -> branch_node ls (arr p) = outp q).
  Proof.
    intros Hn Hm Hd.
    assert (Uq : forall q' m' (G : node_at l q' m') (D : device m' = device n) (P : part_of (sn_name m) = part_of (sn_name m')), q = q' /\ m = m').
    { intros q' m' G D P. assert (q = q') by (eapply (wd_once l WD q q' m m'); eauto; congruence). subst q'.
      split; auto. eapply node_fun; eauto. }
    destruct (group_of p n Hn) as [T|T|pa na pb nb Ha Hb Da Db Pa Pb Q
      |pa na pb nb pc nc Ha Hb Hc Da Db Dc Pa Pb Pc Q|pa na pb nb pc nc pd nd Ha Hb Hc Hd' Da Db Dc Dd Pa Pb Pc Pd Q].
    - assert (W : part_of (sn_name n) = Whole) by (destruct T as [-> | ->]; reflexivity). unfold diverging. rewrite W. cbn. tauto.
    - unfold diverging. rewrite T. cbn. tauto.
    - assert (Eb : device na = device nb) by congruence.
      destruct (two_ok l WD g0 g dev run I B pa pb na nb Ha Hb Eb Pa Pb) as (e & lk & u & v & X1 & X2 & X3 & X4 & X5 & X6 & X7 & X8).
      unfold diverging.
      destruct Q as [[-> ->]|[-> ->]]; rewrite ?X5, ?X6, ?Pa, ?Pb; cbn [straight];
        destruct (part_of (sn_name m)) eqn:Pm; try tauto; split; try tauto; intros _;
        [destruct (Uq pb nb Hb Db) as [-> ->]|destruct (Uq pa na Ha Da) as [-> ->]]; try congruence.
      + rewrite (proj1 (next_eq _ _ _ u X1 X2)), X7. reflexivity.
      + rewrite (proj1 (next_eq _ _ _ v X1 X2)), X8. reflexivity.
    - assert (Eb : device na = device nb) by congruence. assert (Ec : device na = device nc) by congruence.
      destruct (three_ok l WD g0 g dev run I B pa pb pc na nb nc Ha Hb Hc Eb Ec Pa Pb Pc) as (e & lk & u & v & X1 & X2 & X3 & X4 & X5 & X6 & X7 & X8 & X9 & X10).
      pose proof (next_eq _ _ _ u X1 X2) as [U1 U2]. pose proof (next_eq _ _ _ v X1 X2) as [V1 V2]. rewrite X9 in U1, U2. rewrite X10 in V1, V2.
      unfold diverging.
      destruct Q as [[-> ->]|[[-> ->]|[-> ->]]]; rewrite ?X6, ?X7, ?X8, ?Pa, ?Pb, ?Pc; cbn [straight];
        destruct (part_of (sn_name m)) eqn:Pm; try tauto; split; try tauto; intros _.
      + destruct (Uq pb nb Hb Db) as [-> ->]; [congruence|]. exact U1.
      + destruct (Uq pc nc Hc Dc) as [-> ->]; [congruence|]. exact U2.
      + destruct (Uq pa na Ha Da) as [-> ->]; [congruence|]. exact V1.
      + destruct (Uq pa na Ha Da) as [-> ->]; [congruence|]. exact V1.
    - assert (Eb : device na = device nb) by congruence. assert (Ec : device na = device nc) by congruence.
      assert (Ed : device na = device nd) by congruence.
      destruct (four_ok l WD g0 g dev run I B pa pb pc pd na nb nc nd Ha Hb Hc Hd' Eb Ec Ed Pa Pb Pc Pd)
        as (e & lk & u & v & u' & v' & X1 & X2 & X3 & X4 & X5 & X6 & X7 & X8 & X9 & X10 & X11 & X12 & X13 & X14).
      pose proof (next_eq _ _ _ u X1 X2) as [U1 U2]. pose proof (next_eq _ _ _ v X1 X2) as [V1 V2]. rewrite X11 in U1, U2. rewrite X12 in V1, V2.
      pose proof (next_eq _ _ _ u' X1 X2) as [U1' U2']. pose proof (next_eq _ _ _ v' X1 X2) as [V1' V2']. rewrite X13 in U1', U2'. rewrite X14 in V1', V2'.
      pose proof (slip_lr pa na pa na e Ha Ha eq_refl eq_refl X1 Pa) as Slr.
      pose proof (slip_rl pa na pb nb e Ha Hb (eq_sym Eb) (eq_sym (Dv _ _ _ _ Ha Hb Eb)) X1 Pb) as Srl.
      unfold diverging.
      destruct Q as [[-> ->]|[[-> ->]|[[-> ->]|[-> ->]]]]; rewrite ?X7, ?X8, ?X9, ?X10, ?Pa, ?Pb, ?Pc, ?Pd; cbn [straight];
        destruct (part_of (sn_name m)) eqn:Pm; try tauto; split; try tauto; intros H;
        first [destruct (Uq pa na Ha Da) as [-> ->]; [congruence|]|destruct (Uq pb nb Hb Db) as [-> ->]; [congruence|]
              |destruct (Uq pc nc Hc Dc) as [-> ->]; [congruence|]|destruct (Uq pd nd Hd' Dd) as [-> ->]; [congruence|]];
        try assumption.
      + apply Slr in H. rewrite H in U2. exact U2.
      + apply Srl in H. rewrite H in V2. exact V2.
      + apply Srl in H. rewrite H in U2'. exact U2'.
      + apply Slr in H. rewrite H in V2'. exact V2'.
  Qed.
  Lemma no_way p n : node_at l p n -> (forall q m, node_at l q m -> device n = device m -> ~ diverging n m) ->
    branch_node ls (arr p) = None.
  Proof.
    intros Hn No.
    destruct (group_of p n Hn) as [T|T|pa na pb nb Ha Hb Da Db Pa Pb Q
      |pa na pb nb pc nc Ha Hb Hc Da Db Dc Pa Pb Pc Q|pa na pb nb pc nc pd nd Ha Hb Hc Hd' Da Db Dc Dd Pa Pb Pc Pd Q].
    - destruct (end_ok l WD g0 g dev run I B p n Hn T) as (e & lk & X1 & X2 & X3 & X4 & X5 & X6).
      rewrite X4, (proj2 (next_eq _ _ _ _ X1 X2)), X5. reflexivity.
    - destruct (border_ok l WD g0 g dev run I B p n Hn T) as (e & lk & X1 & X2 & X3 & X4 & X5 & X6 & X7).
      rewrite X4, (proj2 (next_eq _ _ _ _ X1 X2)).
      destruct (in_dec string_dec (sn_station n) (map st_ds100 l)) as [S1|S1].
      + destruct (wd_border l WD p n Hn T S1) as (q & Qp & _). rewrite (X6 q Qp). reflexivity.
      + rewrite (X7 S1). reflexivity.
    - assert (Eb : device na = device nb) by congruence.
      destruct (two_ok l WD g0 g dev run I B pa pb na nb Ha Hb Eb Pa Pb) as (e & lk & u & v & X1 & X2 & X3 & X4 & X5 & X6 & X7 & X8).
      destruct Q as [[-> ->]|[-> ->]]; rewrite ?X5, ?X6, (proj2 (next_eq _ _ _ _ X1 X2)), ?X7, ?X8; reflexivity.
    - assert (Eb : device na = device nb) by congruence. assert (Ec : device na = device nc) by congruence.
      destruct (three_ok l WD g0 g dev run I B pa pb pc na nb nc Ha Hb Hc Eb Ec Pa Pb Pc) as (e & lk & u & v & X1 & X2 & X3 & X4 & X5 & X6 & X7 & X8 & X9 & X10).
      destruct Q as [[-> ->]|[[-> ->]|[-> ->]]]; rewrite ?X6, ?X7, ?X8, (proj2 (next_eq _ _ _ _ X1 X2)), ?X9, ?X10; try reflexivity.
      exfalso. apply (No pc nc Hc Ec). unfold diverging. rewrite Pa, Pc. exact Logic.I.
    - assert (Eb : device na = device nb) by congruence. assert (Ec : device na = device nc) by congruence.
      assert (Ed : device na = device nd) by congruence.
      destruct (four_ok l WD g0 g dev run I B pa pb pc pd na nb nc nd Ha Hb Hc Hd' Eb Ec Ed Pa Pb Pc Pd)
        as (e & lk & u & v & u' & v' & X1 & X2 & X3 & X4 & X5 & X6 & X7 & X8 & X9 & X10 & X11 & X12 & X13 & X14).
      pose proof (slip_lr pa na pa na e Ha Ha eq_refl eq_refl X1 Pa) as Slr.
      pose proof (slip_rl pa na pb nb e Ha Hb (eq_sym Eb) (eq_sym (Dv _ _ _ _ Ha Hb Eb)) X1 Pb) as Srl.
      destruct Q as [[-> ->]|[[-> ->]|[[-> ->]|[-> ->]]]]; rewrite ?X7, ?X8, ?X9, ?X10, (proj2 (next_eq _ _ _ _ X1 X2)), ?X11, ?X12, ?X13, ?X14; cbn [snd].
      + destruct (e_arc_lr e) eqn:A; [|reflexivity]. exfalso. apply (No pd nd Hd' Ed). unfold diverging. rewrite Pa, Pd. tauto.
      + destruct (e_arc_rl e) eqn:A; [|reflexivity]. exfalso. apply (No pc nc Hc); [congruence|]. unfold diverging. rewrite Pb, Pc. tauto.
      + destruct (e_arc_rl e) eqn:A; [|reflexivity]. exfalso. apply (No pb nb Hb); [congruence|]. unfold diverging. rewrite Pb, Pc. tauto.
      + destruct (e_arc_lr e) eqn:A; [|reflexivity]. exfalso. apply (No pa na Ha); [congruence|]. unfold diverging. rewrite Pa, Pd. tauto.
  Qed.

  Lemma is_device_dev p n s : node_at l p n -> is_device g n (dev p, s).
  Proof.
    intros Hn. destruct (dev_fact l WD g0 g dev run I B p n Hn) as [e D].
    destruct (in_dev _ _ _ _ _ I p n Hn (place_lt l _ _ Hn)) as (e0 & _ & _ & _ & R & _).
    split; cbn.
    - rewrite (cb_rp _ _ _ _ B). auto.
    - exists e. split; [apply (df_E _ _ _ _ _ _ _ D)|apply (df_type _ _ _ _ _ _ _ D)].
  Qed.

  Lemma drives : drives_as_drawn l g ls runn (arrive g dev run).
  Proof.
    split.
    - intros s x d Hx. pose proof Hx as [st Hx'].
      assert (Hs : s < length (plan l)) by (apply nth_error_Some; congruence).
      exists (nodes_in (tracks x) d). split; [eapply nodes_met; eauto|].
      pose proof (in_nodes _ _ _ _ _ I s st x d Hx' Hs) as Nd.
      assert (Md := fun j n i => in_made _ _ _ _ _ I s st x d j n i Hx' Hs).
      destruct (nodes_in (tracks x) d) as [|n0 ns0] eqn:Ns.
      + destruct Nd as (m & e & R & He & Ty & Kmm). exists (rnode g d m), e. unfold runn. rewrite R. split; [reflexivity|].
        cbn. split; [|split; [exact Ty|rewrite Kmm; destruct d; reflexivity]]. change (E g m = Some e). rewrite (frame_run l WD g0 g dev run I B s d m Hs); auto.
        rewrite R; left; auto.
      + set (ns := n0 :: ns0) in *. clearbody ns.
        assert (G : forall ns q, length q = length ns -> (forall j n i, nth_error ns j = Some n -> nth_error q j = Some i -> stands_for g n (rnode g d i)) ->
                    Forall2 (stands_for g) ns (map (rnode g d) q)).
        { clear. induction ns as [|n ns IH]; intros [|i q] L H; try discriminate; cbn; constructor.
          - apply (H 0); reflexivity.
          - apply IH; [cbn in L; lia|]. intros j n' i' X Y. apply (H (S j)); auto. }
        apply G; auto. intros j n i Hn Hi.
        destruct (Md j n i Hn Hi) as (e & He & Hm & R). destruct Hm as (M1 & M2 & M3 & M4 & _).
        split; cbn.
        * rewrite (cb_rp _ _ _ _ B). auto.
        * exists e. split; [|split; [auto|rewrite M4; reflexivity]].
          change (E g i = Some e). rewrite (frame_run l WD g0 g dev run I B s d i Hs); auto. eapply nth_error_In; eauto.
    - intros s x d k n Hx Hk. unfold runn in Hk. rewrite nth_error_map in Hk.
      destruct (nth_error (run s d) k) as [z|] eqn:Z; [|discriminate]. cbn in Hk. injection Hk as <-.
      destruct (along_ok s x d k z Hx Z) as (e & lk & X1 & X2 & X3).
      destruct (next_eq z e lk (snd (rnode g d z)) X1 X2) as [N1 N2].
      rewrite X3 in N1, N2. split; [exact N1|exact N2].
    - intros p n Hn. destruct (device_ok p n Hn) as (e & lk & _ & _ & _ & F).
      destruct (arr p) as [i s] eqn:A. cbn in F. subst i. apply is_device_dev; auto.
    - intros p n v Hn V. destruct (dev_fact l WD g0 g dev run I B p n Hn) as [e D].
      destruct (device_ok p n Hn) as (e' & lk & _ & _ & _ & F). exists e.
      split; [change (arrive g dev run (fst p) (snd p)) with (arr p); rewrite F; exact (df_E _ _ _ _ _ _ _ D)|].
      pose proof (df_nb _ _ _ _ _ _ _ D) as Nb. unfold runn in V. rewrite <- map_rev in V. destruct V as [V|V].
      + destruct (rev (run (fst p) (snd p))) as [|z q] eqn:Rv; [discriminate|]. cbn in V. injection V as <-.
        apply (km_seen l WD g0 g dev run I B p n e (snd p) z Hn D). rewrite Nb, Bool.eqb_reflx.
        apply (f_equal (@rev nat)) in Rv. rewrite rev_involutive in Rv. rewrite Rv. cbn [rev]. rewrite last_last. reflexivity.
      + destruct (run (fst p) (negb (snd p))) as [|z q] eqn:Rv; [discriminate|]. cbn in V. injection V as <-.
        apply (km_seen l WD g0 g dev run I B p n e (negb (snd p)) z Hn D). rewrite Nb.
        replace (Bool.eqb (negb (snd p)) (snd p)) with false by (destruct (snd p); reflexivity). rewrite Rv. reflexivity.
    - intros p q n m Hn Hm Hd S1. apply (proj1 (ways p n q m Hn Hm Hd) S1).
    - intros p q n m Hn Hm Hd S1. apply (proj2 (ways p n q m Hn Hm Hd) S1).
    - intros p n Hn No. apply (no_way p n Hn No).
    - intros p n Hn T. destruct (end_ok l WD g0 g dev run I B p n Hn T) as (e & lk & X1 & X2 & X3 & X4 & X5 & X6).
      rewrite X4, (proj1 (next_eq _ _ _ _ X1 X2)), X5. reflexivity.
    - intros p q n m Hn Hm Pq.
      destruct (partners_names l WD g0 dev run I _ _ Pq) as (n' & m' & Y1 & Y2 & Y3 & Y4 & Y5).
      rewrite (node_fun l _ _ _ Y1 Hn) in Y3. rewrite (node_fun l _ _ _ Y2 Hm) in Y4.
      destruct (border_ok l WD g0 g dev run I B p n Hn Y3) as (e & lk & X1 & X2 & X3 & X4 & X5 & X6 & X7).
      destruct (border_ok l WD g0 g dev run I B q m Hm Y4) as (e' & lk' & Z1 & Z2 & Z3 & Z4 & Z5 & Z6 & Z7).
      exists (dev q, tslot (snd p)). split; [apply is_device_dev; auto|].
      rewrite X4, (proj1 (next_eq _ _ _ _ X1 X2)), (X6 q Pq). split; [reflexivity|].
      assert (O : tslot (snd p) = oslot (snd q)).
      { destruct (partner_one l WD p q q Pq Pq) as [_ D]. unfold oslot, tslot. destruct (snd p), (snd q); try reflexivity; congruence. }
      rewrite O. destruct (next_eq _ _ _ (oslot (snd q)) Z1 Z2) as [N1 N2]. rewrite Z5 in N1, N2. auto.
    - intros p n Hn Nb No.
      destruct (border_ok l WD g0 g dev run I B p n Hn Nb) as (e & lk & X1 & X2 & X3 & X4 & X5 & X6 & X7).
      rewrite X4, (proj1 (next_eq _ _ _ _ X1 X2)), (X7 No). reflexivity.
    - intros p n Hn W.
      assert (C : (sn_name n = N_BUMPER \/ sn_name n = N_TRACK_END) \/ sn_name n = N_BORDER).
      { destruct (sn_name n); try discriminate; auto. }
      exists (dev p, oslot (snd p)). split; [apply is_device_dev; auto|].
      destruct C as [C|C].
      + destruct (end_ok l WD g0 g dev run I B p n Hn C) as (e & lk & X1 & X2 & X3 & X4 & X5 & X6).
        rewrite X4, (proj1 (next_eq _ _ _ _ X1 X2)), X6. split; [|reflexivity].
        unfold oslot, tslot. destruct (snd p); intros X; discriminate.
      + destruct (border_ok l WD g0 g dev run I B p n Hn C) as (e & lk & X1 & X2 & X3 & X4 & X5 & X6 & X7).
        rewrite X4, (proj1 (next_eq _ _ _ _ X1 X2)), X5. split; [|reflexivity].
        unfold oslot, tslot. destruct (snd p); intros X; discriminate.
  Qed.
End NET.

Lemma network l : well_drawn l -> exists g ls run arrive,
  import l = Ok g /\ connect_nodes g = Ok ls /\ drives_as_drawn l g ls run arrive.
Proof.
  intros WD. destruct (parse_all l WD) as (g0 & dev & run & H1 & I).
  destruct (close_borders l WD g0 dev run I) as (g & H2 & B).
  destruct (connect_all g (all_connect l WD g0 g dev run I B)) as (ls & H3 & Ls).
  exists g, ls, (runn g run), (arrive g dev run). split.
  - unfold import. rewrite H1. exact H2.
  - split; [exact H3|]. exact (drives l WD g0 g dev run I B ls Ls).
Qed.
