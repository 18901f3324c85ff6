From Coq Require Import Ascii String List QArith ZArith NArith Bool Lia Permutation.
From Verif Require Import Base GenOsmModel GenOsmSpec GenOsmProofs GenFindModel GenFindSpec GenMapModel GenMapSpec GenMapProofs GenMapProofs2 GenMapProofs3 GenMapProofs4 GenMapProofs5.
Import ListNotations.
Local Open Scope list_scope.
Local Open Scope nat_scope.

(* ---- the list of the signals that were put in ---- *)
Lemma insert_refused o0 D order n s f st st' : reorders order -> snd_ok o0 D st -> ident o0 s n ->
  insert_new_hauptsignal (order (a_anchors st)) n s f st = Ok (false, st') -> snd_ok o0 D st' /\ a_signals st' = a_signals st.
Proof.
  intros Ho Hok Hid E. pose proof Hok as (Hsig & Hrail & Hst). pose proof Hid as (i & _ & Hi0). pose proof Hsig as (Hpre & Hd & Hnd & Han & _).
  destruct (insert_sound _ _ _ _ _ _ _ _ _ Ho Hok Hid E) as ((Hsig' & Hrail' & _) & _).
  unfold insert_new_hauptsignal in E. destruct (existsb (String.eqb (e_name s)) (a_conflicts st)) eqn:Ex.
  { inversion E; subst. auto. }
  destruct (find_conflict (a_osm st) n (e_km s) (order (a_anchors st))) as [[k l]|] eqn:Ef.
  - pose proof (find_conflict_in _ _ _ _ _ _ Ef) as (Hin & Hne & Hsame). apply (Permutation_in _ (Ho _)) in Hin.
    apply bind_Ok in E. destruct E as (st1 & H1 & E). inversion E; subst st'. clear E.
    pose proof (anchor_delete_flat _ _ _ Hd Hin) as P. pose proof (Permutation_NoDup P Hnd) as Hnd'.
    apply drop_anchors_spec in H1. destruct H1 as (E1 & E2 & E3 & E4 & E5 & E6 & E7 & E8 & E9 & E10 & _).
    cbn [a_osm a_anchors a_conflicts a_signals] in *. split; [|exact E4].
    split; [exact Hsig'|]. split; [exact Hrail'|].
    intros km m (k1 & l1 & j & A1 & A2 & A3 & A4). cbn [a_osm a_anchors] in *. rewrite E1 in A1. apply Hst.
    rewrite E10 in A4. { apply anchor_delete_in in A1. exists k1, l1, j. tauto. }
    intros Hjl. apply (nodup_app_disj _ _ _ Hnd' Hjl). eapply flat_in; eassumption.
  - cbn [create_named_directional_node create_directional_node create_simple_node] in E. inversion E.
Qed.
Lemma insert_signals order n s f st b st' : insert_new_hauptsignal order n s f st = Ok (b, st') -> b = true -> a_signals st' = a_signals st.
Proof.
  unfold insert_new_hauptsignal. destruct (existsb _ _); [intros E; inversion E; discriminate|].
  destruct (find_conflict _ _ _ _) as [[k l]|].
  - intros E Hb. apply bind_Ok in E. destruct E as (st1 & _ & E). inversion E; subst. discriminate.
  - cbn [create_named_directional_node create_directional_node create_simple_node]. intros E _. inversion E. reflexivity.
Qed.
Definition entry (s : elem) (n : node) : string * place := (n_id n, mkplace (e_name s) (n_lat n) (n_lon n)).
Lemma attempt_listed o0 D order s f st b st' : reorders order -> snd_ok o0 D st -> attempt order s f st = Ok (b, st') ->
  if b then exists n, ident o0 s n /\ a_signals st' = put_place (a_signals st) (n_id n) (mkplace (e_name s) (n_lat n) (n_lon n))
  else snd_ok o0 D st' /\ a_signals st' = a_signals st.
Proof.
  intros Ho Hok H. unfold attempt in H. rewrite (positions_state _ _ _ s Hok) in H.
  destruct (positions (signal_matches (e_name s)) 0 (o_nodes o0)) as [|i [|]] eqn:E0; [inversion H; subst; auto| |inversion H; subst; auto].
  assert (Hi : exists n, nth_error (o_nodes o0) i = Some n).
  { destruct (proj1 (positions_spec (signal_matches (e_name s)) (o_nodes o0) 0 i)) as (n & _ & Hn & _); [rewrite E0; left; reflexivity|]. rewrite Nat.sub_0_r in Hn. eauto. }
  destruct Hi as (n & Hi). rewrite (nodes_prefix _ _ _ _ (proj1 (proj1 Hok)) Hi) in H. assert (Hid : ident o0 s n) by (exists i; auto).
  apply bind_Ok in H. destruct H as ((ok & st1) & H1 & H). destruct ok; inversion H; subst b st'; clear H.
  - exists n. split; [exact Hid|]. cbn [a_signals]. rewrite (insert_signals _ _ _ _ _ _ _ H1 eq_refl). reflexivity.
  - exact (insert_refused _ _ _ _ _ _ _ _ Ho Hok Hid H1).
Qed.

(* A: the signals of the line; sig: the list before *)
Definition listed (o0 : osm) (A : elem * bool -> Prop) (sig : list (string * place)) (st : astate) : Prop :=
  exists D, snd_ok o0 D st /\
    (forall s f, In (s, f) D -> A (s, f) /\ exists n, ident o0 s n /\ In (n_id n) (map fst (a_signals st))) /\
    (forall id p, In (id, p) (a_signals st) -> In (id, p) sig \/ exists s f n, A (s, f) /\ ident o0 s n /\ id = n_id n /\ p = mkplace (e_name s) (n_lat n) (n_lon n)) /\
    (forall id, In id (map fst sig) -> In id (map fst (a_signals st))).
Lemma put_keys l id p k : In k (map fst l) -> In k (map fst (put_place l id p)).
Proof.
  intros H. apply in_map_iff in H. destruct H as ((k' & p') & <- & H). cbn [fst]. destruct (string_dec k' id) as [->|Hne].
  - apply in_map_iff. exists (id, p). split; [reflexivity|]. apply put_place_in. auto.
  - apply in_map_iff. exists (k', p'). split; [reflexivity|]. apply put_place_in. auto.
Qed.
Lemma process_listed o0 (A : elem * bool -> Prop) sig f : forall l st st', Forall reorders (map fst l) -> (forall s, In s (map snd l) -> A (s, f)) -> listed o0 A sig st ->
  process_hauptsignal l f st = Ok st' -> listed o0 A sig st'.
Proof.
  induction l as [|[order s] l IH]; intros st st' Ho HA Hok H.
  - inversion H; subst. exact Hok.
  - cbn [map fst snd] in *. inversion Ho as [|? ? Ho1 Ho2]; subst. rewrite process_cons in H. apply bind_Ok in H. destruct H as ((ok & st1) & H1 & H).
    destruct Hok as (D & Hok & L1 & L2 & L3). pose proof (attempt_listed _ _ _ _ _ _ _ _ Ho1 Hok H1) as HL.
    apply (attempt_spec _ _ _ _ _ _ _ _ Ho1 Hok) in H1. destruct H1 as (S1 & _ & _). destruct ok.
    + inversion H; subst. destruct HL as (n & Hn & E). exists ((s, f) :: D). split; [exact S1|]. rewrite E. split; [|split].
      * intros s' f' [X|Hx].
        -- inversion X; subst. split; [apply HA; left; reflexivity|]. exists n. split; [exact Hn|]. apply in_map_iff. eexists. split; [|apply put_place_in; left; split; reflexivity]. reflexivity.
        -- destruct (L1 s' f' Hx) as (B & n' & C1 & C2). split; [exact B|]. exists n'. split; [exact C1|apply put_keys, C2].
      * intros id p Hp. apply put_place_in in Hp. destruct Hp as [[-> ->]|[_ Hp]]; [|apply L2, Hp]. right. exists s, f, n. split; [apply HA; left; reflexivity|auto].
      * intros id Hid. apply put_keys, L3, Hid.
    + destruct HL as (S2 & E). refine (IH _ _ Ho2 _ _ H); [intros x Hx; apply HA; right; exact Hx|]. exists D. split; [exact (next_ok _ _ s _ S2)|].
      cbn [next a_signals]. rewrite E. auto.
Qed.
Lemma first_pass_listed o0 (A : elem * bool -> Prop) sig : forall l st st', Forall ordered l -> Forall (fun x => no_switches (knoten_of x)) l ->
  (forall x, In x (signals_of l) -> A x) -> listed o0 A sig (f_state st) -> first_pass l st = Ok st' -> listed o0 A sig (f_state st').
Proof.
  induction l as [|[[k of_f] of_s] l IH]; intros st st' Ho Hk HA Hok H; cbn [first_pass] in H.
  - inversion H; subst. exact Hok.
  - inversion Ho as [|? ? Ho1 Ho']; subst. destruct Ho1 as (O1 & O2 & L1 & L2). inversion Hk as [|? ? Hk1 Hk']; subst. apply bind_Ok in H. destruct H as (st1 & H1 & H).
    unfold anchor_knoten, anchor_main_signals in H1. apply bind_Ok in H1. destruct H1 as (((a & mf) & ms) & H1 & H2).
    apply bind_Ok in H1. destruct H1 as (a1 & P1 & H1). apply bind_Ok in H1. destruct H1 as (a2 & P2 & H1). inversion H1; subst a mf ms. clear H1.
    rewrite (switches_none k _ Hk1) in H2. cbn [bind] in H2. inversion H2; subst st1. clear H2.
    assert (HA' : (forall s, In s (k_main_f k) -> A (s, true)) /\ (forall s, In s (k_main_s k) -> A (s, false)) /\ forall x, In x (signals_of l) -> A x).
    { split; [|split]; intros x Hx; apply HA; cbn [signals_of flat_map knoten_of fst]; rewrite !in_app_iff, ?in_pairs; [left; left; auto|left; right; auto|right; exact Hx]. }
    destruct HA' as (HA1 & HA2 & HA3).
    apply (process_listed o0 A sig true) in P1; [|rewrite map_fst_combine; assumption|rewrite map_snd_combine by exact L1; exact HA1|exact Hok].
    apply (process_listed o0 A sig false) in P2; [|rewrite map_fst_combine; assumption|rewrite map_snd_combine by exact L2; exact HA2|exact P1].
    refine (IH _ _ Ho' Hk' HA3 _ H). exact P2.
Qed.
Lemma first_state_listed o c A sig : listed o A sig (f_state (first_state o c sig)).
Proof. exists []. split; [apply (first_state_snd o c sig)|]. split; [intros s f []|]. cbn. auto. Qed.

(* ---- the switches of a line without main signals ---- *)
Definition no_main (k : knoten) : Prop := k_main_f k = [] /\ k_main_s k = [].
Definition grows (o0 o : osm) : Prop := exists extra, o_nodes o = o_nodes o0 ++ extra /\ Forall (fun n => forall name, switch_matches name n = false) extra.
Lemma grows_trans a b c : grows a b -> grows b c -> grows a c.
Proof. intros (x & E & F) (y & E' & F'). exists (x ++ y). split; [rewrite E', E, app_assoc; reflexivity|apply Forall_app; auto]. Qed.
Lemma grows_match o0 o s : grows o0 o -> (has_match o s <-> has_match o0 s).
Proof.
  intros (x & E & F). rewrite Forall_forall in F. unfold has_match. rewrite E. split; intros (n & H & M); exists n; (split; [|exact M]).
  - apply in_app_or in H. destruct H as [H|H]; [exact H|]. rewrite (F n H) in M. discriminate.
  - apply in_or_app. left. exact H.
Qed.
Lemma grows_none o0 o s : grows o0 o -> (no_match o s <-> no_match o0 s).
Proof.
  intros (x & E & F). rewrite Forall_forall in F. unfold no_match. rewrite E. split; intros H n Hn.
  - apply H. apply in_or_app. left. exact Hn.
  - apply in_app_or in Hn. destruct Hn as [Hn|Hn]; [apply H, Hn|apply F, Hn].
Qed.
Lemma combine_nil_r {A B} (l : list A) : combine l (@nil B) = [].
Proof. destruct l; reflexivity. Qed.
Lemma first_pass_switches : forall l st, Forall (fun x => no_main (knoten_of x)) l -> unused (a_osm (f_state st)) (a_id (f_state st)) ->
  exists st', first_pass l st = Ok st' /\ grows (a_osm (f_state st)) (a_osm (f_state st')) /\
    f_falling st' = f_falling st /\ f_rising st' = f_rising st /\
    (forall s, placed_sw (a_osm (f_state st)) (a_anchors (f_state st)) s -> placed_sw (a_osm (f_state st')) (a_anchors (f_state st')) s) /\
    (forall x s, In x l -> In s (k_switch (knoten_of x)) -> has_match (a_osm (f_state st)) s -> placed_sw (a_osm (f_state st')) (a_anchors (f_state st')) s) /\
    (forall e, In e (f_switches st) -> In e (f_switches st')) /\
    (forall e, In e (f_switches st') -> In e (f_switches st) \/ (exists x, In x l /\ In e (k_switch (knoten_of x))) /\ no_match (a_osm (f_state st)) e) /\
    (forall x s, In x l -> List.length (k_switch (knoten_of x)) <= 1 -> In s (k_switch (knoten_of x)) -> no_match (a_osm (f_state st)) s -> In s (f_switches st')).
Proof.
  induction l as [|[[k of_f] of_s] l IH]; intros st Hm Hu; cbn [first_pass].
  - exists st. split; [reflexivity|]. split; [exists []; rewrite app_nil_r; auto|]. split; [reflexivity|]. split; [reflexivity|]. split; [auto|].
    split; [intros x s []|]. split; [auto|]. split; [auto|]. intros x s [].
  - inversion Hm as [|? ? (M1 & M2) Hm']; subst. unfold knoten_of in M1, M2. cbn [fst] in M1, M2. unfold anchor_knoten, anchor_main_signals. rewrite M1, M2, !combine_nil_r. cbn [process_hauptsignal bind].
    unfold find_and_map_anchor_switches.
    match goal with |- context [anchor_switches (k_switch k) false ?s] => set (st0 := s) end.
    destruct (switches_spec (k_switch k) false st0) as (st1 & I0 & I1 & I2 & I3 & I4 & I5 & I6 & I7 & I8 & I9); [exact Hu|].
    rewrite I0. cbn [bind].
    destruct (partners_spec (k_stem k ++ k_left k ++ k_right k) st1) as (P1 & P2 & P3 & P4 & P5 & P6). cbv zeta in P1, P2, P3, P4, P5, P6.
    set (st2 := fold_left _ _ st1) in *. cbn [a_missing].
    destruct (IH (mkfs st2 (f_falling st) (f_rising st) (a_missing st2)) Hm') as (st' & R0 & R1 & R2 & R3 & R4 & R5 & R6 & R7 & R8); cbn [f_state f_falling f_rising f_switches] in *;
      [rewrite P1, P3; exact I1|].
    assert (G1 : grows (a_osm (f_state st)) (a_osm st2)) by (rewrite P1; exact I2).
    assert (K : forall s, placed_sw (a_osm st1) (a_anchors st1) s -> placed_sw (a_osm st2) (a_anchors st2) s).
    { intros s Hs. rewrite P1. apply (placed_sw_more _ (a_anchors st1)); [|exact Hs]. intros km n A. rewrite <- P1. apply P4, A. }
    exists st'. split; [exact R0|]. split; [eapply grows_trans; eassumption|]. split; [exact R2|]. split; [exact R3|]. split; [|split; [|split; [|split]]].
    + intros s Hs. apply R4, K, I6, Hs.
    + intros x s [<-|Hx] Hs Hh.
      * apply R4, K, I5; [exact Hs|exact Hh].
      * apply (R5 x s Hx Hs). apply (grows_match _ _ _ G1), Hh.
    + intros e He. apply R6. rewrite P2. apply I8. exact He.
    + intros e He. destruct (R7 e He) as [B|((x & B1 & B2) & B3)].
      * rewrite P2 in B. destruct (I9 e B) as [C|[C1 C2]]; [left; exact C|]. right. split; [|exact C2]. eexists. split; [left; reflexivity|]. exact C1.
      * right. split; [exists x; split; [right; exact B1|exact B2]|]. apply (grows_none _ _ _ G1), B3.
    + intros x s [<-|Hx] Hl Hs Hn.
      * apply R6. rewrite P2. unfold knoten_of in Hl, Hs. cbn [fst] in Hl, Hs. destruct (k_switch k) as [|y [|]] eqn:Ek; [contradiction| |cbn in Hl; lia]. destruct Hs as [<-|[]].
        apply (I7 [] y [] eq_refl eq_refl). intros s' [<-|[]]. exact Hn.
      * apply (R8 x s Hx Hl Hs). apply (grows_none _ _ _ G1), Hn.
Qed.
