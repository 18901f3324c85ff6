(* The connections of the exported map. *)
From Coq Require Import Permutation String Sorting.Sorted.
From Verif Require Import Base LayoutModel LayoutProofs GeoModel OsmModel OsmSpec OsmNodes.
Local Open Scope nat_scope.

Lemma with_ids_eq {A} (l : list A) : forall k, with_ids k l = combine (seq k (List.length l)) l.
Proof. induction l as [|a l IH]; intros k; cbn [with_ids List.length seq combine]; [reflexivity|]. rewrite IH. reflexivity. Qed.
Lemma with_ids_In {A} (l : list A) : forall k i a, In (i, a) (with_ids k l) <-> k <= i /\ nth_error l (i - k) = Some a.
Proof.
  induction l as [|b l IH]; intros k i a; cbn [with_ids In].
  - split; [intros []|]. intros (_ & H). destruct (i - k); discriminate H.
  - rewrite IH. split.
    + intros [E|(L & H)].
      * injection E as <- <-. rewrite Nat.sub_diag. split; [lia|reflexivity].
      * split; [lia|]. replace (i - k) with (S (i - S k)) by lia. exact H.
    + intros (L & H). destruct (Nat.eq_dec i k) as [->|N].
      * rewrite Nat.sub_diag in H. injection H as ->. left. reflexivity.
      * right. split; [lia|]. replace (i - k) with (S (i - S k)) in H by lia. exact H.
Qed.
Lemma numbered_In iss s st : In (s, st) (numbered_stations iss) <-> nth_error (stations iss) (N.to_nat s) = Some st.
Proof.
  unfold numbered_stations. rewrite in_map_iff. split.
  - intros ([i a] & E & H). cbn [fst snd] in E. injection E as <- <-. apply with_ids_In in H. rewrite Nat2N.id.
    rewrite Nat.sub_0_r in H. apply H.
  - intros H. exists (N.to_nat s, st). cbn [fst snd]. rewrite N2Nat.id. split; [reflexivity|].
    apply with_ids_In. rewrite Nat.sub_0_r. split; [lia|exact H].
Qed.

(* ---- the station of an element ---- *)
Lemma fold_station s es : forall (m : N -> option N) x,
  fold_left (fun (m : N -> option N) e => fun x => if (x =? e)%N then Some s else m x) es m x
  = if existsb (N.eqb x) es then Some s else m x.
Proof.
  induction es as [|e es IH]; intros m x; cbn [fold_left existsb]; [reflexivity|]. rewrite IH.
  destruct (N.eqb x e); cbn [orb]; [destruct (existsb _ _); reflexivity|reflexivity].
Qed.
Lemma fold_stations L : forall (m : N -> option N) x,
  let r := fold_left (fun m s =>
      fold_left (fun (m : N -> option N) e => fun x => if (x =? e)%N then Some (fst s) else m x)
        (station_elements (snd s)) m) L m x in
  (forall s, r = Some s -> m x = Some s \/ exists st, In (s, st) L /\ In x (station_elements st)) /\
  ((m x <> None \/ exists s st, In (s, st) L /\ In x (station_elements st)) -> r <> None).
Proof.
  induction L as [|[i a] L IH]; intros m x; cbn [fold_left].
  - split; [auto|]. intros [H|(s & st & [] & _)]. exact H.
  - destruct (IH (fold_left (fun (m : N -> option N) e => fun x => if (x =? e)%N then Some (fst (i, a)) else m x)
        (station_elements (snd (i, a))) m) x) as (H1 & H2).
    cbv zeta. split.
    + intros s E. destruct (H1 s E) as [H|(st & Hs & Hx)]; [|right; exists st; split; [right|]; assumption].
      rewrite fold_station in H. destruct (existsb _ _) eqn:X; [|auto]. injection H as <-. apply existsb_exists in X.
      destruct X as (y & Hy & Ey). apply N.eqb_eq in Ey. subst y. right. exists a. split; [left; reflexivity|exact Hy].
    + intros H. apply H2. rewrite fold_station. cbn [fst snd]. destruct (existsb _ _) eqn:X; [left; discriminate|].
      destruct H as [H|(s & st & [E|Hs] & Hx)]; [auto| |right; eauto].
      injection E as -> ->. exfalso. apply not_true_iff_false in X. apply X. apply existsb_exists. exists x.
      split; [exact Hx|apply N.eqb_refl].
Qed.

Lemma station_at_ok iss e s st : nth_error (stations iss) s = Some st -> In e (station_elements st) ->
  exists s', station_at iss e = Ok s' /\ in_station iss e (N.to_nat s').
Proof.
  intros Hs He. unfold station_at, element_to_station.
  destruct (fold_stations (numbered_stations iss) (fun _ => None) e) as (H1 & H2). cbv zeta in H1, H2.
  destruct (fold_left _ _ _ e) as [s'|]; [|exfalso; apply H2; [right|reflexivity]; exists (N.of_nat s), st].
  - exists s'. split; [reflexivity|]. destruct (H1 s' eq_refl) as [X|(st' & Hs' & He')]; [discriminate X|].
    apply numbered_In in Hs'. exists st'. auto.
  - split; [|exact He]. apply numbered_In. rewrite Nat2N.id. exact Hs.
Qed.

(* ---- connections ---- *)
Definition conns (info : osm_information) : list (N * N) :=
  ways info ++ map (fun i => (first_elem i, second_elem i)) (interpolations info).
Definition norm (c : N * N) : N * N := (N.min (fst c) (snd c), N.max (fst c) (snd c)).
Lemma norm_ends a b c : norm c = norm (a, b) <-> ends a b c.
Proof.
  unfold norm, ends. destruct c as [x y]. cbn [fst snd]. split.
  - intros H. injection H as H1 H2. destruct (N.eq_dec x a) as [->|Nx].
    + left. f_equal. lia.
    + right. assert (x = b) by lia. assert (y = a) by lia. congruence.
  - intros [E|E]; injection E as -> ->; [reflexivity|]. f_equal; lia.
Qed.
Lemma ends_sym a b c : ends a b c -> ends b a c.
Proof. unfold ends. tauto. Qed.

Section ways.
  Variable iss : osm_infra.
  Hypothesis C : complete iss.
  Notation n := (List.length (elements iss)).

  Lemma element_home e : (e < N.of_nat n)%N -> exists s st, nth_error (stations iss) s = Some st /\ In e (station_elements st).
  Proof.
    intros L. assert (H : In e (concat (map station_elements (stations iss)))).
    { apply (Permutation_in _ (Permutation_sym (every_element iss C))). apply in_map_iff. exists (N.to_nat e).
      rewrite N2Nat.id. split; [reflexivity|]. apply in_seq. lia. }
    apply in_concat in H. destruct H as (l & Hl & He). apply in_map_iff in Hl. destruct Hl as (st & <- & Hst).
    apply In_nth_error in Hst. destruct Hst as (s & Hs). eauto.
  Qed.
  Lemma home_unique e s1 s2 : in_station iss e s1 -> in_station iss e s2 -> s1 = s2.
  Proof.
    assert (Nd : NoDup (concat (map station_elements (stations iss)))).
    { eapply Permutation_NoDup; [apply Permutation_sym, (every_element iss C)|]. apply FinFun.Injective_map_NoDup; [|apply seq_NoDup].
      intros x y E. lia. }
    unfold in_station. revert s1 s2. induction (stations iss) as [|st L IH]; intros s1 s2 (t1 & H1 & E1) (t2 & H2 & E2).
    - destruct s1; discriminate.
    - cbn [map concat] in Nd. apply NoDup_app_inv in Nd. destruct Nd as (N1 & N2 & D).
      assert (In_tail : forall s t, nth_error L s = Some t -> In e (station_elements t) -> In e (concat (map station_elements L))).
      { intros s t Ht Het. apply in_concat. exists (station_elements t). split; [apply in_map, (nth_error_In _ _ Ht)|exact Het]. }
      destruct s1 as [|s1], s2 as [|s2]; cbn [nth_error] in H1, H2.
      + reflexivity.
      + injection H1 as ->. exfalso. apply (D e E1). eapply In_tail; eassumption.
      + injection H2 as ->. exfalso. apply (D e E2). eapply In_tail; eassumption.
      + f_equal. apply IH; eauto.
  Qed.
  Lemma station_at_spec e : (e < N.of_nat n)%N -> exists s, station_at iss e = Ok s /\ in_station iss e (N.to_nat s).
  Proof. intros L. destruct (element_home e L) as (s & st & Hs & He). eapply station_at_ok; eassumption. Qed.

  Lemma has_neighbour_fst a b : has_neighbour iss a b -> (a < N.of_nat n)%N.
  Proof. intros (el & H & _). assert (N.to_nat a < n) by (apply nth_error_Some; rewrite H; discriminate). lia. Qed.

  Lemma element_at e : (e < N.of_nat n)%N -> exists el, nth_error (elements iss) (N.to_nat e) = Some el.
  Proof. intros L. destruct (nth_error (elements iss) (N.to_nat e)) eqn:E; [eauto|]. apply nth_error_None in E. lia. Qed.
  Lemma place_at e : (e < N.of_nat n)%N -> exists p, nth_error (element_positions iss) (N.to_nat e) = Some p.
  Proof.
    intros L. destruct (nth_error (element_positions iss) (N.to_nat e)) eqn:E; [eauto|]. apply nth_error_None in E.
    rewrite (element_places iss C) in E. lia.
  Qed.

  Lemma last_other_In ns other x : last_other ns other = Some x -> In (Some x) ns.
  Proof.
    unfold last_other. enough (H : forall acc, fold_left (fun acc n => match n with
                          | None => acc | Some n => if (n =? other)%N then acc else Some n end) ns acc = Some x ->
      acc = Some x \/ In (Some x) ns).
    { intros E. destruct (H None E) as [X|X]; [discriminate X|exact X]. }
    induction ns as [|[y|] ns IH]; intros acc E; cbn [fold_left] in E; [auto| |].
    - destruct (IH _ E) as [H|H]; [|right; right; exact H]. destruct (y =? other)%N; [auto|]. injection H as <-. right. left. reflexivity.
    - destruct (IH _ E) as [H|H]; [auto|right; right; exact H].
  Qed.

  Lemma auxiliary_ok e1 e2 : (e1 < N.of_nat n)%N -> (e2 < N.of_nat n)%N -> exists p, get_auxiliary_point iss e1 e2 = Ok p.
  Proof.
    intros L1 L2. unfold get_auxiliary_point. destruct (element_at e1 L1) as (el & El).
    rewrite (proj2 (at_N_Ok _ _ _) El). cbn [bind].
    destruct (place_at e1 L1) as (p1 & P1). rewrite (proj2 (at_N_Ok _ _ _) P1). cbn [bind].
    destruct (place_at e2 L2) as (p2 & P2). rewrite (proj2 (at_N_Ok _ _ _) P2). cbn [bind].
    destruct (last_other (neighbours el) e2) as [x|] eqn:X; [|eauto].
    apply last_other_In in X. destruct (place_at x) as (px & Px); [apply (known_neighbours iss C e1); exists el; auto|].
    rewrite (proj2 (at_N_Ok _ _ _) Px). cbn [bind]. eauto.
  Qed.
  Lemma interpolation_ok e1 e2 : (e1 < N.of_nat n)%N -> (e2 < N.of_nat n)%N ->
    exists i, compute_interpolation iss e1 e2 = Ok i /\ first_elem i = e1 /\ second_elem i = e2 /\ List.length (points i) = 50.
  Proof.
    intros L1 L2. unfold compute_interpolation. destruct (auxiliary_ok e1 e2 L1 L2) as (a1 & ->). cbn [bind].
    destruct (auxiliary_ok e2 e1 L2 L1) as (a2 & ->). cbn [bind].
    destruct (place_at e1 L1) as (p1 & P1). rewrite (proj2 (at_N_Ok _ _ _) P1). cbn [bind].
    destruct (place_at e2 L2) as (p2 & P2). rewrite (proj2 (at_N_Ok _ _ _) P2). cbn [bind].
    eexists. split; [reflexivity|]. cbn [first_elem second_elem points]. rewrite map_length. auto.
  Qed.

  Definition good (i : interpolation) : Prop :=
    compute_interpolation iss (first_elem i) (second_elem i) = Ok i /\ List.length (points i) = 50.

  (* what is known while the neighbours D have been handled, k slots in all *)
  Record Inv (k : nat) (D : N -> N -> Prop) (info : osm_information) : Prop := {
    inv_map : forall x y, In y (element_to_way info x) <-> exists c, In c (conns info) /\ ends x y c;
    inv_done : forall a b, D a b -> exists c, In c (conns info) /\ ends a b c;
    inv_conn : forall c, In c (conns info) -> has_neighbour iss (fst c) (snd c);
    inv_nodup : NoDup (map norm (conns info));
    inv_way : forall c, In c (ways info) -> same_station iss (fst c) (snd c);
    inv_curve : forall i, In i (interpolations info) -> ~ same_station iss (first_elem i) (second_elem i) /\ good i;
    inv_count : List.length (conns info) <= k }.

  Lemma Inv_mono k D k' (D' : N -> N -> Prop) info : Inv k D info -> k <= k' -> (forall a b, D' a b -> D a b) -> Inv k' D' info.
  Proof. intros [] L H. constructor; auto. lia. Qed.

  Lemma add_two m a b x y : In y (add_to (add_to m b a) a b x) <-> In y (m x) \/ ends x y (a, b).
  Proof.
    unfold add_to, ends. rewrite !pair_equal_spec.
    destruct (N.eqb_spec x a) as [Ea|Na]; destruct (N.eqb_spec x b) as [Eb|Nb]; rewrite ?in_app_iff; cbn [In];
      intuition (subst; auto; try congruence).
  Qed.

  Lemma conns_way info w m : Permutation (w :: conns info)
    (conns (mk_info (nodes info) (ways info ++ [w]) (interpolations info) m)).
  Proof. unfold conns. cbn [ways interpolations]. rewrite <- app_assoc. cbn [app]. apply Permutation_middle. Qed.
  Lemma conns_curve info i m : Permutation ((first_elem i, second_elem i) :: conns info)
    (conns (mk_info (nodes info) (ways info) (interpolations info ++ [i]) m)).
  Proof.
    unfold conns. cbn [ways interpolations]. rewrite map_app, app_assoc. cbn [map]. apply Permutation_cons_append.
  Qed.

  Lemma Inv_add k D info info' a b : Inv k D info -> has_neighbour iss a b ->
    ~ (exists c, In c (conns info) /\ ends a b c) ->
    Permutation ((a, b) :: conns info) (conns info') ->
    (forall x y, In y (element_to_way info' x) <-> In y (element_to_way info x) \/ ends x y (a, b)) ->
    (forall c, In c (ways info') -> same_station iss (fst c) (snd c)) ->
    (forall i, In i (interpolations info') -> ~ same_station iss (first_elem i) (second_elem i) /\ good i) ->
    Inv (S k) (fun x y => D x y \/ (x = a /\ y = b)) info'.
  Proof.
    intros I Hn New P M W Cu.
    assert (Sub : forall c, In c (conns info') <-> c = (a, b) \/ In c (conns info)).
    { intros c. split; intros H.
      - apply (Permutation_in _ (Permutation_sym P)) in H. destruct H as [<-|H]; auto.
      - apply (Permutation_in _ P). destruct H as [->|H]; [left|right]; auto. }
    constructor.
    - intros x y. rewrite M, (inv_map _ _ _ I). split.
      + intros [(c & Hc & E)|E]; [exists c|exists (a, b)]; rewrite Sub; auto.
      + intros (c & Hc & E). apply Sub in Hc. destruct Hc as [->|Hc]; [auto|left; eauto].
    - intros x y [H|(-> & ->)].
      + destruct (inv_done _ _ _ I x y H) as (c & Hc & E). exists c. rewrite Sub. auto.
      + exists (a, b). rewrite Sub. split; [auto|left; reflexivity].
    - intros c Hc. apply Sub in Hc. destruct Hc as [->|Hc]; [exact Hn|apply (inv_conn _ _ _ I), Hc].
    - eapply Permutation_NoDup; [apply Permutation_map, P|]. cbn [map]. constructor; [|apply (inv_nodup _ _ _ I)].
      rewrite in_map_iff. intros (c & E & Hc). apply norm_ends in E. apply New. eauto.
    - exact W.
    - exact Cu.
    - rewrite <- (Permutation_length P). cbn [List.length]. pose proof (inv_count _ _ _ I). lia.
  Qed.

  Lemma create_way_ok k D info e s o : Inv k D info -> in_station iss e (N.to_nat s) ->
    (forall x, o = Some x -> has_neighbour iss e x) ->
    exists info', create_way iss e s info o = Ok info' /\ nodes info' = nodes info /\
      Inv (S k) (fun x y => D x y \/ (x = e /\ o = Some y)) info'.
  Proof.
    intros I Hs Ho. unfold create_way. destruct o as [b|].
    2:{ exists info. split; [reflexivity|]. split; [reflexivity|]. eapply Inv_mono; [exact I|lia|]. intros a b [H|(_ & H)]; [exact H|discriminate H]. }
    specialize (Ho b eq_refl). pose proof (known_neighbours iss C _ _ Ho) as Lb. pose proof (has_neighbour_fst _ _ Ho) as Le.
    destruct (existsb (N.eqb e) (element_to_way info b)) eqn:X.
    - exists info. split; [reflexivity|]. split; [reflexivity|]. apply existsb_exists in X. destruct X as (y & Hy & Ey).
      apply N.eqb_eq in Ey. subst y. apply (inv_map _ _ _ I) in Hy. destruct Hy as (c & Hc & E).
      pose proof I as I0. destruct I0 as [I1 I2 I3 I4 I5 I6 I7]. constructor; auto.
      intros x y [H|(-> & H)]; [auto|]. injection H as <-. exists c. split; [exact Hc|apply ends_sym, E].
    - assert (New : ~ (exists c, In c (conns info) /\ ends e b c)).
      { intros (c & Hc & E). apply not_true_iff_false in X. apply X. apply existsb_exists. exists e. split; [|apply N.eqb_refl].
        apply (inv_map _ _ _ I). exists c. split; [exact Hc|apply ends_sym, E]. }
      destruct (station_at_spec b Lb) as (s' & -> & Hs'). cbn [bind].
      assert (Conv : forall info', Inv (S k) (fun x y => D x y \/ (x = e /\ y = b)) info' ->
        Inv (S k) (fun x y => D x y \/ (x = e /\ Some b = Some y)) info').
      { intros info' J. eapply Inv_mono; [exact J|lia|]. intros x y [H|(-> & H)]; [auto|]. injection H as <-. auto. }
      destruct (N.eqb_spec s' s) as [->|Ns]; cbn [negb].
      + eexists. split; [reflexivity|]. split; [reflexivity|]. apply Conv.
        eapply Inv_add; [exact I|exact Ho|exact New|apply conns_way|intros x y; apply add_two| |].
        * cbn [ways]. intros c Hc. apply in_app_iff in Hc. destruct Hc as [Hc|[<-|[]]]; [apply (inv_way _ _ _ I), Hc|].
          exists (N.to_nat s). auto.
        * cbn [interpolations]. apply (inv_curve _ _ _ I).
      + destruct (interpolation_ok e b Le Lb) as (i & Ei & F1 & F2 & F3). rewrite Ei. cbn [bind].
        eexists. split; [reflexivity|]. split; [reflexivity|]. apply Conv.
        eapply Inv_add; [exact I|exact Ho|exact New| |intros x y; apply add_two| |].
        * rewrite <- F1, <- F2 at 1. apply conns_curve.
        * cbn [ways]. apply (inv_way _ _ _ I).
        * cbn [interpolations]. intros j Hj. apply in_app_iff in Hj. destruct Hj as [Hj|[<-|[]]]; [apply (inv_curve _ _ _ I), Hj|].
          rewrite F1, F2. split; [|split; [rewrite F1, F2; exact Ei|exact F3]].
          intros (t & Ht1 & Ht2). apply Ns. apply N2Nat.inj.
          transitivity t; [exact (home_unique _ _ _ Hs' Ht2)|symmetry; exact (home_unique _ _ _ Hs Ht1)].
  Qed.

  Lemma create_ways_list e s ns : in_station iss e (N.to_nat s) -> forall k D info, Inv k D info ->
    (forall x, In (Some x) ns -> has_neighbour iss e x) ->
    exists info', for_each (create_way iss e s) info ns = Ok info' /\ nodes info' = nodes info /\
      Inv (k + List.length ns) (fun x y => D x y \/ (x = e /\ In (Some y) ns)) info'.
  Proof.
    intros Hs. induction ns as [|o ns IH]; intros k D info I H; cbn [for_each].
    - exists info. split; [reflexivity|]. split; [reflexivity|]. eapply Inv_mono; [exact I|lia|]. intros a b [X|(_ & [])]. exact X.
    - destruct (create_way_ok k D info e s o I Hs) as (i1 & -> & N1 & I1); [intros x ->; apply H; left; reflexivity|].
      cbn [bind]. destruct (IH _ _ _ I1) as (i2 & -> & N2 & I2); [intros x Hx; apply H; right; exact Hx|].
      exists i2. split; [reflexivity|]. split; [congruence|]. eapply Inv_mono; [exact I2|cbn [List.length]; lia|].
      intros a b [X|(-> & [->|X])]; auto.
  Qed.

  Definition slot_count (e : N) : nat :=
    match nth_error (elements iss) (N.to_nat e) with Some el => List.length (neighbours el) | None => 0 end.

  Lemma create_ways_ok k D info e : (e < N.of_nat n)%N -> Inv k D info ->
    exists info', create_ways iss info e = Ok info' /\ nodes info' = nodes info /\
      Inv (k + slot_count e) (fun x y => D x y \/ (x = e /\ has_neighbour iss e y)) info'.
  Proof.
    intros L I. unfold create_ways. destruct (station_at_spec e L) as (s & -> & Hs). cbn [bind].
    destruct (element_at e L) as (el & El). rewrite (proj2 (at_N_Ok _ _ _) El). cbn [bind].
    destruct (create_ways_list e s (neighbours el) Hs k D info I) as (i & -> & Ni & Ii).
    - intros x Hx. exists el. auto.
    - exists i. split; [reflexivity|]. split; [exact Ni|]. unfold slot_count. rewrite El.
      eapply Inv_mono; [exact Ii|lia|]. intros a b [X|(-> & (el' & El' & X))]; [auto|]. right. split; [reflexivity|]. congruence.
  Qed.

  Lemma station_list es : (forall e, In e es -> (e < N.of_nat n)%N) -> forall k D info, Inv k D info ->
    exists info', for_each (fun info e => create_ways iss (push_node info (e, Is_element e)) e) info es = Ok info' /\
      nodes info' = nodes info ++ map (fun e => (e, Is_element e)) es /\
      Inv (k + list_sum (map slot_count es)) (fun x y => D x y \/ (In x es /\ has_neighbour iss x y)) info'.
  Proof.
    induction es as [|e es IH]; intros L k D info I; cbn [for_each].
    - exists info. split; [reflexivity|]. cbn [map]. rewrite app_nil_r. split; [reflexivity|].
      eapply Inv_mono; [exact I|lia|]. intros a b [X|([] & _)]. exact X.
    - assert (I' : Inv k D (push_node info (e, Is_element e))).
      { destruct I as [I1 I2 I3 I4 I5 I6 I7]. constructor; auto. }
      destruct (create_ways_ok k D _ e (L e (or_introl eq_refl)) I') as (i1 & -> & N1 & I1). cbn [bind].
      destruct (IH (fun x Hx => L x (or_intror Hx)) _ _ _ I1) as (i2 & -> & N2 & I2).
      exists i2. split; [reflexivity|]. split.
      + rewrite N2, N1. cbn [push_node nodes map]. rewrite <- app_assoc. reflexivity.
      + eapply Inv_mono; [exact I2|cbn [map list_sum fold_right]; change (fold_right Nat.add 0) with list_sum; lia|].
        intros a b [X|([->|X] & Y)]; auto.
  Qed.

  Definition station_item (s : N * osm_station) : N * item :=
    (w32 (fst s + N.of_nat n), Is_station (fst s) (snd s)).
  Definition station_items (s : N * osm_station) : list (N * item) :=
    station_item s :: map (fun e => (e, Is_element e)) (station_elements (snd s)).

  Lemma all_stations L : (forall s, In s L -> forall e, In e (station_elements (snd s)) -> (e < N.of_nat n)%N) ->
    forall k D info, Inv k D info ->
    exists info', for_each (export_station iss) info L = Ok info' /\
      nodes info' = nodes info ++ flat_map station_items L /\
      Inv (k + list_sum (map slot_count (concat (map (fun s => station_elements (snd s)) L))))
          (fun x y => D x y \/ (In x (concat (map (fun s => station_elements (snd s)) L)) /\ has_neighbour iss x y)) info'.
  Proof.
    induction L as [|s L IH]; intros H k D info I; cbn [for_each].
    - exists info. split; [reflexivity|]. cbn [flat_map]. rewrite app_nil_r. split; [reflexivity|].
      eapply Inv_mono; [exact I|cbn; lia|]. intros a b [X|([] & _)]. exact X.
    - unfold export_station at 1. cbv zeta.
      assert (I' : Inv k D (push_node info (station_item s))).
      { destruct I as [I1 I2 I3 I4 I5 I6 I7]. constructor; auto. }
      destruct (station_list (station_elements (snd s)) (H s (or_introl eq_refl)) _ _ _ I') as (i1 & E1 & N1 & I1).
      unfold station_item in E1. rewrite E1. cbn [bind].
      destruct (IH (fun x Hx => H x (or_intror Hx)) _ _ _ I1) as (i2 & -> & N2 & I2).
      exists i2. split; [reflexivity|]. split.
      + rewrite N2, N1. cbn [push_node nodes flat_map]. unfold station_items at 2. cbn [app]. rewrite <- !app_assoc. reflexivity.
      + eapply Inv_mono; [exact I2|cbn [map concat]; rewrite map_app, list_sum_app; lia|].
        cbn [map concat]. intros a b [X|(X & Y)]; [auto|]. apply in_app_iff in X. destruct X; auto.
  Qed.
End ways.
