(* Station routes: the whole import *)
From Coq Require Import List Bool NArith QArith String Ascii Arith Lia Sorted Permutation.
From Verif Require Import Base PhysModel TextModel InfraModel InfraHeap StationModel StationSpec StationPath StationRoute StationProofs.
From Verif Require RouteModel RouteIndex.
Import ListNotations.
Local Open Scope nat_scope.

Lemma make_routes_spec g ls paths l : forall before of rs, List.length l = List.length of ->
  make_routes g ls paths before l of = Ok rs ->
  List.length rs = List.length l /\
  forall m i k r, nth_error l m = Some i -> nth_error of m = Some k -> nth_error rs m = Some r ->
    exists p, nth_error paths k = Some p /\ make_route g ls (before ++ firstn m l) k p i = Ok r.
Proof.
  induction l as [|i l IH]; intros before of rs L; cbn [make_routes].
  - intros [= <-]. split; [reflexivity|]. intros [|m]; discriminate.
  - destruct of as [|k of]; [discriminate|]. destruct (nth_error paths k) as [p|] eqn:P; [|discriminate].
    intros H. inv_bind H. injection H as <-. injection L as L. destruct (IH _ _ _ L Hx0) as [I1 I2].
    split; [cbn; congruence|]. intros [|m] i' k' r'; cbn [nth_error].
    + intros [= <-] [= <-] [= <-]. exists p. cbn [firstn]. rewrite app_nil_r. auto.
    + intros A B D. destruct (I2 _ _ _ _ A B D) as (p' & P1 & P2). exists p'. split; [exact P1|].
      rewrite <- app_assoc in P2. exact P2.
Qed.

Lemma Forall2_nth {A B} (P : A -> B -> Prop) la lb : Forall2 P la lb ->
  forall k a b, nth_error la k = Some a -> nth_error lb k = Some b -> P a b.
Proof.
  induction 1 as [|x y la lb H1 H2 IH]; intros [|k] a b A1 B1; try discriminate.
  - injection A1 as <-. injection B1 as <-. exact H1.
  - eapply IH; eauto.
Qed.
Lemma Forall2_len {A B} (P : A -> B -> Prop) la lb : Forall2 P la lb -> List.length la = List.length lb.
Proof. induction 1; cbn; congruence. Qed.

Lemma same_way_path g1 g2 st1 st2 n1 n2 x1 x2 i1 i2 : parse_station_route g1 st1 n1 x1 = Ok i1 ->
  parse_station_route g2 st2 n2 x2 = Ok i2 -> same_way x1 x2 <-> same_path i1 i2 = true.
Proof.
  intros P1 P2. apply parse_route_spec in P1, P2. destruct P1 as (E1 & _ & C1 & _), P2 as (E2 & _ & C2 & _).
  rewrite same_path_eq. unfold same_way.
  assert (S1 : is_start i1 = xr_start x1 /\ is_end i1 = xr_end x1 /\ is_omitted i1 = xr_omitted x1) by (rewrite E1; auto).
  assert (S2 : is_start i2 = xr_start x2 /\ is_end i2 = xr_end x2 /\ is_omitted i2 = xr_omitted x2) by (rewrite E2; auto).
  destruct S1 as (-> & -> & O1), S2 as (-> & -> & O2).
  assert (OM : forall i id, In id (omitted_main i) <-> In (id, MAIN_SIGNAL) (is_omitted i)).
  { intros i id. unfold omitted_main. rewrite in_map_iff. split.
    - intros ([id' t] & E & H). cbn in E. subst id'. apply filter_In in H. destruct H as [H1 H2]. unfold is_main in H2. cbn in H2.
      apply ty_is in H2. subst t. exact H1.
    - intros H. exists (id, MAIN_SIGNAL). split; [reflexivity|]. apply filter_In. auto. }
  assert (CO : Forall2 (fun c d => c = "Stamm"%string <-> d = "Stamm"%string) (xr_course x1) (xr_course x2) <-> is_course i1 = is_course i2).
  { clear -C1 C2. revert C2. generalize (xr_course x2), (is_course i2). induction C1 as [|c d lc ld A1 A2 IH]; intros l2 d2 F2.
    - destruct F2; split; intros H0; try constructor; try discriminate H0; try inversion H0; auto.
    - destruct F2 as [|c2 d2' l2 ld2 B1 B2]; [split; intros H; inversion H|]. specialize (IH _ _ B2). unfold advice in *. split.
      + intros H. inversion H as [|? ? ? ? H1 H2]; subst. apply IH in H2. subst ld2. f_equal.
        destruct d, d2'; auto; exfalso.
        * assert (X : BRANCH = STEM) by tauto. discriminate.
        * assert (X : BRANCH = STEM) by tauto. discriminate.
      + intros [= -> H]. apply IH in H. constructor; [tauto|exact H]. }
  rewrite CO. split; intros (A1 & A2 & A3 & A4); repeat split; auto; intros H.
  - apply OM in H. rewrite O1 in H. apply A4 in H. apply OM. rewrite O2. exact H.
  - apply OM in H. rewrite O2 in H. apply A4 in H. apply OM. rewrite O1. exact H.
  - rewrite <- O2. apply OM, A4, OM. rewrite O1. exact H.
  - rewrite <- O1. apply OM, A4, OM. rewrite O2. exact H.
Qed.

Lemma nth_error_firstn_lt {A} (l : list A) : forall n k, k < n -> nth_error (firstn n l) k = nth_error l k.
Proof. induction l as [|x l IH]; intros [|n] [|k] L; cbn; try lia; auto. apply IH. lia. Qed.

Lemma import_spec l inf : import_routes l = Ok inf ->
  import (map fst l) = Ok (inf_graph inf) /\ connect_nodes (inf_graph inf) = Ok (inf_links inf) /\
  station_route_graph (inf_graph inf) (inf_links inf) (inf_routes inf) = Ok (inf_successors inf) /\
  List.length (inf_routes inf) = List.length (routes_of l) /\
  (forall k st x r, nth_error (routes_of l) k = Some (st, x) -> nth_error (inf_routes inf) k = Some r ->
     ro_id r = k /\ path_as_described (inf_graph inf) (inf_links inf) x r /\
     contents_as_described l (inf_graph inf) (inf_links inf) st x r /\
     path_length (inf_graph inf) (ro_nodes r) = Ok (ro_length r)) /\
  (forall k h st x r st' x' r', nth_error (routes_of l) k = Some (st, x) -> nth_error (inf_routes inf) k = Some r ->
     nth_error (routes_of l) h = Some (st', x') -> nth_error (inf_routes inf) h = Some r' ->
     (ro_path_id r = ro_path_id r' <-> same_way x x') /\ (ro_path_id r = ro_path_id r' -> ro_path r = ro_path r')) /\
  NoDup (map (fun r => (ro_station r, ro_name r)) (inf_routes inf)).
Proof.
  unfold import_routes. intros H. apply bind_Ok in H. destruct H as ([g is] & Hp & H). inv_bind H.
  rename x into g', x0 into ls, x1 into rs, x2 into srg. injection H as <-. cbn [inf_graph inf_links inf_routes inf_successors].
  apply (parse_plan_spec l [] no_graph [] g is eq_refl) in Hp. cbn [app List.length] in Hp. destruct Hp as (P1 & is' & E & P2).
  cbn [app] in E. subst is'. fold (routes_of l) in P2.
  split; [unfold import; rewrite P1; exact Hx|]. split; [exact Hx0|]. split; [exact Hx2|].
  unfold calculate_station_routes in Hx1. inv_bind Hx1. rename x into d. destruct (dedup_spec _ _ _ _ Hx3) as [D1 D2].
  pose proof (Forall2_len _ _ _ D1) as DL. destruct (make_routes_spec _ _ _ _ _ _ _ DL Hx1) as [M1 M2].
  destruct (Forall2i_nth _ _ _ _ P2) as [L1 L2]. cbn [Nat.add] in L2.
  assert (ISR : forall k, k < List.length (routes_of l) -> exists i p kp, nth_error is k = Some i /\ nth_error (dd_of d) k = Some kp /\ nth_error (dd_paths d) kp = Some p).
  { intros k K. destruct (nth_error is k) as [i|] eqn:I; [|apply nth_error_None in I; lia].
    destruct (nth_error (dd_of d) k) as [kp|] eqn:KP; [|apply nth_error_None in KP; lia].
    destruct (Forall2_nth _ _ _ D1 _ _ _ I KP) as (s & e & p & _ & _ & A & _). exists i, p, kp. auto. }
  assert (All : forall k st x r, nth_error (routes_of l) k = Some (st, x) -> nth_error rs k = Some r ->
     exists i kp p g0, nth_error is k = Some i /\ nth_error (dd_of d) k = Some kp /\ parse_station_route g0 st k x = Ok i /\
       nth_error (dd_paths d) kp = Some p /\ ro_path_id r = kp /\ ro_path r = p /\ ro_id r = k /\ is_station i = ro_station r /\ is_name i = ro_name r /\
       path_as_described g' ls x r /\ contents_as_described l g' ls st x r /\ path_length g' (ro_nodes r) = Ok (ro_length r) /\
       forall j, In j (firstn k is) -> (is_station j, is_name j) <> (is_station i, is_name i)).
  { intros k st x r A B. assert (K : k < List.length (routes_of l)) by (apply nth_error_Some; congruence).
    destruct (ISR k K) as (i & p & kp & I1 & I2 & I3). destruct (L2 _ _ _ A I1) as (g0 & G1 & G2). cbn [fst snd] in G1, G2.
    destruct (Forall2_nth _ _ _ D1 _ _ _ I1 I2) as (s & e & p' & S1 & S2 & S3 & S4).
    assert (p' = p) by congruence. subst p'.
    destruct (M2 _ _ _ _ I1 I2 B) as (p' & Q1 & Q2). assert (p' = p) by congruence. subst p'. cbn [app] in Q2.
    pose proof (parse_route_spec _ _ _ _ _ G2) as (Ei & _).
    assert (Ek : is_id i = k /\ is_station i = st /\ is_name i = xr_name x /\ is_start i = xr_start x /\ is_end i = xr_end x) by (rewrite Ei; auto).
    destruct Ek as (Ek1 & Ek2 & Ek3 & Ek4 & Ek5). rewrite <- Ek1 in G2. rewrite Ek4 in S1. rewrite Ek5 in S2.
    apply rp_at_names in S1, S2.
    destruct (make_route_spec g' ls Hx0 l st x i _ kp p s e r g0 G1 G2 S1 S2 S4 Q2) as (R1 & R2 & R3 & R4 & R5 & R6).
    exists i, kp, p, g0. rewrite Ek1 in G2, R2. split; [exact I1|]. split; [exact I2|]. split; [exact G2|]. split; [exact I3|]. split; [exact R1|].
    split. { unfold make_route in Q2. inv_bind Q2. injection Q2 as <-. reflexivity. }
    split; [exact R2|]. split; [rewrite (co_station _ _ _ _ _ _ R4); exact Ek2|]. split; [rewrite (co_name _ _ _ _ _ _ R4); exact Ek3|].
    auto. }
  split; [lia|]. split; [|split].
  - intros k st x r A B. destruct (All _ _ _ _ A B) as (i & kp & p & g0 & _ & _ & _ & _ & _ & _ & R1 & _ & _ & R2 & R3 & R4 & _). auto.
  - intros k h st x r st' x' r' A B A' B'.
    destruct (All _ _ _ _ A B) as (i & kp & p & g0 & I1 & I2 & I3 & I4 & <- & <- & _).
    destruct (All _ _ _ _ A' B') as (i' & kp' & p' & g0' & J1 & J2 & J3 & J4 & <- & <- & _).
    split; [|congruence]. rewrite (D2 _ _ _ _ _ _ I1 J1 I2 J2). symmetry. eapply same_way_path; eauto.
  - apply NoDup_nth_error. intros a b La E. rewrite map_length in La.
    assert (W : forall a b, a < b -> b < List.length rs -> nth_error (map (fun r => (ro_station r, ro_name r)) rs) a <> nth_error (map (fun r => (ro_station r, ro_name r)) rs) b).
    { clear a b La E. intros a b Lab Lb E. rewrite !nth_error_map in E.
      destruct (nth_error rs a) as [ra|] eqn:Ra; [|apply nth_error_None in Ra; lia].
      destruct (nth_error rs b) as [rb|] eqn:Rb; [|apply nth_error_None in Rb; lia]. cbn in E. injection E as E1 E2.
      destruct (nth_error (routes_of l) a) as [[sa xa]|] eqn:Xa; [|apply nth_error_None in Xa; lia].
      destruct (nth_error (routes_of l) b) as [[sb xb]|] eqn:Xb; [|apply nth_error_None in Xb; lia].
      destruct (All _ _ _ _ Xa Ra) as (ia & ? & ? & ? & Ia & _ & _ & _ & _ & _ & _ & Sa & Na & _).
      destruct (All _ _ _ _ Xb Rb) as (ib & ? & ? & ? & Ib & _ & _ & _ & _ & _ & _ & Sb & Nb & _ & _ & _ & Un).
      apply (Un ia); [|congruence]. apply nth_error_In with a. rewrite nth_error_firstn_lt by exact Lab. exact Ia. }
    destruct (Nat.lt_trichotomy a b) as [Lt|[Eq|Gt]]; [|exact Eq|]; exfalso.
    + destruct (Nat.lt_ge_cases b (List.length rs)) as [Lb|Lb]; [exact (W a b Lt Lb E)|].
      assert (Nb : nth_error (map (fun r => (ro_station r, ro_name r)) rs) b = None) by (apply nth_error_None; rewrite map_length; exact Lb).
      rewrite Nb in E. apply nth_error_None in E. rewrite map_length in E. lia.
    + exact (W b a Gt La (eq_sym E)).
Qed.

(* ---- the order of names ---- *)
Lemma ascii_trans a b c : Ascii.compare a b = Lt -> Ascii.compare b c = Lt -> Ascii.compare a c = Lt.
Proof. unfold Ascii.compare. rewrite !N.compare_lt_iff. lia. Qed.
Lemma ascii_eq a b : Ascii.compare a b = Eq -> a = b.
Proof. apply Ascii.compare_eq_iff. Qed.
Lemma ascii_refl a : Ascii.compare a a = Eq.
Proof. unfold Ascii.compare. apply N.compare_refl. Qed.
Lemma string_trans a : forall b c, String.compare a b = Lt -> String.compare b c = Lt -> String.compare a c = Lt.
Proof.
  induction a as [|x a IH]; intros [|y b] [|z c]; cbn [String.compare]; try congruence.
  destruct (Ascii.compare x y) eqn:E1; try discriminate; destruct (Ascii.compare y z) eqn:E2; try discriminate.
  - apply ascii_eq in E1, E2. subst. rewrite ascii_refl. apply IH.
  - apply ascii_eq in E1. subst. rewrite E2. auto.
  - apply ascii_eq in E2. subst. rewrite E1. auto.
  - rewrite (ascii_trans _ _ _ E1 E2). auto.
Qed.
Definition sle (a b : string) : Prop := String.compare a b <> Gt.
Lemma ltb_sle a b : String.ltb a b = true -> sle a b.
Proof. unfold String.ltb, sle. destruct (String.compare a b); congruence. Qed.
Lemma nltb_sle a b : String.ltb a b = false -> sle b a.
Proof. unfold String.ltb, sle. rewrite (String.compare_antisym b a). destruct (String.compare a b); cbn; congruence. Qed.
Lemma sle_trans a b c : sle a b -> sle b c -> sle a c.
Proof.
  unfold sle. destruct (String.compare a b) eqn:E1; try congruence; intros _.
  - apply String.compare_eq_iff in E1. subst. auto.
  - destruct (String.compare b c) eqn:E2; try congruence; intros _.
    + apply String.compare_eq_iff in E2. subst. congruence.
    + rewrite (string_trans _ _ _ E1 E2). congruence.
Qed.
Lemma sle_ltb a b : sle a b -> a <> b -> String.ltb a b = true.
Proof.
  unfold sle, String.ltb. destruct (String.compare a b) eqn:E; try congruence. apply String.compare_eq_iff in E. congruence.
Qed.

(* ---- successors ---- *)
Lemma all_successors_nth g ls rs todo : forall succ, all_successors g ls rs todo = Ok succ ->
  List.length succ = List.length todo /\
  forall k r row, nth_error todo k = Some r -> nth_error succ k = Some row -> get_successors g ls rs r = Ok row.
Proof.
  induction todo as [|r todo IH]; intros succ; cbn [all_successors].
  - intros [= <-]. split; [reflexivity|]. intros [|k]; discriminate.
  - intros H. inv_bind H. injection H as <-. destruct (IH _ Hx0) as [I1 I2]. split; [cbn; congruence|].
    intros [|k] r' row; cbn [nth_error]; [intros [= <-] [= <-]; exact Hx|apply I2].
Qed.

Lemma is_boundary_iff g n : is_boundary g n = true <-> boundary g n.
Proof. unfold is_boundary, boundary. rewrite orb_true_iff, !node_is_type. tauto. Qed.
Lemma is_boundary_not g n : is_boundary g n = false <-> ~ boundary g n.
Proof. rewrite <- is_boundary_iff. destruct (is_boundary g n); split; congruence. Qed.
Lemma starts_boundary g r n p : ro_nodes r = n :: p -> starts_at_boundary g r = is_boundary g n.
Proof. unfold starts_at_boundary. intros ->. reflexivity. Qed.
Lemma ends_boundary g r n p : ro_nodes r = p ++ [n] -> ends_at_boundary g r = is_boundary g n.
Proof. unfold ends_at_boundary. intros ->. rewrite rev_app_distr. reflexivity. Qed.
Lemma in_route_entering g r : ro_nodes r <> [] -> is_in_route g r = true <-> entering g r.
Proof.
  intros NE. unfold is_in_route, entering. rewrite andb_true_iff, negb_true_iff. split.
  - intros [A B]. split.
    + destruct (ro_nodes r) as [|n p] eqn:E; [congruence|]. rewrite (starts_boundary g r n p E) in A. exists n, p.
      split; [reflexivity|apply is_boundary_iff; exact A].
    + destruct (exists_last NE) as (p & n & E). rewrite (ends_boundary g r n p E) in B. exists n, p.
      split; [exact E|apply is_boundary_not; exact B].
  - intros [(n & p & E & A) (m & q & F & B)]. rewrite (starts_boundary g r n p E), (ends_boundary g r m q F). split.
    + apply is_boundary_iff, A.
    + apply is_boundary_not, B.
Qed.

Lemma app_tail_inj {A} (p q : list A) x y : p ++ [x] = q ++ [y] -> x = y.
Proof. intros H. apply app_inj_tail in H. apply H. Qed.

Section SUCC.
  Variables (l : list (xstation * list xroute)) (inf : infrastructure).
  Hypothesis I : import_routes l = Ok inf.
  Let g := inf_graph inf.
  Let ls := inf_links inf.
  Let rs := inf_routes inf.

  Lemma route_facts k r : nth_error rs k = Some r ->
    ro_id r = k /\ ro_nodes r <> [] /\ exists st x, nth_error (routes_of l) k = Some (st, x) /\ path_as_described g ls x r /\ contents_as_described l g ls st x r.
  Proof.
    intros N. destruct (import_spec l inf I) as (_ & _ & _ & L & R & _).
    destruct (nth_error (routes_of l) k) as [[st x]|] eqn:X.
    - destruct (R _ _ _ _ X N) as (A & B & D & _). split; [exact A|]. split.
      + destruct B as (i & j & a & b & c & _ & _ & _ & _ & _ & [[H _] _]). intros E. rewrite E in H. discriminate.
      + exists st, x. auto.
    - apply nth_error_None in X. assert (k < List.length rs) by (apply nth_error_Some; congruence). unfold rs in *. lia.
  Qed.
  Lemma names_differ k h r q : nth_error rs k = Some r -> nth_error rs h = Some q -> ro_station r = ro_station q ->
    ro_name r = ro_name q -> k = h.
  Proof.
    intros A B S N. destruct (import_spec l inf I) as (_ & _ & _ & _ & _ & _ & ND).
    eapply (proj1 (NoDup_nth_error _) ND).
    - rewrite map_length. apply nth_error_Some. unfold rs in A. congruence.
    - rewrite !nth_error_map. unfold rs in A, B. rewrite A, B. cbn. congruence.
  Qed.

  Lemma sorted_filter {A} (R : A -> A -> Prop) f l0 : StronglySorted R l0 -> StronglySorted R (filter f l0).
  Proof.
    induction 1 as [|x l0 H1 H2 H3]; cbn [filter]; [constructor|]. destruct (f x); [|exact H2].
    constructor; [exact H2|]. apply Forall_forall. intros y Y. apply filter_In in Y. rewrite Forall_forall in H3. apply H3, Y.
  Qed.

  Lemma rs_nodup : NoDup rs.
  Proof.
    apply NoDup_nth_error. intros i j L E. destruct (nth_error rs i) as [r|] eqn:R; [|apply nth_error_None in R; lia].
    symmetry in E. destruct (route_facts _ _ R) as (A & _). destruct (route_facts _ _ E) as (B & _). congruence.
  Qed.

  Lemma element_routes st e :
    (forall q, In q (element_to_routes rs st e) <-> exists h m p, nth_error rs h = Some q /\ ro_station q = st /\ ro_nodes q = m :: p /\ fst m = e) /\
    NoDup (element_to_routes rs st e) /\ StronglySorted by_name (element_to_routes rs st e).
  Proof.
    unfold element_to_routes, station_routes.
    pose proof (sort_perm (fun a b => String.ltb (ro_name a) (ro_name b)) (filter (fun r => Nat.eqb (ro_station r) st) rs)) as SP.
    set (sl := sort _ _) in *.
    assert (InS : forall q, In q (filter (starts_at_element e) sl) <-> exists h m p, nth_error rs h = Some q /\ ro_station q = st /\ ro_nodes q = m :: p /\ fst m = e).
    { intros q. rewrite filter_In. split.
      - intros [A B]. eapply Permutation_in in A; [|apply Permutation_sym, SP]. apply filter_In in A. destruct A as [A A'].
        apply Nat.eqb_eq in A'. apply In_nth_error in A. destruct A as (h & A). unfold starts_at_element in B.
        destruct (ro_nodes q) as [|m p] eqn:E; [discriminate|]. apply Nat.eqb_eq in B. exists h, m, p. auto.
      - intros (h & m & p & A & B & D & F). split.
        + eapply Permutation_in; [exact SP|]. apply filter_In. split; [eapply nth_error_In; eauto|apply Nat.eqb_eq; exact B].
        + unfold starts_at_element. rewrite D. apply Nat.eqb_eq. exact F. }
    split; [exact InS|].
    assert (ND : NoDup (filter (starts_at_element e) sl)).
    { apply NoDup_filter. eapply Permutation_NoDup; [exact SP|]. apply NoDup_filter, rs_nodup. }
    split; [exact ND|].
    assert (SS : StronglySorted (fun a b => sle (ro_name a) (ro_name b)) (filter (starts_at_element e) sl)).
    { apply sorted_filter. apply sort_sorted; intros a b.
      - apply ltb_sle.
      - apply nltb_sle.
      - intros c. apply sle_trans. }
    revert SS ND InS. generalize (filter (starts_at_element e) sl). intros fl SS.
    induction SS as [|x fl H1 H2 H3]; intros ND InS; [constructor|]. inversion ND as [|? ? N1 N2]; subst.
    assert (Pr : forall q, In q (x :: fl) -> exists h, nth_error rs h = Some q /\ ro_station q = st).
    { intros q Q. apply InS in Q. destruct Q as (h & m & p & A & B & _). eauto. }
    constructor.
    - clear -H1 N2 Pr I. revert N2 Pr. induction H1 as [|y fl A1 A2 A3]; intros N2 Pr; [constructor|].
      inversion N2 as [|? ? M1 M2]; subst. constructor.
      + apply A2; auto. intros q [<-|Q]; apply Pr; [left; reflexivity|right; right; exact Q].
      + apply Forall_forall. intros q Q. unfold by_name. apply sle_ltb; [rewrite Forall_forall in A3; apply A3, Q|].
        intros E. destruct (Pr y) as (h1 & B1 & C1); [right; left; reflexivity|]. destruct (Pr q) as (h2 & B2 & C2); [right; right; exact Q|].
        assert (h1 = h2) by (eapply names_differ; eauto; congruence). subst h2. assert (y = q) by congruence. subst q. tauto.
    - apply Forall_forall. intros q Q. unfold by_name. apply sle_ltb; [rewrite Forall_forall in H3; apply H3, Q|].
      intros E. destruct (Pr x) as (h1 & B1 & C1); [left; reflexivity|]. destruct (Pr q) as (h2 & B2 & C2); [right; exact Q|].
      assert (h1 = h2) by (eapply names_differ; eauto; congruence). subst h2. assert (x = q) by congruence. subst q. tauto.
  Qed.

  Lemma get_successors_spec k r row : nth_error rs k = Some r -> get_successors g ls rs r = Ok row ->
    exists qs, row = map ro_id qs /\ NoDup qs /\ StronglySorted by_name qs /\
      forall q, In q qs <-> In q rs /\ continues g ls r q /\ ~ entering g r /\ ~ ends_in g r TRACK_END.
  Proof.
    intros N H. destruct (route_facts k r N) as (Ik & NE & st & x & X & PD & CD).
    destruct (exists_last NE) as (p & n & El).
    assert (Er : rev (ro_nodes r) = n :: rev p) by (rewrite El, rev_app_distr; reflexivity).
    assert (Empty : (forall q, In q rs -> continues g ls r q -> ~ entering g r -> ends_in g r TRACK_END) ->
      exists qs, @nil nat = map ro_id qs /\ NoDup qs /\ StronglySorted by_name qs /\
      forall q, In q qs <-> In q rs /\ continues g ls r q /\ ~ entering g r /\ ~ ends_in g r TRACK_END).
    { intros Em. exists []. split; [reflexivity|]. split; [constructor|]. split; [constructor|]. intros q. split; [intros []|].
      intros (A & B & D & F). exfalso. apply F. eapply Em; eauto. }
    assert (Suc : ~ entering g r -> forall qs, successors_from_through g ls rs r = Ok qs ->
      NoDup qs /\ StronglySorted by_name qs /\
      forall q, In q qs <-> In q rs /\ continues g ls r q /\ ~ entering g r /\ ~ ends_in g r TRACK_END).
    { intros NEn qs. unfold successors_from_through. rewrite Er. cbn [bind].
      assert (Nil : (forall q, In q rs -> continues g ls r q -> ends_in g r TRACK_END) -> NoDup (@nil route) /\ StronglySorted by_name [] /\
         forall q, In q [] <-> In q rs /\ continues g ls r q /\ ~ entering g r /\ ~ ends_in g r TRACK_END).
      { intros Em. split; [constructor|]. split; [constructor|]. intros q. split; [intros []|]. intros (A & B & _ & D). apply D. eapply Em; eauto. }
      destruct (node_is g TRACK_END n) eqn:T.
      - intros [= <-]. apply Nil. intros _ _ _. exists n, p. split; [exact El|apply node_is_type; exact T].
      - assert (NT : ~ ends_in g r TRACK_END).
        { intros (n' & p' & E & H'). rewrite El in E. apply app_tail_inj in E. subst n'. apply node_is_type in H'. congruence. }
        destruct (ro_to r) as [s|] eqn:To.
        + destruct (proj1 (co_to _ _ _ _ _ _ CD s) To) as (D1 & p' & n' & m & e & D2 & D3 & D4 & D5).
          rewrite El in D2. apply app_tail_inj in D2. subst n'. rewrite D3. intros [= <-].
          destruct (element_routes s (fst m)) as (E1 & E2 & E3). split; [exact E2|]. split; [exact E3|].
          intros q. rewrite E1. split.
          * intros (h & m' & p'' & Q1 & Q2 & Q3 & Q4). split; [eapply nth_error_In; eauto|]. split; [|auto].
            exists p, n, m, m', p''. repeat split; auto.
            -- rewrite Q2, (co_station _ _ _ _ _ _ CD). exact D1.
            -- exists e. split; [exact D4|congruence].
          * intros (Q1 & (pq & nq & mq & m' & p'' & F1 & F2 & F3 & F4 & F5 & e' & F6 & F7) & _).
            rewrite El in F1. apply app_tail_inj in F1. subst nq. assert (mq = m) by congruence. subst mq.
            apply In_nth_error in Q1. destruct Q1 as (h & Q1). exists h, m', p''. split; [exact Q1|].
            split; [unfold elem_at in *; congruence|]. auto.
        + intros [= <-]. apply Nil. intros q Q (pq & nq & mq & m' & p'' & F1 & F2 & F3 & F4 & F5 & e' & F6 & F7). exfalso.
          assert (X1 : ro_to r = Some (ro_station q)); [|congruence]. apply (co_to _ _ _ _ _ _ CD).
          rewrite (co_station _ _ _ _ _ _ CD) in F5. split; [exact F5|]. exists pq, nq, mq, e'. auto. }
    unfold get_successors in H.
    destruct (is_through_route g r) eqn:Th.
    - inv_bind H. injection H as <-.
      assert (NEn : ~ entering g r).
      { rewrite <- in_route_entering by exact NE. unfold is_through_route in Th. unfold is_in_route.
        apply andb_true_iff in Th. destruct Th as [-> ->]. discriminate. }
      exists x0. split; [reflexivity|]. apply Suc; auto.
    - destruct (is_in_route g r) eqn:Ir.
      + cbn [bind] in H. injection H as <-. apply Empty. intros q _ _ X1. apply in_route_entering in Ir; [tauto|exact NE].
      + inv_bind H. injection H as <-. exists x0. split; [reflexivity|].
        apply Suc; auto. rewrite <- in_route_entering by exact NE. congruence.
  Qed.

  Lemma successors_spec k r row : nth_error rs k = Some r -> nth_error (RouteModel.g_succ (inf_successors inf)) k = Some row ->
    exists qs, Forall2 (fun h q => nth_error rs h = Some q) row qs /\ NoDup row /\ StronglySorted by_name qs /\
      forall h, In h row <-> exists q, nth_error rs h = Some q /\ continues g ls r q /\ ~ entering g r /\ ~ ends_in g r TRACK_END.
  Proof.
    intros N R. destruct (import_spec l inf I) as (_ & _ & G & _). unfold station_route_graph in G. inv_bind G. injection G as G.
    rewrite <- G in R. cbn [RouteModel.g_succ] in R. destruct (all_successors_nth _ _ _ _ _ Hx) as [L S].
    destruct (get_successors_spec k r row N (S _ _ _ N R)) as (qs & -> & A & B & D).
    assert (Po : forall q, In q qs -> nth_error rs (ro_id q) = Some q).
    { intros q Q. apply D in Q. destruct Q as (Q & _). apply In_nth_error in Q. destruct Q as (h & Q).
      destruct (route_facts _ _ Q) as (E & _). rewrite E. exact Q. }
    exists qs. split; [|split; [|split; [exact B|]]].
    - clear -Po. induction qs as [|q qs IH]; cbn [map]; constructor; [apply Po; left; reflexivity|apply IH; intros; apply Po; right; auto].
    - clear -Po A. induction A as [|q qs A1 A2 IH]; cbn [map]; constructor; [|apply IH; intros; apply Po; right; auto].
      intros H. apply in_map_iff in H. destruct H as (q' & E & Q). assert (q' = q).
      { assert (X : nth_error rs (ro_id q') = Some q') by (apply Po; right; auto).
        assert (Y : nth_error rs (ro_id q) = Some q) by (apply Po; left; auto). congruence. }
      subst q'. tauto.
    - intros h. rewrite in_map_iff. split.
      + intros (q & <- & Q). exists q. split; [apply Po, Q|]. apply D, Q.
      + intros (q & Q & F). exists q. split; [apply (route_facts _ _ Q)|]. apply D. split; [eapply nth_error_In; eauto|exact F].
  Qed.

  Lemma successors_len : List.length (RouteModel.g_succ (inf_successors inf)) = List.length rs.
  Proof.
    destruct (import_spec l inf I) as (_ & _ & G & _). unfold station_route_graph in G. inv_bind G. injection G as G.
    rewrite <- G. cbn [RouteModel.g_succ]. destruct (all_successors_nth _ _ _ _ _ Hx) as [L _]. exact L.
  Qed.
  Lemma successors_range s t : In t (nth s (RouteModel.g_succ (inf_successors inf)) []) -> t < List.length (RouteModel.g_succ (inf_successors inf)).
  Proof.
    intros H. rewrite successors_len. destruct (nth_error (RouteModel.g_succ (inf_successors inf)) s) as [row|] eqn:R.
    - rewrite (nth_error_nth _ _ _ R) in H. assert (S : s < List.length rs) by (rewrite <- successors_len; apply nth_error_Some; congruence).
      destruct (nth_error rs s) as [r|] eqn:N; [|apply nth_error_None in N; lia].
      destruct (successors_spec s r row N R) as (_ & _ & _ & _ & D). apply D in H. destruct H as (q & Q & _). apply nth_error_Some. congruence.
    - apply nth_error_None in R. rewrite nth_overflow in H by exact R. destruct H.
  Qed.
  Lemma predecessors_spec : List.length (RouteModel.g_pred (inf_successors inf)) = List.length rs /\
    forall k row, nth_error (RouteModel.g_pred (inf_successors inf)) k = Some row ->
    NoDup row /\ forall h, In h row <-> exists srow, nth_error (RouteModel.g_succ (inf_successors inf)) h = Some srow /\ In k srow.
  Proof.
    pose proof successors_range as SR. pose proof successors_len as SL.
    destruct (import_spec l inf I) as (_ & _ & G & _). unfold station_route_graph in G. inv_bind G. injection G as G.
    assert (G1 : RouteModel.g_succ (inf_successors inf) = x) by (rewrite <- G; reflexivity).
    assert (G2 : RouteModel.g_pred (inf_successors inf) = x0) by (rewrite <- G; reflexivity).
    rewrite G1 in *. rewrite G2.
    destruct (RouteIndex.predecessors_ok x SR) as (p & P1 & P2 & P3). assert (p = x0) by congruence. subst p.
    split; [congruence|]. intros k row R. specialize (P3 _ _ R). subst row.
    assert (ND : forall h, NoDup (nth h x [])).
    { intros h. destruct (nth_error x h) as [srow|] eqn:E; [|apply nth_error_None in E; rewrite nth_overflow by exact E; constructor].
      assert (Hh : h < List.length rs) by (rewrite <- SL; apply nth_error_Some; congruence).
      destruct (nth_error rs h) as [r|] eqn:N; [|apply nth_error_None in N; lia].
      rewrite (nth_error_nth _ _ _ E). rewrite <- G1 in E. destruct (successors_spec h r srow N E) as (qs & _ & D & _). exact D. }
    assert (Cnt := RouteIndex.pred_row_count x k (seq 0 (List.length x))).
    assert (C1 : forall s, count_occ Nat.eq_dec (RouteIndex.pred_row x k (seq 0 (List.length x))) s =
        count_occ Nat.eq_dec (nth s x []) k).
    { intros s. rewrite (Cnt s (seq_NoDup _ _)). destruct (in_dec Nat.eq_dec s (seq 0 (List.length x))) as [Y|Y]; [reflexivity|].
      rewrite nth_overflow; [reflexivity|]. destruct (Nat.lt_ge_cases s (List.length x)); [|auto]. exfalso. apply Y, in_seq. lia. }
    split.
    - apply (NoDup_count_occ Nat.eq_dec). intros s. rewrite C1. apply (NoDup_count_occ Nat.eq_dec), ND.
    - intros h. rewrite (count_occ_In Nat.eq_dec), C1, <- (count_occ_In Nat.eq_dec). split.
      + intros H. destruct (nth_error x h) as [srow|] eqn:E; [|apply nth_error_None in E; rewrite nth_overflow in H by exact E; destruct H].
        exists srow. split; [reflexivity|]. rewrite (nth_error_nth _ _ _ E) in H. exact H.
      + intros (srow & E & H). rewrite (nth_error_nth _ _ _ E). exact H.
  Qed.
End SUCC.
