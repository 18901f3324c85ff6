(* Station routes are as their descriptions say *)
From Coq Require Import List Bool NArith QArith String Arith Lia Sorted Permutation.
From Verif Require Import Base PhysModel TextModel InfraModel StationModel StationSpec StationPath.
From Verif Require RouteModel.
Import ListNotations.
Local Open Scope nat_scope.

(* ---- types ---- *)
Lemma ty_is t t' : ty_between t t t' = true <-> t' = t.
Proof. destruct t, t'; cbn; split; congruence. Qed.
Lemma edge_type t : ty_between BORDER BORDER t || is_end_element t = true <-> In t [BUMPER; BORDER; TRACK_END].
Proof. destruct t; cbn; intuition congruence. Qed.
Lemma track_type t : is_track_element t = true <-> ~ In t section_types.
Proof. unfold section_types. destruct t; cbn; intuition congruence. Qed.

Lemma node_is_type g t n : node_is g t n = true <-> node_type g n t.
Proof.
  unfold node_is, node_type, elem_at. destruct (nth_error (g_elems g) (fst n)) as [e|].
  - rewrite ty_is. split; [eauto|]. intros (e' & [= <-] & H). exact H.
  - split; [discriminate|]. intros (e' & H & _). discriminate.
Qed.
Lemma node_is_track_on g n : node_is_track g n = true <-> on_track g n.
Proof.
  unfold node_is_track, on_track, elem_at. destruct (nth_error (g_elems g) (fst n)) as [e|].
  - rewrite track_type. split; [eauto|]. intros (e' & [= <-] & H). exact H.
  - split; [discriminate|]. intros (e' & H & _). discriminate.
Qed.

(* ---- positions ---- *)
Lemma positions_in f l : forall i k, In k (positions f i l) <->
  exists n, i <= k /\ nth_error l (k - i) = Some n /\ f n = true.
Proof.
  induction l as [|n l IH]; intros i k; cbn [positions].
  - split; [intros []|]. intros (n & _ & H & _). destruct (k - i); discriminate.
  - assert (T : In k (positions f (S i) l) <-> exists m, i < k /\ nth_error (n :: l) (k - i) = Some m /\ f m = true).
    { rewrite IH. split; intros (m & A & B & C); exists m; (split; [lia|]; split; [|exact C]).
      - replace (k - i) with (S (k - S i)) by lia. exact B.
      - replace (k - i) with (S (k - S i)) in B by lia. exact B. }
    destruct (f n) eqn:F; cbn [In]; rewrite T.
    + split.
      * intros [<-|(m & A & B & C)]; [exists n; rewrite Nat.sub_diag; auto|exists m; split; [lia|auto]].
      * intros (m & A & B & C). destruct (Nat.eq_dec i k) as [|N]; [auto|right]. exists m. split; [lia|auto].
    + split; intros (m & A & B & C); exists m; (split; [|auto]); [lia|].
      destruct (Nat.eq_dec i k) as [->|N]; [|lia]. rewrite Nat.sub_diag in B. injection B as ->. congruence.
Qed.
Lemma positions_sorted f l : forall i, StronglySorted lt (positions f i l).
Proof.
  induction l as [|n l IH]; intros i; cbn [positions]; [constructor|].
  destruct (f n); [|apply IH]. constructor; [apply IH|]. apply Forall_forall. intros k H.
  apply positions_in in H. destruct H as (m & H & _). lia.
Qed.
Lemma positions_marks f l (P : node -> Prop) : (forall n, In n l -> f n = true <-> P n) -> marks l P (positions f 0 l).
Proof.
  intros E. split; [apply positions_sorted|]. intros k. rewrite positions_in. split.
  - intros (n & _ & H & F). rewrite Nat.sub_0_r in H. exists n. split; [exact H|]. apply E; auto. eapply nth_error_In; eauto.
  - intros (n & H & F). exists n. rewrite Nat.sub_0_r. split; [lia|]. split; [exact H|]. apply E; auto. eapply nth_error_In; eauto.
Qed.
Lemma idx16_id i : (N.of_nat i < 65536)%N -> idx16 i = i.
Proof. intros H. unfold idx16. rewrite N.mod_small by exact H. apply Nat2N.id. Qed.
Lemma positions_idx16 f l : (N.of_nat (List.length l) < 65536)%N ->
  map idx16 (positions f 0 l) = positions f 0 l.
Proof.
  intros H. rewrite <- (map_id (positions f 0 l)) at 2. apply map_ext_in. intros k K.
  apply positions_in in K. destruct K as (n & _ & K & _). rewrite Nat.sub_0_r in K.
  assert (k < List.length l) by (apply nth_error_Some; congruence). apply idx16_id. lia.
Qed.

Lemma last_position_spec f l (P : node -> Prop) : (forall n, In n l -> f n = true <-> P n) ->
  last_visit l P (last_position f 0 l None).
Proof.
  intros E.
  assert (G : forall l i acc, (forall n, In n l -> f n = true <-> P n) ->
     match last_position f i l acc with
     | Some k => (exists n, i <= k /\ nth_error l (k - i) = Some n /\ P n /\
                            forall k' m, k < k' -> nth_error l (k' - i) = Some m -> ~ P m) \/
                 (acc = Some k /\ forall n, In n l -> ~ P n)
     | None => acc = None /\ forall n, In n l -> ~ P n
     end).
  { clear. induction l as [|n l IH]; intros i acc E; cbn [last_position].
    - destruct acc; [right|]; split; auto.
    - assert (E' : forall n, In n l -> f n = true <-> P n) by (intros; apply E; right; auto).
      specialize (IH (S i) (if f n then Some i else acc) E').
      destruct (last_position f (S i) l (if f n then Some i else acc)) as [k|].
      + destruct IH as [(m & A & B & C & D)|[A B]].
        * left. exists m. split; [lia|]. replace (k - i) with (S (k - S i)) by lia. split; [exact B|]. split; [exact C|].
          intros k' m' K N. apply (D k' m' K). replace (k' - i) with (S (k' - S i)) in N by lia. exact N.
        * destruct (f n) eqn:F.
          -- injection A as <-. left. exists n. split; [lia|]. rewrite Nat.sub_diag. split; [reflexivity|].
             split; [apply E; [left; auto|exact F]|]. intros k' m' K N. replace (k' - i) with (S (k' - S i)) in N by lia.
             apply B. eapply nth_error_In; eauto.
          -- right. split; [exact A|]. intros m [<-|M]; [|auto]. rewrite <- (E n); [congruence|left; auto].
      + destruct IH as [A B]. destruct (f n) eqn:F; [discriminate|]. split; [exact A|].
        intros m [<-|M]; [|auto]. rewrite <- (E n); [congruence|left; auto]. }
  specialize (G l 0 None E). unfold last_visit. destruct (last_position f 0 l None) as [k|].
  - destruct G as [(n & _ & B & C & D)|[A _]]; [|discriminate]. rewrite Nat.sub_0_r in B. split; [eauto|].
    intros k' m K N. apply (D k' m K). rewrite Nat.sub_0_r. exact N.
  - apply G.
Qed.

Lemma first_position_spec e l : forall i, first_position e i l <= i + List.length l /\
  (forall k n, i <= k < first_position e i l -> nth_error l (k - i) = Some n -> fst n <> e) /\
  i <= first_position e i l /\
  (first_position e i l < i + List.length l -> exists n, nth_error l (first_position e i l - i) = Some n /\ fst n = e).
Proof.
  induction l as [|n l IH]; intros i; cbn [first_position List.length].
  - repeat split; try lia.
  - destruct (Nat.eqb_spec (fst n) e) as [E|N].
    + repeat split; try lia. intros _. exists n. rewrite Nat.sub_diag. auto.
    + destruct (IH (S i)) as (A & B & C & D). repeat split; try lia.
      * intros k m K. destruct (Nat.eq_dec k i) as [->|]; [rewrite Nat.sub_diag; intros [= <-]; exact N|].
        replace (k - i) with (S (k - S i)) by lia. cbn [nth_error]. apply B. lia.
      * intros L. destruct D as (m & D1 & D2); [lia|]. exists m. split; [|exact D2].
        replace (first_position e (S i) l - i) with (S (first_position e (S i) l - S i)) by lia. exact D1.
Qed.
Lemma first_position_at e l n : nth_error l (first_position e 0 l) = Some n -> first_at l e (first_position e 0 l).
Proof.
  intros H. destruct (first_position_spec e l 0) as (A & B & C & D).
  assert (L : first_position e 0 l < List.length l) by (apply nth_error_Some; congruence).
  destruct (D L) as (m & D1 & D2). rewrite Nat.sub_0_r in D1. split; [eauto|].
  intros k m' K N. eapply B; [split; [lia|exact K]|]. rewrite Nat.sub_0_r. exact N.
Qed.
Lemma first_at_fun l e i j : first_at l e i -> first_at l e j -> i = j.
Proof.
  intros [(n & A & B) C] [(m & D & E) F]. destruct (Nat.lt_trichotomy i j) as [L|[L|L]]; auto; exfalso.
  - eapply F; eauto.
  - eapply C; eauto.
Qed.

(* ---- sorting ---- *)
Section SORTING.
  Context {A : Type} (lt : A -> A -> bool).
  Lemma insert_perm x l : Permutation (x :: l) (insert lt x l).
  Proof.
    induction l as [|y l IH]; cbn [insert]; [reflexivity|]. destruct (lt x y); [reflexivity|].
    rewrite perm_swap. constructor. exact IH.
  Qed.
  Lemma sort_perm l : Permutation l (sort lt l).
  Proof.
    induction l as [|x l IH]; cbn [sort]; [constructor|]. rewrite <- insert_perm. constructor. exact IH.
  Qed.
  Variable le : A -> A -> Prop.
  Hypothesis lt_le : forall a b, lt a b = true -> le a b.
  Hypothesis ge_le : forall a b, lt a b = false -> le b a.
  Hypothesis tra : forall a b c, le a b -> le b c -> le a c.
  Lemma insert_sorted x l : StronglySorted le l -> StronglySorted le (insert lt x l).
  Proof.
    induction l as [|y l IH]; intros S; cbn [insert]; [constructor; [constructor|constructor]|].
    inversion S as [|? ? S1 S2]; subst. destruct (lt x y) eqn:L.
    - constructor; [exact S|]. constructor; [auto|]. eapply Forall_impl; [|exact S2]. intros z. apply tra. auto.
    - constructor; [auto|]. eapply Permutation_Forall; [apply insert_perm|]. constructor; auto.
  Qed.
  Lemma sort_sorted l : StronglySorted le (sort lt l).
  Proof. induction l as [|x l IH]; cbn [sort]; [constructor|]. apply insert_sorted, IH. Qed.
End SORTING.

Lemma sorted_impl {A} (R S : A -> A -> Prop) l : (forall a b, R a b -> S a b) -> StronglySorted R l -> StronglySorted S l.
Proof.
  intros I. induction 1 as [|x l H1 H2 H3]; constructor; auto. eapply Forall_impl; [|exact H3]. auto.
Qed.

(* ---- nodes of the network ---- *)
(* links lead to nodes the element has: a directed element has only one *)
Definition real (g : graph) (n : node) : Prop :=
  forall e, elem_at g (fst n) e -> e_kind e = KTrack -> ~ at_edge e -> snd n = Top.
Lemma get_node_real g p r i n : get_node g p r i = Ok n -> real g n.
Proof.
  unfold get_node. destruct p as [j|]; [|discriminate]. unfold get_e.
  destruct (nth_error (g_elems g) j) as [e|] eqn:N; [|discriminate]. cbn [bind].
  intros H e' E K _. unfold elem_at in E.
  assert (fst n = j).
  { unfold get_node_e in H. destruct (e_kind e);
      repeat match type of H with context [if ?b then _ else _] => destruct b end;
      try discriminate H; injection H as <-; reflexivity. }
  rewrite H0, N in E. injection E as <-. unfold get_node_e in H. rewrite K in H. injection H as <-. reflexivity.
Qed.
Definition real_links (g : graph) (l : links) : Prop :=
  forall s m, fst (l s) = Some m \/ snd (l s) = Some m -> real g m.
Lemma connect_real_elem g i e l : connect_elem g i e = Ok l -> real_links g l.
Proof.
  assert (RN : real_links g no_links) by (intros s m [H|H]; discriminate H).
  assert (SN : forall s n l, real g n -> real_links g l -> real_links g (set_next s n l)).
  { intros s n l0 L G s' m H. unfold set_next in H. destruct (slot_eqb s' s); [|eapply G; eauto].
    cbn in H. destruct H as [[= <-]|H]; auto. eapply G; eauto. }
  assert (SB : forall s n l, real g n -> real_links g l -> real_links g (set_branch s n l)).
  { intros s n l0 L G s' m H. unfold set_branch in H. destruct (slot_eqb s' s); [|eapply G; eauto].
    cbn in H. destruct H as [H|[= <-]]; auto. eapply G; eauto. }
  intros H. unfold connect_elem, connect_side in H.
  destruct (e_kind e);
  repeat (inv_bind H; try match type of H with
          | (if ?b then _ else _) = _ => destruct b
          | (match ?b with Some _ => _ | None => _ end) = _ => destruct b
          end);
  repeat match goal with X : (match ?b with Some _ => _ | None => _ end) = Ok _ |- _ =>
           destruct b; inv_bind X end;
  repeat match goal with X : Ok _ = Ok _ |- _ => injection X as <- end;
  repeat match goal with X : get_node _ _ _ _ = Ok _ |- _ => apply get_node_real in X end;
  repeat match goal with |- context [if ?b then _ else _] => destruct b end;
  repeat first [apply SN; [assumption|] | apply SB; [assumption|]]; exact RN.
Qed.
Lemma connect_real g ls n m : connect_nodes g = Ok ls ->
  next_node ls n = Some m \/ branch_node ls n = Some m -> real g m.
Proof.
  unfold connect_nodes. assert (H : forall es i ls, connect_from g i es = Ok ls -> Forall (real_links g) ls).
  { induction es as [|e es IH]; intros i ls'; cbn [connect_from].
    - intros [= <-]. constructor.
    - intros H. inv_bind H. injection H as <-. constructor; [eapply connect_real_elem; eauto|eauto]. }
  intros C. apply H in C. intros X. unfold next_node, branch_node in X.
  destruct (nth_error ls (fst n)) as [l|] eqn:N; [|destruct X; discriminate].
  apply nth_error_In in N. rewrite Forall_forall in C. eapply C; eauto.
Qed.
Lemma drive_real g ls course a p n : connect_nodes g = Ok ls -> real g a -> drive g ls course a p ->
  In n p -> real g n.
Proof.
  intros C R [H D] I. apply In_nth_error in I. destruct I as (k & K). destruct k as [|k].
  - destruct p; [discriminate|]. injection H as ->. injection K as <-. exact R.
  - destruct (nth_error p k) as [x|] eqn:X.
    + specialize (D _ _ _ X K). unfold drives_on in D. eapply connect_real; [exact C|].
      destruct (branch_node ls x) eqn:B.
      * destruct D as [[_ D]|[_ D]]; [left|right]; [symmetry; exact D|]. rewrite B. symmetry. exact D.
      * left. symmetry. exact D.
    + apply nth_error_None in X. assert (nth_error p (S k) = None) by (apply nth_error_None; lia). congruence.
Qed.

(* ---- reading the plan ---- *)
Inductive Forall2i {A B : Type} (P : nat -> A -> B -> Prop) : nat -> list A -> list B -> Prop :=
| F2nil n : Forall2i P n [] []
| F2cons n a b la lb : P n a b -> Forall2i P (S n) la lb -> Forall2i P n (a :: la) (b :: lb).
Lemma Forall2i_app {A B} (P : nat -> A -> B -> Prop) n la lb la' lb' :
  Forall2i P n la lb -> Forall2i P (n + List.length lb) la' lb' -> Forall2i P n (la ++ la') (lb ++ lb').
Proof.
  induction 1 as [n|n a b la lb H1 H2 IH]; cbn [app List.length].
  - rewrite Nat.add_0_r. auto.
  - rewrite Nat.add_succ_r. intros H. constructor; auto.
Qed.
Lemma Forall2i_impl {A B} (P Q : nat -> A -> B -> Prop) n la lb :
  (forall n a b, In a la -> P n a b -> Q n a b) -> Forall2i P n la lb -> Forall2i Q n la lb.
Proof.
  intros I. induction 1 as [n|n a b la lb H1 H2 IH]; constructor.
  - apply I; [left|]; auto.
  - apply IH. intros. apply I; [right|]; auto.
Qed.
Lemma Forall2i_nth {A B} (P : nat -> A -> B -> Prop) n la lb : Forall2i P n la lb ->
  List.length la = List.length lb /\
  forall k a b, nth_error la k = Some a -> nth_error lb k = Some b -> P (n + k) a b.
Proof.
  induction 1 as [n|n a b la lb H1 H2 [IH1 IH2]]; cbn [List.length]; split; auto.
  - intros [|k]; discriminate.
  - intros [|k] a' b'; cbn [nth_error].
    + intros [= <-] [= <-]. rewrite Nat.add_0_r. exact H1.
    + rewrite Nat.add_succ_r. apply IH2.
Qed.

Lemma parse_routes_spec g st xs : forall rs is, parse_station_routes g st xs rs = Ok is ->
  exists is', is = rs ++ is' /\
    Forall2i (fun n x i => parse_station_route g st n x = Ok i) (List.length rs)
             (filter (fun x => negb (xr_publish_only x)) xs) is'.
Proof.
  induction xs as [|x xs IH]; intros rs is; cbn [parse_station_routes filter].
  - intros [= <-]. exists []. rewrite app_nil_r. split; [reflexivity|constructor].
  - destruct (xr_publish_only x); cbn [negb]; [apply IH|]. intros H. inv_bind H.
    apply IH in H. destruct H as (is' & -> & H). exists (x0 :: is'). rewrite <- app_assoc. split; [reflexivity|].
    rewrite app_length in H. cbn in H. rewrite Nat.add_1_r in H. constructor; auto.
Qed.

Lemma parse_stations_app l1 : forall g st l2, parse_stations g st (l1 ++ l2) =
  do g' <- parse_stations g st l1; parse_stations g' (st + List.length l1) l2.
Proof.
  induction l1 as [|x l1 IH]; intros g st l2; cbn [app parse_stations List.length].
  - rewrite Nat.add_0_r. reflexivity.
  - destruct (parse_sections g st (st_sections x)) as [g1| | |]; cbn [bind]; auto.
    rewrite IH, Nat.add_succ_r. reflexivity.
Qed.

Definition read_from (l : list (xstation * list xroute)) (n : nat) (sx : nat * xroute) (i : isr) : Prop :=
  exists g, parse_stations no_graph 0 (firstn (S (fst sx)) (map fst l)) = Ok g /\
            parse_station_route g (fst sx) n (snd sx) = Ok i.

Lemma Forall2i_map {A A' B} (f : A -> A') (P : nat -> A' -> B -> Prop) n la lb :
  Forall2i (fun n a b => P n (f a) b) n la lb -> Forall2i P n (map f la) lb.
Proof. induction 1; cbn [map]; constructor; auto. Qed.

Lemma parse_plan_spec l : forall pre g rs g' is, parse_stations no_graph 0 (map fst pre) = Ok g ->
  parse_rail_plan g (List.length pre) l rs = Ok (g', is) ->
  parse_stations no_graph 0 (map fst (pre ++ l)) = Ok g' /\
  exists is', is = rs ++ is' /\
    Forall2i (read_from (pre ++ l)) (List.length rs) (routes_from (List.length pre) l) is'.
Proof.
  induction l as [|[x xs] l IH]; intros pre g rs g' is P H; cbn [parse_rail_plan routes_from] in *.
  - injection H as <- <-. rewrite app_nil_r. split; [exact P|]. exists []. rewrite app_nil_r. split; [reflexivity|constructor].
  - inv_bind H.
    assert (P1 : parse_stations no_graph 0 (map fst (pre ++ [(x, xs)])) = Ok x0).
    { rewrite map_app, parse_stations_app, P. cbn [bind map]. rewrite map_length. cbn [parse_stations]. cbn [fst Nat.add]. rewrite Hx. reflexivity. }
    replace (S (List.length pre)) with (List.length (pre ++ [(x, xs)])) in H by (rewrite app_length; cbn; lia).
    apply (IH (pre ++ [(x, xs)]) x0 x1 g' is P1) in H. destruct H as (H1 & is' & -> & H2).
    rewrite <- app_assoc in H1, H2. cbn [app] in H1, H2. split; [exact H1|].
    apply parse_routes_spec in Hx0. destruct Hx0 as (is0 & -> & H3).
    exists (is0 ++ is'). rewrite app_assoc. split; [reflexivity|]. apply Forall2i_app.
    + apply Forall2i_map. eapply Forall2i_impl; [|exact H3]. intros n y i _ H. exists x0. split; [|exact H]. cbn [fst].
      rewrite map_app. rewrite firstn_app. rewrite map_length. cbn [map fst].
      rewrite (firstn_all2 (map fst pre)) by (rewrite map_length; lia).
      replace (S (List.length pre) - List.length pre) with 1 by lia. rewrite map_app in P1. exact P1.
    + rewrite app_length in H2. rewrite app_length in H2. cbn [List.length] in H2. rewrite Nat.add_1_r in H2. exact H2.
Qed.

(* ---- sharing of paths ---- *)
Lemma Forall2_impl {A B} (P Q : A -> B -> Prop) la lb : (forall a b, P a b -> Q a b) ->
  Forall2 P la lb -> Forall2 Q la lb.
Proof. intros I. induction 1; constructor; auto. Qed.
Lemma same_course_eq a : forall b, same_course a b = true <-> a = b.
Proof.
  induction a as [|x a IH]; intros [|y b]; cbn [same_course]; try (split; congruence).
  rewrite andb_true_iff, IH. split.
  - intros [H ->]. destruct x, y; congruence || discriminate.
  - intros [= -> ->]. destruct y; auto.
Qed.
Lemma existsb_N x l : existsb (N.eqb x) l = true <-> In x l.
Proof.
  rewrite existsb_exists. split; [|exists x; split; [auto|apply N.eqb_refl]].
  intros (y & H & E). apply N.eqb_eq in E. subst y. exact H.
Qed.
Lemma same_set_eq a b : same_set a b = true <-> forall x, In x a <-> In x b.
Proof.
  unfold same_set. rewrite andb_true_iff, !forallb_forall. split.
  - intros [H1 H2] x. split; intros H; apply existsb_N; auto.
  - intros H. split; intros x X; apply existsb_N, H, X.
Qed.
Lemma same_path_eq a b : same_path a b = true <->
  is_start a = is_start b /\ is_end a = is_end b /\ is_course a = is_course b /\
  forall x, In x (omitted_main a) <-> In x (omitted_main b).
Proof.
  unfold same_path. rewrite !andb_true_iff, !N.eqb_eq, same_course_eq, same_set_eq. tauto.
Qed.

Lemma track_nodes_spec g l : forall ns, track_nodes g l = Ok ns ->
  (forall id, In id l -> exists i e, names g id i /\ elem_at g i e /\ e_kind e = KTrack) /\
  (forall n, In n ns <-> exists id i, In id l /\ names g id i /\ n = (i, Top)).
Proof.
  induction l as [|id l IH]; intros ns; cbn [track_nodes].
  - intros [= <-]. split; [intros id []|]. intros n. split; [intros []|]. intros (id & _ & [] & _).
  - intros H. inv_bind H. unfold rp_at in Hx. destruct (rp_find (g_rp g) id) as [i|] eqn:R; [|discriminate].
    injection Hx as <-. unfold get_e in Hx0. destruct (nth_error (g_elems g) i) as [e|] eqn:E; [|discriminate].
    injection Hx0 as <-. destruct (e_kind e) eqn:K; try discriminate. inv_bind H. injection H as <-.
    destruct (IH _ Hx) as [I1 I2]. split.
    + intros id' [<-|H]; [exists i, e; auto|auto].
    + intros n. cbn [In]. rewrite I2. split.
      * intros [<-|(id' & j & A & B)]; [exists id, i|exists id', j]; auto.
      * intros (id' & j & [<-|A] & B & C); [left|right; eauto]. unfold names in B. congruence.
Qed.
Lemma track_nodes_ok g l : (forall id, In id l -> exists i e, names g id i /\ elem_at g i e /\ e_kind e = KTrack) ->
  exists ns, track_nodes g l = Ok ns.
Proof.
  induction l as [|id l IH]; intros H; cbn [track_nodes]; [eauto|].
  destruct (H id (or_introl eq_refl)) as (i & e & A & B & C). unfold names in A. unfold elem_at in B. unfold rp_at, get_e.
  rewrite A. cbn [bind]. rewrite B. cbn [bind]. rewrite C.
  destruct IH as (ns & ->); [intros; apply H; right; auto|]. cbn [bind]. eauto.
Qed.
Lemma mem_in l n : mem l n = true <-> In n l.
Proof.
  unfold mem. rewrite existsb_exists. split; [|exists n; split; [auto|apply node_eqb_refl]].
  intros (m & H & E). apply node_eqb_eq in E. subst m. exact H.
Qed.
Lemma positions_ext f h l : (forall n, f n = h n) -> forall i, positions f i l = positions h i l.
Proof. intros E. induction l as [|n l IH]; intros i; cbn [positions]; [reflexivity|]. rewrite E, IH. reflexivity. Qed.

Lemma main_signals_same g i j nodes ms : same_path i j = true ->
  get_main_signals g i nodes = Ok ms -> get_main_signals g j nodes = Ok ms.
Proof.
  intros S H. apply same_path_eq in S. destruct S as (_ & _ & _ & S). unfold get_main_signals in *. inv_bind H. injection H as <-.
  destruct (track_nodes_spec g _ _ Hx) as [A B].
  destruct (track_nodes_ok g (omitted_main j)) as (ns & N).
  { intros id I. apply A, S, I. }
  rewrite N. cbn [bind]. f_equal. f_equal. apply positions_ext. intros n. f_equal. f_equal.
  destruct (track_nodes_spec g _ _ N) as [_ B'].
  destruct (mem ns n) eqn:M1, (mem x n) eqn:M2; auto; exfalso.
  - apply mem_in in M1. apply B' in M1. destruct M1 as (id & k & M1 & M). apply S in M1.
    assert (X : mem x n = true) by (apply mem_in, B; eauto). congruence.
  - apply mem_in in M2. apply B in M2. destruct M2 as (id & k & M2 & M). apply S in M2.
    assert (X : mem ns n = true) by (apply mem_in, B'; eauto). congruence.
Qed.
Lemma make_path_same g ls i j s e p : same_path i j = true -> make_path g ls i s e = Ok p -> make_path g ls j s e = Ok p.
Proof.
  intros S. pose proof S as S'. apply same_path_eq in S'. destruct S' as (_ & _ & C & _).
  unfold make_path. rewrite C. intros H. inv_bind H. rewrite Hx, Hx0. cbn [bind]. rewrite Hx1. cbn [bind].
  rewrite (main_signals_same g i j _ _ S Hx2). cbn [bind]. exact H.
Qed.
Lemma same_path_sym a b : same_path a b = true -> same_path b a = true.
Proof. rewrite !same_path_eq. intros (A & B & C & D). repeat split; try congruence; intros; apply D; auto. Qed.
Lemma same_path_tra a b c : same_path a b = true -> same_path b c = true -> same_path a c = true.
Proof. rewrite !same_path_eq. intros (A & B & C & D) (A' & B' & C' & D'). repeat split; try congruence; intros; [apply D', D|apply D, D']; auto. Qed.
Lemma same_path_refl a : same_path a a = true.
Proof. apply same_path_eq. repeat split; auto. Qed.

Record dinv (g : graph) (ls : list links) (done : list isr) (d : dedup) : Prop := {
  di_of : Forall2 (fun i k => exists s i', In (s, i', k) (dd_tab d) /\ same_path i' i = true) done (dd_of d);
  di_tab : forall s i k, In (s, i, k) (dd_tab d) -> rp_at g (is_start i) = Ok s /\
    exists e p, rp_at g (is_end i) = Ok e /\ nth_error (dd_paths d) k = Some p /\ make_path g ls i s e = Ok p;
  di_inj : forall s i s' i' k, In (s, i, k) (dd_tab d) -> In (s', i', k) (dd_tab d) -> i = i';
  di_diff : forall s i k s' i' k', In (s, i, k) (dd_tab d) -> In (s', i', k') (dd_tab d) -> same_path i i' = true -> k = k' }.

Lemma known_path_some t s i k : known_path t s i = Some k -> exists i', In (s, i', k) t /\ same_path i' i = true.
Proof.
  unfold known_path. destruct (find _ t) as [[[s' i'] p]|] eqn:F; [|discriminate]. intros [= ->].
  apply find_some in F. destruct F as [F1 F2]. apply andb_true_iff in F2. destruct F2 as [F2 F3].
  apply Nat.eqb_eq in F2. subst s'. eauto.
Qed.
Lemma known_path_none t s i : known_path t s i = None -> forall i' k, In (s, i', k) t -> same_path i' i = false.
Proof.
  unfold known_path. destruct (find _ t) as [[[s' i'] p]|] eqn:F; [discriminate|]. intros _ i' k I.
  eapply find_none in F; [|exact I]. cbn beta iota in F. rewrite Nat.eqb_refl in F. exact F.
Qed.
Lemma dedup_inv g ls l : forall done d d', dinv g ls done d -> dedup_loop g ls l d = Ok d' -> dinv g ls (done ++ l) d'.
Proof.
  induction l as [|i l IH]; intros done d d' I; cbn [dedup_loop].
  - intros [= <-]. rewrite app_nil_r. exact I.
  - intros H. inv_bind H. rename x into s, x0 into e.
    replace (done ++ i :: l) with ((done ++ [i]) ++ l) by (rewrite <- app_assoc; reflexivity).
    destruct (known_path (dd_tab d) s i) as [p|] eqn:K.
    + eapply IH; [|exact H]. apply known_path_some in K. destruct K as (i' & K1 & K2).
      destruct I as [I1 I2 I3 I4]. split; cbn [dd_of dd_tab dd_paths]; auto.
      apply Forall2_app; [exact I1|]. constructor; [eauto|constructor].
    + inv_bind H. eapply IH; [|exact H]. destruct I as [I1 I2 I3 I4].
      assert (KN : forall s' i' k, In (s', i', k) (dd_tab d) -> k < List.length (dd_paths d)).
      { intros s' i' k H1. destruct (I2 _ _ _ H1) as (_ & e' & p & _ & H2 & _). apply nth_error_Some. congruence. }
      assert (KD : forall s' i' k, In (s', i', k) (dd_tab d) -> same_path i' i = false).
      { intros s' i' k H1. destruct (same_path i' i) eqn:E; [|reflexivity]. exfalso.
        destruct (I2 _ _ _ H1) as (H2 & _). pose proof E as E'. apply same_path_eq in E'. destruct E' as (E' & _).
        rewrite E' in H2. assert (s' = s) by congruence. subst s'. pose proof (known_path_none _ _ _ K _ _ H1). congruence. }
      split; cbn [dd_of dd_tab dd_paths].
      * apply Forall2_app.
        -- eapply Forall2_impl; [|exact I1]. intros a b (s' & i' & A & B). exists s', i'. split; [apply in_or_app; auto|auto].
        -- constructor; [|constructor]. exists s, i. split; [apply in_or_app; right; left; auto|apply same_path_refl].
      * intros s' i' k' H'. apply in_app_or in H'. destruct H' as [H'|[H'|[]]].
        -- destruct (I2 _ _ _ H') as (A & e' & p & B & C & D). split; [exact A|]. exists e', p. split; [exact B|]. split; [|exact D].
           rewrite nth_error_app1; auto. eapply KN; eauto.
        -- injection H' as <- <- <-. split; [exact Hx|]. exists e, x. split; [exact Hx0|]. split; [|exact Hx1].
           rewrite nth_error_app2, Nat.sub_diag by auto. reflexivity.
      * intros s1 i1 s2 i2 k A B. apply in_app_or in A, B. destruct A as [A|[A|[]]], B as [B|[B|[]]].
        -- eauto.
        -- injection B as <- <- <-. apply KN in A. lia.
        -- injection A as <- <- <-. apply KN in B. lia.
        -- congruence.
      * intros s1 i1 k1 s2 i2 k2 A B E. apply in_app_or in A, B. destruct A as [A|[A|[]]], B as [B|[B|[]]].
        -- eauto.
        -- injection B as <- <- <-. apply KD in A. congruence.
        -- injection A as <- <- <-. apply KD in B. apply same_path_sym in E. congruence.
        -- congruence.
Qed.

Lemma dedup_spec g ls l d : get_station_route_paths g ls l = Ok d ->
  Forall2 (fun i k => exists s e p, rp_at g (is_start i) = Ok s /\ rp_at g (is_end i) = Ok e /\
                       nth_error (dd_paths d) k = Some p /\ make_path g ls i s e = Ok p) l (dd_of d) /\
  forall m n a b k h, nth_error l m = Some a -> nth_error l n = Some b ->
    nth_error (dd_of d) m = Some k -> nth_error (dd_of d) n = Some h ->
    (k = h <-> same_path a b = true).
Proof.
  intros H. apply (dedup_inv g ls l []) in H.
  2:{ split; cbn [dd_of dd_tab dd_paths]; try (intros; contradiction). constructor. }
  cbn [app] in H. destruct H as [I1 I2 I3 I4]. split.
  - eapply Forall2_impl; [|exact I1]. intros i k (s & i' & A & B). destruct (I2 _ _ _ A) as (C & e & p & D & E & F).
    pose proof B as B'. apply same_path_eq in B'. destruct B' as (B1 & B2 & _). exists s, e, p.
    rewrite <- B1, <- B2. repeat split; auto. eapply make_path_same; eauto.
  - assert (N : forall m a k, nth_error l m = Some a -> nth_error (dd_of d) m = Some k ->
                exists s i', In (s, i', k) (dd_tab d) /\ same_path i' a = true).
    { clear -I1. induction I1 as [|x y la lb H1 H2 IH]; intros [|m] a k A B; try discriminate.
      - injection A as <-. injection B as <-. exact H1.
      - eapply IH; eauto. }
    intros m n a b k h A B C D. destruct (N _ _ _ A C) as (s & i & X1 & X2). destruct (N _ _ _ B D) as (s' & i' & Y1 & Y2). split.
    + intros ->. pose proof (I3 _ _ _ _ _ X1 Y1) as E. subst i'. eapply same_path_tra; [apply same_path_sym; exact X2|exact Y2].
    + intros E. eapply I4; eauto. eapply same_path_tra; [exact X2|]. eapply same_path_tra; [exact E|]. apply same_path_sym. exact Y2.
Qed.
