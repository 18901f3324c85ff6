(* The sidebar of the web client: what is shown belongs to what is chosen. *)
From Verif Require Import Base ClientStoreModel ClientStoreSpec ClientStoreProofs.
Local Open Scope string_scope.
Local Open Scope list_scope.
Local Open Scope nat_scope.

(* ---- C116: choosing infrastructure and timetable ---- *)
(* The chosen infrastructure is the one chosen last. *)
Theorem C116_chosen srv es1 n es2 c : (forall n', ~ In (ChooseInfra n') es2) ->
  infra (use srv (es1 ++ ChooseInfra n :: es2) c) = n.
Proof.
  intros N. rewrite use_app. cbn [use fold_left on_event]. change (infra (use srv es2 (load_infrastructure (use srv es1 c) n)) = n).
  assert (E : infra (load_infrastructure (use srv es1 c) n) = n) by (unfold load_infrastructure; destruct (truthy n); reflexivity).
  revert E. generalize (load_infrastructure (use srv es1 c) n). induction es2 as [|e es2 IH]; intros c' E; [exact E|].
  apply IH; [intros n' H; apply (N n'); right; exact H|]. rewrite <- E.
  destruct e; cbn [on_event]; try reflexivity.
  - destruct (N _ (or_introl eq_refl)).
  - unfold load_timetable. destruct (truthy (infra c')); reflexivity.
  - unfold add_station_route. destruct (truthy (infra c')); reflexivity.
  - unfold add_interlocking_route. destruct (truthy (infra c')); reflexivity.
  - unfold type_query. destruct (String.eqb q (query c')); [reflexivity|]. destruct (String.length q <? 3); reflexivity.
  - destruct (nth_error (pending c') k) as [r|]; [destruct r|]; reflexivity.
Qed.
Print Assumptions C116_chosen.
(* With it no timetable is chosen; one chosen afterwards is the one in use. *)
Theorem C116_timetable srv es1 n es2 c : (forall n', ~ In (ChooseInfra n') es2) -> (forall t, ~ In (ChooseTimetable t) es2) ->
  timetable (use srv (es1 ++ ChooseInfra n :: es2) c) = None /\
  (forall i t, infra (use srv es1 c) = Some i -> i <> "" -> timetable (use srv (es1 ++ ChooseTimetable t :: es2) c) = t).
Proof.
  intros N1 N2. assert (K : forall c', timetable (use srv es2 c') = timetable c').
  { induction es2 as [|e es2 IH]; intros c'; [reflexivity|]. change (use srv (e :: es2) c') with (use srv es2 (on_event srv c' e)).
    rewrite IH; [|intros n' H; apply (N1 n'); right; exact H|intros n' H; apply (N2 n'); right; exact H].
    destruct e; cbn [on_event]; try reflexivity.
    - destruct (N1 _ (or_introl eq_refl)).
    - destruct (N2 _ (or_introl eq_refl)).
    - unfold add_station_route. destruct (truthy (infra c')); reflexivity.
    - unfold add_interlocking_route. destruct (truthy (infra c')); reflexivity.
    - unfold type_query. destruct (String.eqb q (query c')); [reflexivity|]. destruct (String.length q <? 3); reflexivity.
    - destruct (nth_error (pending c') k) as [r|]; [destruct r|]; reflexivity. }
  split.
  - rewrite use_app. change (use srv (ChooseInfra n :: es2) (use srv es1 c)) with (use srv es2 (load_infrastructure (use srv es1 c) n)).
    rewrite K. unfold load_infrastructure. destruct (truthy n); reflexivity.
  - intros i t E N. rewrite use_app. change (use srv (ChooseTimetable t :: es2) (use srv es1 c)) with (use srv es2 (load_timetable (use srv es1 c) t)).
    rewrite K. unfold load_timetable. rewrite E. destruct i; [congruence|]. reflexivity.
Qed.
Print Assumptions C116_timetable.
(* If no request for timetables fails or overtakes another one, the list offered is the
   one of the chosen infrastructure as soon as no such request is pending. *)
Theorem C116_timetables_partial srv es i : in_turn for_timetables srv es start ->
  infra (use srv es start) = Some i -> i <> "" -> idle for_timetables (use srv es start) ->
  timetables (use srv es start) = srv_timetables srv i.
Proof.
  intros T E N I. destruct (timetables_due srv es start T) with (i := i) as [(l & D)|(_ & D)].
  - cbn. discriminate.
  - rewrite E. destruct i; [congruence|reflexivity].
  - apply (idle_nil g_timetables for_timetables _ kind_timetables) in I. rewrite I in D. destruct l; discriminate.
  - exact D.
Qed.
Print Assumptions C116_timetables_partial.
(* Likewise for the time range of a timetable, unless another range is chosen by hand. *)
Theorem C116_range_partial srv es1 t es2 i : infra (use srv es1 start) = Some i -> i <> "" ->
  in_turn for_timetable srv (es1 ++ ChooseTimetable (Some t) :: es2) start ->
  (forall n, ~ In (ChooseTimetable n) es2) -> (forall a b, ~ In (ChooseRange a b) es2) ->
  idle for_timetable (use srv (es1 ++ ChooseTimetable (Some t) :: es2) start) ->
  range (use srv (es1 ++ ChooseTimetable (Some t) :: es2) start) = Some (srv_interval srv i t).
Proof.
  intros E N T N1 N2 I. apply in_turn_app, in_turn_cons in T. destruct T as (_ & T). rewrite use_app in *.
  change (use srv (ChooseTimetable (Some t) :: es2) (use srv es1 start)) with (use srv es2 (on_event srv (use srv es1 start) (ChooseTimetable (Some t)))) in *.
  destruct (range_due srv (i, t) es2 _ T N1 N2) as [(l & D)|(_ & D)].
  - cbn [on_event]. unfold load_timetable. rewrite E. destruct i as [|a i]; [congruence|]. cbn [truthy].
    apply (due_same _ _ _ _ (ask (use srv es1 start) (AskTimetable (String a i) (shown (Some t))))); [reflexivity|reflexivity|].
    apply due_new. reflexivity.
  - apply (idle_nil g_timetable for_timetable _ kind_timetable) in I. rewrite I in D. destruct l; discriminate.
  - exact D.
Qed.
Print Assumptions C116_range_partial.
(* A range chosen by hand is in use until another one is chosen or one of a timetable arrives. *)
Theorem C116_by_hand srv es1 a b es2 c : (forall x y, ~ In (ChooseRange x y) es2) ->
  (forall i t, ~ In (AskTimetable i t) (received srv es2 (use srv (es1 ++ [ChooseRange a b]) c))) ->
  range (use srv (es1 ++ ChooseRange a b :: es2) c) = Some (a, b).
Proof.
  rewrite !use_app. change (use srv (ChooseRange a b :: es2) (use srv es1 c)) with (use srv es2 (use srv [ChooseRange a b] (use srv es1 c))).
  assert (E : range (use srv [ChooseRange a b] (use srv es1 c)) = Some (a, b)) by reflexivity.
  revert E. generalize (use srv [ChooseRange a b] (use srv es1 c)). induction es2 as [|e es2 IH]; intros c' E N R; [exact E|].
  change (use srv (e :: es2) c') with (use srv es2 (on_event srv c' e)). apply IH.
  - rewrite <- E. destruct e; cbn [on_event]; try reflexivity.
    + unfold load_infrastructure. destruct (truthy name); reflexivity.
    + unfold load_timetable. destruct (truthy (infra c')); reflexivity.
    + destruct (N _ _ (or_introl eq_refl)).
    + unfold add_station_route. destruct (truthy (infra c')); reflexivity.
    + unfold add_interlocking_route. destruct (truthy (infra c')); reflexivity.
    + unfold type_query. destruct (String.eqb q (query c')); [reflexivity|]. destruct (String.length q <? 3); reflexivity.
    + cbn [received answers] in R. destruct (nth_error (pending c') k) as [r|]; [|reflexivity]. destruct r; try reflexivity.
      destruct (R infra tt (or_introl eq_refl)).
  - intros x y I. apply (N x y). right. exact I.
  - intros i t I. apply (R i t). cbn [received]. apply in_or_app. right. exact I.
Qed.
Print Assumptions C116_by_hand.
(* FINDING.  Answers that overtake each other: everything is answered, nothing failed,
   yet the list offered is that of the infrastructure chosen before. *)
Theorem C116_overtaken_refuted srv a b : a <> "" -> b <> "" ->
  let c := use srv [ChooseInfra (Some a); ChooseInfra (Some b); Answer 1; Answer 0] start in
  infra c = Some b /\ pending c = [] /\ timetables c = srv_timetables srv a.
Proof. intros Na Nb. destruct a; [congruence|]. destruct b; [congruence|]. cbn. auto. Qed.
Print Assumptions C116_overtaken_refuted.
(* FINDING.  Also in turn: with the selection cleared the timetables of the old
   infrastructure are still offered, and its time range stays for the new one. *)
Theorem C116_cleared_refuted srv a b t : a <> "" -> b <> "" ->
  let c := use srv [ChooseInfra (Some a); Answer 0; ChooseTimetable (Some t); Answer 0; ChooseInfra None] start in
  let c' := use srv [ChooseInfra (Some b); Answer 0] c in
  infra c = None /\ pending c = [] /\ timetables c = srv_timetables srv a /\
  infra c' = Some b /\ timetable c' = None /\ pending c' = [] /\ range c' = Some (srv_interval srv a t).
Proof. intros Na Nb. destruct a; [congruence|]. destruct b; [congruence|]. cbn. auto 10. Qed.
Print Assumptions C116_cleared_refuted.
Definition ex_srv : server := mksrv (fun i => [String.append i "1"; String.append i "2"]) (fun i t => (1, 2)%Z) (fun i id => []) (fun i id => []) (fun i q => [q]).
Definition ex_history : list event :=
  [ChooseInfra (Some "a"); Answer 0; ChooseInfra (Some "b"); ShowStationRoute 7; Answer 1; Answer 0; ChooseTimetable (Some "b2"); Answer 0].
Lemma steps_of srv es (P : client -> event -> Prop) : (forall k e, nth_error es k = Some e -> P (use srv (firstn k es) start) e) ->
  forall c' e, step_of srv es start c' e -> P c' e.
Proof.
  revert P. generalize start. induction es as [|e0 es IH]; intros c P H c' e S; inversion S as [x1 x2 x3|x1 x2 x3 x4 x5 S' y1 y2]; subst.
  - apply (H 0 e eq_refl).
  - apply (IH (on_event srv c e0) P); [|exact S']. intros k e1 E. apply (H (Datatypes.S k) e1 E).
Qed.
Lemma in_turn_steps P srv es : (forall k e, nth_error es k = Some e ->
    (forall r, fails (use srv (firstn k es) start) e = Some r -> ~ P r) /\
    (forall k' r, e = Answer k' -> nth_error (pending (use srv (firstn k es) start)) k' = Some r -> P r ->
       forall j r', j < k' -> nth_error (pending (use srv (firstn k es) start)) j = Some r' -> ~ P r')) -> in_turn P srv es start.
Proof.
  exact (steps_of srv es (fun c' e => (forall r, fails c' e = Some r -> ~ P r) /\
    (forall k' r, e = Answer k' -> nth_error (pending c') k' = Some r -> P r ->
       forall j r', j < k' -> nth_error (pending c') j = Some r' -> ~ P r'))).
Qed.
Example ex_C116 : in_turn for_timetables ex_srv ex_history start /\ in_turn for_timetable ex_srv ex_history start /\
  infra (use ex_srv ex_history start) = Some "b" /\ pending (use ex_srv ex_history start) = [] /\
  timetables (use ex_srv ex_history start) = ["b1"; "b2"] /\ range (use ex_srv ex_history start) = Some (1, 2)%Z.
Proof.
  split; [|split]; [| |cbn; auto].
  - apply in_turn_steps. intros k e E.
    destruct k as [|[|[|[|[|[|[|[|k]]]]]]]]; [..|destruct k; discriminate]; injection E as <-; cbn; (split; [discriminate|]);
      intros k0 r [= <-] R (i & ->) j r' L H; (destruct j as [|j]; [|lia]); cbn in R, H; try lia; injection H as <-; try discriminate; intros (i' & [=]).
  - apply in_turn_steps. intros k e E.
    destruct k as [|[|[|[|[|[|[|[|k]]]]]]]]; [..|destruct k; discriminate]; injection E as <-; cbn; (split; [discriminate|]);
      intros k0 r [= <-] R (i & t & ->) j r' L H; cbn in R; try discriminate; lia.
Qed.

(* ---- C117: highlighted routes ---- *)
(* Since a route was hidden last it is drawn once for each answer that brought it. *)
Lemma drawn_app id l1 l2 : drawn id (l1 ++ l2) = drawn id l1 + drawn id l2.
Proof. unfold drawn. rewrite filter_app, app_length. reflexivity. Qed.
Lemma drawn_without id l : drawn id (without id l) = 0.
Proof. induction l as [|f l IH]; [reflexivity|]. unfold without, drawn in *. cbn [filter]. destruct (f_id f =? id) eqn:E; cbn [negb filter]; [exact IH|]. rewrite E. exact IH. Qed.
Lemma drawn_without_other id id' l : id' <> id -> drawn id (without id' l) = drawn id l.
Proof.
  intros N. induction l as [|f l IH]; [reflexivity|]. unfold without, drawn in *. cbn [filter].
  destruct (Nat.eqb_spec (f_id f) id'), (Nat.eqb_spec (f_id f) id); cbn [negb filter List.length]; try congruence; try exact IH.
  - destruct (Nat.eqb_spec (f_id f) id); [|congruence]. cbn [List.length]. f_equal. exact IH.
  - destruct (Nat.eqb_spec (f_id f) id); [congruence|]. exact IH.
Qed.
Lemma brought_app id l1 l2 : brought id (l1 ++ l2) = brought id l1 + brought id l2.
Proof. unfold brought. rewrite filter_app, app_length. reflexivity. Qed.
Lemma brought_interlocking_app id l1 l2 : brought_interlocking id (l1 ++ l2) = brought_interlocking id l1 + brought_interlocking id l2.
Proof. unfold brought_interlocking. rewrite filter_app, app_length. reflexivity. Qed.
Lemma received_drawn srv id es : forall c, ~ In (HideStationRoute id) es ->
  drawn id (station_routes (use srv es c)) = drawn id (station_routes c) + brought id (received srv es c).
Proof.
  induction es as [|e es IH]; intros c N; [symmetry; apply Nat.add_0_r|]. cbn [received]. rewrite brought_app, Nat.add_assoc.
  change (use srv (e :: es) c) with (use srv es (on_event srv c e)).
  rewrite IH by (intros H; apply N; right; exact H). f_equal. destruct e; cbn [on_event answers].
  - unfold load_infrastructure. destruct (truthy name); symmetry; apply Nat.add_0_r.
  - unfold load_timetable. destruct (truthy (infra c)); symmetry; apply Nat.add_0_r.
  - symmetry; apply Nat.add_0_r.
  - unfold add_station_route. destruct (truthy (infra c)); symmetry; apply Nat.add_0_r.
  - cbn [station_routes delete_station_route set_station_routes].
    rewrite drawn_without_other by (intros ->; apply N; left; reflexivity). symmetry; apply Nat.add_0_r.
  - unfold add_interlocking_route. destruct (truthy (infra c)); symmetry; apply Nat.add_0_r.
  - symmetry; apply Nat.add_0_r.
  - unfold type_query. destruct (String.eqb q (query c)); [symmetry; apply Nat.add_0_r|]. destruct (String.length q <? 3); symmetry; apply Nat.add_0_r.
  - destruct (nth_error (pending c) k) as [r|]; [|symmetry; apply Nat.add_0_r]. destruct r; cbn [receive station_routes set_station_routes set_pending set_timetables set_range set_interlocking_routes set_results]; try (symmetry; apply Nat.add_0_r).
    rewrite drawn_app. f_equal. unfold drawn, brought. cbn [filter f_id]. destruct (id0 =? id); reflexivity.
  - symmetry; apply Nat.add_0_r.
Qed.
Lemma received_drawn_interlocking srv id es : forall c, ~ In (HideInterlockingRoute id) es ->
  drawn id (interlocking_routes (use srv es c)) = drawn id (interlocking_routes c) + brought_interlocking id (received srv es c).
Proof.
  induction es as [|e es IH]; intros c N; [symmetry; apply Nat.add_0_r|]. cbn [received]. rewrite brought_interlocking_app, Nat.add_assoc.
  change (use srv (e :: es) c) with (use srv es (on_event srv c e)).
  rewrite IH by (intros H; apply N; right; exact H). f_equal. destruct e; cbn [on_event answers].
  - unfold load_infrastructure. destruct (truthy name); symmetry; apply Nat.add_0_r.
  - unfold load_timetable. destruct (truthy (infra c)); symmetry; apply Nat.add_0_r.
  - symmetry; apply Nat.add_0_r.
  - unfold add_station_route. destruct (truthy (infra c)); symmetry; apply Nat.add_0_r.
  - symmetry; apply Nat.add_0_r.
  - unfold add_interlocking_route. destruct (truthy (infra c)); symmetry; apply Nat.add_0_r.
  - cbn [interlocking_routes delete_interlocking_route set_interlocking_routes].
    rewrite drawn_without_other by (intros ->; apply N; left; reflexivity). symmetry; apply Nat.add_0_r.
  - unfold type_query. destruct (String.eqb q (query c)); [symmetry; apply Nat.add_0_r|]. destruct (String.length q <? 3); symmetry; apply Nat.add_0_r.
  - destruct (nth_error (pending c) k) as [r|]; [|symmetry; apply Nat.add_0_r]. destruct r; cbn [receive interlocking_routes set_station_routes set_pending set_timetables set_range set_interlocking_routes set_results]; try (symmetry; apply Nat.add_0_r).
    rewrite drawn_app. f_equal. unfold drawn, brought_interlocking. cbn [filter f_id]. destruct (id0 =? id); reflexivity.
  - symmetry; apply Nat.add_0_r.
Qed.
Theorem C117_drawn srv es id :
  (~ In (HideStationRoute id) es -> drawn id (station_routes (use srv es start)) = brought id (received srv es start)) /\
  (forall es1 es2, es = es1 ++ HideStationRoute id :: es2 -> ~ In (HideStationRoute id) es2 ->
    drawn id (station_routes (use srv es start)) = brought id (received srv es2 (use srv (es1 ++ [HideStationRoute id]) start))).
Proof.
  split.
  - intros N. rewrite received_drawn by exact N. reflexivity.
  - intros es1 es2 -> N. replace (es1 ++ HideStationRoute id :: es2) with ((es1 ++ [HideStationRoute id]) ++ es2) by (rewrite <- app_assoc; reflexivity).
    rewrite use_app, received_drawn by exact N. rewrite use_app. cbn [use fold_left on_event].
    change (drawn id (without id (station_routes (use srv es1 start))) + brought id (received srv es2 (delete_station_route (use srv es1 start) id)) = brought id (received srv es2 (delete_station_route (use srv es1 start) id))).
    rewrite drawn_without. reflexivity.
Qed.
Print Assumptions C117_drawn.
Theorem C117_drawn_interlocking srv es id :
  (~ In (HideInterlockingRoute id) es -> drawn id (interlocking_routes (use srv es start)) = brought_interlocking id (received srv es start)) /\
  (forall es1 es2, es = es1 ++ HideInterlockingRoute id :: es2 -> ~ In (HideInterlockingRoute id) es2 ->
    drawn id (interlocking_routes (use srv es start)) = brought_interlocking id (received srv es2 (use srv (es1 ++ [HideInterlockingRoute id]) start))).
Proof.
  split.
  - intros N. rewrite received_drawn_interlocking by exact N. reflexivity.
  - intros es1 es2 -> N. replace (es1 ++ HideInterlockingRoute id :: es2) with ((es1 ++ [HideInterlockingRoute id]) ++ es2) by (rewrite <- app_assoc; reflexivity).
    rewrite use_app, received_drawn_interlocking by exact N. rewrite use_app. cbn [use fold_left on_event].
    change (drawn id (without id (interlocking_routes (use srv es1 start))) + brought_interlocking id (received srv es2 (delete_interlocking_route (use srv es1 start) id)) = brought_interlocking id (received srv es2 (delete_interlocking_route (use srv es1 start) id))).
    rewrite drawn_without. reflexivity.
Qed.
Print Assumptions C117_drawn_interlocking.
(* Hidden while no request for it is pending, a route stays hidden until it is shown again. *)
Definition asked (id : nat) (r : request) : Prop := exists i, r = AskStationRoute i id.
Lemma drop_nth_in {A} (l : list A) : forall k x, In x (drop_nth k l) -> In x l.
Proof. induction l as [|a l IH]; intros [|k] x H; try exact H; [right; exact H|]. destruct H as [<-|H]; [left; reflexivity|right; exact (IH k x H)]. Qed.
Lemma idle_step srv id c e : e <> ShowStationRoute id -> idle (asked id) c -> idle (asked id) (on_event srv c e).
Proof.
  intros N I. intros r H. assert (K : In r (pending c) \/ (exists i, r = AskTimetables i) \/ (exists i t, r = AskTimetable i t) \/ (exists i id', r = AskStationRoute i id' /\ e = ShowStationRoute id') \/
        (exists i id', r = AskInterlockingRoute i id') \/ (exists i q, r = AskSearch i q)).
    { destruct e; cbn [on_event] in H; try (left; exact H).
      - unfold load_infrastructure in H. destruct (truthy name); [|left; exact H]. apply in_app_or in H. destruct H as [H|[<-|[]]]; [left; exact H|eauto].
      - unfold load_timetable in H. destruct (truthy (infra c)); [|left; exact H]. apply in_app_or in H. destruct H as [H|[<-|[]]]; [left; exact H|eauto 6].
      - unfold add_station_route in H. destruct (truthy (infra c)); [|left; exact H]. apply in_app_or in H. destruct H as [H|[<-|[]]]; [left; exact H|]. do 3 right. left. eauto.
      - unfold add_interlocking_route in H. destruct (truthy (infra c)); [|left; exact H]. apply in_app_or in H. destruct H as [H|[<-|[]]]; [left; exact H|]. eauto 8.
      - unfold type_query in H. destruct (String.eqb q (query c)); [left; exact H|]. destruct (String.length q <? 3); [left; exact H|].
        apply in_app_or in H. destruct H as [H|[<-|[]]]; [left; exact H|]. eauto 10.
      - left. destruct (nth_error (pending c) k) as [r0|]; [|exact H]. rewrite receive_pending in H. apply (drop_nth_in _ k). exact H.
      - left. apply (drop_nth_in _ k). exact H. }
    destruct K as [K|[(i & ->)|[(i & t & ->)|[(i & id' & -> & ->)|[(i & id' & ->)|(i & q & ->)]]]]]; [exact (I r K)|..]; intros (i' & [=]).
    subst. apply N. reflexivity.
Qed.
Lemma unasked srv id es : forall c, ~ In (ShowStationRoute id) es -> idle (asked id) c -> brought id (received srv es c) = 0.
Proof.
  induction es as [|e es IH]; intros c N I; [reflexivity|]. cbn [received]. rewrite brought_app.
  assert (I' : idle (asked id) (on_event srv c e)) by (apply idle_step; [intros ->; apply N; left; reflexivity|exact I]).
  rewrite IH; [|intros H; apply N; right; exact H|exact I'].
  destruct (answers c e) as [r|] eqn:A; [|reflexivity]. unfold answers in A. destruct e; try discriminate.
  assert (K := I r (nth_error_In _ _ A)). destruct r; try reflexivity. unfold brought. cbn [filter].
  destruct (Nat.eqb_spec id0 id); [|reflexivity]. exfalso. apply K. exists infra. subst. reflexivity.
Qed.
Theorem C117_hidden_partial srv es1 id es2 : idle (asked id) (use srv es1 start) -> ~ In (ShowStationRoute id) es2 ->
  drawn id (station_routes (use srv (es1 ++ HideStationRoute id :: es2) start)) = 0.
Proof.
  intros I N. rewrite use_app. change (use srv (HideStationRoute id :: es2) (use srv es1 start)) with (use srv es2 (on_event srv (use srv es1 start) (HideStationRoute id))).
  assert (D : drawn id (station_routes (on_event srv (use srv es1 start) (HideStationRoute id))) = 0) by apply drawn_without.
  assert (I' : idle (asked id) (on_event srv (use srv es1 start) (HideStationRoute id))) by exact I.
  revert D I' N. generalize (on_event srv (use srv es1 start) (HideStationRoute id)). clear I.
  induction es2 as [|e es2 IH]; intros c D I N; [exact D|]. apply IH.
  - assert (H : e = HideStationRoute id \/ ~ In (HideStationRoute id) [e]).
    { destruct e; try (right; intros [H|[]]; discriminate). destruct (Nat.eq_dec id0 id) as [->|Ne]; [left; reflexivity|].
      right. intros [[= H]|[]]. exact (Ne H). }
    destruct H as [->|H]; [apply drawn_without|]. change (on_event srv c e) with (use srv [e] c).
    rewrite received_drawn by exact H. rewrite D. apply unasked; [|exact I]. intros [->|[]]. apply N. left. reflexivity.
  - apply idle_step; [intros ->; apply N; left; reflexivity|exact I].
  - intros H. apply N. right. exact H.
Qed.
Print Assumptions C117_hidden_partial.
(* What is drawn are the points of the route in the infrastructure it was asked from. *)
Theorem C117_points srv es f : In f (station_routes (use srv es start)) ->
  exists i, In (AskStationRoute i (f_id f)) (received srv es start) /\ f_points f = srv_station_route srv i (f_id f).
Proof.
  assert (K : forall c, In f (station_routes (use srv es c)) -> In f (station_routes c) \/
    exists i, In (AskStationRoute i (f_id f)) (received srv es c) /\ f_points f = srv_station_route srv i (f_id f)).
  { induction es as [|e es IH]; intros c H; [left; exact H|].
    destruct (IH (on_event srv c e) H) as [H'|(i & I & P)]; [|right; exists i; split; [cbn [received]; apply in_or_app; right; exact I|exact P]].
    destruct e; cbn [on_event] in H'; try (left; exact H').
    - left. unfold load_infrastructure in H'. destruct (truthy name); exact H'.
    - left. unfold load_timetable in H'. destruct (truthy (infra c)); exact H'.
    - left. unfold add_station_route in H'. destruct (truthy (infra c)); exact H'.
    - left. apply filter_In in H'. apply H'.
    - left. unfold add_interlocking_route in H'. destruct (truthy (infra c)); exact H'.
    - left. unfold type_query in H'. destruct (String.eqb q (query c)); [exact H'|]. destruct (String.length q <? 3); exact H'.
    - cbn [received answers]. destruct (nth_error (pending c) k) as [r|]; [|left; exact H']. destruct r; try (left; exact H').
      apply in_app_or in H'. destruct H' as [H'|[<-|[]]]; [left; exact H'|]. right. exists infra. split; [left; reflexivity|reflexivity]. }
  intros H. destruct (K start H) as [[]|H']. exact H'.
Qed.
Print Assumptions C117_points.
Definition asked_interlocking (id : nat) (r : request) : Prop := exists i, r = AskInterlockingRoute i id.
Lemma idle_step_interlocking srv id c e : e <> ShowInterlockingRoute id -> idle (asked_interlocking id) c -> idle (asked_interlocking id) (on_event srv c e).
Proof.
  intros N I. intros r H. assert (K : In r (pending c) \/ (exists i, r = AskTimetables i) \/ (exists i t, r = AskTimetable i t) \/ (exists i id', r = AskInterlockingRoute i id' /\ e = ShowInterlockingRoute id') \/
        (exists i id', r = AskStationRoute i id') \/ (exists i q, r = AskSearch i q)).
    { destruct e; cbn [on_event] in H; try (left; exact H).
      - unfold load_infrastructure in H. destruct (truthy name); [|left; exact H]. apply in_app_or in H. destruct H as [H|[<-|[]]]; [left; exact H|eauto].
      - unfold load_timetable in H. destruct (truthy (infra c)); [|left; exact H]. apply in_app_or in H. destruct H as [H|[<-|[]]]; [left; exact H|eauto 6].
      - unfold add_station_route in H. destruct (truthy (infra c)); [|left; exact H]. apply in_app_or in H. destruct H as [H|[<-|[]]]; [left; exact H|]. eauto 8.
      - unfold add_interlocking_route in H. destruct (truthy (infra c)); [|left; exact H]. apply in_app_or in H. destruct H as [H|[<-|[]]]; [left; exact H|]. do 3 right. left. eauto.
      - unfold type_query in H. destruct (String.eqb q (query c)); [left; exact H|]. destruct (String.length q <? 3); [left; exact H|].
        apply in_app_or in H. destruct H as [H|[<-|[]]]; [left; exact H|]. eauto 10.
      - left. destruct (nth_error (pending c) k) as [r0|]; [|exact H]. rewrite receive_pending in H. apply (drop_nth_in _ k). exact H.
      - left. apply (drop_nth_in _ k). exact H. }
    destruct K as [K|[(i & ->)|[(i & t & ->)|[(i & id' & -> & ->)|[(i & id' & ->)|(i & q & ->)]]]]]; [exact (I r K)|..]; intros (i' & [=]).
    subst. apply N. reflexivity.
Qed.
Lemma unasked_interlocking srv id es : forall c, ~ In (ShowInterlockingRoute id) es -> idle (asked_interlocking id) c -> brought_interlocking id (received srv es c) = 0.
Proof.
  induction es as [|e es IH]; intros c N I; [reflexivity|]. cbn [received]. rewrite brought_interlocking_app.
  assert (I' : idle (asked_interlocking id) (on_event srv c e)) by (apply idle_step_interlocking; [intros ->; apply N; left; reflexivity|exact I]).
  rewrite IH; [|intros H; apply N; right; exact H|exact I'].
  destruct (answers c e) as [r|] eqn:A; [|reflexivity]. unfold answers in A. destruct e; try discriminate.
  assert (K := I r (nth_error_In _ _ A)). destruct r; try reflexivity. unfold brought_interlocking. cbn [filter].
  destruct (Nat.eqb_spec id0 id); [|reflexivity]. exfalso. apply K. exists infra. subst. reflexivity.
Qed.
Theorem C117_hidden_interlocking_partial srv es1 id es2 : idle (asked_interlocking id) (use srv es1 start) -> ~ In (ShowInterlockingRoute id) es2 ->
  drawn id (interlocking_routes (use srv (es1 ++ HideInterlockingRoute id :: es2) start)) = 0.
Proof.
  intros I N. rewrite use_app. change (use srv (HideInterlockingRoute id :: es2) (use srv es1 start)) with (use srv es2 (on_event srv (use srv es1 start) (HideInterlockingRoute id))).
  assert (D : drawn id (interlocking_routes (on_event srv (use srv es1 start) (HideInterlockingRoute id))) = 0) by apply drawn_without.
  assert (I' : idle (asked_interlocking id) (on_event srv (use srv es1 start) (HideInterlockingRoute id))) by exact I.
  revert D I' N. generalize (on_event srv (use srv es1 start) (HideInterlockingRoute id)). clear I.
  induction es2 as [|e es2 IH]; intros c D I N; [exact D|]. apply IH.
  - assert (H : e = HideInterlockingRoute id \/ ~ In (HideInterlockingRoute id) [e]).
    { destruct e; try (right; intros [H|[]]; discriminate). destruct (Nat.eq_dec id0 id) as [->|Ne]; [left; reflexivity|].
      right. intros [[= H]|[]]. exact (Ne H). }
    destruct H as [->|H]; [apply drawn_without|]. change (on_event srv c e) with (use srv [e] c).
    rewrite received_drawn_interlocking by exact H. rewrite D. apply unasked_interlocking; [|exact I]. intros [->|[]]. apply N. left. reflexivity.
  - apply idle_step_interlocking; [intros ->; apply N; left; reflexivity|exact I].
  - intros H. apply N. right. exact H.
Qed.
Print Assumptions C117_hidden_interlocking_partial.
(* What is drawn are the points of the route in the infrastructure it was asked_interlocking from. *)
Theorem C117_points_interlocking srv es f : In f (interlocking_routes (use srv es start)) ->
  exists i, In (AskInterlockingRoute i (f_id f)) (received srv es start) /\ f_points f = srv_interlocking_route srv i (f_id f).
Proof.
  assert (K : forall c, In f (interlocking_routes (use srv es c)) -> In f (interlocking_routes c) \/
    exists i, In (AskInterlockingRoute i (f_id f)) (received srv es c) /\ f_points f = srv_interlocking_route srv i (f_id f)).
  { induction es as [|e es IH]; intros c H; [left; exact H|].
    destruct (IH (on_event srv c e) H) as [H'|(i & I & P)]; [|right; exists i; split; [cbn [received]; apply in_or_app; right; exact I|exact P]].
    destruct e; cbn [on_event] in H'; try (left; exact H').
    - left. unfold load_infrastructure in H'. destruct (truthy name); exact H'.
    - left. unfold load_timetable in H'. destruct (truthy (infra c)); exact H'.
    - left. unfold add_station_route in H'. destruct (truthy (infra c)); exact H'.
    - left. unfold add_interlocking_route in H'. destruct (truthy (infra c)); exact H'.
    - left. apply filter_In in H'. apply H'.
    - left. unfold type_query in H'. destruct (String.eqb q (query c)); [exact H'|]. destruct (String.length q <? 3); exact H'.
    - cbn [received answers]. destruct (nth_error (pending c) k) as [r|]; [|left; exact H']. destruct r; try (left; exact H').
      apply in_app_or in H'. destruct H' as [H'|[<-|[]]]; [left; exact H'|]. right. exists infra. split; [left; reflexivity|reflexivity]. }
  intros H. destruct (K start H) as [[]|H']. exact H'.
Qed.
Print Assumptions C117_points_interlocking.
(* Every choice of a route is one request for it, in the infrastructure chosen at this moment,
   and every request is answered, lost, or still pending. *)
Lemma count_drop id l : forall k r, nth_error l k = Some r -> brought id l = brought id [r] + brought id (drop_nth k l).
Proof.
  induction l as [|a l IH]; intros [|k] r E; try discriminate; cbn [nth_error drop_nth] in *.
  - injection E as ->. rewrite <- brought_app. reflexivity.
  - change (a :: l) with ([a] ++ l). change (a :: drop_nth k l) with ([a] ++ drop_nth k l). rewrite !brought_app, (IH k r E). lia.
Qed.
Lemma drop_nth_none {A} (l : list A) : forall k, nth_error l k = None -> drop_nth k l = l.
Proof. induction l as [|a l IH]; intros [|k] E; try discriminate; try reflexivity. cbn. f_equal. apply IH, E. Qed.
Theorem C117_accounted srv id es :
  shown_routes srv id es start = brought id (received srv es start) + brought id (lost srv es start) + brought id (pending (use srv es start)).
Proof.
  assert (K : forall c, brought id (pending c) + shown_routes srv id es c = brought id (received srv es c) + brought id (lost srv es c) + brought id (pending (use srv es c))).
  { induction es as [|e es IH]; intros c; [cbn [shown_routes received lost use fold_left]; change (brought id []) with 0; lia|].
    cbn [shown_routes received lost]. rewrite !brought_app. change (use srv (e :: es) c) with (use srv es (on_event srv c e)).
    specialize (IH (on_event srv c e)).
    enough (brought id (pending c) + match e with ShowStationRoute id' => if (id' =? id) && chosen c then 1 else 0 | _ => 0 end =
      brought id match answers c e with Some r => [r] | None => [] end + brought id match fails c e with Some r => [r] | None => [] end + brought id (pending (on_event srv c e))) by lia.
    clear IH. change (brought id []) with 0. destruct e; cbn [on_event answers fails]; change (brought id []) with 0.
    - unfold load_infrastructure. destruct (truthy name); cbn [pending ask set_infra set_timetable]; rewrite ?brought_app; try match goal with |- context [brought id [?r]] => change (brought id [r]) with 0 end; lia.
    - unfold load_timetable. destruct (truthy (infra c)); cbn [pending ask set_infra set_timetable]; rewrite ?brought_app; try match goal with |- context [brought id [?r]] => change (brought id [r]) with 0 end; lia.
    - cbn [pending set_range]. lia.
    - unfold add_station_route, chosen, truthy. destruct (infra c) as [[|a i]|]; cbn [negb String.eqb pending ask]; rewrite ?andb_false_r, ?andb_true_r, ?brought_app; try lia.
      unfold brought at 3. cbn [filter]. destruct (id0 =? id); cbn [List.length]; lia.
    - cbn [pending delete_station_route set_station_routes]. lia.
    - unfold add_interlocking_route. destruct (truthy (infra c)); cbn [pending ask]; rewrite ?brought_app; try match goal with |- context [brought id [?r]] => change (brought id [r]) with 0 end; lia.
    - cbn [pending delete_interlocking_route set_interlocking_routes]. lia.
    - unfold type_query. destruct (String.eqb q (query c)); [lia|]. destruct (String.length q <? 3); cbn [pending ask set_query set_results]; rewrite ?brought_app; try match goal with |- context [brought id [?r]] => change (brought id [r]) with 0 end; lia.
    - destruct (nth_error (pending c) k) as [r|] eqn:E; [|change (brought id []) with 0; lia]. rewrite receive_pending. cbn [pending set_pending].
      rewrite (count_drop id _ _ _ E). lia.
    - cbn [pending set_pending]. destruct (nth_error (pending c) k) as [r|] eqn:E; [rewrite (count_drop id _ _ _ E); lia|].
      change (brought id []) with 0. rewrite (drop_nth_none _ _ E). lia. }
  rewrite <- K. reflexivity.
Qed.
Print Assumptions C117_accounted.
Theorem C117_asked srv c id i : infra c = Some i -> i <> "" ->
  pending (on_event srv c (ShowStationRoute id)) = pending c ++ [AskStationRoute i id] /\
  pending (on_event srv c (ShowInterlockingRoute id)) = pending c ++ [AskInterlockingRoute i id].
Proof. intros E N. cbn [on_event]. unfold add_station_route, add_interlocking_route. rewrite E. destruct i; [congruence|]. split; reflexivity. Qed.
Print Assumptions C117_asked.
Lemma count_drop_interlocking id l : forall k r, nth_error l k = Some r -> brought_interlocking id l = brought_interlocking id [r] + brought_interlocking id (drop_nth k l).
Proof.
  induction l as [|a l IH]; intros [|k] r E; try discriminate; cbn [nth_error drop_nth] in *.
  - injection E as ->. rewrite <- brought_interlocking_app. reflexivity.
  - change (a :: l) with ([a] ++ l). change (a :: drop_nth k l) with ([a] ++ drop_nth k l). rewrite !brought_interlocking_app, (IH k r E). lia.
Qed.
Theorem C117_accounted_interlocking srv id es :
  shown_interlocking srv id es start = brought_interlocking id (received srv es start) + brought_interlocking id (lost srv es start) + brought_interlocking id (pending (use srv es start)).
Proof.
  assert (K : forall c, brought_interlocking id (pending c) + shown_interlocking srv id es c = brought_interlocking id (received srv es c) + brought_interlocking id (lost srv es c) + brought_interlocking id (pending (use srv es c))).
  { induction es as [|e es IH]; intros c; [cbn [shown_interlocking received lost use fold_left]; change (brought_interlocking id []) with 0; lia|].
    cbn [shown_interlocking received lost]. rewrite !brought_interlocking_app. change (use srv (e :: es) c) with (use srv es (on_event srv c e)).
    specialize (IH (on_event srv c e)).
    enough (brought_interlocking id (pending c) + match e with ShowInterlockingRoute id' => if (id' =? id) && chosen c then 1 else 0 | _ => 0 end =
      brought_interlocking id match answers c e with Some r => [r] | None => [] end + brought_interlocking id match fails c e with Some r => [r] | None => [] end + brought_interlocking id (pending (on_event srv c e))) by lia.
    clear IH. change (brought_interlocking id []) with 0. destruct e; cbn [on_event answers fails]; change (brought_interlocking id []) with 0.
    - unfold load_infrastructure. destruct (truthy name); cbn [pending ask set_infra set_timetable]; rewrite ?brought_interlocking_app; try match goal with |- context [brought_interlocking id [?r]] => change (brought_interlocking id [r]) with 0 end; lia.
    - unfold load_timetable. destruct (truthy (infra c)); cbn [pending ask set_infra set_timetable]; rewrite ?brought_interlocking_app; try match goal with |- context [brought_interlocking id [?r]] => change (brought_interlocking id [r]) with 0 end; lia.
    - cbn [pending set_range]. lia.
    - unfold add_station_route. destruct (truthy (infra c)); cbn [pending ask]; rewrite ?brought_interlocking_app; try match goal with |- context [brought_interlocking id [?r]] => change (brought_interlocking id [r]) with 0 end; lia.
    - cbn [pending delete_station_route set_station_routes]. lia.
    - unfold add_interlocking_route, chosen, truthy. destruct (infra c) as [[|a i]|]; cbn [negb String.eqb pending ask]; rewrite ?andb_false_r, ?andb_true_r, ?brought_interlocking_app; try lia.
      unfold brought_interlocking at 3. cbn [filter]. destruct (id0 =? id); cbn [List.length]; lia.
    - cbn [pending delete_interlocking_route set_interlocking_routes]. lia.
    - unfold type_query. destruct (String.eqb q (query c)); [lia|]. destruct (String.length q <? 3); cbn [pending ask set_query set_results]; rewrite ?brought_interlocking_app; try match goal with |- context [brought_interlocking id [?r]] => change (brought_interlocking id [r]) with 0 end; lia.
    - destruct (nth_error (pending c) k) as [r|] eqn:E; [|change (brought_interlocking id []) with 0; lia]. rewrite receive_pending. cbn [pending set_pending].
      rewrite (count_drop_interlocking id _ _ _ E). lia.
    - cbn [pending set_pending]. destruct (nth_error (pending c) k) as [r|] eqn:E; [rewrite (count_drop_interlocking id _ _ _ E); lia|].
      change (brought_interlocking id []) with 0. rewrite (drop_nth_none _ _ E). lia. }
  rewrite <- K. reflexivity.
Qed.
Print Assumptions C117_accounted_interlocking.
(* FINDING.  Hidden before the answer is there, a route is drawn for good. *)
Theorem C117_late_refuted srv a id : a <> "" ->
  let c := use srv [ChooseInfra (Some a); Answer 0; ShowStationRoute id; HideStationRoute id; Answer 0] start in
  pending c = [] /\ drawn id (station_routes c) = 1.
Proof. intros Na. destruct a; [congruence|]. cbn. rewrite Nat.eqb_refl. auto. Qed.
Print Assumptions C117_late_refuted.
(* FINDING.  Routes of one infrastructure stay when another one is chosen. *)
Theorem C117_foreign_refuted srv a b id : a <> "" -> b <> "" ->
  let c := use srv [ChooseInfra (Some a); Answer 0; ShowStationRoute id; Answer 0; ChooseInfra (Some b); Answer 0] start in
  infra c = Some b /\ pending c = [] /\ station_routes c = [mkf id (srv_station_route srv a id)].
Proof. intros Na Nb. destruct a; [congruence|]. destruct b; [congruence|]. cbn. auto. Qed.
Print Assumptions C117_foreign_refuted.
Example ex_C117 : let es := [ChooseInfra (Some "a"); ShowStationRoute 7; ShowStationRoute 7; Answer 1; ShowStationRoute 8; Answer 1; Answer 1] in
  drawn 7 (station_routes (use ex_srv es start)) = 2 /\ brought 7 (received ex_srv es start) = 2 /\
  idle (asked 7) (use ex_srv es start) /\ drawn 7 (station_routes (use ex_srv (es ++ [HideStationRoute 7; Answer 0]) start)) = 0.
Proof.
  intros es. split; [vm_compute; reflexivity|]. split; [vm_compute; reflexivity|]. split; [|vm_compute; reflexivity].
  replace (use ex_srv es start) with (mkc (Some "a") [] None None [mkf 7 []; mkf 7 []; mkf 8 []] [] [] "" [AskTimetables "a"]) by (vm_compute; reflexivity).
  intros r [<-|[]]. intros (i & [=]).
Qed.

(* ---- C118: the search field ---- *)
(* If no search is pending when the text is changed, the results shown are those of the
   text as soon as none is pending again. *)
Theorem C118_results_partial srv es1 q es2 :
  let c := use srv es1 start in let c' := use srv (es1 ++ Type_ q :: es2) start in
  idle for_search c -> q <> query c -> (forall q', ~ In (Type_ q') es2) -> in_turn for_search srv (es1 ++ Type_ q :: es2) start ->
  idle for_search c' -> query c' = q /\
  results c' = if String.length q <? 3 then [] else srv_search srv (match infra c with Some i => i | None => "undefined" end) q.
Proof.
  intros c c' I NQ N T I'. split.
  - unfold c'. rewrite use_app. fold c. change (use srv (Type_ q :: es2) c) with (use srv es2 (type_query c q)).
    assert (E : query (type_query c q) = q).
    { unfold type_query. destruct (String.eqb_spec q (query c)); [congruence|]. destruct (String.length q <? 3); reflexivity. }
    revert E N. generalize (type_query c q). clear. induction es2 as [|e es2 IH]; intros c E N; [exact E|].
    apply IH; [|intros q' H; apply (N q'); right; exact H]. rewrite <- E. destruct e; cbn [on_event]; try reflexivity.
    + unfold load_infrastructure. destruct (truthy name); reflexivity.
    + unfold load_timetable. destruct (truthy (infra c)); reflexivity.
    + unfold add_station_route. destruct (truthy (infra c)); reflexivity.
    + unfold add_interlocking_route. destruct (truthy (infra c)); reflexivity.
    + destruct (N _ (or_introl eq_refl)).
    + destruct (nth_error (pending c) k) as [r|]; [destruct r|]; reflexivity.
  - apply in_turn_app, in_turn_cons in T. destruct T as (_ & T). fold c in T. cbn [on_event] in T.
    unfold c' in *. rewrite use_app in *. fold c in I' |- *. change (use srv (Type_ q :: es2) c) with (use srv es2 (type_query c q)) in *.
    apply (idle_nil g_search for_search _ kind_search) in I, I'.
    unfold type_query in *. destruct (String.eqb_spec q (query c)); [congruence|].
    destruct (String.length q <? 3) eqn:L.
    + assert (E : results (set_results (set_query c q) []) = [] /\ pick g_search (pending (set_results (set_query c q) [])) = []) by (split; [reflexivity|exact I]).
      revert E T N. generalize (set_results (set_query c q) []). clear. induction es2 as [|e es2 IH]; intros c (E1 & E2) T N; [exact E1|].
      apply in_turn_cons in T. apply IH; [|apply T|intros q' H; apply (N q'); right; exact H]. destruct T as ((F & O) & _).
      destruct e; cbn [on_event]; try (split; assumption).
      * unfold load_infrastructure. destruct (truthy name) as [n|]; [|split; assumption]. split; [exact E1|]. rewrite <- E2. exact (ask_other g_search c (AskTimetables n) eq_refl).
      * unfold load_timetable. destruct (truthy (infra c)) as [n|]; [|split; assumption]. split; [exact E1|]. rewrite <- E2. exact (ask_other g_search c (AskTimetable n (shown name)) eq_refl).
      * unfold add_station_route. destruct (truthy (infra c)) as [n|]; [|split; assumption]. split; [exact E1|]. rewrite <- E2. exact (ask_other g_search c (AskStationRoute n id) eq_refl).
      * unfold add_interlocking_route. destruct (truthy (infra c)) as [n|]; [|split; assumption]. split; [exact E1|]. rewrite <- E2. exact (ask_other g_search c (AskInterlockingRoute n id) eq_refl).
      * destruct (N _ (or_introl eq_refl)).
      * destruct (nth_error (pending c) k) as [r|] eqn:E; [|split; assumption]. rewrite receive_pending. cbn [pending set_pending].
        assert (G : g_search r = None) by (rewrite pick_nil in E2; apply E2, (nth_error_In _ k), E).
        rewrite (pick_drop_other _ _ k r E G). split; [|exact E2]. destruct r; try exact E1. discriminate.
      * split; [exact E1|]. cbn [pending set_pending]. destruct (nth_error (pending c) k) as [r|] eqn:E.
        -- rewrite (pick_drop_other _ _ k r E); [exact E2|]. rewrite pick_nil in E2. apply E2, (nth_error_In _ k), E.
        -- apply pick_nil. intros r H. rewrite pick_nil in E2. apply E2, (drop_nth_in _ k), H.
    + destruct (search_due srv (shown (infra c), q) es2 _ T N) as [(l & D)|(_ & D)].
      * apply due_new. reflexivity.
      * rewrite I' in D. destruct l; discriminate.
      * rewrite D. cbn [fst snd]. unfold shown. destruct (infra c); reflexivity.
Qed.
Print Assumptions C118_results_partial.
(* FINDING.  A search still pending when the text is deleted shows its results for the
   empty text, although answers come in turn and none fails. *)
Theorem C118_late_refuted srv i q : i <> "" -> 3 <= String.length q ->
  let es := [ChooseInfra (Some i); Answer 0; Type_ q; Type_ ""; Answer 0] in let c := use srv es start in
  in_turn for_search srv es start /\ query c = "" /\ pending c = [] /\ results c = srv_search srv i q.
Proof.
  intros Ni L. destruct i as [|a i]; [congruence|]. destruct q as [|q1 [|q2 [|q3 q]]]; cbn in L; try lia. cbn [use fold_left on_event].
  split; [|cbn; auto]. apply in_turn_steps. intros k e E.
  destruct k as [|[|[|[|[|k]]]]]; [..|destruct k; discriminate]; injection E as <-; cbn; (split; [discriminate|]);
    intros k0 r [= <-] R P j r' L' H; lia.
Qed.
Print Assumptions C118_late_refuted.
(* FINDING.  So do two searches whose answers overtake each other. *)
Theorem C118_overtaken_refuted srv i q q' : i <> "" -> 3 <= String.length q -> 3 <= String.length q' -> q <> q' ->
  let c := use srv [ChooseInfra (Some i); Answer 0; Type_ q; Type_ q'; Answer 1; Answer 0] start in
  query c = q' /\ pending c = [] /\ results c = srv_search srv i q.
Proof.
  intros Ni L L' Nq. destruct i as [|a i]; [congruence|]. cbn [use fold_left on_event load_infrastructure truthy].
  unfold type_query. replace (String.eqb q (query _)) with false by (destruct q; [cbn in L; lia|reflexivity]).
  replace (String.length q <? 3) with false by (symmetry; apply Nat.ltb_ge; exact L).
  replace (String.length q' <? 3) with false by (symmetry; apply Nat.ltb_ge; exact L'). cbn [query ask set_query].
  destruct (String.eqb_spec q' q); [congruence|]. cbn. auto.
Qed.
Print Assumptions C118_overtaken_refuted.
Example ex_C118 : let es := [ChooseInfra (Some "a"); Answer 0; Type_ "abc"; Answer 0] in
  results (use ex_srv es start) = ["abc"] /\ idle for_search (use ex_srv es start) /\ in_turn for_search ex_srv (es ++ [Type_ "abcd"; Answer 0]) start /\
  results (use ex_srv (es ++ [Type_ "abcd"; Answer 0]) start) = ["abcd"].
Proof.
  cbn [app]. split; [reflexivity|]. split; [intros r []|]. split; [|reflexivity]. apply in_turn_steps. intros k e E.
  destruct k as [|[|[|[|[|[|k]]]]]]; [..|destruct k; discriminate]; injection E as <-; cbn; (split; [discriminate|]);
    intros k0 r [= <-] R P j r' L' H; lia.
Qed.
