(* C127: the boxes of the client's menu show what is in use. *)
From Verif Require Import Base ClientStoreModel ClientMenuModel.

(* ---- specification ---- *)
(* the overlay selected is the menu all the time *)
Definition stays (l : list act) : Prop := forall o, In (Open o) l -> o = Menu.
Definition picks_infra (l : list act) : Prop := exists n, In (PickInfra n) l.
Definition picks_timetable (l : list act) : Prop := exists n, In (PickTimetable n) l.
(* the menu of a page, and what is in use there *)
Definition shows (p : page) (i t : option string) (r : option (Z * Z)) : Prop := p_menu p = Some (mkb i t r).

(* ---- lemmas ---- *)
Lemma same_ok a b : same a b = true <-> a = b.
Proof.
  destruct a, b; cbn [same]; try (split; congruence). rewrite String.eqb_eq. split; congruence.
Qed.
Lemma watch_self c box : watch_value c c box = box.
Proof. unfold watch_value. rewrite (proj2 (same_ok c c) eq_refl). reflexivity. Qed.
Lemma watch_new c n : watch_value c n n = n.
Proof. unfold watch_value. destruct (same c n); reflexivity. Qed.
Lemma watch_eq c n : watch_value c n c = n.
Proof. unfold watch_value. destruct (same c n) eqn:E; [apply same_ok, E|reflexivity]. Qed.
Lemma ask_infra c r : infra (ask c r) = infra c. Proof. reflexivity. Qed.

Lemma other_keeps srv c e : choice e = false ->
  infra (on_event srv c e) = infra c /\ timetable (on_event srv c e) = timetable c /\
  (brings_range c e = false -> range (on_event srv c e) = range c).
Proof.
  destruct e; cbn [choice on_event brings_range]; try discriminate; intros _.
  - unfold add_station_route. destruct (truthy (infra c)); auto.
  - auto.
  - unfold add_interlocking_route. destruct (truthy (infra c)); auto.
  - auto.
  - unfold type_query. destruct (String.eqb q (query c)); [auto|]. cbv zeta.
    destruct (String.length q <? 3)%nat; auto.
  - destruct (nth_error (pending c) k) as [[]|]; cbn; auto. repeat split; discriminate.
  - destruct (nth_error (pending c) k); auto.
Qed.
Lemma load_infra_store c n : infra (load_infrastructure c n) = n /\ timetable (load_infrastructure c n) = None /\
  range (load_infrastructure c n) = range c.
Proof. unfold load_infrastructure. cbv zeta. destruct (truthy n); auto. Qed.
Lemma load_timetable_store c n : chosen (infra c) = true -> infra (load_timetable c n) = infra c /\
  timetable (load_timetable c n) = n /\ range (load_timetable c n) = range c.
Proof. unfold chosen, load_timetable. destruct (truthy (infra c)); [auto|discriminate]. Qed.

(* a timetable is chosen only in an infrastructure *)
Definition orderly (c : client) : Prop := timetable c <> None -> chosen (infra c) = true.
Lemma orderly_act srv p a : orderly (p_store p) -> orderly (p_store (on_act srv p a)).
Proof.
  intros O. destruct a; cbn [on_act].
  - destruct (p_menu p); [|exact O]. cbn. destruct (load_infra_store (p_store p) name) as (_ & T & _).
    unfold orderly. rewrite T. congruence.
  - destruct (p_menu p); [|exact O]. destruct (chosen (infra (p_store p))) eqn:E; [|exact O].
    cbn. destruct (load_timetable_store (p_store p) name E) as (I & _). unfold orderly. rewrite I. auto.
  - destruct (p_menu p); [|exact O]. destruct (_ && _); exact O.
  - destruct (p_menu p); [|exact O]. destruct (_ && _); exact O.
  - destruct (p_overlay p), o; exact O.
  - destruct (choice e) eqn:E; [exact O|]. cbn. destruct (other_keeps srv (p_store p) e E) as (I & T & _).
    unfold orderly. rewrite I, T. exact O.
Qed.
Lemma orderly_acts srv l : forall p, orderly (p_store p) -> orderly (p_store (fold_left (on_act srv) l p)).
Proof. induction l as [|a l IH]; intros p O; [exact O|]. cbn [fold_left]. apply IH, orderly_act, O. Qed.
Lemma orderly_visit srv l : orderly (p_store (visit srv l)).
Proof. apply orderly_acts. intros H. contradiction. Qed.

Lemma mounted srv p a : (p_menu p <> None <-> p_overlay p = Menu) ->
  (p_menu (on_act srv p a) <> None <-> p_overlay (on_act srv p a) = Menu).
Proof.
  intros M. destruct a; cbn [on_act].
  - destruct (p_menu p) eqn:E; [cbn|rewrite E; exact M]. split; [intros _; apply M|]; discriminate.
  - destruct (p_menu p) eqn:E; [|rewrite E; exact M]. destruct (chosen _); [cbn|rewrite E; exact M]. split; [intros _; apply M|]; discriminate.
  - destruct (p_menu p) eqn:E; [|rewrite E; exact M]. destruct (_ && _); [cbn|rewrite E; exact M]. split; [intros _; apply M|]; discriminate.
  - destruct (p_menu p) eqn:E; [|rewrite E; exact M]. destruct (_ && _); [cbn|rewrite E; exact M]. split; [intros _; apply M|]; discriminate.
  - destruct (p_overlay p) eqn:E, o; cbn; rewrite ?E; try exact M; split; congruence.
  - destruct (choice e); [exact M|]. cbn. destruct (p_menu p); cbn; [|exact M]. split; [intros _; apply M|]; discriminate.
Qed.
Lemma mounted_visit srv l : p_menu (visit srv l) <> None <-> p_overlay (visit srv l) = Menu.
Proof.
  unfold visit. assert (H : p_menu opened <> None <-> p_overlay opened = Menu) by (cbn; split; [reflexivity|discriminate]).
  revert H. generalize opened. induction l as [|a l IH]; intros p H; [exact H|]. cbn [fold_left]. apply IH, mounted, H.
Qed.

(* what is known of the boxes while the menu stays: c0 the store when it came up *)
Definition picks (l : list act) : Prop := picks_infra l \/ picks_timetable l.
Record known (c0 : client) (l : list act) (p : page) : Prop := {
  kn_overlay : p_overlay p = Menu;
  kn_orderly : orderly (p_store p);
  kn_boxes : exists b, p_menu p = Some b /\
    ((picks_infra l /\ b_infra b = infra (p_store p)) \/
      (~ picks_infra l /\ b_infra b = None /\ infra (p_store p) = infra c0)) /\
    ((picks l /\ b_timetable b = timetable (p_store p)) \/
      (~ picks l /\ b_timetable b = None /\ timetable (p_store p) = timetable c0)) /\
    (~ In EmptyRange l -> b_range b = range (p_store p) \/ (b_range b = None /\ range (p_store p) = range c0)) }.

Lemma In_snoc {A} (x a : A) l : In x (l ++ [a]) <-> In x l \/ x = a.
Proof. rewrite in_app_iff. cbn. intuition. Qed.
Lemma picks_i_snoc l a : picks_infra (l ++ [a]) <-> picks_infra l \/ exists n, a = PickInfra n.
Proof.
  split.
  - intros (n & H). apply In_snoc in H. destruct H as [H|H]; [left; exists n; auto|right; eauto].
  - intros [(n & H)|(n & H)]; exists n; apply In_snoc; auto.
Qed.
Lemma picks_t_snoc l a : picks_timetable (l ++ [a]) <-> picks_timetable l \/ exists n, a = PickTimetable n.
Proof.
  split.
  - intros (n & H). apply In_snoc in H. destruct H as [H|H]; [left; exists n; auto|right; eauto].
  - intros [(n & H)|(n & H)]; exists n; apply In_snoc; auto.
Qed.
Lemma same_i l a : (forall n, a <> PickInfra n) -> (picks_infra (l ++ [a]) <-> picks_infra l).
Proof. intros N. rewrite picks_i_snoc. split; [|auto]. intros [H|(n & H)]; [exact H|destruct (N n H)]. Qed.
Lemma same_p l a : (forall n, a <> PickInfra n) -> (forall n, a <> PickTimetable n) -> (picks (l ++ [a]) <-> picks l).
Proof.
  intros N N'. unfold picks. rewrite same_i by exact N. rewrite picks_t_snoc. split; [|tauto].
  intros [H|[H|(n & H)]]; [auto|auto|destruct (N' n H)].
Qed.

Lemma known_act srv c0 l p a : known c0 l p -> (forall o, a = Open o -> o = Menu) -> known c0 (l ++ [a]) (on_act srv p a).
Proof.
  intros [V O (b & M & KI & KT & KR)] S.
  assert (RR : a <> EmptyRange -> ~ In EmptyRange (l ++ [a]) -> ~ In EmptyRange l).
  { intros _ H K. apply H, In_snoc. auto. }
  split.
  - destruct a; cbn [on_act]; rewrite ?M; cbn; auto.
    + destruct (chosen _); exact V.
    + destruct (_ && _); exact V.
    + destruct (_ && _); exact V.
    + rewrite V, (S o eq_refl). exact V.
    + destruct (choice e); exact V.
  - apply orderly_act, O.
  - destruct a; cbn [on_act]; rewrite ?M.
    + (* infrastructure *)
      eexists. split; [reflexivity|]. cbn [commit p_store b_infra b_timetable b_range watchers brings_range on_event].
      destruct (load_infra_store (p_store p) name) as (I & T & R). rewrite I, T, R.
      assert (P : picks_infra (l ++ [PickInfra name])) by (apply picks_i_snoc; eauto).
      split; [left; split; [exact P|apply watch_new]|]. split.
      * left. split; [left; exact P|]. destruct KT as [(_ & ->)|(_ & -> & _)]; [apply watch_eq|].
        unfold watch_value. destruct (same _ _); reflexivity.
      * intros H. apply KR, (RR ltac:(discriminate) H).
    + (* timetable *)
      assert (P : picks (l ++ [PickTimetable name])) by (right; apply picks_t_snoc; eauto).
      destruct (chosen (infra (p_store p))) eqn:E.
      * eexists. split; [reflexivity|]. cbn [commit p_store b_infra b_timetable b_range watchers brings_range on_event].
        destruct (load_timetable_store (p_store p) name E) as (I & T & R). rewrite I, T, R, watch_self.
        split; [rewrite same_i by discriminate; exact KI|].
        split; [left; split; [exact P|apply watch_new]|]. intros H. apply KR, (RR ltac:(discriminate) H).
      * exists b. split; [exact M|]. assert (T : timetable (p_store p) = None).
        { destruct (timetable (p_store p)) eqn:E'; [|reflexivity]. rewrite O in E; [discriminate|congruence]. }
        split; [rewrite same_i by discriminate; exact KI|].
        split; [left; split; [exact P|]; rewrite T; destruct KT as [(_ & K)|(_ & K & _)]; [rewrite K; exact T|exact K]|].
        intros H. apply KR, (RR ltac:(discriminate) H).
    + (* range *)
      destruct (_ && _).
      * eexists. split; [reflexivity|]. cbn [commit p_store b_infra b_timetable b_range watchers brings_range on_event set_range infra timetable range].
        rewrite !watch_self, same_i, same_p by discriminate. auto.
      * exists b. rewrite same_i, same_p by discriminate. repeat (split; [assumption|]).
        intros H. apply KR, (RR ltac:(discriminate) H).
    + (* emptied *)
      destruct (_ && _).
      * eexists. split; [reflexivity|]. rewrite same_i, same_p by discriminate. repeat (split; [assumption|]). intros H. exfalso. apply H, In_snoc. auto.
      * exists b. rewrite same_i, same_p by discriminate. repeat (split; [assumption|]). intros H. exfalso. apply H, In_snoc. auto.
    + (* a button *)
      pose proof (S o eq_refl) as So. subst o. rewrite V. exists b. rewrite same_i, same_p by discriminate. repeat (split; [assumption|]).
      intros H. apply KR, (RR ltac:(discriminate) H).
    + (* anything else *)
      destruct (choice e) eqn:E.
      * exists b. rewrite same_i, same_p by discriminate. repeat (split; [assumption|]). intros H. apply KR, (RR ltac:(discriminate) H).
      * destruct (other_keeps srv (p_store p) e E) as (I & T & R).
        cbn [commit p_store p_menu]. rewrite M. cbn [option_map]. eexists. split; [reflexivity|].
        cbn [watchers b_infra b_timetable b_range]. rewrite I, T, !watch_self, same_i, same_p by discriminate. repeat (split; [assumption|]).
        intros H. destruct (brings_range (p_store p) e) eqn:B; [left; reflexivity|].
        rewrite (R eq_refl). apply KR, (RR ltac:(discriminate) H).
Qed.
Lemma known_acts srv c0 l2 : forall l1 p, known c0 l1 p -> stays l2 -> known c0 (l1 ++ l2) (fold_left (on_act srv) l2 p).
Proof.
  induction l2 as [|a l2 IH]; intros l1 p K S; [rewrite app_nil_r; exact K|]. cbn [fold_left].
  replace (l1 ++ a :: l2) with ((l1 ++ [a]) ++ l2) by (rewrite <- app_assoc; reflexivity).
  apply IH; [|intros o H; apply S; right; exact H]. apply known_act; [exact K|].
  intros o E. apply S. left. exact E.
Qed.
Lemma no_picks_nil : ~ picks_infra [] /\ ~ picks [].
Proof. split; [intros (n & [])|intros [(n & [])|(n & [])]]. Qed.

(* ---- the boxes ---- *)

(* From the loading of the page on and as long as the menu is not left, the boxes show the
   infrastructure and the timetable in use, and the field the range in use unless it was emptied. *)
Theorem C127_shown_partial srv l : stays l ->
  let p := visit srv l in
  exists r, shows p (infra (p_store p)) (timetable (p_store p)) r /\
    (~ In EmptyRange l -> r = range (p_store p)).
Proof.
  intros S p. subst p. unfold visit.
  destruct no_picks_nil as (N1 & N2). assert (K : known start [] opened).
  { split; [reflexivity|intros H; contradiction|]. exists fresh. repeat split; auto. }
  destruct (known_acts srv start l [] opened K S) as [_ _ (b & M & KI & KT & KR)]. cbn [app] in *.
  exists (b_range b). unfold shows. rewrite M. destruct b as [bi bt br]. cbn [b_infra b_timetable b_range] in *. split.
  - f_equal. f_equal; [destruct KI as [(_ & ->)|(_ & -> & ->)]|destruct KT as [(_ & ->)|(_ & -> & ->)]]; reflexivity.
  - intros H. destruct (KR H) as [-> |(-> & ->)]; reflexivity.
Qed.
Print Assumptions C127_shown_partial.

(* The menu opened again: a box shows what is in use if a choice was made since, and nothing
   otherwise; the field shows the range in use if it was changed since. *)
Theorem C127_opened_again_partial srv l1 l2 : p_overlay (visit srv l1) <> Menu -> stays l2 ->
  let before := p_store (visit srv l1) in
  let p := visit srv (l1 ++ Open Menu :: l2) in
  exists i t r, shows p i t r /\
    (picks_infra l2 -> i = infra (p_store p)) /\
    (picks_infra l2 \/ picks_timetable l2 -> t = timetable (p_store p)) /\
    (~ picks_infra l2 -> i = None) /\
    (~ picks_infra l2 -> ~ picks_timetable l2 -> t = None) /\
    (~ In EmptyRange l2 -> range (p_store p) <> range before -> r = range (p_store p)).
Proof.
  intros N S before p. subst p before. unfold visit. rewrite fold_left_app. cbn [fold_left].
  fold (visit srv l1). set (q := visit srv l1) in *.
  assert (Q : on_act srv q (Open Menu) = mkp (p_store q) Menu (Some fresh)).
  { cbn [on_act]. destruct (p_overlay q); [congruence|reflexivity|reflexivity]. }
  rewrite Q. destruct no_picks_nil as (N1 & N2).
  assert (K : known (p_store q) [] (mkp (p_store q) Menu (Some fresh))).
  { split; [reflexivity|apply (orderly_visit srv l1)|]. exists fresh. cbn [p_menu p_store fresh b_infra b_timetable b_range]. repeat split; auto. }
  destruct (known_acts srv (p_store q) l2 [] _ K S) as [_ _ (b & M & KI & KT & KR)]. cbn [app] in *.
  exists (b_infra b), (b_timetable b), (b_range b). unfold shows. rewrite M. destruct b as [bi bt br].
  cbn [b_infra b_timetable b_range] in *. repeat split.
  - intros H. destruct KI as [(_ & K')|(K' & _)]; [exact K'|contradiction].
  - intros H. destruct KT as [(_ & K')|(K' & _)]; [exact K'|contradiction].
  - intros H. destruct KI as [(K' & _)|(_ & K' & _)]; [contradiction|exact K'].
  - intros H1 H2. destruct KT as [(K' & _)|(_ & K' & _)]; [destruct K'; contradiction|exact K'].
  - intros H D. destruct (KR H) as [K'|(_ & K')]; [exact K'|contradiction].
Qed.
Print Assumptions C127_opened_again_partial.

(* FINDING.  Looking at another overlay and coming back empties all boxes, whatever is in
   use: the boxes only follow changes and do not read the value they are given at first. *)
Theorem C127_opened_again_refuted srv l o : p_overlay (visit srv l) = Menu -> o <> Menu ->
  let p := visit srv (l ++ [Open o; Open Menu]) in
  p_store p = p_store (visit srv l) /\ shows p None None None.
Proof.
  intros V N p. subst p. unfold visit. rewrite fold_left_app. cbn [fold_left]. fold (visit srv l).
  unfold shows. cbn [on_act]. rewrite V. destruct o; [congruence|split; reflexivity|split; reflexivity].
Qed.
Print Assumptions C127_opened_again_refuted.

(* FINDING.  Emptying the field of the range has no effect but that it is empty. *)
Theorem C127_emptied_refuted srv l i t r : let p := visit srv l in
  shows p i t r -> chosen (infra (p_store p)) = true -> chosen (timetable (p_store p)) = true ->
  let p' := visit srv (l ++ [EmptyRange]) in
  p_store p' = p_store p /\ shows p' i t None.
Proof.
  intros p M C1 C2 p'. subst p'. unfold visit. rewrite fold_left_app. cbn [fold_left]. fold (visit srv l). fold p.
  unfold shows in *. cbn [on_act]. rewrite M, C1, C2. split; reflexivity.
Qed.
Print Assumptions C127_emptied_refuted.

(* What is picked in the open menu is in use from then on, and shown; a timetable is put out of use by another
   infrastructure. *)
Theorem C127_picked srv l : p_overlay (visit srv l) = Menu ->
  let c := p_store (visit srv l) in
  (forall n, let p := visit srv (l ++ [PickInfra n]) in
     infra (p_store p) = n /\ timetable (p_store p) = None /\ range (p_store p) = range c /\ exists t r, shows p n t r) /\
  (forall n, chosen (infra c) = true -> let p := visit srv (l ++ [PickTimetable n]) in
     infra (p_store p) = infra c /\ timetable (p_store p) = n /\ range (p_store p) = range c /\ exists i r, shows p i n r) /\
  (forall x y, chosen (timetable c) = true -> let p := visit srv (l ++ [PickRange x y]) in
     infra (p_store p) = infra c /\ timetable (p_store p) = timetable c /\ range (p_store p) = Some (x, y) /\
     exists i t, shows p i t (Some (x, y))).
Proof.
  intros V c. destruct (p_menu (visit srv l)) as [b|] eqn:M; [|apply mounted_visit in V; contradiction].
  unfold visit, shows. split; [|split].
  - intros n. rewrite fold_left_app. cbn [fold_left]. fold (visit srv l). cbn [on_act]. rewrite M.
    cbn [commit p_store p_menu option_map on_event watchers b_infra b_timetable b_range brings_range].
    destruct (load_infra_store (p_store (visit srv l)) n) as (I & T & R). rewrite I, T, R. repeat (split; [reflexivity|]).
    eexists. eexists. unfold watchers. cbn [b_infra b_timetable b_range]. rewrite I, watch_new. reflexivity.
  - intros n C. rewrite fold_left_app. cbn [fold_left]. fold (visit srv l). cbn [on_act]. rewrite M. fold c. rewrite C.
    cbn [commit p_store p_menu option_map on_event watchers b_infra b_timetable b_range brings_range].
    destruct (load_timetable_store c n C) as (I & T & R). rewrite I, T, R. repeat (split; [reflexivity|]).
    eexists. eexists. unfold watchers. cbn [b_infra b_timetable b_range]. rewrite T, watch_new. reflexivity.
  - intros x y C. rewrite fold_left_app. cbn [fold_left]. fold (visit srv l). cbn [on_act]. rewrite M. fold c. rewrite C.
    assert (C' : chosen (infra c) = true).
    { apply (orderly_visit srv l). fold c. unfold chosen in C. destruct (timetable c); [discriminate|discriminate C]. }
    rewrite C'. repeat (split; [reflexivity|]). eexists. eexists. reflexivity.
Qed.
Print Assumptions C127_picked.

(* ---- the buttons for new tabs ---- *)
(* No tab for a timetable without an infrastructure; one for an ordering graph exactly if
   there can be one for a timetable. *)
Theorem C127_tabs srv l : let c := p_store (visit srv l) in
  (timetable_tab c = true -> infrastructure_tab c = true) /\ ordering_tab c = timetable_tab c.
Proof.
  intros c. assert (H : timetable_tab c = true -> infrastructure_tab c = true).
  { unfold timetable_tab, infrastructure_tab. intros H. apply (orderly_visit srv l). fold c.
    unfold chosen in H. destruct (timetable c); [discriminate|discriminate H]. }
  split; [exact H|]. unfold ordering_tab. unfold timetable_tab, infrastructure_tab in *.
  destruct (chosen (timetable c)); [rewrite H by reflexivity; reflexivity|apply andb_false_r].
Qed.
Print Assumptions C127_tabs.

(* the menu is there exactly when its overlay is selected *)
Theorem C127_there srv l : (exists i t r, shows (visit srv l) i t r) <-> p_overlay (visit srv l) = Menu.
Proof.
  rewrite <- mounted_visit. unfold shows. destruct (p_menu (visit srv l)) as [[i t r]|].
  - split; [discriminate|eauto].
  - split; [intros (i & t & r & H); discriminate|congruence].
Qed.
Print Assumptions C127_there.

(* ---- cases ---- *)
Definition demo_server : server := mksrv (fun i => [i]) (fun _ _ => (10, 20)%Z) (fun _ _ => []) (fun _ _ => []) (fun _ _ => []).
Definition demo_visit : list act :=
  [PickInfra (Some "a"%string); Other (Answer 0); PickTimetable (Some "b"%string); Other (Answer 0); PickRange 12 15].
Example C127_shown_sat : stays demo_visit /\ ~ In EmptyRange demo_visit /\
  shows (visit demo_server demo_visit) (Some "a"%string) (Some "b"%string) (Some (12, 15)%Z).
Proof.
  split; [|split; [|reflexivity]].
  - intros o H. cbn in H. intuition discriminate.
  - intros H. cbn in H. intuition discriminate.
Qed.
Example C127_opened_again_sat :
  p_overlay (visit demo_server (demo_visit ++ [Open Search])) <> Menu /\
  shows (visit demo_server ((demo_visit ++ [Open Search]) ++ Open Menu :: [PickTimetable (Some "c"%string); Other (Answer 0)]))
    None (Some "c"%string) (Some (10, 20)%Z) /\
  infra (p_store (visit demo_server ((demo_visit ++ [Open Search]) ++ Open Menu :: [PickTimetable (Some "c"%string); Other (Answer 0)]))) = Some "a"%string.
Proof. split; [discriminate|split; reflexivity]. Qed.
Example C127_emptied_sat : let p := visit demo_server demo_visit in
  chosen (infra (p_store p)) = true /\ chosen (timetable (p_store p)) = true /\ range (p_store p) = Some (12, 15)%Z.
Proof. repeat split. Qed.
