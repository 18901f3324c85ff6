(* C121: the settings of the web client; C122: the legend of its map; C123: its tabs.

   Reading guide: ClientTabsSpec.v.  `srun es (sinit os)`, `trun es (start None)`, `lrun es linit`
   are the browser after the history es, the window after it, the tabs of the map after it;
   `shown_theme`, `shown_colour` are what a page is drawn in; `ticked w k` are the ticked boxes of
   tab k, `map_of w k` its map, `layer_shows m l rising` whether a layer draws an element of a direction. *)
From Coq Require Import String.
From Verif Require Import Base ClientTabsModel ClientTabsSpec ClientTabsProofs.
Local Open Scope list_scope.
Local Open Scope nat_scope.

(* ---- C121: settings ---- *)
(* In every history, on every open page, the theme drawn is the one its mode asks for. *)
Theorem C121_theme os es k p : br_pages (srun es (sinit os)) k = Some p ->
  shown_theme p = asked (os_after os es) (pg_mode p).
Proof. intros E. pose proof (sinv_run es _ (sinv_init os) k p E) as (N & _). rewrite os_run in N. exact N. Qed.
Print Assumptions C121_theme.
(* A mode chosen on a page stays the mode of this page, whatever happens on others, until another is
   chosen there; the page is drawn accordingly, following the system when asked to. *)
Theorem C121_mode os es k m es' p : br_pages (srun es (sinit os)) k = Some p ->
  Forall (stays k) es' -> Forall (not_prefer k) es' ->
  exists p', br_pages (srun (es ++ Prefer k m :: es') (sinit os)) k = Some p' /\
    pg_mode p' = m /\ shown_theme p' = asked (os_after os (es ++ es')) m.
Proof.
  intros E S N. pose proof (sinv_run es _ (sinv_init os)) as I. set (b := srun es (sinit os)) in *.
  rewrite srun_app. fold b. change (srun (Prefer k m :: es') b) with (srun es' (sstep b (Prefer k m))).
  destruct (apply_good (br_os b) m p (or_introl (I _ _ E))) as (_ & M & _).
  assert (P : br_pages (sstep b (Prefer k m)) k = Some (apply_theme (br_os b) (set_mode m p))).
  { cbn [sstep]. rewrite E. cbn. apply put_same. }
  destruct (stay_run k es' _ _ (sinv_step _ _ I) P S) as (p' & P' & M' & _). exists p'. split; [exact P'|].
  specialize (M' N). rewrite M in M'. split; [exact M'|].
  destruct (sinv_run es' _ (sinv_step _ (Prefer k m) I) k p' P') as (T & _). unfold shown_theme. rewrite T, M', os_run, os_step.
  unfold b. rewrite os_run. unfold os_after. rewrite fold_left_app. reflexivity.
Qed.
Print Assumptions C121_mode.
(* A colour chosen on a page is what the page is drawn in, in either theme, until another is chosen there. *)
Theorem C121_colour os es k c es' p : br_pages (srun es (sinit os)) k = Some p ->
  Forall (stays k) es' -> Forall (not_paint k) es' ->
  exists p', br_pages (srun (es ++ Paint k c :: es') (sinit os)) k = Some p' /\ shown_colour p' = c.
Proof.
  intros E S N. pose proof (sinv_run es _ (sinv_init os)) as I. set (b := srun es (sinit os)) in *.
  rewrite srun_app. fold b. change (srun (Paint k c :: es') b) with (srun es' (sstep b (Paint k c))).
  assert (P : br_pages (sstep b (Paint k c)) k = Some (set_primary c p)).
  { cbn [sstep]. rewrite E. cbn. apply put_same. }
  destruct (stay_run k es' _ _ (sinv_step _ _ I) P S) as (p' & P' & _ & D). exists p'. split; [exact P'|].
  rewrite (good_shown _ _ (sinv_run es' _ (sinv_step _ (Paint k c) I) k p' P')). rewrite (D N). reflexivity.
Qed.
Print Assumptions C121_colour.
(* One page after the other: the page has the last mode and the last colour chosen in all of them. *)
Definition coloured (c : choice) : Prop := match c with Colour x => x <> ""%string | _ => True end.
Lemma mode_app a b : last_mode (a ++ b) = fold_left (fun d c => match c with Mode m => m | _ => d end) b (last_mode a).
Proof. unfold last_mode. apply fold_left_app. Qed.
Lemma colour_app a b : last_colour (a ++ b) = fold_left (fun d c => match c with Colour m => m | _ => d end) b (last_colour a).
Proof. unfold last_colour. apply fold_left_app. Qed.
(* the storage tells the last choices *)
Definition tells (s : store) (cs : list choice) : Prop :=
  match ls_mode s with Some m => m | None => ByOs end = last_mode cs /\
  match ls_colour s with Some c => if String.eqb c "" then default_primary else c | None => default_primary end = last_colour cs.
Definition follows (b : browser) (cs : list choice) : Prop :=
  sinv b /\ tells (br_ls b) cs /\ last_colour cs <> ""%string /\
  exists p, br_pages b 0 = Some p /\ pg_mode p = last_mode cs /\ vt_dark p = last_colour cs.
Lemma follows_step b cs c : coloured c -> follows b cs -> follows (sstep b (event_of c)) (cs ++ [c]).
Proof.
  intros C (I & (T1 & T2) & NE & p & P & M & D). destruct (I 0 p P) as (G1 & G2 & G3).
  split; [apply sinv_step, I|]. unfold tells. rewrite mode_app, colour_app. cbn [fold_left]. destruct c as [m|x|o]; cbn [event_of sstep].
  - rewrite P. cbn [br_ls br_pages]. destruct (apply_good (br_os b) m p (or_introl (I 0 p P))) as ((_ & _ & C3) & M' & D').
    unfold save_settings. rewrite C3, M', D'. cbn [ls_mode ls_colour]. rewrite D. destruct (String.eqb_spec (last_colour cs) ""); [contradiction|].
    destruct (String.eqb_spec (last_colour cs) ""); [contradiction|]. split; [auto|]. split; [auto|].
    eexists. rewrite put_same. split; [reflexivity|]. split; [exact M'|congruence].
  - rewrite P. cbn [br_ls br_pages]. cbn [coloured] in C. unfold save_settings. cbn. destruct (String.eqb_spec x ""); [contradiction|]. cbn.
    destruct (String.eqb_spec x ""); [contradiction|]. split; [auto|]. split; [auto|]. eexists. split; [reflexivity|]. split; [exact M|reflexivity].
  - cbn [br_ls br_pages]. split; [auto|]. split; [auto|]. rewrite P. cbn. eexists. split; [reflexivity|].
    destruct (os_good _ o p (I 0 p P)) as (_ & M' & D'). split; congruence.
Qed.
Lemma follows_run ds : forall b cs, Forall coloured ds -> follows b cs -> follows (srun (map event_of ds) b) (cs ++ ds).
Proof.
  induction ds as [|d ds IH]; intros b cs F H; [rewrite app_nil_r; exact H|]. inversion F; subst. cbn [map].
  change (srun (event_of d :: map event_of ds) b) with (srun (map event_of ds) (sstep b (event_of d))).
  change (d :: ds) with ([d] ++ ds). rewrite app_assoc. apply IH; [assumption|]. apply follows_step; assumption.
Qed.
Lemma visit_follows b cs : sinv b -> tells (br_ls b) cs -> last_colour cs <> ""%string -> follows (sstep b (Visit 0)) cs.
Proof.
  intros I T NE. split; [apply sinv_step, I|]. split; [exact T|]. split; [exact NE|]. destruct (load_spec (br_os b) (br_ls b)) as (_ & M & D).
  destruct T as (T1 & T2). cbn. eexists. split; [reflexivity|]. split; congruence.
Qed.
Lemma sessions_tell ss : forall b cs, sinv b -> tells (br_ls b) cs -> last_colour cs <> ""%string -> Forall (Forall coloured) ss ->
  let b' := srun (flat_map session ss) b in sinv b' /\ tells (br_ls b') (cs ++ concat ss) /\ last_colour (cs ++ concat ss) <> ""%string.
Proof.
  induction ss as [|s ss IH]; intros b cs I T NE F; cbn [flat_map concat].
  - rewrite app_nil_r. cbn. auto.
  - inversion F as [|? ? F1 F2]; subst. rewrite srun_app. change (session s) with (Visit 0 :: map event_of s ++ [Leave 0]).
    change (srun (Visit 0 :: map event_of s ++ [Leave 0]) b) with (srun (map event_of s ++ [Leave 0]) (sstep b (Visit 0))). rewrite srun_app.
    destruct (follows_run s _ cs F1 (visit_follows b cs I T NE)) as (I1 & T1 & NE1 & _).
    set (b1 := srun (map event_of s) (sstep b (Visit 0))) in *. change (srun [Leave 0] b1) with (sstep b1 (Leave 0)).
    rewrite app_assoc. apply IH; [apply sinv_step, I1|exact T1|exact NE1|exact F2].
Qed.
Theorem C121_kept os ss cs : Forall (Forall coloured) ss -> Forall coloured cs ->
  exists p, br_pages (srun (flat_map session ss ++ Visit 0 :: map event_of cs) (sinit os)) 0 = Some p /\
    pg_mode p = last_mode (concat ss ++ cs) /\ shown_colour p = last_colour (concat ss ++ cs).
Proof.
  intros F1 F2. rewrite srun_app. destruct (sessions_tell ss (sinit os) [] (sinv_init os)) as (I & T & NE); [split; reflexivity|discriminate|exact F1|].
  cbn [app] in *. set (b := srun (flat_map session ss) (sinit os)) in *.
  change (srun (Visit 0 :: map event_of cs) b) with (srun (map event_of cs) (sstep b (Visit 0))).
  destruct (follows_run cs _ _ F2 (visit_follows b _ I T NE)) as (I' & _ & _ & p & P & M & D).
  exists p. split; [exact P|]. split; [exact M|]. rewrite (good_shown _ _ (I' 0 p P)). exact D.
Qed.
Print Assumptions C121_kept.
(* With several pages open: a page opened later has all settings, chosen there or not, of the page
   the last choice was made on.  Missing: the last choice of each setting, wherever it was made (below). *)
Theorem C121_windows_partial os es k e es' j p : chooses k e -> Forall quiet es' ->
  br_pages (srun es (sinit os)) k = Some p -> shown_colour p <> ""%string ->
  exists p1 p2, br_pages (srun (es ++ [e]) (sinit os)) k = Some p1 /\
    br_pages (srun (es ++ e :: es' ++ [Visit j]) (sinit os)) j = Some p2 /\
    pg_mode p2 = pg_mode p1 /\ shown_colour p2 = shown_colour p1.
Proof.
  intros C Q P NE. pose proof (sinv_run es _ (sinv_init os)) as I. rewrite !srun_app. set (b := srun es (sinit os)) in *.
  change (srun (e :: es' ++ [Visit j]) b) with (srun (es' ++ [Visit j]) (sstep b e)). change (srun [e] b) with (sstep b e).
  rewrite (good_shown _ _ (I k p P)) in NE.
  destruct (chosen_ls b e k p I C P (ex_intro _ _ (conj eq_refl NE))) as (p1 & P1 & L & NE1).
  exists p1. rewrite srun_app. change (srun [Visit j] ?x) with (sstep x (Visit j)). cbn [sstep br_pages]. eexists. split; [exact P1|].
  rewrite put_same. split; [reflexivity|]. rewrite quiet_run, L by exact Q.
  destruct (load_spec (br_os (srun es' (sstep b e))) (mkStore (Some (pg_mode p1)) (Some (vt_dark p1)))) as (G & M & D).
  rewrite (good_shown _ _ G), (good_shown _ _ (sinv_step _ e I k p1 P1)), M, D. cbn [ls_mode ls_colour].
  destruct (String.eqb_spec (vt_dark p1) ""); [contradiction|]. auto.
Qed.
Print Assumptions C121_windows_partial.
(* FINDING.  A choice made on one page undoes the choices made on another since the first was opened. *)
Theorem C121_windows_refuted : exists es p,
  br_pages (srun es (sinit true)) 2 = Some p /\ In (Paint 1 "#123456") es /\
  (forall c, In c es -> match c with Paint _ x => x = "#123456"%string | Wipe => False | _ => True end) /\ shown_colour p <> "#123456"%string.
Proof.
  exists [Visit 0; Visit 1; Paint 1 "#123456"; Prefer 0 Light; Visit 2]. eexists. split; [reflexivity|]. split; [cbn; auto|].
  split; [|discriminate]. intros c H. cbn in H. repeat destruct H as [<-|H]; try exact I; try reflexivity. destruct H.
Qed.
Print Assumptions C121_windows_refuted.
(* After the local storage is cleared a page opened has the defaults, as long as nothing is chosen. *)
Theorem C121_cleared os es es' j : Forall quiet es' ->
  exists p, br_pages (srun (es ++ Wipe :: es' ++ [Visit j]) (sinit os)) j = Some p /\
    pg_mode p = ByOs /\ shown_colour p = "#2196F3"%string.
Proof.
  intros Q. rewrite srun_app. set (b := srun es (sinit os)). change (srun (Wipe :: es' ++ [Visit j]) b) with (srun (es' ++ [Visit j]) (sstep b Wipe)).
  rewrite srun_app. change (srun [Visit j] ?x) with (sstep x (Visit j)). cbn [sstep br_pages]. eexists. rewrite put_same. split; [reflexivity|].
  rewrite quiet_run by exact Q. cbn [br_ls]. destruct (load_spec (br_os (srun es' (mkBrowser (br_os b) (mkStore None None) (br_pages b)))) (mkStore None None)) as (G & M & D).
  rewrite (good_shown _ _ G), D, M. auto.
Qed.
Print Assumptions C121_cleared.
(* FINDING.  An open page keeps what was cleared, and the next choice of anything stores all of it again. *)
Theorem C121_cleared_refuted c m : c <> ""%string -> exists p,
  br_pages (srun [Visit 0; Paint 0 c; Wipe; Prefer 0 m; Leave 0; Visit 0] (sinit true)) 0 = Some p /\ shown_colour p = c.
Proof.
  intros N. destruct (C121_windows_partial true [Visit 0; Paint 0 c; Wipe] 0 (Prefer 0 m) [Leave 0] 0 (set_primary c (load_settings true (mkStore None None) fresh_page))) as (p1 & p2 & E1 & E2 & _ & C).
  - reflexivity.
  - repeat constructor.
  - reflexivity.
  - exact N.
  - exists p2. split; [exact E2|]. rewrite C. cbn in E1. injection E1 as <-. destruct m; reflexivity.
Qed.
Print Assumptions C121_cleared_refuted.
Example ex_C121 : exists p, br_pages (srun (flat_map session [[Mode Light; Colour "#111111"]; [Os false; Mode ByOs]] ++ Visit 0 :: map event_of [Os true]) (sinit true)) 0 = Some p /\
  pg_mode p = ByOs /\ shown_theme p = TDark /\ shown_colour p = "#111111"%string.
Proof. eexists. split; [reflexivity|]. repeat split. Qed.

(* ---- C123: tabs ---- *)
(* In every history of a window no two tabs have the same index, and each has its component, and no other has. *)
Theorem C123_distinct es : let w := trun es (start None) in
  NoDup (w_tabs w) /\ forall i, In i (ad_all (w_ad w)) <-> In i (w_tabs w).
Proof. destruct (tinv_run es _ tinv_start) as ((N & A & _) & _). auto. Qed.
Print Assumptions C123_distinct.
(* A new tab comes behind the others, with an index none of them has. *)
Theorem C123_new es : let w := trun es (start None) in
  exists i, w_tabs (trun (es ++ [Add]) (start None)) = w_tabs w ++ [i] /\ ~ In i (w_tabs w).
Proof.
  cbv zeta. rewrite trun_app. destruct (tinv_run es _ tinv_start) as (I & _). set (w := trun es (start None)) in *.
  change (trun [Add] w) with (tstep w Add). cbn [tstep]. destruct (add_component None (w_ad w)) as [a i] eqn:E.
  destruct (add_fresh _ _ _ _ _ I (or_introl eq_refl) E) as (N & _). exists i. auto.
Qed.
Print Assumptions C123_new.
(* Closing a tab takes this one away and leaves the others as they are. *)
Theorem C123_closed es i : let w := trun es (start None) in
  w_tabs (trun (es ++ [Shut i]) (start None)) = remove Nat.eq_dec i (w_tabs w).
Proof.
  cbv zeta. rewrite trun_app. set (w := trun es (start None)) in *. change (trun [Shut i] w) with (tstep w (Shut i)). cbn [tstep].
  assert (R : forall l, filter (fun j => negb (j =? i)) l = remove Nat.eq_dec i l).
  { induction l as [|j l IH]; [reflexivity|]. cbn. rewrite IH. destruct (Nat.eqb_spec j i), (Nat.eq_dec i j); subst; try contradiction; reflexivity. }
  destruct (has (w_tabs w) i) eqn:H; cbn [w_tabs]; [apply R|]. apply has_not in H. symmetry. apply notin_remove, H.
Qed.
Print Assumptions C123_closed.
(* When the page is loaded again, the tabs are those of the layout stored last, with their indices. *)
Theorem C123_again es es' : ~ In Save es' ->
  w_tabs (trun (es ++ Save :: es' ++ [Again]) (start None)) = w_tabs (trun es (start None)).
Proof.
  intros N. pose proof (tinv_run es _ tinv_start) as I. rewrite trun_app. set (w := trun es (start None)) in *.
  change (trun (Save :: es' ++ [Again]) w) with (trun (es' ++ [Again]) (tstep w Save)). rewrite trun_app.
  pose proof (tinv_step w Save I) as I1. pose proof (saved_run es' _ I1 N) as S. pose proof (tinv_run es' _ I1) as (_ & NS).
  set (w' := trun es' (tstep w Save)) in *. change (trun [Again] w') with (start (w_saved w')).
  destruct (start_spec (w_saved w') NS) as (a & ts & E & _ & T). rewrite E. cbn [w_tabs]. rewrite T, S. reflexivity.
Qed.
Print Assumptions C123_again.
(* The index of a closed tab is given to the next one opened: what is stored for it (C122) is, too. *)
Theorem C123_reused es i : In i (w_tabs (trun es (start None))) ->
  w_tabs (trun (es ++ [Shut i; Add]) (start None)) = remove Nat.eq_dec i (w_tabs (trun es (start None))) ++ [i].
Proof.
  intros H. rewrite <- C123_closed. change [Shut i; Add] with ([Shut i] ++ [Add]). rewrite app_assoc, !trun_app.
  set (w := trun es (start None)) in *. change (trun [Shut i] w) with (tstep w (Shut i)). cbn [tstep].
  rewrite (proj2 (has_in _ _) H). change (trun [Add] ?x) with (tstep x Add). reflexivity.
Qed.
Print Assumptions C123_reused.
Example ex_C123 : w_tabs (trun [Add; Add; Shut 0; Move [2; 1]; Save; Add; Add; Shut 1; Again; Add; Add] (start None)) = [2; 1; 0; 3]
  /\ w_tabs (trun [Add; Shut 1; Add; Add; Save; Again; Shut 0; Add] (start None)) = [1; 2; 0].
Proof. split; reflexivity. Qed.

(* ---- C122: legend ---- *)
(* Boxes: a box is ticked as the user last left it, whatever they do in other tabs or elsewhere.
   Missing: histories in which the legends of two different tabs are reset (below). *)
Theorem C122_boxes_partial k0 es k es' c : Forall (reset_only k0) (es ++ es') -> w_tab (lrun es linit) k <> None ->
  Forall (keeps k) es' -> ~ In (ResetLegend k) es' ->
  (In c (ticked (lrun (es ++ es') linit) k) <-> last_decision k c (In c (ticked (lrun es linit) k)) es').
Proof.
  intros F H K N. apply Forall_app in F. destruct F as (F1 & F2). destruct (w_tab (lrun es linit) k) as [t|] eqn:E; [|contradiction].
  rewrite lrun_app. destruct (box_run k0 k es' (lrun es linit) t) as (t' & _ & D); auto. apply only_run; [exact F1|apply winv_init].
Qed.
Print Assumptions C122_boxes_partial.
(* Kinds: a layer is visible exactly if the box of its kind is ticked.  Missing: as above. *)
Theorem C122_kinds_partial k0 es k m l : Forall (reset_only k0) es -> map_of (lrun es linit) k = Some m -> exists_layer l ->
  (gl_visible m l = true <-> In (Kind (kind_of l)) (ticked (lrun es linit) k)).
Proof.
  intros F E X. pose proof (sees_run k0 es linit F (winv_init _ _)) as I. unfold map_of, ticked in *. set (w := lrun es linit) in *.
  destruct (w_tab w k) as [t|] eqn:T; [|discriminate]. destruct (I k t T) as (_ & V). rewrite (V m E l X). apply includes_in.
Qed.
Print Assumptions C122_kinds_partial.
(* FINDING.  After the legends of two tabs have been reset they share their boxes, and a box ticked
   in one appears ticked in the other, whose map does not show the elements. *)
Theorem C122_shared_refuted : exists es m,
  map_of (lrun es linit) 1 = Some m /\ In (Kind TUNNEL) (ticked (lrun es linit) 1) /\ gl_visible m (Icon TUNNEL) = false /\
  ~ In (Tick 1 (Kind TUNNEL)) es /\ w_store (lrun es linit) 1 = Some initially_checked.
Proof.
  exists [Infra true; OpenTab 0; OpenTab 1; ResetLegend 0; ResetLegend 1; Tick 0 (Kind TUNNEL)]. eexists.
  split; [reflexivity|]. split; [vm_compute; tauto|]. split; [reflexivity|]. split; [cbn; intuition discriminate|reflexivity].
Qed.
Print Assumptions C122_shared_refuted.
(* Directions: an element is drawn exactly if the box of its kind is ticked and, unless it is a station,
   the box of its direction.  Missing: as above, and histories in which the theme changes (below). *)
Theorem C122_drawn_partial k0 es k m l rising : Forall (reset_only k0) es -> ~ In Theme es -> map_of (lrun es linit) k = Some m -> exists_layer l ->
  (layer_shows m l rising = true <->
   In (Kind (kind_of l)) (ticked (lrun es linit) k) /\ (kind_of l = STATION \/ In (direction_box rising) (ticked (lrun es linit) k))).
Proof.
  intros F NT E X. rewrite <- (C122_kinds_partial k0 es k m l F E X). unfold layer_shows. rewrite andb_true_iff.
  assert (P : passes (gl_filter m l) rising = true <-> kind_of l = STATION \/ In (direction_box rising) (ticked (lrun es linit) k)); [|tauto].
  pose proof (faces_run k0 es linit F NT (winv_init _ _)) as I. unfold map_of, ticked in *. set (w := lrun es linit) in *.
  destruct (w_tab w k) as [t|] eqn:T; [|discriminate]. destruct (I k t T) as (_ & V). rewrite (V m E l).
  destruct (etype_dec (kind_of l) STATION) as [S|S]; [cbn; tauto|]. rewrite <- includes_in. unfold direction_of, direction_box.
  set (ch := deref (w_const w) (tb_ref t)). destruct rising, (includes ch RISING), (includes ch FALLING); cbn; intuition discriminate.
Qed.
Print Assumptions C122_drawn_partial.
(* FINDING.  A change of theme forgets the directions and the highlighted routes. *)
Theorem C122_theme_refuted : exists es m, ~ In RISING (ticked (lrun es linit) 0) /\ map_of (lrun es linit) 0 = Some m /\
  layer_shows m (Icon HALT) true = true /\ w_routes (lrun es linit) = [5] /\ gl_routes m = [].
Proof.
  exists [Infra true; OpenTab 0; Highlight [5]; Untick 0 RISING; Theme]. eexists. split; [cbn; intuition discriminate|].
  split; [reflexivity|]. repeat split.
Qed.
Print Assumptions C122_theme_refuted.
(* Reset: the boxes are those a new user finds.  Missing: pages on which a legend has been reset before. *)
Theorem C122_reset_partial es0 ks es k : Forall no_reset es -> w_tab (lrun (es0 ++ Reload ks :: es) linit) k <> None ->
  ticked (lrun (es0 ++ Reload ks :: es ++ [ResetLegend k]) linit) k =
  [Kind STATION; Kind HALT; Kind MAIN_SIGNAL; Kind APPROACH_SIGNAL; Kind END_OF_TRAIN_DETECTOR; RISING; FALLING].
Proof.
  intros F H. rewrite lrun_app in *. set (w0 := lrun es0 linit) in *.
  change (lrun (Reload ks :: es ++ [ResetLegend k]) w0) with (lrun (es ++ [ResetLegend k]) (lstep w0 (Reload ks))).
  change (lrun (Reload ks :: es) w0) with (lrun es (lstep w0 (Reload ks))) in H. rewrite lrun_app.
  assert (K : kept (lrun es (lstep w0 (Reload ks)))) by (apply kept_run; [exact F|apply kept_opens, kept_fresh]).
  set (w := lrun es (lstep w0 (Reload ks))) in *. change (lrun [ResetLegend k] w) with (lstep w (ResetLegend k)). cbn [lstep].
  destruct (w_tab w k) as [t|] eqn:E; [|contradiction]. unfold ticked. cbn [w_tab w_const]. rewrite put_same. cbn [tb_ref deref]. apply K.
Qed.
Print Assumptions C122_reset_partial.
(* FINDING.  After a reset, the boxes ticked become part of what the next reset, and every new tab, shows. *)
Theorem C122_reset_refuted w k c : w_tab w k <> None ->
  In c (ticked (lrun [ResetLegend k; Tick k c; Untick k c; ResetLegend k] w) k) /\
  (forall j, w_store w j = None -> j <> k -> In c (ticked (lrun [ResetLegend k; Tick k c; Untick k c; OpenTab j] w) j)).
Proof.
  intros H. destruct (w_tab w k) as [t|] eqn:E; [|contradiction]. unfold lrun. cbn [fold_left lstep]. rewrite E. cbn [w_tab w_const tb_ref deref tb_map].
  rewrite put_same. cbn [w_tab w_const tb_ref deref tb_map]. rewrite put_same. cbn [w_tab w_const tb_ref deref tb_map].
  split; [rewrite put_same|intros j S N]; unfold ticked, open_tab, save_controls; cbn [w_tab w_const tb_ref deref w_store];
    rewrite ?put_same, ?put_other by auto; rewrite ?S; cbn [tb_ref deref]; apply in_or_app; right; left; reflexivity.
Qed.
Print Assumptions C122_reset_refuted.
(* Reload: the tabs that were there have the same boxes ticked.  Missing: histories with resets. *)
Theorem C122_reload_partial es ks k : Forall no_reset es -> w_tab (lrun es linit) k <> None -> In k ks ->
  w_tab (lrun (es ++ [Reload ks]) linit) k <> None /\
  ticked (lrun (es ++ [Reload ks]) linit) k = ticked (lrun es linit) k.
Proof.
  intros F H I. assert (K : kept (lrun es linit)) by (apply kept_run; [exact F|apply (kept_fresh (fun _ => None))]).
  rewrite lrun_app. set (w := lrun es linit) in *. change (lrun [Reload ks] w) with (lstep w (Reload ks)). cbn [lstep].
  set (w1 := mkWorld initially_checked (w_store w) (fun _ => None) false []).
  assert (K1 : kept (fold_left open_tab ks w1)) by (apply kept_opens, kept_fresh).
  assert (T : w_tab (fold_left open_tab ks w1) k <> None) by (apply opens_tab; left; exact I). split; [exact T|].
  unfold ticked. destruct (w_tab (fold_left open_tab ks w1) k) as [t1|] eqn:E1; [|contradiction]. destruct (w_tab w k) as [t|] eqn:E; [|contradiction].
  destruct (proj2 K1 k t1 E1) as (l1 & R1 & L1). destruct (proj2 K k t E) as (l & R & L). rewrite opens_store in L1. cbn [w_store w1] in L1.
  rewrite R1, R. cbn [deref]. congruence.
Qed.
Print Assumptions C122_reload_partial.
(* Routes: the routes highlighted are those on a map that stays.  Missing: maps created, or restyled, since (above). *)
Theorem C122_routes_partial es rs es' k m : map_of (lrun es linit) k = Some m -> Forall (same_map k) es' ->
  exists m', map_of (lrun (es ++ Highlight rs :: es') linit) k = Some m' /\ gl_routes m' = rs.
Proof.
  intros E F. rewrite lrun_app. set (w := lrun es linit) in *. change (lrun (Highlight rs :: es') w) with (lrun es' (lstep w (Highlight rs))).
  destruct (routes_run es' k (lstep w (Highlight rs)) (mkMap (gl_visible m) (gl_filter m) rs)) as (m' & E' & R); [exact F| |exists m'; auto].
  unfold map_of in *. cbn. destruct (w_tab w k) as [t|]; [|discriminate]. cbn. rewrite E. reflexivity.
Qed.
Print Assumptions C122_routes_partial.
Example ex_C122 : let es := [OpenTab 3; Infra true; OpenTab 1; ResetLegend 1; Tick 1 (Kind SLOPE); Untick 1 RISING; Untick 3 (Kind HALT); Tick 3 (Kind CTC)] in
  Forall (reset_only 1) es /\ ~ In Theme es /\ exists m, map_of (lrun es linit) 1 = Some m /\
  layer_shows m (Circle SLOPE) false = true /\ layer_shows m (Circle SLOPE) true = false /\ layer_shows m (Icon STATION) true = true /\ layer_shows m (Icon CTC) false = false.
Proof. cbv zeta. split; [repeat constructor|]. split; [cbn; intuition discriminate|]. eexists. split; [reflexivity|]. repeat split. Qed.
