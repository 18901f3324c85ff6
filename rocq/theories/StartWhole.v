(* Proofs about the start of the web server, part 2: the phases together, the
   histories. *)
From Coq Require Import Ascii String Permutation.
From Verif Require Import Base StockModel StartModel StartSpec StartProofs.

Section Whole.
  Context {IS TS I T OSM DB : Type}.
  Notation world := (StartModel.world IS TS I T OSM DB).
  Variable load_infra : IS -> res I.
  Variable load_timetable : TS -> I -> res (option T).
  Variable export_osm : I -> res OSM.
  Variable import_tiles : OSM -> res DB.
  Variable order : list (text * I) -> list (text * I).
  Hypothesis order_perm : forall l, Permutation l (order l).
  Notation start_ := (start load_infra load_timetable export_osm import_tiles order).

  (* ---- frames: what a phase leaves alone ---- *)
  Lemma infras_frame s now (w0 : world) :
    triple (fun w => w = w0) (get_infrastructure_module _ _ _ _ _ _ load_infra s now)
      (fun l w => rest_same w0 w /\ NoDup (map fst l)) (rest_same w0).
  Proof.
    unfold get_infrastructure_module. eapply t_then with (M := fun v w => w = w0); [apply t_get; auto|].
    intros v. eapply t_conseq; [apply (t_each _ (fun d l w => rest_same w0 w /\ NoDup (map fst l)))| | |]; cbv beta.
    2:{ intros w ->. split; [repeat split|constructor]. } 2:{ auto. } 2:{ intros w H. exact H. }
    intros d it r l _. unfold infra_item. destruct it as [n x|n].
    - eapply t_then with (M := fun i w => rest_same w0 w /\ NoDup (map fst l)); [apply t_lift; [auto|intros w H; apply H]|].
      intros i. eapply t_then with (M := fun _ w => rest_same w0 w /\ NoDup (map fst l)).
      { destruct (serialization_possible s); [|apply t_ret; auto]. apply t_write. intros w H. exact H. }
      intros _. apply t_ret. intros w (S & ND). split; [exact S|apply emplace_NoDup; exact ND].
    - eapply t_then with (M := fun _ w => rest_same w0 w /\ NoDup (map fst l)); [apply t_get; auto|].
      intros u. eapply t_then with (M := fun _ w => rest_same w0 w /\ NoDup (map fst l)); [apply t_content; [auto|intros w H; apply H]|].
      intros c. apply t_ret. intros w (S & ND). split; [exact S|apply emplace_NoDup; exact ND].
  Qed.
  Lemma maps_frame s now infras (w0 : world) :
    triple (maps_same w0) (get_tile_module _ _ _ _ _ _ export_osm import_tiles order s now infras)
      (fun _ => maps_same w0) (maps_same w0).
  Proof.
    unfold get_tile_module. apply (t_each _ (fun _ _ => maps_same w0)). intros d [n i] r ctx _. unfold tile_item.
    eapply t_then with (M := fun _ => maps_same w0).
    { unfold create_osm_file. eapply t_then with (M := fun _ => maps_same w0); [apply t_get; auto|]. intros v.
      eapply t_then with (M := fun _ => maps_same w0); [|intros _; apply t_ret; auto].
      destruct (_ || _); [|apply t_ret; auto]. eapply t_then with (M := fun _ => maps_same w0); [apply t_lift; auto|].
      intros o. apply t_write. intros w H. exact H. }
    intros p. eapply t_then with (M := fun _ => maps_same w0).
    { unfold create_tiles_db. eapply t_then with (M := fun _ => maps_same w0); [apply t_get; auto|]. intros v.
      eapply t_then with (M := fun _ => maps_same w0); [|intros _; apply t_ret; auto].
      destruct (_ || _); [|apply t_ret; auto]. eapply t_then with (M := fun _ => maps_same w0); [apply t_content; auto|].
      intros o. eapply t_then with (M := fun _ => maps_same w0); [apply t_lift; auto|].
      intros t. apply t_write. intros w H. exact H. }
    intros q. destruct (lookup _ ctx); [apply t_dies|apply t_ret]; auto.
  Qed.

  Lemma timetables_frame s now infras (w0 : world) :
    triple (all_but_raw_timetables w0) (get_timetable_module _ _ _ _ _ _ load_timetable order s now infras)
      (fun _ => all_but_raw_timetables w0) (all_but_raw_timetables w0).
  Proof.
    unfold get_timetable_module.
    eapply t_then with (M := fun _ => all_but_raw_timetables w0); [apply t_get; auto|]. intros v.
    apply (t_each _ (fun _ _ => all_but_raw_timetables w0)). intros d [m i] r ctxs _.
    eapply t_then with (M := fun _ => all_but_raw_timetables w0); [|intros c; apply t_ret; auto].
    apply (t_each _ (fun _ _ => all_but_raw_timetables w0)). intros d' it r' ctx _. unfold timetable_item.
    eapply t_then with (M := fun _ => all_but_raw_timetables w0); [apply t_lift; auto|]. intros [t|]; [|apply t_ret; auto].
    eapply t_then with (M := fun _ => all_but_raw_timetables w0); [|intros c; apply t_ret; auto].
    destruct it; [|apply t_ret; auto]. destruct (serialization_possible s); [|apply t_ret; auto].
    apply t_write. intros w H. exact H.
  Qed.
  Lemma start_frame s now (w0 : world) :
    triple (fun w => w = w0) (start_ s now) (fun _ w => w_infras w = w_infras w0) (fun w => w_infras w = w_infras w0).
  Proof.
    unfold start. eapply t_then with (M := fun _ w => w_infras w = w_infras w0).
    { eapply t_conseq; [apply (infras_frame s now w0)| | |]; cbv beta; [auto|intros l w H; apply H|intros w H; apply H]. }
    intros infras. apply t_pre. intros w1 E1. eapply t_then with (M := fun _ w => w_infras w = w_infras w0).
    { eapply t_conseq; [apply (maps_frame s now infras w1)| | |]; cbv beta; [intros v ->; repeat split| |];
        intros; rewrite <- E1; apply H. }
    intros tiles. apply t_pre. intros w2 E2. eapply t_then with (M := fun _ w => w_infras w = w_infras w0).
    { eapply t_conseq; [apply (timetables_frame s now infras w2)| | |]; cbv beta; [intros v ->; repeat split| |];
        intros; rewrite <- E2; apply H. }
    intros tts. apply t_ret. auto.
  Qed.

  (* ---- the timetables, for any files ---- *)
  Lemma start_timetables s now (w0 w : world) steps left sv :
    NoDup (map fst (w_timetables w0)) -> NoDup (map fst (w_raw_timetables w0)) ->
    start_ s now w0 steps = ((w, left), Runs sv) ->
    (forall m n t, get_timetable sv m n = Some t <->
       exists i x tx, get_infra sv m = Some i /\ In (n, Directory x tx) (w_timetables w0) /\
         load_timetable x i = Ok (Some t) /\ due s w0 n tx) /\
    (forall m, timetable_names sv m = Throw <-> get_infra sv m = None).
  Proof.
    intros ND NDr E.
    assert (G : triple (fun w => w = w0) (start_ s now) (fun sv w =>
        NoDup (map fst (sv_infras sv)) /\
        (forall m i, In (m, i) (sv_infras sv) -> exists ctx, lookup m (sv_timetables sv) = Some ctx /\
           ctx_of load_timetable (get_timetable_todo_list IS TS I T OSM DB s w0) i ctx) /\
        (forall m, ~ In m (map fst (sv_infras sv)) -> lookup m (sv_timetables sv) = None)) (fun _ => True)).
    { unfold start. eapply t_then.
      { eapply t_conseq; [apply (infras_frame s now w0)| | |]; cbv beta; [auto| |auto]. intros l v H. exact H. }
      intros infras. cbv beta. apply t_pre. intros w1 (S1 & NDi).
      eapply t_then.
      { eapply t_conseq; [apply (maps_frame s now infras w1)| | |]; cbv beta; [intros v ->; repeat split| |auto]. intros l v H. exact H. }
      intros tiles. cbv beta. apply t_pre. intros w2 S2.
      assert (Et : w_timetables w2 = w_timetables w0) by (destruct S1 as (_ & A & _), S2 as (_ & B & _); congruence).
      assert (Er : w_raw_timetables w2 = w_raw_timetables w0) by (destruct S1 as (_ & _ & A & _), S2 as (_ & _ & _ & B); congruence).
      eapply t_then.
      { eapply t_conseq; [apply (timetables_phase load_timetable order order_perm s now w2); [rewrite Et; exact ND|exact NDi]| | |];
          cbv beta; [auto| |auto]. intros l v H. exact H. }
      intros tts. cbv beta. apply t_ret. intros w3 (_ & A & B). cbn [sv_infras sv_timetables].
      unfold get_timetable_todo_list in *. rewrite Et, Er in A. auto. }
    specialize (G w0 steps w left (Runs sv) eq_refl E). cbv beta iota in G. destruct G as (NDi & A & B).
    assert (X : forall m, (exists i, get_infra sv m = Some i /\ In (m, i) (sv_infras sv)) \/ (get_infra sv m = None /\ lookup m (sv_timetables sv) = None)).
    { intros m. unfold get_infra. destruct (lookup m (sv_infras sv)) as [i|] eqn:El.
      - left. exists i. split; [reflexivity|apply lookup_In; exact El].
      - right. split; [reflexivity|]. apply B. apply lookup_None. exact El. }
    split.
    - intros m n t. unfold get_timetable. destruct (X m) as [(i & Gi & Hi)|(Gi & Hn)].
      + destruct (A m i Hi) as (ctx & El & C). rewrite El, (C n t). split.
        * intros (x & Hx & L). destruct (todo_In _ _ _ _ Hx) as (x' & tx & Hd & -> & Du). cbn [iname] in Hd, Du.
          exists i, x', tx. repeat split; auto. destruct Du as [Du|[Du|Du]]; [left; auto|right; left; auto|right; right].
          intros f Hf. apply Du. apply In_lookup; auto.
        * intros (i' & x & tx & Gi' & Hd & L & Du). rewrite Gi in Gi'. injection Gi' as <-. exists x. split; [|exact L].
          apply In_todo_due with (t := tx); [exact Hd|]. destruct Du as [Du|[Du|Du]]; [left; auto|right; left; auto|right; right].
          intros f Hf. apply Du. apply lookup_In. exact Hf.
      + rewrite Hn. split; [discriminate|]. intros (i & x & tx & Gi' & _). congruence.
    - intros m. unfold timetable_names. destruct (X m) as [(i & Gi & Hi)|(Gi & Hn)].
      + destruct (A m i Hi) as (ctx & El & _). rewrite El, Gi. split; discriminate.
      + rewrite Hn, Gi. split; auto.
  Qed.

  (* ---- the infrastructures ---- *)
  Section Served.
    Variables (s : settings) (now : N) (w0 : world) (Wok : world -> Prop).
    Hypothesis ND : NoDup (map fst (w_infras w0)).
    Hypothesis H2 : forall n x t i w, In (n, Directory x t) (w_infras w0) -> load_infra x = Ok i ->
      rest_same w0 w -> Wok w ->
      Wok (set_raw_infra _ _ _ _ _ _ n (mk_file (Some (n, i)) now) (set_raw_infra _ _ _ _ _ _ n (mk_file None now) w)).
    Hypothesis H3 : forall n f c w, In (Raw n) (get_infrastructure_todo_list _ _ _ _ _ _ s w0) ->
      rest_same w0 w -> Wok w -> lookup n (w_raw_infras w) = Some f -> f_content f = Some c ->
      fst c = n /\ infra_source load_infra w0 n (snd c).
    Hypothesis H4 : forall v w, w_infras v = w_infras w -> w_raw_infras v = w_raw_infras w -> Wok v -> Wok w.

    Lemma source_fun n i j : infra_source load_infra w0 n i -> infra_source load_infra w0 n j -> i = j.
    Proof.
      intros (x & t & Hx & Lx) (y & u & Hy & Ly). apply (In_lookup _ _ _ ND) in Hx. apply (In_lookup _ _ _ ND) in Hy.
      rewrite Hx in Hy. injection Hy as -> ->. congruence.
    Qed.

    (* everything the later phases need to know *)
    Definition infras_done (l : list (text * I)) (w : world) : Prop :=
      Wok w /\ NoDup (map fst l) /\
      (forall n i, lookup n l = Some i <-> infra_source load_infra w0 n i) /\
      (forall n x t, In (n, Directory x t) (w_infras w0) -> lookup n l <> None) /\
      (serialization_possible s = true -> regenerate s = true ->
         forall n x t, In (n, Directory x t) (w_infras w0) -> saved load_infra w n x).

    Lemma infras_whole :
      triple (fun w => w = w0 /\ Wok w) (get_infrastructure_module _ _ _ _ _ _ load_infra s now)
        (fun l w => rest_same w0 w /\ infras_done l w) (fun w => rest_same w0 w /\ Wok w).
    Proof.
      eapply t_conseq; [apply (infras_phase load_infra s now w0 Wok (infra_source load_infra w0) ND)| | |]; cbv beta.
      - intros n x t i Hx L. exists x, t. auto.
      - exact H2.
      - exact H3.
      - auto.
      - intros l w (S & Wk & NDl & A & B & C). split; [exact S|]. split; [exact Wk|]. split; [exact NDl|].
        assert (B' : forall n x t, In (n, Directory x t) (w_infras w0) -> lookup n l <> None).
        { intros n x t Hx. destruct (In_todo s (w_raw_infras w0) _ _ _ _ Hx) as [Hi|Hi]; exact (B _ Hi). }
        split; [|split; [exact B'|]].
        + intros n i. split; [intros El; exact (proj1 (A n i El))|]. intros Hs.
          destruct (lookup n l) as [j|] eqn:El.
          * f_equal. apply (source_fun n); [exact (proj1 (A n j El))|exact Hs].
          * destruct Hs as (x & t & Hx & _). destruct (B' n x t Hx El).
        + intros Se Re n x t Hx. apply (C Se). apply In_todo_due with (t := t); auto.
      - auto.
    Qed.

    Definition exactly_served (sv : server I T) : Prop :=
      (forall n i, get_infra sv n = Some i <-> infra_source load_infra w0 n i) /\
      (forall n, In n (infrastructure_names sv) <-> exists x t, In (n, Directory x t) (w_infras w0)).

    Lemma start_infras :
      triple (fun w => w = w0 /\ Wok w) (start_ s now)
        (fun sv w => w_infras w = w_infras w0 /\ w_timetables w = w_timetables w0 /\ Wok w /\
           exactly_served sv)
        (fun w => w_infras w = w_infras w0 /\ w_timetables w = w_timetables w0 /\ Wok w).
    Proof.
      unfold start. eapply t_then.
      { eapply t_conseq; [apply infras_whole| | |]; cbv beta; [auto|intros l w H; exact H|]. intros w ((A & B & _) & C). auto. }
      intros infras. cbv beta. apply t_pre. intros w1 (S1 & Wk & NDi & A & B & _).
      eapply t_then with (M := fun _ w => maps_same w1 w).
      { eapply t_conseq; [apply (maps_frame s now infras w1)| | |]; cbv beta; [intros v ->; repeat split|auto|].
        intros w S2. destruct S1 as (X1 & X2 & _), S2 as (Y1 & Y2 & Y3 & _). repeat split; try congruence. apply (H4 w1 w); auto. }
      intros tiles. apply t_pre. intros w2 S2.
      assert (W2 : w_infras w2 = w_infras w0 /\ w_timetables w2 = w_timetables w0 /\ Wok w2).
      { destruct S1 as (X1 & X2 & _), S2 as (Y1 & Y2 & Y3 & _). repeat split; try congruence. apply (H4 w1 w2); auto. }
      eapply t_then with (M := fun _ w => all_but_raw_timetables w2 w).
      { eapply t_conseq; [apply (timetables_frame s now infras w2)| | |]; cbv beta; [intros w ->; repeat split|intros a w H; exact H|].
        intros w (Y1 & Y2 & Y3 & _). destruct W2 as (X1 & X2 & X3). repeat split; try congruence. apply (H4 w2 w); auto. }
      intros tts. apply t_ret. intros w (Y1 & Y2 & Y3 & _). destruct W2 as (X1 & X2 & X3). repeat split; try congruence.
      - apply (H4 w2 w); auto.
      - apply A.
      - apply A.
      - unfold infrastructure_names. cbn [sv_infras]. intros H. destruct (lookup n infras) as [i|] eqn:El; [|apply lookup_None in El; contradiction].
        apply A in El. destruct El as (x & t & Hx & _). exists x, t. exact Hx.
      - unfold infrastructure_names. cbn [sv_infras]. intros (x & t & Hx). specialize (B n x t Hx).
        destruct (lookup n infras) as [i|] eqn:El; [|contradiction]. apply lookup_In in El. apply (in_map fst) in El. exact El.
    Qed.
  End Served.

  (* ---- every history ---- *)
  Definition raws_ok (now : N) (w : world) : Prop :=
    forall n f, lookup n (w_raw_infras w) = Some f -> (f_time f <= now)%N /\
      exists i, f_content f = Some (n, i) /\
        forall x t, In (n, Directory x t) (w_infras w) -> (t <= f_time f)%N -> load_infra x = Ok i.
  Definition raws_newer (w0 w : world) : Prop :=
    forall n f0, lookup n (w_raw_infras w0) = Some f0 ->
      exists f, lookup n (w_raw_infras w) = Some f /\ (f_time f0 <= f_time f)%N.

  Lemma start_history s now (w0 : world) :
    sources_ok w0 now -> raws_ok now w0 ->
    triple (fun w => w = w0) (start_ s now)
      (fun sv w => (w_infras w = w_infras w0 /\ w_timetables w = w_timetables w0 /\ raws_ok now w) /\
         exactly_served w0 sv)
      (fun w => w_infras w = w_infras w0 /\ w_timetables w = w_timetables w0 /\ raws_ok now w).
  Proof.
    intros (ND & _ & Ht) R0.
    eapply t_conseq; [apply (start_infras s now w0 (fun w => w_infras w = w_infras w0 /\ raws_ok now w /\ raws_newer w0 w) ND)| | |]; cbv beta.
    - intros n x t i w Hx L S (E & R & Nw). cbn. split; [exact E|]. split.
      + intros m f. cbn. rewrite !lookup_put. destruct (text_eqb_spec m n) as [->|Nm].
        * intros [= <-]. cbn. split; [lia|]. exists i. split; [reflexivity|]. intros y u Hy _. rewrite E in Hy.
          apply (In_lookup _ _ _ ND) in Hy. apply (In_lookup _ _ _ ND) in Hx. rewrite Hx in Hy. injection Hy as -> _. exact L.
        * intros Hf. exact (R m f Hf).
      + intros m f0 Hf0. cbn. rewrite !lookup_put. destruct (text_eqb_spec m n) as [->|Nm].
        * eexists. split; [reflexivity|]. cbn. exact (proj1 (R0 n f0 Hf0)).
        * exact (Nw m f0 Hf0).
    - intros n f c w Hi S (E & R & Nw) Hf Hc. destruct (todo_In _ _ _ _ Hi) as (x & t & Hx & _ & _ & f0 & Hf0 & L). cbn [iname] in *.
      destruct (Nw n f0 Hf0) as (f' & Hf' & L'). rewrite Hf in Hf'. injection Hf' as <-.
      destruct (R n f Hf) as (_ & i & Ec & Hs). rewrite Hc in Ec. injection Ec as ->. cbn [fst snd]. split; [reflexivity|].
      exists x, t. split; [exact Hx|]. apply (Hs x t); [rewrite E; exact Hx|lia].
    - intros v w Ei Er (E & R & Nw). split; [congruence|]. split.
      + intros n f. rewrite <- Er. intros Hf. destruct (R n f Hf) as (A & i & B & C). split; [exact A|]. exists i.
        split; [exact B|]. rewrite <- Ei. exact C.
      + intros n f0 Hf0. rewrite <- Er. exact (Nw n f0 Hf0).
    - intros w ->. split; [reflexivity|]. split; [reflexivity|]. split; [exact R0|]. intros n f0 Hf0. exists f0. split; [exact Hf0|lia].
    - intros sv w (A & B & (_ & C & _) & D). auto.
    - intros w (A & B & (_ & C & _)). auto.
  Qed.

  Lemma past_ok w now : past load_infra load_timetable export_osm import_tiles order w now -> sources_ok w now /\ raws_ok now w.
  Proof.
    induction 1 as [w now S U|v w t now _ [S R] L (S' & (Er & _) & Hc)|v w s t now steps left e _ [S R] L E Ne].
    - split; [exact S|]. intros n f. rewrite (proj1 U). discriminate.
    - split; [exact S'|]. intros n f. rewrite Er. intros Hf. destruct (R n f Hf) as (A & i & B & C). split; [lia|].
      exists i. split; [exact B|]. intros x u Hx Lu. destruct (Hc n x u Hx) as [Hv| ->]; [exact (C x u Hv Lu)|lia].
    - assert (S' : sources_ok v now).
      { destruct S as (A & B & C). repeat split; auto. intros n x u Hx. specialize (C n x u Hx). lia. }
      assert (R' : raws_ok now v).
      { intros n f Hf. destruct (R n f Hf) as (A & B). split; [lia|exact B]. }
      assert (G := start_history s now v S' R' v steps w left e eq_refl E).
      assert (G' : w_infras w = w_infras v /\ w_timetables w = w_timetables v /\ raws_ok now w).
      { destruct e; try exact G; [exact (proj1 G)|congruence]. }
      destruct G' as (A & B & C). split; [|exact C]. unfold sources_ok. rewrite A, B. exact S'.
  Qed.

  Lemma served_current w t s now steps w' left sv :
    past load_infra load_timetable export_osm import_tiles order w t -> (t < now)%N ->
    start_ s now w steps = ((w', left), Runs sv) ->
    (forall n i, get_infra sv n = Some i <-> infra_source load_infra w n i) /\
    (forall n, In n (infrastructure_names sv) <-> exists x t, In (n, Directory x t) (w_infras w)).
  Proof.
    intros P L E. destruct (past_ok w t P) as [S R].
    assert (S' : sources_ok w now).
    { destruct S as (A & B & C). repeat split; auto. intros n x u Hx. specialize (C n x u Hx). lia. }
    assert (R' : raws_ok now w).
    { intros n f Hf. destruct (R n f Hf) as (A & B). split; [lia|exact B]. }
    exact (proj2 (start_history s now w S' R' w steps w' left _ eq_refl E)).
  Qed.

  Lemma served_regenerated s now (w : world) steps w' left sv :
    NoDup (map fst (w_infras w)) -> regenerate s = true \/ serialization_possible s = false ->
    start_ s now w steps = ((w', left), Runs sv) ->
    (forall n i, get_infra sv n = Some i <-> infra_source load_infra w n i) /\
    (forall n, In n (infrastructure_names sv) <-> exists x t, In (n, Directory x t) (w_infras w)).
  Proof.
    intros ND Hs E.
    refine (proj2 (proj2 (proj2 (start_infras s now w (fun _ => True) ND _ _ _ w steps w' left _ (conj eq_refl Logic.I) E)))); auto.
    intros n f c v Hi. destruct (todo_In _ _ _ _ Hi) as (x & t & _ & A & B & _). destruct Hs; congruence.
  Qed.

  (* ---- the maps ---- *)
  Section Drawn.
    Variables (s : settings) (now : N) (w0 : world) (U : Prop).
    Hypothesis ND : NoDup (map fst (w_infras w0)).
    Hypothesis SD : stems_distinct w0.
    Hypothesis HU : regenerate s = false -> U.
    Definition dir_name (n : text) : Prop := exists x t, In (n, Directory x t) (w_infras w0).
    Definition right_osm (n : text) (o : OSM) : Prop := exists i, infra_source load_infra w0 n i /\ export_osm i = Ok o.
    Definition raws_right (w : world) : Prop :=
      U -> forall n x t f, In (n, Directory x t) (w_infras w0) -> lookup n (w_raw_infras w) = Some f ->
        exists i, f_content f = Some (n, i) /\ load_infra x = Ok i.
    Notation minv := (map_inv import_tiles U dir_name right_osm).
    Notation gosm := (good_osm right_osm).
    Notation gdb := (good_db import_tiles right_osm).

    Lemma dir_names_osm n m : dir_name n -> dir_name m -> osm_path n = osm_path m -> n = m.
    Proof.
      intros (x & t & Hn) (y & u & Hm) E. apply (replace_distinct n m (list_ascii_of_string ".osm")); [|exact E].
      intros p. apply SD; [apply (in_map fst) in Hn; exact Hn|apply (in_map fst) in Hm; exact Hm].
    Qed.
    Lemma dir_names_db n m : dir_name n -> dir_name m -> db_path n = db_path m -> n = m.
    Proof.
      intros (x & t & Hn) (y & u & Hm) E. apply (replace_distinct n m (list_ascii_of_string ".mdb")); [|exact E].
      intros p. apply SD; [apply (in_map fst) in Hn; exact Hn|apply (in_map fst) in Hm; exact Hm].
    Qed.

    Lemma minv_same (v w : world) : w_osm v = w_osm w -> w_tiles v = w_tiles w -> minv v -> minv w.
    Proof.
      intros Eo Et M u n Hn. destruct (M u n Hn) as [A B]. unfold good_osm, good_db in *. rewrite Eo in A. rewrite Et in B. auto.
    Qed.
    Lemma raws_right_same v w : w_raw_infras v = w_raw_infras w -> raws_right v -> raws_right w.
    Proof. intros E R u n x t f. rewrite <- E. apply (R u). Qed.

    Lemma start_maps :
      triple (fun w => w = w0 /\ raws_right w /\ minv w) (start_ s now)
        (fun sv w => raws_right w /\ minv w /\
           (forall n, dir_name n -> gosm w n /\ gdb w n /\ lookup n (sv_tiles sv) = Some (db_path n)) /\
           (forall n i, get_infra sv n = Some i <-> infra_source load_infra w0 n i) /\
           (serialization_possible s = true -> regenerate s = true ->
              forall n x t, In (n, Directory x t) (w_infras w0) -> saved load_infra w n x))
        (fun w => raws_right w /\ minv w).
    Proof.
      unfold start. eapply t_then.
      { eapply t_conseq; [apply (infras_whole s now w0 (fun w => raws_right w /\ minv w) ND)| | |]; cbv beta.
        - intros n x t i w Hx L S (R & M). split; [|exact M].
          intros u m y v f Hy. cbn. rewrite !lookup_put. destruct (text_eqb_spec m n) as [->|Nm].
          + intros [= <-]. exists i. split; [reflexivity|].
            apply (In_lookup _ _ _ ND) in Hy. apply (In_lookup _ _ _ ND) in Hx. rewrite Hx in Hy. injection Hy as -> _. exact L.
          + intros Hf. exact (R u m y v f Hy Hf).
        - intros n f c w Hi S (R & M) Hf Hc. destruct (todo_In _ _ _ _ Hi) as (x & t & Hx & Re & _). cbn [iname] in Hx.
          destruct (R (HU Re) n x t f Hx Hf) as (i & Ec & L). rewrite Hc in Ec. injection Ec as ->. cbn [fst snd].
          split; [reflexivity|]. exists x, t. auto.
        - auto.
        - intros l w H. exact H.
        - intros w H. apply H. }
      intros infras. cbv beta. apply t_pre. intros w1 (S1 & (R1 & M1) & NDi & A & B & C).
      assert (Dn : forall n, In n (map fst infras) <-> dir_name n).
      { intros n. split; intros H.
        - destruct (lookup n infras) as [i|] eqn:El; [|apply lookup_None in El; contradiction].
          apply A in El. destruct El as (x & t & Hx & _). exists x, t. exact Hx.
        - destruct H as (x & t & Hx). specialize (B n x t Hx). destruct (in_dec (list_eq_dec ascii_dec) n (map fst infras)) as [H|H]; [exact H|].
          apply lookup_None in H. contradiction. }
      eapply t_then.
      { eapply t_conseq; [apply (maps_phase export_osm import_tiles order order_perm s now w1 infras U dir_name right_osm HU)| | |]; cbv beta.
        - intros n H. apply Dn. exact H.
        - exact dir_names_osm.
        - exact dir_names_db.
        - intros n i o Hi _ Eo. exists i. split; [|exact Eo]. apply A. apply In_lookup; auto.
        - exact NDi.
        - intros w ->. auto.
        - intros l w H. exact H.
        - intros w (S2 & M2). split; [|exact M2]. apply (raws_right_same w1); [|exact R1]. symmetry. apply S2. }
      intros tiles. cbv beta. apply t_pre. intros w2 (S2 & M2 & X & _).
      assert (R2 : raws_right w2) by (apply (raws_right_same w1); [symmetry; apply S2|exact R1]).
      eapply t_then with (M := fun _ => all_but_raw_timetables w2).
      { eapply t_conseq; [apply (timetables_frame s now infras w2)| | |]; cbv beta; [intros w ->; repeat split|auto|].
        intros w (Y1 & Y2 & Y3 & Y4 & Y5). split; [apply (raws_right_same w2); auto|apply (minv_same w2); auto]. }
      intros tts. apply t_ret. intros w (Y1 & Y2 & Y3 & Y4 & Y5). cbn [sv_tiles].
      split; [apply (raws_right_same w2); auto|]. split; [apply (minv_same w2); auto|]. split; [|split].
      - intros n Hn. apply Dn in Hn. destruct (X n Hn) as (X1 & X2 & X3). unfold good_osm, good_db in *. rewrite Y4, Y5. auto.
      - exact A.
      - intros Se Re n x t Hx. destruct (C Se Re n x t Hx) as (f & i & F1 & F2). exists f, i. split; [|exact F2].
        rewrite Y3. destruct S2 as (_ & _ & -> & _). exact F1.
    Qed.
  End Drawn.

  Lemma right_same (v w : world) n o : w_infras w = w_infras v -> right_osm v n o -> right_osm w n o.
  Proof. intros E (i & (x & t & Hx & L) & Eo). exists i. split; [|exact Eo]. exists x, t. rewrite E. auto. Qed.
  Lemma minv_move (v w u : world) : w_infras w = w_infras v -> map_inv import_tiles True (dir_name v) (right_osm v) u ->
    map_inv import_tiles True (dir_name w) (right_osm w) u.
  Proof.
    intros E M _ n Hn. assert (Hv : dir_name v n) by (unfold dir_name in *; rewrite <- E; exact Hn).
    destruct (M Logic.I n Hv) as [A B]. split; intros H.
    - destruct (A H) as (f & o & X & Y & Z). exists f, o. split; [exact X|]. split; [exact Y|]. apply (right_same v w); auto.
    - destruct (B H) as (f & d & X & Y & o & Z & Z'). exists f, d. split; [exact X|]. split; [exact Y|]. exists o. split; [|exact Z'].
      apply (right_same v w); auto.
  Qed.
  Lemma raws_move (v w u : world) : w_infras w = w_infras v -> raws_right v True u -> raws_right w True u.
  Proof. intros E R _ n x t f. rewrite E. exact (R Logic.I n x t f). Qed.

  Lemma fresh_ok w : maps_fresh load_infra load_timetable export_osm import_tiles order w ->
    NoDup (map fst (w_infras w)) /\
    (stems_distinct w -> raws_right w True w /\ map_inv import_tiles True (dir_name w) (right_osm w) w).
  Proof.
    induction 1 as [w ND U|v w s now steps left sv ND Re Se E|v w s now steps left e _ [ND IH] E Ne].
    - split; [exact ND|]. intros _. destruct U as (U1 & _ & U2 & U3). split.
      + intros _ n x t f _. rewrite U1. discriminate.
      + intros _ n _. rewrite U2, U3. split; intros H; destruct H; reflexivity.
    - assert (Ei := start_frame s now v v steps w left (Runs sv) eq_refl E). cbv beta iota in Ei.
      split; [rewrite Ei; exact ND|]. intros SD.
      assert (SDv : stems_distinct v) by (unfold stems_distinct in *; rewrite <- Ei; exact SD).
      assert (HU : regenerate s = false -> False) by congruence.
      assert (G := start_maps s now v False ND SDv HU v steps w left (Runs sv)).
      destruct G as (_ & _ & X & _ & Y); [|exact E|].
      { split; [reflexivity|]. split; intros []. }
      split.
      + apply (raws_move v); [exact Ei|]. intros _ n x t f Hx Hf. destruct Se as [Se|Se].
        * destruct (Y Se Re n x t Hx) as (f' & i & F1 & F2 & F3). rewrite Hf in F1. injection F1 as <-. exists i. auto.
        * assert (W : triple (fun w => w = v) (start_ s now) (fun _ w => raws_right v True w) (fun _ => True)).
          { eapply t_conseq; [apply (start_infras s now v (raws_right v True) ND)| | |]; cbv beta.
            - intros m y u i w' Hy L _ R Ut k z r g Hz. cbn. rewrite !lookup_put. destruct (text_eqb_spec k m) as [->|Nm].
              + intros [= <-]. exists i. split; [reflexivity|].
                apply (In_lookup _ _ _ ND) in Hy. apply (In_lookup _ _ _ ND) in Hz. rewrite Hy in Hz. injection Hz as -> _. exact L.
              + intros Hg. exact (R Ut k z r g Hz Hg).
            - intros m g c w' Hi. destruct (todo_In _ _ _ _ Hi) as (z & r & _ & Q & _). congruence.
            - intros a b _ Er. apply raws_right_same. exact Er.
            - intros a ->. split; [reflexivity|]. intros _ m y u g _. rewrite Se. discriminate.
            - intros a b H. apply H.
            - auto. }
          exact (W v steps w left _ eq_refl E Logic.I n x t f Hx Hf).
      + apply (minv_move v); [exact Ei|]. intros _ n Hn. destruct (X n Hn) as (X1 & X2 & _). auto.
    - assert (Ei : w_infras w = w_infras v).
      { assert (Ei := start_frame s now v v steps w left e eq_refl E). destruct e; try exact Ei. congruence. }
      split; [rewrite Ei; exact ND|]. intros SD.
      assert (SDv : stems_distinct v) by (unfold stems_distinct in *; rewrite <- Ei; exact SD).
      destruct (IH SDv) as [R M].
      assert (HU : regenerate s = false -> True) by auto.
      assert (G := start_maps s now v True ND SDv HU v steps w left e (conj eq_refl (conj R M)) E).
      assert (G' : raws_right v True w /\ map_inv import_tiles True (dir_name v) (right_osm v) w).
      { destruct e; try exact G; [|congruence]. split; apply G. }
      split; [apply (raws_move v); [exact Ei|apply G']|apply (minv_move v); [exact Ei|apply G']].
  Qed.

  Lemma map_current w s now steps w' left sv :
    maps_fresh load_infra load_timetable export_osm import_tiles order w -> stems_distinct w ->
    start_ s now w steps = ((w', left), Runs sv) ->
    forall n i, infra_source load_infra w n i ->
      get_infra sv n = Some i /\ exists d, drawn_map export_osm import_tiles i d /\ map_of w' sv n = Some (Some d).
  Proof.
    intros F SD E n i Hi. destruct (fresh_ok w F) as [ND RM]. destruct (RM SD) as [R M].
    assert (HU : regenerate s = false -> True) by auto.
    assert (G := start_maps s now w True ND SD HU w steps w' left (Runs sv) (conj eq_refl (conj R M)) E).
    cbv beta iota in G. destruct G as (_ & _ & X & A & _). split; [apply A; exact Hi|].
    destruct (X n) as (_ & (f & d & F1 & F2 & o & (j & Hj & Eo) & Ed) & L); [destruct Hi as (x & t & Hx & _); exists x, t; exact Hx|].
    assert (i = j) as -> by (apply (source_fun w ND n); auto).
    exists d. split; [exists o; auto|]. unfold map_of. rewrite L, F1, F2. reflexivity.
  Qed.

  Lemma map_regenerated (w : world) s now steps w' left sv :
    NoDup (map fst (w_infras w)) -> stems_distinct w -> regenerate s = true ->
    start_ s now w steps = ((w', left), Runs sv) ->
    forall n i, infra_source load_infra w n i ->
      get_infra sv n = Some i /\ exists d, drawn_map export_osm import_tiles i d /\ map_of w' sv n = Some (Some d).
  Proof.
    intros ND SD Re E n i Hi.
    assert (HU : regenerate s = false -> False) by congruence.
    assert (G := start_maps s now w False ND SD HU w steps w' left (Runs sv)).
    destruct G as (_ & _ & X & A & _); [|exact E|].
    { split; [reflexivity|]. split; intros []. }
    split; [apply A; exact Hi|].
    destruct (X n) as (_ & (f & d & F1 & F2 & o & (j & Hj & Eo) & Ed) & L); [destruct Hi as (x & t & Hx & _); exists x, t; exact Hx|].
    assert (i = j) as -> by (apply (source_fun w ND n); auto).
    exists d. split; [exists o; auto|]. unfold map_of. rewrite L, F1, F2. reflexivity.
  Qed.
End Whole.
