(* C125: the station pane of the web client shows the station clicked last, and its switches the
   highlighted routes; where they do not.
   Reading guide: ClientStationSpec.v; page, event and run are those of ClientStationModel.v: the user
   clicks stations, presses the buttons of the sidebar, loads infrastructures and toggles
   switches; requests are answered or fail at any later moment. *)
From Verif Require Import Base ClientStationModel ClientStationSpec.
Local Open Scope nat_scope.

(* ---- the overlays ---- *)
Lemma overlay_spec a b : reflect (a = b) (overlay_eqb a b).
Proof. destruct a, b; constructor; congruence. Qed.
Lemma draw_fields c o : selected (draw c o) = o /\ visible (draw c o) = visible c /\ infra (draw c o) = infra c /\ current (draw c o) = current c /\ highlighted (draw c o) = highlighted c.
Proof.
  unfold draw. destruct o; cbn; auto 6. destruct (the_pane c); cbn; auto 6. destruct (current c); cbn; auto 6.
Qed.
(* A button shows its overlay instead of any other, or hides it if it was seen. *)
Theorem C125_buttons c o o' : seen (press c o) o' <-> o' = o /\ ~ seen c o.
Proof.
  unfold seen, press. destruct (overlay_spec (selected c) o) as [E|N].
  - cbn [show visible selected]. destruct (visible c); cbn [negb]; split.
    + intros (H & _). discriminate.
    + intros (_ & H). destruct H. auto.
    + intros (_ & H). split; [congruence|]. intros (K & _). discriminate.
    + intros (-> & _). auto.
  - destruct (visible c) eqn:V; destruct (draw_fields c o) as (A & B & _); destruct (draw_fields (show c true) o) as (A' & B' & _); cbn [show visible] in *.
    + rewrite A, B. split; [intros (_ & <-); split; [reflexivity|]; intros (_ & K); congruence|]. intros (-> & _). auto.
    + rewrite A', B'. split; [intros (_ & <-); split; [reflexivity|]; intros (_ & K); congruence|]. intros (-> & _). auto.
Qed.
Print Assumptions C125_buttons.

Definition bound (c : page) : Prop := forall q i s, In (Fetch q i s) (pending c) -> q < fresh c.
Record wf (c : page) : Prop := mkwf {
  wf_pane : the_pane c <> None <-> selected c = Stations;
  wf_fresh : bound c;
  wf_no : forall p, the_pane c = Some p -> p_no p < fresh c }.
Lemma remove_In {A} n (l : list A) x : In x (remove_nth n l) -> In x l.
Proof. revert n. induction l as [|y l IH]; intros n H; [destruct n; exact H|]. destruct n; cbn in H; [right; exact H|]. destruct H as [->|H]; [left; reflexivity|right; eapply IH, H]. Qed.
Lemma wf_draw c o : bound c -> (forall p, the_pane c = Some p -> p_no p < fresh c) -> wf (draw c o).
Proof.
  intros B N. assert (O : o <> Stations -> wf (draw c o)).
  { intros H. destruct o; [| |congruence]; (split; cbn; [split; congruence|exact B|discriminate]). }
  destruct o; try (apply O; discriminate). unfold draw. destruct (the_pane c) as [p|] eqn:E.
  - split; cbn; [split; [reflexivity|discriminate]|exact B|intros q Q; apply N, Q].
  - destruct (current c) as [s|] eqn:Cs; (split; cbn; rewrite ?Cs; cbn; [split; [reflexivity|discriminate]| |intros q [= <-]; cbn; lia]).
    + intros q i t I. cbn in I. apply in_app_or in I as [I|[[= <- <- <-]|[]]]; [apply B in I|]; cbn; lia.
    + intros q i t I. apply B in I. cbn. lia.
Qed.
Lemma wf_ask c r : wf c -> (forall q i s, r = Fetch q i s -> q < fresh c) -> wf (ask c r).
Proof.
  intros [P B N] F. split; cbn; [exact P| |exact N]. intros q i s I. cbn in I. apply in_app_or in I as [I|[->|[]]]; [apply B in I; exact I|]. eapply F. reflexivity.
Qed.
Lemma wf_step srv c e : wf c -> wf (step srv c e).
Proof.
  intros [P B N]. destruct e as [s|o|i|r|n|n]; cbn [step].
  - unfold click. set (c' := mkpage _ _ _ _ _ _ _ _). assert (W : wf (draw c' Stations)) by (apply wf_draw; [exact B|exact N]).
    destruct (the_pane c) as [p|] eqn:E; [|exact W]. destruct (match current c with Some t => _ | None => _ end); [|exact W].
    unfold fetch_station. apply wf_ask; [exact W|]. intros q i t [= <- _ _]. apply (wf_no _ W). unfold draw, c'. cbn. rewrite ?E. reflexivity.
  - unfold press. destruct (overlay_eqb (selected c) o); [split; [exact P|exact B|exact N]|]. destruct (visible c); apply wf_draw; assumption.
  - split; [exact P|exact B|exact N].
  - unfold toggle. destruct (the_pane c) as [p|] eqn:E; [|split; [rewrite E; exact P|exact B|rewrite E; exact N]].
    destruct (switch_of r (p_switches p)) as [b|]; [|split; [rewrite E; exact P|exact B|rewrite E; exact N]].
    set (c' := set_pane c _). assert (W : wf c').
    { split; cbn; [split; [intros _; apply P; discriminate|discriminate]|exact B|]. intros q [= <-]. exact (N _ eq_refl). }
    destruct (negb b).
    + destruct (infra c') as [i|]; [|exact W]. apply wf_ask; [exact W|discriminate].
    + destruct W as [P' B' N']. split; assumption.
  - unfold answer. destruct (nth_error (pending c) n) as [q|] eqn:Q; [|split; assumption].
    assert (W : wf (set_pending c (remove_nth n (pending c)))).
    { split; cbn; [exact P| |exact N]. intros q' i s I. eapply B, remove_In, I. }
    destruct q as [no [i|] s|i r]; [|exact W|destruct W as [P' B' N']; split; assumption].
    destruct (srv i s) as [st|]; [|exact W]. unfold fetched. cbn [the_pane set_pending]. destruct (the_pane c) as [p|] eqn:E; [|exact W].
    destruct (Nat.eqb_spec (p_no p) no) as [<-|]; [|exact W].
    destruct W as [P' B' N']. split; cbn; [split; [intros _; apply P; discriminate|discriminate]|exact B'|]. intros q [= <-]. exact (N _ eq_refl).
  - split; cbn; [exact P| |exact N]. intros q' i s I. eapply B, remove_In, I.
Qed.
Lemma wf_run srv l : forall c, wf c -> wf (run srv c l).
Proof. induction l as [|e l IH]; intros c W; [exact W|]. apply IH, wf_step, W. Qed.
Lemma wf_start : wf start.
Proof. split; cbn; [split; [congruence|discriminate]|intros ? ? ? []|discriminate]. Qed.
(* The pane is there exactly if its overlay is selected; a click on a station brings it up. *)
Theorem C125_click srv l s : let c := run srv start l in
  (the_pane c <> None <-> selected c = Stations) /\ seen (click c s) Stations /\ the_pane (click c s) <> None /\ current (click c s) = Some s.
Proof.
  intros c. pose proof (wf_run srv l _ wf_start) as W. fold c in W. split; [apply W|].
  assert (W' : wf (click c s)) by (apply (wf_step srv c (Click s) W)).
  assert (X : seen (click c s) Stations /\ current (click c s) = Some s).
  { unfold seen, click. set (c' := mkpage _ _ _ _ _ _ _ _). destruct (draw_fields c' Stations) as (A & B & _ & C & _).
    destruct (the_pane c) as [p|]; [destruct (match current c with Some t => _ | None => _ end)|]; cbn; rewrite ?A, ?B, ?C; auto. }
  destruct X as ((A & B) & C). split; [split; assumption|]. split; [apply (wf_pane _ W'), B|exact C].
Qed.
Print Assumptions C125_click.

(* ---- the station ---- *)
Lemma current_step srv c e : current (step srv c e) = match e with Click s => Some s | _ => current c end.
Proof.
  destruct e as [s|o|i|r|n|n]; cbn [step]; try reflexivity.
  - unfold click. set (c' := mkpage _ _ _ _ _ _ _ _). destruct (draw_fields c' Stations) as (_ & _ & _ & C & _).
    destruct (the_pane c) as [p|]; [destruct (match current c with Some t => _ | None => _ end)|]; cbn; exact C.
  - unfold press. destruct (overlay_eqb _ _); [reflexivity|]. destruct (visible c); [apply (draw_fields c o)|apply (draw_fields (show c true) o)].
  - unfold toggle. destruct (the_pane c) as [p|]; [|reflexivity]. destruct (switch_of _ _) as [b|]; [|reflexivity].
    destruct (negb b); [|reflexivity]. destruct (infra _); reflexivity.
  - unfold answer. destruct (nth_error _ _) as [[no [i|] s|i r]|]; try reflexivity. destruct (srv i s); [|reflexivity].
    unfold fetched. destruct (the_pane _) as [p|]; [|reflexivity]. destruct (Nat.eqb _ _); reflexivity.
Qed.
(* the requests of a pane, oldest first *)
Definition asked (no : nat) (l : list request) : list (option nat * nat) :=
  flat_map (fun q => match q with Fetch p i s => if Nat.eqb p no then [(i, s)] else [] | Show _ _ => [] end) l.
Lemma asked_cons no q l : asked no (q :: l) = match q with Fetch p i s => if Nat.eqb p no then [(i, s)] else [] | Show _ _ => [] end ++ asked no l.
Proof. reflexivity. Qed.
Arguments asked : simpl never.
Lemma asked_app no a b : asked no (a ++ b) = asked no a ++ asked no b.
Proof. unfold asked. apply flat_map_app. Qed.
Lemma asked_In no l i s : In (i, s) (asked no l) <-> In (Fetch no i s) l.
Proof.
  unfold asked. rewrite in_flat_map. split.
  - intros ([p j t|j r] & I & H); [|destruct H]. destruct (Nat.eqb_spec p no) as [->|]; [|destruct H]. destruct H as [[= -> ->]|[]]. exact I.
  - intros I. exists (Fetch no i s). split; [exact I|]. rewrite Nat.eqb_refl. left. reflexivity.
Qed.
Lemma asked_none no l : (forall i s, ~ In (Fetch no i s) l) -> asked no l = [].
Proof. intros N. destruct (asked no l) as [|(i & s) r] eqn:E; [reflexivity|]. destruct (N i s). apply asked_In. rewrite E. left. reflexivity. Qed.
(* what the pane shows once all its requests are answered in order *)
Definition settled (srv : server) (i t : nat) (c : page) (p : pane) : Prop :=
  forall st, srv i t = Some st ->
    match rev (asked (p_no p) (pending c)) with [] => p_station p = Some st | (j, u) :: _ => j = Some i /\ u = t end.
Record good (srv : server) (i : nat) (c : page) : Prop := mkgood {
  g_wf : wf c; g_infra : infra c = Some i;
  g_pane : forall p t, the_pane c = Some p -> current c = Some t -> settled srv i t c p;
  g_current : current c <> None }.
Lemma settled_same srv i t c d p q : p_no p = p_no q -> p_station p = p_station q -> asked (p_no p) (pending c) = asked (p_no p) (pending d) ->
  settled srv i t c p -> settled srv i t d q.
Proof. intros A B E S st H. specialize (S st H). rewrite <- A, <- E, <- B. exact S. Qed.
Lemma settled_fetch srv i t c p : infra c = Some i -> settled srv i t (fetch_station c p t) p.
Proof. intros E st _. cbn. rewrite asked_app, rev_app_distr, asked_cons, Nat.eqb_refl. change (asked (p_no p) []) with (@nil (option nat * nat)). cbn. auto. Qed.
Lemma good_draw srv i c : wf c -> infra c = Some i -> current c <> None ->
  (forall p t, the_pane c = Some p -> current c = Some t -> settled srv i t c p) -> forall o, good srv i (draw c o).
Proof.
  intros W I N S o. destruct (draw_fields c o) as (_ & _ & A & B & _). split; [apply wf_draw; apply W|congruence| |congruence].
  intros p t E C. rewrite B in C. destruct o; cbn in E; try discriminate. unfold draw in *. destruct (the_pane c) as [q|] eqn:P.
  - cbn in E. injection E as <-. exact (S q t eq_refl C).
  - cbn in E. rewrite C in E |- *. cbn in E. injection E as <-. apply (settled_fetch srv i t (mkpage _ _ _ _ _ _ _ _)). exact I.
Qed.
Lemma remove_asked n l : forall no, (forall p i s, nth_error l n = Some (Fetch p i s) -> p <> no) -> asked no (remove_nth n l) = asked no l.
Proof.
  revert n. induction l as [|q l IH]; intros n no H; [destruct n; reflexivity|]. destruct n as [|n]; cbn [remove_nth]; rewrite ?asked_cons.
  - destruct q as [p i s|i r]; [|reflexivity]. destruct (Nat.eqb_spec p no) as [->|]; [destruct (H no i s eq_refl eq_refl)|reflexivity].
  - rewrite IH; [reflexivity|]. intros p i s E. apply (H p i s E).
Qed.
Lemma remove_first n l : forall no i s, nth_error l n = Some (Fetch no i s) -> (forall m j t, m < n -> nth_error l m <> Some (Fetch no j t)) ->
  asked no l = (i, s) :: asked no (remove_nth n l).
Proof.
  revert n. induction l as [|q l IH]; intros n no i s E F; [destruct n; discriminate|]. destruct n as [|n].
  - cbn in E. injection E as ->. cbn [remove_nth]. rewrite asked_cons, Nat.eqb_refl. reflexivity.
  - cbn [remove_nth]. rewrite !asked_cons, (IH n no i s E); [|intros m j t L; apply (F (S m) j t); lia].
    destruct q as [p j t|j r]; [|reflexivity]. destruct (Nat.eqb_spec p no) as [->|]; [|reflexivity]. destruct (F 0 j t); [lia|reflexivity].
Qed.
Lemma click_infra c s : infra (click c s) = infra c.
Proof.
  unfold click. set (c' := mkpage _ _ _ _ _ _ _ _). assert (A : infra (draw c' Stations) = infra c') by apply (draw_fields c' Stations).
  destruct (the_pane c); [destruct (match current c with Some t => _ | None => _ end)|]; exact A.
Qed.
Lemma good_step srv i c e : good srv i c -> orderly c e -> good srv i (step srv c e).
Proof.
  intros [W I S NC] O. assert (W' := wf_step srv c e W). assert (C' := current_step srv c e).
  destruct e as [s|o|j|r|n|n]; cbn [step orderly] in *.
  - (* click *) split; [exact W'| | |congruence].
    { rewrite click_infra. exact I. }
    intros p t E C. rewrite C' in C. injection C as <-. unfold click in *. destruct (the_pane c) as [q|] eqn:P.
    + unfold draw in E |- *. cbn [the_pane] in E |- *. rewrite ?P in E. rewrite ?P. destruct (current c) as [t|] eqn:Ct; [|congruence].
      destruct (Nat.eqb_spec s t) as [->|N]; cbn [negb] in E |- *.
      * cbn in E. assert (E' : q = p) by congruence. subst p. exact (S q t eq_refl eq_refl).
      * cbn in E. assert (E' : q = p) by congruence. subst p. apply settled_fetch. exact I.
    + unfold draw in E |- *. cbn [the_pane current] in E |- *. rewrite ?P in E. rewrite ?P. cbn in E. injection E as <-. apply (settled_fetch srv i s (mkpage _ _ _ _ _ _ _ _)). exact I.
  - (* press *) unfold press in *. destruct (overlay_eqb (selected c) o).
    + split; [exact W'|exact I|exact S|exact NC].
    + destruct (visible c); apply good_draw; try assumption. destruct W; split; assumption.
  - destruct O.
  - (* toggle *) split; [exact W'| | |congruence].
    + unfold toggle. destruct (the_pane c) as [p|]; [|exact I]. destruct (switch_of _ _) as [b|]; [|exact I].
      destruct (negb b); [|exact I]. destruct (infra _) eqn:K; cbn in K |- *; congruence.
    + intros q t E C. rewrite C' in C. unfold toggle in *. destruct (the_pane c) as [p|] eqn:P; [|congruence]. destruct (switch_of r (p_switches p)) as [b|].
      2:{ rewrite P in E. injection E as <-. exact (S p t eq_refl C). }
      assert (K : p_no q = p_no p /\ p_station q = p_station p).
      { destruct (negb b); [destruct (infra _)|]; cbn in E; injection E as <-; auto. }
      destruct K as (K1 & K2). apply (settled_same srv i t c _ p q); [congruence|congruence| |exact (S p t eq_refl C)].
      destruct (negb b); [|reflexivity]. destruct (infra _); [|reflexivity]. cbn [ask pending]. rewrite asked_app, asked_cons. symmetry. apply app_nil_r.
  - (* answer *) unfold answer in *. destruct (nth_error (pending c) n) as [q|] eqn:Q; [|split; assumption].
    destruct q as [no k s|k r].
    + specialize (O no k s eq_refl). assert (F := remove_first n _ no k s Q O).
      assert (G : forall p, p_no p <> no -> asked (p_no p) (remove_nth n (pending c)) = asked (p_no p) (pending c)).
      { intros p N. apply remove_asked. intros p' j u E. rewrite Q in E. injection E as <- <- <-. congruence. }
      assert (R : forall (p : pane) t, the_pane c = Some p -> current c = Some t -> p_no p <> no \/ asked no (remove_nth n (pending c)) <> [] ->
                 settled srv i t (set_pending c (remove_nth n (pending c))) p).
      { intros p t E C H. pose proof (S p t E C) as T. destruct (Nat.eq_dec (p_no p) no) as [<-|N].
        - destruct H as [H|H]; [congruence|]. intros st Hs. specialize (T st Hs). rewrite F in T. cbn [rev] in T. cbn [pending set_pending].
          destruct (rev (asked (p_no p) (remove_nth n (pending c)))) as [|(j & u) l] eqn:L.
          + destruct H. apply (f_equal (@rev _)) in L. rewrite rev_involutive in L. exact L.
          + cbn in T. exact T.
        - apply (settled_same srv i t c _ p p); [reflexivity|reflexivity| |exact T]. cbn. symmetry. apply G, N. }
      assert (L : forall (p : pane) t, the_pane c = Some p -> current c = Some t -> p_no p = no -> asked no (remove_nth n (pending c)) = [] -> srv i t <> None -> k = Some i /\ s = t).
      { intros p t E C N A H. pose proof (S p t E C) as T. destruct (srv i t) as [st|] eqn:Hs; [|congruence]. specialize (T st Hs). rewrite N, F, A in T. exact T. }
      split; [exact W'| | |congruence].
      * destruct k as [k|]; [|exact I]. destruct (srv k s); [|exact I]. unfold fetched. destruct (the_pane _); [|exact I]. destruct (Nat.eqb _ _); exact I.
      * intros q t E C. rewrite C' in C.
        destruct (the_pane c) as [p|] eqn:P.
        2:{ exfalso. destruct k as [k|]; cbn in E; [destruct (srv k s); unfold fetched in E; cbn in E; rewrite ?P in E; cbn in E; congruence|congruence]. }
        assert (D : asked no (remove_nth n (pending c)) = [] \/ asked no (remove_nth n (pending c)) <> []) by (destruct (asked no (remove_nth n (pending c))); [left; reflexivity|right; discriminate]).
        destruct D as [A|A].
        -- (* the last one *) destruct (Nat.eq_dec (p_no p) no) as [N|N].
           ++ intros st Hs. destruct (L p t eq_refl C N A) as (-> & ->); [congruence|]. rewrite Hs in E |- *. unfold fetched in E |- *. cbn [the_pane set_pending] in E |- *. rewrite P in E. rewrite P.
              rewrite (proj2 (Nat.eqb_eq _ _) N) in E |- *. cbn in E. injection E as <-. cbn. rewrite A. reflexivity.
           ++ assert (E' : q = p /\ settled srv i t (set_pending c (remove_nth n (pending c))) p).
              { split; [|apply R; auto]. destruct k as [k|]; cbn in E; [|congruence]. destruct (srv k s); [|cbn in E; congruence].
                unfold fetched in E. cbn in E. rewrite P in E. destruct (Nat.eqb_spec (p_no p) no); [congruence|]. cbn in E. congruence. }
              destruct E' as (-> & T). destruct k as [k|]; [|exact T]. destruct (srv k s); [|exact T]. unfold fetched. cbn [the_pane set_pending]. rewrite P.
              destruct (Nat.eqb_spec (p_no p) no); [congruence|exact T].
        -- assert (T : settled srv i t (set_pending c (remove_nth n (pending c))) p) by (apply R; auto).
           destruct k as [k|]; [|cbn in E; replace q with p by congruence; exact T]. destruct (srv k s) as [st|]; [|cbn in E; replace q with p by congruence; exact T].
           unfold fetched in E |- *. cbn [the_pane set_pending] in E |- *. rewrite P in E. rewrite P. destruct (Nat.eqb_spec (p_no p) no) as [N|N].
           ++ cbn in E. injection E as <-. intros st' Hs. specialize (T st' Hs). cbn [p_no pending set_pane set_pending] in *. rewrite N in T.
              destruct (rev (asked no (remove_nth n (pending c)))) as [|x l] eqn:X; [|exact T].
              destruct A. apply (f_equal (@rev _)) in X. rewrite rev_involutive in X. exact X.
           ++ cbn in E. replace q with p by congruence. exact T.
    + split; [exact W'|exact I| |congruence]. intros p t E C. rewrite C' in C. cbn in E.
      apply (settled_same srv i t c _ p p); [reflexivity|reflexivity| |exact (S p t E C)]. cbn. symmetry. apply remove_asked. intros p' j u K. rewrite Q in K. discriminate.
  - (* fail *) split; [exact W'|exact I| |congruence]. intros p t E C. rewrite C' in C. cbn in E.
    apply (settled_same srv i t c _ p p); [reflexivity|reflexivity| |exact (S p t E C)]. cbn. symmetry. apply remove_asked. intros p' j u K. destruct (O p' j u K).
Qed.
Lemma good_click srv i c s : wf c -> infra c = Some i -> current c <> Some s \/ the_pane c = None -> good srv i (click c s).
Proof.
  intros W I H. split; [apply (wf_step srv c (Click s) W)|rewrite click_infra; exact I| |rewrite (current_step srv c (Click s) : current (click c s) = _); discriminate].
  intros p t E C. rewrite (current_step srv c (Click s) : current (click c s) = _) in C. injection C as <-. unfold click in *.
  destruct (the_pane c) as [q|] eqn:P.
  - unfold draw in E |- *. cbn [the_pane] in E |- *. destruct (current c) as [t|] eqn:Ct.
    + destruct (Nat.eqb_spec s t) as [->|N]; cbn [negb] in E |- *; [destruct H; congruence|].
      cbn in E. assert (E' : q = p) by congruence. subst p. apply settled_fetch. exact I.
    + cbn in E. assert (E' : q = p) by congruence. subst p. apply settled_fetch. exact I.
  - unfold draw in E |- *. cbn [the_pane current] in E |- *. cbn in E. injection E as <-. apply (settled_fetch srv i s (mkpage _ _ _ _ _ _ _ _)). exact I.
Qed.
Lemma good_run srv i l : forall c, good srv i c -> along srv orderly c l -> good srv i (run srv c l).
Proof. induction l as [|e l IH]; intros c G A; [exact G|]. destruct A as (O & A). apply IH; [apply good_step; assumption|exact A]. Qed.
Lemma current_run srv l : forall c s, current c = Some s -> current (run srv c l) = Some (last_click s l).
Proof.
  induction l as [|e l IH]; intros c s E; [exact E|]. cbn [run fold_left]. change (fold_left (step srv) l (step srv c e)) with (run srv (step srv c e) l).
  assert (K := current_step srv c e). destruct e; cbn [last_click]; apply IH; rewrite K; congruence.
Qed.
(* After a click on a station that is not the selected one, or while the pane is closed, and until the
   infrastructure changes, the pane that is there shows the station clicked last as soon as
   everything it asked for was answered in order.  Missing: overtaken and failed answers, and
   changes of the infrastructure (the theorems below). *)
Theorem C125_shown_partial srv before s after i p st : let c := run srv start before in
  infra c = Some i -> current c <> Some s \/ the_pane c = None -> along srv orderly (click c s) after ->
  let d := run srv (click c s) after in
  the_pane d = Some p -> ~ waiting d p -> srv i (last_click s after) = Some st -> p_station p = Some st.
Proof.
  intros c I H A d E NW Hs. pose proof (wf_run srv before _ wf_start) as W. fold c in W.
  pose proof (good_run srv i after _ (good_click srv i c s W I H) A) as G. fold d in G.
  assert (C : current d = Some (last_click s after)) by (apply current_run; exact (current_step srv c (Click s))).
  pose proof (g_pane _ _ _ G p _ E C st Hs) as S. destruct (rev (asked (p_no p) (pending d))) as [|(j & u) l] eqn:R; [exact S|].
  exfalso. apply NW. exists j, u. apply asked_In, in_rev. rewrite R. left. reflexivity.
Qed.
Print Assumptions C125_shown_partial.

(* A pane that was closed and opened again is not touched by answers to what was asked for before. *)
Theorem C125_gone srv l n : let c := run srv start l in n < List.length (pending c) ->
  let d := press (press c Menu) Stations in the_pane d <> None /\ the_pane (answer srv d n) = the_pane d.
Proof.
  intros c L. pose proof (wf_run srv l _ wf_start) as W. fold c in W.
  assert (M : let e := press c Menu in selected e = Menu /\ the_pane e = None /\ pending e = pending c /\ fresh e = fresh c).
  { unfold press. destruct (overlay_spec (selected c) Menu) as [E|E].
    - cbn. assert (K : the_pane c = None). { destruct (the_pane c) eqn:P; [|reflexivity]. assert (X : selected c = Stations) by (apply (wf_pane _ W); congruence). congruence. } auto.
    - destruct (visible c); cbn; auto. }
  cbv zeta in M. destruct M as (M1 & M2 & M3 & M4). set (e := press c Menu) in *. intros d.
  assert (D : exists p, the_pane d = Some p /\ p_no p = fresh c /\ exists k, pending d = pending c ++ k).
  { unfold d, press. destruct (overlay_spec (selected e) Stations) as [E|_]; [congruence|].
    assert (X : forall e', the_pane e' = None -> pending e' = pending c -> fresh e' = fresh c ->
       exists p, the_pane (draw e' Stations) = Some p /\ p_no p = fresh c /\ exists k, pending (draw e' Stations) = pending c ++ k).
    { clear - W. intros e' P Q R. unfold draw. rewrite P. cbn [current]. destruct (current e') as [s|]; cbn; rewrite Q, R; eexists; (split; [reflexivity|]); (split; [reflexivity|]); eauto.
      exists []. symmetry. apply app_nil_r. }
    destruct (visible e); apply X; assumption. }
  destruct D as (p & P & No & k & Q). split; [congruence|]. unfold answer. rewrite Q, nth_error_app1 by exact L.
  destruct (nth_error (pending c) n) as [q|] eqn:Nq; [|reflexivity]. destruct q as [no [i|] s|i r]; try reflexivity.
  destruct (srv i s); [|reflexivity]. unfold fetched. cbn [the_pane set_pending]. rewrite P. apply nth_error_In, (wf_fresh _ W) in Nq.
  destruct (Nat.eqb_spec (p_no p) no); [lia|]. cbn. exact P.
Qed.
Print Assumptions C125_gone.

(* ---- the switches ---- *)
Lemma route_spec a b : reflect (a = b) (route_eqb a b).
Proof.
  unfold route_eqb. destruct a as (x & m), b as (y & n). cbn. destruct x, y; cbn; try (constructor; congruence); destruct (Nat.eqb_spec m n); constructor; congruence.
Qed.
Lemma put_fst r b l : map fst (put_switch r b l) = map fst l.
Proof. induction l as [|(q & d) l IH]; [reflexivity|]. cbn. destruct (route_eqb r q); cbn; [reflexivity|]. rewrite IH. reflexivity. Qed.
Lemma redraw_fst old h st : map fst (redraw old h st) = routes_of st.
Proof. unfold redraw. rewrite map_map. cbn. apply map_id. Qed.
Lemma listed_step srv c e : (forall p, the_pane c = Some p -> map fst (p_switches p) = match p_station p with Some st => routes_of st | None => [] end) ->
  forall p, the_pane (step srv c e) = Some p -> map fst (p_switches p) = match p_station p with Some st => routes_of st | None => [] end.
Proof.
  intros L p E.
  assert (D : forall c o, (forall p, the_pane c = Some p -> map fst (p_switches p) = match p_station p with Some st => routes_of st | None => [] end) ->
     forall p, the_pane (draw c o) = Some p -> map fst (p_switches p) = match p_station p with Some st => routes_of st | None => [] end).
  { clear. intros c o L p E. destruct o; try discriminate E. unfold draw in E. destruct (the_pane c) as [q|] eqn:P; [apply L; exact E|].
    cbn in E. destruct (current c); cbn in E; injection E as <-; reflexivity. }
  destruct e as [s|o|i|r|n|n]; cbn [step] in E.
  - unfold click in E. set (c' := mkpage _ _ _ _ _ _ _ _) in E. assert (L' := D c' Stations L).
    destruct (the_pane c); [destruct (match current c with Some t => _ | None => _ end)|]; apply L'; exact E.
  - unfold press in E. destruct (overlay_eqb _ _); [apply L; exact E|]. destruct (visible c); eapply D; try exact E; exact L.
  - apply L; exact E.
  - unfold toggle in E. destruct (the_pane c) as [q|] eqn:P; [|congruence]. destruct (switch_of _ _) as [b|]; [|apply L; congruence].
    assert (K : p = mkp (p_no q) (p_station q) (put_switch r (negb b) (p_switches q))) by (destruct (negb b); [destruct (infra _)|]; cbn in E; congruence).
    subst p. cbn. rewrite put_fst. apply L. reflexivity.
  - unfold answer in E. destruct (nth_error _ _) as [[no [i|] s|i r]|]; try (apply L; exact E). destruct (srv i s) as [st|]; [|apply L; exact E].
    unfold fetched in E. cbn [the_pane set_pending] in E. destruct (the_pane c) as [q|] eqn:P; [|cbn in E; congruence]. destruct (Nat.eqb _ _).
    + cbn in E. injection E as <-. cbn. apply redraw_fst.
    + cbn in E. apply L. congruence.
  - apply L; exact E.
Qed.
Lemma listed_run srv l : forall c, (forall p, the_pane c = Some p -> map fst (p_switches p) = match p_station p with Some st => routes_of st | None => [] end) ->
  forall p, the_pane (run srv c l) = Some p -> map fst (p_switches p) = match p_station p with Some st => routes_of st | None => [] end.
Proof. induction l as [|e l IH]; intros c L; [exact L|]. apply (IH (step srv c e)). intros p. apply listed_step, L. Qed.
Lemma belongs_routes st r : In r (routes_of st) <-> belongs st r.
Proof.
  unfold routes_of, belongs. rewrite in_app_iff, !in_map_iff. destruct r as ([] & n); split.
  - intros [(m & [= ->] & I)|(m & K & _)]; [exact I|discriminate].
  - intros I. left. eauto.
  - intros [(m & K & _)|(m & [= ->] & I)]; [discriminate|exact I].
  - intros I. right. eauto.
Qed.
(* Whatever happened, the pane has a switch for exactly the routes of the station it shows. *)
Theorem C125_listed srv l p r : the_pane (run srv start l) = Some p ->
  In r (map fst (p_switches p)) <-> exists st, p_station p = Some st /\ belongs st r.
Proof.
  intros E. rewrite (listed_run srv l start) by (assumption || discriminate). destruct (p_station p) as [st|].
  - rewrite belongs_routes. split; [eauto|intros (st' & [= ->] & B); exact B].
  - split; [intros []|intros (st & K & _); discriminate].
Qed.
Print Assumptions C125_listed.

Lemma switch_In r l b : NoDup (map fst l) -> switch_of r l = Some b <-> In (r, b) l.
Proof.
  induction l as [|(q & d) l IH]; intros N; cbn; [split; [discriminate|intros []]|]. cbn in N. inversion N as [|? ? N1 N2]; subst. destruct (route_spec r q) as [->|NE].
  - split; [intros [= ->]; left; reflexivity|]. intros [[= ->]|I]; [reflexivity|]. destruct N1. apply in_map_iff. exists (q, b). auto.
  - rewrite IH by assumption. split; [auto|]. intros [[= -> _]|I]; [congruence|exact I].
Qed.
Lemma switch_none r l : switch_of r l = None <-> ~ In r (map fst l).
Proof.
  induction l as [|(q & d) l IH]; cbn; [split; auto|]. destruct (route_spec r q) as [->|NE]; [split; [discriminate|intros H; destruct H; auto]|].
  rewrite IH. split; [intros H [E|I]; [congruence|auto]|auto].
Qed.
Lemma put_In r b l q d : NoDup (map fst l) -> In (q, d) (put_switch r b l) <-> q = r /\ d = b /\ In r (map fst l) \/ q <> r /\ In (q, d) l.
Proof.
  induction l as [|(x & y) l IH]; intros N; cbn; [tauto|]. cbn in N. inversion N as [|? ? N1 N2]; subst. destruct (route_spec r x) as [->|NE]; cbn.
  - split.
    + intros [[= -> ->]|I]; [auto|]. right. split; [|auto]. intros ->. destruct N1. apply in_map_iff. exists (x, d). auto.
    + intros [(-> & -> & _)|(NE & [[= -> _]|I])]; [auto|congruence|auto].
  - rewrite IH by assumption. split.
    + intros [[= -> ->]|[(-> & -> & I)|(K & I)]]; [right; split; [congruence|auto]|left; auto|right; auto].
    + intros [(-> & -> & [E|I])|(K & [[= -> ->]|I])]; [congruence|right; left; auto|left; reflexivity|right; right; auto].
Qed.
Lemma nodup_routes st : NoDup (s_routes st) -> NoDup (s_interlocking st) -> NoDup (routes_of st).
Proof.
  intros A B. unfold routes_of. assert (M : forall k l, NoDup l -> NoDup (map (fun n : nat => (k : kind, n)) l)).
  { intros k l N. induction N as [|x l H N IH]; cbn; constructor; [|exact IH]. intros I. apply in_map_iff in I as (y & [= ->] & I). contradiction. }
  assert (X : forall l1 l2 : list route, NoDup l1 -> NoDup l2 -> (forall x, In x l1 -> ~ In x l2) -> NoDup (l1 ++ l2)).
  { clear. induction l1 as [|x l1 IH]; intros l2 N1 N2 D; [exact N2|]. cbn. inversion N1 as [|? ? Nx N]; subst. constructor.
    - intros I. apply in_app_or in I as [I|I]; [contradiction|]. apply (D x); [left; reflexivity|exact I].
    - apply IH; [exact N|exact N2|]. intros y I. apply D. right. exact I. }
  apply X; [apply M, A|apply M, B|]. intros (k & n) I J. apply in_map_iff in I as (? & [= <- _] & _). apply in_map_iff in J as (? & K & _). discriminate.
Qed.
(* the station in the pane is one of the server's *)
Lemma from_server srv l p st : the_pane (run srv start l) = Some p -> p_station p = Some st -> exists i s, srv i s = Some st.
Proof.
  assert (X : forall l c, (forall p st, the_pane c = Some p -> p_station p = Some st -> exists i s, srv i s = Some st) ->
     forall p st, the_pane (run srv c l) = Some p -> p_station p = Some st -> exists i s, srv i s = Some st).
  { clear. induction l as [|e l IH]; intros c L; [exact L|]. apply (IH (step srv c e)). clear IH l. intros p st E.
    assert (D : forall c o, (forall p st, the_pane c = Some p -> p_station p = Some st -> exists i s, srv i s = Some st) ->
       forall p st, the_pane (draw c o) = Some p -> p_station p = Some st -> exists i s, srv i s = Some st).
    { clear. intros c o L p st E. destruct o; try discriminate E. unfold draw in E. destruct (the_pane c) as [q|] eqn:P; [apply L; exact E|].
      cbn in E. destruct (current c); cbn in E; injection E as <-; discriminate. }
    destruct e as [s|o|i|r|n|n]; cbn [step] in E.
    - unfold click in E. set (c' := mkpage _ _ _ _ _ _ _ _) in E. assert (L' := D c' Stations L).
      destruct (the_pane c); [destruct (match current c with Some t => _ | None => _ end)|]; apply L'; exact E.
    - unfold press in E. destruct (overlay_eqb _ _); [apply L; exact E|]. destruct (visible c); eapply D; try exact E; exact L.
    - apply L; exact E.
    - unfold toggle in E. destruct (the_pane c) as [q|] eqn:P; [|congruence]. destruct (switch_of _ _) as [b|]; [|apply L; congruence].
      assert (K : p = mkp (p_no q) (p_station q) (put_switch r (negb b) (p_switches q))) by (destruct (negb b); [destruct (infra _)|]; cbn in E; congruence).
      subst p. cbn. apply (L q). reflexivity.
    - unfold answer in E. destruct (nth_error _ _) as [[no [i|] s|i r]|]; try (apply L; exact E). destruct (srv i s) as [st'|] eqn:Hs; [|apply L; exact E].
      unfold fetched in E. cbn [the_pane set_pending] in E. destruct (the_pane c) as [q|] eqn:P; [|cbn in E; congruence]. destruct (Nat.eqb _ _).
      + cbn in E. injection E as <-. cbn. intros [= <-]. eauto.
      + cbn in E. apply L. congruence.
    - apply L; exact E. }
  apply X. discriminate.
Qed.
Lemma keys_once srv l p : no_route_twice srv -> the_pane (run srv start l) = Some p -> NoDup (map fst (p_switches p)).
Proof.
  intros N E. rewrite (listed_run srv l start) by (assumption || discriminate). destruct (p_station p) as [st|] eqn:S; [|constructor].
  destruct (from_server srv l p st E S) as (i & s & Hs). apply N in Hs as (A & B). apply nodup_routes; assumption.
Qed.
(* Toggling a switch turns it and no other. *)
Theorem C125_toggled srv l p r : no_route_twice srv -> let c := run srv start l in the_pane c = Some p -> In r (map fst (p_switches p)) ->
  exists q, the_pane (toggle c r) = Some q /\ p_station q = p_station p /\
    (forall b, In (r, b) (p_switches q) <-> In (r, negb b) (p_switches p)) /\ (forall x b, x <> r -> In (x, b) (p_switches q) <-> In (x, b) (p_switches p)).
Proof.
  intros ND c E I. assert (N := keys_once srv l p ND E). unfold toggle. rewrite E. destruct (switch_of r (p_switches p)) as [b0|] eqn:S; [|apply switch_none in S; contradiction].
  exists (mkp (p_no p) (p_station p) (put_switch r (negb b0) (p_switches p))). split; [destruct (negb b0); [destruct (infra _)|]; reflexivity|].
  split; [reflexivity|]. apply (switch_In _ _ _ N) in S. cbn [p_switches]. split.
  - intros b. rewrite put_In by exact N. split.
    + intros [(_ & -> & _)|(K & _)]; [rewrite negb_involutive; exact S|congruence].
    + intros J. left. split; [reflexivity|]. split; [|exact I]. apply (switch_In _ _ _ N) in S, J. assert (negb b = b0) by congruence. subst. symmetry. apply negb_involutive.
  - intros x b K. rewrite put_In by exact N. split; [intros [(-> & _)|(_ & J)]; [congruence|exact J]|auto].
Qed.
Print Assumptions C125_toggled.

Definition on (c : page) (r : route) : Prop := In r (highlighted c) \/ coming c r.
Definition agree (c : page) : Prop := forall p r b, the_pane c = Some p -> In (r, b) (p_switches p) -> b = true <-> on c r.
Lemma without_In r l x : In x (without r l) <-> In x l /\ x <> r.
Proof. unfold without. rewrite filter_In. destruct (route_spec r x) as [->|N]; cbn; split; intros (A & B); split; congruence. Qed.
Lemma same_on c d : highlighted c = highlighted d -> (forall r, coming c r <-> coming d r) -> forall r, on c r <-> on d r.
Proof. intros H K r. unfold on. rewrite H, K. reflexivity. Qed.
Lemma coming_fetch c p i s : (forall r, coming (ask c (Fetch p i s)) r <-> coming c r).
Proof. intros r. unfold coming. cbn. split; intros (j & I); exists j; [apply in_app_or in I as [I|[K|[]]]; [exact I|discriminate]|apply in_or_app; auto]. Qed.
Lemma agree_draw c o : agree c -> agree (draw c o).
Proof.
  intros A p r b E I. destruct o; try discriminate E. unfold draw in *. destruct (the_pane c) as [q|] eqn:P.
  - cbn in E. injection E as <-. exact (A q r b P I).
  - cbn in E. destruct (current c); cbn in E; injection E as <-; destruct I.
Qed.
Lemma agree_ask_fetch c p i s : agree c -> agree (ask c (Fetch p i s)).
Proof. intros A q r b E I. rewrite <- (same_on c (ask c (Fetch p i s))); [exact (A q r b E I)|reflexivity|]. intros x. symmetry. apply coming_fetch. Qed.
Lemma remove_show n (l : list request) i r : In (Show i r) l -> (forall j x, nth_error l n = Some (Show j x) -> False) -> In (Show i r) (remove_nth n l).
Proof.
  revert n. induction l as [|q l IH]; intros n I H; [destruct I|]. destruct n as [|n]; cbn.
  - destruct I as [->|I]; [destruct (H i r eq_refl)|exact I].
  - destruct I as [->|I]; [left; reflexivity|right; apply IH; [exact I|]]. intros j x K. exact (H j x K).
Qed.
Lemma remove_split {A} n (l : list A) q x : nth_error l n = Some q -> In x l <-> x = q \/ In x (remove_nth n l).
Proof.
  revert n. induction l as [|y l IH]; intros n H; [destruct n; discriminate|]. destruct n as [|n]; cbn in *.
  - injection H as ->. split; [intros [->|I]; auto|intros [->|I]; auto].
  - rewrite (IH n H). split; [intros [->|[->|I]]; auto|intros [->|[->|I]]; auto].
Qed.
Lemma agree_step srv c e : (forall p, the_pane c = Some p -> NoDup (map fst (p_switches p))) -> agree c -> calm c e -> agree (step srv c e).
Proof.
  intros K A C. destruct e as [s|o|i|r|n|n]; cbn [step calm] in *.
  - unfold click. set (c' := mkpage _ _ _ _ _ _ _ _). assert (A' : agree (draw c' Stations)) by (apply agree_draw; exact A).
    destruct (the_pane c); [destruct (match current c with Some t => _ | None => _ end)|]; [apply agree_ask_fetch, A'|exact A'|exact A'].
  - unfold press. destruct (overlay_eqb _ _); [exact A|]. destruct (visible c); apply agree_draw; exact A.
  - exact A.
  - destruct C as (NI & NC). unfold toggle. destruct (the_pane c) as [p|] eqn:P; [|exact A]. destruct (switch_of r (p_switches p)) as [b|] eqn:S; [|exact A].
    specialize (K p eq_refl). apply (switch_In _ _ _ K) in S. assert (B := A p r b P S).
    cbn [infra set_pane]. destruct (infra c) as [i|] eqn:I; [|congruence]. destruct b; cbn [negb].
    + (* off *) intros q x d E J. cbn in E. injection E as <-. cbn in J. apply put_In in J; [|exact K].
      assert (O : on (set_highlighted (set_pane c (mkp (p_no p) (p_station p) (put_switch r false (p_switches p)))) (without r (highlighted c))) x <-> on c x /\ x <> r).
      { unfold on at 1. cbn [highlighted set_highlighted]. rewrite without_In. unfold coming at 1. cbn [pending set_highlighted set_pane]. change (exists i, In (Show i x) (pending c)) with (coming c x).
        unfold on. split; [intros [(X & Y)|X]; [auto|split; [auto|congruence]]|intros ([X|X] & Y); auto]. }
      cbn [highlighted set_pane]. rewrite O. destruct J as [(-> & -> & _)|(N & J)]; [split; [discriminate|intros (_ & N); congruence]|].
      rewrite (A p x d P J). tauto.
    + (* on *) intros q x d E J. cbn in E. injection E as <-. cbn in J. apply put_In in J; [|exact K].
      assert (O : on (ask (set_pane c (mkp (p_no p) (p_station p) (put_switch r true (p_switches p)))) (Show i r)) x <-> on c x \/ x = r).
      { unfold on. cbn [highlighted ask set_pane]. unfold coming at 1. cbn [pending ask set_pane]. split.
        - intros [X|(j & X)]; [auto|]. apply in_app_or in X as [X|[[= <- <-]|[]]]; [left; right; exists j; exact X|auto].
        - intros [[X|(j & X)]| -> ]; [auto|right; exists j; apply in_or_app; auto|right; exists i; apply in_or_app; right; left; reflexivity]. }
      rewrite O. destruct J as [(-> & -> & _)|(N & J)]; [split; auto|]. rewrite (A p x d P J). split; [auto|intros [X|X]; [exact X|congruence]].
  - unfold answer. destruct (nth_error (pending c) n) as [q|] eqn:Q; [|exact A].
    assert (R : forall no k s, q = Fetch no k s -> agree (set_pending c (remove_nth n (pending c))) /\ forall r, ~ coming c r).
    { intros no k s ->. assert (NC := C no k s eq_refl). split; [|exact NC]. intros p r b E I. cbn in E. rewrite (A p r b E I).
      apply same_on; [reflexivity|]. intros x. split; [intros X; destruct (NC x X)|intros (j & X); exists j; eapply remove_In, X]. }
    destruct q as [no [k|] s|k r]; [|exact (proj1 (R _ _ _ eq_refl))|].
    + destruct (R _ _ _ eq_refl) as (A' & NC). destruct (srv k s) as [st|]; [|exact A']. unfold fetched. cbn [the_pane set_pending]. destruct (the_pane c) as [p|] eqn:P; [|exact A'].
      destruct (Nat.eqb _ _); [|exact A']. intros q r b E I. cbn in E. injection E as <-. cbn in I. unfold redraw in I. apply in_map_iff in I as (x & [= <- <-] & I).
      unfold on. cbn [highlighted set_pane set_pending].
      assert (Z : coming (set_pane (set_pending c (remove_nth n (pending c))) (mkp no (Some st) (redraw (p_switches p) (highlighted c) st))) x <-> False).
      { split; [|intros []]. intros (j & X). apply (NC x). exists j. cbn in X. eapply remove_In, X. }
      rewrite Z. destruct (switch_of x (p_switches p)) as [d|] eqn:S.
      * apply (switch_In _ _ _ (K p eq_refl)) in S. rewrite (A p x d P S). unfold on. split; [intros [X|X]; [auto|destruct (NC x X)]|intros [X|[]]; auto].
      * rewrite existsb_exists. split; [intros (y & Y & T); destruct (route_spec x y) as [->|]; [auto|discriminate]|intros [X|[]]; exists x; split; [exact X|destruct (route_spec x x); congruence]].
    + intros p x b E I. cbn in E. rewrite (A p x b E I). unfold on. cbn [highlighted set_highlighted set_pending]. rewrite in_app_iff. unfold coming. cbn [pending set_highlighted set_pending].
      split.
      * intros [X|(j & X)]; [auto|]. apply (remove_split _ _ _ _ Q) in X as [[= <- <-]|X]; [left; right; left; reflexivity|eauto].
      * intros [[X|[->|[]]]|(j & X)]; [auto|right; exists k; apply (remove_split _ _ _ _ Q); auto|right; exists j; apply (remove_split _ _ _ _ Q); auto].
  - intros p x b E I. cbn in E. rewrite (A p x b E I). apply same_on; [reflexivity|]. intros y. split; [|intros (j & X); exists j; eapply remove_In, X].
    intros (j & X). exists j. cbn. apply remove_show; [exact X|]. intros k z Z. exact (C k z Z).
Qed.
(* If switches rest until their route arrived, no station arrives meanwhile, and no route fails, then
   whenever no route is coming a switch is on exactly if its route is highlighted.  Missing:
   each of these (the theorems below). *)
Theorem C125_switches_partial srv l p r b : no_route_twice srv -> along srv calm start l -> let c := run srv start l in
  the_pane c = Some p -> In (r, b) (p_switches p) -> ~ coming c r -> b = true <-> In r (highlighted c).
Proof.
  intros ND A c E I NC.
  assert (X : forall l k, along srv calm (run srv start k) l -> agree (run srv start k) -> agree (run srv start (k ++ l))).
  { clear - ND. induction l as [|e l IH]; intros k A G; [rewrite app_nil_r; exact G|]. destruct A as (C & A).
    assert (S : step srv (run srv start k) e = run srv start (k ++ [e])) by (unfold run; rewrite fold_left_app; reflexivity).
    change (e :: l) with ([e] ++ l). rewrite app_assoc. apply IH; rewrite <- S; [exact A|]. apply agree_step; [|exact G|exact C].
    intros p E. eapply keys_once; eassumption. }
  assert (G : agree c) by (apply (X l []); [exact A|intros ? ? ? K; discriminate]). rewrite (G p r b E I). unfold on. tauto.
Qed.
Print Assumptions C125_switches_partial.

(* ---- where they differ ---- *)
(* An answer that arrives late replaces the station clicked last, for every two stations. *)
Theorem C125_overtaken_refuted srv i s t a b : s <> t -> srv i s = Some a -> srv i t = Some b ->
  let c := run srv start [Load (Some i); Click s; Click t; Answer 1; Answer 0] in
  pending c = [] /\ current c = Some t /\ option_map p_station (the_pane c) = Some (Some a).
Proof.
  intros N A B. cbn. assert (E : Nat.eqb t s = false) by (apply Nat.eqb_neq; congruence). rewrite E. cbn. unfold answer at 2. cbn. rewrite B. cbn. unfold answer. cbn. rewrite A. cbn. auto.
Qed.
Print Assumptions C125_overtaken_refuted.
(* After another infrastructure was loaded, a click on the station with the number selected before
   leaves the station of the old infrastructure, and nothing is asked for. *)
Theorem C125_same_number_refuted srv i j s a b : srv i s = Some a -> srv j s = Some b ->
  let c := run srv start [Load (Some i); Click s; Answer 0; Load (Some j); Click s] in
  pending c = [] /\ infra c = Some j /\ current c = Some s /\ option_map p_station (the_pane c) = Some (Some a).
Proof. intros A B. cbn. unfold answer. cbn. rewrite A. cbn. unfold click. cbn. rewrite Nat.eqb_refl. cbn. auto. Qed.
Print Assumptions C125_same_number_refuted.
(* a server of two stations, each with the station routes 7 and 8 and the interlocking route 7 *)
Definition two : server := fun i s => if Nat.ltb s 2 then Some (mks s (10 * i + s) [7; 8] [7]) else None.
Definition opened : list event := [Load (Some 0); Click 1; Answer 0].
Definition state_of (c : page) (r : route) : option bool := match the_pane c with Some p => switch_of r (p_switches p) | None => None end.
(* Turned off before the route arrived, it is highlighted and stays so; a failed request leaves the
   switch on; closing and opening the pane before the route arrived leaves it off, and turning it
   on again highlights the route twice. *)
Theorem C125_switches_refuted : let r := (StationRoute, 7) in
  (let c := run two start (opened ++ [Toggle r; Toggle r; Answer 0]) in state_of c r = Some false /\ highlighted c = [r] /\ pending c = []) /\
  (let c := run two start (opened ++ [Toggle r; Fail 0]) in state_of c r = Some true /\ highlighted c = [] /\ pending c = []) /\
  (let c := run two start (opened ++ [Toggle r; Press Menu; Press Stations; Answer 1; Answer 0]) in state_of c r = Some false /\ highlighted c = [r] /\ pending c = []) /\
  (let c := run two start (opened ++ [Toggle r; Press Menu; Press Stations; Answer 1; Answer 0; Toggle r; Answer 0]) in state_of c r = Some true /\ highlighted c = [r; r]).
Proof. cbv zeta. repeat split; reflexivity. Qed.
Print Assumptions C125_switches_refuted.
(* Another infrastructure's route of the same number is shown as highlighted; opening the pane again
   shows the other infrastructure's station of the same number. *)
Theorem C125_infrastructure_refuted : let r := (InterlockingRoute, 7) in
  (let c := run two start (opened ++ [Toggle r; Answer 0; Load (Some 3); Click 0; Answer 0]) in
     infra c = Some 3 /\ option_map p_station (the_pane c) = Some (Some (mks 0 30 [7; 8] [7])) /\ state_of c r = Some true) /\
  (let c := run two start (opened ++ [Load (Some 3); Press Menu; Press Stations; Answer 0]) in
     option_map p_station (the_pane c) = Some (Some (mks 1 31 [7; 8] [7]))).
Proof. cbv zeta. repeat split; reflexivity. Qed.
Print Assumptions C125_infrastructure_refuted.

Lemma two_once : no_route_twice two.
Proof.
  intros i s st. unfold two. destruct (Nat.ltb s 2); [|discriminate]. intros [= <-]. cbn. split; repeat constructor; cbn; intros H; repeat destruct H as [H|H]; try discriminate; contradiction.
Qed.
Example C125_sat_shown : let after := [Answer 0; Click 0; Press Menu; Press Stations; Answer 0; Answer 0] in
  infra (run two start [Load (Some 0)]) = Some 0 /\ along two orderly (click (run two start [Load (Some 0)]) 1) after /\
  last_click 1 after = 0 /\ (let d := run two (click (run two start [Load (Some 0)]) 1) after in
  pending d = [] /\ option_map p_station (the_pane d) = Some (Some (mks 0 0 [7; 8] [7]))).
Proof.
  cbv zeta. split; [reflexivity|]. split; [|repeat split; reflexivity].
  cbn. repeat split; intros p i s H m j t L; lia.
Qed.
Example C125_sat_switches : let r := (StationRoute, 7) in let q := (InterlockingRoute, 7) in
  let l := opened ++ [Toggle r; Answer 0; Toggle q; Answer 0; Toggle r; Click 0; Answer 0] in
  along two calm start l /\ (let c := run two start l in state_of c r = Some false /\ state_of c q = Some true /\ highlighted c = [q] /\ pending c = []).
Proof.
  cbv zeta. split; [|repeat split; reflexivity]. unfold opened, coming. cbn.
  repeat split; try discriminate; try (intros (i & K); cbn in K; tauto).
  all: intros p i s; intros [= ]; try (intros r (j & K); cbn in K; destruct K as [K|[]]; discriminate).
Qed.
Example C125_sat_buttons : seen (press start Searching) Searching /\ ~ seen (press (press start Searching) Searching) Searching.
Proof. split; [split; reflexivity|]. intros (K & _). discriminate. Qed.
