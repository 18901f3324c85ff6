(* Proofs about the start of the web server, part 3: maps whose OSM files were
   removed; starts that were not cut short leave complete files. *)
From Coq Require Import Ascii String Permutation.
From Verif Require Import Base StockModel StartModel StartSpec StartProofs StartWhole.

Section Redraw.
  Context {IS TS I T OSM DB : Type}.
  Notation world := (StartModel.world IS TS I T OSM DB).
  Variable load_infra : IS -> res I.
  Variable load_timetable : TS -> I -> res (option T).
  Variable export_osm : I -> res OSM.
  Variable import_tiles : OSM -> res DB.
  Variable order : list (text * I) -> list (text * I).
  Hypothesis order_perm : forall l, Permutation l (order l).
  Notation start_ := (start load_infra load_timetable export_osm import_tiles order).

  Section Tiles.
    Variable s : settings.
    Variable now : N.
    Variable infras : list (text * I).
    Hypothesis NDi : NoDup (map fst infras).
    Hypothesis Hosm : forall n m, In n (map fst infras) -> In m (map fst infras) -> osm_path n = osm_path m -> n = m.
    Hypothesis Hdb : forall n m, In n (map fst infras) -> In m (map fst infras) -> db_path n = db_path m -> n = m.

    Definition drawn (w : world) (n : text) (i : I) : Prop :=
      exists f d, lookup (db_path n) (w_tiles w) = Some f /\ f_content f = Some d /\ drawn_map export_osm import_tiles i d.
    Definition waiting_osm (w : world) (n : text) : Prop := lookup (osm_path n) (w_osm w) = None.
    Definition old_db (w : world) (n : text) : Prop := forall f, lookup (db_path n) (w_tiles w) = Some f -> (f_time f < now)%N.
    Definition red_J (d : list (text * I)) (ctx : list (text * text)) (w : world) : Prop :=
      (forall n i, In (n, i) d -> drawn w n i) /\
      (forall n, In n (map fst infras) -> ~ In n (map fst d) -> waiting_osm w n /\ old_db w n) /\
      (forall n, In n (map fst d) -> lookup n ctx = Some (db_path n)) /\
      (forall n, ~ In n (map fst d) -> lookup n ctx = None).

    Lemma redraw_phase :
      triple (fun w : world => forall n, In n (map fst infras) -> waiting_osm w n /\ old_db w n)
        (get_tile_module _ _ _ _ _ _ export_osm import_tiles order s now infras)
        (fun ctx w => forall n i, In (n, i) infras -> drawn w n i /\ lookup n ctx = Some (db_path n))
        (fun _ => True).
    Proof.
      unfold get_tile_module. assert (Pi := Permutation_map fst (order_perm infras)).
      eapply t_conseq; [apply (t_each _ red_J)| | |]; cbv beta.
      2:{ intros w H. split; [intros n i []|]. split; [intros n Hn _; exact (H n Hn)|]. split; [intros n []|reflexivity]. }
      2:{ intros ctx w (A & _ & C & _) n i Hi. assert (Hi' := Permutation_in _ (order_perm infras) Hi). split; [exact (A n i Hi')|].
          apply C. exact (in_map fst _ _ Hi'). }
      2:{ auto. }
      intros d [n i] r ctx E.
      assert (Hin : In (n, i) infras).
      { apply (Permutation_in _ (Permutation_sym (order_perm infras))). rewrite E. apply in_or_app. right. left. reflexivity. }
      assert (Hn : In n (map fst infras)) by (apply (in_map fst) in Hin; exact Hin).
      assert (Nd : ~ In n (map fst d)).
      { assert (ND := Permutation_NoDup Pi NDi). rewrite E, map_app in ND. cbn [map fst] in ND.
        apply NoDup_remove_2 in ND. intros H. apply ND. apply in_or_app. left. exact H. }
      assert (Hd : forall m j, In (m, j) d -> In m (map fst infras) /\ m <> n).
      { intros m j Hm. apply (in_map fst) in Hm. cbn [fst] in Hm. split.
        - apply (Permutation_in _ (Permutation_sym Pi)). rewrite E, map_app. apply in_or_app. left. exact Hm.
        - intros ->. contradiction. }
      unfold tile_item. cbn [fst snd].
      (* the map is drawn: there is none *)
      eapply t_then with (M := fun p w => p = osm_path n /\ (forall m j, In (m, j) d -> drawn w m j) /\
         (forall m, In m (map fst infras) -> ~ In m (map fst d) -> m <> n -> waiting_osm w m) /\
         (forall m, In m (map fst infras) -> ~ In m (map fst d) -> old_db w m) /\
         (forall m, In m (map fst d) -> lookup m ctx = Some (db_path m)) /\ (forall m, ~ In m (map fst d) -> lookup m ctx = None) /\
         exists o, export_osm i = Ok o /\ lookup (osm_path n) (w_osm w) = Some (mk_file (Some o) now)).
      { unfold create_osm_file. cbn [fst snd]. fold (osm_path n).
        eapply t_then with (M := fun v w => v = w /\ red_J d ctx w); [apply t_get; auto|].
        intros v. apply t_pre. intros w1 (Ev & A & B & C1 & C2). subst v. destruct (B n Hn Nd) as [Wn On].
        unfold waiting_osm in Wn. rewrite Wn, orb_true_r.
        eapply t_then; [|intros u; apply t_ret; intros w H; split; [reflexivity|exact H]].
        eapply t_then with (M := fun o w => export_osm i = Ok o /\ w = w1); [apply t_lift; [auto|intros w _; exact Logic.I]|].
        intros o. apply t_write. intros w (Eo & ->).
        split; [exact A|]. split.
        { intros m Hm Dm Nm. unfold waiting_osm. cbn. rewrite !lookup_put. destruct (text_eqb_spec (osm_path m) (osm_path n)) as [X|X].
          - exfalso. apply Nm. apply Hosm; auto.
          - apply (B m Hm Dm). }
        split; [intros m Hm Dm; apply (B m Hm Dm)|]. split; [exact C1|]. split; [exact C2|]. exists o. split; [exact Eo|].
        cbn. rewrite lookup_put. destruct (text_eqb_spec (osm_path n) (osm_path n)); [reflexivity|contradiction]. }
      intros p. apply t_pre. intros w1 (-> & A & B1 & B2 & C1 & C2 & o & Eo & Lo).
      (* it is newer than the tiles *)
      eapply t_then with (M := fun p w => p = db_path n /\ (forall m j, In (m, j) d -> drawn w m j) /\ drawn w n i /\
         (forall m, In m (map fst infras) -> ~ In m (map fst d) -> m <> n -> waiting_osm w m) /\
         (forall m, In m (map fst infras) -> ~ In m (map fst d) -> m <> n -> old_db w m)).
      { unfold create_tiles_db. cbn [fst snd]. fold (db_path n).
        eapply t_then with (M := fun v w => v = w /\ w = w1); [apply t_get; auto|].
        intros v. apply t_pre. intros w2 (-> & ->).
        assert (Ec : (regenerate s || match lookup (db_path n) (w_tiles w1) with Some _ => false | None => true end
                      || newer (lookup (osm_path n) (w_osm w1)) (lookup (db_path n) (w_tiles w1)))%bool = true).
        { rewrite Lo. destruct (lookup (db_path n) (w_tiles w1)) as [f|] eqn:Lf; [|rewrite orb_true_r; reflexivity].
          cbn [newer f_time]. rewrite (proj2 (N.ltb_lt _ _) (B2 n Hn Nd f Lf)). apply orb_true_r. }
        rewrite Ec.
        eapply t_then; [|intros u; apply t_ret; intros w H; split; [reflexivity|exact H]].
        eapply t_then with (M := fun o' w => o' = o /\ w = w1).
        { apply t_content; [|auto]. intros o' g w Hl Hc ->. rewrite Lo in Hl. injection Hl as <-. cbn in Hc. injection Hc as <-. auto. }
        intros o'. eapply t_then with (M := fun t w => import_tiles o = Ok t /\ w = w1).
        { apply t_lift; [|auto]. intros t w Et (-> & ->). auto. }
        intros t. apply t_write. intros w (Et & ->).
        split.
        { intros m j Hm. destruct (Hd m j Hm) as [Im Nm]. destruct (A m j Hm) as (f & x & F1 & F2 & F3). exists f, x. split; [|auto].
          cbn. rewrite !lookup_put. destruct (text_eqb_spec (db_path m) (db_path n)) as [X|X]; [|exact F1]. exfalso. apply Nm, Hdb; auto. }
        split.
        { exists (mk_file (Some t) now), t. split; [|split; [reflexivity|exists o; auto]]. cbn. rewrite lookup_put.
          destruct (text_eqb_spec (db_path n) (db_path n)); [reflexivity|contradiction]. }
        split; [exact B1|].
        intros m Hm Dm Nm f. cbn. rewrite !lookup_put. destruct (text_eqb_spec (db_path m) (db_path n)) as [X|X].
        - exfalso. apply Nm. apply Hdb; auto.
        - exact (B2 m Hm Dm f). }
      intros p. apply t_pre. intros w2 (-> & A2 & Dn & W2 & O2).
      rewrite (C2 n Nd). apply t_ret. intros w ->.
      split.
      { intros m j Hm. apply in_app_or in Hm. destruct Hm as [Hm|[[= <- <-]|[]]]; [exact (A2 m j Hm)|exact Dn]. }
      split.
      { intros m Hm Dm. rewrite map_app in Dm. assert (~ In m (map fst d) /\ m <> n) as [D1 D2].
        { split; intros X; apply Dm; apply in_or_app; [left; exact X|right; left; cbn; auto]. }
        split; [exact (W2 m Hm D1 D2)|exact (O2 m Hm D1 D2)]. }
      split; intros m Hm; rewrite map_app in Hm; rewrite lookup_app; cbn [lookup].
      - destruct (in_dec (list_eq_dec ascii_dec) m (map fst d)) as [X|X]; [rewrite (C1 m X); reflexivity|].
        rewrite (C2 m X). apply in_app_or in Hm. destruct Hm as [Hm|[<-|[]]]; [contradiction|]. cbn [fst].
        destruct (text_eqb_spec n n); [reflexivity|contradiction].
      - rewrite (C2 m) by (intros X; apply Hm; apply in_or_app; left; exact X).
        destruct (text_eqb_spec m n) as [->|]; [|reflexivity]. destruct Hm. apply in_or_app. right. left. reflexivity.
    Qed.
  End Tiles.

  Lemma map_redrawn (w : world) s now steps w' left sv :
    w_osm w = [] -> (forall n f, In (n, f) (w_tiles w) -> (f_time f < now)%N) ->
    start_ s now w steps = ((w', left), Runs sv) ->
    (forall n m p, In n (infrastructure_names sv) -> In m (infrastructure_names sv) -> stem n p -> stem m p -> n = m) ->
    forall n i, get_infra sv n = Some i -> exists d, drawn_map export_osm import_tiles i d /\ map_of w' sv n = Some (Some d).
  Proof.
    intros Wo Wt E SD n i Hi.
    assert (G : triple (fun v => v = w) (start_ s now)
      (fun sv v => (forall n m p, In n (infrastructure_names sv) -> In m (infrastructure_names sv) -> stem n p -> stem m p -> n = m) ->
         forall n i, get_infra sv n = Some i -> exists d, drawn_map export_osm import_tiles i d /\ map_of v sv n = Some (Some d))
      (fun _ => True)).
    { unfold start. eapply t_then.
      { eapply t_conseq; [apply (infras_frame load_infra s now w)| | |]; cbv beta; [auto|intros l v H; exact H|auto]. }
      intros infras. apply t_pre. intros w1 (S1 & ND).
      assert (W1 : w_osm w1 = [] /\ w_tiles w1 = w_tiles w) by (unfold rest_same in S1; destruct S1 as (? & ? & ? & O & L); split; congruence).
      destruct W1 as [W1 W2].
      intros v k v' k' e -> R. destruct e as [sv'| | |]; auto. intros SDi.
      assert (Hi' : forall x, In x (map fst infras) -> In x (infrastructure_names sv')).
      { intros x Hx. unfold andThen in R.
        destruct (get_tile_module _ _ _ _ _ _ export_osm import_tiles order s now infras w1 k) as [[a b] [tiles| | |]]; try discriminate.
        destruct (get_timetable_module _ _ _ _ _ _ load_timetable order s now infras a b) as [[a' b'] [tts| | |]]; try discriminate.
        unfold ret in R. injection R as <- <- <-. exact Hx. }
      assert (Q : triple (fun v => v = w1)
        (andThen _ _ _ _ _ _ (get_tile_module _ _ _ _ _ _ export_osm import_tiles order s now infras) (fun tiles =>
         andThen _ _ _ _ _ _ (get_timetable_module _ _ _ _ _ _ load_timetable order s now infras) (fun tts =>
         ret _ _ _ _ _ _ (mk_server infras tiles tts))))
        (fun sv v => forall n i, get_infra sv n = Some i -> exists d, drawn_map export_osm import_tiles i d /\ map_of v sv n = Some (Some d)) (fun _ => True)).
      { eapply t_then.
        { eapply t_conseq; [apply (redraw_phase s now infras ND)| | |]; cbv beta.
          - intros a b Ha Hb. apply replace_distinct. intros p. apply SDi; auto.
          - intros a b Ha Hb. apply replace_distinct. intros p. apply SDi; auto.
          - intros a -> m Hm. split; [unfold waiting_osm; rewrite W1; reflexivity|].
            intros f Hf. rewrite W2 in Hf. apply lookup_In in Hf. exact (Wt _ _ Hf).
          - intros ctx a H. exact H.
          - auto. }
        intros tiles. cbv beta. apply t_pre. intros w2 H2.
        eapply t_then with (M := fun _ => all_but_raw_timetables w2).
        { eapply t_conseq; [apply (timetables_frame load_timetable order s now infras w2)| | |]; cbv beta; [intros a ->; repeat split|auto|auto]. }
        intros tts. apply t_ret. intros a (Y1 & Y2 & Y3 & Y4 & Y5) m j Hm. unfold get_infra in Hm. cbn [sv_infras] in Hm. apply lookup_In in Hm.
        destruct (H2 m j Hm) as [(f & d & F1 & F2 & F3) L]. exists d. split; [exact F3|]. unfold map_of. cbn [sv_tiles].
        rewrite L, Y5, F1, F2. reflexivity. }
      exact (Q w1 k v' k' _ eq_refl R). }
    exact (G w steps w' left (Runs sv) eq_refl E SD n i Hi).
  Qed.
End Redraw.

(* ---- complete files ---- *)
Section Safe.
  Context {IS TS I T OSM DB : Type}.
  Notation world := (StartModel.world IS TS I T OSM DB).
  Notation proc := (StartModel.proc IS TS I T OSM DB).
  Variable load_infra : IS -> res I.
  Variable load_timetable : TS -> I -> res (option T).
  Variable export_osm : I -> res OSM.
  Variable import_tiles : OSM -> res DB.
  Variable order : list (text * I) -> list (text * I).

  Definition full {C} (l : list (text * file C)) : Prop := forall n f, lookup n l = Some f -> f_content f <> None.
  Definition all_full (w : world) : Prop := full (w_raw_infras w) /\ full (w_raw_timetables w) /\ full (w_osm w) /\ full (w_tiles w).
  Lemma full_put {C} (l : list (text * file C)) n c t g : full l -> full (put_entry n (mk_file (Some c) t) (put_entry n g l)).
  Proof.
    intros F m f. rewrite !lookup_put. destruct (text_eqb m n); [intros [= <-]; discriminate|apply F].
  Qed.

  Definition safe {A} (P : world -> Prop) (p : proc A) (Q : A -> world -> Prop) : Prop :=
    forall w k w' k' e, P w -> p w k = ((w', k'), e) ->
      match e with Runs a => Q a w' | Dies => all_full w' | Cut => True | Garbage => False end.
  Lemma s_ret {A} (a : A) (P : world -> Prop) (Q : A -> world -> Prop) : (forall w, P w -> Q a w) -> safe P (ret _ _ _ _ _ _ a) Q.
  Proof. intros H w k w' k' e Pw E. injection E as <- <- <-. exact (H w Pw). Qed.
  Lemma s_then {A B} P (p : proc A) (M : A -> world -> Prop) (q : A -> proc B) Q :
    safe P p M -> (forall a, safe (M a) (q a) Q) -> safe P (andThen _ _ _ _ _ _ p q) Q.
  Proof.
    intros Hp Hq w k w' k' e Pw E. unfold andThen in E. destruct (p w k) as [[w1 k1] [a| | |]] eqn:E1;
      specialize (Hp w k w1 k1 _ Pw E1); cbv beta iota in Hp.
    - exact (Hq a w1 k1 w' k' e Hp E).
    - injection E as <- <- <-. exact Hp.
    - injection E as <- <- <-. exact Logic.I.
    - contradiction.
  Qed.
  Lemma s_get (P : world -> Prop) (Q : world -> world -> Prop) : (forall w, P w -> Q w w) -> safe P (get _ _ _ _ _ _) Q.
  Proof. intros H w k w' k' e Pw E. injection E as <- <- <-. exact (H w Pw). Qed.
  Lemma s_lift {A} (r : res A) (Q : A -> world -> Prop) : (forall a w, all_full w -> Q a w) -> safe all_full (lift _ _ _ _ _ _ r) Q.
  Proof. intros H w k w' k' e Pw E. unfold lift in E. destruct r; injection E as <- <- <-; auto. Qed.
  Lemma s_content {C} (f : option (file C)) (P : world -> Prop) (Q : C -> world -> Prop) :
    (forall w, P w -> all_full w /\ forall g, f = Some g -> f_content g <> None) -> (forall c w, P w -> Q c w) ->
    safe P (content _ _ _ _ _ _ f) Q.
  Proof.
    intros HP HQ w k w' k' e Pw E. destruct (HP w Pw) as [F G]. unfold content in E.
    destruct f as [g|]; [destruct (f_content g) as [c|] eqn:Ec|]; injection E as <- <- <-; auto. exact (G g eq_refl Ec).
  Qed.
  Lemma s_write {C} (set : file C -> world -> world) now c (P : world -> Prop) (Q : unit -> world -> Prop) :
    (forall w, P w -> Q tt (set (mk_file (Some c) now) (set (mk_file None now) w))) -> safe P (write _ _ _ _ _ _ set now c) Q.
  Proof.
    intros H w k w' k' e Pw E. unfold write, andThen, change in E.
    destruct k as [|[|k]]; injection E as <- <- <-; try exact Logic.I. exact (H w Pw).
  Qed.
  Lemma s_each {A S} (f : S -> A -> proc S) l : (forall s a, safe all_full (f s a) (fun _ => all_full)) ->
    forall s0, safe all_full (each _ _ _ _ _ _ f s0 l) (fun _ => all_full).
  Proof.
    intros H. induction l as [|a l IH]; intros s0; cbn [each]; [apply s_ret; auto|].
    eapply s_then; [apply H|]. intros s. apply IH.
  Qed.
  Lemma s_dies {A} (Q : A -> world -> Prop) : safe all_full (fun w k => ((w, k), Dies)) Q.
  Proof. intros w k w' k' e Pw E. injection E as <- <- <-. exact Pw. Qed.

  Lemma safe_infras s now : safe all_full (get_infrastructure_module _ _ _ _ _ _ load_infra s now) (fun _ => all_full).
  Proof.
    unfold get_infrastructure_module. eapply s_then with (M := fun _ => all_full); [apply s_get; auto|]. intros v. apply s_each.
    intros l [n x|n]; cbn [infra_item].
    - eapply s_then with (M := fun _ => all_full); [apply s_lift; auto|]. intros i.
      eapply s_then with (M := fun _ => all_full); [|intros _; apply s_ret; auto].
      destruct (serialization_possible s); [|apply s_ret; auto]. apply s_write. intros w (A & B & C & D).
      split; [exact (full_put _ _ _ _ _ A)|]. auto.
    - eapply s_then with (M := fun v w => v = w /\ all_full w); [apply s_get; auto|]. intros u.
      eapply s_then with (M := fun _ => all_full); [|intros c; apply s_ret; auto].
      apply s_content; [|intros c w (_ & H); exact H]. intros w (-> & H). split; [exact H|]. intros g. apply H.
  Qed.
  Lemma safe_maps s now infras : safe all_full (get_tile_module _ _ _ _ _ _ export_osm import_tiles order s now infras) (fun _ => all_full).
  Proof.
    unfold get_tile_module. apply s_each. intros ctx [n i]. unfold tile_item.
    eapply s_then with (M := fun _ => all_full).
    { unfold create_osm_file. eapply s_then with (M := fun _ => all_full); [apply s_get; auto|]. intros v.
      eapply s_then with (M := fun _ => all_full); [|intros _; apply s_ret; auto].
      destruct (_ || _); [|apply s_ret; auto]. eapply s_then with (M := fun _ => all_full); [apply s_lift; auto|].
      intros o. apply s_write. intros w (A & B & C & D). split; [exact A|]. split; [exact B|]. split; [exact (full_put _ _ _ _ _ C)|exact D]. }
    intros p. eapply s_then with (M := fun _ => all_full).
    { unfold create_tiles_db. eapply s_then with (M := fun v w => v = w /\ all_full w); [apply s_get; auto|]. intros v.
      eapply s_then with (M := fun _ => all_full); [|intros _; apply s_ret; auto].
      destruct (_ || _); [|apply s_ret; intros w (_ & H); exact H]. eapply s_then with (M := fun _ => all_full).
      { apply s_content; [|intros c w (_ & H); exact H]. intros w (-> & H). split; [exact H|]. intros g. apply H. }
      intros o. eapply s_then with (M := fun _ => all_full); [apply s_lift; auto|].
      intros t. apply s_write. intros w (A & B & C & D). split; [exact A|]. split; [exact B|]. split; [exact C|exact (full_put _ _ _ _ _ D)]. }
    intros q. destruct (lookup _ ctx); [apply s_dies|apply s_ret; auto].
  Qed.
  Lemma safe_timetables s now infras : safe all_full (get_timetable_module _ _ _ _ _ _ load_timetable order s now infras) (fun _ => all_full).
  Proof.
    unfold get_timetable_module. eapply s_then with (M := fun _ => all_full); [apply s_get; auto|]. intros v.
    apply s_each. intros ctxs [m i]. eapply s_then with (M := fun _ => all_full); [|intros c; apply s_ret; auto].
    apply s_each. intros ctx it. unfold timetable_item.
    eapply s_then with (M := fun _ => all_full); [apply s_lift; auto|]. intros [t|]; [|apply s_ret; auto].
    eapply s_then with (M := fun _ => all_full); [|intros c; apply s_ret; auto].
    destruct it; [|apply s_ret; auto]. destruct (serialization_possible s); [|apply s_ret; auto].
    apply s_write. intros w (A & B & C & D). split; [exact A|]. split; [exact (full_put _ _ _ _ _ B)|]. auto.
  Qed.
  Lemma safe_start s now : safe all_full (start load_infra load_timetable export_osm import_tiles order s now) (fun _ => all_full).
  Proof.
    unfold start. eapply s_then; [apply safe_infras|]. intros infras. eapply s_then; [apply safe_maps|]. intros tiles.
    eapply s_then; [apply safe_timetables|]. intros tts. apply s_ret. auto.
  Qed.
  Lemma past_full w t : past load_infra load_timetable export_osm import_tiles order w t -> all_full w.
  Proof.
    induction 1 as [w now _ (U1 & U2 & U3 & U4)|v w t now _ IH _ (_ & (S1 & S2 & S3 & S4) & _)|v w s t now steps left e _ IH _ E Ne].
    - unfold all_full. rewrite U1, U2, U3, U4. repeat split; intros n f; discriminate.
    - unfold all_full. rewrite S1, S2, S3, S4. exact IH.
    - pose proof (safe_start s now v steps w left e IH E) as G. destruct e; try exact G; contradiction.
  Qed.
End Safe.
