From Coq Require Import String.
From Verif Require Import Base ClientTabsModel ClientTabsSpec.
Local Open Scope list_scope.
Local Open Scope nat_scope.

(* ---- settings ---- *)
Definition good (os : bool) (p : page) : Prop :=
  vt_name p = asked os (pg_mode p) /\ vt_light p = vt_dark p /\ pg_colour p = Some (vt_dark p).
Definition sinv (b : browser) : Prop := forall k p, br_pages b k = Some p -> good (br_os b) p.
Lemma put_same {A} (m : nat -> option A) k v : put m k v k = v.
Proof. unfold put. rewrite Nat.eqb_refl. reflexivity. Qed.
Lemma put_other {A} (m : nat -> option A) k v j : j <> k -> put m k v j = m j.
Proof. intros N. unfold put. destruct (Nat.eqb_spec j k); [contradiction|reflexivity]. Qed.
Lemma good_shown os p : good os p -> shown_colour p = vt_dark p.
Proof. intros (_ & L & _). unfold shown_colour. destruct (vt_name p); auto. Qed.
Lemma load_spec os s : good os (load_settings os s fresh_page)
  /\ pg_mode (load_settings os s fresh_page) = match ls_mode s with Some m => m | None => ByOs end
  /\ vt_dark (load_settings os s fresh_page) =
     match ls_colour s with Some c => if String.eqb c "" then default_primary else c | None => default_primary end.
Proof.
  unfold load_settings, good. destruct s as [[[| |]|] [c|]]; cbn [ls_mode ls_colour]; try (destruct (String.eqb c ""));
    destruct os; cbn; repeat split; reflexivity.
Qed.
Lemma apply_good os m p : good os p \/ (vt_light p = vt_dark p /\ pg_colour p = Some (vt_dark p)) ->
  good os (apply_theme os (set_mode m p)) /\ pg_mode (apply_theme os (set_mode m p)) = m
  /\ vt_dark (apply_theme os (set_mode m p)) = vt_dark p.
Proof.
  intros G. assert (vt_light p = vt_dark p /\ pg_colour p = Some (vt_dark p)) as (L & C).
  { destruct G as [(_ & L & C)|(L & C)]; auto. }
  unfold apply_theme, good. destruct m; cbn; auto.
Qed.
Lemma paint_good os c p : good os p ->
  good os (set_primary c p) /\ pg_mode (set_primary c p) = pg_mode p /\ vt_dark (set_primary c p) = c.
Proof. intros (N & _ & _). unfold good, set_primary. cbn. auto. Qed.
Lemma os_good o o' p : good o p -> good o' (os_changes o' p) /\ pg_mode (os_changes o' p) = pg_mode p
  /\ vt_dark (os_changes o' p) = vt_dark p.
Proof. intros (N & L & C). unfold good, os_changes. destruct p as [[| |] t c n d l]; cbn in *; auto. Qed.
Lemma sinv_step b e : sinv b -> sinv (sstep b e).
Proof.
  intros I. destruct e as [k|k|k m|k c|o|]; cbn [sstep].
  - intros j p. cbn. unfold put. destruct (Nat.eqb_spec j k); [intros [= <-]; apply load_spec|apply I].
  - intros j p. cbn. unfold put. destruct (Nat.eqb_spec j k); [discriminate|apply I].
  - destruct (br_pages b k) as [q|] eqn:Q; [|exact I]. intros j p. cbn. unfold put.
    destruct (Nat.eqb_spec j k); [intros [= <-]; apply apply_good; left; eauto|apply I].
  - destruct (br_pages b k) as [q|] eqn:Q; [|exact I]. intros j p. cbn. unfold put.
    destruct (Nat.eqb_spec j k); [intros [= <-]; apply paint_good; eauto|apply I].
  - intros j p. cbn. destruct (br_pages b j) as [q|] eqn:Q; [|discriminate]. cbn. intros [= <-]. eapply os_good. eauto.
  - exact I.
Qed.
Lemma sinv_run es : forall b, sinv b -> sinv (srun es b).
Proof. induction es as [|e es IH]; intros b I; [exact I|]. cbn. apply IH, sinv_step, I. Qed.
Lemma sinv_init os : sinv (sinit os).
Proof. intros k p. discriminate. Qed.
Lemma os_step b e : br_os (sstep b e) = match e with OsTurns o => o | _ => br_os b end.
Proof. destruct e; cbn; try reflexivity; destruct (br_pages b k); reflexivity. Qed.
Lemma os_run es : forall b, br_os (srun es b) = os_after (br_os b) es.
Proof.
  induction es as [|e es IH]; intros b; [reflexivity|]. cbn. change (fold_left sstep es (sstep b e)) with (srun es (sstep b e)).
  rewrite IH, os_step. reflexivity.
Qed.
Lemma srun_app a c b : srun (a ++ c) b = srun c (srun a b).
Proof. unfold srun. apply fold_left_app. Qed.
(* a page that stays keeps its mode unless one chooses another, and its colour likewise *)
Lemma stay_step b e k p : sinv b -> br_pages b k = Some p -> stays k e ->
  exists p', br_pages (sstep b e) k = Some p' /\ (not_prefer k e -> pg_mode p' = pg_mode p)
    /\ (not_paint k e -> vt_dark p' = vt_dark p).
Proof.
  intros I P S. destruct e as [j|j|j m|j c|o|]; cbn [sstep stays not_prefer not_paint] in *.
  - exists p. cbn. rewrite put_other by auto. auto.
  - exists p. cbn. rewrite put_other by auto. auto.
  - destruct (br_pages b j) as [q|] eqn:Q; [|exists p; auto]. cbn. destruct (Nat.eq_dec k j) as [->|N].
    + rewrite put_same. replace q with p in * by congruence. eexists. split; [reflexivity|].
      destruct (apply_good (br_os b) m p (or_introl (I _ _ P))) as (_ & _ & D). split; [intros []; reflexivity|auto].
    + exists p. rewrite put_other by auto. auto.
  - destruct (br_pages b j) as [q|] eqn:Q; [|exists p; auto]. cbn. destruct (Nat.eq_dec k j) as [->|N].
    + rewrite put_same. replace q with p in * by congruence. eexists. split; [reflexivity|].
      split; [auto|intros []; reflexivity].
    + exists p. rewrite put_other by auto. auto.
  - cbn. rewrite P. cbn. eexists. split; [reflexivity|]. destruct (os_good _ o p (I _ _ P)) as (_ & M & D). auto.
  - exists p. auto.
Qed.
Lemma stay_run k es : forall b p, sinv b -> br_pages b k = Some p -> Forall (stays k) es ->
  exists p', br_pages (srun es b) k = Some p' /\ (Forall (not_prefer k) es -> pg_mode p' = pg_mode p)
    /\ (Forall (not_paint k) es -> vt_dark p' = vt_dark p).
Proof.
  induction es as [|e es IH]; intros b p I P S; [exists p; auto|]. inversion S as [|? ? S1 S2]; subst.
  destruct (stay_step b e k p I P S1) as (q & Q & M & D).
  destruct (IH _ q (sinv_step _ e I) Q S2) as (r & R & M' & D'). exists r. split; [exact R|]. split; intros F; inversion F; subst.
  - rewrite M' by auto. auto.
  - rewrite D' by auto. auto.
Qed.
Lemma quiet_run es : forall b, Forall quiet es -> br_ls (srun es b) = br_ls b.
Proof.
  induction es as [|e es IH]; intros b Q; [reflexivity|]. inversion Q as [|? ? Q1 Q2]; subst. cbn.
  change (fold_left sstep es (sstep b e)) with (srun es (sstep b e)). rewrite IH by auto. destruct e; cbn in *; try contradiction; reflexivity.
Qed.
Lemma chosen_ls b e k p : sinv b -> chooses k e -> br_pages b k = Some p ->
  (exists c, vt_dark p = c /\ c <> ""%string) ->
  exists p', br_pages (sstep b e) k = Some p' /\ br_ls (sstep b e) = mkStore (Some (pg_mode p')) (Some (vt_dark p')) /\ vt_dark p' <> ""%string.
Proof.
  intros I C P (c & <- & NE). destruct e as [j|j|j m|j x|o|]; cbn [chooses] in C; try contradiction.
  - subst j. cbn [sstep]. rewrite P. cbn. rewrite put_same. eexists. split; [reflexivity|].
    destruct (apply_good (br_os b) m p (or_introl (I _ _ P))) as ((_ & _ & C) & M & D).
    unfold save_settings. rewrite C, D. destruct (String.eqb_spec (vt_dark p) ""); [contradiction|]. auto.
  - destruct C as (-> & NX). cbn [sstep]. rewrite P. cbn. rewrite put_same. eexists. split; [reflexivity|]. unfold save_settings. cbn.
    destruct (String.eqb_spec x ""); [contradiction|]. auto.
Qed.

(* ---- tabs ---- *)
Lemma has_in l i : has l i = true <-> In i l.
Proof.
  unfold has. rewrite existsb_exists. split; [intros (x & X & E); apply Nat.eqb_eq in E; subst; exact X|].
  intros H. exists i. split; [exact H|apply Nat.eqb_refl].
Qed.
Lemma has_not l i : has l i = false <-> ~ In i l.
Proof. rewrite <- has_in. destruct (has l i); split; try discriminate; auto. intros H. destruct H; reflexivity. Qed.
Lemma seek_stuck n all : forall cur, In (seek n all cur) all -> forall j, j < n -> In (cur + j) all.
Proof.
  induction n as [|n IH]; intros cur H j J; [lia|]. cbn [seek] in H.
  destruct (has all cur) eqn:E; [|apply has_not in E; contradiction].
  apply has_in in E. destruct j; [replace (cur + 0) with cur by lia; exact E|].
  replace (cur + S j) with (S cur + j) by lia. apply IH; [exact H|lia].
Qed.
Lemma seek_fresh all cur : ~ In (seek (S (List.length all)) all cur) all.
Proof.
  intros H. pose proof (seek_stuck _ _ _ H) as G.
  assert (List.length (seq cur (S (List.length all))) <= List.length all).
  { apply NoDup_incl_length; [apply seq_NoDup|]. intros i I. apply in_seq in I.
    replace i with (cur + (i - cur)) by lia. apply G. lia. }
  rewrite seq_length in *. lia.
Qed.
Definition ainv (a : adapter) (tabs : list nat) : Prop :=
  NoDup tabs /\ (forall i, In i (ad_all a) <-> In i tabs) /\ NoDup (ad_unused a) /\ (forall i, In i (ad_unused a) -> ~ In i tabs).
Lemma in_set_key l i j : In j (set_key l i) <-> In j l \/ j = i.
Proof.
  unfold set_key. destruct (has l i) eqn:E.
  - apply has_in in E. split; [auto|intros [H|H]; subst; auto].
  - rewrite in_app_iff. cbn. intuition.
Qed.
Lemma nodup_snoc {A} (l : list A) x : NoDup l -> ~ In x l -> NoDup (l ++ [x]).
Proof. intros N X. apply NoDup_rev in N. rewrite <- (rev_involutive (l ++ [x])), rev_app_distr. apply NoDup_rev. cbn. constructor; [rewrite <- in_rev; exact X|exact N]. Qed.
Lemma add_fresh a tabs a' i u : ainv a tabs -> u = None \/ u = Some 0 -> add_component u a = (a', i) -> ~ In i tabs /\ ainv a' (tabs ++ [i]).
Proof.
  intros (N & A & U & D) HU E. assert (E' : add_component None a = (a', i)) by (destruct HU; subst u; exact E). clear E HU.
  unfold add_component in E'. destruct (ad_unused a) as [|k r] eqn:UN.
  - cbv zeta in E'. pose proof (seek_fresh (ad_all a) (ad_cur a)) as F. rewrite A in F.
    set (k := seek (S (List.length (ad_all a))) (ad_all a) (ad_cur a)) in *. clearbody k. injection E' as <- <-.
    split; [exact F|]. split; [apply nodup_snoc; auto|]. cbn [ad_all ad_unused]. split; [|split; [constructor|intros j []]].
    intros j. rewrite in_set_key, A, in_app_iff. cbn. intuition.
  - injection E' as <- <-. inversion U as [|? ? K R]; subst. assert (F : ~ In k tabs) by (apply D; left; reflexivity).
    split; [exact F|]. split; [apply nodup_snoc; auto|]. cbn [ad_all ad_unused]. split; [|split; [exact R|]].
    + intros j. rewrite in_set_key, A, in_app_iff. cbn. intuition.
    + intros j J. rewrite in_app_iff. intros [H|[H|[]]]; [apply (D j); [right; exact J|exact H]|subst j; contradiction].
Qed.
Lemma in_drop l i j : In j (filter (fun x => negb (x =? i)) l) <-> In j l /\ j <> i.
Proof. rewrite filter_In, negb_true_iff, Nat.eqb_neq. reflexivity. Qed.
Lemma unbind_inv a tabs i : ainv a tabs -> In i tabs -> ainv (unbind i a) (filter (fun j => negb (j =? i)) tabs).
Proof.
  intros (N & A & U & D) I. split; [apply NoDup_filter, N|]. unfold unbind. cbn [ad_all ad_unused]. split; [|split].
  - intros j. rewrite !in_drop, A. reflexivity.
  - constructor; [intros H; exact (D i H I)|exact U].
  - intros j [<-|J] H; apply in_drop in H; destruct H as (H & H'); [contradiction|exact (D j J H)].
Qed.
(* after the first layout is cleared away the index 0 has been given back; a stored layout gets its indices again *)
Lemma add_all_saved l : forall tabs a unused,
  (ad_unused a = unused) -> NoDup (tabs ++ l) -> (forall i, In i (ad_all a) <-> In i tabs) ->
  (unused = [0] /\ ~ In 0 tabs \/ unused = [] /\ ~ In 0 l) ->
  exists a', add_all (map Some l) a = (a', l) /\ ainv a' (tabs ++ l).
Proof.
  induction l as [|i l IH]; intros tabs a un U N A C.
  - exists a. rewrite app_nil_r in *. split; [reflexivity|]. split; [exact N|]. split; [exact A|]. rewrite U.
    destruct C as [(-> & H)|(-> & _)]; (split; [repeat constructor; auto|]); [intros j [<-|[]]; exact H|intros j []].
  - cbn [map add_all]. assert (NI : ~ In i tabs).
    { intros H. apply NoDup_remove_2 in N. apply N. apply in_or_app. auto. }
    assert (NL : ~ In i l). { intros H. apply NoDup_remove_2 in N. apply N. apply in_or_app. auto. }
    destruct i as [|n].
    + destruct C as [(-> & H)|(_ & H)]; [|destruct H; left; reflexivity].
      unfold add_component. rewrite U.
      destruct (IH (tabs ++ [0]) (mkAdapter (set_key (ad_all a) 0) [] (ad_cur a)) []) as (a' & E & I).
      * reflexivity.
      * rewrite <- app_assoc. exact N.
      * intros j. cbn [ad_all]. rewrite in_set_key, A, in_app_iff. cbn. intuition.
      * right. auto.
      * rewrite E. exists a'. split; [reflexivity|]. rewrite <- app_assoc in I. exact I.
    + unfold add_component.
      destruct (IH (tabs ++ [S n]) (mkAdapter (set_key (ad_all a) (S n)) (ad_unused a) (ad_cur a)) un) as (a' & E & I).
      * exact U.
      * rewrite <- app_assoc. exact N.
      * intros j. cbn [ad_all]. rewrite in_set_key, A, in_app_iff. cbn. intuition.
      * destruct C as [(-> & H)|(-> & H)]; [left|right]; split; auto.
        -- rewrite in_app_iff. cbn. intuition discriminate.
        -- intros K. apply H. right. exact K.
      * rewrite E. exists a'. split; [reflexivity|]. rewrite <- app_assoc in I. exact I.
Qed.
Lemma start_spec saved : (forall l, saved = Some l -> NoDup l) ->
  exists a ts, start saved = mkWindow a ts saved /\ ainv a ts /\ ts = match saved with Some l => l | None => [0] end.
Proof.
  intros N. unfold start. change (load_layout init_layout ad_init []) with (mkAdapter [0] [] 0, [0]). cbv beta iota.
  destruct saved as [l|].
  - unfold load_layout. cbn [fold_left]. unfold unbind. cbn [ad_all ad_unused ad_cur].
    destruct (add_all_saved l [] (mkAdapter [] [0] 0) [0]) as (a & E & I).
    + reflexivity.
    + exact (N l eq_refl).
    + cbn. tauto.
    + left. auto.
    + rewrite E. exists a, l. auto.
  - exists (mkAdapter [0] [] 0), [0]. split; [reflexivity|]. split; [|reflexivity]. split; [repeat constructor; auto|]. cbn.
    split; [tauto|]. split; [constructor|auto].
Qed.
Definition tinv (w : window) : Prop := ainv (w_ad w) (w_tabs w) /\ (forall l, w_saved w = Some l -> NoDup l).
Lemma same_tabs_spec l m : same_tabs l m = true -> List.length l = List.length m /\ forall i, In i l <-> In i m.
Proof.
  unfold same_tabs. rewrite !andb_true_iff, !forallb_forall, Nat.eqb_eq. intros ((L & A) & B). split; [exact L|].
  intros i. split; intros H; apply has_in; auto.
Qed.
Lemma tinv_step w e : tinv w -> tinv (tstep w e).
Proof.
  intros (I & S). destruct e as [|i|l| |]; cbn [tstep].
  - destruct (add_component None (w_ad w)) as [a i] eqn:E. destruct (add_fresh _ _ _ _ _ I (or_introl eq_refl) E) as (_ & J). split; auto.
  - destruct (has (w_tabs w) i) eqn:E; [|split; auto]. apply has_in in E. split; [|exact S]. cbn. apply unbind_inv; auto.
  - destruct (same_tabs l (w_tabs w)) eqn:E; [|split; auto]. apply same_tabs_spec in E. destruct E as (L & E). split; [|exact S]. cbn.
    destruct I as (N & A & U & D). split; [|split; [|split]].
    + eapply NoDup_incl_NoDup; [exact N|lia|]. intros i H. apply E, H.
    + intros i. rewrite A. symmetry. apply E.
    + exact U.
    + intros i H K. apply (D i H). apply E, K.
  - split; [exact I|]. cbn. intros l [= <-]. apply I.
  - destruct (start_spec (w_saved w) S) as (a & ts & E & J & _). rewrite E. split; [exact J|exact S].
Qed.
Lemma tinv_start : tinv (start None).
Proof. destruct (start_spec None) as (a & ts & E & J & _); [discriminate|]. rewrite E. split; [exact J|discriminate]. Qed.
Lemma tinv_run es : forall w, tinv w -> tinv (trun es w).
Proof. induction es as [|e es IH]; intros w I; [exact I|]. cbn. apply IH, tinv_step, I. Qed.
Lemma saved_step w e : tinv w -> e <> Save -> w_saved (tstep w e) = w_saved w.
Proof.
  intros (_ & S) N. destruct e as [|i|l| |]; cbn [tstep]; try reflexivity; try contradiction.
  - destruct (add_component None (w_ad w)). reflexivity.
  - destruct (has _ _); reflexivity.
  - destruct (same_tabs _ _); reflexivity.
  - destruct (start_spec (w_saved w) S) as (a & ts & E & _). rewrite E. reflexivity.
Qed.
Lemma saved_run es : forall w, tinv w -> ~ In Save es -> w_saved (trun es w) = w_saved w.
Proof.
  induction es as [|e es IH]; intros w I N; [reflexivity|]. cbn. change (fold_left tstep es (tstep w e)) with (trun es (tstep w e)).
  rewrite IH; [|apply tinv_step, I|intros H; apply N; right; exact H]. apply saved_step; [exact I|]. intros ->. apply N. left. reflexivity.
Qed.
Lemma trun_app a c w : trun (a ++ c) w = trun c (trun a w).
Proof. unfold trun. apply fold_left_app. Qed.

(* ---- legend ---- *)
Local Opaque etype_dec control_dec.
Arguments includes : simpl never.
Lemma includes_in l c : includes l c = true <-> In c l.
Proof.
  unfold includes. rewrite existsb_exists. split.
  - intros (x & X & E). destruct (control_dec x c); [subst; exact X|discriminate].
  - intros H. exists c. split; [exact H|]. destruct (control_dec c c); [reflexivity|contradiction].
Qed.
Lemma includes_ext l l' c : (In c l <-> In c l') -> includes l c = includes l' c.
Proof. rewrite <- !includes_in. destruct (includes l c), (includes l' c); intuition. Qed.
Lemma all_types e : In e element_types.
Proof. destruct e; cbn; tauto. Qed.
Lemma set_fold f ts : forall m l, exists_layer l ->
  gl_visible (fold_left (fun m e => set_visibility e (f e) m) ts m) l =
  if in_dec etype_dec (kind_of l) ts then f (kind_of l) else gl_visible m l.
Proof.
  induction ts as [|e ts IH]; intros m l X; [reflexivity|]. cbn [fold_left]. rewrite IH by exact X.
  destruct (in_dec etype_dec (kind_of l) ts) as [I|I]; destruct (in_dec etype_dec (kind_of l) (e :: ts)) as [J|J]; cbn in J; try tauto.
  - destruct J as [J|J]; [|contradiction]. subst e. destruct l as [e|e]; cbn [set_visibility gl_visible kind_of exists_layer] in *;
      repeat (destruct (etype_dec _ _)); try contradiction; reflexivity.
  - destruct l as [e'|e']; cbn [set_visibility gl_visible kind_of] in *; destruct (etype_dec e' e); try reflexivity; subst; tauto.
Qed.
Lemma set_fold_filter f ts : forall m, gl_filter (fold_left (fun m e => set_visibility e (f e) m) ts m) = gl_filter m
  /\ gl_routes (fold_left (fun m e => set_visibility e (f e) m) ts m) = gl_routes m.
Proof. induction ts as [|e ts IH]; intros m; [split; reflexivity|]. cbn [fold_left]. destruct (IH (set_visibility e (f e) m)) as (A & B). rewrite A, B. split; reflexivity. Qed.
Definition sees (checked : list control) (m : glmap) : Prop :=
  forall l, exists_layer l -> gl_visible m l = includes checked (Kind (kind_of l)).
Definition faces (checked : list control) (m : glmap) : Prop :=
  forall l, gl_filter m l = if etype_dec (kind_of l) STATION then NoFilter else direction_of checked.
Lemma special_visible checked m l : gl_visible (evaluate_special checked m) l = gl_visible m l.
Proof. reflexivity. Qed.
Lemma set_all_eq checked m :
  set_all checked m = evaluate_special checked (fold_left (fun m e => set_visibility e (includes checked (Kind e)) m) element_types m).
Proof. reflexivity. Qed.
Lemma set_fold_all f ts m l : (forall e, In e ts) -> exists_layer l ->
  gl_visible (fold_left (fun m e => set_visibility e (f e) m) ts m) l = f (kind_of l).
Proof. intros A X. rewrite set_fold by exact X. destruct (in_dec etype_dec (kind_of l) ts) as [I|I]; [reflexivity|]. destruct I. apply A. Qed.
Lemma set_all_sees checked m : sees checked (set_all checked m).
Proof.
  intros l X. rewrite set_all_eq, special_visible. exact (set_fold_all (fun e => includes checked (Kind e)) element_types m l all_types X).
Qed.
Lemma special_faces checked m : (forall l, kind_of l = STATION -> gl_filter m l = NoFilter) -> faces checked (evaluate_special checked m).
Proof. intros S [e|e]; unfold evaluate_special; cbn [gl_filter kind_of]; destruct (etype_dec e STATION); auto. Qed.
Lemma set_all_faces checked m : (forall l, kind_of l = STATION -> gl_filter m l = NoFilter) -> faces checked (set_all checked m).
Proof.
  intros S. rewrite set_all_eq. apply special_faces. intros l. rewrite (proj1 (set_fold_filter (fun e => includes checked (Kind e)) element_types m)). apply S.
Qed.
Lemma style_sees checked : sees checked (style checked).
Proof. intros [e|e] _; reflexivity. Qed.
Lemma create_sees checked : sees checked (create_map checked).
Proof. apply set_all_sees. Qed.
Lemma create_faces checked : faces checked (create_map checked).
Proof. apply set_all_faces. reflexivity. Qed.
Lemma faces_station checked m : faces checked m -> forall l, kind_of l = STATION -> gl_filter m l = NoFilter.
Proof. intros F l K. rewrite F, K. destruct (etype_dec STATION STATION); [reflexivity|contradiction]. Qed.
(* l' is l with the box of c ticked (v = true) or not *)
Definition turned (c : control) (v : bool) (l l' : list control) : Prop :=
  forall d, In d l' <-> if control_dec d c then v = true else In d l.
Lemma tick_turned l c : turned c true l (l ++ [c]).
Proof. intros d. rewrite in_app_iff. cbn. destruct (control_dec d c); intuition. subst. contradiction. Qed.
Lemma untick_turned l c : turned c false l (filter (fun d => if control_dec d c then false else true) l).
Proof. intros d. rewrite filter_In. destruct (control_dec d c); intuition discriminate. Qed.
Lemma change_sees c v l l' m : turned c v l l' -> sees l m -> sees l' (after_change c v l' m).
Proof.
  intros T S ly X. destruct c as [e| |]; cbn [after_change].
  - assert (H : gl_visible (set_visibility e v m) ly = if etype_dec (kind_of ly) e then v else gl_visible m ly).
    { destruct ly as [e'|e']; cbn [set_visibility gl_visible kind_of exists_layer] in *; repeat destruct (etype_dec _ _); subst; try contradiction; reflexivity. }
    rewrite H. pose proof (T (Kind (kind_of ly))) as D. destruct (etype_dec (kind_of ly) e) as [K|N].
    + rewrite K in *. destruct (control_dec (Kind e) (Kind e)); [|contradiction]. rewrite <- includes_in in D.
      destruct v, (includes l' (Kind e)); intuition.
    + rewrite S by exact X. destruct (control_dec (Kind (kind_of ly)) (Kind e)) as [E|_]; [injection E as E; contradiction|].
      symmetry. apply includes_ext, D.
  - cbn [evaluate_special gl_visible]. rewrite S by exact X. symmetry. apply includes_ext. rewrite (T _).
    destruct (control_dec (Kind (kind_of ly)) RISING); [discriminate|reflexivity].
  - cbn [evaluate_special gl_visible]. rewrite S by exact X. symmetry. apply includes_ext. rewrite (T _).
    destruct (control_dec (Kind (kind_of ly)) FALLING); [discriminate|reflexivity].
Qed.
Lemma change_faces c v l l' m : turned c v l l' -> faces l m -> faces l' (after_change c v l' m).
Proof.
  intros T F. destruct c as [e| |]; cbn [after_change].
  - intros ly. change (gl_filter (set_visibility e v m) ly) with (gl_filter m ly). rewrite F.
    assert (D : direction_of l' = direction_of l); [|rewrite D; reflexivity].
    assert (R : includes l' RISING = includes l RISING). { apply includes_ext. rewrite (T _). destruct (control_dec RISING (Kind e)); [discriminate|reflexivity]. }
    assert (G : includes l' FALLING = includes l FALLING). { apply includes_ext. rewrite (T _). destruct (control_dec FALLING (Kind e)); [discriminate|reflexivity]. }
    unfold direction_of. rewrite R, G. reflexivity.
  - apply special_faces, (faces_station _ _ F).
  - apply special_faces, (faces_station _ _ F).
Qed.
Lemma change_routes c v l m : gl_routes (after_change c v l m) = gl_routes m.
Proof. destruct c; reflexivity. Qed.
Lemma set_all_routes l m : gl_routes (set_all l m) = gl_routes m.
Proof. rewrite set_all_eq. exact (proj2 (set_fold_filter (fun e => includes l (Kind e)) element_types m)). Qed.

(* P is kept of the maps of all tabs, whatever the events; only tab k0 refers to the array of the module *)
Definition winv (k0 : nat) (P : list control -> glmap -> Prop) (w : world) : Prop :=
  forall k t, w_tab w k = Some t ->
    (tb_ref t = Module -> k = k0) /\ (forall m, tb_map t = Some m -> P (deref (w_const w) (tb_ref t)) m).
Lemma winv_open k0 (P : list control -> glmap -> Prop) w k : (forall l, P l (create_map l)) -> winv k0 P w -> winv k0 P (open_tab w k).
Proof.
  intros C I j t. unfold open_tab. cbn [w_tab w_const]. unfold put. destruct (Nat.eqb_spec j k); [|apply I].
  intros [= <-]. cbn [tb_ref tb_map deref]. split; [discriminate|]. intros m. destruct (w_infra w); [intros [= <-]; apply C|discriminate].
Qed.
Lemma winv_opens k0 (P : list control -> glmap -> Prop) ks : (forall l, P l (create_map l)) ->
  forall w, winv k0 P w -> winv k0 P (fold_left open_tab ks w).
Proof. intros C. induction ks as [|k ks IH]; intros w I; [exact I|]. cbn. apply IH, winv_open; auto. Qed.
Lemma winv_step k0 (P : list control -> glmap -> Prop) w e :
  (forall l, P l (create_map l)) -> (forall c v l l' m, turned c v l l' -> P l m -> P l' (after_change c v l' m)) ->
  (forall l l' m, P l m -> P l' (set_all l' m)) -> (forall l m rs, P l m -> P l (mkMap (gl_visible m) (gl_filter m) rs)) ->
  (e = Theme -> forall l, P l (style l)) -> reset_only k0 e ->
  winv k0 P w -> winv k0 P (lstep w e).
Proof.
  intros C H R Q T O I. destruct e as [k|k|k c|k c|k| |b|rs|ks]; cbn [lstep].
  - apply winv_open; auto.
  - intros j t. cbn. unfold put. destruct (Nat.eqb_spec j k); [discriminate|apply I].
  - destruct (w_tab w k) as [t|] eqn:E; [|exact I]. destruct (I k t E) as (M & V).
    destruct (tb_ref t) as [l|] eqn:Rf; cbn [deref] in *.
    + intros j t'. cbn. unfold put. destruct (Nat.eqb_spec j k); [|apply I]. intros [= <-]. cbn [tb_ref tb_map deref].
      split; [discriminate|]. intros m. destruct (tb_map t) as [m0|]; [|discriminate]. cbn. intros [= <-]. eapply H; [apply tick_turned|]. auto.
    + pose proof (M eq_refl) as ->. intros j t'. cbn. unfold put. destruct (Nat.eqb_spec j k0).
      * intros [= <-]. cbn [tb_ref tb_map deref]. split; [auto|]. intros m. destruct (tb_map t) as [m0|]; [|discriminate]. cbn.
        intros [= <-]. eapply H; [apply tick_turned|]. auto.
      * intros E'. destruct (I j t' E') as (M' & V'). split; [exact M'|]. intros m Em. destruct (tb_ref t') as [l'|] eqn:R'.
        -- exact (V' m Em).
        -- destruct n. apply M'. reflexivity.
  - destruct (w_tab w k) as [t|] eqn:E; [|exact I]. destruct (I k t E) as (M & V).
    intros j t'. cbn. unfold put. destruct (Nat.eqb_spec j k); [|apply I]. intros [= <-]. cbn [tb_ref tb_map deref].
    split; [discriminate|]. intros m. destruct (tb_map t) as [m0|]; [|discriminate]. cbn. intros [= <-]. eapply H; [apply untick_turned|]. auto.
  - destruct (w_tab w k) as [t|] eqn:E; [|exact I]. destruct (I k t E) as (M & V).
    intros j t'. cbn. unfold put. destruct (Nat.eqb_spec j k); [|apply I]. intros [= <-]. cbn [tb_ref tb_map deref].
    split; [intros _; subst; exact O|]. intros m. destruct (tb_map t) as [m0|]; [|discriminate]. cbn. intros [= <-]. eapply R. auto.
  - intros j t'. cbn. destruct (w_tab w j) as [t|] eqn:E; [|discriminate]. destruct (I j t E) as (M & V). cbn. intros [= <-]. cbn.
    split; [exact M|]. intros m. destruct (tb_map t) as [m0|]; [|discriminate]. cbn. intros [= <-]. apply T. reflexivity.
  - intros j t'. cbn. destruct (w_tab w j) as [t|] eqn:E; [|discriminate]. destruct (I j t E) as (M & V). cbn. intros [= <-]. cbn.
    split; [exact M|]. intros m. destruct b; [intros [= <-]; apply C|discriminate].
  - intros j t'. cbn. destruct (w_tab w j) as [t|] eqn:E; [|discriminate]. destruct (I j t E) as (M & V). cbn. intros [= <-]. cbn.
    split; [exact M|]. intros m. destruct (tb_map t) as [m0|]; [|discriminate]. cbn. intros [= <-]. apply Q. auto.
  - apply winv_opens; [exact C|]. intros j t. discriminate.
Qed.
Lemma winv_init k0 P : winv k0 P linit.
Proof. intros j t. discriminate. Qed.
Lemma sees_run k0 es : forall w, Forall (reset_only k0) es -> winv k0 sees w -> winv k0 sees (lrun es w).
Proof.
  induction es as [|e es IH]; intros w F I; [exact I|]. inversion F as [|? ? F1 F2]; subst. cbn. apply IH; [exact F2|].
  apply winv_step; auto using create_sees, style_sees.
  - intros. eapply change_sees; eauto.
  - intros. apply set_all_sees.
Qed.
Lemma faces_run k0 es : forall w, Forall (reset_only k0) es -> ~ In Theme es -> winv k0 faces w -> winv k0 faces (lrun es w).
Proof.
  induction es as [|e es IH]; intros w F N I; [exact I|]. inversion F as [|? ? F1 F2]; subst. cbn.
  apply IH; [exact F2|intros H; apply N; right; exact H|].
  apply winv_step; auto using create_faces.
  - intros. eapply change_faces; eauto.
  - intros. apply set_all_faces. eapply faces_station. eauto.
  - intros ->. destruct N. left. reflexivity.
Qed.
Lemma lrun_app a c w : lrun (a ++ c) w = lrun c (lrun a w).
Proof. unfold lrun. apply fold_left_app. Qed.
(* the tab that stays: its boxes follow the user *)
Definition only (k0 : nat) (w : world) : Prop := winv k0 (fun _ _ => True) w.
Lemma only_step k0 w e : reset_only k0 e -> only k0 w -> only k0 (lstep w e).
Proof. intros R I. apply winv_step; auto. Qed.
Lemma only_run k0 es : forall w, Forall (reset_only k0) es -> only k0 w -> only k0 (lrun es w).
Proof. induction es as [|e es IH]; intros w F I; [exact I|]. inversion F; subst. cbn. apply IH; auto. apply only_step; auto. Qed.
Lemma box_step k0 w e k t : only k0 w -> reset_only k0 e -> keeps k e -> e <> ResetLegend k -> w_tab w k = Some t ->
  exists t', w_tab (lstep w e) k = Some t' /\
    forall c, In c (ticked (lstep w e) k) <-> last_decision k c (In c (ticked w k)) [e].
Proof.
  intros I O K NR E. assert (TK : ticked w k = deref (w_const w) (tb_ref t)) by (unfold ticked; rewrite E; reflexivity).
  unfold last_decision. cbn [fold_left]. destruct e as [j|j|j x|j x|j| |b|rs|ks]; cbn [keeps] in K; try contradiction.
  - exists t. cbn [lstep open_tab]. unfold ticked. cbn. rewrite put_other by auto. rewrite E. tauto.
  - exists t. cbn [lstep]. unfold ticked. cbn. rewrite put_other by auto. rewrite E. tauto.
  - cbn [lstep]. destruct (Nat.eqb_spec j k) as [->|N].
    + rewrite E. cbn [andb]. assert (X : forall c, In c (ticked w k ++ [x]) <-> (if if control_dec x c then true else false then True else In c (ticked w k))).
      { intros c. rewrite in_app_iff. cbn. destruct (control_dec x c); intuition. }
      destruct (tb_ref t) as [l|] eqn:R; cbn [deref] in *; eexists; (split; [cbn; apply put_same|]); intros c; rewrite <- X, TK;
        unfold ticked; cbn; rewrite put_same; cbn [tb_ref deref]; reflexivity.
    + cbn [andb]. destruct (w_tab w j) as [u|] eqn:U; [|exists t; split; [exact E|tauto]]. exists t.
      destruct (tb_ref u) as [l|] eqn:R; unfold ticked; cbn; rewrite put_other by auto; rewrite E; [tauto|]. split; [reflexivity|].
      destruct (tb_ref t) as [l|] eqn:R'; [cbn; tauto|]. destruct N.
      rewrite (proj1 (I j u U) R). symmetry. apply (proj1 (I k t E) R').
  - cbn [lstep]. destruct (Nat.eqb_spec j k) as [->|N].
    + rewrite E. cbn [andb]. eexists. split; [cbn; apply put_same|]. intros c. rewrite TK. unfold ticked. cbn. rewrite put_same. cbn [tb_ref deref].
      rewrite filter_In. destruct (control_dec c x), (control_dec x c); subst; try contradiction; intuition discriminate.
    + cbn [andb]. exists t. destruct (w_tab w j) as [u|] eqn:U; [|split; [exact E|tauto]]. unfold ticked. cbn. rewrite put_other by auto. rewrite E. tauto.
  - cbn [lstep]. assert (N : k <> j) by congruence. exists t. destruct (w_tab w j) as [u|] eqn:U; [|split; [exact E|tauto]].
    unfold ticked. cbn. rewrite put_other by auto. rewrite E. tauto.
  - cbn [lstep]. unfold ticked. cbn. rewrite E. cbn. eexists. split; [reflexivity|]. tauto.
  - cbn [lstep]. unfold ticked. cbn. rewrite E. cbn. eexists. split; [reflexivity|]. tauto.
  - cbn [lstep]. unfold ticked. cbn. rewrite E. cbn. eexists. split; [reflexivity|]. tauto.
Qed.
Lemma decision_ext k c es : forall d d' : Prop, (d <-> d') -> (last_decision k c d es <-> last_decision k c d' es).
Proof.
  unfold last_decision. induction es as [|e es IH]; intros d d' H; [exact H|]. cbn [fold_left]. apply IH.
  destruct e; try exact H; destruct (andb _ _); tauto.
Qed.
Lemma box_run k0 k es : forall w t, only k0 w -> Forall (reset_only k0) es -> Forall (keeps k) es -> ~ In (ResetLegend k) es -> w_tab w k = Some t ->
  exists t', w_tab (lrun es w) k = Some t' /\ forall c, In c (ticked (lrun es w) k) <-> last_decision k c (In c (ticked w k)) es.
Proof.
  induction es as [|e es IH]; intros w t I F K N E; [exists t; split; [exact E|reflexivity]|].
  inversion F as [|? ? F1 F2]; inversion K as [|? ? K1 K2]; subst.
  destruct (box_step k0 w e k t I F1 K1) as (t1 & E1 & D1); [intros ->; apply N; left; reflexivity|exact E|].
  destruct (IH (lstep w e) t1) as (t2 & E2 & D2); [apply only_step; auto|exact F2|exact K2|intros H; apply N; right; exact H|exact E1|].
  exists t2. split; [exact E2|]. intros c. change (lrun (e :: es) w) with (lrun es (lstep w e)). rewrite D2.
  transitivity (last_decision k c (last_decision k c (In c (ticked w k)) [e]) es); [apply decision_ext, D1|reflexivity].
Qed.
(* without resets: the array of the module is as it was, and what is stored is what is ticked *)
Definition kept (w : world) : Prop :=
  w_const w = initially_checked /\
  forall k t, w_tab w k = Some t -> exists l, tb_ref t = Own l /\ l = match w_store w k with Some s => s | None => initially_checked end.
Lemma kept_open w k : kept w -> kept (open_tab w k).
Proof.
  intros (C & S). split; [exact C|]. intros j t. unfold open_tab. cbn. unfold put. destruct (Nat.eqb_spec j k); [|apply S].
  intros [= <-]. subst j. rewrite C. cbn. eauto.
Qed.
Lemma kept_opens ks : forall w, kept w -> kept (fold_left open_tab ks w).
Proof. induction ks as [|k ks IH]; intros w K; [exact K|]. cbn. apply IH, kept_open, K. Qed.
Lemma kept_fresh s : kept (mkWorld initially_checked s (fun _ => None) false []).
Proof. split; [reflexivity|]. intros k t. discriminate. Qed.
Lemma kept_step w e : no_reset e -> kept w -> kept (lstep w e).
Proof.
  intros R K. destruct e as [j|j|j x|j x|j| |b|rs|ks]; cbn [lstep no_reset] in *; try contradiction.
  - apply kept_open, K.
  - destruct K as (C & S). split; [exact C|]. intros k t. cbn. unfold put. destruct (k =? j); [discriminate|apply S].
  - destruct (w_tab w j) as [t|] eqn:E; [|exact K]. destruct K as (C & S). destruct (S j t E) as (l & L & _). rewrite L. cbn [deref].
    split; [exact C|]. intros k u. cbn. unfold put, save_controls, put. destruct (Nat.eqb_spec k j); [|apply S]. intros [= <-]. cbn. eauto.
  - destruct (w_tab w j) as [t|] eqn:E; [|exact K]. destruct K as (C & S).
    split; [exact C|]. intros k u. cbn. unfold put, save_controls, put. destruct (Nat.eqb_spec k j); [|apply S]. intros [= <-]. cbn. eauto.
  - destruct K as (C & S). split; [exact C|]. intros k u. cbn. destruct (w_tab w k) as [t|] eqn:E; [|discriminate]. cbn. intros [= <-]. cbn. eauto.
  - destruct K as (C & S). split; [exact C|]. intros k u. cbn. destruct (w_tab w k) as [t|] eqn:E; [|discriminate]. cbn. intros [= <-]. cbn. eauto.
  - destruct K as (C & S). split; [exact C|]. intros k u. cbn. destruct (w_tab w k) as [t|] eqn:E; [|discriminate]. cbn. intros [= <-]. cbn. eauto.
  - apply kept_opens, kept_fresh.
Qed.
Lemma kept_run es : forall w, Forall no_reset es -> kept w -> kept (lrun es w).
Proof. induction es as [|e es IH]; intros w F K; [exact K|]. inversion F; subst. cbn. apply IH; auto. apply kept_step; auto. Qed.
Lemma opens_store ks : forall w, w_store (fold_left open_tab ks w) = w_store w.
Proof. induction ks as [|k ks IH]; intros w; [reflexivity|]. cbn. rewrite IH. reflexivity. Qed.
Lemma opens_tab ks k : forall w, In k ks \/ w_tab w k <> None -> w_tab (fold_left open_tab ks w) k <> None.
Proof.
  induction ks as [|j ks IH]; intros w H; [destruct H as [[]|H]; exact H|]. cbn. apply IH.
  destruct (Nat.eq_dec k j) as [->|N].
  - right. cbn. rewrite put_same. discriminate.
  - destruct H as [[H|H]|H]; [congruence|left; exact H|right; cbn; rewrite put_other by auto; exact H].
Qed.
(* the routes of a map that stays *)
Lemma routes_step w e k m : same_map k e -> map_of w k = Some m -> exists m', map_of (lstep w e) k = Some m' /\ gl_routes m' = gl_routes m.
Proof.
  unfold map_of. intros S E. destruct (w_tab w k) as [t|] eqn:T; [|discriminate].
  destruct e as [j|j|j x|j x|j| |b|rs|ks]; cbn [same_map keeps] in S; try contradiction; cbn [lstep].
  - exists m. cbn. rewrite put_other by auto. rewrite T. auto.
  - exists m. cbn. rewrite put_other by auto. rewrite T. auto.
  - destruct (w_tab w j) as [u|] eqn:U; [|rewrite T; exists m; auto]. destruct (Nat.eq_dec k j) as [->|N].
    + replace u with t in * by congruence. exists (after_change x true (deref (w_const w) (tb_ref t) ++ [x]) m).
      destruct (tb_ref t); cbn; rewrite put_same, E; cbn; rewrite change_routes; auto.
    + exists m. destruct (tb_ref u); cbn; rewrite put_other by auto; rewrite T; auto.
  - destruct (w_tab w j) as [u|] eqn:U; [|rewrite T; exists m; auto]. destruct (Nat.eq_dec k j) as [->|N].
    + replace u with t in * by congruence. cbn. rewrite put_same. cbn. rewrite E. cbn. eexists. split; [reflexivity|]. apply change_routes.
    + exists m. cbn. rewrite put_other by auto. rewrite T. auto.
  - destruct (w_tab w j) as [u|] eqn:U; [|rewrite T; exists m; auto]. destruct (Nat.eq_dec k j) as [->|N].
    + replace u with t in * by congruence. cbn. rewrite put_same. cbn. rewrite E. cbn [option_map]. eexists. split; [reflexivity|]. apply set_all_routes.
    + exists m. cbn. rewrite put_other by auto. rewrite T. auto.
Qed.
Lemma routes_run es k : forall w m, Forall (same_map k) es -> map_of w k = Some m -> exists m', map_of (lrun es w) k = Some m' /\ gl_routes m' = gl_routes m.
Proof.
  induction es as [|e es IH]; intros w m F E; [exists m; auto|]. inversion F as [|? ? F1 F2]; subst.
  destruct (routes_step w e k m F1 E) as (m1 & E1 & R1). destruct (IH (lstep w e) m1 F2 E1) as (m2 & E2 & R2). exists m2. split; [exact E2|congruence].
Qed.
