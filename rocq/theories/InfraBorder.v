(* The borders between stations: complete_borders after all sections are in *)
From Coq Require Import List Bool NArith ZArith QArith Arith String Sorted Permutation Lia.
From Verif Require Import Base PhysModel TextModel InfraModel InfraOrder InfraSpec InfraHeap InfraScan InfraLay InfraLaid InfraPlace InfraAdd InfraInv.
Import ListNotations.
Local Open Scope nat_scope.

(* ---- names of stations ---- *)
Lemma station_of_some l name : forall st i, station_of st l name = Some i ->
  exists j x, i = st + j /\ nth_error l j = Some x /\ st_ds100 x = name.
Proof.
  induction l as [|x l IH]; intros st i H; [discriminate|]. cbn in H.
  destruct (station_of (S st) l name) as [k|] eqn:S1.
  - injection H as <-. destruct (IH _ _ S1) as (j & y & -> & H1 & H2). exists (S j), y. split; [lia|]. auto.
  - destruct (String.eqb_spec (st_ds100 x) name) as [E|]; [|discriminate]. injection H as <-.
    exists 0, x. split; [lia|]. auto.
Qed.
Lemma station_of_none l name : forall st, station_of st l name = None <-> ~ In name (map st_ds100 l).
Proof.
  induction l as [|x l IH]; intros st; cbn; [tauto|].
  destruct (station_of (S st) l name) as [k|] eqn:S1.
  - split; [discriminate|]. intros H. exfalso. apply H. right.
    destruct (station_of_some _ _ _ _ S1) as (j & y & _ & H1 & H2). rewrite <- H2. apply in_map. eapply nth_error_In; eauto.
  - apply IH in S1. destruct (String.eqb_spec (st_ds100 x) name); split; try discriminate; intuition.
Qed.
Lemma station_of_name l j x : NoDup (map st_ds100 l) -> nth_error l j = Some x ->
  station_of 0 l (st_ds100 x) = Some j.
Proof.
  intros ND H. destruct (station_of 0 l (st_ds100 x)) as [i|] eqn:S1.
  - destruct (station_of_some _ _ _ _ S1) as (k & y & -> & H1 & H2). cbn. f_equal.
    assert (L : j < length (map st_ds100 l)) by (rewrite map_length; apply nth_error_Some; congruence).
    symmetry. apply (proj1 (NoDup_nth_error _) ND j k L).
    rewrite (map_nth_error st_ds100 _ _ H), (map_nth_error st_ds100 _ _ H1). congruence.
  - apply station_of_none in S1. exfalso. apply S1. apply in_map. eapply nth_error_In; eauto.
Qed.

Lemma fold_last {A B} (P : A -> bool) (v : A -> B) w ls : forall acc,
  (forall t, In t ls -> P t = true -> v t = w) -> (acc = Some w \/ exists t, In t ls /\ P t = true) ->
  fold_left (fun acc t => if P t then Some (v t) else acc) ls acc = Some w.
Proof.
  induction ls as [|a ls IH]; intros acc H H0; cbn.
  - destruct H0 as [H0|(t & [] & _)]; auto.
  - apply IH; [intros; apply H; [right|]; auto|].
    destruct (P a) eqn:Pa.
    + left. f_equal. apply H; [left|]; auto.
    + destruct H0 as [H0|(t & [->|Ht] & Pt)]; [auto|congruence|right; eauto].
Qed.
Lemma fold_none {A B} (P : A -> bool) (v : A -> B) ls :
  (forall t, In t ls -> P t = false) -> fold_left (fun acc t => if P t then Some (v t) else acc) ls None = None.
Proof.
  induction ls as [|a ls IH]; intros H; cbn; [reflexivity|].
  rewrite H by (left; auto). apply IH. intros; apply H; right; auto.
Qed.

(* ---- sections of elements ---- *)
Definition add_secs (xs : list nat) (e : elem) : elem :=
  mkelem (e_type e) (e_kind e) (e_rise e) (e_line e) (e_km e) (e_arc_lr e) (e_arc_rl e)
         (e_nb e) (e_station e) (e_secs e ++ xs).
Definition agree (g : graph) : Prop := (forall i e, E g i = Some e -> NoDup (e_secs e)) /\ forall i e k, E g i = Some e ->
  (In k (e_secs e) <-> exists sc, nth_error (g_secs g) k = Some sc /\ In i (sc_rising sc)).
Definition border_section (f : border * nat) (t : nat) : section :=
  if b_low (fst f) then mksec [t; b_elem (fst f)] [b_elem (fst f); t] 0%Q (b_line (fst f))
  else mksec [b_elem (fst f); t] [t; b_elem (fst f)] 0%Q (b_line (fst f)).
Lemma border_section_in f t i : In i (sc_rising (border_section f t)) <-> i = b_elem (fst f) \/ i = t.
Proof. unfold border_section. destruct (b_low (fst f)); cbn; intuition. Qed.

Lemma tuple_eqb_eq a b : tuple_eqb a b = true <-> a = b.
Proof.
  destruct a as [[[a1 a2] a3] a4], b as [[[b1 b2] b3] b4]. unfold tuple_eqb.
  rewrite !andb_true_iff, !Nat.eqb_eq, N.eqb_eq, Z.eqb_eq. split; [intros [[[-> ->] ->] ->]; auto|].
  intros H; inversion H; auto.
Qed.
Lemma add_secs_nil e : add_secs [] e = e.
Proof. destruct e; unfold add_secs; cbn; rewrite app_nil_r; reflexivity. Qed.
Lemma add_secs_add a b e : add_secs b (add_secs a e) = add_secs (a ++ b) e.
Proof. unfold add_secs; cbn. rewrite app_assoc. reflexivity. Qed.
Lemma push_add k e : push_sec k e = add_secs [k] e.
Proof. reflexivity. Qed.

Lemma border_sections_ok bs todo : forall fin g,
  (forall f, In f todo -> exists t e e', border_element bs f = Some t /\ t <> b_elem (fst f) /\
     E g t = Some e /\ E g (b_elem (fst f)) = Some e') ->
  exists g' fs more, border_sections bs todo fin g = Ok g' /\
    g_rp g' = g_rp g /\ len g' = len g /\ g_borders g' = g_borders g /\
    (forall i e, E g i = Some e -> exists xs, E g' i = Some (add_secs xs e)) /\
    (forall i, (forall f t, In f todo -> border_element bs f = Some t -> i <> b_elem (fst f) /\ i <> t) -> E g' i = E g i) /\
    (agree g -> agree g') /\
    g_secs g' = g_secs g ++ more /\
    Forall2 (fun f sc => exists t, border_element bs f = Some t /\ sc = border_section f t) fs more /\
    incl fs todo /\ NoDup (map id_tuple fs) /\ (forall f, In f fs -> ~ In (id_tuple f) fin) /\
    (forall f, In f todo -> In (id_tuple f) fin \/ In (id_tuple f) (map id_tuple fs)).
Proof.
  induction todo as [|f todo IH]; intros fin g H; cbn [border_sections].
  - exists g, [], []. rewrite app_nil_r.
    split; [auto|]. split; [auto|]. split; [auto|]. split; [auto|].
    split. { intros i e He. exists []. rewrite add_secs_nil. auto. }
    split; [auto|]. split; [auto|]. split; [auto|]. split; [constructor|].
    split; [intros ? []|]. split; [constructor|]. split; intros ? [].
  - assert (Ex : forall b, existsb (tuple_eqb (id_tuple f)) fin = b -> if b then In (id_tuple f) fin else ~ In (id_tuple f) fin).
    { intros [|] X.
      - apply existsb_exists in X. destruct X as (y & X1 & X2). apply tuple_eqb_eq in X2. congruence.
      - intros Y. assert (Z : existsb (tuple_eqb (id_tuple f)) fin = true); [|congruence].
        apply existsb_exists. exists (id_tuple f). split; auto. apply tuple_eqb_eq; auto. }
    destruct (existsb (tuple_eqb (id_tuple f)) fin) eqn:X; specialize (Ex _ eq_refl); cbn in Ex.
    + destruct (IH fin g) as (g' & fs & more & H1 & H2 & H3 & H4 & H5 & H6 & H7 & H8 & H9 & H10 & H11 & H12 & H13).
      { intros f' Hf'. apply H. right; auto. }
      exists g', fs, more. split; [auto|]. split; [auto|]. split; [auto|]. split; [auto|]. split; [auto|].
      split. { intros i Hi. apply H6. intros; apply Hi; auto. right; auto. }
      split; [auto|]. split; [auto|]. split; [auto|].
      split. { intros y Hy; right; auto. }
      split; [auto|]. split; [auto|]. intros f' [<-|Hf']; auto.
    + destruct (H f) as (t & e & e' & Ht & Hne & He & He'); [left; auto|]. rewrite Ht.
      set (s := if b_low (fst f) then _ else _). change s with (border_section f t).
      set (g0 := mkgraph _ _ _ _).
      set (g1 := upd_e (upd_e g0 _ _) t _).
      assert (G1 : forall i x, E g i = Some x -> E g1 i = Some (add_secs (if (i =? b_elem (fst f)) || (i =? t) then [length (g_secs g)] else []) x)).
      { intros i x Hx. unfold g1. rewrite !E_upd. change (E g0 i) with (E g i). rewrite Hx.
        destruct (Nat.eqb_spec i t) as [T1|T1]; destruct (Nat.eqb_spec i (b_elem (fst f))) as [T2|T2]; cbn [orb option_map];
          [congruence|reflexivity|reflexivity|rewrite add_secs_nil; reflexivity]. }
      destruct (IH (id_tuple f :: fin) g1) as (g' & fs & more & H1 & H2 & H3 & H4 & H5 & H6 & H7 & H8 & H9 & H10 & H11 & H12 & H13).
      { intros f' Hf'. destruct (H f') as (t' & x & x' & Y1 & Y2 & Y3 & Y4); [right; auto|].
        exists t'. eexists. eexists. split; [auto|]. split; [auto|]. split; apply G1; eauto. }
      exists g', (f :: fs), (border_section f t :: more).
      split; [exact H1|]. split; [rewrite H2; reflexivity|].
      split; [rewrite H3; unfold g1; rewrite !len_upd; reflexivity|]. split; [rewrite H4; reflexivity|].
      split. { intros i x Hx. destruct (H5 i _ (G1 i x Hx)) as (xs & Hxs). rewrite add_secs_add in Hxs. eauto. }
      split. { intros i Hi. rewrite H6 by (intros; apply Hi; auto; right; auto).
        destruct (Hi f t (or_introl eq_refl) Ht) as [N1 N2]. unfold g1. rewrite !E_upd_ne by auto. reflexivity. }
      split.
      { intros [O A]. apply H7.
        assert (Old : forall i x, E g1 i = Some x -> exists x0, E g i = Some x0).
        { intros i x Hi. apply E_lt in Hi. unfold g1 in Hi. rewrite !len_upd in Hi. apply E_ex. exact Hi. }
        split.
        { intros i x Hi. destruct (Old i x Hi) as [x0 Hx0]. pose proof (G1 i x0 Hx0) as G. rewrite Hi in G. injection G as ->.
          cbn [add_secs e_secs]. apply NoDup_app_parts; [eapply O; eauto| |].
          - destruct ((i =? b_elem (fst f)) || (i =? t)); repeat constructor; intros [].
          - intros k Y1 Y2. apply (A i x0 k Hx0) in Y1. destruct Y1 as (sc & Y1 & _).
            assert (k < length (g_secs g)) by (apply nth_error_Some; congruence).
            destruct ((i =? b_elem (fst f)) || (i =? t)); [|destruct Y2]. destruct Y2 as [<-|[]]. lia. }
        intros i x k Hi. destruct (Old i x Hi) as [x0 Hx0]. pose proof (G1 i x0 Hx0) as G. rewrite Hi in G. injection G as ->.
        cbn [add_secs e_secs]. rewrite in_app_iff, (A i x0 k Hx0).
        change (g_secs g1) with (g_secs g ++ [border_section f t]). split.
        - intros [(sc & Y1 & Y2)|Y].
          + exists sc. split; auto. rewrite nth_error_app1; auto. apply nth_error_Some. congruence.
          + destruct (Nat.eqb_spec i (b_elem (fst f))) as [Y1|Y1]; cbn in Y.
            * destruct Y as [<-|[]]. exists (border_section f t). rewrite nth_app_len. split; auto.
              apply border_section_in; auto.
            * destruct (Nat.eqb_spec i t) as [Y2|Y2]; cbn in Y; [|destruct Y].
              destruct Y as [<-|[]]. exists (border_section f t). rewrite nth_app_len. split; auto.
              apply border_section_in; auto.
        - intros (sc & Y1 & Y2). destruct (Nat.lt_ge_cases k (length (g_secs g))) as [L|L].
          + left. exists sc. rewrite nth_error_app1 in Y1; auto.
          + right. rewrite nth_error_app2 in Y1 by auto. destruct (k - length (g_secs g)) as [|m] eqn:K.
            * cbn in Y1. injection Y1 as <-. apply border_section_in in Y2.
              assert (k = length (g_secs g)) by lia. subst k.
              destruct Y2 as [-> | ->]; rewrite ?Nat.eqb_refl, ?orb_true_r; left; auto.
            * destruct m; discriminate. }
      split. { rewrite H8. change (g_secs g1) with (g_secs g ++ [border_section f t]). rewrite <- app_assoc. reflexivity. }
      split. { constructor; eauto. }
      split. { intros y [<-|Hy]; [left|right]; auto. }
      split. { cbn. constructor; auto. intros Y. apply in_map_iff in Y. destruct Y as (y & Y1 & Y2).
               apply (H12 y Y2). left; auto. }
      split. { intros y [<-|Hy]; auto. intros Z. apply (H12 y Hy). right; auto. }
      intros y [<-|Hy]; [right; left; auto|]. destruct (H13 y Hy) as [[Z|Z]|Z]; [right; left|left|right; right]; auto.
Qed.

(* ---- neighbours across borders ---- *)
Definition free_side (at_end : bool) : side := if at_end then S0 else S1.
Definition bordered (at_end : bool) (v : nat) (e e' : elem) : Prop :=
  core e' = core e /\ forall s r, e_nb e' s r = if side_eqb s (free_side at_end) then Some v else e_nb e s r.
Lemma connect_bordered low v e : bordered (negb low) v e (connect_border low v e).
Proof.
  unfold connect_border. destruct low; (split; [reflexivity|]); intros s r; cbn;
    destruct s; cbn; try reflexivity; destruct r; reflexivity.
Qed.
Lemma bordered_trans a v e1 e2 e3 : bordered a v e1 e2 -> bordered a v e2 e3 -> bordered a v e1 e3.
Proof.
  intros [C1 N1] [C2 N2]. split; [congruence|]. intros s r. rewrite N2, N1. destruct (side_eqb s (free_side a)); auto.
Qed.

Lemma connect_borders_ok bs todo : forall g,
  (forall f f', In f todo -> In f' todo -> b_elem (fst f) = b_elem (fst f') ->
     b_low (fst f) = b_low (fst f') /\ border_element bs f = border_element bs f') ->
  let g' := fold_left (fun g f => match border_element bs f with
                                  | Some t => upd_e g (b_elem (fst f)) (connect_border (b_low (fst f)) t)
                                  | None => g
                                  end) todo g in
  g_rp g' = g_rp g /\ len g' = len g /\ g_borders g' = g_borders g /\ g_secs g' = g_secs g /\
  (forall i, (forall f, In f todo -> i <> b_elem (fst f)) -> E g' i = E g i) /\
  (forall f t e, In f todo -> border_element bs f = Some t -> E g (b_elem (fst f)) = Some e ->
     exists e', E g' (b_elem (fst f)) = Some e' /\ bordered (negb (b_low (fst f))) t e e').
Proof.
  induction todo as [|f todo IH]; intros g H g'.
  - subst g'. cbn. repeat split; auto. intros f t e [].
  - assert (H' : forall f f', In f todo -> In f' todo -> b_elem (fst f) = b_elem (fst f') ->
     b_low (fst f) = b_low (fst f') /\ border_element bs f = border_element bs f').
    { intros; apply H; auto; right; auto. }
    subst g'. cbn [fold_left].
    set (g1 := match border_element bs f with Some t => _ | None => g end).
    destruct (IH g1 H') as (A1 & A2 & A3 & A4 & A5 & A6).
    assert (L : g_rp g1 = g_rp g /\ len g1 = len g /\ g_borders g1 = g_borders g /\ g_secs g1 = g_secs g).
    { unfold g1. destruct (border_element bs f); repeat split; auto. apply len_upd. }
    destruct L as (L1 & L2 & L3 & L4).
    split; [congruence|]. split; [congruence|]. split; [congruence|]. split; [congruence|]. split.
    + intros i Hi. rewrite A5 by (intros; apply Hi; right; auto).
      unfold g1. destruct (border_element bs f); auto. apply E_upd_ne. apply Hi. left; auto.
    + intros f' t e Hf Ht He.
      destruct (Nat.eq_dec (b_elem (fst f')) (b_elem (fst f))) as [Ef|Ef].
      * (* the element is connected by f *)
        assert (Hs : b_low (fst f') = b_low (fst f) /\ border_element bs f' = border_element bs f).
        { apply H; auto. left; auto. }
        destruct Hs as [Hl Hb]. rewrite Hb in Ht. rewrite Ef in *. rewrite Hl.
        assert (G1 : E g1 (b_elem (fst f)) = Some (connect_border (b_low (fst f)) t e)).
        { unfold g1. rewrite Ht. apply E_upd_eq. auto. }
        destruct (in_dec Nat.eq_dec (b_elem (fst f)) (map (fun f => b_elem (fst f)) todo)) as [Y|Y].
        -- apply in_map_iff in Y. destruct Y as (f2 & Y1 & Y2).
           destruct (H f2 f) as [Z1 Z2]; [right; auto|left; auto|auto|].
           destruct (A6 f2 t (connect_border (b_low (fst f)) t e) Y2) as (e' & W1 & W2); [congruence|rewrite Y1; auto|].
           exists e'. rewrite <- Y1. split; auto. rewrite Z1 in W2.
           eapply bordered_trans; [apply connect_bordered|exact W2].
        -- exists (connect_border (b_low (fst f)) t e). split; [|apply connect_bordered].
           rewrite A5; auto. intros f2 Hf2 X. apply Y. rewrite X. apply in_map_iff. exists f2; auto.
      * destruct Hf as [<-|Hf]; [congruence|].
        destruct (A6 f' t e Hf Ht) as (e' & W1 & W2); [|eauto].
        unfold g1. destruct (border_element bs f); auto. rewrite E_upd_ne; auto.
Qed.

(* the elements of a network with its borders connected, compared to before *)
Record closed_borders (l : list xstation) (dev : place -> nat) (g g' : graph) : Prop := {
  cb_rp : g_rp g' = g_rp g;
  cb_len : len g' = len g;
  cb_frame : forall i, (forall p q, partners l p q -> dev p <> i) -> E g' i = E g i;
  cb_border : forall p q e, partners l p q -> E g (dev p) = Some e ->
    exists e' xs e1, E g' (dev p) = Some e' /\ e' = add_secs xs e1 /\ bordered (snd p) (dev q) e e1;
  cb_agree : agree g';
  cb_secs : exists more, g_secs g' = g_secs g ++ more /\
    (forall sc, In sc more -> exists p q ln, partners l p q /\ snd p = true /\ snd q = false /\ line_at l p ln /\
       sc = mksec [dev p; dev q] [dev q; dev p] 0%Q ln) /\
    (forall p q ln, partners l p q -> snd p = true -> line_at l p ln ->
       exists k, nth_error more k = Some (mksec [dev p; dev q] [dev q; dev p] 0%Q ln) /\
         forall k' sc, nth_error more k' = Some sc -> In (dev p) (sc_rising sc) -> k' = k) }.

Section BORDERS.
  Variable l : list xstation.
  Hypothesis WD : well_drawn l.
  Variables (g : graph) (dev : place -> nat) (run : nat -> bool -> list nat).
  Hypothesis I : Inv l (length (plan l)) g dev run.

  Lemma place_lt p n : node_at l p n -> fst p < length (plan l).
  Proof. intros (x & (st & H) & _). apply nth_error_Some. congruence. Qed.
  Lemma dev_same p q n m : node_at l p n -> node_at l q m -> (dev p = dev q <-> device n = device m).
  Proof.
    intros Hn Hm. split.
    - intros H. eapply (in_same _ _ _ _ _ I p q); eauto using place_lt.
    - intros H. destruct (in_dev _ _ _ _ _ I p n Hn (place_lt _ _ Hn)) as (e & _ & _ & _ & _ & R & _).
      destruct (in_dev _ _ _ _ _ I q m Hm (place_lt _ _ Hm)) as (e' & _ & _ & _ & _ & R' & _). congruence.
  Qed.
  Lemma dev_whole p q n m : node_at l p n -> node_at l q m -> dev p = dev q ->
    part_of (sn_name n) = Whole -> p = q.
  Proof.
    intros Hn Hm H W. apply (dev_same p q n m Hn Hm) in H.
    apply (wd_once l WD p q n m Hn Hm H). rewrite W. symmetry. eapply whole_part; [|exact W].
    exact (same_device_type l WD _ _ _ _ Hn Hm H).
  Qed.
  Lemma run_track s d i : s < length (plan l) -> In i (run s d) -> exists st x e, nth_error (plan l) s = Some (st, x) /\
    E g i = Some e /\ track_elem s (xs_line x) d e.
  Proof.
    intros Hs Hi. destruct (nth_error (plan l) s) as [[st x]|] eqn:P; [|apply nth_error_None in P; lia].
    apply In_nth_error in Hi. destruct Hi as [j J].
    destruct (in_run _ _ _ _ _ I _ _ _ _ _ _ P Hs J) as (e & X1 & _ & _ & X2). eauto 7.
  Qed.
  Lemma dev_not_run p n s d : node_at l p n -> s < length (plan l) -> ~ In (dev p) (run s d).
  Proof.
    intros Hn Hs Hi. destruct (run_track s d _ Hs Hi) as (st & x & e & _ & He & _ & _ & Ht & _).
    destruct (in_dev _ _ _ _ _ I p n Hn (place_lt _ _ Hn)) as (e' & He' & Ty & _).
    rewrite He in He'. injection He' as <-. unfold is_track_e in Ht. rewrite Ty, stype_not_track in Ht. discriminate.
  Qed.
  Lemma run_section s s' d d' i : s < length (plan l) -> s' < length (plan l) ->
    In i (run s d) -> In i (run s' d') -> s = s'.
  Proof.
    intros Hs Hs' Hi Hi'. destruct (run_track s d _ Hs Hi) as (st & x & e & _ & He & T & _).
    destruct (run_track s' d' _ Hs' Hi') as (st' & x' & e' & _ & He' & T' & _). congruence.
  Qed.

  Lemma sec_rising k sc i : nth_error (g_secs g) k = Some sc -> 
    (In i (sc_rising sc) <-> (exists t, i = dev (k, t)) \/ exists d, In i (run k d)).
  Proof.
    intros Hk. assert (L : k < length (plan l)).
    { rewrite <- (in_len _ _ _ _ _ I). apply nth_error_Some. congruence. }
    destruct (nth_error (plan l) k) as [[st x]|] eqn:P; [|apply nth_error_None in P; lia].
    destruct (in_secs _ _ _ _ _ I k st x P L) as (sc' & all & X1 & X2 & X3 & X4 & X5 & X6 & X7).
    rewrite Hk in X1. injection X1 as <-. rewrite X2. cbn [In]. rewrite in_app_iff.
    assert (S : In i (sort_elems true g all) <-> In i all).
    { unfold sort_elems. split; apply Permutation_in; [|apply Permutation_sym]; apply sort_perm. }
    rewrite S, X7. cbn [In]. split.
    - intros [H|[[H|H]|[H|[]]]]; [left; exists false|right; exists true|right; exists false|left; exists true]; auto.
    - intros [[[|] H]|[[|] H]]; auto.
  Qed.
  Lemma inv_agree : agree g.
  Proof.
    split.
    { intros i e He.
      destruct (in_elem _ _ _ _ _ I i (E_lt _ _ _ He)) as [(p & n & Hn & Hp & <-)|(s & d & Hs & Hi)].
      - eapply (in_once _ _ _ _ _ I); eauto.
      - destruct (run_track s d i Hs Hi) as (st & x & e' & _ & He' & T & _). rewrite He in He'. injection He' as <-.
        rewrite T. constructor; [intros []|constructor]. }
    intros i e k He.
    destruct (in_elem _ _ _ _ _ I i (E_lt _ _ _ He)) as [(p & n & Hn & Hp & <-)|(s & d & Hs & Hi)].
    - split.
      + intros Hk. destruct (in_esecs _ _ _ _ _ I p n e k Hn Hp He Hk) as (L & t & Ht).
        destruct (nth_error (g_secs g) k) as [sc|] eqn:S1.
        2:{ apply nth_error_None in S1. rewrite (in_len _ _ _ _ _ I) in S1. lia. }
        exists sc. split; auto. apply (sec_rising k sc _ S1). left. exists t. auto.
      + intros (sc & S1 & S2). apply (sec_rising k sc _ S1) in S2.
        assert (L : k < length (plan l)).
        { rewrite <- (in_len _ _ _ _ _ I). apply nth_error_Some. congruence. }
        destruct S2 as [[t Ht]|[d Hd]].
        * destruct (nth_error (plan l) k) as [[st x]|] eqn:P; [|apply nth_error_None in P; lia].
          destruct (in_dev _ _ _ _ _ I (k, t) _ (node_end _ _ _ _ t P) L) as (e' & He' & X).
          rewrite <- Ht, He in He'. injection He' as <-. apply X.
        * exfalso. exact (dev_not_run _ _ _ _ Hn L Hd).
    - destruct (run_track s d i Hs Hi) as (st & x & e' & _ & He' & T & _). rewrite He in He'. injection He' as <-.
      rewrite T. split.
      + intros [<-|[]]. destruct (nth_error (g_secs g) s) as [sc|] eqn:S1.
        2:{ apply nth_error_None in S1. rewrite (in_len _ _ _ _ _ I) in S1. lia. }
        exists sc. split; auto. apply (sec_rising s sc _ S1). right. exists d. auto.
      + intros (sc & S1 & S2). apply (sec_rising k sc _ S1) in S2. left.
        assert (L : k < length (plan l)).
        { rewrite <- (in_len _ _ _ _ _ I). apply nth_error_Some. congruence. }
        destruct S2 as [[t Ht]|[d' Hd]].
        * exfalso. destruct (nth_error (plan l) k) as [[st' x']|] eqn:P; [|apply nth_error_None in P; lia].
          subst i. exact (dev_not_run _ _ _ _ (node_end _ _ _ _ t P) Hs Hi).
        * eapply run_section; eauto.
  Qed.

  (* borders with a partner *)
  Definition bs : list (border * nat) := known_borders l (g_borders g).
  Definition of_place (f : border * nat) (p : place) : Prop :=
    border_rec l dev p (fst f) /\ station_of 0 l (b_neighbour_name (fst f)) = Some (snd f).
  Lemma bs_in f : In f bs <-> exists p, of_place f p.
  Proof.
    unfold bs, known_borders, of_place. rewrite in_flat_map. destruct f as [b s]. cbn [fst snd]. split.
    - intros (b' & H1 & H2). destruct (station_of 0 l (b_neighbour_name b')) eqn:S1; [|destruct H2].
      destruct H2 as [H2|[]]. inversion H2; subst. apply (in_borders _ _ _ _ _ I) in H1.
      destruct H1 as (p & _ & H1). eauto.
    - intros (p & H1 & H2). exists b. split.
      + apply (in_borders _ _ _ _ _ I). exists p. split; auto.
        destruct H1 as (st & x & H1 & _). apply nth_error_Some. congruence.
      + rewrite H2. left; auto.
  Qed.
  Lemma of_place_node f p : of_place f p -> exists n, node_at l p n /\ sn_name n = N_BORDER /\
    b_elem (fst f) = dev p /\ b_low (fst f) = negb (snd p) /\ line_at l p (b_line (fst f)) /\
    station_at l p (b_station (fst f)) /\ b_sign (fst f) = sn_sign n /\ b_neighbour_name (fst f) = sn_station n.
  Proof.
    intros [(st & x & H1 & H2 & ->) _]. exists (end_of x (snd p)). cbn.
    split. { destruct p as [s t]; cbn in *; eapply node_end; eauto. }
    split; [auto|]. split; [auto|]. split; [auto|].
    split. { exists x. split; auto. exists st; auto. }
    split. { exists x; auto. }
    auto.
  Qed.
  Lemma line_fun p a b : line_at l p a -> line_at l p b -> a = b.
  Proof. intros (x & Hx & ->) (y & Hy & ->). f_equal. eapply section_fun; eauto. Qed.
  Lemma station_fun p a b : station_at l p a -> station_at l p b -> a = b.
  Proof. intros (x & Hx) (y & Hy). congruence. Qed.
  Lemma partners_sym p q : partners l p q -> partners l q p.
  Proof.
    intros (n & m & ln & sp & sq & xp & xq & H1 & H2 & H3 & H4 & H5 & H6 & H7 & H8 & H9 & H10 & H11 & H12 & H13).
    exists m, n, ln, sq, sp, xq, xp. repeat (split; [solve [auto]|]). auto.
  Qed.
  Lemma of_place_fun f p q : of_place f p -> of_place f q -> p = q.
  Proof.
    intros Hp Hq. destruct (of_place_node _ _ Hp) as (n & N1 & N2 & N3 & _).
    destruct (of_place_node _ _ Hq) as (m & M1 & M2 & M3 & _).
    eapply (dev_whole p q n m); eauto; [congruence|]. rewrite N2. reflexivity.
  Qed.
  Lemma of_place_same f f' p : of_place f p -> of_place f' p -> f = f'.
  Proof.
    intros [(st & x & H1 & H2 & H3) H4] [(st' & x' & H1' & H2' & H3') H4'].
    rewrite H1 in H1'. injection H1' as <- <-. rewrite <- H3' in H3.
    destruct f as [b s], f' as [b' s']; cbn in *. subst b. rewrite H4 in H4'. injection H4' as <-. auto.
  Qed.
  Lemma match_partners f f' p q : of_place f p -> of_place f' q -> (border_match f f' = true <-> partners l p q).
  Proof.
    intros Hp Hq. destruct (of_place_node _ _ Hp) as (n & N1 & N2 & N3 & N4 & N5 & N6 & N7 & N8).
    destruct (of_place_node _ _ Hq) as (m & M1 & M2 & M3 & M4 & M5 & M6 & M7 & M8).
    destruct Hp as [_ Sp], Hq as [_ Sq].
    destruct (station_of_some _ _ _ _ Sp) as (jp & xp & Jp & Xp & Dp). cbn in Jp.
    destruct (station_of_some _ _ _ _ Sq) as (jq & xq & Jq & Xq & Dq). cbn in Jq.
    unfold border_match. rewrite !andb_true_iff, !Nat.eqb_eq, Z.eqb_eq, N.eqb_eq. split.
    - intros [[[H1 H2] H3] H4].
      exists n, m, (b_line (fst f)), (b_station (fst f)), (b_station (fst f')), xq, xp.
      split; [auto|]. split; [auto|]. split; [auto|]. split; [auto|]. split; [auto|].
      split; [rewrite H4; auto|]. split; [congruence|]. split; [auto|]. split; [auto|].
      split; [congruence|]. split; [congruence|]. split; congruence.
    - intros (n' & m' & ln & sp & sq & yp & yq & H1 & H2 & H3 & H4 & H5 & H6 & H7 & H8 & H9 & H10 & H11 & H12 & H13).
      pose proof (node_fun l _ _ _ N1 H1) as X1. subst n'.
      pose proof (node_fun l _ _ _ M1 H2) as X2. subst m'.
      rewrite (station_fun _ _ _ N6 H8), (station_fun _ _ _ M6 H9) in *.
      rewrite (line_fun _ _ _ N5 H5), (line_fun _ _ _ M5 H6).
      rewrite N8, H12, (station_of_name l sq yq (wd_names l WD) H11) in Sp. injection Sp as Sp.
      rewrite M8, H13, (station_of_name l sp yp (wd_names l WD) H10) in Sq. injection Sq as Sq.
      repeat split; congruence.
  Qed.
  Lemma partners_place p q : partners l p q -> exists f, of_place f p.
  Proof.
    intros (n & m & ln & sp & sq & xp & xq & H1 & H2 & H3 & H4 & H5 & H6 & H7 & H8 & H9 & H10 & H11 & H12 & H13).
    destruct (node_end_inv _ _ _ H1) as (st & x & X1 & ->).
    exists (mkborder st (sn_station (end_of x (snd p))) (sn_sign (end_of x (snd p))) (xs_line x) (dev p) (negb (snd p)), sq).
    split; cbn.
    - exists st, x. auto.
    - rewrite H12. apply station_of_name; auto. apply wd_names; auto.
  Qed.
  Lemma partner_one p q q' : partners l p q -> partners l p q' -> q = q' /\ snd q <> snd p.
  Proof.
    intros H H'.
    pose proof H as (n & m & ln & sp & sq & xp & xq & H1 & H2 & H3 & H4 & H5 & H6 & H7 & H8 & H9 & H10 & H11 & H12 & H13).
    destruct (wd_border l WD p n H1 H3) as (q0 & Q1 & Q2 & Q3).
    { rewrite H12. apply in_map. eapply nth_error_In; eauto. }
    pose proof (Q3 q H). pose proof (Q3 q' H'). subst. auto.
  Qed.
  Lemma of_place_partner f p : of_place f p -> exists q, partners l p q.
  Proof.
    intros H. destruct (of_place_node _ _ H) as (n & N1 & N2 & N3 & N4 & N5 & N6 & N7 & N8).
    destruct H as [_ H]. destruct (wd_border l WD p n N1 N2) as (q & Q & _); [|eauto].
    destruct (station_of_some _ _ _ _ H) as (j & x & _ & X1 & X2). rewrite <- N8, <- X2. apply in_map.
    eapply nth_error_In; eauto.
  Qed.
  Lemma border_element_ok f p q : of_place f p -> partners l p q -> border_element bs f = Some (dev q).
  Proof.
    intros Hp Hq. unfold border_element. apply fold_last.
    - intros t Ht M. apply bs_in in Ht. destruct Ht as (q' & Ht). apply (match_partners f t p q' Hp Ht) in M.
      destruct (partner_one _ _ _ Hq M) as [-> _]. destruct (of_place_node _ _ Ht) as (m & _ & _ & M3 & _). auto.
    - right. destruct (partners_place q p (partners_sym _ _ Hq)) as [t Ht]. exists t. split.
      + apply bs_in. eauto.
      + apply (match_partners f t p q); auto.
  Qed.

  (* the two records of a border have the same tuple, and no others *)
  Lemma partners_names p q : partners l p q -> exists n m, node_at l p n /\ node_at l q m /\
    sn_name n = N_BORDER /\ sn_name m = N_BORDER /\ dev p <> dev q.
  Proof.
    intros H. pose proof (partner_one _ _ _ H H) as [_ D].
    destruct H as (n & m & ln & sp & sq & xp & xq & H1 & H2 & H3 & H4 & H5 & H6 & H7 & H8 & H9 & H10 & H11 & H12 & H13).
    exists n, m. repeat split; auto. intros X. apply D.
    rewrite (dev_whole p q n m H1 H2 X); auto. rewrite H3; auto.
  Qed.
  Lemma place_data f p q : of_place f p -> partners l p q -> station_at l p (b_station (fst f)) /\ station_at l q (snd f).
  Proof.
    intros Hp Hq. destruct (partners_place q p (partners_sym _ _ Hq)) as [t Ht].
    pose proof (proj2 (match_partners f t p q Hp Ht) Hq) as M.
    destruct (of_place_node _ _ Hp) as (n & N1 & N2 & N3 & N4 & N5 & N6 & N7 & N8).
    destruct (of_place_node _ _ Ht) as (m & M1 & M2 & M3 & M4 & M5 & M6 & M7 & M8).
    unfold border_match in M. rewrite !andb_true_iff, !Nat.eqb_eq in M. destruct M as [[[M _] _] _].
    split; auto. rewrite <- M. auto.
  Qed.
  Lemma tuple_iff f f' p p' : of_place f p -> of_place f' p' ->
    (id_tuple f = id_tuple f' <-> p = p' \/ partners l p p').
  Proof.
    intros Hp Hp'. split.
    - intros H.
      destruct (of_place_partner _ _ Hp) as [q Hq].
      destruct (partners_place q p (partners_sym _ _ Hq)) as [t Ht].
      pose proof (proj2 (match_partners f t p q Hp Ht) Hq) as M.
      unfold border_match in M. rewrite !andb_true_iff, !Nat.eqb_eq, Z.eqb_eq, N.eqb_eq in M. destruct M as [[[M1 M2] M3] M4].
      unfold id_tuple in H. injection H as H1 H2 H3 H4.
      assert (C : b_station (fst f) = b_station (fst f') /\ snd f = snd f' \/ b_station (fst f) = snd f' /\ snd f = b_station (fst f')) by lia.
      destruct C as [[C1 C2]|[C1 C2]].
      + left. assert (B : border_match t f' = true).
        { unfold border_match. rewrite !andb_true_iff, !Nat.eqb_eq, Z.eqb_eq, N.eqb_eq. repeat split; congruence. }
        apply (match_partners t f' q p' Ht Hp') in B.
        destruct (partner_one _ _ _ (partners_sym _ _ Hq) B) as [-> _]. auto.
      + right. apply (match_partners f f' p p' Hp Hp').
        unfold border_match. rewrite !andb_true_iff, !Nat.eqb_eq, Z.eqb_eq, N.eqb_eq. repeat split; congruence.
    - intros [<-|H].
      + rewrite (of_place_same _ _ _ Hp Hp'). auto.
      + apply (match_partners f f' p p' Hp Hp') in H.
        unfold border_match in H. rewrite !andb_true_iff, !Nat.eqb_eq, Z.eqb_eq, N.eqb_eq in H.
        destruct H as [[[M1 M2] M3] M4]. unfold id_tuple. rewrite M1, M2, M3, M4.
        rewrite (Nat.min_comm (snd f)), (Nat.max_comm (snd f)). auto.
  Qed.
  Lemma border_section_eq f p q : of_place f p -> partners l p q ->
    border_section f (dev q) =
      if snd p then mksec [dev p; dev q] [dev q; dev p] 0%Q (b_line (fst f))
      else mksec [dev q; dev p] [dev p; dev q] 0%Q (b_line (fst f)).
  Proof.
    intros Hp Hq. destruct (of_place_node _ _ Hp) as (n & N1 & N2 & N3 & N4 & _).
    unfold border_section. rewrite N4, N3. destruct (snd p); reflexivity.
  Qed.
  Lemma partners_line p q ln : partners l p q -> line_at l p ln -> line_at l q ln.
  Proof.
    intros (n & m & ln' & sp & sq & xp & xq & H1 & H2 & H3 & H4 & H5 & H6 & _) H.
    rewrite (line_fun _ _ _ H H5). auto.
  Qed.

  Lemma close_borders : exists g', complete_borders l g = Ok g' /\ closed_borders l dev g g'.
  Proof.
    unfold complete_borders. fold bs. unfold connect_borders.
    assert (P1 : forall f f', In f bs -> In f' bs -> b_elem (fst f) = b_elem (fst f') ->
     b_low (fst f) = b_low (fst f') /\ border_element bs f = border_element bs f').
    { intros f f' Hf Hf' He. apply bs_in in Hf, Hf'. destruct Hf as [p Hp], Hf' as [p' Hp'].
      destruct (of_place_node _ _ Hp) as (n & N1 & N2 & N3 & _).
      destruct (of_place_node _ _ Hp') as (m & M1 & M2 & M3 & _).
      assert (p = p') by (eapply (dev_whole p p' n m); eauto; [congruence|rewrite N2; auto]). subst p'.
      rewrite (of_place_same _ _ _ Hp Hp'). auto. }
    destruct (connect_borders_ok bs bs g P1) as (A1 & A2 & A3 & A4 & A5 & A6).
    set (g1 := fold_left _ bs g) in *.
    assert (P2 : forall f, In f bs -> exists t e e', border_element bs f = Some t /\ t <> b_elem (fst f) /\
       E g1 t = Some e /\ E g1 (b_elem (fst f)) = Some e').
    { intros f Hf. apply bs_in in Hf. destruct Hf as [p Hp]. destruct (of_place_partner _ _ Hp) as [q Hq].
      destruct (of_place_node _ _ Hp) as (n & N1 & N2 & N3 & _).
      destruct (partners_names _ _ Hq) as (n' & m & X1 & X2 & X3 & X4 & X5).
      destruct (in_dev _ _ _ _ _ I p n' X1 (place_lt _ _ X1)) as (e & Y & _).
      destruct (in_dev _ _ _ _ _ I q m X2 (place_lt _ _ X2)) as (e' & Y' & _).
      apply E_lt in Y, Y'. rewrite <- A2 in Y, Y'. apply E_ex in Y, Y'. destruct Y as [y Y], Y' as [y' Y'].
      exists (dev q), y', y. split; [eapply border_element_ok; eauto|]. rewrite N3. auto. }
    destruct (border_sections_ok bs bs [] g1 P2) as (g' & fs & more & B1 & B2 & B3 & B4 & B5 & B6 & B7 & B8 & B9 & B10 & B11 & B12 & B13).
    exists g'. split; [exact B1|]. split.
    - congruence.
    - congruence.
    - intros i Hi. rewrite B6, A5; auto.
      + intros f Hf X. apply bs_in in Hf. destruct Hf as [p Hp]. destruct (of_place_partner _ _ Hp) as [q Hq].
        destruct (of_place_node _ _ Hp) as (n & _ & _ & N3 & _). apply (Hi p q Hq). congruence.
      + intros f t Hf Ht. apply bs_in in Hf. destruct Hf as [p Hp]. destruct (of_place_partner _ _ Hp) as [q Hq].
        rewrite (border_element_ok _ _ _ Hp Hq) in Ht. injection Ht as <-.
        destruct (of_place_node _ _ Hp) as (n & _ & _ & N3 & _). rewrite N3.
        split; apply not_eq_sym; [apply (Hi p q Hq)|apply (Hi q p (partners_sym _ _ Hq))].
    - intros p q e Hq He. destruct (partners_place _ _ Hq) as [f Hp].
      destruct (of_place_node _ _ Hp) as (n & _ & _ & N3 & N4 & _).
      destruct (A6 f (dev q) e) as (e1 & X1 & X2).
      + apply bs_in; eauto.
      + eapply border_element_ok; eauto.
      + congruence.
      + rewrite N3 in X1. destruct (B5 _ _ X1) as [xs X3]. exists (add_secs xs e1), xs, e1.
        split; auto. split; auto. rewrite N4, negb_involutive in X2. auto.
    - assert (G : forall i e, E g1 i = Some e -> exists e0, E g i = Some e0 /\ e_secs e0 = e_secs e).
      { intros i e He. destruct (E_ex g i) as [e0 He0]; [rewrite <- A2; eapply E_lt; eauto|]. exists e0. split; auto.
        destruct (in_dec Nat.eq_dec i (map (fun f => b_elem (fst f)) bs)) as [Y|Y].
        - apply in_map_iff in Y. destruct Y as (f & <- & Hf). destruct (P2 f Hf) as (t & _ & _ & T & _).
          destruct (A6 f t e0 Hf T He0) as (e' & X1 & X2 & _). rewrite He in X1. injection X1 as <-.
          symmetry. apply core_inv in X2. tauto.
        - rewrite A5 in He; [congruence|]. intros f Hf X. apply Y. rewrite X. apply in_map_iff; eauto. }
      destruct inv_agree as [O A]. apply B7. split.
      + intros i e He. destruct (G i e He) as (e0 & He0 & <-). eapply O; eauto.
      + intros i e k He. destruct (G i e He) as (e0 & He0 & <-). rewrite A4. apply A. auto.
    - exists more. split; [congruence|].
      assert (Nth : forall k sc, nth_error more k = Some sc -> exists f p q, nth_error fs k = Some f /\ In f fs /\ of_place f p /\ partners l p q /\
                 sc = border_section f (dev q)).
      { intros k sc Hk. clear - Hk B9 B10 WD I. revert k Hk.
        assert (G : Forall2 (fun f sc => exists p q, of_place f p /\ partners l p q /\ sc = border_section f (dev q)) fs more).
        { revert B10. induction B9 as [|f sc1 fs more (t & T1 & T2) _ IH]; intros B10; constructor.
          - assert (Hf : In f bs) by (apply B10; left; auto). apply bs_in in Hf. destruct Hf as [p Hp].
            destruct (of_place_partner _ _ Hp) as [q Hq]. exists p, q. split; auto. split; auto.
            rewrite (border_element_ok _ _ _ Hp Hq) in T1. injection T1 as <-. auto.
          - apply IH. intros y Hy. apply B10; right; auto. }
        clear B9 B10. induction G as [|f sc0 fs more (p & q & H1 & H2 & H3) _ IH]; intros [|k] Hk; try discriminate.
        - cbn in Hk. injection Hk as <-. exists f, p, q. split; [auto|]. split; [left; auto|auto].
        - destruct (IH k Hk) as (f' & p' & q' & X1 & X2 & X3). exists f', p', q'. split; auto. split; [right; auto|auto]. }
      split.
      + intros sc Hsc. apply In_nth_error in Hsc. destruct Hsc as [k Hk].
        destruct (Nth k sc Hk) as (f & p & q & _ & _ & Hp & Hq & ->).
        rewrite (border_section_eq f p q Hp Hq). destruct (of_place_node _ _ Hp) as (n & _ & _ & _ & _ & N5 & _).
        destruct (partner_one _ _ _ Hq Hq) as [_ D].
        destruct (snd p) eqn:Sp.
        * exists p, q, (b_line (fst f)). repeat split; auto. destruct (snd q); congruence.
        * exists q, p, (b_line (fst f)). split; [apply partners_sym; auto|].
          split; [destruct (snd q); congruence|]. split; [auto|]. split; [|auto]. eapply partners_line; eauto.
      + intros p q ln Hq Sp Hl. destruct (partners_place _ _ Hq) as [f Hp].
        assert (Hf : In f bs) by (apply bs_in; eauto).
        destruct (B13 f Hf) as [[]|Hfs]. apply in_map_iff in Hfs. destruct Hfs as (f0 & T0 & Hf0).
        apply In_nth_error in Hf0. destruct Hf0 as [k Hk].
        assert (Hk' : exists sc, nth_error more k = Some sc).
        { destruct (nth_error more k) eqn:M; eauto. apply nth_error_None in M.
          assert (LL : length fs = length more) by (clear - B9; induction B9; cbn; auto).
          assert (k < length fs) by (apply nth_error_Some; congruence). lia. }
        destruct Hk' as [sc Hsc].
        destruct (Nth k sc Hsc) as (f1 & p1 & q1 & F1 & F2 & Hp1 & Hq1 & ->).
        rewrite Hk in F1. injection F1 as <-.
        pose proof T0 as T. apply (tuple_iff _ _ _ _ Hp1 Hp) in T.
        destruct (of_place_node _ _ Hp) as (n & _ & _ & _ & _ & N5 & _).
        assert (Lf : b_line (fst f0) = b_line (fst f)) by (unfold id_tuple in T0; congruence).
        exists k. split.
        * rewrite Hsc. f_equal. rewrite (border_section_eq f0 p1 q1 Hp1 Hq1), Lf, (line_fun _ _ _ Hl N5).
          destruct T as [-> | T].
          -- destruct (partner_one _ _ _ Hq Hq1) as [<- _]. rewrite Sp. reflexivity.
          -- destruct (partner_one _ _ _ Hq1 T) as [-> D]. apply partners_sym in T.
             destruct (partner_one _ _ _ Hq T) as [-> _].
             destruct (snd p1); [congruence|]. reflexivity.
        * intros k' sc' Hsc' Hin. destruct (Nth k' sc' Hsc') as (f2 & p2 & q2 & F3 & F4 & Hp2 & Hq2 & ->).
          apply border_section_in in Hin.
          destruct (of_place_node _ _ Hp2) as (n2 & Z1 & Z2 & Z3 & _). rewrite Z3 in Hin.
          assert (T2 : p = p2 \/ partners l p p2).
          { destruct (partners_names _ _ Hq) as (np & mq & X1 & X2 & X3 & X4 & X5).
            destruct Hin as [Hin|Hin].
            - left. eapply (dev_whole p p2 np n2); eauto. rewrite X3; auto.
            - destruct (partners_names _ _ Hq2) as (np2 & mq2 & Y1 & Y2 & Y3 & Y4 & Y5).
              assert (p = q2) by (eapply (dev_whole p q2 np mq2); eauto; rewrite X3; auto). subst q2.
              right. apply partners_sym; auto. }
          apply (tuple_iff _ _ _ _ Hp Hp2) in T2.
          assert (EqT : nth_error (map id_tuple fs) k' = nth_error (map id_tuple fs) k).
          { rewrite (map_nth_error id_tuple _ _ F3), (map_nth_error id_tuple _ _ Hk). congruence. }
          apply (proj1 (NoDup_nth_error _) B11); auto. rewrite map_length. apply nth_error_Some. congruence.
  Qed.
End BORDERS.
