(* What one section adds to the network *)
From Coq Require Import List Bool NArith QArith Arith String Sorted Permutation Lia.
From Verif Require Import Base PhysModel TextModel InfraModel InfraOrder InfraSpec InfraHeap InfraScan InfraLay InfraLaid InfraPlace.
Import ListNotations.
Local Open Scope nat_scope.

Definition end_of (x : xsection) (at_end : bool) : snode := if at_end then xs_end x else xs_start x.
Definition tracks (x : xsection) : list tnode := filter (fun n => is_track_element (tn_type n)) (xs_track x).

Record added (k st : nat) (x : xsection) (g : graph) (dv : bool -> nat) (q : bool -> list nat) (g' : graph)
  : Prop := {
  ad_end : forall t, exists e0 e,
    (rp_find (g_rp g) (device (end_of x t)) = Some (dv t) /\ E g (dv t) = Some e0 \/
     rp_find (g_rp g) (device (end_of x t)) = None /\ len g <= dv t /\
     exists kd, kind_of (stype (sn_name (end_of x t))) = Some kd /\
                e0 = fresh st (stype (sn_name (end_of x t))) kd false) /\
    kind_of (stype (sn_name (end_of x t))) = Some (e_kind e0) /\
    e_type e0 = stype (sn_name (end_of x t)) /\
    E g' (dv t) = Some e /\ core e = core (dress k (xs_line x) (end_of x t) t e0) /\
    (forall s r, e_nb e s r = if side_eqb s (side_of (sn_name (end_of x t)) t)
                              then (if Bool.eqb r t then Some (last (q r) 0) else hd_error (q r))
                              else e_nb e0 s r);
  ad_rp_end : forall t, rp_find (g_rp g') (device (end_of x t)) = Some (dv t) /\
                        rp_find (g_rp g') (sn_id (end_of x t)) = Some (dv t);
  ad_ne : dv true <> dv false;
  ad_elem : forall d j i, nth_error (q d) j = Some i -> exists e, E g' i = Some e /\
    bk d e = nth_error (dv (negb d) :: q d) j /\
    fw d e = nth_error (q d ++ [dv d]) (S j) /\
    track_elem k (xs_line x) d e /\ len g <= i;
  ad_nodup : forall d, NoDup (q d);
  ad_some : forall d, q d <> [];
  ad_nodes : forall d, match nodes_in (tracks x) d with
    | [] => exists m e, q d = [m] /\ E g' m = Some e /\ e_type e = META /\ e_km e S0 = sn_km (end_of x (negb d))
    | _ => length (q d) = length (nodes_in (tracks x) d)
    end;
  ad_made : forall d j n i, nth_error (nodes_in (tracks x) d) j = Some n -> nth_error (q d) j = Some i ->
    exists e, E g' i = Some e /\ made st k (xs_line x) n e /\ rp_find (g_rp g') (tn_id n) = Some i;
  ad_both : forall d i e, In i (q d) -> E g' i = Some e -> e_kind e = KUndirected -> In i (q (negb d));
  ad_frame : forall j, j < len g -> (forall t, j <> dv t) -> E g' j = E g j;
  ad_grow : len g <= len g';
  ad_new : forall j, len g <= j < len g' -> (exists t, j = dv t) \/ exists d, In j (q d);
  ad_rp : forall id, ~ In id (map tn_id (tracks x)) -> id <> RP_MAX ->
    (forall t, id <> device (end_of x t) /\ id <> sn_id (end_of x t)) ->
    rp_find (g_rp g') id = rp_find (g_rp g) id;
  ad_borders : g_borders g' = g_borders g ++ border_of st (xs_line x) (xs_start x) (dv false) true
                                          ++ border_of st (xs_line x) (xs_end x) (dv true) false;
  ad_secs : exists sc all, g_secs g' = g_secs g ++ [sc] /\
    sc_rising sc = dv false :: sort_elems true g' all ++ [dv true] /\
    sc_falling sc = dv true :: sort_elems false g' all ++ [dv false] /\
    sc_length sc = qabs' (sn_km (xs_start x)) (sn_km (xs_end x)) /\ sc_line sc = xs_line x /\
    NoDup all /\ forall j, In j all <-> In j (q true) \/ In j (q false);
  ad_mono : forall d k1 k2 i1 i2 e, k1 < k2 -> nth_error (q d) k1 = Some i1 ->
    nth_error (q d) k2 = Some i2 -> E g' i2 = Some e -> e_kind e = KTrack \/ d = true -> i1 < i2 }.

Record addable (st : nat) (x : xsection) (g : graph) : Prop := {
  aa_lead : forall t, sn_id (end_of x t) = main_id (end_of x t) <-> leading (part_of (sn_name (end_of x t))) = true;
  aa_dev : device (xs_start x) <> device (xs_end x);
  aa_cross : sn_id (xs_start x) <> device (xs_end x) /\ sn_id (xs_end x) <> device (xs_start x) /\
             sn_id (xs_start x) <> sn_id (xs_end x);
  aa_old : forall t i, rp_find (g_rp g) (device (end_of x t)) = Some i ->
    exists e, E g i = Some e /\ e_type e = stype (sn_name (end_of x t)) /\
              kind_of (stype (sn_name (end_of x t))) = Some (e_kind e) /\
              forall s r v, e_nb e s r = Some v -> exists ev, E g v = Some ev /\ is_track_e ev = true;
  aa_inj : forall i, rp_find (g_rp g) (device (xs_start x)) = Some i ->
                     rp_find (g_rp g) (device (xs_end x)) = Some i -> False;
  aa_ids : NoDup (map tn_id (xs_track x));
  aa_range : forall n, In n (xs_track x) -> tn_id n <> RP_MAX;
  aa_track : forall n t, In n (xs_track x) -> tn_id n <> device (end_of x t) /\ tn_id n <> sn_id (end_of x t);
  aa_ends : forall t, device (end_of x t) <> RP_MAX /\ sn_id (end_of x t) <> RP_MAX }.

Lemma last_default {A} (l : list A) a b : l <> [] -> last l a = last l b.
Proof. intros H. destruct (exists_last H) as (r & z & ->). rewrite !last_last. reflexivity. Qed.
Lemma stype_not_track n : is_track_element (stype n) = false.
Proof. destruct n; reflexivity. Qed.
Lemma upd_app_last {A} (l : list A) x f : upd (l ++ [x]) (length l) f = l ++ [f x].
Proof. induction l; cbn; [reflexivity|]. f_equal. auto. Qed.
Lemma fresh_nb st t k r s d : e_nb (fresh st t k r) s d = None.
Proof. reflexivity. Qed.

Lemma add_ok st x g : addable st x g ->
  exists g' dv q, parse_section g st x = Ok g' /\ added (length (g_secs g)) st x g dv q g'.
Proof.
  intros [Alead Adev (Ac1 & Ac2 & Ac3) Aold Ainj Aids Arange Atrack Aends].
  rewrite parse_section_eq. cbv zeta.
  set (k := length (g_secs g)). set (ln := xs_line x).
  set (sc0 := mksec [] [] (qabs' (sn_km (xs_start x)) (sn_km (xs_end x))) ln).
  set (g0 := mkgraph (g_elems g) (g_rp g) (g_secs g ++ [sc0]) (g_borders g)).
  assert (E0 : forall j, E g0 j = E g j) by reflexivity.
  assert (L0 : len g0 = len g) by reflexivity.
  (* the start *)
  destruct (emplace_ok g0 st k ln (xs_start x) true (Alead false)) as
    (g1 & a & ea0 & Ha & Ca & Ka & Ea & Fa & Sa & Ba & Ra1 & Ra2 & Ra3).
  { intros i Hi. rewrite <- device_main in Hi. destruct (Aold false i Hi) as (e & X1 & X2 & X3 & _).
    exists e. auto. }
  rewrite Ha. cbn [bind].
  change (upd_e (upd_e g1 a (set_km_point_and_line (sn_name (xs_start x)) (sn_km (xs_start x)) ln)) a (push_sec k))
    with (placed_graph g1 a k ln (xs_start x)).
  set (g1' := placed_graph g1 a k ln (xs_start x)) in *.
  rewrite <- !device_main in *. cbn [negb] in Ea.
  assert (Rb : rp_find (g_rp g1') (device (xs_end x)) = rp_find (g_rp g) (device (xs_end x))).
  { rewrite Ra3; auto. }
  assert (Hbold : forall i, rp_find (g_rp g) (device (xs_end x)) = Some i ->
     i <> a /\ exists e, E g1' i = Some e /\ E g i = Some e /\ e_type e = stype (sn_name (xs_end x)) /\
     kind_of (stype (sn_name (xs_end x))) = Some (e_kind e) /\
     forall s r v, e_nb e s r = Some v -> exists ev, E g v = Some ev /\ is_track_e ev = true).
  { intros i Hi. destruct (Aold true i Hi) as (e & X1 & X2 & X3 & X4).
    assert (i <> a).
    { intros ->. destruct Ca as [(Y & _)|(_ & -> & _)]; [eapply Ainj; eauto|].
      apply E_lt in X1. lia. }
    split; auto. exists e. rewrite Fa by auto. rewrite E0. auto. }
  destruct (emplace_ok g1' st k ln (xs_end x) false (Alead true)) as
    (g2 & b & eb0 & Hb & Cb & Kb & Eb & Fb & Sb & Bb & Rb1 & Rb2 & Rb3).
  { intros i Hi. rewrite <- device_main in Hi. rewrite Rb in Hi.
    destruct (Hbold i Hi) as (_ & e & X1 & X2 & X3 & X4 & _). exists e. auto. }
  rewrite Hb. cbn [bind].
  change (upd_e (upd_e g2 b (set_km_point_and_line (sn_name (xs_end x)) (sn_km (xs_end x)) ln)) b (push_sec k))
    with (placed_graph g2 b k ln (xs_end x)).
  set (g2' := placed_graph g2 b k ln (xs_end x)) in *.
  rewrite <- !device_main in *. cbn [negb] in Eb. rewrite Rb in Cb.
  assert (La1 : a < len g1') by (eapply E_lt; eauto).
  assert (Hab : a <> b).
  { intros ->. destruct Cb as [(X & _)|(_ & X & _)]; [|lia]. apply Hbold in X. tauto. }
  (* the old element of the end *)
  assert (Lg1 : len g <= len g1') by (destruct Ca as [(_ & _ & X)|(_ & _ & X & _)]; lia).
  assert (Hea0 : e_type ea0 = stype (sn_name (xs_start x)) /\
                 forall s r v, e_nb ea0 s r = Some v -> exists ev, E g v = Some ev /\ is_track_e ev = true).
  { destruct Ca as [(X & Y & _)|(_ & _ & _ & kd & _ & ->)].
    - destruct (Aold false a X) as (e & X1 & X2 & X3 & X4). rewrite E0 in Y. rewrite X1 in Y. injection Y as <-. auto.
    - split; [reflexivity|]. intros; discriminate. }
  assert (Heb0 : e_type eb0 = stype (sn_name (xs_end x)) /\
                 forall s r v, e_nb eb0 s r = Some v -> exists ev, E g v = Some ev /\ is_track_e ev = true).
  { destruct Cb as [(X & Y & _)|(_ & _ & _ & kd & _ & ->)].
    - destruct (Hbold b X) as (_ & e & X1 & X2 & X3 & X4 & X5). rewrite Y in X1. injection X1 as <-. auto.
    - split; [reflexivity|]. intros; discriminate. }
  destruct Hea0 as [Tea Nea]. destruct Heb0 as [Teb Neb].
  assert (Ea2 : E g2' a = Some (dress k ln (xs_start x) false ea0)) by (rewrite Fb; auto).
  destruct (dress_kind k ln (xs_start x) false ea0) as (Da1 & Da2 & Da3 & Da4 & Da5).
  destruct (dress_kind k ln (xs_end x) true eb0) as (Db1 & Db2 & Db3 & Db4 & Db5).
  (* neither end is old track *)
  assert (Nota : forall ev, E g a = Some ev -> is_track_e ev = false).
  { intros ev Hev. destruct Ca as [(X & Y & _)|(_ & -> & _)].
    - rewrite E0, Hev in Y. injection Y as ->. unfold is_track_e. rewrite Tea. apply stype_not_track.
    - apply E_lt in Hev. lia. }
  assert (Notb : forall ev, E g b = Some ev -> is_track_e ev = false).
  { intros ev Hev. destruct Cb as [(X & Y & _)|(_ & -> & _)].
    - destruct (Hbold b X) as (_ & e & X1 & X2 & X3 & _). rewrite Hev in X2. injection X2 as ->.
      unfold is_track_e. rewrite X3. apply stype_not_track.
    - apply E_lt in Hev. lia. }
  assert (Tids : NoDup (map tn_id (tracks x))) by (apply filter_NoDup_map; auto).
  assert (Tin : forall n, In n (tracks x) -> In n (xs_track x)).
  { intros n Hn. apply filter_In in Hn. apply Hn. }
  destruct (lay_ok st k ln g2' a b (sn_name (xs_start x)) (sn_name (xs_end x)) (tracks x)
              (dress k ln (xs_start x) false ea0) (dress k ln (xs_end x) true eb0)) as (g3 & all & q & Hlay & Q); auto.
  { congruence. } { congruence. }
  { unfold is_track_e. rewrite Da1, Tea. apply stype_not_track. }
  { unfold is_track_e. rewrite Db1, Teb. apply stype_not_track. }
  { intros X. rewrite dress_rise. unfold flagged. rewrite X. reflexivity. }
  { intros X. rewrite dress_rise. unfold flagged. rewrite X. reflexivity. }
  { intros s r. rewrite Da3. intros X. destruct (Nea _ _ _ X) as (ev & Y1 & Y2). rewrite (Notb _ Y1) in Y2. discriminate. }
  { intros s r. rewrite Db3. intros X. destruct (Neb _ _ _ X) as (ev & Y1 & Y2). rewrite (Nota _ Y1) in Y2. discriminate. }
  { intros n Hn. apply filter_In in Hn. apply Hn. }
  change (filter (fun n => is_track_element (tn_type n)) (xs_track x)) with (tracks x).
  rewrite Hlay. cbn [bind].
  set (g' := mkgraph (g_elems g3) (g_rp g3) (upd (g_secs g3) k (fun s =>
           mksec ([a] ++ sort_elems true g3 all ++ [b]) ([b] ++ sort_elems false g3 all ++ [a])
                 (sc_length s) (sc_line s))) (g_borders g3)).
  exists g', (fun t : bool => if t then b else a), q. split; [reflexivity|].
  destruct Q as [Qa Qb Qe Qnd Qs Qn Qm Qboth Qf Qnew Qg Qrp Qsec Qbor Qall Qmono].
  assert (E' : forall j, E g' j = E g3 j) by reflexivity.
  assert (L' : len g' = len g3) by reflexivity.
  assert (Lg2 : len g1' <= len g2').
  { destruct Cb as [(_ & _ & X)|(_ & _ & X & _)]; lia. }
  split.
  - intros [|]; cbn [end_of].
    + exists eb0. destruct (Qb _ Eb) as (e & He & Hc & Hn). exists e.
      split.
      { destruct Cb as [(X & Y & _)|(X & Y & _ & Z)].
        - left. split; auto. destruct (Hbold b X) as (_ & e' & X1 & X2 & _). congruence.
        - right. repeat split; auto. lia. }
      split; [auto|]. split; [auto|]. split; [auto|]. split; [auto|].
      intros s r. rewrite Hn, Db3. destruct (side_eqb s (side_of (sn_name (xs_end x)) true)); [|reflexivity].
      destruct r; cbn [Bool.eqb]; [|reflexivity]. f_equal. apply last_default, Qs.
    + exists ea0. destruct (Qa _ Ea2) as (e & He & Hc & Hn). exists e.
      split.
      { destruct Ca as [(X & Y & _)|(X & Y & _ & Z)].
        - left. auto.
        - right. repeat split; auto. lia. }
      split; [auto|]. split; [auto|]. split; [auto|]. split; [auto|].
      intros s r. rewrite Hn, Da3. destruct (side_eqb s (side_of (sn_name (xs_start x)) false)); [|reflexivity].
      destruct r; cbn [Bool.eqb]; [reflexivity|]. f_equal. apply last_default, Qs.
  - assert (Tnot : forall id, (forall n, In n (xs_track x) -> tn_id n <> id) -> ~ In id (map tn_id (tracks x))).
    { intros id H X. apply in_map_iff in X. destruct X as (n & X1 & X2). eapply H; eauto. }
    change (g_rp g') with (g_rp g3).
    intros [|]; cbn [end_of].
    + rewrite !Qrp; auto; try (apply Aends with (t := true)); apply Tnot; intros n Hn; apply (Atrack n true Hn).
    + rewrite !Qrp; auto; try (apply (Aends false)); try (apply Tnot; intros n Hn; apply (Atrack n false Hn)).
      rewrite !Rb3 by congruence. split; congruence.
  - congruence.
  - intros d j i Hj. destruct (Qe d j i Hj) as (e & X1 & X2 & X3 & X4 & X5).
    exists e. split; [auto|]. split; [destruct d; exact X2|]. split; [exact X3|]. split; [exact X4|]. lia.
  - exact Qnd.
  - exact Qs.
  - intros d. specialize (Qn d). destruct (nodes_in (tracks x) d); auto.
    destruct Qn as (m & e & R & He & Ty & Km). exists m, e. split; [auto|]. split; [auto|]. split; [auto|].
    destruct d; cbn [negb end_of].
    + rewrite (Km _ Ea2). apply dress_line. auto.
    + rewrite (Km _ Eb). apply dress_line. auto.
  - intros d j n i N I. destruct (Qm d j n i N I) as (e & X1 & X2 & X3). exists e. auto.
  - intros d i e Hi He K. exact (Qboth d i e Hi He K).
  - intros j Hj Ht. pose proof (Ht true) as Hjb. pose proof (Ht false) as Hja. cbn in Hjb, Hja.
    rewrite E', Qf, Fb, Fa by (auto; lia). auto.
  - rewrite L'. lia.
  - intros j Hj. rewrite L' in Hj.
    destruct (Nat.lt_ge_cases j (len g2')) as [J|J].
    + left. destruct (Nat.lt_ge_cases j (len g1')) as [J1|J1].
      * destruct Ca as [(_ & _ & X)|(_ & X & Y & _)]; [lia|]. exists false. lia.
      * destruct Cb as [(_ & _ & X)|(_ & X & Y & _)]; [lia|]. exists true. lia.
    + right. apply Qnew. lia.
  - intros id I1 I2 I3. change (g_rp g') with (g_rp g3).
    destruct (I3 true), (I3 false). cbn [end_of] in *. rewrite Qrp, Rb3, Ra3; auto.
  - change (g_borders g') with (g_borders g3). rewrite Qbor, Bb, Ba, <- app_assoc. reflexivity.
  - change (g_secs g') with (upd (g_secs g3) k (fun s =>
           mksec ([a] ++ sort_elems true g3 all ++ [b]) ([b] ++ sort_elems false g3 all ++ [a])
                 (sc_length s) (sc_line s))).
    rewrite Qsec, Sb, Sa. change (g_secs g0) with (g_secs g ++ [sc0]). unfold k. rewrite upd_app_last.
    eexists _, all. split; [reflexivity|]. repeat split; auto; apply Qall.
  - exact Qmono.
Qed.
