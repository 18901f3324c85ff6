(* The imported rolling stock against the data sheets. *)
From Coq Require Import Ascii Lqa.
From Verif Require Import Base TextModel PhysModel PhysSpec PhysProofs PropsPhys KssModel KssDates
  StockModel StockSpec StockText.
Local Open Scope Q_scope.

Definition ok_or_throw {A} (m : res A) : Prop := (exists a, m = Ok a) \/ m = Throw.
Lemma bind_oot {A B} (m : res A) (k : A -> res B) : ok_or_throw m -> (forall a, m = Ok a -> ok_or_throw (k a)) -> ok_or_throw (do x <- m; k x).
Proof. intros [(a & ->)| ->] H; [apply H; reflexivity|right; reflexivity]. Qed.
Lemma ok_oot {A} (a : A) : ok_or_throw (Ok a).
Proof. left. eauto. Qed.
Lemma fp_oot c s : ok_or_throw (parse_fp c s).
Proof. apply parse_fp_total. Qed.

Lemma map_res_oot {A B} (f : A -> res B) l : (forall a, In a l -> ok_or_throw (f a)) -> ok_or_throw (map_res f l).
Proof.
  induction l as [|a l IH]; intros H; [apply ok_oot|]. cbn [map_res].
  apply bind_oot; [apply H; left; reflexivity|]. intros b _.
  apply bind_oot; [apply IH; intros; apply H; now right|]. intros bs _. apply ok_oot.
Qed.
Lemma map_res_ok {A B} (f : A -> res B) l : forall bs, map_res f l = Ok bs -> Forall2 (fun a b => f a = Ok b) l bs.
Proof.
  induction l as [|a l IH]; intros bs H; cbn [map_res] in H.
  - injection H as <-. constructor.
  - apply bind_Ok in H. destruct H as (b & Hb & H). apply bind_Ok in H. destruct H as (bs' & Hbs & H).
    injection H as <-. constructor; auto.
Qed.
Lemma map_res_all {A B} (f : A -> res B) l : (forall a, In a l -> exists b, f a = Ok b) -> exists bs, map_res f l = Ok bs.
Proof.
  induction l as [|a l IH]; intros H; [exists []; reflexivity|].
  destruct (H a (or_introl eq_refl)) as (b & Hb). destruct IH as (bs & Hbs); [intros; apply H; now right|].
  exists (b :: bs). cbn [map_res]. rewrite Hb. cbn [bind]. rewrite Hbs. reflexivity.
Qed.
Lemma Forall2_nth {A B} (R : A -> B -> Prop) l m : Forall2 R l m ->
  (forall i a, nth_error l i = Some a -> exists b, nth_error m i = Some b /\ R a b) /\
  (forall i b, nth_error m i = Some b -> exists a, nth_error l i = Some a /\ R a b).
Proof.
  induction 1 as [|a b l m Hab _ [IH1 IH2]]; [split; intros [|i] x; discriminate|].
  split; intros [|i] x E; cbn [nth_error] in *.
  - injection E as <-. eauto.
  - apply IH1. exact E.
  - injection E as <-. eauto.
  - apply IH2. exact E.
Qed.

Lemma number_ok s v : number s v -> exists v', parse_fp true s = Ok v' /\ v' == v.
Proof. intros H. apply parse_fp_iff. exact H. Qed.

(* ---- a line ---- *)
Definition line_piece (x : xfactor) (p : piece) : Prop :=
  exists lo hi f1 f2 f3, line_reads x lo hi f1 f2 f3 /\
    p = mkpiece [from_kn_h2_per_km2 f3; from_kn_h_per_km f2; from_kilo_newton f1] (from_km_h lo) (from_km_h hi).
Lemma parse_factor_ok x p : parse_factor x = Ok p -> line_piece x p.
Proof.
  unfold parse_factor. intros H.
  apply bind_Ok in H. destruct H as (lo & H1 & H). apply bind_Ok in H. destruct H as (hi & H2 & H).
  apply bind_Ok in H. destruct H as (f1 & H3 & H). apply bind_Ok in H. destruct H as (f2 & H4 & H).
  apply bind_Ok in H. destruct H as (f3 & H5 & H). injection H as <-.
  exists lo, hi, f1, f2, f3. split; [|reflexivity]. repeat split; apply parse_fp_reads; assumption.
Qed.
Lemma parse_factor_reads x : readable_line x -> exists p, parse_factor x = Ok p.
Proof.
  intros (lo & hi & f1 & f2 & f3 & A & B & C & D & E). unfold parse_factor.
  apply number_ok in A. apply number_ok in B. apply number_ok in C. apply number_ok in D. apply number_ok in E.
  destruct A as (a & -> & _), B as (b & -> & _), C as (c & -> & _), D as (d & -> & _), E as (e & -> & _).
  cbn [bind]. eauto.
Qed.
Lemma parse_factor_oot x : ok_or_throw (parse_factor x).
Proof. unfold parse_factor. do 5 (apply bind_oot; [apply fp_oot|intros ? _]). apply ok_oot. Qed.

Lemma kmh_le a b : from_km_h a <= from_km_h b <-> a <= b.
Proof. unfold from_km_h, Qdiv. change (/ (36 # 10)) with (10 # 36). split; intros; lra. Qed.
Lemma lt_kmh v b : v < from_km_h b <-> (36 # 10) * v < b.
Proof. unfold from_km_h, Qdiv. change (/ (36 # 10)) with (10 # 36). split; intros; lra. Qed.
Lemma kmh_le_v b v : from_km_h b <= v <-> b <= (36 # 10) * v.
Proof. unfold from_km_h, Qdiv. change (/ (36 # 10)) with (10 # 36). split; intros; lra. Qed.

Lemma continuous_iff ps : is_continuous ps = true <->
  (forall i p q, nth_error ps i = Some p -> nth_error ps (S i) = Some q ->
     p_to p - p_from q < 1#100 /\ p_from q - p_to p < 1#100).
Proof.
  rewrite <- C50_make_piecewise. unfold make_piecewise. destruct (is_continuous ps); cbn [sassert bind]; split; auto; discriminate.
Qed.
Lemma adjoin_iff t ps : Forall2 line_piece t ps -> (is_continuous ps = true <-> lines_adjoin t).
Proof.
  intros F. apply Forall2_nth in F. destruct F as (F1 & F2). rewrite continuous_iff. split.
  - intros H i x y hi lo Hx Hy Nx Ny.
    destruct (F1 i x Hx) as (p & Hp & lo1 & hi1 & a & b & c & (_ & R1 & _) & ->).
    destruct (F1 (S i) y Hy) as (q & Hq & lo2 & hi2 & a' & b' & c' & (R2 & _) & ->).
    specialize (H i _ _ Hp Hq). cbn [p_to p_from] in H.
    pose proof (fp_text_det _ _ _ _ Nx R1). pose proof (fp_text_det _ _ _ _ Ny R2).
    unfold from_km_h, Qdiv in H. change (/ (36 # 10)) with (10 # 36) in H. split; lra.
  - intros H i p q Hp Hq.
    destruct (F2 i p Hp) as (x & Hx & lo1 & hi1 & a & b & c & (_ & R1 & _) & ->).
    destruct (F2 (S i) q Hq) as (y & Hy & lo2 & hi2 & a' & b' & c' & (R2 & _) & ->).
    specialize (H i x y hi1 lo2 Hx Hy R1 R2). cbn [p_to p_from].
    unfold from_km_h, Qdiv. change (/ (36 # 10)) with (10 # 36). split; lra.
Qed.

(* ---- the curve ---- *)
Lemma curve_ok t ps : get_tractive_force_curve t = Ok ps ->
  (forall x, In x t -> readable_line x) /\
  (ps <> [] -> t <> [] /\ lines_adjoin t /\ Forall2 line_piece t ps) /\
  (t <> [] -> lines_adjoin t -> ps <> []).
Proof.
  unfold get_tractive_force_curve. intros H. apply bind_Ok in H. destruct H as (ps' & Hps & H).
  apply map_res_ok in Hps.
  assert (F : Forall2 line_piece t ps').
  { clear -Hps. induction Hps; constructor; [apply parse_factor_ok; assumption|assumption]. }
  split; [|].
  - intros x Hx. apply In_nth_error in Hx. destruct Hx as (i & Hx). apply Forall2_nth in F. destruct F as (F & _).
    destruct (F i x Hx) as (p & _ & lo & hi & a & b & c & R & _). exists lo, hi, a, b, c. exact R.
  - pose proof (adjoin_iff _ _ F) as A. destruct (is_continuous ps') eqn:C; cbn [negb] in H.
    + unfold make_piecewise in H. rewrite C in H. cbn [sassert bind] in H. injection H as <-. split.
      * intros NE. split; [|split; [tauto|exact F]]. intros ->. inversion F; subst. congruence.
      * intros NE _ ->. inversion F; subst. congruence.
    + injection H as <-. split; [congruence|]. intros _ L. apply A in L. discriminate.
Qed.
Lemma curve_reads t : (forall x, In x t -> readable_line x) -> exists ps, get_tractive_force_curve t = Ok ps.
Proof.
  intros H. destruct (map_res_all parse_factor t) as (ps & Hps).
  { intros x Hx. apply parse_factor_reads. auto. }
  unfold get_tractive_force_curve. rewrite Hps. cbn [bind]. destruct (is_continuous ps) eqn:C; cbn [negb]; [|eauto].
  unfold make_piecewise. rewrite C. cbn [sassert bind]. eauto.
Qed.
Lemma curve_oot t : ok_or_throw (get_tractive_force_curve t).
Proof.
  unfold get_tractive_force_curve. apply bind_oot; [apply map_res_oot; intros; apply parse_factor_oot|].
  intros ps _. destruct (is_continuous ps) eqn:C; cbn [negb]; [|apply ok_oot].
  unfold make_piecewise. rewrite C. apply ok_oot.
Qed.

Lemma force_value f1 f2 f3 v :
  polynomial [from_kn_h2_per_km2 f3; from_kn_h_per_km f2; from_kilo_newton f1] v ==
  1000 * (f1 + f2 * ((36 # 10) * v) + f3 * ((36 # 10) * v) * ((36 # 10) * v)).
Proof. cbn [polynomial horner]. unfold from_kn_h2_per_km2, from_kn_h_per_km, from_kilo_newton. ring. Qed.
Lemma pulls_of t ps v : Forall2 line_piece t ps ->
  (forall F, piecewise ps v = Ok F -> pulls t ((36 # 10) * v) F) /\
  (forall F, pulls t ((36 # 10) * v) F -> exists F', piecewise ps v = Ok F' /\ F' == F).
Proof.
  intros FF. pose proof (Forall2_nth _ _ _ FF) as (F1 & F2). split.
  - intros F H. apply piecewise_spec in H. destruct H as (i & p & Hp & L & B & E).
    destruct (F2 i p Hp) as (x & Hx & lo & hi & f1 & f2 & f3 & R & ->). cbn [p_to p_factors] in *.
    exists i, x, lo, hi, f1, f2, f3. split; [exact Hx|]. split; [exact R|]. split; [apply lt_kmh; exact L|]. split.
    + intros j y h J Hy Ny. destruct (F1 j y Hy) as (q & Hq & lo' & hi' & a & b & c & (_ & R' & _) & ->).
      specialize (B j _ J Hq). cbn [p_to] in B. apply kmh_le_v in B. rewrite (fp_text_det _ _ _ _ Ny R'). exact B.
    + rewrite E. apply force_value.
  - intros F (i & x & lo & hi & f1 & f2 & f3 & Hx & R & L & B & E).
    destruct (F1 i x Hx) as (p & Hp & lo' & hi' & a & b & c & R' & ->).
    destruct R as (_ & Rh & R1 & R2 & R3). destruct R' as (_ & Rh' & R1' & R2' & R3').
    eexists. split.
    + eapply piecewise_found; [exact Hp| |].
      * cbn [p_to]. apply lt_kmh. rewrite <- (fp_text_det _ _ _ _ Rh Rh'). exact L.
      * intros j q J Hq. destruct (F2 j q Hq) as (y & Hy & lo2 & hi2 & a' & b' & c' & (_ & Ry & _) & ->).
        cbn [p_to]. apply kmh_le_v. exact (B j y hi2 J Hy Ry).
    + cbn [p_factors]. rewrite force_value, E.
      rewrite (fp_text_det _ _ _ _ R1' R1), (fp_text_det _ _ _ _ R2' R2), (fp_text_det _ _ _ _ R3' R3). reflexivity.
Qed.

(* ---- the resistance ---- *)
Lemma resistance_ok x w l : number (xv_weight x) w -> get_running_resistance_curve x (from_ton w) = Ok l ->
  (exists r1 r2 r3, number (xv_r1 x) r1 /\ number (xv_r2 x) r2 /\ number (xv_r3 x) r3) /\
  forall v, resists x ((36 # 10) * v) (polynomial l v).
Proof.
  unfold get_running_resistance_curve. intros W H.
  apply bind_Ok in H. destruct H as (r1 & H1 & H). apply bind_Ok in H. destruct H as (r2 & H2 & H).
  apply bind_Ok in H. destruct H as (r3 & H3 & H). injection H as <-.
  apply parse_fp_reads in H1. apply parse_fp_reads in H2. apply parse_fp_reads in H3.
  split; [exists r1, r2, r3; auto|]. intros v. exists w, r1, r2, r3. do 4 (split; [assumption|]).
  cbn [polynomial horner]. unfold from_kg_h_km, from_h_km, from_unitless_in_per_mille, from_ton, GRAVITATIONAL, Qdiv.
  change (/ 1000) with (1 # 1000). ring.
Qed.
Lemma resistance_reads x w : (exists r1 r2 r3, number (xv_r1 x) r1 /\ number (xv_r2 x) r2 /\ number (xv_r3 x) r3) ->
  exists l, get_running_resistance_curve x w = Ok l.
Proof.
  intros (r1 & r2 & r3 & A & B & C). apply number_ok in A. apply number_ok in B. apply number_ok in C.
  destruct A as (a & A & _), B as (b & B & _), C as (c & C & _). unfold get_running_resistance_curve.
  rewrite A. cbn [bind]. rewrite B. cbn [bind]. rewrite C. cbn [bind]. eauto.
Qed.
Lemma resistance_oot x w : ok_or_throw (get_running_resistance_curve x w).
Proof. unfold get_running_resistance_curve. do 3 (apply bind_oot; [apply fp_oot|intros ? _]). apply ok_oot. Qed.

(* ---- a variant ---- *)
Lemma table_hd x : hd [] (xv_equip x) = table x.
Proof. unfold table. destruct (xv_equip x); reflexivity. Qed.
Lemma parse_variant_ok m x m' : parse_variant m x = Ok m' ->
  readable_variant x /\
  exists id, numbered x id /\
    (~ usable x /\ m' = m \/ usable x /\ exists tv, describes x tv /\ m' = emplace m id tv).
Proof.
  unfold parse_variant. intros H. apply bind_Ok in H. destruct H as (n & Hn & H).
  apply bind_Ok in H. destruct H as (w & Hw & H). apply bind_Ok in H. destruct H as (ps & Hps & H).
  rewrite table_hd in Hps.
  assert (N : numbered x (w32 n)) by (apply numbered_iff; rewrite Hn; reflexivity).
  apply parse_fp_reads in Hw. apply curve_ok in Hps. destruct Hps as (RL & C1 & C2).
  destruct ps as [|p ps].
  - injection H as <-.
    assert (NU : ~ usable x) by (intros (U1 & U2); specialize (C2 U1 U2); congruence).
    split; [|exists (w32 n); split; [exact N|left; auto]].
    split; [eauto|]. split; [eauto|]. split; [exact RL|]. intros U. contradiction.
  - destruct C1 as (T & A & F); [discriminate|].
    apply bind_Ok in H. destruct H as (s & Hs & H). apply bind_Ok in H. destruct H as (l & Hl & H).
    injection H as <-. apply parse_fp_reads in Hs. destruct (resistance_ok x w l Hw Hl) as (RR & RS).
    split.
    + split; [eauto|]. split; [eauto|]. split; [exact RL|]. intros _. split; [eauto|exact RR].
    + exists (w32 n). split; [exact N|]. right. split; [split; assumption|]. eexists. split; [|reflexivity].
      unfold describes. cbn [tv_name tv_weight tv_vehicle v_max_speed v_deacceleration v_tractive v_resistance].
      split; [reflexivity|]. split.
      { apply (fp_text_eq _ _ _ _ Hw). unfold from_ton, Qdiv. change (/ 1000) with (1 # 1000). ring. }
      split.
      { apply (fp_text_eq _ _ _ _ Hs). unfold from_km_h, Qdiv. change (/ (36 # 10)) with (10 # 36). ring. }
      split; [reflexivity|]. intros v. destruct (pulls_of _ _ v F) as (P1 & P2). auto.
Qed.
Lemma parse_variant_reads m x : readable_variant x -> exists m', parse_variant m x = Ok m'.
Proof.
  intros ((id & N) & (w & W) & RL & RU). unfold parse_variant.
  apply numbered_iff in N. apply bind_Ok in N. destruct N as (n & Hn & _). rewrite Hn. cbn [bind]. cbv zeta.
  apply number_ok in W. destruct W as (w' & Hw & _). rewrite Hw. cbn [bind].
  rewrite table_hd. destruct (curve_reads _ RL) as (ps & Hps). rewrite Hps. cbn [bind].
  apply curve_ok in Hps. destruct Hps as (_ & C1 & _).
  destruct ps as [|p ps]; [eauto|]. destruct C1 as (T & A & _); [discriminate|].
  destruct (RU (conj T A)) as ((s & S) & RR).
  apply number_ok in S. destruct S as (s' & Hs & _). rewrite Hs. cbn [bind].
  destruct (resistance_reads x (from_ton w') RR) as (l & Hl). rewrite Hl. cbn [bind]. eauto.
Qed.
Lemma parse_variant_oot m x : ok_or_throw (parse_variant m x).
Proof.
  unfold parse_variant. apply bind_oot; [apply stoul_total|]. intros n _. cbv zeta.
  apply bind_oot; [apply fp_oot|]. intros w _. apply bind_oot; [apply curve_oot|]. intros ps _.
  destruct ps; [apply ok_oot|]. apply bind_oot; [apply fp_oot|]. intros s _.
  apply bind_oot; [apply resistance_oot|]. intros l _. apply ok_oot.
Qed.

(* ---- the variants of a series ---- *)
Lemma find_variant_app id a b : find_variant id (a ++ b) =
  match find_variant id a with Some v => Some v | None => find_variant id b end.
Proof. induction a as [|[k v] a IH]; [reflexivity|]. cbn [app find_variant]. destruct (k =? id)%N; auto. Qed.
Lemma find_emplace m id v k : find_variant k (emplace m id v) =
  match find_variant k m with Some w => Some w | None => if (id =? k)%N then Some v else None end.
Proof.
  unfold emplace. destruct (find_variant id m) eqn:E.
  - destruct (find_variant k m) eqn:K; [reflexivity|]. destruct (N.eqb_spec id k) as [->|]; congruence.
  - rewrite find_variant_app. destruct (find_variant k m); reflexivity.
Qed.
Lemma numbered_det x a b : numbered x a -> numbered x b -> a = b.
Proof. rewrite !numbered_iff. congruence. Qed.
Lemma variants_ok l : forall m m', parse_variants_loop l m = Ok m' ->
  (forall x, In x l -> readable_variant x) /\
  (forall id tv, find_variant id m = Some tv -> find_variant id m' = Some tv) /\
  (forall id tv, find_variant id m = None -> find_variant id m' = Some tv ->
     exists i x, nth_error l i = Some x /\ numbered x id /\ usable x /\ describes x tv /\
       forall j y, (j < i)%nat -> nth_error l j = Some y -> usable y -> ~ numbered y id) /\
  (forall id x, In x l -> usable x -> numbered x id -> exists tv, find_variant id m' = Some tv).
Proof.
  induction l as [|x l IH]; intros m m' H; cbn [parse_variants_loop] in H.
  - injection H as <-. split; [intros x []|]. split; [auto|]. split; [congruence|]. intros id x [].
  - apply bind_Ok in H. destruct H as (m1 & Hm & H). destruct (IH _ _ H) as (I1 & I2 & I3 & I4).
    apply parse_variant_ok in Hm. destruct Hm as (R & k & N & D).
    split; [intros y [<-|Hy]; auto|].
    destruct D as [(NU & ->)|(U & tv & DS & ->)].
    + split; [exact I2|]. split.
      * intros id tv E F. destruct (I3 id tv E F) as (i & y & A & B & C & G & K). exists (S i), y.
        split; [exact A|]. split; [exact B|]. split; [exact C|]. split; [exact G|].
        intros [|j] z J Hz; cbn [nth_error] in Hz; [injection Hz as <-; intros; contradiction|]. apply (K j z); [lia|exact Hz].
      * intros id y [<-|Hy] U; [contradiction|]. apply (I4 id y Hy U).
    + split; [|split].
      * intros id v E. apply I2. rewrite find_emplace, E. reflexivity.
      * intros id v E F. destruct (N.eqb_spec k id) as [->|NE].
        -- assert (G : find_variant id (emplace m id tv) = Some tv).
           { rewrite find_emplace, E, N.eqb_refl. reflexivity. }
           rewrite (I2 _ _ G) in F. injection F as <-. exists 0%nat, x. split; [reflexivity|].
           split; [exact N|]. split; [exact U|]. split; [exact DS|]. intros j y J. lia.
        -- assert (G : find_variant id (emplace m k tv) = None).
           { rewrite find_emplace, E. destruct (N.eqb_spec k id); congruence. }
           destruct (I3 id v G F) as (i & y & A & B & C & G' & K). exists (S i), y.
           split; [exact A|]. split; [exact B|]. split; [exact C|]. split; [exact G'|].
           intros [|j] z J Hz; cbn [nth_error] in Hz; [injection Hz as <-; intros _ NN; exact (NE (numbered_det _ _ _ N NN))|].
           apply (K j z); [lia|exact Hz].
      * intros id y [<-|Hy] Uy Ny; [|apply (I4 id y Hy Uy Ny)].
        rewrite (numbered_det _ _ _ Ny N).
        destruct (find_variant k m) as [v|] eqn:E.
        -- exists v. apply I2. rewrite find_emplace, E. reflexivity.
        -- exists tv. apply I2. rewrite find_emplace, E, N.eqb_refl. reflexivity.
Qed.
Lemma variants_reads l : forall m, (forall x, In x l -> readable_variant x) -> exists m', parse_variants_loop l m = Ok m'.
Proof.
  induction l as [|x l IH]; intros m H; [exists m; reflexivity|]. cbn [parse_variants_loop].
  destruct (parse_variant_reads m x (H x (or_introl eq_refl))) as (m1 & ->). cbn [bind]. apply IH. intros; apply H; now right.
Qed.
Lemma variants_oot l : forall m, ok_or_throw (parse_variants_loop l m).
Proof.
  induction l as [|x l IH]; intros m; [apply ok_oot|]. cbn [parse_variants_loop].
  apply bind_oot; [apply parse_variant_oot|]. auto.
Qed.

(* ---- series and files ---- *)
Definition series_of (x : xseries) (ts : train_series) : Prop :=
  ts_nr ts = xs_nr x /\ ts_company ts = xs_company x /\ parse_variants_loop (xs_variants x) [] = Ok (ts_variants ts).
Lemma series_key_of x ts : series_of x ts -> get_key ts = key_of x.
Proof. intros (A & B & _). unfold get_key, key_of, series_key. rewrite A, B. reflexivity. Qed.
Lemma train_series_ok xs l : parse_train_series xs = Ok l -> Forall2 series_of xs l.
Proof.
  intros H. apply map_res_ok in H. induction H as [|x ts xs l Hx _ IH]; constructor; [|exact IH].
  apply bind_Ok in Hx. destruct Hx as (vs & Hv & E). injection E as <-. repeat split. exact Hv.
Qed.
Lemma train_series_oot xs : ok_or_throw (parse_train_series xs).
Proof. apply map_res_oot. intros x _. apply bind_oot; [apply variants_oot|]. intros. apply ok_oot. Qed.
Lemma train_series_reads xs : (forall x v, In x xs -> In v (xs_variants x) -> readable_variant v) ->
  exists l, parse_train_series xs = Ok l.
Proof.
  intros H. apply map_res_all. intros x Hx. destruct (variants_reads (xs_variants x) []) as (m & ->); [eauto|].
  cbn [bind]. eauto.
Qed.

Lemma str_eqb_eq a b : str_eqb a b = true <-> a = b.
Proof. unfold str_eqb. destruct (list_eq_dec ascii_dec a b); split; congruence. Qed.
Lemma find_series_spec k m : match find_series k m with
  | Some ts => In (k, ts) m | None => ~ In k (map fst m) end.
Proof.
  induction m as [|[k' ts] m IH]; [cbn; auto|]. cbn [find_series map fst In].
  destruct (str_eqb k' k) eqn:E; [apply str_eqb_eq in E; subst; auto|].
  destruct (find_series k m); [auto|]. intros [->|H]; [|contradiction].
  rewrite (proj2 (str_eqb_eq k k) eq_refl) in E. discriminate.
Qed.
Definition file_up (ts : train_series) : text * train_series := (get_key ts, ts).
Lemma add_series_ok l : forall m m', add_series m l = Ok m' ->
  m' = (m ++ map file_up l)%list /\ (NoDup (map fst m) -> NoDup (map fst m')).
Proof.
  induction l as [|ts l IH]; intros m m' H; cbn [add_series] in H.
  - injection H as <-. cbn [map]. rewrite app_nil_r. auto.
  - pose proof (find_series_spec (get_key ts) m) as F. destruct (find_series (get_key ts) m); [discriminate|].
    apply IH in H. destruct H as (-> & N). split.
    + rewrite <- app_assoc. reflexivity.
    + intros D. apply N. rewrite map_app. cbn [map fst]. apply NoDup_Add with (a := get_key ts) (l := map fst m).
      * replace (map fst m) with (map fst m ++ [])%list at 1 by apply app_nil_r. apply Add_app.
      * auto.
Qed.
Lemma add_series_all l : forall m, NoDup (map fst (m ++ map file_up l)%list) -> exists m', add_series m l = Ok m'.
Proof.
  induction l as [|ts l IH]; intros m D; [exists m; reflexivity|]. cbn [add_series].
  pose proof (find_series_spec (get_key ts) m) as F. destruct (find_series (get_key ts) m) as [t|].
  - exfalso. rewrite map_app in D. cbn [map file_up fst] in D. apply NoDup_remove_2 in D. apply D.
    apply in_or_app. left. change (get_key ts) with (fst (get_key ts, t)). apply in_map. exact F.
  - apply IH. rewrite <- app_assoc. exact D.
Qed.
Lemma add_series_oot l : forall m, ok_or_throw (add_series m l).
Proof. induction l as [|ts l IH]; intros m; [apply ok_oot|]. cbn [add_series]. destruct (find_series _ m); [right; reflexivity|apply IH]. Qed.

Lemma defaults_ok d dv : parse_default_values d = Ok dv -> readable_defaults d /\ defaults_read d dv.
Proof.
  unfold parse_default_values. intros H. apply bind_Ok in H. destruct H as (a & A & H).
  apply bind_Ok in H. destruct H as (b & B & H). apply bind_Ok in H. destruct H as (c & C & H). injection H as <-.
  apply parse_fp_reads in A. apply parse_fp_reads in B. apply parse_fp_reads in C.
  split; [repeat split; eauto|]. split; [reflexivity|]. split; [eauto|]. split; [eauto|]. eexists. split; [|reflexivity].
  apply (fp_text_eq _ _ _ _ C). unfold from_km_h, Qdiv. change (/ (36 # 10)) with (10 # 36). ring.
Qed.
Lemma defaults_reads d : readable_defaults d -> exists dv, parse_default_values d = Ok dv.
Proof.
  intros ((a & A) & (b & B) & c & C). apply number_ok in A. apply number_ok in B. apply parse_fp_iff in C.
  destruct A as (a' & A & _), B as (b' & B & _), C as (c' & C & _). unfold parse_default_values.
  rewrite A. cbn [bind]. rewrite B. cbn [bind]. rewrite C. cbn [bind]. eauto.
Qed.
Lemma defaults_oot d : ok_or_throw (parse_default_values d).
Proof. unfold parse_default_values. do 3 (apply bind_oot; [apply fp_oot|intros ? _]). apply ok_oot. Qed.

Lemma core_loop_ok fs : forall dv m dv' m', parse_core_loop fs (dv, m) = Ok (dv', m') ->
  (exists tss, Forall2 series_of (all_series fs) tss /\ m' = (m ++ map file_up tss)%list) /\
  (NoDup (map fst m) -> NoDup (map fst m')) /\
  (forall d, In d (all_defaults fs) -> readable_defaults d) /\
  match rev (all_defaults fs) with [] => dv' = dv | d :: _ => defaults_read d dv' end.
Proof.
  induction fs as [|f fs IH]; intros dv m dv' m' H; cbn [parse_core_loop] in H.
  - injection H as <- <-. split; [exists []; split; [constructor|cbn [map]; rewrite app_nil_r; reflexivity]|].
    split; [auto|]. split; [intros d []|reflexivity].
  - apply bind_Ok in H. destruct H as ([dv1 m1] & Hf & H). apply IH in H.
    destruct H as ((tss & F & ->) & N & RD & D).
    unfold parse_core_file in Hf. cbn [fst snd] in Hf. apply bind_Ok in Hf. destruct Hf as (dv2 & Hd & Hf).
    apply bind_Ok in Hf. destruct Hf as (m2 & Hm & Hf). injection Hf as -> ->.
    assert (S : exists ts1, Forall2 series_of (match cf_series f with Some l => l | None => [] end) ts1 /\
              m1 = (m ++ map file_up ts1)%list /\ (NoDup (map fst m) -> NoDup (map fst m1))).
    { destruct (cf_series f) as [xs|].
      - apply bind_Ok in Hm. destruct Hm as (l & Hl & Ha). apply train_series_ok in Hl. apply add_series_ok in Ha.
        destruct Ha as (-> & Ha). exists l. auto.
      - injection Hm as <-. exists []. split; [constructor|]. cbn [map]. rewrite app_nil_r. auto. }
    destruct S as (ts1 & F1 & -> & N1).
    split; [|split; [auto|split]].
    + exists (ts1 ++ tss)%list. split; [cbn [all_series flat_map]; apply Forall2_app; assumption|].
      rewrite map_app, app_assoc. reflexivity.
    + intros d Hi. cbn [all_defaults flat_map] in Hi. apply in_app_or in Hi. destruct Hi as [Hi|Hi]; [|auto].
      destruct (cf_defaults f) as [x|]; [|contradiction]. destruct Hi as [<-|[]]. apply defaults_ok in Hd. tauto.
    + cbn [all_defaults flat_map]. rewrite rev_app_distr. fold (all_defaults fs).
      destruct (rev (all_defaults fs)) as [|d r]; [|exact D]. subst dv'. cbn [app].
      destruct (cf_defaults f) as [x|]; cbn [rev app]; [apply defaults_ok in Hd; tauto|]. injection Hd as <-. reflexivity.
Qed.
Lemma core_loop_reads fs : forall dv m,
  (forall xs x, In xs (all_series fs) -> In x (xs_variants xs) -> readable_variant x) ->
  (forall d, In d (all_defaults fs) -> readable_defaults d) ->
  NoDup (map fst m ++ map key_of (all_series fs)) ->
  exists r, parse_core_loop fs (dv, m) = Ok r.
Proof.
  induction fs as [|f fs IH]; intros dv m RV RD ND; [exists (dv, m); reflexivity|].
  cbn [parse_core_loop all_series all_defaults flat_map] in *. fold (all_series fs) (all_defaults fs) in *.
  assert (D : exists dv1, match cf_defaults f with Some x => parse_default_values x | None => Ok dv end = Ok dv1).
  { destruct (cf_defaults f) as [x|]; [|eauto]. apply defaults_reads. apply RD. left. reflexivity. }
  destruct D as (dv1 & D).
  assert (S : exists m1, (match cf_series f with
              | Some xs => do l <- parse_train_series xs; add_series m l
              | None => Ok m end) = Ok m1 /\
              map fst m1 = (map fst m ++ map key_of (match cf_series f with Some l => l | None => [] end))%list).
  { destruct (cf_series f) as [xs|].
    - destruct (train_series_reads xs) as (l & Hl).
      { intros x v Hx Hv. apply (RV x v); [|exact Hv]. apply in_or_app. left. exact Hx. }
      rewrite Hl. cbn [bind]. apply train_series_ok in Hl.
      assert (E : map fst (map file_up l) = map key_of xs).
      { rewrite map_map. clear -Hl. induction Hl as [|x ts xs l Hx _ IH]; [reflexivity|]. cbn [map].
        rewrite IH. unfold file_up at 1. cbn [fst]. rewrite (series_key_of _ _ Hx). reflexivity. }
      destruct (add_series_all l m) as (m1 & Hm).
      { rewrite map_app, E. rewrite map_app, app_assoc in ND.
        revert ND. generalize (map key_of (all_series fs)). intros tl. generalize (map fst m ++ map key_of xs)%list. intros l0 ND.
        clear -ND. induction l0 as [|k l0 IH]; [constructor|]. cbn [app] in ND. inversion ND; subst. constructor; [|auto].
        intros Hi. apply H1. apply in_or_app. auto. }
      exists m1. split; [exact Hm|]. apply add_series_ok in Hm. destruct Hm as (-> & _). rewrite map_app, E. reflexivity.
    - exists m. split; [reflexivity|]. cbn [map]. rewrite app_nil_r. reflexivity. }
  destruct S as (m1 & S & E).
  assert (P : parse_core_file (dv, m) f = Ok (dv1, m1)).
  { unfold parse_core_file. cbn [fst snd]. rewrite D. cbn [bind].
    exact (f_equal (fun r : res stock => do m0 <- r; Ok (dv1, m0)) S). }
  rewrite P. cbn [bind]. apply IH.
  - intros xs x Hx Hv. apply (RV xs x); [|exact Hv]. apply in_or_app. auto.
  - intros d Hd. apply RD. apply in_or_app. auto.
  - rewrite E. rewrite map_app, app_assoc in ND. exact ND.
Qed.
Lemma core_oot fs : forall st, ok_or_throw (parse_core_loop fs st).
Proof.
  induction fs as [|f fs IH]; intros st; [apply ok_oot|]. cbn [parse_core_loop].
  apply bind_oot; [|intros; apply IH]. unfold parse_core_file. apply bind_oot.
  - destruct (cf_defaults f); [apply defaults_oot|apply ok_oot].
  - intros dv _. apply bind_oot; [|intros; apply ok_oot]. destruct (cf_series f); [|apply ok_oot].
    apply bind_oot; [apply train_series_oot|]. intros; apply add_series_oot.
Qed.

(* ---- the whole import ---- *)
Lemma import_parts fs dv rs : parse_core_data fs = Ok (dv, rs) ->
  exists tss, Forall2 series_of (all_series fs) tss /\ rs = map file_up tss /\ NoDup (map fst rs) /\
    NoDup (map key_of (all_series fs)) /\ readable_files fs /\
    match rev (all_defaults fs) with [] => dv = no_defaults | d :: _ => defaults_read d dv end.
Proof.
  intros H. apply core_loop_ok in H. destruct H as ((tss & F & E) & N & RD & D). cbn [app] in E. subst rs.
  specialize (N (NoDup_nil _)). exists tss. split; [exact F|]. split; [reflexivity|]. split; [exact N|].
  assert (K : map fst (map file_up tss) = map key_of (all_series fs)).
  { rewrite map_map. clear -F. induction F as [|x ts xs l Hx _ IH]; [reflexivity|]. cbn [map]. rewrite IH.
    unfold file_up at 1. cbn [fst]. rewrite (series_key_of _ _ Hx). reflexivity. }
  rewrite K in N. split; [exact N|]. split; [|exact D]. split; [|split; [exact RD|exact N]].
  intros xs x Hx Hv. apply In_nth_error in Hx. destruct Hx as (i & Hx). destruct (Forall2_nth _ _ _ F) as (F1 & _).
  destruct (F1 i xs Hx) as (ts & _ & (_ & _ & P)). apply variants_ok in P. destruct P as (P & _). auto.
Qed.
Lemma import_iff fs : (exists r, parse_core_data fs = Ok r) <-> readable_files fs.
Proof.
  split.
  - intros ((dv & rs) & H). apply import_parts in H. destruct H as (tss & _ & _ & _ & _ & R & _). exact R.
  - intros (RV & RD & ND). apply core_loop_reads; auto.
Qed.
Lemma nodup_fst {A B} (l : list (A * B)) k a b : NoDup (map fst l) -> In (k, a) l -> In (k, b) l -> a = b.
Proof.
  induction l as [|[k' c] l IH]; intros N Ha Hb; [contradiction|]. cbn [map fst] in N. inversion N; subst.
  assert (Q : forall x, In (k', x) l -> False).
  { intros x Hx. apply H1. change k' with (fst (k', x)). apply in_map. exact Hx. }
  destruct Ha as [Ha|Ha], Hb as [Hb|Hb].
  - congruence.
  - injection Ha as -> ->. exfalso. eauto.
  - injection Hb as -> ->. exfalso. eauto.
  - auto.
Qed.
Lemma lookup_key fs dv rs : parse_core_data fs = Ok (dv, rs) -> forall s o id,
  (forall tv, get_traction_vehicle rs (c_string s) (c_string o) id = Some tv ->
     exists xs x, In xs (all_series fs) /\ key_of xs = series_key s o /\ variant_for xs id x /\ describes x tv) /\
  (forall xs x, In xs (all_series fs) -> key_of xs = series_key s o -> In x (xs_variants xs) -> usable x -> numbered x id ->
     exists tv, get_traction_vehicle rs (c_string s) (c_string o) id = Some tv).
Proof.
  intros H s o id. apply import_parts in H. destruct H as (tss & F & -> & N & _ & _).
  unfold get_traction_vehicle, c_string, vw_data. cbn [vw_text vw_beyond]. rewrite !app_nil_r.
  pose proof (find_series_spec (s ++ "-"%char :: o)%list (map file_up tss)) as FS.
  pose proof (Forall2_nth _ _ _ F) as (F1 & F2).
  split.
  - intros tv. destruct (find_series _ _) as [ts|]; [|discriminate]. intros FV.
    apply in_map_iff in FS. destruct FS as (ts' & Ets & Hts). unfold file_up in Ets. injection Ets as Ek ->.
    apply In_nth_error in Hts. destruct Hts as (i & Hts). destruct (F2 i ts Hts) as (xs & Hxs & S).
    destruct S as (S1 & S2 & S3). pose proof (variants_ok _ _ _ S3) as (_ & _ & V & _).
    destruct (V id tv eq_refl FV) as (j & x & A & B & C & D & E). exists xs, x.
    split; [exact (nth_error_In _ _ Hxs)|]. split.
    + rewrite <- (series_key_of xs ts) by (repeat split; assumption). exact Ek.
    + split; [|exact D]. exists j. auto.
  - intros xs x Hxs Ek Hx U NB. apply In_nth_error in Hxs. destruct Hxs as (i & Hxs).
    destruct (F1 i xs Hxs) as (ts & Hts & S).
    assert (I : In (get_key ts, ts) (map file_up tss)).
    { change (get_key ts, ts) with (file_up ts). apply in_map. exact (nth_error_In _ _ Hts). }
    rewrite (series_key_of _ _ S), Ek in I. change (s ++ "-"%char :: o)%list with (series_key s o) in *.
    destruct (find_series (series_key s o) (map file_up tss)) as [ts'|].
    + rewrite (nodup_fst _ _ _ _ N FS I). destruct S as (_ & _ & S3). pose proof (variants_ok _ _ _ S3) as (_ & _ & _ & V).
      apply (V id x Hx U NB).
    + exfalso. apply FS. change (series_key s o) with (fst (series_key s o, ts)). apply in_map. exact I.
Qed.
Lemma dash_split a b c d : ~ has_dash b -> ~ has_dash d -> series_key a b = series_key c d -> a = c /\ b = d.
Proof.
  unfold series_key, has_dash. intros Nb Nd. revert c. induction a as [|x a IH]; intros c E; destruct c as [|y c]; cbn [app] in E.
  - injection E as E. auto.
  - exfalso. injection E as Ey E. apply Nb. rewrite E. apply in_or_app. right. left. reflexivity.
  - exfalso. injection E as Ey E. apply Nd. rewrite <- E. apply in_or_app. right. left. reflexivity.
  - injection E as -> E. destruct (IH c E) as (-> & ->). auto.
Qed.

(* ---- trains ---- *)
Lemma unit_found fs dv rs u id : parse_core_data fs = Ok (dv, rs) -> parse_int 0 U32_MAX (xu_variant u) = Ok id ->
  (forall tv, get_traction_vehicle rs (c_string (xu_series u)) (c_string (xu_owner u)) (Z.to_N id) = Some tv ->
     exists x, unit_is fs u x /\ describes x tv) /\
  (forall x, unit_is fs u x -> exists tv, get_traction_vehicle rs (c_string (xu_series u)) (c_string (xu_owner u)) (Z.to_N id) = Some tv).
Proof.
  intros H Hid. apply parse_unsigned in Hid. destruct Hid as (NU & LE). unfold U32_MAX in LE.
  assert (P : (0 <= id)%Z).
  { pose proof (proj1 (numeral_iff _ _) NU) as (_ & D & <-). apply digits_val_nonneg. exact D. }
  destruct (lookup_key fs dv rs H (xu_series u) (xu_owner u) (Z.to_N id)) as (L1 & L2). split.
  - intros tv G. destruct (L1 tv G) as (xs & x & A & B & C & D). exists x. split; [|exact D].
    exists xs, (Z.to_N id). rewrite Z2N.id by exact P. split; [exact A|]. split; [exact B|]. split; [exact NU|]. split; [lia|exact C].
  - intros x (xs & id' & A & B & NU' & _ & (i & V1 & V2 & V3 & _)).
    assert (E : id' = Z.to_N id).
    { pose proof (proj1 (numeral_iff _ _) NU) as (_ & _ & K1). pose proof (proj1 (numeral_iff _ _) NU') as (_ & _ & K2). lia. }
    subst id'. exact (L2 xs x A B (nth_error_In _ _ V1) V3 V2).
Qed.
Lemma numbered_unit_ok u : numbered_unit u <-> exists id, parse_int 0 U32_MAX (xu_variant u) = Ok id.
Proof.
  unfold numbered_unit. split.
  - intros (id & N & L). exists (Z.of_N id). apply parse_unsigned. split; [exact N|unfold U32_MAX; lia].
  - intros (id & H). apply parse_unsigned in H. destruct H as (N & L). unfold U32_MAX in L.
    pose proof (proj1 (numeral_iff _ _) N) as (_ & D & V). pose proof (digits_val_nonneg _ D).
    exists (Z.to_N id). rewrite Z2N.id by lia. split; [exact N|lia].
Qed.
Lemma units_ok fs dv rs : parse_core_data fs = Ok (dv, rs) -> forall us r, parse_units rs us = Ok r ->
  match r with
  | Some tvs => exists sheets, Forall2 (unit_is fs) us sheets /\ Forall2 describes sheets tvs
  | None => exists a u b sheets, us = (a ++ u :: b)%list /\ Forall2 (unit_is fs) a sheets /\ numbered_unit u /\
              forall x, ~ unit_is fs u x
  end.
Proof.
  intros H. induction us as [|u us IH]; intros r P; cbn [parse_units] in P.
  - injection P as <-. exists []. split; constructor.
  - apply bind_Ok in P. destruct P as (id & Hid & P). destruct (unit_found fs dv rs u id H Hid) as (U1 & U2).
    destruct (get_traction_vehicle _ _ _ _) as [tv|].
    + apply bind_Ok in P. destruct P as (r' & Hr & P). injection P as <-. specialize (IH _ Hr).
      destruct (U1 tv eq_refl) as (x & Ux & Dx). destruct r' as [tvs|].
      * destruct IH as (sheets & A & B). exists (x :: sheets). split; constructor; assumption.
      * destruct IH as (a & u' & b & sheets & -> & A & B & C). exists (u :: a), u', b, (x :: sheets).
        split; [reflexivity|]. split; [constructor; assumption|]. auto.
    + injection P as <-. exists [], u, us, []. split; [reflexivity|]. split; [constructor|]. split.
      * apply numbered_unit_ok. eauto.
      * intros x Ux. destruct (U2 x Ux). discriminate.
Qed.
Lemma units_oot rs us : ok_or_throw (parse_units rs us).
Proof.
  induction us as [|u us IH]; [apply ok_oot|]. cbn [parse_units]. apply bind_oot.
  - unfold parse_int. destruct (parse_int_impl 0 U32_MAX (xu_variant u)) as [[[] p] v]; destruct p; cbn [sassert bind];
      solve [apply ok_oot|right; reflexivity].
  - intros id _. destruct (get_traction_vehicle _ _ _ _); [|apply ok_oot]. apply bind_oot; [exact IH|]. intros; apply ok_oot.
Qed.
Lemma units_all fs dv rs us sheets : parse_core_data fs = Ok (dv, rs) -> Forall2 (unit_is fs) us sheets ->
  exists tvs, parse_units rs us = Ok (Some tvs).
Proof.
  intros H. induction 1 as [|u x us sheets U _ (tvs & IH)]; [exists []; reflexivity|]. cbn [parse_units].
  assert (N : numbered_unit u) by (destruct U as (xs & id & _ & _ & A & B & _); exists id; auto).
  apply numbered_unit_ok in N. destruct N as (id & Hid). rewrite Hid. cbn [bind].
  destruct (proj2 (unit_found fs dv rs u id H Hid) x U) as (tv & ->). rewrite IH. cbn [bind]. eauto.
Qed.
Lemma units_none fs dv rs a u b sheets : parse_core_data fs = Ok (dv, rs) -> Forall2 (unit_is fs) a sheets ->
  numbered_unit u -> (forall x, ~ unit_is fs u x) -> parse_units rs (a ++ u :: b) = Ok None.
Proof.
  intros H F N X. induction F as [|u' x us sheets U _ IH]; cbn [app parse_units].
  - apply numbered_unit_ok in N. destruct N as (id & Hid). rewrite Hid. cbn [bind].
    destruct (unit_found fs dv rs u id H Hid) as (U1 & _).
    destruct (get_traction_vehicle _ _ _ _) as [tv|]; [|reflexivity]. destruct (U1 tv eq_refl) as (x & Ux & _).
    exfalso. exact (X x Ux).
  - assert (N' : numbered_unit u') by (destruct U as (xs & id & _ & _ & A & B & _); exists id; auto).
    apply numbered_unit_ok in N'. destruct N' as (id & Hid). rewrite Hid. cbn [bind].
    destruct (proj2 (unit_found fs dv rs u' id H Hid) x U) as (tv & ->). rewrite IH. reflexivity.
Qed.

Lemma tractive_total sheets tvs v : Forall2 describes sheets tvs -> forall acc,
  (forall F, tractive_sum acc (map tv_vehicle tvs) v = Ok F ->
     exists Fs, Forall2 (fun s F => pulls (table s) ((36 # 10) * v) F) sheets Fs /\ F == acc + total Fs) /\
  (forall Fs, Forall2 (fun s F => pulls (table s) ((36 # 10) * v) F) sheets Fs ->
     exists F, tractive_sum acc (map tv_vehicle tvs) v = Ok F /\ F == acc + total Fs).
Proof.
  induction 1 as [|s tv sheets tvs D _ IH]; intros acc; cbn [map tractive_sum].
  - split.
    + intros F [= <-]. exists []. split; [constructor|]. cbn [total fold_right]. ring.
    + intros Fs X. inversion X; subst. exists acc. split; [reflexivity|]. cbn [total fold_right]. ring.
  - destruct D as (_ & _ & _ & _ & D). destruct (D v) as (D1 & D2 & _). split.
    + intros F X. apply bind_Ok in X. destruct X as (f & Hf & X). apply IH in X. destruct X as (Fs & A & B).
      exists (f :: Fs). split; [constructor; [apply D1; exact Hf|exact A]|]. cbn [total fold_right] in *. rewrite B. unfold total. ring.
    + intros Fs X. inversion X as [|s' F' sh Fs' PF XF]; subst. destruct (D2 F' PF) as (f & Hf & Ef). rewrite Hf. cbn [bind].
      destruct (proj2 (IH (acc + f)) Fs' XF) as (F & E & EF). exists F. split; [exact E|]. rewrite EF, Ef. cbn [total fold_right]. unfold total. ring.
Qed.
Lemma resistive_total sheets tvs v : Forall2 describes sheets tvs -> forall acc,
  exists Rs, Forall2 (fun s R => resists s ((36 # 10) * v) R) sheets Rs /\ resistive_sum acc (map tv_vehicle tvs) v == acc + total Rs.
Proof.
  induction 1 as [|s tv sheets tvs D _ IH]; intros acc; cbn [map resistive_sum].
  - exists []. split; [constructor|]. cbn [total fold_right]. ring.
  - destruct D as (_ & _ & _ & _ & D). destruct (D v) as (_ & _ & D3).
    destruct (IH (acc + polynomial (v_resistance (tv_vehicle tv)) v)) as (Rs & A & B).
    exists (polynomial (v_resistance (tv_vehicle tv)) v :: Rs). split; [constructor; assumption|]. rewrite B. cbn [total fold_right]. unfold total. ring.
Qed.
