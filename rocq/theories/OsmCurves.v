(* The curves of the exported map. *)
From Coq Require Import Permutation String Lra.
From Verif Require Import Base LayoutModel LayoutProofs GeoModel GeoSpec GeoProofs OsmModel OsmSpec OsmNodes OsmWays OsmProofs.
Local Open Scope R_scope.

Lemma to_rad_degree x : to_rad x = x * degree.
Proof. unfold to_rad, PI_, degree. field. Qed.

Notation at_deg g := (at_degrees degree (lon g) (lat g)).

Lemma cart_x g : cx (to_cartesian g) = EARTH_RADIUS * vx (at_deg g).
Proof. unfold to_cartesian, at_degrees, sphere. cbn [cx vx]. rewrite !to_rad_degree. ring. Qed.
Lemma cart_y g : cy (to_cartesian g) = EARTH_RADIUS * vy (at_deg g).
Proof. unfold to_cartesian, at_degrees, sphere. cbn [cy vy]. rewrite !to_rad_degree. ring. Qed.
Lemma cart_z g : cz (to_cartesian g) = EARTH_RADIUS * vz (at_deg g).
Proof. unfold to_cartesian, at_degrees, sphere. cbn [cz vz]. rewrite !to_rad_degree. ring. Qed.

Lemma bezier_scale k a b c d t : bezier (k * a) (k * b) (k * c) (k * d) t = k * bezier a b c d t.
Proof. unfold bezier. ring. Qed.
Lemma casteljau_x a b c d t : vx (casteljau a b c d t) = bezier (vx a) (vx b) (vx c) (vx d) t.
Proof. unfold casteljau, mix, plus, times, bezier. cbn [vx]. ring. Qed.
Lemma casteljau_y a b c d t : vy (casteljau a b c d t) = bezier (vy a) (vy b) (vy c) (vy d) t.
Proof. unfold casteljau, mix, plus, times, bezier. cbn [vy]. ring. Qed.
Lemma casteljau_z a b c d t : vz (casteljau a b c d t) = bezier (vz a) (vz b) (vz c) (vz d) t.
Proof. unfold casteljau, mix, plus, times, bezier. cbn [vz]. ring. Qed.

(* the weights of the four points *)
Lemma bezier_weights t : 0 < t < 1 -> exists w1 w2 w3 w4, 0 < w1 /\ 0 < w2 /\ 0 < w3 /\ 0 < w4 /\ w1 + w2 + w3 + w4 = 1 /\
  forall a b c d, bezier a b c d t = w1 * a + w2 * b + w3 * c + w4 * d.
Proof.
  intros T. exists ((1 - t) ^ 3), (3 * (1 - t) ^ 2 * t), (3 * (1 - t) ^ 1 * t ^ 2), (t ^ 3).
  assert (0 < (1 - t) ^ 3) by (apply pow_lt; lra). assert (0 < (1 - t) ^ 2) by (apply pow_lt; lra).
  assert (0 < t ^ 3) by (apply pow_lt; lra). assert (0 < t ^ 2) by (apply pow_lt; lra).
  assert (0 < 3 * (1 - t) ^ 2 * t) by (apply Rmult_lt_0_compat; lra).
  assert (0 < 3 * (1 - t) ^ 1 * t ^ 2) by (apply Rmult_lt_0_compat; lra).
  repeat split; try assumption; try ring. 
Qed.
Lemma weighted_between w1 w2 w3 w4 a b c d lo hi : 0 < w1 -> 0 < w2 -> 0 < w3 -> 0 < w4 -> w1 + w2 + w3 + w4 = 1 ->
  lo <= a <= hi -> lo <= b <= hi -> lo <= c <= hi -> lo <= d <= hi -> lo <= w1 * a + w2 * b + w3 * c + w4 * d <= hi.
Proof. intros. assert (w4 = 1 - w1 - w2 - w3) by lra. subst w4. split; nra. Qed.

Lemma bezier_shown p a b q t : 0 < t < 1 ->
  shown_at degree (casteljau (at_deg p) (at_deg a) (at_deg b) (at_deg q) t) (get_bezier_curve p a b q t).
Proof.
  intros T. unfold get_bezier_curve. cbv zeta. rewrite !cart_x, !cart_y, !cart_z, !bezier_scale.
  rewrite <- casteljau_x, <- casteljau_y, <- casteljau_z. set (v := casteljau _ _ _ _ t).
  assert (R0 : 0 < EARTH_RADIUS) by (unfold EARTH_RADIUS; lra).
  unfold shown_at, to_gps. cbn [cx cy cz lon lat]. rewrite <- !to_rad_degree, !rad_deg.
  replace (EARTH_RADIUS * vz v / EARTH_RADIUS) with (vz v) by (field; lra).
  assert (Z : -1 <= vz v <= 1).
  { unfold v. rewrite casteljau_z. destruct (bezier_weights t T) as (w1 & w2 & w3 & w4 & W1 & W2 & W3 & W4 & S & E). rewrite E.
    apply weighted_between; try assumption; unfold at_degrees, sphere; cbn [vz]; apply SIN_bound. }
  split; [apply sin_asin, Z|]. split; [pose proof (asin_bound (vz v)); lra|].
  destruct (atan2_spec (EARTH_RADIUS * vy v) (EARTH_RADIUS * vx v)) as (C & S & B). split; [exact B|].
  set (s := sqrt _) in *. exists (s / EARTH_RADIUS). split; [|split].
  - apply Rmult_le_pos; [apply sqrt_pos|]. left. apply Rinv_0_lt_compat, R0.
  - apply (Rmult_eq_reg_l EARTH_RADIUS); [|lra]. rewrite <- C at 2. field. lra.
  - apply (Rmult_eq_reg_l EARTH_RADIUS); [|lra]. rewrite <- S at 2. field. lra.
Qed.

(* ---- the box ---- *)
Lemma angle_between w1 w2 w3 w4 l1 l2 l3 l4 lo hi r t :
  0 < w1 -> 0 < w2 -> 0 < w3 -> 0 < w4 -> - PI < lo -> lo <= hi -> hi < PI -> hi - lo < PI ->
  lo <= l1 <= hi -> lo <= l2 <= hi -> lo <= l3 <= hi -> lo <= l4 <= hi -> - PI < t <= PI -> 0 <= r ->
  r * cos t = w1 * cos l1 + w2 * cos l2 + w3 * cos l3 + w4 * cos l4 ->
  r * sin t = w1 * sin l1 + w2 * sin l2 + w3 * sin l3 + w4 * sin l4 -> lo <= t <= hi.
Proof.
  intros W1 W2 W3 W4 L0 L H0 Wd L1 L2 L3 L4 T R0 C S. pose proof PI_RGT_0 as P.
  (* seen from the middle of the box *)
  set (mid := (lo + hi) / 2). set (h := (hi - lo) / 2).
  assert (Hh : 0 <= h < PI / 2) by (unfold h; lra).
  assert (El : lo = mid - h) by (unfold mid, h; lra). assert (Eh : hi = mid + h) by (unfold mid, h; lra).
  assert (Cm : r * cos (t - mid) = w1 * cos (l1 - mid) + w2 * cos (l2 - mid) + w3 * cos (l3 - mid) + w4 * cos (l4 - mid)).
  { rewrite !cos_minus. replace (r * (cos t * cos mid + sin t * sin mid)) with (r * cos t * cos mid + r * sin t * sin mid) by ring.
    rewrite C, S. ring. }
  assert (Pc : forall l, lo <= l <= hi -> 0 < cos (l - mid)) by (intros l Hl; apply cos_gt_0; lra).
  assert (Cp : 0 < r * cos (t - mid)).
  { rewrite Cm. repeat apply Rplus_lt_0_compat; apply Rmult_lt_0_compat; auto. }
  assert (Rp : 0 < r). { destruct (Req_dec r 0) as [E|E]; [rewrite E in Cp; lra|lra]. }
  assert (Ct : 0 < cos (t - mid)). { apply (Rmult_lt_reg_l r); lra. }
  assert (Slo : 0 <= r * sin (t - lo)).
  { replace (r * sin (t - lo)) with (w1 * sin (l1 - lo) + w2 * sin (l2 - lo) + w3 * sin (l3 - lo) + w4 * sin (l4 - lo)).
    - repeat apply Rplus_le_le_0_compat; apply Rmult_le_pos; try lra; apply sin_ge_0; lra.
    - rewrite !sin_minus. replace (r * (sin t * cos lo - cos t * sin lo)) with (r * sin t * cos lo - r * cos t * sin lo) by ring.
      rewrite C, S. ring. }
  assert (Shi : 0 <= r * sin (hi - t)).
  { replace (r * sin (hi - t)) with (w1 * sin (hi - l1) + w2 * sin (hi - l2) + w3 * sin (hi - l3) + w4 * sin (hi - l4)).
    - repeat apply Rplus_le_le_0_compat; apply Rmult_le_pos; try lra; apply sin_ge_0; lra.
    - rewrite !sin_minus. replace (r * (sin hi * cos t - cos hi * sin t)) with (r * cos t * sin hi - r * sin t * cos hi) by ring.
      rewrite C, S. ring. }
  assert (Sl : 0 <= sin (t - lo)) by (apply (Rmult_le_reg_l r); lra).
  assert (Sh : 0 <= sin (hi - t)) by (apply (Rmult_le_reg_l r); lra).
  (* an angle u with a positive cosine and sin (u + h), sin (h - u) not negative is in [-h, h] *)
  assert (Near : forall u, - PI < u < PI -> 0 < cos u -> 0 <= sin (u + h) -> 0 <= sin (h - u) -> - h <= u <= h).
  { intros u U Cu S1 S2. assert (Ub : - (PI / 2) < u < PI / 2).
    { split.
      - destruct (Rlt_le_dec (- (PI / 2)) u) as [|X]; [assumption|exfalso]. assert (cos u <= 0); [|lra].
        rewrite <- cos_neg. apply cos_le_0; lra.
      - destruct (Rlt_le_dec u (PI / 2)) as [|X]; [assumption|exfalso]. assert (cos u <= 0); [|lra]. apply cos_le_0; lra. }
    split.
    - destruct (Rle_lt_dec (- h) u) as [|X]; [assumption|exfalso]. assert (sin (u + h) < 0) by (apply sin_lt_0_var; lra). lra.
    - destruct (Rle_lt_dec u h) as [|X]; [assumption|exfalso]. assert (sin (h - u) < 0) by (apply sin_lt_0_var; lra). lra. }
  assert (Per : forall x, sin (x + 2 * PI) = sin x /\ cos (x + 2 * PI) = cos x).
  { intros x. rewrite sin_plus, cos_plus, sin_2PI, cos_2PI. split; ring. }
  destruct (Rlt_le_dec (t - mid) PI) as [X|X].
  - destruct (Rlt_le_dec (- PI) (t - mid)) as [Y|Y].
    + destruct (Near (t - mid)) as (A & B); [lra|exact Ct| | |lra].
      * replace (t - mid + h) with (t - lo) by lra. exact Sl.
      * replace (h - (t - mid)) with (hi - t) by lra. exact Sh.
    + exfalso. destruct (Req_dec (t - mid) (- PI)) as [E|E].
      * rewrite E, cos_neg, cos_PI in Ct. lra.
      * destruct (Near (t - mid + 2 * PI)) as (A & B).
        -- unfold mid in *. lra.
        -- rewrite (proj2 (Per _)). exact Ct.
        -- replace (t - mid + 2 * PI + h) with (t - lo + 2 * PI) by lra. rewrite (proj1 (Per _)). exact Sl.
        -- rewrite <- (proj1 (Per _)). replace (h - (t - mid + 2 * PI) + 2 * PI) with (hi - t) by lra. exact Sh.
        -- lra.
  - exfalso. destruct (Req_dec (t - mid) PI) as [E|E].
    + rewrite E, cos_PI in Ct. lra.
    + destruct (Near (t - mid - 2 * PI)) as (A & B).
      * unfold mid in *. lra.
      * rewrite <- (proj2 (Per _)). replace (t - mid - 2 * PI + 2 * PI) with (t - mid) by ring. exact Ct.
      * rewrite <- (proj1 (Per _)). replace (t - mid - 2 * PI + h + 2 * PI) with (t - lo) by lra. exact Sl.
      * replace (h - (t - mid - 2 * PI)) with (hi - t + 2 * PI) by lra. rewrite (proj1 (Per _)). exact Sh.
      * lra.
Qed.

Lemma shown_box p a b q t x w e s n : 0 < t < 1 -> -180 <= w -> w <= e -> e <= 180 -> e - w <= 180 -> -90 <= s -> n <= 90 ->
  in_box w e s n p -> in_box w e s n a -> in_box w e s n b -> in_box w e s n q ->
  shown_at degree (casteljau (at_deg p) (at_deg a) (at_deg b) (at_deg q) t) x -> in_box w e s n x.
Proof.
  intros T W We E Wd Sb Nb [Xp Yp] [Xa Ya] [Xb Yb] [Xq Yq] (Sz & Bz & Bt & r & R0 & Cx & Sy).
  pose proof PI_bounds as PB. assert (D0 : 0 < degree) by (unfold degree; lra). assert (D90 : 90 * degree < PI / 2) by (unfold degree; lra).
  assert (D180 : 180 * degree < PI) by (unfold degree; lra).
  destruct (bezier_weights t T) as (w1 & w2 & w3 & w4 & W1 & W2 & W3 & W4 & Sum & Eq).
  rewrite casteljau_z, Eq in Sz. rewrite casteljau_x, Eq in Cx. rewrite casteljau_y, Eq in Sy.
  unfold at_degrees, sphere in Sz, Cx, Sy. cbn [vx vy vz] in Sz, Cx, Sy.
  assert (Lat : forall g, s <= g <= n -> - (PI / 2) <= g * degree <= PI / 2) by (intros g Hg; nra).
  assert (Mono : forall g, s <= g <= n -> sin (s * degree) <= sin (g * degree) <= sin (n * degree)).
  { intros g Hg. pose proof (Lat g Hg). pose proof (Lat s ltac:(lra)). pose proof (Lat n ltac:(lra)). split; apply sin_incr_1; nra. }
  split.
  - assert (G : w * degree <= lon x * degree <= e * degree).
    { apply (angle_between (w1 * cos (lat p * degree)) (w2 * cos (lat a * degree)) (w3 * cos (lat b * degree)) (w4 * cos (lat q * degree))
        (lon p * degree) (lon a * degree) (lon b * degree) (lon q * degree) _ _ r); try nra; try assumption.
      1-4: apply Rmult_lt_0_compat; [assumption|]; apply cos_gt_0; nra. }
    split; nra.
  - assert (Z : sin (s * degree) <= sin (lat x * degree) <= sin (n * degree)) by (rewrite Sz; apply weighted_between; auto).
    assert (Ls : - (PI / 2) <= s * degree <= PI / 2) by (apply Lat; lra). assert (Ln : - (PI / 2) <= n * degree <= PI / 2) by (apply Lat; lra).
    assert (s * degree <= lat x * degree) by (apply sin_incr_0; lra).
    assert (lat x * degree <= n * degree) by (apply sin_incr_0; lra). split; nra.
Qed.

(* ---- control points ---- *)
Lemma units_pos p q : 0 <= units p q.
Proof.
  unfold units. cbv zeta. set (x := sin _ * _ + _). pose proof (acos_bound x) as B. unfold EARTH_RADIUS, PI_. lra.
Qed.
Lemma steps_pos g u : 0 <= u -> 0 <= steps g u.
Proof. intros U. unfold steps. repeat (destruct (between _ _ _); [lra|]). lra. Qed.

Lemma auxiliary_ahead p to q : ahead_by_hundredths q p (auxiliary p to q).
Proof.
  pose proof (units_pos p to) as U. unfold ahead_by_hundredths, auxiliary. cbv zeta. unfold equal_. rewrite Rminus_0_r.
  destruct (Rlt_dec (Rabs (lon p - lon q)) (1 / 100)) as [L|L]; split; intros H; try lra.
  - unfold north_or_south. destruct (Rlt_dec 0 (lat p - lat q)); cbn [lon lat]; repeat split; intros; lra.
  - set (g := (lat p - lat q) / (lon p - lon q)). pose proof (steps_pos g _ U) as V. set (u := steps g (units p to)) in *.
    assert (N0 : lon p - lon q <> 0) by (intros E; rewrite E, Rabs_R0 in H; lra).
    destruct (Rlt_dec (lon p - lon q) 0) as [Ng|Ng]; [|destruct (Rlt_dec 0 (lon p - lon q)) as [Ps|Ps]; [|lra]].
    + exists (u / - (lon p - lon q)). cbn [lon lat]. split; [apply Rmult_le_pos; [exact V|left; apply Rinv_0_lt_compat; lra]|].
      split; unfold g; field; lra.
    + exists (u / (lon p - lon q)). cbn [lon lat]. split; [apply Rmult_le_pos; [exact V|left; apply Rinv_0_lt_compat; lra]|].
      split; unfold g; field; lra.
Qed.

Lemma last_other_spec ns other :
  match last_other ns other with
  | Some x => exists l1 l2, ns = l1 ++ Some x :: l2 /\ x <> other /\ (forall y, In (Some y) l2 -> y = other)
  | None => forall y, In (Some y) ns -> y = other
  end.
Proof.
  induction ns as [|o ns IH] using rev_ind; [intros y []|].
  unfold last_other in *. rewrite fold_left_app. cbn [fold_left].
  set (r := fold_left _ ns None) in *. destruct o as [y|]; [destruct (N.eqb_spec y other) as [->|Ny]|].
  - destruct r as [x|].
    + destruct IH as (l1 & l2 & -> & Nx & H). exists l1, (l2 ++ [Some other]). rewrite <- app_assoc. split; [reflexivity|].
      split; [exact Nx|]. intros y Hy. apply in_app_iff in Hy. destruct Hy as [Hy|[E|[]]]; [auto|]. congruence.
    + intros y Hy. apply in_app_iff in Hy. destruct Hy as [Hy|[E|[]]]; [auto|]. congruence.
  - exists ns, []. split; [reflexivity|]. split; [exact Ny|intros z []].
  - destruct r as [x|].
    + destruct IH as (l1 & l2 & -> & Nx & H). exists l1, (l2 ++ [None]). rewrite <- app_assoc. split; [reflexivity|].
      split; [exact Nx|]. intros y Hy. apply in_app_iff in Hy. destruct Hy as [Hy|[E|[]]]; [auto|discriminate E].
    + intros y Hy. apply in_app_iff in Hy. destruct Hy as [Hy|[E|[]]]; [auto|discriminate E].
Qed.

Lemma auxiliary_control iss e to p c : placed iss e p -> get_auxiliary_point iss e to = Ok c ->
  control ahead_by_hundredths iss e to p c.
Proof.
  intros Pe H. unfold get_auxiliary_point in H. apply bind_Ok in H. destruct H as (el & El & H). apply at_N_Ok in El.
  apply bind_Ok in H. destruct H as (p1 & P1 & H). apply at_N_Ok in P1. unfold placed in Pe. assert (p1 = p) by congruence. subst p1.
  apply bind_Ok in H. destruct H as (p2 & P2 & H). pose proof (last_other_spec (neighbours el) to) as Lo.
  destruct (last_other (neighbours el) to) as [x|].
  - apply bind_Ok in H. destruct H as (q & Q & H). apply at_N_Ok in Q. injection H as <-. right. exists x, q.
    destruct Lo as (l1 & l2 & E & Nx & Hx). split; [exists el, l1, l2; auto|]. split; [exact Q|apply auxiliary_ahead].
  - injection H as <-. left. split; [|reflexivity]. intros e' (el' & l1 & l2 & El' & E & Ne & _).
    assert (el' = el) by congruence. subst el'. apply Ne. apply Lo. rewrite E. apply in_app_iff. right. left. reflexivity.
Qed.

Lemma Ok_eq {A} (a b : A) : Ok a = Ok b -> a = b.
Proof. intros H. injection H. auto. Qed.
Lemma interpolation_drawn iss a b i : compute_interpolation iss a b = Ok i ->
  exists p c d q, placed iss a p /\ placed iss b q /\ control ahead_by_hundredths iss a b p c /\
    control ahead_by_hundredths iss b a q d /\ drawn degree p c d q (points i).
Proof.
  intros H. unfold compute_interpolation in H. apply bind_Ok in H. destruct H as (c & Hc & H).
  apply bind_Ok in H. destruct H as (d & Hd & H). apply bind_Ok in H. destruct H as (p & P & H). apply at_N_Ok in P.
  apply bind_Ok in H. destruct H as (q & Q & H). apply at_N_Ok in Q. apply Ok_eq in H. subst i. exists p, c, d, q.
  split; [exact P|]. split; [exact Q|]. split; [apply (auxiliary_control iss a b p c P Hc)|]. split; [apply (auxiliary_control iss b a q d Q Hd)|].
  unfold drawn. cbv zeta. cbn [points]. unfold counters. rewrite map_map.
  apply Forall2_map_right.
  assert (H : forall l, (forall k, In k l -> (k < 50)%nat) -> Forall2 (fun k k' => k = k' /\ (k < 50)%nat) l l).
  { induction l as [|k l IH]; intros B; constructor; [split; [reflexivity|apply B; left; reflexivity]|]. apply IH. intros j Hj. apply B. right. exact Hj. }
  eapply Forall2_weaken; [|apply H; intros k Hk; apply in_seq in Hk; lia].
  cbv beta. intros k k' _ (<- & L). replace (INR (2 * k + 1) / 100) with ((2 * INR k + 1) / 100).
  - apply bezier_shown. assert (INR k <= INR 49) by (apply le_INR; lia). replace (INR 49) with 49 in * by (cbn; ring).
    pose proof (pos_INR k). lra.
  - rewrite plus_INR, mult_INR. cbn [INR]. reflexivity.
Qed.

Lemma drawn_box p c d q pts w e s n : drawn degree p c d q pts ->
  -180 <= w -> w <= e -> e <= 180 -> e - w <= 180 -> -90 <= s -> n <= 90 ->
  in_box w e s n p -> in_box w e s n c -> in_box w e s n d -> in_box w e s n q -> Forall (in_box w e s n) pts.
Proof.
  intros H W We E Wd Sb Nb Bp Bc Bd Bq. unfold drawn in H. cbv zeta in H.
  assert (K : forall k, In k (seq 0 50) -> 0 < (2 * INR k + 1) / 100 < 1).
  { intros k Hk. apply in_seq in Hk. assert (INR k <= INR 49) by (apply le_INR; lia). replace (INR 49) with 49 in * by (cbn; ring).
    pose proof (pos_INR k). lra. }
  revert H K. generalize (seq 0 50). intros l H. induction H as [|k x l pts Hx H IH]; intros K; constructor.
  - apply (shown_box p c d q _ x w e s n (K k (or_introl eq_refl))); assumption.
  - apply IH. intros j Hj. apply K. right. exact Hj.
Qed.

(* ---- where a curve is in the document ---- *)
Lemma curve_found is i : (forall j, In j is -> List.length (points j) = 50%nat) -> In i is -> forall base, exists k,
  (forall h p, nth_error (points i) h = Some p -> In ((k + h)%nat, p) (with_ids base (flat_map points is))) /\
  incl (detour k (first_elem i) (second_elem i)) (detours base (map (fun i => (first_elem i, second_elem i)) is)).
Proof.
  induction is as [|j is IH]; intros L Hi base; [destruct Hi|].
  cbn [flat_map map detours fst snd]. destruct Hi as [->|Hi].
  - exists base. split.
    + intros h p Hp. rewrite with_ids_app. apply in_app_iff. left. apply with_ids_In. split; [lia|].
      replace (base + h - base)%nat with h by lia. exact Hp.
    + apply incl_appl, incl_refl.
  - destruct (IH (fun x Hx => L x (or_intror Hx)) Hi (base + 50)%nat) as (k & K1 & K2). exists k. split.
    + intros h p Hp. rewrite with_ids_app. apply in_app_iff. right. rewrite (L j (or_introl eq_refl)). apply K1, Hp.
    + apply incl_appr, K2.
Qed.
