(* C80 - C82: places on the globe.
   C80 distances and conversion of coordinates, C81 moving and turning places,
   C82 the elements of a station on the map.
   The code takes the earth for a sphere; its degree is 3.1415 / 180 instead of
   PI / 180. *)
From Coq Require Import QArith Qreals.
From Coq Require Import Reals Lra Lia Nsatz.
From Verif Require Import Base LayoutModel LayoutProofs LayoutSpec LayoutStations GeoModel GeoSpec GeoProofs GeoPlaces.
From Verif Require PropsLayout.
Local Open Scope R_scope.

Definition code_degree : R := 31415 / 1800000.
Definition spot (g : point) : vec := at_degrees code_degree (lon g) (lat g).
Definition on_map (g : point) : Prop := -90 <= lat g <= 90 /\ -180 <= lon g <= 180.
Lemma spot_unit g : spot g = unit g.
Proof.
  unfold spot, unit, at_degrees. unfold to_rad, PI_, code_degree.
  replace (lon g * (31415 / 1800000)) with (lon g * (31415 / 10000) / 180) by field.
  replace (lat g * (31415 / 1800000)) with (lat g * (31415 / 10000) / 180) by field. reflexivity.
Qed.

(* ---- C80 ---- *)
(* the distance is measured along the great circle *)
Theorem C80_great_circle :
  forall g h, exists c, angle (spot g) (spot h) c /\ distance g h = 6378137 * c.
Proof.
  intros g h. exists (distance g h / EARTH_RADIUS). rewrite !spot_unit. split; [apply distance_angle|].
  unfold EARTH_RADIUS. field.
Qed.
Print Assumptions C80_great_circle.

Theorem C80_metric :
  (forall g h, 0 <= distance g h <= 6378137 * PI) /\
  (forall g h, distance g h = distance h g) /\
  (forall g h k, distance g k <= distance g h + distance h k) /\
  (forall g h, on_map g -> on_map h -> (distance g h = 0 <-> g = h)).
Proof.
  assert (R1 : forall g h, distance g h = EARTH_RADIUS * (distance g h / EARTH_RADIUS)) by (intros; field; pose proof R_pos; lra).
  pose proof R_pos as P. split; [|split; [|split]].
  - intros g h. pose proof (distance_bound g h) as B. rewrite (R1 g h). change 6378137 with EARTH_RADIUS. split.
    + apply Rmult_le_pos; lra.
    + apply Rmult_le_compat_l; lra.
  - intros g h. rewrite (R1 g h), (R1 h g). f_equal.
    apply (angle_det (unit g) (unit h)); [apply distance_angle|]. destruct (distance_angle h g) as (B & C).
    split; [exact B|]. rewrite dot_comm. exact C.
  - intros g h k. rewrite (R1 g k), (R1 g h), (R1 h k), <- Rmult_plus_distr_l. apply Rmult_le_compat_l; [lra|].
    apply (angle_triangle (unit g) (unit h) (unit k)); apply unit_1 || apply distance_angle.
  - intros g h Mg Mh. rewrite distance_0_iff. split; [destruct Mg, Mh; apply unit_inj; assumption|intros ->; reflexivity].
Qed.
Print Assumptions C80_metric.

(* points in space *)
Theorem C80_in_space :
  forall g, cx (to_cartesian g) = 6378137 * vx (spot g) /\ cy (to_cartesian g) = 6378137 * vy (spot g) /\
            cz (to_cartesian g) = 6378137 * vz (spot g).
Proof.
  intros g. rewrite spot_unit. unfold to_cartesian, unit, sphere, EARTH_RADIUS. cbn [cx cy cz vx vy vz]. repeat split; ring.
Qed.
Print Assumptions C80_in_space.

Theorem C80_there_and_back :
  forall g, on_map g -> to_gps (to_cartesian g) = g.
Proof.
  intros g [L O]. unfold to_gps, to_cartesian. cbn [cx cy cz].
  pose proof R_pos as P. pose proof (lat_cos g L) as C.
  replace (EARTH_RADIUS * sin (to_rad (lat g)) / EARTH_RADIUS) with (sin (to_rad (lat g))) by (field; lra).
  rewrite (asin_sin _ (rad_lat _ L)), deg_rad.
  set (k := EARTH_RADIUS * cos (to_rad (lat g))). assert (K : 0 < k) by (apply Rmult_lt_0_compat; lra).
  destruct (atan2_spec (k * sin (to_rad (lon g))) (k * cos (to_rad (lon g)))) as (A & B & D).
  assert (E : sqrt (k * cos (to_rad (lon g)) * (k * cos (to_rad (lon g))) + k * sin (to_rad (lon g)) * (k * sin (to_rad (lon g)))) = k).
  { pose proof (sc (to_rad (lon g))) as S.
    replace (_ + _) with ((k * k) * (sin (to_rad (lon g)) * sin (to_rad (lon g)) + cos (to_rad (lon g)) * cos (to_rad (lon g)))) by ring.
    rewrite S, Rmult_1_r, sqrt_square by lra. reflexivity. }
  rewrite E in A, B. replace (atan2 _ _) with (to_rad (lon g)).
  - rewrite deg_rad. destruct g. reflexivity.
  - symmetry. apply angle_unique; [apply (Rmult_eq_reg_l k); [exact A|lra]|apply (Rmult_eq_reg_l k); [exact B|lra]|exact D|apply rad_lt; exact O].
Qed.
Print Assumptions C80_there_and_back.

(* with true degrees of PI / 180 the distance is at most 2 km off *)
Theorem C80_true_distance_partial :
  forall g h c, on_map g -> on_map h ->
    angle (at_degrees (PI / 180) (lon g) (lat g)) (at_degrees (PI / 180) (lon h) (lat h)) c ->
    Rabs (distance g h - 6378137 * c) <= 2000.
Proof.
  intros g h c [Lg Og] [Lh Oh] H.
  destruct (C80_great_circle g h) as (d & D & ->).
  assert (N : forall p, on_map p -> forall e, angle (spot p) (at_degrees (PI / 180) (lon p) (lat p)) e -> e <= 15 / 100000).
  { intros p [L O] e E. unfold spot, at_degrees in E. apply sphere_near in E.
    assert (F : forall x k, 0 <= k -> - k <= x <= k -> Rabs (x * code_degree - x * (PI / 180)) <= k * (1 / 1800000)).
    { intros x k K X. pose proof PI_bounds as Pb. replace (x * code_degree - x * (PI / 180)) with (- (x * (PI / 180 - code_degree))) by ring.
      rewrite Rabs_Ropp, Rabs_mult. unfold code_degree.
      apply Rmult_le_compat; try apply Rabs_pos; [apply Rabs_le; lra|]. rewrite Rabs_right; lra. }
    pose proof (F (lon p) 180 ltac:(lra) ltac:(lra)). pose proof (F (lat p) 90 ltac:(lra) ltac:(lra)). lra. }
  assert (U : forall d' p, dot (at_degrees d' (lon p) (lat p)) (at_degrees d' (lon p) (lat p)) = 1) by (intros; apply unit_sphere).
  assert (Us : forall p, dot (spot p) (spot p) = 1) by (intros; apply unit_sphere).
  set (tg := at_degrees (PI / 180) (lon g) (lat g)) in *. set (th := at_degrees (PI / 180) (lon h) (lat h)) in *.
  assert (Utg : dot tg tg = 1) by apply unit_sphere. assert (Uth : dot th th = 1) by apply unit_sphere.
  destruct (angle_exists (spot g) tg (Us g) Utg) as (eg & Eg).
  destruct (angle_exists (spot h) th (Us h) Uth) as (eh & Eh).
  pose proof (N g (conj Lg Og) eg Eg) as Bg. pose proof (N h (conj Lh Oh) eh Eh) as Bh.
  assert (Sy : forall u v e, angle u v e -> angle v u e) by (intros u v e [A B]; split; [exact A|rewrite dot_comm; exact B]).
  destruct (angle_exists (spot g) th (Us g) Uth) as (m & M).
  pose proof (angle_triangle _ _ _ _ _ _ (Us g) Utg Uth Eg H M) as T1.
  pose proof (angle_triangle _ _ _ _ _ _ Utg (Us g) Uth (Sy _ _ _ Eg) M H) as T2.
  pose proof (angle_triangle _ _ _ _ _ _ (Us g) Uth (Us h) M (Sy _ _ _ Eh) D) as T3.
  pose proof (angle_triangle _ _ _ _ _ _ (Us g) (Us h) Uth D Eh M) as T4.
  apply Rabs_le. lra.
Qed.
Print Assumptions C80_true_distance_partial.

(* 180 degrees east and 180 degrees west are the same place, but more than a
   kilometre apart for the code *)
Theorem C80_true_distance_refuted :
  at_degrees (PI / 180) 180 0 = at_degrees (PI / 180) (-180) 0 /\
  1000 < distance (mk_point 180 0) (mk_point (-180) 0).
Proof.
  split.
  - unfold at_degrees, sphere. replace (180 * (PI / 180)) with PI by field. replace (-180 * (PI / 180)) with (- PI) by field.
    rewrite cos_neg, sin_neg, sin_PI. f_equal; ring.
  - destruct (C80_great_circle (mk_point 180 0) (mk_point (-180) 0)) as (c & [B C] & ->).
    pose proof PI_bounds as Pb.
    assert (E : c = 2 * PI - 6283 / 1000); [|lra].
    apply cos_unique; [|exact B|lra].
    replace (2 * PI - 6283 / 1000) with (- (6283 / 1000) + 2 * INR 1 * PI) by (cbn [INR]; ring). rewrite cos_period, cos_neg.
    rewrite C. unfold dot, spot, at_degrees, sphere, code_degree. cbn [vx vy vz lon lat].
    replace (0 * (31415 / 1800000)) with 0 by field. rewrite cos_0, sin_0.
    replace (180 * (31415 / 1800000)) with (31415 / 10000) by field. replace (-180 * (31415 / 1800000)) with (- (31415 / 10000)) by field.
    rewrite cos_neg, sin_neg. replace (6283 / 1000) with (31415 / 10000 + 31415 / 10000) by field. rewrite cos_plus. ring.
Qed.
Print Assumptions C80_true_distance_refuted.

(* from the equator to the north pole *)
Example C80_sat : on_map (mk_point 10 0) /\ on_map (mk_point 10 90) /\
  distance (mk_point 10 0) (mk_point 10 90) = 6378137 * (31415 / 20000).
Proof.
  split; [split; cbn [lon lat]; lra|]. split; [split; cbn [lon lat]; lra|].
  destruct (C80_great_circle (mk_point 10 0) (mk_point 10 90)) as (c & [B C] & ->). f_equal.
  pose proof PI_bounds as Pb. apply cos_unique; [|exact B|lra]. rewrite C.
  unfold dot, spot, at_degrees, sphere, code_degree. cbn [vx vy vz lon lat].
  replace (0 * (31415 / 1800000)) with 0 by field. rewrite cos_0, sin_0.
  replace (90 * (31415 / 1800000)) with (31415 / 20000) by field. pose proof (sc (10 * (31415 / 1800000))). nsatz.
Qed.

(* ---- C81 ---- *)
(* moving follows the great circle that starts in the given direction *)
Theorem C81_move :
  forall g d b, -90 <= lat g <= 90 ->
    spot (move g d b) = ahead (lon g * code_degree) (lat g * code_degree) (d / 6378137) (b * code_degree).
Proof.
  intros g d b L. rewrite spot_unit, move_unit by (apply lat_cos; exact L).
  assert (E : forall x, to_rad x = x * code_degree) by (intros; unfold to_rad, PI_, code_degree; field).
  rewrite !E. reflexivity.
Qed.
Print Assumptions C81_move.

Theorem C81_distance :
  forall g d b, -90 <= lat g <= 90 -> 0 <= d <= 6378137 * PI -> distance g (move g d b) = d.
Proof.
  intros g d b L D. rewrite (ahead_distance g (move g d b) (d / EARTH_RADIUS) (to_rad b)).
  - unfold EARTH_RADIUS. field.
  - unfold EARTH_RADIUS. lra.
  - apply move_unit. apply lat_cos. exact L.
Qed.
Print Assumptions C81_distance.

Theorem C81_bearing :
  forall g d b, -90 <= lat g <= 90 -> 0 < d < 6378137 * PI -> -180 <= b <= 180 -> bearing g (move g d b) = b.
Proof.
  intros g d b L D B.
  assert (Rr : 0 < d / EARTH_RADIUS < PI) by (unfold EARTH_RADIUS; lra).
  destruct (ahead_bearing g (move g d b) (d / EARTH_RADIUS) (to_rad b)) as (C & S); [lra|apply move_unit; apply lat_cos; exact L|].
  assert (P : 0 < sin (d / EARTH_RADIUS)) by (apply sin_gt_0; lra).
  apply rad_inj. apply angle_unique.
  - apply (Rmult_eq_reg_l (sin (d / EARTH_RADIUS))); [exact C|lra].
  - apply (Rmult_eq_reg_l (sin (d / EARTH_RADIUS))); [exact S|lra].
  - apply (bearing_spec g (move g d b)).
  - apply rad_lt. exact B.
Qed.
Print Assumptions C81_bearing.

(* going the distance to a place in its direction arrives there *)
Theorem C81_reach :
  forall g h, -90 <= lat g <= 90 -> -90 <= lat h <= 90 ->
    distance h (move g (distance g h) (bearing g h)) = 0 /\
    (-180 <= lon h - lon g <= 180 -> move g (distance g h) (bearing g h) = h).
Proof.
  intros g h Lg Lh.
  assert (E : unit (move g (distance g h) (bearing g h)) = unit h).
  { rewrite move_unit by (apply lat_cos; exact Lg). symmetry. apply unit_ahead. }
  split; [apply distance_0_iff; symmetry; exact E|]. intros D.
  set (m := move g (distance g h) (bearing g h)) in *.
  (* moved by less than half a turn *)
  assert (M : exists t q, - PI < t <= PI /\ to_rad (lon m) = to_rad (lon g) + t /\ to_rad (lat m) = asin q /\ -1 <= q <= 1).
  { unfold m, move. cbn [lon lat]. rewrite !rad_deg. eexists. eexists. split; [apply atan2_spec|].
    split; [reflexivity|]. split; [reflexivity|].
    (* the sine of a latitude *)
    pose proof (f_equal vz (unit_ahead g h)) as Z. unfold unit, sphere, ahead, plus, times, north, east in Z. cbn [vx vy vz] in Z.
    match goal with |- -1 <= ?q <= 1 => replace q with (sin (to_rad (lat h))) end; [apply SIN_bound|].
    rewrite Z.
    unfold sphere. cbn [vz]. ring. }
  destruct M as (t & q & T & Mt & Mq & Q). clearbody m.
  assert (Lm : - (PI / 2) <= to_rad (lat m) <= PI / 2) by (rewrite Mq; pose proof (asin_bound q); lra).
  unfold unit, sphere in E. injection E as E1 E2 E3.
  assert (La : to_rad (lat m) = to_rad (lat h)).
  { rewrite <- (asin_sin _ Lm), <- (asin_sin _ (rad_lat _ Lh)), E3. reflexivity. }
  rewrite La in E1, E2. pose proof (lat_cos h Lh) as C.
  apply Rmult_eq_reg_l in E1; [|lra]. apply Rmult_eq_reg_l in E2; [|lra].
  assert (Lo : t = to_rad (lon h) - to_rad (lon g)).
  { apply angle_unique.
    - replace t with (to_rad (lon m) - to_rad (lon g)) by lra. rewrite !cos_minus, E1, E2. reflexivity.
    - replace t with (to_rad (lon m) - to_rad (lon g)) by lra. rewrite !sin_minus, E1, E2. reflexivity.
    - exact T.
    - rewrite <- rad_minus. apply rad_lt. exact D. }
  assert (Lo' : lon m = lon h) by (apply rad_inj; lra). apply rad_inj in La.
  destruct m as [a b], h as [c d]. cbn [lon lat] in *. congruence.
Qed.
Print Assumptions C81_reach.

(* turning a place around an anchor keeps their distance, turns the direction,
   and turns add up *)
Theorem C81_turn :
  forall p anchor, -90 <= lat anchor <= 90 ->
    (forall x, distance anchor (rotate_point_around_by p anchor x) = distance anchor p) /\
    (forall x, spot (rotate_point_around_by p anchor x) =
               ahead (lon anchor * code_degree) (lat anchor * code_degree) (distance anchor p / 6378137)
                     ((bearing anchor p + x) * code_degree)) /\
    distance p (rotate_point_around_by p anchor 0) = 0 /\
    (forall x y, distance (rotate_point_around_by (rotate_point_around_by p anchor x) anchor y)
                          (rotate_point_around_by p anchor (x + y)) = 0).
Proof.
  intros p a L.
  pose proof (distance_bound a p) as B.
  assert (U : forall x, unit (rotate_point_around_by p a x) =
    ahead (to_rad (lon a)) (to_rad (lat a)) (distance a p / EARTH_RADIUS) (to_rad (bearing a p) + to_rad x)).
  { intros x. apply rotate_unit. exact L. }
  assert (Dx : forall x, distance a (rotate_point_around_by p a x) = distance a p).
  { intros x. rewrite (ahead_distance a _ _ _ B (U x)). unfold EARTH_RADIUS. field. }
  split; [exact Dx|]. split; [|split].
  - intros x. rewrite spot_unit, U.
    assert (E : forall x, to_rad x = x * code_degree) by (intros; unfold to_rad, PI_, code_degree; field).
    rewrite !E. rewrite Rmult_plus_distr_r. reflexivity.
  - apply distance_0_iff. rewrite U. replace (to_rad 0) with 0 by (unfold to_rad; field). rewrite Rplus_0_r. apply unit_ahead.
  - intros x y. apply distance_0_iff.
    rewrite (rotate_ahead _ a _ _ y L B (U x)), U, rad_plus, Rplus_assoc. reflexivity.
Qed.
Print Assumptions C81_turn.

(* beyond the poles, where coordinates are still valid, moving by nothing leads elsewhere *)
Theorem C81_distance_refuted :
  exists g, Rabs (lat g) <= 360 /\ Rabs (lon g) <= 360 /\ distance g (move g 0 0) <> 0.
Proof.
  exists (mk_point 0 180). cbn [lat lon]. split; [rewrite Rabs_right; lra|]. split; [rewrite Rabs_R0; lra|].
  rewrite distance_0_iff. intros E. pose proof PI_bounds as Pb.
  unfold unit, move in E. cbn [lon lat] in E. rewrite !rad_deg in E.
  replace (0 / EARTH_RADIUS) with 0 in E by (unfold EARTH_RADIUS; field). rewrite cos_0, sin_0 in E.
  replace (to_rad 0) with 0 in E by (unfold to_rad; field). rewrite cos_0, sin_0 in E.
  replace (to_rad 180) with (31415 / 10000) in E by (unfold to_rad, PI_; field).
  set (t := 31415 / 10000) in *.
  replace (sin t * 1 + cos t * 0 * 1) with (sin t) in E by ring.
  replace (0 * 0 * cos t) with 0 in E by ring.
  rewrite (sin_asin (sin t) (SIN_bound t)) in E.
  assert (Sq : sin t = sin (PI - t)) by (rewrite Rtrigo_facts.sin_pi_minus; reflexivity).
  assert (As : asin (sin t) = PI - t) by (rewrite Sq; apply asin_sin; unfold t; lra). rewrite As in E.
  assert (Cn : cos t = - cos (PI - t)) by (rewrite Rtrigo_facts.cos_pi_minus; ring).
  assert (Cp : 0 < cos (PI - t)) by (apply cos_gt_0; unfold t; lra).
  pose proof (sc t) as S1.
  assert (X : 0 < 1 - sin t * sin t) by nra.
  unfold atan2 in E. destruct (Rlt_dec 0 (1 - sin t * sin t)) as [_|N]; [|contradiction].
  replace (0 / (1 - sin t * sin t)) with 0 in E by (field; lra). rewrite atan_0, Rplus_0_l in E.
  unfold sphere in E. injection E as E1 _ _. rewrite cos_0 in E1. lra.
Qed.
Print Assumptions C81_distance_refuted.

Example C81_sat : -90 <= lat (mk_point 8 50) <= 90 /\ 0 < 1000 < 6378137 * PI /\
  bearing (mk_point 8 50) (move (mk_point 8 50) 1000 45) = 45.
Proof.
  assert (L : -90 <= lat (mk_point 8 50) <= 90) by (cbn [lat]; lra). pose proof PI_bounds as Pb.
  split; [exact L|]. split; [lra|]. apply C81_bearing; [exact L|lra|lra].
Qed.

(* ---- C82 ---- *)
Definition reals (f : place -> Q) (l : layout) (es : list nat) (v : R) : Prop :=
  exists e q, In e es /\ nth_error l e = Some q /\ v = Q2R (f q).

(* the elements of a station lie around the place of the station as the plan draws
   them: ten metres for every unit of the plan, all turned by the same angle *)
Theorem C82_elements :
  forall addr l stations coords places elements,
    NoDup (concat (map s_elements stations)) ->
    layout_to_gps addr l stations coords = Ok (places, elements) ->
    length elements = length l /\
    forall s st here, nth_error stations s = Some st -> nth_error places s = Some here -> -90 <= lat here <= 90 ->
      exists width height turn,
        largest (reals x_ l (s_elements st)) width /\ largest (reals y_ l (s_elements st)) height /\
        forall e q, In e (s_elements st) -> nth_error l e = Some q ->
          let x := Q2R (x_ q) - width / 2 in let y := Q2R (y_ q) - height / 2 in
          forall d a, on_plan x y d a -> 10 * d <= 6378137 * PI ->
            exists g slip, nth_error elements e = Some g /\ 0 <= slip <= 2 / 10000 /\ (y < 0 -> slip = 0) /\
              (0 < y -> slip = 2 * PI - 6283 / 1000) /\ distance here g = 10 * d /\
              spot g = ahead (lon here * code_degree) (lat here * code_degree) (10 * d / 6378137) (turn + a - slip).
Proof.
  intros addr l sts coords places elements N H. unfold layout_to_gps in H.
  apply bind_Ok in H. destruct H as (adj & _ & H). apply bind_Ok in H. destruct H as (els & He & H).
  apply bind_Ok in H. destruct H as (rots & Hr & H). apply bind_Ok in H. destruct H as (rotated & Ho & H).
  injection H as <- <-. set (pl := map real_gps adj) in *.
  unfold get_element_gps_coords in He.
  destruct (outer_spec _ _ sts 0 _ _ (place_station_spec l pl) N He) as (L1 & A1 & _).
  destruct (outer_spec _ _ sts 0 _ _ (rotate_station_spec pl rots els) N Ho) as (L2 & A2 & _).
  rewrite repeat_length in L1. split; [congruence|].
  intros s st here Hs Hh La.
  destruct (best_rotations_spec _ _ _ _ Hr) as (Lr & _).
  assert (Rs : exists by_, nth_error rots s = Some by_).
  { destruct (nth_error rots s) eqn:E; [eauto|]. apply nth_error_None in E. assert (X : nth_error sts s <> None) by congruence.
    apply nth_error_Some in X. lia. }
  destruct Rs as (by_ & Rs).
  destruct (s_elements st) as [|e0 es] eqn:Es.
  { exists 0, 0, 0. split; [|split; [|intros e q []]].
    - split; [lra|]. split; [intros x (e & q & F & _); destruct F|left; reflexivity].
    - split; [lra|]. split; [intros x (e & q & F & _); destruct F|left; reflexivity]. }
  destruct (A1 s st e0 Hs) as (v0 & _ & c & _ & _ & Hc & _); [rewrite Es; left; reflexivity|].
  pose proof Hc as Hc'. unfold get_station_center in Hc'. apply bind_Ok in Hc'. destruct Hc' as ((w & h) & Hl & Hc').
  injection Hc' as <-. apply center_loop_spec in Hl. rewrite Es in Hl. destruct Hl as ((W0 & H0) & Up & Wx & Hx).
  exists w, h, (PI / 2 + to_rad by_). split; [|split].
  - split; [exact W0|]. split.
    + intros x (e & q & I & E & ->). apply (Up e q I E).
    + destruct Wx as [->|(e & q & I & E & <-)]; [left; reflexivity|right; exists e, q; repeat split; assumption].
  - split; [exact H0|]. split.
    + intros x (e & q & I & E & ->). apply (Up e q I E).
    + destruct Hx as [->|(e & q & I & E & <-)]; [left; reflexivity|right; exists e, q; repeat split; assumption].
  - intros e q I Hq x y d a Pl Le. rewrite <- Es in I.
    destruct (A1 s st e Hs I) as (v & Hv & c & here' & q' & Hc2 & Hh' & Hq' & Ev).
    rewrite Hc in Hc2. injection Hc2 as <-. cbn [Nat.add] in Hh'. rewrite Hh in Hh'. injection Hh' as <-. rewrite Hq in Hq'. injection Hq' as <-.
    cbn [fst snd] in Ev. fold x y in Ev.
    destruct (A2 s st e Hs I) as (g & Hg & here' & by' & p & Hh' & Hb' & Hp & Eg). cbn [Nat.add] in Hh', Hb'.
    rewrite Hh in Hh'. injection Hh' as <-. rewrite Rs in Hb'. injection Hb' as <-. rewrite Hv in Hp. injection Hp as <-.
    assert (Dd : sqrt (x ^ 2 + y ^ 2) = d).
    { destruct Pl as (D0 & Px & Py). pose proof (sc a) as S. replace (x ^ 2 + y ^ 2) with (d * d).
      - apply sqrt_square. exact D0.
      - assert (Yy : y = - (d * cos a)) by lra. rewrite <- Px, Yy.
        transitivity (d * d * (sin a * sin a + cos a * cos a)); [rewrite S; ring|ring]. }
    destruct (moved_and_turned here x y by_ a La) as (slip & Sl & Sy & Sy' & U); [rewrite Dd; unfold EARTH_RADIUS; exact Le|rewrite Dd; exact Pl|].
    rewrite Dd in U. rewrite <- Ev, <- Eg in U.
    exists g, slip. split; [exact Hg|]. split; [exact Sl|]. split; [exact Sy|]. split; [exact Sy'|]. split.
    + rewrite (ahead_distance here g _ _) with (2 := U); [unfold EARTH_RADIUS; field|]. destruct Pl as (D0 & _).
      unfold EARTH_RADIUS. lra.
    + rewrite spot_unit, U. unfold EARTH_RADIUS.
      assert (E : forall x, to_rad x = x * code_degree) by (intros; unfold to_rad, PI_, code_degree; field).
      rewrite !E. reflexivity.
Qed.
Print Assumptions C82_elements.

(* the turn is the one of 72 tried that brings the ends of the borders closest
   together, the smallest of them in case of a tie *)
Theorem C82_best_turn :
  forall stations places elements turns,
    (forall st, In st stations -> (Z.of_nat (length (s_borders st)) < 2 ^ 64)%Z) ->
    get_best_rotations stations places elements = Ok turns ->
    length turns = length stations /\
    exists before, length before = length stations /\
    forall s st, nth_error stations s = Some st ->
      exists k, nth_error turns s = Some (5 * INR k) /\ (k < 72)%nat /\
        let gap := total_gap s st places elements before in
        (forall j, (j < 72)%nat -> gap (5 * INR k) <= gap (5 * INR j)) /\
        (forall j, (j < k)%nat -> gap (5 * INR k) < gap (5 * INR j)).
Proof.
  intros sts places els turns Lb H. destruct (best_rotations_spec _ _ _ _ H) as (L & before & Lbf & A).
  split; [exact L|]. exists before. split; [exact Lbf|]. intros s st Hs. destruct (A s st Hs) as (r & Hr & Gr).
  apply best_rotation_spec in Gr; [|apply Lb; eapply nth_error_In; exact Hs].
  destruct Gr as (k & Lk & -> & B & C). exists k. split; [exact Hr|]. split; [exact Lk|]. split; assumption.
Qed.
Print Assumptions C82_best_turn.

(* every network of known elements and stations gets its places *)
Theorem C82_loads :
  forall addr l stations coords, length coords = length stations ->
    (forall st e, In st stations -> In e (s_elements st) -> (e < length l)%nat) ->
    (forall st b, In st stations -> In b (s_borders st) ->
       (b_element b < length l)%nat /\ (b_neighbour_element b < length l)%nat /\ (b_neighbour b < length stations)%nat) ->
    exists places elements, layout_to_gps addr l stations coords = Ok (places, elements) /\
      length places = length stations /\ length elements = length l.
Proof.
  intros addr l sts coords Lc He Hb. unfold layout_to_gps.
  set (bo := fun s => map b_neighbour (s_borders (nth s sts (mk_geo [] [])))).
  destruct (PropsLayout.C79_interpolated addr bo coords) as (adj & E & La & _).
  { intros s t Ls I. unfold bo in I. apply in_map_iff in I. destruct I as (b & <- & I). rewrite Lc in *.
    apply (Hb (nth s sts (mk_geo [] [])) b); [apply nth_In; exact Ls|exact I]. }
  rewrite <- Lc, E. cbn [bind].
  assert (Lp : length (map real_gps adj) = length sts) by (rewrite map_length; congruence).
  destruct (placing_ok l sts He Hb (map real_gps adj) Lp) as (els & -> & Le). cbn [bind].
  destruct (rotations_ok l sts He Hb (map real_gps adj) els Lp Le) as (rs & -> & Lr). cbn [bind].
  destruct (turning_ok l sts He Hb (map real_gps adj) rs els Lp Le Lr) as (r & -> & Lr'). cbn [bind].
  exists (map real_gps adj), r. split; [reflexivity|]. split; [congruence|exact Lr'].
Qed.
Print Assumptions C82_loads.

Lemma ahead_dot lo la r b b' :
  dot (ahead lo la r b) (ahead lo la r b') = cos r * cos r + sin r * sin r * cos (b - b').
Proof.
  rewrite cos_minus. unfold dot, ahead, plus, times, sphere, north, east. cbn [vx vy vz].
  pose proof (sc lo) as A. pose proof (sc la) as B.
  generalize dependent (sin lo). generalize dependent (cos lo). generalize dependent (sin la). generalize dependent (cos la).
  generalize (sin r) (cos r) (sin b) (cos b) (sin b') (cos b'). intros. nsatz.
Qed.

(* one station with two elements, one unit above and one unit below its middle *)
Definition ex_layout : layout := [mk_place 0 0; mk_place 0 2].
Definition ex_station : geo_station := mk_geo [0; 1]%nat [].
Example C82_sat :
  NoDup (concat (map s_elements [ex_station])) /\
  (exists places elements, layout_to_gps (fun s => s) ex_layout [ex_station] [mk_gps 8 50] = Ok (places, elements) /\
     exists here, nth_error places 0 = Some here /\ lat here = 50) /\
  largest (reals x_ ex_layout (s_elements ex_station)) 0 /\ largest (reals y_ ex_layout (s_elements ex_station)) 2 /\
  on_plan (Q2R 0 - 0 / 2) (Q2R 0 - 2 / 2) 1 0 /\ on_plan (Q2R 0 - 0 / 2) (Q2R 2 - 2 / 2) 1 PI.
Proof.
  assert (Q0 : Q2R 0 = 0) by (unfold Q2R; cbn; lra). assert (Q2 : Q2R 2 = 2) by (unfold Q2R; cbn; lra).
  split; [repeat constructor; cbn; intuition lia|]. split; [|split; [|split; [|split]]].
  - destruct (C82_loads (fun s => s) ex_layout [ex_station] [mk_gps 8 50]) as (p & e & E & _).
    + reflexivity.
    + intros st e [<-|[]] I. cbn in I |- *. intuition lia.
    + intros st b [<-|[]] [].
    + exists p, e. split; [exact E|]. unfold layout_to_gps in E. apply bind_Ok in E. destruct E as (adj & Ea & E).
      assert (X : adj = [mk_gps 8 50]) by (vm_compute in Ea; injection Ea as <-; reflexivity). subst adj.
      apply bind_Ok in E. destruct E as (els & _ & E). apply bind_Ok in E. destruct E as (rs & _ & E).
      apply bind_Ok in E. destruct E as (r & _ & E). injection E as <- _. exists (real_gps (mk_gps 8 50)). split; [reflexivity|].
      unfold real_gps, Q2R. cbn. lra.
  - split; [lra|]. split; [|left; reflexivity]. intros v (e & q & I & Hq & ->). cbn in I. destruct I as [<-|[<-|[]]]; cbn in Hq; injection Hq as <-; cbn [x_]; lra.
  - split; [lra|]. split.
    + intros v (e & q & I & Hq & ->). cbn in I. destruct I as [<-|[<-|[]]]; cbn in Hq; injection Hq as <-; cbn [y_]; lra.
    + right. exists 1%nat, (mk_place 0 2). split; [right; left; reflexivity|]. split; [reflexivity|cbn [y_]; lra].
  - rewrite Q0. unfold on_plan. rewrite sin_0, cos_0. lra.
  - rewrite Q0, Q2. unfold on_plan. rewrite sin_PI, cos_PI. lra.
Qed.

Lemma largest_det P m m' : largest P m -> largest P m' -> m = m'.
Proof.
  intros (A & B & C) (A' & B' & C').
  destruct C as [->|C], C' as [->|C']; [reflexivity| | |].
  - pose proof (B m' C'). lra.
  - pose proof (B' m C). lra.
  - pose proof (B m' C'). pose proof (B' m C). lra.
Qed.

(* the two elements lie opposite each other on the plan, at a distance of two units,
   but not on the map: the picture is slightly bent *)
Theorem C82_rigid_refuted :
  exists places elements g1 g2,
    layout_to_gps (fun s => s) ex_layout [ex_station] [mk_gps 8 50] = Ok (places, elements) /\
    nth_error elements 0 = Some g1 /\ nth_error elements 1 = Some g2 /\ distance g1 g2 <> 20.
Proof.
  destruct C82_sat as (N & (p & e & E & here & Hh & Lh) & Lx & Ly & P1 & P2).
  destruct (C82_elements _ _ _ _ _ _ N E) as (_ & A).
  destruct (A 0%nat ex_station here eq_refl Hh) as (w & h & turn & W & H & B); [lra|].
  rewrite (largest_det _ _ _ W Lx) in B. rewrite (largest_det _ _ _ H Ly) in B. pose proof PI_bounds as Pb.
  destruct (B 0%nat (mk_place 0 0) (or_introl eq_refl) eq_refl 1 0 P1) as (g1 & s1 & G1 & _ & Z1 & _ & _ & U1); [lra|].
  destruct (B 1%nat (mk_place 0 2) (or_intror (or_introl eq_refl)) eq_refl 1 PI P2) as (g2 & s2 & G2 & _ & _ & Z2 & _ & U2); [lra|].
  assert (Q0 : Q2R 0 = 0) by (unfold Q2R; cbn; lra). assert (Q2 : Q2R 2 = 2) by (unfold Q2R; cbn; lra).
  cbn [y_] in Z1, Z2. rewrite Z1 in U1 by lra. rewrite Z2 in U2 by lra.
  exists p, e, g1, g2. split; [exact E|]. split; [exact G1|]. split; [exact G2|]. intros D.
  destruct (C80_great_circle g1 g2) as (c & [Bc C] & Ec). rewrite Ec in D. rewrite U1, U2, ahead_dot in C.
  set (r := 10 * 1 / 6378137) in *. assert (Cr : c = 2 * r) by (unfold r; lra). rewrite Cr, cos_2a in C.
  replace (turn + 0 - 0 - (turn + PI - (2 * PI - 6283 / 1000))) with (- (PI - (2 * PI - 6283 / 1000))) in C by ring.
  rewrite cos_neg, Rtrigo_facts.cos_pi_minus in C.
  assert (S0 : 0 < sin r) by (apply sin_gt_0; unfold r; lra).
  assert (Cs : cos (2 * PI - 6283 / 1000) < cos 0) by (apply cos_decreasing_1; lra). rewrite cos_0 in Cs.
  pose proof (Rmult_lt_0_compat _ _ (Rmult_lt_0_compat _ _ S0 S0) (Rlt_Rminus _ _ Cs)) as X. lra.
Qed.
Print Assumptions C82_rigid_refuted.
