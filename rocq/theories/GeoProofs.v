(* Proofs about places on the globe. *)
From Coq Require Import QArith Qreals.
From Coq Require Import Reals Machin Lra Nsatz.
From Verif Require Import Base LayoutModel GeoModel GeoSpec.
Local Open Scope R_scope.

Lemma PI_bounds : 314159/100000 < PI < 31416/10000.
Proof.
  pose proof (proj1 (PI_2_3_7_ineq 2)) as A. pose proof (proj2 (PI_2_3_7_ineq 2)) as B.
  cbn [Nat.mul Nat.add sum_f_R0] in A, B. unfold tg_alt, PI_2_3_7_tg, Ratan_seq in A, B.
  cbn [Nat.mul Nat.add pow INR] in A, B. lra.
Qed.

Lemma R_pos : 0 < EARTH_RADIUS. Proof. unfold EARTH_RADIUS. lra. Qed.

Lemma rad_deg x : to_rad (to_deg x) = x.
Proof. unfold to_rad, to_deg, PI_. field. Qed.
Lemma deg_rad x : to_deg (to_rad x) = x.
Proof. unfold to_rad, to_deg, PI_. field. Qed.
Lemma rad_plus x y : to_rad (x + y) = to_rad x + to_rad y.
Proof. unfold to_rad. field. Qed.
Lemma rad_minus x y : to_rad (x - y) = to_rad x - to_rad y.
Proof. unfold to_rad. field. Qed.

Lemma sc x : sin x * sin x + cos x * cos x = 1.
Proof. pose proof (sin2_cos2 x) as H. unfold Rsqr in H. exact H. Qed.

(* ---- atan2 ---- *)
Lemma atan_cos x : cos (atan x) = / sqrt (1 + x * x).
Proof.
  pose proof (tan_atan x) as T. destruct (atan_bound x) as [L U].
  assert (C : 0 < cos (atan x)) by (apply cos_gt_0; lra).
  assert (S1 : sin (atan x) = x * cos (atan x)) by (rewrite <- T at 2; unfold tan; field; lra).
  pose proof (sc (atan x)) as E. rewrite S1 in E.
  assert (E' : (1 + x * x) * (cos (atan x) * cos (atan x)) = 1) by lra.
  assert (P : 0 < 1 + x * x) by (pose proof (Rle_0_sqr x) as Q; unfold Rsqr in Q; lra).
  assert (Q : sqrt (1 + x * x) * cos (atan x) = 1).
  { apply Rsqr_inj; [apply Rmult_le_pos; [apply sqrt_pos|lra]|lra|]. unfold Rsqr.
    replace (sqrt (1 + x * x) * cos (atan x) * (sqrt (1 + x * x) * cos (atan x)))
      with (sqrt (1 + x * x) * sqrt (1 + x * x) * (cos (atan x) * cos (atan x))) by ring.
    rewrite sqrt_sqrt by lra. lra. }
  assert (Sp : 0 < sqrt (1 + x * x)) by (apply sqrt_lt_R0; exact P).
  apply (Rmult_eq_reg_l (sqrt (1 + x * x))); [|lra]. rewrite Q. field. lra.
Qed.
Lemma atan_sin x : sin (atan x) = x * / sqrt (1 + x * x).
Proof.
  rewrite <- atan_cos. pose proof (tan_atan x) as T. destruct (atan_bound x) as [L U].
  assert (C : 0 < cos (atan x)) by (apply cos_gt_0; lra). rewrite <- T at 2. unfold tan. field. lra.
Qed.

Lemma hyp_pos x y : 0 <= x * x + y * y.
Proof. pose proof (Rle_0_sqr x). pose proof (Rle_0_sqr y). unfold Rsqr in *. lra. Qed.

Lemma hyp_factor x y : x <> 0 -> sqrt (x * x + y * y) = Rabs x * sqrt (1 + y / x * (y / x)).
Proof.
  intros N. assert (P : 0 <= 1 + y / x * (y / x)) by (pose proof (Rle_0_sqr (y / x)) as Q; unfold Rsqr in Q; lra).
  rewrite <- (sqrt_Rsqr_abs x). rewrite <- sqrt_mult; [|apply Rle_0_sqr|exact P]. f_equal. unfold Rsqr. field. exact N.
Qed.

Lemma hyp_scale x y : 0 < 1 + y / x * (y / x).
Proof. pose proof (Rle_0_sqr (y / x)) as Q; unfold Rsqr in Q; lra. Qed.

Lemma atan2_spec y x :
  sqrt (x * x + y * y) * cos (atan2 y x) = x /\ sqrt (x * x + y * y) * sin (atan2 y x) = y /\
  - PI < atan2 y x <= PI.
Proof.
  pose proof PI_RGT_0 as P. unfold atan2.
  pose proof (hyp_scale x y) as Sc. assert (Sp : 0 < sqrt (1 + y / x * (y / x))) by (apply sqrt_lt_R0; exact Sc).
  destruct (atan_bound (y / x)) as [L U].
  destruct (Rlt_dec 0 x) as [X|X].
  - rewrite hyp_factor by lra. rewrite (Rabs_right x) by lra. rewrite atan_cos, atan_sin. repeat split; [field; lra|field; lra|lra|lra].
  - destruct (Rlt_dec x 0) as [Y|Y].
    + rewrite hyp_factor by lra. rewrite (Rabs_left x) by lra.
      destruct (Rle_dec 0 y) as [Z|Z].
      * assert (A : atan (y / x) <= 0).
        { assert (D : y / x <= 0). { unfold Rdiv. pose proof (Rinv_lt_0_compat x Y). nra. }
          destruct D as [D| ->]; [|rewrite atan_0; lra]. rewrite <- atan_0. left. apply atan_increasing. exact D. }
        rewrite neg_cos, neg_sin, atan_cos, atan_sin. repeat split; [field; lra|field; lra|lra|lra].
      * assert (A : 0 < atan (y / x)).
        { rewrite <- atan_0. apply atan_increasing. unfold Rdiv. pose proof (Rinv_lt_0_compat x Y). nra. }
        replace (atan (y / x) - PI) with (- (PI - atan (y / x))) by ring.
        rewrite cos_neg, sin_neg. rewrite Rtrigo_facts.cos_pi_minus, Rtrigo_facts.sin_pi_minus.
        rewrite atan_cos, atan_sin. repeat split; [field; lra|field; lra|lra|lra].
    + assert (x = 0) by lra. subst x. replace (0 * 0 + y * y) with (Rsqr y) by (unfold Rsqr; ring). rewrite sqrt_Rsqr_abs.
      destruct (Rlt_dec 0 y) as [Z|Z]; [|destruct (Rlt_dec y 0) as [W|W]].
      * rewrite cos_PI2, sin_PI2, Rabs_right by lra. repeat split; lra.
      * rewrite cos_neg, sin_neg, cos_PI2, sin_PI2, Rabs_left by lra. repeat split; lra.
      * assert (y = 0) by lra. subst y. rewrite Rabs_R0. repeat split; lra.
Qed.

(* an angle is known by its cosine and sine *)
Lemma angle_unique a b : cos a = cos b -> sin a = sin b -> - PI < a <= PI -> - PI < b <= PI -> a = b.
Proof.
  intros C S A B.
  assert (E : cos (a - b) = 1) by (rewrite cos_minus, C, S; pose proof (sc b); lra).
  assert (H : forall d, cos d = 1 -> 0 <= d < 2 * PI -> d = 0).
  { clear. intros d E D. destruct (Req_dec d 0) as [|N]; [assumption|exfalso].
    assert (Z : sin (d / 2) = 0).
    { replace d with (2 * (d / 2)) in E by field. rewrite cos_2a_sin in E. nra. }
    assert (0 < sin (d / 2)) by (apply sin_gt_0; lra). lra. }
  destruct (Rle_dec b a) as [L|L].
  - assert (a - b = 0) by (apply H; [exact E|lra]). lra.
  - assert (b - a = 0); [|lra]. apply H; [|lra]. replace (b - a) with (- (a - b)) by ring. rewrite cos_neg. exact E.
Qed.

Lemma cos_unique a b : cos a = cos b -> 0 <= a <= PI -> 0 <= b <= PI -> a = b.
Proof. intros C A B. rewrite <- (acos_cos a A), <- (acos_cos b B), C. reflexivity. Qed.

(* ---- vectors ---- *)
Definition unit (g : point) : vec := sphere (to_rad (lon g)) (to_rad (lat g)).

Lemma dot_comm u v : dot u v = dot v u. Proof. unfold dot. ring. Qed.
Lemma unit_sphere a b : dot (sphere a b) (sphere a b) = 1.
Proof. unfold dot, sphere. cbn [vx vy vz]. pose proof (sc a) as A. pose proof (sc b) as B. nsatz. Qed.
Lemma dot_bound u v : dot u u = 1 -> dot v v = 1 -> -1 <= dot u v <= 1.
Proof.
  intros U V. unfold dot in *.
  pose proof (Rle_0_sqr (vx u - vx v)). pose proof (Rle_0_sqr (vy u - vy v)). pose proof (Rle_0_sqr (vz u - vz v)).
  pose proof (Rle_0_sqr (vx u + vx v)). pose proof (Rle_0_sqr (vy u + vy v)). pose proof (Rle_0_sqr (vz u + vz v)).
  unfold Rsqr in *. split; lra.
Qed.
Lemma angle_exists u v : dot u u = 1 -> dot v v = 1 -> exists c, angle u v c.
Proof.
  intros U V. exists (acos (dot u v)). split; [apply acos_bound|]. apply cos_acos. apply dot_bound; assumption.
Qed.
Lemma angle_det u v c d : angle u v c -> angle u v d -> c = d.
Proof. intros [A B] [C D]. apply cos_unique; [congruence|exact A|exact C]. Qed.

(* the triangle inequality on the sphere *)
Lemma angle_triangle u v w a b c : dot u u = 1 -> dot v v = 1 -> dot w w = 1 ->
  angle u v a -> angle v w b -> angle u w c -> c <= a + b.
Proof.
  intros U V W [A Ca] [B Cb] [C Cc]. destruct (Rle_dec PI (a + b)) as [|N]; [lra|].
  assert (S : cos (a + b) <= cos c).
  { rewrite cos_plus, Ca, Cb, Cc.
    pose proof (sin_ge_0 a (proj1 A) (proj2 A)) as Sa. pose proof (sin_ge_0 b (proj1 B) (proj2 B)) as Sb.
    assert (Qa : sin a * sin a = 1 - dot u v * dot u v) by (pose proof (sc a) as X; rewrite Ca in X; lra).
    assert (Qb : sin b * sin b = 1 - dot v w * dot v w) by (pose proof (sc b) as X; rewrite Cb in X; lra).
    (* dot of the cross products *)
    set (k := dot u v * dot v w - dot u w).
    assert (K : k * k <= (sin a * sin b) * (sin a * sin b)).
    { replace ((sin a * sin b) * (sin a * sin b)) with ((sin a * sin a) * (sin b * sin b)) by ring. rewrite Qa, Qb.
      set (p := mk_vec (vx u - dot u v * vx v) (vy u - dot u v * vy v) (vz u - dot u v * vz v)).
      set (q := mk_vec (vx w - dot v w * vx v) (vy w - dot v w * vy v) (vz w - dot v w * vz v)).
      assert (P : dot p p = 1 - dot u v * dot u v) by (unfold p; clear - U V; unfold dot in *; cbn [vx vy vz] in *; nsatz).
      assert (Q : dot q q = 1 - dot v w * dot v w) by (unfold q; clear - W V; unfold dot in *; cbn [vx vy vz] in *; nsatz).
      assert (PQ : dot p q = - k) by (unfold k, p, q; clear - V; unfold dot in *; cbn [vx vy vz] in *; nsatz).
      rewrite <- P, <- Q. replace (k * k) with (dot p q * dot p q) by (rewrite PQ; ring).
      generalize p q. clear. intros [p1 p2 p3] [q1 q2 q3]. unfold dot. cbn [vx vy vz].
      pose proof (Rle_0_sqr (p1 * q2 - p2 * q1)). pose proof (Rle_0_sqr (p1 * q3 - p3 * q1)).
      pose proof (Rle_0_sqr (p2 * q3 - p3 * q2)). unfold Rsqr in *. nra. }
    assert (K' : k <= sin a * sin b).
    { destruct (Rle_dec k 0) as [|Nk]; [pose proof (Rmult_le_pos _ _ Sa Sb); lra|].
      apply Rsqr_incr_0_var; [exact K|apply Rmult_le_pos; assumption]. }
    unfold k in K'. lra. }
  destruct (Rle_dec c (a + b)) as [|X]; [assumption|exfalso].
  assert (cos c < cos (a + b)) by (apply cos_decreasing_1; lra). lra.
Qed.

(* ---- distance ---- *)
Lemma haversine g h :
  1 - 2 * (sin (to_rad (lat h - lat g) / 2) ^ 2 +
           sin (to_rad (lon h - lon g) / 2) ^ 2 * cos (to_rad (lat g)) * cos (to_rad (lat h))) = dot (unit g) (unit h).
Proof.
  assert (F : forall x, 1 - 2 * sin (x / 2) ^ 2 = cos x).
  { intros x. replace x with (2 * (x / 2)) at 2 by field. rewrite cos_2a_sin. ring. }
  pose proof (F (to_rad (lat h - lat g))) as A. pose proof (F (to_rad (lon h - lon g))) as B.
  rewrite rad_minus in A at 2. rewrite rad_minus in B at 2. rewrite cos_minus in A, B.
  unfold dot, unit, sphere. cbn [vx vy vz].
  set (s1 := sin (to_rad (lat h - lat g) / 2)) in *. set (s2 := sin (to_rad (lon h - lon g) / 2)) in *.
  nsatz.
Qed.

Lemma half_angle a : 0 <= a <= 1 ->
  0 <= 2 * atan2 (sqrt a) (sqrt (1 - a)) <= PI /\ cos (2 * atan2 (sqrt a) (sqrt (1 - a))) = 1 - 2 * a.
Proof.
  intros A. destruct (atan2_spec (sqrt a) (sqrt (1 - a))) as (C & S & B). set (t := atan2 (sqrt a) (sqrt (1 - a))) in *.
  rewrite !sqrt_sqrt in C, S by lra. replace (1 - a + a) with 1 in C, S by ring. rewrite sqrt_1 in C, S.
  pose proof PI_RGT_0 as P. pose proof (sqrt_pos a) as Sa. pose proof (sqrt_pos (1 - a)) as Sb.
  assert (S0 : 0 <= sin t) by lra. assert (C0 : 0 <= cos t) by lra. split.
  - split.
    + destruct (Rle_dec 0 t) as [|N]; [lra|exfalso].
      assert (sin t < 0) by (apply sin_lt_0_var; lra). lra.
    + destruct (Rle_dec t (PI / 2)) as [|N]; [lra|exfalso].
      assert (cos t < 0) by (apply cos_lt_0; lra). lra.
  - rewrite cos_2a_sin. assert (E : sin t = sqrt a) by lra. rewrite E.
    replace (1 - 2 * sqrt a * sqrt a) with (1 - 2 * (sqrt a * sqrt a)) by ring. rewrite sqrt_sqrt by lra. reflexivity.
Qed.

Lemma unit_1 g : dot (unit g) (unit g) = 1.
Proof. apply unit_sphere. Qed.

Lemma distance_angle g h : angle (unit g) (unit h) (distance g h / EARTH_RADIUS).
Proof.
  unfold distance. set (a := _ + _). pose proof (haversine g h) as H. fold a in H.
  pose proof (dot_bound _ _ (unit_1 g) (unit_1 h)) as B.
  destruct (half_angle a) as (X & Y); [lra|].
  replace (EARTH_RADIUS * (2 * atan2 (sqrt a) (sqrt (1 - a))) / EARTH_RADIUS) with (2 * atan2 (sqrt a) (sqrt (1 - a)))
    by (field; pose proof R_pos; lra).
  split; [exact X|]. rewrite Y. lra.
Qed.

(* ---- bearing ---- *)
Definition north_of (g : point) : vec := north (to_rad (lon g)) (to_rad (lat g)).
Definition east_of (g : point) : vec := east (to_rad (lon g)).

Lemma bearing_spec g h :
  - PI < to_rad (bearing g h) <= PI /\
  sin (distance g h / EARTH_RADIUS) * cos (to_rad (bearing g h)) = dot (unit h) (north_of g) /\
  sin (distance g h / EARTH_RADIUS) * sin (to_rad (bearing g h)) = dot (unit h) (east_of g).
Proof.
  unfold bearing. rewrite rad_deg.
  set (y := sin _ * _). set (x := _ - _). destruct (atan2_spec y x) as (C & S & B).
  destruct (distance_angle g h) as (D & E). set (c := distance g h / EARTH_RADIUS) in *.
  assert (Xe : x = dot (unit h) (north_of g)).
  { unfold x, dot, unit, north_of, sphere, north. cbn [vx vy vz]. rewrite rad_minus, cos_minus. ring. }
  assert (Ye : y = dot (unit h) (east_of g)).
  { unfold y, dot, unit, east_of, sphere, east. cbn [vx vy vz]. rewrite rad_minus, sin_minus. ring. }
  assert (H : sqrt (x * x + y * y) = sin c).
  { assert (Q : x * x + y * y = sin c * sin c).
    { pose proof (sc c) as X. rewrite E in X. rewrite Xe, Ye.
      unfold dot, unit, north_of, east_of, sphere, north, east in *. cbn [vx vy vz] in *.
      pose proof (sc (to_rad (lat g))) as A1. pose proof (sc (to_rad (lon g))) as A2.
      pose proof (sc (to_rad (lat h))) as A3. pose proof (sc (to_rad (lon h))) as A4.
      generalize dependent (sin c). clear - A1 A2 A3 A4. intros z X.
      set (a := sin (to_rad (lat g))) in *. set (b := cos (to_rad (lat g))) in *.
      set (d := sin (to_rad (lon g))) in *. set (e := cos (to_rad (lon g))) in *.
      set (f := sin (to_rad (lat h))) in *. set (i := cos (to_rad (lat h))) in *.
      set (j := sin (to_rad (lon h))) in *. set (k := cos (to_rad (lon h))) in *.
      clearbody a b d e f i j k. nsatz. }
    rewrite Q. rewrite sqrt_square; [reflexivity|]. apply sin_ge_0; apply D. }
  rewrite <- H. rewrite <- Xe, <- Ye. split; [exact B|]. split; assumption.
Qed.

(* ---- moving ---- *)
Lemma move_unit g d b : 0 < cos (to_rad (lat g)) ->
  unit (move g d b) = ahead (to_rad (lon g)) (to_rad (lat g)) (d / EARTH_RADIUS) (to_rad b).
Proof.
  intros P. unfold unit, move. cbn [lon lat]. rewrite !rad_deg.
  set (sl := sin (to_rad (lat g))). set (cl := cos (to_rad (lat g))) in *. set (r := d / EARTH_RADIUS).
  set (sb := sin (to_rad b)). set (cb := cos (to_rad b)).
  set (S := sl * cos r + cl * sin r * cb).
  pose proof (sc (to_rad (lat g))) as A1. fold sl cl in A1.
  pose proof (sc r) as A2. pose proof (sc (to_rad b)) as A3. fold sb cb in A3.
  assert (Id : 1 - S * S - (cos r * cl - sl * sin r * cb) * (cos r * cl - sl * sin r * cb) = sb * sin r * (sb * sin r)).
  { unfold S. clearbody sl cl sb cb. generalize dependent (sin r). generalize dependent (cos r). intros cr sr. intros. nsatz. }
  assert (Bd : -1 <= S <= 1).
  { assert (Q : S * S <= 1) by (pose proof (Rle_0_sqr (sb * sin r)); pose proof (Rle_0_sqr (cos r * cl - sl * sin r * cb)); unfold Rsqr in *; lra).
    split; nra. }
  rewrite (sin_asin S Bd).
  set (y := sb * sin r * cl). set (x := cos r - sl * S). destruct (atan2_spec y x) as (C & Sn & _).
  set (t := atan2 y x) in *.
  assert (Rho : sqrt (x * x + y * y) = cl * cos (asin S)).
  { rewrite (cos_asin S Bd). unfold Rsqr.
    assert (0 <= 1 - S * S) by nra.
    replace (x * x + y * y) with ((cl * cl) * (1 - S * S)).
    - rewrite sqrt_mult by (try nra; assumption). rewrite sqrt_square by lra. reflexivity.
    - unfold x, y, S. clear - A1 A2 A3. clearbody sl cl sb cb. generalize dependent (sin r). generalize dependent (cos r). intros cr sr. intros. nsatz. }
  rewrite Rho in C, Sn. set (cm := cos (asin S)) in *.
  assert (C' : cm * cos t = cos r * cl - sl * sin r * cb).
  { apply (Rmult_eq_reg_l cl); [|lra]. rewrite <- Rmult_assoc, C. unfold x, S. clear - A1. nsatz. }
  assert (S' : cm * sin t = sb * sin r).
  { apply (Rmult_eq_reg_l cl); [|lra]. rewrite <- Rmult_assoc, Sn. unfold y. ring. }
  unfold sphere, ahead, plus, times, north, east. cbn [vx vy vz]. fold sl cl sb cb cm.
  rewrite (sin_asin S Bd). rewrite cos_plus, sin_plus. f_equal.
  - replace (cm * (cos (to_rad (lon g)) * cos t - sin (to_rad (lon g)) * sin t))
      with (cos (to_rad (lon g)) * (cm * cos t) - sin (to_rad (lon g)) * (cm * sin t)) by ring.
    rewrite C', S'. unfold sphere. cbn [vx vy vz]. fold cl. ring.
  - replace (cm * (sin (to_rad (lon g)) * cos t + cos (to_rad (lon g)) * sin t))
      with (sin (to_rad (lon g)) * (cm * cos t) + cos (to_rad (lon g)) * (cm * sin t)) by ring.
    rewrite C', S'. unfold sphere. cbn [vx vy vz]. fold cl. ring.
  - unfold S, sphere. cbn [vx vy vz]. fold sl. ring.
Qed.

Lemma lat_cos g : -90 <= lat g <= 90 -> 0 < cos (to_rad (lat g)).
Proof. intros L. pose proof PI_bounds as B. apply cos_gt_0; unfold to_rad, PI_; lra. Qed.

(* ---- the frame of north, east and up ---- *)
Lemma ahead_frame lo la r b :
  dot (ahead lo la r b) (sphere lo la) = cos r /\
  dot (ahead lo la r b) (north lo la) = sin r * cos b /\
  dot (ahead lo la r b) (east lo) = sin r * sin b.
Proof.
  unfold dot, ahead, plus, times, sphere, north, east. cbn [vx vy vz].
  pose proof (sc lo) as A. pose proof (sc la) as B.
  generalize dependent (sin lo). generalize dependent (cos lo). generalize dependent (sin la). generalize dependent (cos la).
  generalize (sin r) (cos r) (sin b) (cos b). intros. repeat split; nsatz.
Qed.
Lemma frame_complete lo la v :
  v = plus (times (dot v (sphere lo la)) (sphere lo la))
           (plus (times (dot v (north lo la)) (north lo la)) (times (dot v (east lo)) (east lo))).
Proof.
  destruct v as [a b c]. unfold dot, plus, times, sphere, north, east. cbn [vx vy vz].
  pose proof (sc lo) as A. pose proof (sc la) as B.
  generalize dependent (sin lo). generalize dependent (cos lo). generalize dependent (sin la). generalize dependent (cos la).
  intros. f_equal; nsatz.
Qed.
Lemma ahead_frame_of lo la r b v :
  dot v (sphere lo la) = cos r -> dot v (north lo la) = sin r * cos b -> dot v (east lo) = sin r * sin b ->
  v = ahead lo la r b.
Proof.
  intros A B C. rewrite (frame_complete lo la v), A, B, C. unfold ahead, plus, times. cbn [vx vy vz]. f_equal; ring.
Qed.

Lemma unit_ahead g h :
  unit h = ahead (to_rad (lon g)) (to_rad (lat g)) (distance g h / EARTH_RADIUS) (to_rad (bearing g h)).
Proof.
  destruct (bearing_spec g h) as (_ & N & E). destruct (distance_angle g h) as (_ & D).
  apply ahead_frame_of; [rewrite dot_comm; unfold unit in D; symmetry; exact D|symmetry; exact N|symmetry; exact E].
Qed.

Lemma ahead_distance g h r b : 0 <= r <= PI ->
  unit h = ahead (to_rad (lon g)) (to_rad (lat g)) r b -> distance g h = EARTH_RADIUS * r.
Proof.
  intros B E. pose proof (distance_angle g h) as A. pose proof R_pos as P.
  assert (X : distance g h / EARTH_RADIUS = r).
  { apply (angle_det _ _ _ _ A). split; [exact B|]. rewrite dot_comm, E. unfold unit. symmetry. apply ahead_frame. }
  rewrite <- X. field. lra.
Qed.
Lemma ahead_bearing g h r b : 0 <= r <= PI ->
  unit h = ahead (to_rad (lon g)) (to_rad (lat g)) r b ->
  sin r * cos (to_rad (bearing g h)) = sin r * cos b /\ sin r * sin (to_rad (bearing g h)) = sin r * sin b.
Proof.
  intros B E. destruct (bearing_spec g h) as (_ & N & Ea). rewrite (ahead_distance g h r b B E) in N, Ea.
  replace (EARTH_RADIUS * r / EARTH_RADIUS) with r in N, Ea by (field; pose proof R_pos; lra).
  rewrite N, Ea, E. unfold north_of, east_of. destruct (ahead_frame (to_rad (lon g)) (to_rad (lat g)) r b) as (_ & A & C).
  split; assumption.
Qed.

Lemma ahead_turn lo la r b b' x : sin r * cos b = sin r * cos b' -> sin r * sin b = sin r * sin b' ->
  ahead lo la r (b + x) = ahead lo la r (b' + x).
Proof.
  intros C S. unfold ahead, plus, times. cbn [vx vy vz]. rewrite !cos_plus, !sin_plus.
  generalize dependent (sin r). generalize (cos r) (cos b) (sin b) (cos b') (sin b') (cos x) (sin x).
  intros cr cb sb cb' sb' cx_ sx sr C S. unfold north, east, sphere. cbn [vx vy vz].
  generalize (sin lo) (cos lo) (sin la) (cos la). intros. f_equal; nsatz.
Qed.

Lemma distance_bound g h : 0 <= distance g h / EARTH_RADIUS <= PI.
Proof. apply (distance_angle g h). Qed.

Lemma rotate_unit p a x : -90 <= lat a <= 90 ->
  unit (rotate_point_around_by p a x) =
  ahead (to_rad (lon a)) (to_rad (lat a)) (distance a p / EARTH_RADIUS) (to_rad (bearing a p) + to_rad x).
Proof. intros L. unfold rotate_point_around_by. rewrite move_unit by (apply lat_cos; exact L). rewrite rad_plus. reflexivity. Qed.

(* turning a point seen in direction b turns it to b + x *)
Lemma rotate_ahead p a r b x : -90 <= lat a <= 90 -> 0 <= r <= PI ->
  unit p = ahead (to_rad (lon a)) (to_rad (lat a)) r b ->
  unit (rotate_point_around_by p a x) = ahead (to_rad (lon a)) (to_rad (lat a)) r (b + to_rad x).
Proof.
  intros L B E. rewrite (rotate_unit p a x L). rewrite (ahead_distance a p r b B E).
  replace (EARTH_RADIUS * r / EARTH_RADIUS) with r by (field; pose proof R_pos; lra).
  destruct (ahead_bearing a p r b B E) as (C & S). apply ahead_turn; assumption.
Qed.

(* ---- points of the map ---- *)
Lemma rad_lt x : -180 <= x <= 180 -> - PI < to_rad x <= PI.
Proof. pose proof PI_bounds. unfold to_rad, PI_. lra. Qed.
Lemma rad_lat x : -90 <= x <= 90 -> - (PI / 2) <= to_rad x <= PI / 2.
Proof. pose proof PI_bounds. unfold to_rad, PI_. lra. Qed.
Lemma rad_inj x y : to_rad x = to_rad y -> x = y.
Proof. unfold to_rad, PI_. lra. Qed.

Lemma sphere_inj a b c d : - PI < a <= PI -> - PI < c <= PI -> 0 < cos b -> 0 < cos d ->
  - (PI / 2) <= b <= PI / 2 -> - (PI / 2) <= d <= PI / 2 -> sphere a b = sphere c d -> a = c /\ b = d.
Proof.
  intros A C Cb Cd B D E. unfold sphere in E. injection E as E1 E2 E3.
  assert (b = d) by (rewrite <- (asin_sin b B), <- (asin_sin d D), E3; reflexivity). subst d.
  split; [|reflexivity]. apply angle_unique; [| |exact A|exact C].
  - apply (Rmult_eq_reg_l (cos b)); [exact E1|lra].
  - apply (Rmult_eq_reg_l (cos b)); [exact E2|lra].
Qed.
Lemma unit_inj g h : -90 <= lat g <= 90 -> -180 <= lon g <= 180 -> -90 <= lat h <= 90 -> -180 <= lon h <= 180 ->
  unit g = unit h -> g = h.
Proof.
  intros Lg Og Lh Oh E. destruct (sphere_inj _ _ _ _ (rad_lt _ Og) (rad_lt _ Oh) (lat_cos g Lg) (lat_cos h Lh)
    (rad_lat _ Lg) (rad_lat _ Lh) E) as (A & B). apply rad_inj in A, B. destruct g as [x y], h as [z w]. cbn [lon lat] in *. congruence.
Qed.

Lemma dot_1_eq u v : dot u u = 1 -> dot v v = 1 -> dot u v = 1 -> u = v.
Proof.
  destruct u as [a b c], v as [d e f]. unfold dot. cbn [vx vy vz]. intros U V W.
  pose proof (Rle_0_sqr (a - d)) as X. pose proof (Rle_0_sqr (b - e)) as Y. pose proof (Rle_0_sqr (c - f)) as Z.
  assert (S : Rsqr (a - d) + Rsqr (b - e) + Rsqr (c - f) = 0) by (unfold Rsqr; lra).
  assert (a - d = 0) by (apply Rsqr_0_uniq; lra). assert (b - e = 0) by (apply Rsqr_0_uniq; lra).
  assert (c - f = 0) by (apply Rsqr_0_uniq; lra). f_equal; lra.
Qed.
Lemma distance_0_iff g h : distance g h = 0 <-> unit g = unit h.
Proof.
  destruct (distance_angle g h) as (B & D). pose proof R_pos as P. split; intros E.
  - rewrite E in D. replace (0 / EARTH_RADIUS) with 0 in D by (field; lra). rewrite cos_0 in D.
    apply dot_1_eq; [apply unit_1|apply unit_1|symmetry; exact D].
  - rewrite <- E, unit_1 in D. assert (X : distance g h / EARTH_RADIUS = 0).
    { apply cos_unique; [rewrite cos_0; exact D|exact B|pose proof PI_RGT_0; lra]. }
    apply (f_equal (fun z => z * EARTH_RADIUS)) in X. replace (distance g h / EARTH_RADIUS * EARTH_RADIUS) with (distance g h) in X by (field; lra). lra.
Qed.

(* ---- how far a small change of the angles moves a point ---- *)
Lemma angle_abs x : Rabs x <= PI -> 0 <= Rabs x <= PI /\ cos (Rabs x) = cos x.
Proof.
  intros B. split; [split; [apply Rabs_pos|exact B]|]. unfold Rabs. destruct (Rcase_abs x); [apply cos_neg|reflexivity].
Qed.
Lemma sphere_near a b a' b' c : angle (sphere a b) (sphere a' b') c -> c <= Rabs (a - a') + Rabs (b - b').
Proof.
  intros H. pose proof (Rabs_pos (a - a')) as Pa. pose proof (Rabs_pos (b - b')) as Pb.
  destruct (Rle_dec PI (Rabs (a - a'))) as [|Na]; [destruct H; lra|].
  destruct (Rle_dec PI (Rabs (b - b'))) as [|Nb]; [destruct H; lra|].
  destruct (angle_abs (a - a')) as (Ba & Ca); [lra|]. destruct (angle_abs (b - b')) as (Bb & Cb); [lra|].
  assert (A1 : angle (sphere a b) (sphere a b') (Rabs (b - b'))).
  { split; [exact Bb|]. rewrite Cb, cos_minus. unfold dot, sphere. cbn [vx vy vz]. pose proof (sc a). nsatz. }
  destruct (angle_exists (sphere a b') (sphere a' b')) as (d & A2); [apply unit_sphere|apply unit_sphere|].
  assert (D : d <= Rabs (a - a')).
  { destruct A2 as [Bd Cd]. destruct (Rle_dec d (Rabs (a - a'))) as [|X]; [assumption|exfalso].
    assert (Y : cos d < cos (Rabs (a - a'))) by (apply cos_decreasing_1; lra). rewrite Ca, cos_minus in Y.
    assert (E : cos d = sin b' * sin b' + cos b' * cos b' * (cos a * cos a' + sin a * sin a')).
    { rewrite Cd. unfold dot, sphere. cbn [vx vy vz]. ring. }
    pose proof (COS_bound (a - a')) as Cb1. rewrite cos_minus in Cb1. pose proof (sc b') as Sb. 
    pose proof (Rle_0_sqr (sin b')) as Q. unfold Rsqr in Q. set (k := cos a * cos a' + sin a * sin a') in *.
    assert (cos b' * cos b' = 1 - sin b' * sin b') by lra. nra. }
  pose proof (angle_triangle _ _ _ _ _ _ (unit_sphere _ _) (unit_sphere _ _) (unit_sphere _ _) A1 A2 H). lra.
Qed.
