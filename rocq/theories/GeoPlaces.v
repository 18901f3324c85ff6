(* Proofs about the elements of stations on the globe. *)
From Coq Require Import QArith Qreals.
From Coq Require Import Reals Lra Lia Nsatz.
From Verif Require Import Base LayoutModel LayoutProofs GeoModel GeoSpec GeoProofs.
Local Open Scope R_scope.

(* ---- loops ---- *)
Lemma inner_spec (F : nat -> res point) (body : list point -> nat -> res (list point)) es : forall acc acc',
  (forall acc e, body acc e = bind (F e) (put acc e)) ->
  for_each body acc es = Ok acc' ->
  length acc' = length acc /\
  (forall e, In e es -> exists v, F e = Ok v /\ nth_error acc' e = Some v) /\
  (forall e, ~ In e es -> nth_error acc' e = nth_error acc e).
Proof.
  induction es as [|e es IH]; intros acc acc' B H; cbn [for_each] in H.
  - injection H as <-. split; [reflexivity|]. split; [intros e []|reflexivity].
  - apply bind_Ok in H. destruct H as (a1 & H1 & H). rewrite B in H1. apply bind_Ok in H1. destruct H1 as (v & Hv & H1).
    apply put_Ok in H1. destruct H1 as (L1 & _ & N1). destruct (IH a1 acc' B H) as (L & A & C). split; [congruence|]. split.
    + intros f Hf. destruct (in_dec Nat.eq_dec f es) as [I|I]; [apply A, I|]. destruct Hf as [<-|Hf]; [|contradiction].
      exists v. split; [exact Hv|]. rewrite (C e I), N1, Nat.eqb_refl. reflexivity.
    + intros f Hf. rewrite C, N1; [|intros X; apply Hf; right; exact X].
      destruct (Nat.eqb_spec f e) as [->|]; [exfalso; apply Hf; left; reflexivity|reflexivity].
Qed.

Lemma outer_spec (G : list point -> nat * geo_station -> res (list point)) (Val : nat -> geo_station -> nat -> point -> Prop)
    sts : forall k acc acc',
  (forall acc i st acc', G acc (i, st) = Ok acc' ->
     length acc' = length acc /\
     (forall e, In e (s_elements st) -> exists v, nth_error acc' e = Some v /\ Val i st e v) /\
     (forall e, ~ In e (s_elements st) -> nth_error acc' e = nth_error acc e)) ->
  NoDup (concat (map s_elements sts)) ->
  for_each G acc (with_ids k sts) = Ok acc' ->
  length acc' = length acc /\
  (forall j st e, nth_error sts j = Some st -> In e (s_elements st) ->
     exists v, nth_error acc' e = Some v /\ Val (k + j)%nat st e v) /\
  (forall e, ~ In e (concat (map s_elements sts)) -> nth_error acc' e = nth_error acc e).
Proof.
  induction sts as [|st sts IH]; intros k acc acc' B N H; cbn [with_ids for_each] in H.
  - injection H as <-. split; [reflexivity|]. split; [intros [|j] st e X; discriminate|reflexivity].
  - apply bind_Ok in H. destruct H as (a1 & H1 & H). cbn [map concat] in N. apply NoDup_app_inv in N. destruct N as (_ & N & D).
    destruct (B _ _ _ _ H1) as (L1 & A1 & C1). destruct (IH _ _ _ B N H) as (L & A & C). split; [congruence|]. split.
    + intros [|j] st' e X I; cbn [nth_error] in X.
      * injection X as <-. destruct (A1 e I) as (v & V & Vv). exists v. rewrite Nat.add_0_r. split; [|exact Vv]. rewrite (C e (D e I)). exact V.
      * destruct (A j st' e X I) as (v & V & Vv). exists v. split; [exact V|]. replace (k + S j)%nat with (S k + j)%nat by lia. exact Vv.
    + intros e X. cbn [map concat] in X. rewrite in_app_iff in X. rewrite C, C1; tauto.
Qed.

(* ---- the middle of a station ---- *)
Lemma center_loop_spec l es : forall x y a b, center_loop l es x y = Ok (a, b) ->
  (x <= a /\ y <= b) /\
  (forall e q, In e es -> nth_error l e = Some q -> Q2R (x_ q) <= a /\ Q2R (y_ q) <= b) /\
  (a = x \/ exists e q, In e es /\ nth_error l e = Some q /\ Q2R (x_ q) = a) /\
  (b = y \/ exists e q, In e es /\ nth_error l e = Some q /\ Q2R (y_ q) = b).
Proof.
  induction es as [|e es IH]; intros x y a b H; cbn [center_loop] in H.
  - injection H as <- <-. split; [lra|]. split; [intros e q []|]. split; left; reflexivity.
  - apply bind_Ok in H. destruct H as (p & Hp & H). apply at_Ok in Hp. destruct (IH _ _ _ _ H) as ((A1 & A2) & B & Cx & Cy).
    pose proof (Rmax_l x (Q2R (x_ p))). pose proof (Rmax_r x (Q2R (x_ p))).
    pose proof (Rmax_l y (Q2R (y_ p))). pose proof (Rmax_r y (Q2R (y_ p))). split; [lra|]. split; [|split].
    + intros f q [<-|I] Hq; [rewrite Hp in Hq; injection Hq as <-; lra|exact (B f q I Hq)].
    + destruct Cx as [Cx|(f & q & I & Hq & Eq)]; [|right; exists f, q; split; [right; exact I|split; assumption]].
      unfold Rmax in Cx. destruct (Rle_dec x (Q2R (x_ p))); [|left; exact Cx].
      right. exists e, p. split; [left; reflexivity|]. split; [exact Hp|congruence].
    + destruct Cy as [Cy|(f & q & I & Hq & Eq)]; [|right; exists f, q; split; [right; exact I|split; assumption]].
      unfold Rmax in Cy. destruct (Rle_dec y (Q2R (y_ p))); [|left; exact Cy].
      right. exists e, p. split; [left; reflexivity|]. split; [exact Hp|congruence].
Qed.

(* ---- polar coordinates ---- *)
Lemma polar_spec x y : exists b slip,
  to_rad (bearing_ (to_polar x y)) = b - slip /\ 0 <= slip <= 2 / 10000 /\ (y < 0 -> slip = 0) /\ (0 < y -> slip = 2 * PI - 6283 / 1000) /\
  sqrt (x ^ 2 + y ^ 2) * cos b = - x /\ sqrt (x ^ 2 + y ^ 2) * sin b = - y.
Proof.
  unfold to_polar. cbn [bearing_]. destruct (atan2_spec y (- x)) as (C & S & B). set (t := atan2 y (- x)) in *.
  replace (- x * - x + y * y) with (x ^ 2 + y ^ 2) in C, S by ring.
  pose proof PI_bounds as Pb.
  assert (Sg : to_deg t <= 0 <-> t <= 0).
  { unfold to_deg, PI_. split; intros X.
    - assert (Y : t * 180 / (31415 / 10000) = t * (1800000 / 31415)) by field. rewrite Y in X. lra.
    - replace (t * 180 / (31415 / 10000)) with (t * (1800000 / 31415)) by field. lra. }
  destruct (Rle_dec (to_deg t) 0) as [L|L].
  - exists (- t), 0. split; [|split; [lra|split; [reflexivity|split]]].
    + rewrite Rabs_left1 by exact L. unfold to_rad, to_deg, PI_. field.
    + intros Y. exfalso. apply Sg in L.
      assert (0 <= sin (- t)) by (apply sin_ge_0; lra). rewrite sin_neg in H. pose proof (sqrt_pos (x ^ 2 + y ^ 2)). nra.
    + rewrite cos_neg, sin_neg. lra.
  - exists (2 * PI - t), (2 * PI - 6283 / 1000). split; [|split; [lra|split; [|split]]].
    + rewrite rad_minus, rad_deg. unfold to_rad, PI_. field.
    + intros Y. exfalso. assert (Lt : 0 < t) by (destruct (Rle_dec t 0) as [Z|Z]; [apply Sg in Z; contradiction|lra]).
      assert (0 <= sin t) by (apply sin_ge_0; lra). pose proof (sqrt_pos (x ^ 2 + y ^ 2)). nra.
    + reflexivity.
    + replace (2 * PI - t) with (- t + 2 * INR 1 * PI) by (cbn [INR]; ring). rewrite cos_period, sin_period, cos_neg, sin_neg. lra.
Qed.

(* ---- the elements of one station ---- *)
Definition offset (l : layout) (c : R * R) (e : nat) (x y : R) : Prop :=
  exists q, nth_error l e = Some q /\ x = Q2R (x_ q) - fst c /\ y = Q2R (y_ q) - snd c.

Lemma place_station_spec l coords : forall acc i st acc', place_station l coords acc (i, st) = Ok acc' ->
  length acc' = length acc /\
  (forall e, In e (s_elements st) -> exists v, nth_error acc' e = Some v /\
     exists c here q, get_station_center l st = Ok c /\ nth_error coords i = Some here /\ nth_error l e = Some q /\
       v = move here (dist_ (to_polar ((Q2R (x_ q) - fst c) * 10) ((Q2R (y_ q) - snd c) * 10)))
                     (bearing_ (to_polar ((Q2R (x_ q) - fst c) * 10) ((Q2R (y_ q) - snd c) * 10)))) /\
  (forall e, ~ In e (s_elements st) -> nth_error acc' e = nth_error acc e).
Proof.
  intros acc i st acc' H. unfold place_station in H. cbn [fst snd] in H. apply bind_Ok in H. destruct H as ([cx cy] & Hc & H).
  set (F := fun e => do q <- at_ l e;
      do here <- at_ coords i;
      Ok (move here (dist_ (to_polar ((Q2R (x_ q) - cx) * 10) ((Q2R (y_ q) - cy) * 10)))
                    (bearing_ (to_polar ((Q2R (x_ q) - cx) * 10) ((Q2R (y_ q) - cy) * 10))))).
  apply (inner_spec F) in H.
  2: { clear. intros acc e. unfold F. destruct (at_ l e); [cbn [bind]; destruct (at_ coords i); reflexivity|reflexivity..]. }
  destruct H as (L & A & B).
  split; [exact L|]. split; [|exact B]. intros e I. destruct (A e I) as (v & Fv & N). exists v. split; [exact N|].
  unfold F in Fv. apply bind_Ok in Fv. destruct Fv as (q & Hq & Fv). apply bind_Ok in Fv. destruct Fv as (here & Hh & Fv).
  apply at_Ok in Hq, Hh. injection Fv as <-. exists (cx, cy), here, q. split; [exact Hc|]. split; [exact Hh|]. split; [exact Hq|reflexivity].
Qed.

Lemma rotate_station_spec coords rots els : forall acc i st acc', rotate_station coords rots els acc (i, st) = Ok acc' ->
  length acc' = length acc /\
  (forall e, In e (s_elements st) -> exists v, nth_error acc' e = Some v /\
     exists here x p, nth_error coords i = Some here /\ nth_error rots i = Some x /\ nth_error els e = Some p /\
       v = rotate_point_around_by p here x) /\
  (forall e, ~ In e (s_elements st) -> nth_error acc' e = nth_error acc e).
Proof.
  intros acc i st acc' H. unfold rotate_station in H. cbn [fst snd] in H. apply bind_Ok in H. destruct H as (here & Hh & H).
  apply bind_Ok in H. destruct H as (x & Hx & H). apply at_Ok in Hh, Hx.
  set (F := fun e => do p <- at_ els e; Ok (rotate_point_around_by p here x)).
  apply (inner_spec F) in H.
  2: { clear. intros acc e. unfold F. destruct (at_ els e); reflexivity. }
  destruct H as (L & A & B).
  split; [exact L|]. split; [|exact B]. intros e I. destruct (A e I) as (v & Fv & N). exists v. split; [exact N|].
  unfold F in Fv. apply bind_Ok in Fv. destruct Fv as (p & Hp & Fv). apply at_Ok in Hp. injection Fv as <-.
  exists here, x, p. repeat split; assumption.
Qed.

(* a point moved by polar coordinates and turned *)
Lemma moved_and_turned here x y by_ a : -90 <= lat here <= 90 ->
  let d := sqrt (x ^ 2 + y ^ 2) in
  10 * d <= EARTH_RADIUS * PI -> on_plan x y d a ->
  exists slip, 0 <= slip <= 2 / 10000 /\ (y < 0 -> slip = 0) /\ (0 < y -> slip = 2 * PI - 6283 / 1000) /\
    unit (rotate_point_around_by (move here (dist_ (to_polar (x * 10) (y * 10))) (bearing_ (to_polar (x * 10) (y * 10)))) here by_)
    = ahead (to_rad (lon here)) (to_rad (lat here)) (10 * d / EARTH_RADIUS) (PI / 2 + to_rad by_ + a - slip).
Proof.
  intros L d Le (D0 & Px & Py). destruct (polar_spec (x * 10) (y * 10)) as (b & slip & E & Sl & Sn & Sm & Cb & Sb).
  assert (Dd : sqrt ((x * 10) ^ 2 + (y * 10) ^ 2) = 10 * d).
  { replace ((x * 10) ^ 2 + (y * 10) ^ 2) with ((10 * 10) * (x ^ 2 + y ^ 2)) by ring.
    rewrite sqrt_mult by nra. rewrite sqrt_square by lra. reflexivity. }
  rewrite Dd in Cb, Sb. exists slip. split; [exact Sl|]. split; [intros Y; apply Sn; lra|]. split; [intros Y; apply Sm; lra|].
  pose proof R_pos as P. pose proof PI_RGT_0 as Pp.
  set (r := 10 * d / EARTH_RADIUS).
  assert (Rb : 0 <= r <= PI).
  { unfold r. split.
    - apply Rmult_le_pos; [lra|]. left. apply Rinv_0_lt_compat. exact P.
    - apply (Rmult_le_reg_l EARTH_RADIUS); [exact P|]. replace (EARTH_RADIUS * (10 * d / EARTH_RADIUS)) with (10 * d) by (field; lra). exact Le. }
  rewrite (rotate_ahead _ here r (b - slip) by_ L Rb).
  2: { rewrite move_unit by (apply lat_cos; exact L). cbn [to_polar dist_]. rewrite Dd. fold r.
       change (bearing_ _) with (bearing_ (to_polar (x * 10) (y * 10))). rewrite E. reflexivity. }
  replace (PI / 2 + to_rad by_ + a - slip) with ((a + PI / 2) + (to_rad by_ - slip)) by ring.
  replace (b - slip + to_rad by_) with (b + (to_rad by_ - slip)) by ring.
  rewrite Rplus_comm with (r1 := a). 
  assert (Z : sin r * cos b = sin r * cos (PI / 2 + a) /\ sin r * sin b = sin r * sin (PI / 2 + a)).
  { destruct (Req_dec d 0) as [D|D].
    - unfold r. rewrite D. replace (10 * 0 / EARTH_RADIUS) with 0 by (field; lra). rewrite sin_0. split; ring.
    - rewrite cos_plus, sin_plus, cos_PI2, sin_PI2. split; f_equal.
      + apply (Rmult_eq_reg_l d); [|exact D]. lra.
      + apply (Rmult_eq_reg_l d); [|exact D]. lra. }
  apply ahead_turn; apply Z.
Qed.

(* ---- the best turn ---- *)
Definition nowhere : point := mk_point 0 0.
Definition total_gap (id : nat) (st : geo_station) (coords els : list point) (rots : list R) (degree : R) : R :=
  fold_right Rplus 0
    (map (fun b => distance (rotate_point_around_by (nth (b_element b) els nowhere) (nth id coords nowhere) degree)
                            (rotate_point_around_by (nth (b_neighbour_element b) els nowhere)
                               (nth (b_neighbour b) coords nowhere) (nth (b_neighbour b) rots 0)))
         (s_borders st)).

Lemma at_nth {A} (l : list A) i a d : at_ l i = Ok a -> nth i l d = a.
Proof. intros H. apply at_Ok in H. apply nth_error_nth. exact H. Qed.

Lemma score_spec id st coords els rots degree v : rotation_score id st coords els rots degree = Ok v ->
  v = total_gap id st coords els rots degree.
Proof.
  unfold rotation_score, total_gap. generalize (s_borders st). intros bs.
  enough (G : forall z, for_each (fun score b =>
      do from <- at_ els (b_element b); do here <- at_ coords id; do to <- at_ els (b_neighbour_element b);
      do there <- at_ coords (b_neighbour b); do by_ <- at_ rots (b_neighbour b);
      Ok (score + distance (rotate_point_around_by from here degree) (rotate_point_around_by to there by_))) z bs = Ok v ->
      v = z + fold_right Rplus 0
    (map (fun b => distance (rotate_point_around_by (nth (b_element b) els nowhere) (nth id coords nowhere) degree)
                            (rotate_point_around_by (nth (b_neighbour_element b) els nowhere)
                               (nth (b_neighbour b) coords nowhere) (nth (b_neighbour b) rots 0))) bs)).
  { intros H. rewrite (G 0 H).
    apply Rplus_0_l. }
  induction bs as [|b bs IH]; intros z H; cbn [for_each] in H; cbn [map fold_right].
  - injection H as <-. ring.
  - apply bind_Ok in H. destruct H as (z1 & H1 & H). rewrite (IH z1 H).
    apply bind_Ok in H1. destruct H1 as (a1 & E1 & H1). apply bind_Ok in H1. destruct H1 as (a2 & E2 & H1).
    apply bind_Ok in H1. destruct H1 as (a3 & E3 & H1). apply bind_Ok in H1. destruct H1 as (a4 & E4 & H1).
    apply bind_Ok in H1. destruct H1 as (a5 & E5 & H1). injection H1 as <-.
    rewrite (at_nth _ _ _ nowhere E1), (at_nth _ _ _ nowhere E2), (at_nth _ _ _ nowhere E3), (at_nth _ _ _ nowhere E4), (at_nth _ _ _ 0 E5). ring.
Qed.

Lemma gap_bound id st coords els rots degree :
  total_gap id st coords els rots degree <= INR (length (s_borders st)) * (EARTH_RADIUS * PI).
Proof.
  unfold total_gap. induction (s_borders st) as [|b bs IH]; cbn [map fold_right length].
  - cbn [INR]. lra.
  - rewrite S_INR. set (d := distance _ _).
    assert (D : d <= EARTH_RADIUS * PI); [|lra].
    pose proof (distance_bound (rotate_point_around_by (nth (b_element b) els nowhere) (nth id coords nowhere) degree)
      (rotate_point_around_by (nth (b_neighbour_element b) els nowhere) (nth (b_neighbour b) coords nowhere) (nth (b_neighbour b) rots 0))) as [_ B].
    fold d in B. pose proof R_pos as P.
    replace d with (EARTH_RADIUS * (d / EARTH_RADIUS)) by (field; lra). apply Rmult_le_compat_l; lra.
Qed.

Lemma MAX_large n : (Z.of_nat n < 2 ^ 64)%Z -> INR n * (EARTH_RADIUS * PI) < MAX_REAL.
Proof.
  intros H. rewrite INR_IZR_INZ. assert (A : IZR (Z.of_nat n) <= IZR (2 ^ 64)) by (apply IZR_le; lia).
  assert (N : 0 <= IZR (Z.of_nat n)) by (apply IZR_le; lia).
  pose proof PI_bounds as Pb.
  assert (M : IZR (2 ^ 90) <= MAX_REAL).
  { unfold MAX_REAL, MAX_DOUBLE, Q2R, inject_Z. cbn [Qnum Qden]. rewrite Rinv_1, Rmult_1_r. apply IZR_le. vm_compute. discriminate. }
  assert (B : EARTH_RADIUS * PI <= 30000000) by (unfold EARTH_RADIUS; lra).
  assert (B0 : 0 <= EARTH_RADIUS * PI) by (unfold EARTH_RADIUS; lra).
  apply Rle_lt_trans with (IZR (2 ^ 64) * 30000000); [apply Rmult_le_compat; assumption|].
  eapply Rlt_le_trans; [|exact M]. rewrite <- mult_IZR. apply IZR_lt. vm_compute. reflexivity.
Qed.

Lemma best_loop (f : R -> res R) (F : R -> R) ds : forall b0 s0 b s,
  (forall d v, f d = Ok v -> v = F d) ->
  for_each (fun '(best, best_score) degree =>
      do score <- f degree;
      Ok (if Rlt_dec score best_score then (degree, score) else (best, best_score))) (b0, s0) ds = Ok (b, s) ->
  s <= s0 /\ (forall d, In d ds -> s <= F d) /\
  ((b = b0 /\ s = s0) \/
   (exists before after, ds = (before ++ b :: after)%list /\ s = F b /\ s < s0 /\ forall d, In d before -> s < F d)).
Proof.
  induction ds as [|d ds IH]; intros b0 s0 b s Ff H; cbn [for_each] in H.
  - injection H as <- <-. split; [lra|]. split; [intros d []|]. left. split; reflexivity.
  - apply bind_Ok in H. destruct H as ((b1 & s1) & H1 & H). apply bind_Ok in H1. destruct H1 as (v & Hv & H1).
    apply Ff in Hv. destruct (IH _ _ _ _ Ff H) as (A & B & C). destruct (Rlt_dec v s0) as [L|L].
    + injection H1 as <- <-. split; [lra|]. split.
      * intros e [<-|I]; [lra|apply B, I].
      * right. destruct C as [(-> & ->)|(be & af & -> & E & Lt & Bf)].
        -- exists [], ds. split; [reflexivity|]. split; [exact Hv|]. split; [exact L|intros e []].
        -- exists (d :: be), af. split; [reflexivity|]. split; [exact E|]. split; [lra|]. intros e [<-|I]; [lra|apply Bf, I].
    + injection H1 as <- <-. split; [lra|]. split.
      * intros e [<-|I]; [lra|apply B, I].
      * destruct C as [C|(be & af & -> & E & Lt & Bf)]; [left; exact C|right].
        exists (d :: be), af. split; [reflexivity|]. split; [exact E|]. split; [lra|]. intros e [<-|I]; [lra|apply Bf, I].
Qed.

Lemma degrees_tried_nth before b after : degrees_tried = (before ++ b :: after)%list ->
  b = 5 * INR (length before) /\ (length before < 72)%nat /\
  forall j, (j < length before)%nat -> In (5 * INR j) before.
Proof.
  intros E. assert (L : length degrees_tried = 72%nat) by (unfold degrees_tried; rewrite map_length, seq_length; reflexivity).
  assert (N : forall j, (j < 72)%nat -> nth_error degrees_tried j = Some (5 * INR j)).
  { intros j Lj. unfold degrees_tried. erewrite map_nth_error; [reflexivity|].
    rewrite (nth_error_nth' _ 0%nat) by (rewrite seq_length; exact Lj). rewrite seq_nth by exact Lj. reflexivity. }
  assert (Lb : (length before < 72)%nat) by (rewrite E, app_length in L; cbn [length] in L; lia).
  pose proof (N _ Lb) as X. rewrite E, nth_error_app2, Nat.sub_diag in X by lia. cbn [nth_error] in X. injection X as ->.
  split; [reflexivity|]. split; [exact Lb|]. intros j Lj. pose proof (N j ltac:(lia)) as Y. rewrite E, nth_error_app1 in Y by exact Lj.
  eapply nth_error_In. exact Y.
Qed.

Lemma best_rotation_spec id st coords els rots b : (Z.of_nat (length (s_borders st)) < 2 ^ 64)%Z ->
  get_best_rotation (id, st) coords els rots = Ok b ->
  exists k, (k < 72)%nat /\ b = 5 * INR k /\
    (forall j, (j < 72)%nat -> total_gap id st coords els rots b <= total_gap id st coords els rots (5 * INR j)) /\
    (forall j, (j < k)%nat -> total_gap id st coords els rots b < total_gap id st coords els rots (5 * INR j)).
Proof.
  intros Hb H. unfold get_best_rotation in H. cbn [fst snd] in H. apply bind_Ok in H. destruct H as ((b' & s) & H & E). injection E as ->.
  apply (best_loop _ (total_gap id st coords els rots)) in H; [|intros d v; apply score_spec].
  destruct H as (Le & A & C).
  assert (Im : forall j, (j < 72)%nat -> In (5 * INR j) degrees_tried).
  { intros j L. unfold degrees_tried. apply (in_map (fun k => 5 * INR k)). apply in_seq. lia. }
  pose proof (MAX_large _ Hb) as M.
  destruct C as [(-> & ->)|(be & af & D & -> & Lt & Bf)].
  - exfalso. pose proof (A _ (Im 0%nat ltac:(lia))) as X. pose proof (gap_bound id st coords els rots (5 * INR 0)). lra.
  - destruct (degrees_tried_nth _ _ _ D) as (Eb & L & Ib). exists (length be). split; [exact L|]. split; [exact Eb|]. split.
    + intros j Lj. apply A, Im, Lj.
    + intros j Lj. apply Bf, Ib, Lj.
Qed.

Lemma one_pass_nth sts coords els rots : forall k rs, one_pass (with_ids k sts) coords els rots = Ok rs ->
  length rs = length sts /\
  forall j st, nth_error sts j = Some st -> exists r, nth_error rs j = Some r /\ get_best_rotation ((k + j)%nat, st) coords els rots = Ok r.
Proof.
  induction sts as [|st sts IH]; intros k rs H; cbn [with_ids one_pass] in H.
  - injection H as <-. split; [reflexivity|]. intros [|j] st X; discriminate.
  - apply bind_Ok in H. destruct H as (r & Hr & H). apply bind_Ok in H. destruct H as (rs' & Hrs & H). injection H as <-.
    destruct (IH _ _ Hrs) as (L & A). split; [cbn [length]; congruence|]. intros [|j] st' X; cbn [nth_error] in *.
    + injection X as <-. exists r. rewrite Nat.add_0_r. split; [reflexivity|exact Hr].
    + destruct (A j st' X) as (r' & Er & Gr). exists r'. split; [exact Er|]. replace (k + S j)%nat with (S k + j)%nat by lia. exact Gr.
Qed.

Lemma best_rotations_spec sts coords els rs : get_best_rotations sts coords els = Ok rs ->
  length rs = length sts /\
  exists before, length before = length sts /\
    forall j st, nth_error sts j = Some st -> exists r, nth_error rs j = Some r /\ get_best_rotation (j, st) coords els before = Ok r.
Proof.
  intros H. unfold get_best_rotations in H. cbn [for_each] in H.
  apply bind_Ok in H. destruct H as (r1 & H1 & H). apply bind_Ok in H. destruct H as (r2 & H2 & H).
  apply bind_Ok in H. destruct H as (r3 & H3 & H). injection H as <-.
  apply one_pass_nth in H2, H3. destruct H2 as (L2 & _). destruct H3 as (L3 & A). split; [exact L3|]. exists r2. split; [exact L2|exact A].
Qed.

(* ---- the loops come to an end ---- *)
Lemma inner_ok (F : nat -> res point) (body : list point -> nat -> res (list point)) es : forall acc,
  (forall acc e, body acc e = bind (F e) (put acc e)) ->
  (forall e, In e es -> (e < length acc)%nat /\ exists v, F e = Ok v) ->
  exists acc', for_each body acc es = Ok acc' /\ length acc' = length acc.
Proof.
  induction es as [|e es IH]; intros acc B H; cbn [for_each]; [eauto|].
  destruct (H e (or_introl eq_refl)) as (L & v & Fv). rewrite B, Fv. cbn [bind].
  destruct (put_ok acc e v L) as (a1 & E). rewrite E. cbn [bind]. apply put_Ok in E. destruct E as (L1 & _).
  destruct (IH a1 B) as (a2 & E2 & L2); [intros f I; rewrite L1; apply H; right; exact I|]. exists a2. split; [exact E2|congruence].
Qed.
Lemma outer_ok (G : list point -> nat * geo_station -> res (list point)) sts : forall k acc,
  (forall acc' j st, length acc' = length acc -> nth_error sts j = Some st ->
     exists a, G acc' ((k + j)%nat, st) = Ok a /\ length a = length acc) ->
  exists acc', for_each G acc (with_ids k sts) = Ok acc' /\ length acc' = length acc.
Proof.
  induction sts as [|st sts IH]; intros k acc H; cbn [with_ids for_each]; [eauto|].
  destruct (H acc 0%nat st eq_refl eq_refl) as (a & E & L). rewrite Nat.add_0_r in E. rewrite E. cbn [bind].
  destruct (IH (S k) a) as (a2 & E2 & L2).
  - intros acc' j st' L' X. destruct (H acc' (S j) st') as (b & Eb & Lb); [congruence|exact X|].
    exists b. replace (S k + j)%nat with (k + S j)%nat by lia. split; [exact Eb|congruence].
  - exists a2. split; [exact E2|congruence].
Qed.
Lemma at_lt {A} (l : list A) i : (i < length l)%nat -> exists a, at_ l i = Ok a.
Proof. intros L. unfold at_. destruct (nth_error l i) eqn:E; [eauto|]. apply nth_error_None in E. lia. Qed.

Lemma center_ok l es : forall x y, (forall e, In e es -> (e < length l)%nat) -> exists c, center_loop l es x y = Ok c.
Proof.
  induction es as [|e es IH]; intros x y H; cbn [center_loop]; [eauto|].
  destruct (at_lt l e (H e (or_introl eq_refl))) as (p & ->). cbn [bind]. apply IH. intros f I. apply H. right. exact I.
Qed.

Section Ends.
  Variable l : layout.
  Variable sts : list geo_station.
  Hypothesis elements_known : forall st e, In st sts -> In e (s_elements st) -> (e < length l)%nat.
  Hypothesis borders_known : forall st b, In st sts -> In b (s_borders st) ->
    (b_element b < length l)%nat /\ (b_neighbour_element b < length l)%nat /\ (b_neighbour b < length sts)%nat.

  Lemma placing_ok coords : length coords = length sts ->
    exists els, get_element_gps_coords sts coords l = Ok els /\ length els = length l.
  Proof.
    intros Lc. unfold get_element_gps_coords.
    destruct (outer_ok (place_station l coords) sts 0 (repeat (mk_point (-361) (-361)) (length l))) as (a & E & L).
    - intros acc j st La Hs. rewrite repeat_length in *. pose proof (nth_error_In _ _ Hs) as I.
      assert (Lj : (j < length sts)%nat) by (apply nth_error_Some; congruence).
      unfold place_station, get_station_center. cbn [fst snd Nat.add].
      destruct (center_ok l (s_elements st) 0 0 (fun e => elements_known st e I)) as ((cx & cy) & ->). cbn [bind].
      destruct (inner_ok (fun e => do q <- at_ l e; do here <- at_ coords j;
         Ok (move here (dist_ (to_polar ((Q2R (x_ q) - cx / 2) * LAYOUT_TO_GPS) ((Q2R (y_ q) - cy / 2) * LAYOUT_TO_GPS)))
              (bearing_ (to_polar ((Q2R (x_ q) - cx / 2) * LAYOUT_TO_GPS) ((Q2R (y_ q) - cy / 2) * LAYOUT_TO_GPS)))))
         (fun c e => do q <- at_ l e;
            let p := to_polar ((Q2R (x_ q) - cx / 2) * LAYOUT_TO_GPS) ((Q2R (y_ q) - cy / 2) * LAYOUT_TO_GPS) in
            do here <- at_ coords j; put c e (move here (dist_ p) (bearing_ p))) (s_elements st) acc) as (a & Ea & La').
      + intros acc' e. destruct (at_ l e); [cbn [bind]; destruct (at_ coords j); reflexivity|reflexivity..].
      + intros e Ie. pose proof (elements_known st e I Ie) as Le. split; [lia|].
        destruct (at_lt l e Le) as (q & ->). cbn [bind]. destruct (at_lt coords j) as (h & ->); [lia|]. cbn [bind]. eauto.
      + exists a. split; [exact Ea|congruence].
    - rewrite repeat_length in L. eauto.
  Qed.

  Lemma score_ok coords els rots degree j st : length coords = length sts -> length els = length l -> length rots = length sts ->
    nth_error sts j = Some st -> exists v, rotation_score j st coords els rots degree = Ok v.
  Proof.
    intros Lc Le Lr Hs. pose proof (nth_error_In _ _ Hs) as I. assert (Lj : (j < length sts)%nat) by (apply nth_error_Some; congruence).
    unfold rotation_score. destruct (at_lt coords j) as (a2 & ->); [lia|]. generalize 0. pose proof (fun b => borders_known st b I) as Hb. clear I Hs. induction (s_borders st) as [|b bs IH]; intros z; cbn [for_each]; [eauto|].
    destruct (Hb b (or_introl eq_refl)) as (B1 & B2 & B3).
    destruct (at_lt els (b_element b)) as (a1 & ->); [lia|]. cbn [bind].
    destruct (at_lt els (b_neighbour_element b)) as (a3 & ->); [lia|]. cbn [bind].
    destruct (at_lt coords (b_neighbour b)) as (a4 & ->); [lia|]. cbn [bind].
    destruct (at_lt rots (b_neighbour b)) as (a5 & ->); [lia|]. cbn [bind]. apply IH. intros b' I'. apply Hb. right. exact I'.
  Qed.
  Lemma best_ok coords els rots j st : length coords = length sts -> length els = length l -> length rots = length sts ->
    nth_error sts j = Some st -> exists r, get_best_rotation (j, st) coords els rots = Ok r.
  Proof.
    intros Lc Le Lr Hs. unfold get_best_rotation. cbn [fst snd].
    enough (X : forall ds z, exists r, for_each (fun '(best, best_score) degree =>
      do score <- rotation_score j st coords els rots degree;
      Ok (if Rlt_dec score best_score then (degree, score) else (best, best_score))) z ds = Ok r).
    { destruct (X degrees_tried (MAX_REAL, MAX_REAL)) as ((b & s) & E). exists b. rewrite E. reflexivity. }
    induction ds as [|d ds IH]; intros z; cbn [for_each]; [eauto|]. destruct z as [b s].
    destruct (score_ok coords els rots d j st Lc Le Lr Hs) as (v & ->). cbn [bind]. apply IH.
  Qed.
  Lemma pass_ok coords els rots : length coords = length sts -> length els = length l -> length rots = length sts ->
    exists rs, one_pass (with_ids 0 sts) coords els rots = Ok rs /\ length rs = length sts.
  Proof.
    intros Lc Le Lr.
    enough (X : forall ss k, (forall j st, nth_error ss j = Some st -> nth_error sts (k + j) = Some st) ->
      exists rs, one_pass (with_ids k ss) coords els rots = Ok rs /\ length rs = length ss).
    { apply (X sts 0%nat). intros j st E. exact E. }
    induction ss as [|st ss IH]; intros k H; cbn [with_ids one_pass]; [exists []; split; reflexivity|].
    destruct (best_ok coords els rots k st Lc Le Lr) as (r & ->); [rewrite <- (Nat.add_0_r k); apply H; reflexivity|]. cbn [bind].
    destruct (IH (S k)) as (rs & -> & L); [intros j st' E; replace (S k + j)%nat with (k + S j)%nat by lia; apply H; exact E|].
    cbn [bind]. exists (r :: rs). split; [reflexivity|]. cbn [length]. congruence.
  Qed.
  Lemma rotations_ok coords els : length coords = length sts -> length els = length l ->
    exists rs, get_best_rotations sts coords els = Ok rs /\ length rs = length sts.
  Proof.
    intros Lc Le. unfold get_best_rotations. cbn [for_each].
    destruct (pass_ok coords els (repeat 0 (length sts)) Lc Le (repeat_length _ _)) as (r1 & -> & L1). cbn [bind].
    destruct (pass_ok coords els r1 Lc Le L1) as (r2 & -> & L2). cbn [bind].
    destruct (pass_ok coords els r2 Lc Le L2) as (r3 & -> & L3). cbn [bind]. eauto.
  Qed.
  Lemma turning_ok coords rots els : length coords = length sts -> length els = length l -> length rots = length sts ->
    exists r, rotate_elements sts coords rots els = Ok r /\ length r = length l.
  Proof.
    intros Lc Le Lr. unfold rotate_elements.
    destruct (outer_ok (rotate_station coords rots els) sts 0 els) as (a & E & L); [|exists a; split; [exact E|congruence]].
    intros acc j st La Hs. pose proof (nth_error_In _ _ Hs) as I. assert (Lj : (j < length sts)%nat) by (apply nth_error_Some; congruence).
    unfold rotate_station. cbn [fst snd Nat.add]. destruct (at_lt coords j) as (h & ->); [lia|]. cbn [bind].
    destruct (at_lt rots j) as (x & ->); [lia|]. cbn [bind].
    destruct (inner_ok (fun e => do p <- at_ els e; Ok (rotate_point_around_by p h x))
      (fun rotated e => do p <- at_ els e; put rotated e (rotate_point_around_by p h x)) (s_elements st) acc) as (a & Ea & La').
    - intros acc' e. destruct (at_ els e); reflexivity.
    - intros e Ie. pose proof (elements_known st e I Ie). split; [lia|]. destruct (at_lt els e) as (p & ->); [lia|]. cbn [bind]. eauto.
    - exists a. split; [exact Ea|congruence].
  Qed.
End Ends.
