(* C45 (driving phases) and C50 (polynomials, piecewise functions, train
   physics).  Vocabulary: PhysSpec. *)
From Coq Require Import Lqa.
From Verif Require Import Base PhysModel PhysSpec PhysProofs.

(* ------------------------------------------------------------------ C50 *)

(* A polynomial (factors in descending degree) evaluates to the sum of factor
   times power. *)
Theorem C50_polynomial : forall fs x, polynomial fs x == power_sum 0 (rev fs) x.
Proof. exact polynomial_sum. Qed.
Print Assumptions C50_polynomial.
Example C50_polynomial_sat : polynomial [2; 0; -(3); 5] (1#2) == 2 * (1#8) - 3 * (1#2) + 5 /\
  power_sum 0 [5; -(3); 0; 2] (1#2) == 2 * (1#8) - 3 * (1#2) + 5.
Proof. split; reflexivity. Qed.

(* On adjoining pieces the function is, at every point of the domain, the piece
   whose half open interval contains the point. *)
Theorem C50_piecewise : forall ps p x, adjoining ps -> In p ps -> piece_contains p x ->
  exists y, piecewise ps x = Ok y /\ y == power_sum 0 (rev (p_factors p)) x.
Proof.
  intros ps p x A Hi (Hf & Ht). apply In_nth_error in Hi. destruct Hi as (i & Hi).
  rewrite (piecewise_found ps x i p Hi Ht).
  - eexists. split; [reflexivity|]. apply polynomial_sum.
  - intros j q L Hq. pose proof (adjoining_before ps A i j p q L Hi Hq). lra.
Qed.
Print Assumptions C50_piecewise.

(* Every point of the domain lies in a piece; at and beyond the end of the last
   piece the function throws. *)
Theorem C50_domain : forall ps x, adjoining ps -> ps <> [] ->
  ((forall p, nth_error ps 0 = Some p -> p_from p <= x) ->
   (exists p, In p ps /\ x < p_to p) -> exists p, In p ps /\ piece_contains p x) /\
  ((forall p, In p ps -> p_to p <= x) -> piecewise ps x = Throw).
Proof.
  intros ps x A NE. split.
  - intros H0 (p & Hi & Hp). destruct (piecewise_total ps x) as (y & Hy); [eauto|].
    apply piecewise_spec in Hy. destruct Hy as (i & q & Hq & Lq & B & _). exists q.
    split; [exact (nth_error_In _ _ Hq)|]. split; [|exact Lq].
    destruct i as [|i]; [apply H0; exact Hq|].
    destruct (nth_error ps i) as [r|] eqn:Er.
    + destruct A as (_ & A). rewrite <- (A i r q Er Hq). apply (B i r); auto.
    + apply nth_error_None in Er. assert (S i < length ps)%nat by (apply nth_error_Some; congruence). lia.
  - intros H. induction ps as [|p ps IH]; [congruence|]. cbn [piecewise].
    assert (E : qlt x (p_to p) = false) by (apply qlt_false, H; left; reflexivity). rewrite E.
    destruct ps as [|q ps]; [reflexivity|]. apply IH.
    + destruct A as (A1 & A2). split; [intros r Hr; apply A1; right; exact Hr|].
      intros i r s Hr Hs. apply (A2 (S i) r s Hr Hs).
    + discriminate.
    + intros r Hr. apply H. right. exact Hr.
Qed.
Print Assumptions C50_domain.
Example C50_piecewise_sat :
  let ps := [mkpiece [1; 0] 0 2; mkpiece [3] 2 5] in
  adjoining ps /\ piece_contains (mkpiece [1; 0] 0 2) (3#2) /\ piece_contains (mkpiece [3] 2 5) 2 /\
  piecewise ps 2 = Ok 3.
Proof.
  cbv zeta. split; [|repeat split; unfold piece_contains; cbn; lra].
  split.
  - intros p [<-|[<-|[]]]; cbn; lra.
  - intros [|[|i]] p q; cbn [nth_error]; [|discriminate|destruct i; discriminate].
    intros [= <-] [= <-]. reflexivity.
Qed.

(* make_piecewise accepts exactly the lists whose neighbouring borders differ by
   less than 1/100. *)
Theorem C50_make_piecewise : forall ps,
  make_piecewise ps = Ok ps <->
  (forall i p q, nth_error ps i = Some p -> nth_error ps (S i) = Some q ->
     p_to p - p_from q < 1#100 /\ p_from q - p_to p < 1#100).
Proof.
  intros ps.
  assert (F : forall x y, fuzzy_eq (qabs (x - y)) 0 = true <-> x - y < 1#100 /\ y - x < 1#100).
  { intros x y. unfold fuzzy_eq, FP_PRECISION. rewrite qlt_true. unfold qabs.
    destruct (qlt (x - y) 0) eqn:E1; qb.
    - destruct (qlt (- (x - y) - 0) 0) eqn:E2; qb; split; lra.
    - destruct (qlt ((x - y) - 0) 0) eqn:E2; qb; split; lra. }
  assert (C : is_continuous ps = true <->
    (forall i p q, nth_error ps i = Some p -> nth_error ps (S i) = Some q ->
     p_to p - p_from q < 1#100 /\ p_from q - p_to p < 1#100)).
  { induction ps as [|p ps IH].
    - split; auto. intros _ [|i] p q; discriminate.
    - destruct ps as [|q ps].
      + split; auto. intros _ [|i] a b Ha Hb; [discriminate|]. destruct i; discriminate.
      + cbn [is_continuous]. rewrite andb_true_iff, F, IH. split.
        * intros (A & B) [|i] a b Ha Hb; [injection Ha as <-; injection Hb as <-; exact A|].
          exact (B i a b Ha Hb).
        * intros H. split; [exact (H O p q eq_refl eq_refl)|]. intros i a b. apply (H (S i)). }
  rewrite <- C. unfold make_piecewise, sassert. destruct (is_continuous ps); split; auto; discriminate.
Qed.
Print Assumptions C50_make_piecewise.

(* FINDING.  An argument below the domain is not rejected: the first piece is
   used there; and in the gap between two pieces accepted by make_piecewise the
   piece after the gap is used.  So a result does not imply that a piece contains
   the argument. *)
Theorem C50_outside_domain_refuted : exists ps x y z w,
  adjoining ps /\ piecewise ps x = Ok y /\ ~ (exists p, In p ps /\ piece_contains p x) /\
  exists qs, make_piecewise qs = Ok qs /\ piecewise qs z = Ok w /\
             ~ (exists p, In p qs /\ piece_contains p z).
Proof.
  exists [mkpiece [1] 0 1], (-(1)), 1, (1005#1000), 2. split; [|split; [reflexivity|split]].
  - split; [intros p [<-|[]]; cbn; lra|]. intros [|i] p q; cbn [nth_error]; [discriminate|destruct i; discriminate].
  - intros (p & [<-|[]] & (A & _)). cbn in A. lra.
  - exists [mkpiece [1] 0 1; mkpiece [2] (1009#1000) 2]. split; [reflexivity|]. split; [reflexivity|].
    intros (p & [<-|[<-|[]]] & (A & B)); cbn in A, B; lra.
Qed.
Print Assumptions C50_outside_domain_refuted.

(* The train's forces: sums over its vehicles; its top speed: the smallest of the
   vehicles' and its own. *)
Theorem C50_train_forces : forall tp v,
  (forall f, tractive_force tp v = Ok f ->
     exists fs, Forall2 (fun vh f => vehicle_pulls vh v f) (tp_vehicles tp) fs /\ f == sum fs) /\
  ((forall vh, In vh (tp_vehicles tp) -> exists p, In p (v_tractive vh) /\ v < p_to p) ->
   exists f, tractive_force tp v = Ok f) /\
  resistive_force tp v == sum (map (fun vh => power_sum 0 (rev (v_resistance vh)) v) (tp_vehicles tp)) /\
  (forall m, max_speed tp = Ok m -> top_speed tp m) /\
  (tp_vehicles tp <> [] -> exists m, max_speed tp = Ok m).
Proof.
  intros tp v. repeat split.
  - intros f H. apply tractive_sum_spec in H. destruct H as (fs & A & B). exists fs. split; [exact A|]. lra.
  - intros H. apply (tractive_sum_total v _ H).
  - unfold resistive_force. rewrite resistive_sum_spec. ring.
  - apply max_speed_spec in H. apply H.
  - apply max_speed_spec in H. apply H.
  - apply max_speed_spec in H. apply H.
  - apply max_speed_spec in H. apply H.
  - apply max_speed_total.
Qed.
Print Assumptions C50_train_forces.

(* ------------------------------------------------------------------ C45 *)

(* Coasting ends exactly at the required distance, after the smallest number of
   half seconds in which a train of that speed covers it; distances ascend; the
   speed is kept. *)
Theorem C45_coast : forall v D, 0 < v -> 0 < D ->
  (exists n, forall fuel, (n <= fuel)%nat -> exists l, coast fuel v D = Ok l) /\
  (forall fuel l, coast fuel v D = Ok l ->
     nth_error l 0 = Some (mksample 0 0 v) /\ every_half_second l /\
     (forall s, In s l -> s_speed s = v) /\
     (forall s, inner l s -> s_dist s == v * s_time s) /\
     ascending (map s_dist l) /\
     s_dist (back l) = D /\
     v * (s_time (back l) - (1#2)) < D <= v * s_time (back l)).
Proof.
  intros v D Hv HD. split; [apply coast_total; exact Hv|]. intros fuel l H.
  destruct (coast_ok fuel v D l H HD) as (_ & A & B & C & E & F & G & I & J).
  repeat split; auto.
  - intros s Hs. apply F. exact Hs.
  - intros i x y Hx Hy. rewrite nth_error_map in Hx, Hy.
    destruct (nth_error l i) as [a|] eqn:Ea; [|discriminate]. destruct (nth_error l (S i)) as [b|] eqn:Eb; [|discriminate].
    injection Hx as <-. injection Hy as <-.
    assert (L : (S i < length l)%nat) by (apply nth_error_Some; congruence).
    assert (Ia : inner l a) by (exists i; auto). destruct (F a Ia) as (Fa & La).
    destruct (Nat.eq_dec (S (S i)) (length l)) as [EQ|NE].
    + rewrite (nth_back l (S i) b Eb EQ), G. lra.
    + assert (Ib : inner l b) by (exists (S i); split; [exact Eb|lia]). destruct (F b Ib) as (Fb & _).
      rewrite Fa, Fb, (C _ _ Ea), (C _ _ Eb), half_S. lra.
Qed.
Print Assumptions C45_coast.

(* FINDING.  A standing train cannot coast: the call is undefined (the required
   time is infinite and converted to an integer). *)
Theorem C45_coast_standing_refuted : exists v D, 0 <= v /\ 0 < D /\ forall fuel, coast fuel v D = UB.
Proof. exists 0, 10. split; [lra|]. split; [lra|]. reflexivity. Qed.
Print Assumptions C45_coast_standing_refuted.

(* Braking: the speed falls linearly, the last sample has exactly the target
   speed and exactly the braking distance (v^2 - w^2) / 2|a|, and the time is the
   smallest number of half seconds not below the braking time. *)
Theorem C45_brake_partial : forall tp vi vt vh vhs, tp_vehicles tp = vh :: vhs ->
  let a := v_deacceleration vh in
  a < 0 -> 0 <= vt < vi ->
  (exists n, forall fuel, (n <= fuel)%nat -> exists l, brake fuel tp vi vt = Ok l) /\
  (forall fuel l, brake fuel tp vi vt = Ok l ->
     nth_error l 0 = Some (mksample 0 0 vi) /\ every_half_second l /\
     (forall s, inner l s -> s_speed s == vi + a * s_time s /\ vt < s_speed s) /\
     ascending (removelast (map s_dist l)) /\
     s_speed (back l) = vt /\
     2 * - a * s_dist (back l) == vi * vi - vt * vt /\
     - a * (s_time (back l) - (1#2)) < vi - vt <= - a * s_time (back l)).
Proof.
  intros tp vi vt vh vhs Hv a Ha (Ht & Hvi).
  assert (Da : deacceleration tp = Ok a) by (unfold deacceleration; rewrite Hv; reflexivity).
  split; [eapply brake_total; eauto|]. intros fuel l H.
  destruct (brake_ok fuel tp vi vt l H) as (a' & Da' & _ & _ & A & B & C & F & G & I & J & K).
  replace a' with a in * by congruence. clear Da' a'.
  split; [exact A|]. split; [exact C|]. split; [intros s Hs; split; apply F; exact Hs|].
  split; [|split; [exact G|split; [|split; assumption]]].
  - intros i x y Hx Hy.
    assert (RL : removelast (map s_dist l) = map s_dist (removelast l)).
    { destruct (exists_last (l := l)) as (k & z & ->); [intros ->; cbn in B; lia|].
      rewrite map_app. cbn [map]. rewrite !removelast_last. reflexivity. }
    rewrite RL, nth_error_map in Hx, Hy.
    assert (IN : forall j s, nth_error (removelast l) j = Some s -> nth_error l j = Some s /\ (S j < length l)%nat).
    { intros j s Hj. destruct (exists_last (l := l)) as (k & z & ->); [intros ->; cbn in B; lia|].
      rewrite removelast_last in Hj. assert (j < length k)%nat by (apply nth_error_Some; congruence).
      rewrite nth_error_app1, app_length by lia. split; [exact Hj|]. cbn [length]. lia. }
    destruct (nth_error (removelast l) i) as [s|] eqn:Es; [|discriminate].
    destruct (nth_error (removelast l) (S i)) as [r|] eqn:Er; [|discriminate].
    injection Hx as <-. injection Hy as <-.
    apply IN in Es. apply IN in Er. destruct Es as (Es & Ls). destruct Er as (Er & Lr).
    destruct (F s) as (S1 & S2 & S3); [exists i; auto|]. destruct (F r) as (R1 & R2 & R3); [exists (S i); auto|].
    rewrite S3, R3. rewrite (C _ _ Es) in *. rewrite (C _ _ Er), half_S in *.
    clear -S1 S2 Ht. set (h := half i) in *. clearbody h a. 
    assert (E : vi * (h + (1#2)) + a * (h + (1#2)) * (h + (1#2) - (1#2)) * (1#2) - (vi * h + a * h * (h - (1#2)) * (1#2)) == (1#2) * (vi + a * h)) by ring.
    lra.
  - rewrite I. pose proof (braking_distance_spec a vi vt Ha Hvi). lra.
Qed.
Print Assumptions C45_brake_partial.
(* missing from the full statement: the last recorded distance does not decrease *)

Definition demo_vehicle : vehicle := mkvehicle 50 (-(1)) [mkpiece [1060] 0 100] [0].
Definition demo_train : physics := mkphysics [demo_vehicle] 1000 40.

Example C45_brake_sat : exists l, brake 100 demo_train 3 1 = Ok l /\ length l = 5%nat /\
  s_dist (back l) == 4 /\ s_time (back l) == 2.
Proof. eexists. split; [vm_compute; reflexivity|]. repeat split. Qed.

(* FINDING.  The samples of a braking phase are taken with the speed at the
   beginning of each half second, the last distance is the exact one: the
   recorded distance can go backwards at the end of the phase. *)
Theorem C45_brake_backwards_refuted : exists tp vi vt fuel l,
  0 <= vt < vi /\ brake fuel tp vi vt = Ok l /\ ~ ascending (map s_dist l).
Proof.
  exists demo_train, 10, (49#10), 100%nat. eexists. split; [split; lra|].
  split; [vm_compute; reflexivity|]. intros H. 
  assert (G := H 10%nat _ _ eq_refl eq_refl). revert G. apply Qlt_not_le. reflexivity.
Qed.
Print Assumptions C45_brake_backwards_refuted.

(* Accelerating: the recorded samples follow the equations of motion, each one
   but the last is below every bound, and the phase ends in one of two ways:
   a bound is reached without passing the distance, or the next half second would
   pass the distance and the last sample is moved to exactly that distance. *)
Theorem C45_accelerate_partial : forall fuel tp v0 target D l, 0 <= D ->
  accelerate fuel tp v0 target D = Ok l ->
  exists m k y, top_speed tp m /\ driven tp (k ++ [y]) /\
    nth_error (k ++ [y]) 0 = Some (mksample 0 0 v0) /\ every_half_second l /\
    (forall s, In s k -> s_speed s < m /\ s_speed s < target /\ s_dist s < D) /\
    ((l = k ++ [y] /\ s_dist y <= D /\ (m <= s_speed y \/ target <= s_speed y \/ s_dist y == D)) \/
     (exists z, moves tp y z /\ s_dist y < D /\ D < s_dist z /\
        (k <> [] -> l = k ++ [mksample (s_time y) D (s_speed y)]) /\ (k = [] -> l = [y]))).
Proof.
  intros fuel tp v0 target D l HD H.
  destruct (accelerate_ok fuel tp v0 target D l H HD) as (m & k & y & A & _ & B & C & E & F).
  exists m, k, y. split; [exact A|]. split; [exact B|]. split; [exact C|].
  assert (EH : every_half_second (k ++ [y])).
  { destruct (k ++ [y]) as [|s r] eqn:Ek; [destruct k; discriminate|].
    apply (driven_half tp); [exact B|]. injection C as ->. reflexivity. }
  split; [|split; [exact E|]].
  - destruct F as [(-> & _)|(z & _ & _ & _ & _ & _ & ->)]; [exact EH|].
    destruct k as [|x k]; [exact EH|]. intros i s Hs.
    destruct (Nat.lt_ge_cases i (length (x :: k))) as [L|L].
    + apply EH. rewrite nth_error_app1 in Hs |- * by exact L. exact Hs.
    + rewrite nth_error_app2 in Hs by exact L.
      assert (Ei : i = length (x :: k)).
      { destruct (i - length (x :: k))%nat as [|j] eqn:Ej; [lia|]. destruct j; discriminate. }
      rewrite Ei, Nat.sub_diag in Hs. injection Hs as <-. cbn [s_time]. rewrite Ei. apply EH.
      rewrite nth_error_app2, Nat.sub_diag by lia. reflexivity.
  - destruct F as [F|(z & F1 & F2 & F3 & F4 & F5 & F6)]; [left; exact F|right].
    exists z. repeat split; auto.
    + intros NE. rewrite F6. destruct k; [congruence|reflexivity].
    + intros ->. exact F6.
Qed.
Print Assumptions C45_accelerate_partial.
(* missing from the full statement: the distance or speed is not reached at all
   when already the first half second passes the distance (see below) *)

Lemma ascending_snoc (l : list Q) x y : ascending (l ++ [x]) -> x <= y -> ascending (l ++ [y]).
Proof.
  intros H L i a b Ha Hb.
  assert (Li : (S i < length (l ++ [y]))%nat) by (apply nth_error_Some; congruence).
  rewrite app_length in Li. cbn [length] in Li.
  rewrite nth_error_app1 in Ha by lia.
  destruct (Nat.lt_ge_cases (S i) (length l)) as [Lt|Ge].
  - apply (H i); [rewrite nth_error_app1 by lia; exact Ha|].
    rewrite nth_error_app1 in Hb |- * by lia. exact Hb.
  - assert (Ei : S i = length l) by lia. rewrite nth_error_app2 in Hb by lia.
    rewrite Ei, Nat.sub_diag in Hb. injection Hb as <-.
    assert (a <= x); [|lra]. apply (H i); [rewrite nth_error_app1 by lia; exact Ha|].
    rewrite nth_error_app2, Ei, Nat.sub_diag by lia. reflexivity.
Qed.
Lemma ascending_first (l : list Q) a : ascending (a :: l) -> forall i x, nth_error (a :: l) i = Some x -> a <= x.
Proof.
  intros H i. induction i as [|i IH]; intros x Hx; [injection Hx as <-; lra|].
  destruct (nth_error (a :: l) i) as [y|] eqn:E.
  - specialize (IH y eq_refl). pose proof (H i y x E Hx). lra.
  - apply nth_error_None in E. assert (S i < length (a :: l))%nat by (apply nth_error_Some; congruence). lia.
Qed.

(* With forces that never slow the train down the recorded distances and speeds
   ascend and no sample is beyond the required distance. *)
Theorem C45_accelerate_ascending : forall fuel tp v0 target D l, 0 <= D -> 0 <= v0 ->
  (forall m v a, top_speed tp m -> v0 <= v -> v < m -> v < target -> accelerates tp v a -> 0 <= a) ->
  accelerate fuel tp v0 target D = Ok l ->
  ascending (map s_dist l) /\ ascending (map s_speed l) /\
  (forall s, In s l -> 0 <= s_dist s <= D /\ v0 <= s_speed s).
Proof.
  intros fuel tp v0 target D l HD Hv HA H.
  destruct (accelerate_ok fuel tp v0 target D l H HD) as (m & k & y & A & _ & B & C & E & F).
  assert (SP : forall i s, nth_error (k ++ [y]) i = Some s -> v0 <= s_speed s).
  { apply (driven_speeds tp (k ++ [y]) v0 Hv).
    - intros v a Lv Ha Hi. rewrite removelast_last in Hi. apply in_map_iff in Hi.
      destruct Hi as (s & <- & Hi). destruct (E s Hi) as (E1 & E2 & _). exact (HA m _ a A Lv E1 E2 Ha).
    - exact B.
    - intros s Hs. rewrite C in Hs. injection Hs as <-. reflexivity. }
  assert (STEP : forall i a b, nth_error (k ++ [y]) i = Some a -> nth_error (k ++ [y]) (S i) = Some b ->
             s_dist a <= s_dist b /\ s_speed a <= s_speed b).
  { intros i a b Ha Hb. destruct (B i a b Ha Hb) as (acc & Hacc & _ & Es & Ed).
    pose proof (SP i a Ha) as Sa. pose proof (SP (S i) b Hb) as Sb. split.
    - rewrite Ed. assert (0 <= (s_speed a + s_speed b) / 2 * (1#2)); [|lra].
      setoid_replace ((s_speed a + s_speed b) / 2 * (1#2)) with ((s_speed a + s_speed b) * (1#4)) by field. lra.
    - assert (In a k).
      { assert (L : (S i < length (k ++ [y]))%nat) by (apply nth_error_Some; congruence).
        rewrite app_length in L. cbn [length] in L. rewrite nth_error_app1 in Ha by lia. exact (nth_error_In _ _ Ha). }
      destruct (E a H0) as (E1 & E2 & _). pose proof (HA m _ acc A Sa E1 E2 Hacc). rewrite Es. lra. }
  assert (AD : ascending (map s_dist (k ++ [y]))).
  { intros i a b Ha Hb. rewrite nth_error_map in Ha, Hb.
    destruct (nth_error (k ++ [y]) i) as [a'|] eqn:Ea; [|discriminate].
    destruct (nth_error (k ++ [y]) (S i)) as [b'|] eqn:Eb; [|discriminate].
    injection Ha as <-. injection Hb as <-. apply (STEP i a' b' Ea Eb). }
  assert (AS : ascending (map s_speed (k ++ [y]))).
  { intros i a b Ha Hb. rewrite nth_error_map in Ha, Hb.
    destruct (nth_error (k ++ [y]) i) as [a'|] eqn:Ea; [|discriminate].
    destruct (nth_error (k ++ [y]) (S i)) as [b'|] eqn:Eb; [|discriminate].
    injection Ha as <-. injection Hb as <-. apply (STEP i a' b' Ea Eb). }
  assert (D0 : forall s, In s (k ++ [y]) -> 0 <= s_dist s /\ v0 <= s_speed s).
  { intros s Hs. apply In_nth_error in Hs. destruct Hs as (i & Hi). split; [|exact (SP i s Hi)].
    destruct (k ++ [y]) as [|x r] eqn:Ek; [destruct k; discriminate|]. injection C as ->.
    apply (ascending_first (map s_dist r) 0 AD i). 
    change (0 :: map s_dist r) with (map s_dist (mksample 0 0 v0 :: r)). rewrite nth_error_map, Hi. reflexivity. }
  destruct F as [(-> & F1 & _)|(z & F1 & F2 & F3 & F4 & F5 & ->)].
  - split; [exact AD|]. split; [exact AS|]. intros s Hs. destruct (D0 s Hs) as (D1 & D2).
    repeat split; auto. apply in_app_or in Hs. destruct Hs as [Hs|[<-|[]]]; [|exact F1].
    destruct (E s Hs) as (_ & _ & E3). lra.
  - destruct k as [|x k].
    + split; [exact AD|]. split; [exact AS|]. intros s Hs. destruct (D0 s Hs) as (D1 & D2).
      repeat split; auto. destruct Hs as [<-|[]]. lra.
    + rewrite map_app in AD. cbn [map] in AD. rewrite !map_app. cbn [map s_dist s_speed].
      split; [|split].
      * apply (ascending_snoc (map s_dist (x :: k)) (s_dist y) D); [exact AD|lra].
      * rewrite map_app in AS. exact AS.
      * intros s Hs. change (In s ((x :: k) ++ [mksample (s_time y) D (s_speed y)])) in Hs.
        apply in_app_or in Hs. destruct Hs as [Hs|[<-|[]]].
        -- destruct (D0 s) as (D1 & D2); [apply in_or_app; auto|]. destruct (E s Hs) as (_ & _ & E3).
           repeat split; auto; lra.
        -- cbn [s_dist s_speed]. destruct (D0 y) as (D1 & D2); [apply in_or_app; right; left; reflexivity|].
           repeat split; auto; lra.
Qed.
Print Assumptions C45_accelerate_ascending.

(* Accelerating terminates when the forces are defined below the target speed and
   accelerate the train by at least amin > 0. *)
Theorem C45_accelerate_terminates : forall tp v0 target D amin,
  tp_vehicles tp <> [] -> 0 < tp_weight tp -> 0 < amin ->
  (forall v, v0 <= v -> v < target ->
     (forall vh, In vh (tp_vehicles tp) -> exists p, In p (v_tractive vh) /\ v < p_to p) /\
     (forall a, accelerates tp v a -> amin <= a)) ->
  exists n, forall fuel, (n <= fuel)%nat -> exists l, accelerate fuel tp v0 target D = Ok l.
Proof.
  intros tp v0 target D amin NE W Ha H.
  destruct (max_speed_total tp NE) as (m & Hm).
  destruct (archimedes amin (target - v0) Ha) as (n & Hn). exists n. intros fuel Hf.
  destruct (accelerate_loop_total tp m target D amin v0 Ha) with (n := n) (t := 0) (d := 0) (v := v0) (fuel := fuel) as (l & Hl).
  - intros v L1 _ L2. destruct (H v L1 L2) as (H1 & H2).
    destruct (acceleration_total tp v) as (a & E); [lra|exact H1|]. exists a. split; [exact E|].
    apply H2. apply acceleration_spec. exact E.
  - lra.
  - lra.
  - exact Hf.
  - unfold accelerate. rewrite Hm. cbn [bind]. rewrite Hl. cbn [bind]. eauto.
Qed.
Print Assumptions C45_accelerate_terminates.

Lemma demo_accelerates v : 0 <= v -> v < 100 -> accelerates demo_train v 1.
Proof.
  intros L0 L. exists [1060]. split; [|reflexivity]. constructor; [|constructor].
  exists O, (mkpiece [1060] 0 100). split; [reflexivity|]. split; [exact L|]. split; [intros j q Hj; lia|].
  cbn. lra.
Qed.
Example C45_accelerate_sat :
  (forall v, 0 <= v -> v < 40 ->
     (forall vh, In vh (tp_vehicles demo_train) -> exists p, In p (v_tractive vh) /\ v < p_to p) /\
     (forall a, accelerates demo_train v a -> 1 <= a)) /\
  (exists l, accelerate 100 demo_train 0 3 100 = Ok l /\ length l = 7%nat /\ s_speed (back l) == 3 /\ s_dist (back l) == 9#2).
Proof.
  split.
  - intros v L0 L. split.
    + intros vh [<-|[]]. exists (mkpiece [1060] 0 100). split; [left; reflexivity|]. cbn. lra.
    + intros a Ha. assert (E : a == 1); [|lra].
      apply (accelerates_det demo_train v); [intros Z; discriminate|exact Ha|]. apply demo_accelerates; lra.
  - eexists. split; [vm_compute; reflexivity|]. repeat split.
Qed.

(* FINDING.  When the next half second would pass the required distance, the last
   sample before is moved to that distance, but keeps its time: the train covers
   the rest in no time.  Here it covers 1.4 m in the last half second although
   its speed never exceeds 1.5 m/s. *)
Theorem C45_accelerate_jump_refuted : exists tp v0 target D fuel l i a b,
  accelerate fuel tp v0 target D = Ok l /\ nth_error l i = Some a /\ nth_error l (S i) = Some b /\
  (forall s, In s l -> s_speed s <= 3#2) /\
  s_dist b - s_dist a == 7#5 /\ s_time b - s_time a == 1#2.
Proof.
  exists demo_train, 0, 30, (19#10), 100%nat. eexists. exists 2%nat. eexists. eexists.
  split; [vm_compute; reflexivity|]. split; [reflexivity|]. split; [reflexivity|]. split; [|split; reflexivity].
  intros s Hs. repeat (destruct Hs as [<-|Hs]; [apply Qle_bool_iff; reflexivity|]). destruct Hs.
Qed.
Print Assumptions C45_accelerate_jump_refuted.

(* FINDING.  When already the first half second passes the distance the phase
   ends where it began, at neither the distance nor the speed. *)
Theorem C45_accelerate_short_refuted : exists tp target D fuel,
  0 < D /\ 0 < target /\ accelerate fuel tp 0 target D = Ok [mksample 0 0 0].
Proof.
  exists demo_train, 30, (1#10), 100%nat. split; [lra|]. split; [lra|]. vm_compute. reflexivity.
Qed.
Print Assumptions C45_accelerate_short_refuted.

(* FINDING.  A standing train whose traction does not exceed its resistance
   accelerates forever: the loop has no bound. *)
Theorem C45_accelerate_endless_refuted : exists tp target D,
  0 < target /\ 0 < D /\ forall fuel, accelerate fuel tp 0 target D = Fuel.
Proof.
  set (tp := mkphysics [mkvehicle 50 (-(1)) [mkpiece [5] 0 100] [5]] 1000 40).
  exists tp, 30, 10. split; [lra|]. split; [lra|].
  assert (L : forall fuel t d v, v == 0 -> d == 0 -> accelerate_loop fuel tp 40 30 10 t d v = Fuel).
  { induction fuel as [|fuel IH]; intros t d v Hv Hd; cbn [accelerate_loop].
    - assert (C1 : qlt v 40 = true) by (apply qlt_true; lra).
      assert (C2 : qlt v 30 = true) by (apply qlt_true; lra).
      assert (C3 : qlt d 10 = true) by (apply qlt_true; lra). rewrite C1, C2, C3. reflexivity.
    - assert (C1 : qlt v 40 = true) by (apply qlt_true; lra).
      assert (C2 : qlt v 30 = true) by (apply qlt_true; lra).
      assert (C3 : qlt d 10 = true) by (apply qlt_true; lra). rewrite C1, C2, C3. cbn [andb].
      unfold acceleration, tractive_force. cbn [tp tp_vehicles tractive_sum v_tractive piecewise p_to].
      assert (C4 : qlt v 100 = true) by (apply qlt_true; lra). rewrite C4. cbn [bind].
      change (Qeq_bool (tp_weight tp * MASS_FACTOR) 0) with false. cbv iota. cbn [bind]. cbv zeta.
      rewrite IH; [reflexivity| |].
      + unfold resistive_force. cbn [tp tp_vehicles resistive_sum v_resistance polynomial horner p_factors tp_weight].
        rewrite Hv. reflexivity.
      + unfold resistive_force. cbn [tp tp_vehicles resistive_sum v_resistance polynomial horner p_factors tp_weight].
        rewrite Hv, Hd. reflexivity. }
  intros fuel. unfold accelerate. change (max_speed tp) with (Ok 40). cbn [bind].
  rewrite L by reflexivity. reflexivity.
Qed.
Print Assumptions C45_accelerate_endless_refuted.
