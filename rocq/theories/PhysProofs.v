From Coq Require Import Lqa Qround.
From Verif Require Import Base PhysModel PhysSpec.

Lemma qlt_true x y : qlt x y = true <-> x < y.
Proof.
  unfold qlt. rewrite negb_true_iff. split; intros H.
  - destruct (Qlt_le_dec x y) as [L|L]; auto. apply Qle_bool_iff in L. congruence.
  - destruct (Qle_bool y x) eqn:E; auto. apply Qle_bool_iff in E. lra.
Qed.
Lemma qlt_false x y : qlt x y = false <-> y <= x.
Proof.
  unfold qlt. rewrite negb_false_iff. apply Qle_bool_iff.
Qed.
Lemma qle_true x y : qle x y = true <-> x <= y.
Proof. apply Qle_bool_iff. Qed.
Lemma qle_false x y : qle x y = false <-> y < x.
Proof.
  unfold qle. split; intros H.
  - destruct (Qlt_le_dec y x) as [L|L]; auto. apply Qle_bool_iff in L. congruence.
  - destruct (Qle_bool x y) eqn:E; auto. apply Qle_bool_iff in E. lra.
Qed.

Ltac qb :=
  repeat match goal with
  | H : qlt _ _ = true |- _ => apply qlt_true in H
  | H : qlt _ _ = false |- _ => apply qlt_false in H
  | H : qle _ _ = true |- _ => apply qle_true in H
  | H : qle _ _ = false |- _ => apply qle_false in H
  | H : _ && _ = true |- _ => apply andb_true_iff in H; destruct H
  end.

Lemma qmin_spec a b : qmin a b <= a /\ qmin a b <= b /\ (qmin a b = a \/ qmin a b = b).
Proof. unfold qmin. destruct (qlt b a) eqn:E; qb; repeat split; auto; lra. Qed.

Lemma half_S i : half (S i) == half i + (1 # 2).
Proof. unfold half, Qeq, Qplus. cbn [Qnum Qden]. rewrite Nat2Z.inj_succ. lia. Qed.
Lemma half_0 : half 0 == 0.
Proof. reflexivity. Qed.
Lemma half_nonneg i : 0 <= half i.
Proof. unfold half, Qle. cbn [Qnum Qden]. lia. Qed.

(* ---- map_last / fix_last ---- *)
Lemma map_last_length f l : length (map_last f l) = length l.
Proof.
  induction l as [|a l IH]; auto. cbn [map_last]. destruct l; auto. cbn [length] in *. f_equal. exact IH.
Qed.
Lemma map_last_nth f l i :
  nth_error (map_last f l) i =
  if Nat.eqb (S i) (length l) then option_map f (nth_error l i) else nth_error l i.
Proof.
  revert i. induction l as [|a l IH]; intros i.
  - destruct i; reflexivity.
  - cbn [map_last]. destruct l as [|b l].
    + destruct i as [|i]; [reflexivity|]. cbn [nth_error length]. destruct i; reflexivity.
    + destruct i as [|i]; [reflexivity|].
      change (nth_error (a :: map_last f (b :: l)) (S i)) with (nth_error (map_last f (b :: l)) i).
      rewrite IH. reflexivity.
Qed.
Lemma fix_last_length f l : length (fix_last f l) = length l.
Proof. unfold fix_last. destruct (Nat.ltb 1 (length l)); auto. apply map_last_length. Qed.
Lemma back_nth l : l <> [] -> nth_error l (length l - 1) = Some (back l).
Proof.
  intros H. destruct (exists_last H) as (l' & a & ->).
  rewrite app_length. cbn [length]. rewrite nth_error_app2 by lia.
  replace (_ - _)%nat with O by lia. unfold back. rewrite last_last. reflexivity.
Qed.
Lemma back_map_last f l : l <> [] -> back (map_last f l) = f (back l).
Proof.
  intros H. destruct (exists_last H) as (l' & a & ->). clear H. unfold back.
  rewrite last_last. induction l' as [|x l' IH]; [reflexivity|].
  cbn [app map_last]. destruct (l' ++ [a]) eqn:E; [destruct l'; discriminate|].
  rewrite <- E in *. cbn [last]. destruct (map_last f (l' ++ [a])) eqn:E2.
  - pose proof (map_last_length f (l' ++ [a])) as L. rewrite E2, E in L. discriminate.
  - exact IH.
Qed.
Lemma back_fix_last f l : (1 < length l)%nat -> back (fix_last f l) = f (back l).
Proof.
  intros H. unfold fix_last. apply Nat.ltb_lt in H. rewrite H.
  apply back_map_last. intros ->. discriminate.
Qed.
Lemma fix_last_nth f l i s : nth_error (fix_last f l) i = Some s -> (S i < length l)%nat -> nth_error l i = Some s.
Proof.
  unfold fix_last. destruct (Nat.ltb 1 (length l)); auto.
  rewrite map_last_nth. intros H L. destruct (Nat.eqb_spec (S i) (length l)); [lia|]. exact H.
Qed.
Lemma fix_last_any f l i s : nth_error (fix_last f l) i = Some s ->
  exists s', nth_error l i = Some s' /\ (s = s' \/ s = f s').
Proof.
  unfold fix_last. destruct (Nat.ltb 1 (length l)); [|eauto].
  rewrite map_last_nth. destruct (Nat.eqb (S i) (length l)); [|eauto].
  destruct (nth_error l i) as [x|]; cbn [option_map]; [|discriminate]. intros [= <-]. eauto.
Qed.

Ltac nilcase :=
  split; [intros [|?] ?; discriminate|]; split; [intros; exfalso; lra|]; split; [reflexivity|];
  split; [intros [|?] ?; discriminate|]; intros ?; congruence.

(* ---- coasting ---- *)
Lemma coast_loop_spec f : forall v D t d l, coast_loop f v D t d = Ok l ->
  (forall i s, nth_error l i = Some s ->
     s_time s == t + half (S i) /\ s_dist s == d + v * half (S i) /\ s_speed s = v) /\
  (d < D -> l <> []) /\ (D <= d -> l = []) /\
  (forall i s, nth_error l i = Some s -> (S i < length l)%nat -> s_dist s < D) /\
  (l <> [] -> D <= s_dist (back l)).
Proof.
  induction f as [|f IH]; intros v D t d l; cbn [coast_loop];
    destruct (qlt d D) eqn:E; qb; try discriminate.
  - intros [= <-]. nilcase.
  - intros H. apply bind_Ok in H. destruct H as (l' & H & [= <-]).
    apply IH in H. destruct H as (H1 & H2 & H3 & H4 & H5).
    split; [|split; [|split; [|split]]].
    + intros [|i] s; cbn [nth_error].
      * intros [= <-]. cbn [s_time s_dist s_speed]. change (half 1) with (1#2). unfold DELTA_T. repeat split; lra.
      * intros Hs. apply H1 in Hs. destruct Hs as (A & B & C). rewrite A, B, C, !half_S.
        unfold DELTA_T. repeat split; lra.
    + discriminate.
    + lra.
    + intros [|i] s; cbn [nth_error length].
      * intros [= <-] L. cbn [s_dist]. apply Qnot_le_lt. intros G. apply H3 in G. subst l'. cbn in L. lia.
      * intros Hs L. apply (H4 i s Hs). lia.
    + intros _. destruct l' as [|b l'].
      * unfold back. cbn [last s_dist]. apply Qnot_lt_le. intros G. exact (H2 G eq_refl).
      * apply H5. discriminate.
  - intros [= <-]. nilcase.
Qed.

Lemma archimedes v (D : Q) : 0 < v -> exists n, D <= v * half n.
Proof.
  intros Hv. exists (Z.to_nat (Z.max 0 (2 * Qceiling (D / v)))).
  pose proof (Qle_ceiling (D / v)) as H. set (c := Qceiling (D / v)) in *.
  assert (H2 : inject_Z c <= half (Z.to_nat (Z.max 0 (2 * c)))).
  { unfold half, inject_Z, Qle. cbn [Qnum Qden]. lia. }
  assert (E : D == v * (D / v)) by (field; lra).
  rewrite E. apply Qmult_le_l; [exact Hv|]. lra.
Qed.

Lemma coast_loop_total v D : 0 < v -> forall n d t, D <= d + v * half n ->
  forall fuel, (n <= fuel)%nat -> exists l, coast_loop fuel v D t d = Ok l.
Proof.
  intros Hv. induction n as [|n IH]; intros d t Hd fuel Hf.
  - rewrite half_0 in Hd. destruct fuel; cbn [coast_loop]; destruct (qlt d D) eqn:E; qb; eauto; lra.
  - destruct fuel as [|fuel]; [lia|]. cbn [coast_loop]. destruct (qlt d D) eqn:E; [|eauto].
    destruct (IH (d + v * DELTA_T) (t + DELTA_T)) with (fuel := fuel) as (l & ->); [|lia|].
    + rewrite half_S in Hd. unfold DELTA_T. lra.
    + cbn [bind]. eauto.
Qed.

(* ---- braking ---- *)
Definition brake_dist (v a t : Q) : Q := v * t + a * t * (t - (1#2)) * (1#2).
Lemma brake_loop_spec f : forall a T t d v l, brake_loop f a T t d v = Ok l ->
  (forall i s, nth_error l i = Some s ->
     s_time s == t + half (S i) /\ s_speed s == v + a * half (S i) /\
     s_dist s == d + brake_dist v a (half (S i))) /\
  (t < T -> l <> []) /\ (T <= t -> l = []) /\
  (forall i s, nth_error l i = Some s -> (S i < length l)%nat -> s_time s < T) /\
  (l <> [] -> T <= s_time (back l)).
Proof.
  induction f as [|f IH]; intros a T t d v l; cbn [brake_loop];
    destruct (qlt t T) eqn:E; qb; try discriminate.
  - intros [= <-]. nilcase.
  - intros H. apply bind_Ok in H. destruct H as (l' & H & [= <-]).
    apply IH in H. destruct H as (H1 & H2 & H3 & H4 & H5).
    split; [|split; [|split; [|split]]].
    + intros [|i] s; cbn [nth_error].
      * intros [= <-]. cbn [s_time s_dist s_speed]. change (half 1) with (1#2).
        unfold DELTA_T, brake_dist. repeat split; lra.
      * intros Hs. apply H1 in Hs. destruct Hs as (A & B & C). rewrite A, B, C. clear -f.
        pose proof (half_S i) as E1. pose proof (half_S (S i)) as E2.
        unfold DELTA_T, brake_dist. rewrite E2, E1. generalize (half i) as h. intros h.
        repeat split; try lra; ring.
    + discriminate.
    + lra.
    + intros [|i] s; cbn [nth_error length].
      * intros [= <-] L. cbn [s_time]. apply Qnot_le_lt. intros G. apply H3 in G. subst l'. cbn in L. lia.
      * intros Hs L. apply (H4 i s Hs). lia.
    + intros _. destruct l' as [|b l'].
      * unfold back. cbn [last s_time]. apply Qnot_lt_le. intros G. exact (H2 G eq_refl).
      * apply H5. discriminate.
  - intros [= <-]. nilcase.
Qed.
Lemma brake_loop_total a T : forall n t d v, T <= t + half n ->
  forall fuel, (n <= fuel)%nat -> exists l, brake_loop fuel a T t d v = Ok l.
Proof.
  induction n as [|n IH]; intros t d v Hd fuel Hf.
  - rewrite half_0 in Hd. destruct fuel; cbn [brake_loop]; destruct (qlt t T) eqn:E; qb; eauto; lra.
  - destruct fuel as [|fuel]; [lia|]. cbn [brake_loop]. destruct (qlt t T) eqn:E; [|eauto].
    destruct (IH (t + DELTA_T) (d + v * DELTA_T) (v + a * DELTA_T)) with (fuel := fuel) as (l & ->); [|lia|].
    + rewrite half_S in Hd. unfold DELTA_T. lra.
    + cbn [bind]. eauto.
Qed.
Lemma braking_time_pos a vi vt : a < 0 -> vt < vi -> 0 < braking_time a vi vt /\
  braking_time a vi vt * a == vt - vi.
Proof.
  intros Ha Hv. unfold braking_time.
  assert (E : - (vi - vt) / a * a == vt - vi) by (field; lra).
  split; [|exact E].
  set (x := - (vi - vt) / a) in *. clearbody x. nra.
Qed.
Lemma braking_distance_spec a vi vt : a < 0 -> vt < vi ->
  - (2 * a) * braking_distance a vi vt == vi * vi - vt * vt.
Proof.
  intros Ha Hv. unfold braking_distance. destruct (braking_time_pos a vi vt Ha Hv) as (_ & E).
  set (x := braking_time a vi vt) in *. clearbody x.
  assert (E2 : vt == vi + x * a) by lra. rewrite E2. ring.
Qed.

(* ---- accelerating ---- *)
Definition ends (vmax target dmax d v : Q) : Prop := vmax <= v \/ target <= v \/ dmax <= d.
Lemma accel_cond vmax target dmax d v :
  qlt v vmax && qlt v target && qlt d dmax = false <-> ends vmax target dmax d v.
Proof.
  unfold ends. rewrite !andb_false_iff, !qlt_false. tauto.
Qed.
(* consecutive samples of the loop *)
Fixpoint chained (tp : physics) (t d v : Q) (l : list sample) : Prop :=
  match l with
  | [] => True
  | s :: l => exists a, acceleration tp v = Ok a /\
      s_time s == t + (1#2) /\ s_speed s == v + a * (1#2) /\ s_dist s == d + (v + s_speed s) * (1#4) /\
      chained tp (s_time s) (s_dist s) (s_speed s) l
  end.
Lemma accelerate_loop_spec f : forall tp vmax target dmax t d v l,
  accelerate_loop f tp vmax target dmax t d v = Ok l ->
  chained tp t d v l /\
  (ends vmax target dmax d v -> l = []) /\ (~ ends vmax target dmax d v -> l <> []) /\
  (forall i s, nth_error l i = Some s -> (S i < length l)%nat -> ~ ends vmax target dmax (s_dist s) (s_speed s)) /\
  (l <> [] -> ends vmax target dmax (s_dist (back l)) (s_speed (back l))).
Proof.
  induction f as [|f IH]; intros tp vmax target dmax t d v l; cbn [accelerate_loop];
    destruct (qlt v vmax && qlt v target && qlt d dmax) eqn:E; try discriminate.
  - apply accel_cond in E. intros [= <-]. split; [exact I|]. repeat split; auto; try tauto.
    intros i s H. destruct i; discriminate.
  - assert (NE : ~ ends vmax target dmax d v).
    { intros G. apply accel_cond in G. congruence. }
    intros H. apply bind_Ok in H. destruct H as (a & Ha & H).
    cbv zeta in H. apply bind_Ok in H. destruct H as (l' & H & [= <-]).
    apply IH in H. destruct H as (H1 & H2 & H3 & H4 & H5).
    split; [|split; [|split; [|split]]].
    + cbn [chained s_time s_dist s_speed]. exists a. split; [exact Ha|].
      unfold DELTA_T in *. repeat split; try lra. exact H1.
    + tauto.
    + discriminate.
    + intros [|i] s; cbn [nth_error length].
      * intros [= <-] L. cbn [s_dist s_speed]. intros G. apply H2 in G. subst l'. cbn in L. lia.
      * intros Hs L. apply (H4 i s Hs). lia.
    + intros _. destruct l' as [|b l'].
      * unfold back. cbn [last s_dist s_speed]. 
        destruct (qlt (v + a * DELTA_T) vmax && qlt (v + a * DELTA_T) target && qlt (d + (v + (v + a * DELTA_T)) * (1#2) * DELTA_T) dmax) eqn:E2.
        -- exfalso. apply H3; [|reflexivity]. intros G. apply accel_cond in G. congruence.
        -- apply accel_cond in E2. exact E2.
      * apply H5. discriminate.
  - apply accel_cond in E. intros [= <-]. split; [exact I|]. repeat split; auto; try tauto.
    intros i s H. destruct i; discriminate.
Qed.

(* ---- polynomials, piecewise functions ---- *)
Lemma power_sum_app n a b x :
  power_sum n (a ++ b) x == power_sum n a x + power_sum (n + length a) b x.
Proof.
  revert n. induction a as [|c a IH]; intros n; cbn [app power_sum length].
  - rewrite Nat.add_0_r. ring.
  - rewrite IH. replace (S n + length a)%nat with (n + S (length a))%nat by lia. ring.
Qed.
Lemma horner_sum x fs : forall acc,
  horner x acc fs == acc * power x (length fs) + power_sum 0 (rev fs) x.
Proof.
  induction fs as [|f fs IH]; intros acc; cbn [horner rev length power].
  - cbn [power_sum]. ring.
  - rewrite IH, power_sum_app, rev_length. cbn [power_sum Nat.add]. ring.
Qed.
Lemma polynomial_sum fs x : polynomial fs x == power_sum 0 (rev fs) x.
Proof.
  destruct fs as [|f fs]; [reflexivity|]. cbn [polynomial rev]. rewrite horner_sum, power_sum_app, rev_length.
  cbn [power_sum Nat.add]. ring.
Qed.
Lemma piecewise_spec ps x y : piecewise ps x = Ok y ->
  exists i p, nth_error ps i = Some p /\ x < p_to p /\
    (forall j q, (j < i)%nat -> nth_error ps j = Some q -> p_to q <= x) /\ y = polynomial (p_factors p) x.
Proof.
  induction ps as [|p ps IH]; cbn [piecewise]; [discriminate|].
  destruct (qlt x (p_to p)) eqn:E; qb.
  - intros [= <-]. exists O, p. repeat split; auto. intros; lia.
  - intros H. apply IH in H. destruct H as (i & q & H1 & H2 & H3 & H4).
    exists (S i), q. repeat split; auto. intros [|j] r L; cbn [nth_error]; [intros [= <-]; exact E|].
    apply H3. lia.
Qed.
Lemma piecewise_found ps x i p : nth_error ps i = Some p -> x < p_to p ->
  (forall j q, (j < i)%nat -> nth_error ps j = Some q -> p_to q <= x) ->
  piecewise ps x = Ok (polynomial (p_factors p) x).
Proof.
  revert i. induction ps as [|q ps IH]; intros [|i] Hn Hx Hb; try discriminate; cbn [piecewise].
  - injection Hn as ->. apply qlt_true in Hx. rewrite Hx. reflexivity.
  - pose proof (Hb O q ltac:(lia) eq_refl) as L. apply qlt_false in L. rewrite L.
    apply (IH i); auto. intros j r Hj Hr. apply (Hb (S j) r); auto. lia.
Qed.
Lemma piecewise_total ps x : (exists p, In p ps /\ x < p_to p) -> exists y, piecewise ps x = Ok y.
Proof.
  induction ps as [|q ps IH]; intros (p & Hi & Hx); [destruct Hi|]. cbn [piecewise].
  destruct (qlt x (p_to q)) eqn:E; [eauto|]. qb. destruct Hi as [->|Hi]; [lra|]. apply IH. eauto.
Qed.
Lemma adjoining_before ps : adjoining ps -> forall i j p q, (j < i)%nat ->
  nth_error ps i = Some p -> nth_error ps j = Some q -> p_to q <= p_from p.
Proof.
  intros (A & B) i. induction i as [|i IH]; intros j p q L Hi Hj; [lia|].
  destruct (nth_error ps i) as [r|] eqn:Er.
  - rewrite <- (B i r p Er Hi). destruct (Nat.eq_dec j i) as [->|NE].
    + replace r with q by congruence. lra.
    + pose proof (IH j r q ltac:(lia) eq_refl Hj). pose proof (A r (nth_error_In _ _ Er)). lra.
  - apply nth_error_None in Er. assert (S i < length ps)%nat by (apply nth_error_Some; congruence). lia.
Qed.

(* ---- train physics ---- *)
Lemma slowest_spec vs : forall b,
  slowest b vs <= b /\ (forall v, In v vs -> slowest b vs <= v_max_speed v) /\
  (slowest b vs = b \/ exists v, In v vs /\ slowest b vs = v_max_speed v).
Proof.
  induction vs as [|v vs IH]; intros b; cbn [slowest].
  - repeat split; auto; try lra. intros ? [].
  - specialize (IH (if qlt (v_max_speed v) b then v_max_speed v else b)).
    destruct IH as (A & B & C).
    assert (D : (if qlt (v_max_speed v) b then v_max_speed v else b) <= b /\
                (if qlt (v_max_speed v) b then v_max_speed v else b) <= v_max_speed v).
    { destruct (qlt (v_max_speed v) b) eqn:E; qb; lra. }
    repeat split.
    + lra.
    + intros w [<-|Hw]; [lra|auto].
    + destruct C as [C|(w & Hw & C)].
      * rewrite C. destruct (qlt (v_max_speed v) b); [right; exists v; cbn; auto|auto].
      * right. exists w. cbn; auto.
Qed.
Lemma max_speed_spec tp m : max_speed tp = Ok m <-> (top_speed tp m /\ max_speed tp = Ok m).
Proof.
  split; [|tauto]. intros H. split; [|exact H]. unfold max_speed, top_speed in *.
  destruct (tp_vehicles tp) as [|v vs]; [discriminate|]. injection H as <-.
  destruct (slowest_spec vs (v_max_speed v)) as (A & B & C).
  destruct (qmin_spec (slowest (v_max_speed v) vs) (tp_max tp)) as (D & E & F).
  split; [exact E|]. split; [|split; [|discriminate]].
  - intros w [<-|Hw]; [lra|]. specialize (B w Hw). lra.
  - destruct F as [F|F]; rewrite F; [right|left; reflexivity].
    destruct C as [C|(w & Hw & C)]; rewrite C; [exists v|exists w]; cbn; auto.
Qed.
Lemma tractive_sum_spec v vs : forall acc f, tractive_sum acc vs v = Ok f ->
  exists fs, Forall2 (fun vh f => vehicle_pulls vh v f) vs fs /\ f == acc + sum fs.
Proof.
  induction vs as [|vh vs IH]; intros acc f; cbn [tractive_sum].
  - intros [= <-]. exists []. split; [constructor|]. cbn. ring.
  - intros H. apply bind_Ok in H. destruct H as (g & Hg & H). apply IH in H.
    destruct H as (fs & Hf & E). exists (g :: fs). split.
    + constructor; [|exact Hf]. apply piecewise_spec in Hg. destruct Hg as (i & p & A & B & C & ->).
      exists i, p. repeat split; auto. apply polynomial_sum.
    + rewrite E. unfold sum. cbn [fold_right]. ring.
Qed.
Lemma resistive_sum_spec v vs : forall acc,
  resistive_sum acc vs v == acc + sum (map (fun vh => power_sum 0 (rev (v_resistance vh)) v) vs).
Proof.
  induction vs as [|vh vs IH]; intros acc; cbn [resistive_sum map].
  - unfold sum. cbn. ring.
  - rewrite IH, polynomial_sum. unfold sum. cbn [fold_right]. ring.
Qed.
Lemma acceleration_spec tp v a : acceleration tp v = Ok a -> accelerates tp v a.
Proof.
  unfold acceleration. intros H. apply bind_Ok in H. destruct H as (f & Hf & H).
  destruct (Qeq_bool _ 0) eqn:E; [discriminate|]. injection H as <-.
  assert (NZ : ~ tp_weight tp * MASS_FACTOR == 0) by (intros G; apply Qeq_bool_iff in G; congruence).
  apply tractive_sum_spec in Hf. destruct Hf as (fs & A & B). exists fs. split; [exact A|].
  change (106#100) with MASS_FACTOR. rewrite Qmult_comm, Qmult_div_r by exact NZ.
  unfold resistive_force. rewrite resistive_sum_spec, B. ring.
Qed.
Lemma vehicle_pulls_det vh v f g : vehicle_pulls vh v f -> vehicle_pulls vh v g -> f == g.
Proof.
  intros (i & p & A & B & C & D) (j & q & A' & B' & C' & D').
  destruct (lt_eq_lt_dec i j) as [[L|EQ]|L]; [|subst j|].
  - specialize (C' i p L A). lra.
  - replace q with p in D' by congruence. lra.
  - specialize (C j q L A'). lra.
Qed.
Lemma accelerates_det tp v a b : ~ tp_weight tp == 0 -> accelerates tp v a -> accelerates tp v b -> a == b.
Proof.
  intros NZ (fs & F & E) (gs & G & E').
  assert (S : sum fs == sum gs).
  { clear E E'. revert gs G. induction F as [|x f l fs Hx F IH]; intros gs G; inversion G as [|? g ? gs' Hg Gs]; subst.
    - reflexivity.
    - unfold sum. cbn [fold_right]. rewrite (vehicle_pulls_det _ _ _ _ Hx Hg). fold (sum fs) (sum gs').
      rewrite (IH _ Gs). reflexivity. }
  rewrite S in E. rewrite <- E' in E.
  apply (Qmult_inj_r a b (tp_weight tp * (106#100))); [|exact E].
  intros Z. apply NZ. apply Qmult_integral in Z. destruct Z as [Z|Z]; [exact Z|discriminate].
Qed.

(* ---- the phases as a whole ---- *)
Lemma nth_back l i s : nth_error l i = Some s -> (S i = length l)%nat -> s = back l.
Proof.
  intros H L. assert (NE : l <> []) by (intros ->; discriminate).
  pose proof (back_nth l NE) as B. replace (length l - 1)%nat with i in B by lia. congruence.
Qed.
Lemma back_cons a l : l <> [] -> back (a :: l) = back l.
Proof. intros H. unfold back. destruct l; [congruence|reflexivity]. Qed.

Lemma coast_ok fuel v D l : coast fuel v D = Ok l -> 0 < D ->
  0 < v /\ nth_error l 0 = Some (mksample 0 0 v) /\ (1 < length l)%nat /\
  every_half_second l /\ (forall s, In s l -> s_speed s = v) /\
  (forall s, inner l s -> s_dist s == v * s_time s /\ s_dist s < D) /\
  s_dist (back l) = D /\ v * (s_time (back l) - (1#2)) < D /\ D <= v * s_time (back l).
Proof.
  unfold coast. destruct (qle v 0) eqn:E; [discriminate|]. qb. intros H HD.
  apply bind_Ok in H. destruct H as (k & H & [= <-]).
  apply coast_loop_spec in H. destruct H as (H1 & H2 & _ & H4 & H5).
  specialize (H2 HD). specialize (H5 H2).
  set (L := mksample 0 0 v :: k).
  assert (LL : (1 < length L)%nat) by (destruct k; [congruence|cbn; lia]).
  assert (P : forall i s, nth_error L i = Some s -> s_time s == half i /\ s_dist s == v * half i /\ s_speed s = v).
  { intros [|i] s Hs.
    - injection Hs as <-. cbn. repeat split; try reflexivity. change (half 0) with (0#2). ring.
    - apply H1 in Hs. destruct Hs as (A & B & C). repeat split; auto; lra. }
  assert (IN : forall i s, nth_error L i = Some s -> (S i < length L)%nat -> s_dist s < D).
  { intros [|i] s Hs Li; [injection Hs as <-; exact HD|]. apply (H4 i s Hs). subst L. cbn [length] in Li. lia. }
  assert (BL : back L = back k) by (apply back_cons; exact H2).
  split; [exact E|]. split; [|split; [|split; [|split; [|split; [|split; [|split]]]]]].
  - unfold fix_last. apply Nat.ltb_lt in LL. rewrite LL. destruct k; [congruence|]. reflexivity.
  - rewrite fix_last_length. exact LL.
  - intros i s Hs. apply fix_last_any in Hs. destruct Hs as (s' & Hs & [->| ->]); apply P in Hs; apply Hs.
  - intros s Hi. apply In_nth_error in Hi. destruct Hi as (i & Hi). apply fix_last_any in Hi.
    destruct Hi as (s' & Hs & [->| ->]); apply P in Hs; apply Hs.
  - intros s (i & Hi & Li). rewrite fix_last_length in Li. apply fix_last_nth in Hi; [|exact Li].
    pose proof (P _ _ Hi) as (A & B & _). split; [rewrite A; exact B|]. eapply IN; eauto.
  - rewrite back_fix_last by exact LL. reflexivity.
  - rewrite back_fix_last by exact LL. cbn [with_dist s_time].
    assert (NE : L <> []) by discriminate.
    pose proof (back_nth L NE) as Bn. pose proof (P _ _ Bn) as (A & _ & _). rewrite A.
    destruct (length L) as [|[|n]] eqn:EL; [lia|lia|]. cbn [Nat.sub] in *. rewrite half_S.
    destruct (nth_error L n) as [s|] eqn:En.
    + pose proof (P _ _ En) as (_ & B & _). pose proof (IN _ _ En ltac:(lia)). lra.
    + apply nth_error_None in En. lia.
  - rewrite back_fix_last by exact LL. cbn [with_dist s_time].
    assert (NE : L <> []) by discriminate.
    pose proof (back_nth L NE) as Bn. pose proof (P _ _ Bn) as (A & B & _). rewrite A, <- B, BL. exact H5.
Qed.

Lemma brake_ok fuel tp vi vt l : brake fuel tp vi vt = Ok l ->
  exists a, deacceleration tp = Ok a /\ a < 0 /\ vt < vi /\
  nth_error l 0 = Some (mksample 0 0 vi) /\ (1 < length l)%nat /\
  every_half_second l /\
  (forall s, inner l s -> s_speed s == vi + a * s_time s /\ vt < s_speed s /\
     s_dist s == vi * s_time s + a * s_time s * (s_time s - (1#2)) * (1#2)) /\
  s_speed (back l) = vt /\ s_dist (back l) = braking_distance a vi vt /\
  - a * (s_time (back l) - (1#2)) < vi - vt /\ vi - vt <= - a * s_time (back l).
Proof.
  unfold brake. intros H. apply bind_Ok in H. destruct H as (u & H0 & H).
  unfold sassert in H0. destruct (qlt vt vi) eqn:E0; [|discriminate]. qb.
  apply bind_Ok in H. destruct H as (a & Ha & H).
  destruct (qle 0 a) eqn:E; [discriminate|]. qb.
  apply bind_Ok in H. destruct H as (k & H & [= <-]).
  destruct (braking_time_pos a vi vt E E0) as (TP & TE).
  set (T := braking_time a vi vt) in *.
  apply brake_loop_spec in H. destruct H as (H1 & H2 & _ & H4 & H5).
  specialize (H2 TP). specialize (H5 H2).
  set (L := mksample 0 0 vi :: k).
  assert (LL : (1 < length L)%nat) by (destruct k; [congruence|cbn; lia]).
  assert (P : forall i s, nth_error L i = Some s -> s_time s == half i /\ s_speed s == vi + a * half i /\
            s_dist s == vi * half i + a * half i * (half i - (1#2)) * (1#2)).
  { intros [|i] s Hs.
    - injection Hs as <-. cbn [s_time s_speed s_dist]. rewrite half_0. repeat split; try reflexivity; ring.
    - apply H1 in Hs. destruct Hs as (A & B & C). unfold brake_dist in C. repeat split; auto; lra. }
  assert (IN : forall i s, nth_error L i = Some s -> (S i < length L)%nat -> s_time s < T).
  { intros [|i] s Hs Li; [injection Hs as <-; exact TP|]. apply (H4 i s Hs). subst L. cbn [length] in Li. lia. }
  assert (BL : back L = back k) by (apply back_cons; exact H2).
  exists a. split; [exact Ha|]. split; [exact E|]. split; [exact E0|].
  assert (NE : L <> []) by discriminate.
  pose proof (back_nth L NE) as Bn. pose proof (P _ _ Bn) as (A & _ & _).
  split; [|split; [|split; [|split; [|split; [|split; [|split]]]]]].
  - unfold fix_last. apply Nat.ltb_lt in LL. rewrite LL. destruct k; [congruence|]. reflexivity.
  - rewrite fix_last_length. exact LL.
  - intros i s Hs. apply fix_last_any in Hs. destruct Hs as (s' & Hs & [->| ->]); apply P in Hs; apply Hs.
  - intros s (i & Hi & Li). rewrite fix_last_length in Li. apply fix_last_nth in Hi; [|exact Li].
    pose proof (P _ _ Hi) as (A' & B & C). pose proof (IN _ _ Hi Li) as LT. rewrite A' in *.
    split; [exact B|]. split; [|exact C]. rewrite B. clear -LT TE E. set (h := half i) in *. clearbody h T. nra.
  - rewrite back_fix_last by exact LL. reflexivity.
  - rewrite back_fix_last by exact LL. reflexivity.
  - rewrite back_fix_last by exact LL. cbn [with_dist_speed s_time]. rewrite A.
    destruct (length L) as [|[|n]] eqn:EL; [lia|lia|]. cbn [Nat.sub] in *. rewrite half_S.
    destruct (nth_error L n) as [s|] eqn:En.
    + pose proof (P _ _ En) as (B & _ & _). pose proof (IN _ _ En ltac:(lia)) as LT. rewrite B in LT.
      clear -LT TE E. set (h := half n) in *. clearbody h T. nra.
    + apply nth_error_None in En. lia.
  - rewrite back_fix_last by exact LL. cbn [with_dist_speed s_time]. rewrite BL.
    clear -H5 TE E. set (h := s_time (back k)) in *. clearbody h T. nra.
Qed.

Lemma chained_driven tp l : forall t d v, chained tp t d v l -> driven tp (mksample t d v :: l).
Proof.
  induction l as [|s l IH]; intros t d v H i a b Ha Hb.
  - destruct i; cbn in Hb; [discriminate|destruct i; discriminate].
  - cbn [chained] in H. destruct H as (acc & H1 & H2 & H3 & H4 & H5).
    destruct i as [|i]; cbn [nth_error] in Ha, Hb.
    + injection Ha as <-. injection Hb as <-. exists acc. cbn [s_time s_dist s_speed].
      split; [apply acceleration_spec; exact H1|]. repeat split; try lra. rewrite H4. field.
    + apply (IH _ _ _ H5 i); [|exact Hb].
      destruct i as [|i]; cbn [nth_error] in *; [|exact Ha]. injection Ha as <-. destruct s; reflexivity.
Qed.
Lemma driven_half tp l : forall a, driven tp (a :: l) -> s_time a == 0 -> every_half_second (a :: l).
Proof.
  intros a H Ha i. induction i as [|i IH]; intros s Hs.
  - injection Hs as <-. rewrite half_0. exact Ha.
  - destruct (nth_error (a :: l) i) as [r|] eqn:Er.
    + destruct (H i r s Er Hs) as (_ & _ & E & _). rewrite E, half_S, (IH r eq_refl). reflexivity.
    + apply nth_error_None in Er. assert (S i < length (a :: l))%nat by (apply nth_error_Some; congruence). lia.
Qed.
Lemma driven_app tp k r : driven tp (k ++ r) -> driven tp k.
Proof.
  intros H i a b Ha Hb. apply (H i).
  - rewrite nth_error_app1; [exact Ha|]. apply nth_error_Some. congruence.
  - rewrite nth_error_app1; [exact Hb|]. apply nth_error_Some. congruence.
Qed.

Lemma map_last_app f k y : map_last f (k ++ [y]) = k ++ [f y].
Proof.
  induction k as [|a k IH]; [reflexivity|]. cbn [app map_last].
  destruct (k ++ [y]) eqn:E; [destruct k; discriminate|]. rewrite IH. reflexivity.
Qed.
Lemma removelast_two (A : Type) (k : list A) y z : removelast (k ++ [y; z]) = k ++ [y].
Proof. replace (k ++ [y; z]) with ((k ++ [y]) ++ [z]) by (rewrite <- app_assoc; reflexivity). apply removelast_last. Qed.

Lemma accelerate_ok fuel tp v0 target D l : accelerate fuel tp v0 target D = Ok l -> 0 <= D ->
  exists m k y, top_speed tp m /\ max_speed tp = Ok m /\
  driven tp (k ++ [y]) /\ nth_error (k ++ [y]) 0 = Some (mksample 0 0 v0) /\
  (forall s, In s k -> s_speed s < m /\ s_speed s < target /\ s_dist s < D) /\
  ((l = k ++ [y] /\ s_dist y <= D /\ (m <= s_speed y \/ target <= s_speed y \/ s_dist y == D)) \/
   (exists z, moves tp y z /\ s_dist y < D /\ D < s_dist z /\ s_speed y < m /\ s_speed y < target /\
      l = k ++ [match k with [] => y | _ => mksample (s_time y) D (s_speed y) end])).
Proof.
  unfold accelerate. intros H HD. apply bind_Ok in H. destruct H as (m & Hm & H).
  apply bind_Ok in H. destruct H as (r & H & [= <-]).
  apply accelerate_loop_spec in H. destruct H as (H1 & H2 & H3 & H4 & H5).
  set (L := mksample 0 0 v0 :: r).
  assert (DR : driven tp L) by (apply chained_driven; exact H1).
  assert (IN : forall i s, nth_error L i = Some s -> (S i < length L)%nat -> ~ ends m target D (s_dist s) (s_speed s)).
  { intros [|i] s Hs Li.
    - injection Hs as <-. cbn [s_dist s_speed]. intros G. apply H2 in G. subst r. cbn in Li. lia.
    - apply (H4 i s Hs). subst L. cbn [length] in Li. lia. }
  assert (BK : ends m target D (s_dist (back L)) (s_speed (back L))).
  { subst L. destruct r as [|x r].
    - unfold back. cbn [last s_dist s_speed].
      destruct (qlt v0 m && qlt v0 target && qlt 0 D) eqn:E.
      + exfalso. apply H3; [|reflexivity]. intros G. apply accel_cond in G. congruence.
      + apply accel_cond in E. exact E.
    - rewrite back_cons by discriminate. apply H5. discriminate. }
  assert (INk : forall k y, L = k ++ y -> y <> [] -> forall s, In s k -> s_speed s < m /\ s_speed s < target /\ s_dist s < D).
  { intros k y EL NE s Hs. apply In_nth_error in Hs. destruct Hs as (i & Hi).
    assert (Li : (i < length k)%nat) by (apply nth_error_Some; congruence).
    assert (G : ~ ends m target D (s_dist s) (s_speed s)).
    { apply (IN i); [rewrite EL, nth_error_app1; auto|]. rewrite EL, app_length. destruct y; [congruence|cbn; lia]. }
    unfold ends in G. repeat split; apply Qnot_le_lt; tauto. }
  exists m. fold L. unfold trim. destruct (qlt D (s_dist (back L))) eqn:E; qb.
  - (* overshoot *)
    assert (LR : r <> []) by (intros ->; unfold L, back in E; cbn [last s_dist] in E; lra).
    destruct (exists_last LR) as (r' & z & ->).
    assert (exists k y, L = k ++ [y; z]) as (k & y & EL).
    { destruct r' as [|x r'].
      - exists [], (mksample 0 0 v0). reflexivity.
      - destruct (exists_last (l := mksample 0 0 v0 :: x :: r')) as (k & y & Ek); [discriminate|].
        exists k, y. unfold L. change (mksample 0 0 v0 :: (x :: r') ++ [z]) with ((mksample 0 0 v0 :: x :: r') ++ [z]).
        rewrite Ek, <- app_assoc. reflexivity. }
    exists k, y. rewrite EL in *. rewrite removelast_two.
    split; [apply max_speed_spec; exact Hm|]. split; [exact Hm|].
    split; [|split; [|split; [|right]]].
    + replace (k ++ [y; z]) with ((k ++ [y]) ++ [z]) in DR by (rewrite <- app_assoc; reflexivity).
      apply driven_app in DR. exact DR.
    + assert (Z : nth_error (k ++ [y; z]) 0 = Some (mksample 0 0 v0)) by (rewrite <- EL; reflexivity).
      destruct k; exact Z.
    + apply (INk k [y; z]); [reflexivity|discriminate].
    + pose proof (INk (k ++ [y]) [z]) as Y. rewrite <- app_assoc in Y.
      specialize (Y eq_refl ltac:(discriminate) y ltac:(apply in_or_app; right; left; reflexivity)).
      destruct Y as (Y1 & Y2 & Y3). exists z. repeat split; auto.
      * apply (DR (length k)); rewrite nth_error_app2 by lia; [rewrite Nat.sub_diag|replace (S _ - _)%nat with 1%nat by lia]; reflexivity.
      * replace (k ++ [y; z]) with ((k ++ [y]) ++ [z]) in E by (rewrite <- app_assoc; reflexivity).
        unfold back in E. rewrite last_last in E. exact E.
      * unfold fix_last. rewrite app_length. cbn [length]. destruct k as [|x k]; [reflexivity|].
        replace (Nat.ltb 1 (length (x :: k) + 1)) with true by (symmetry; apply Nat.ltb_lt; cbn; lia).
        rewrite map_last_app. reflexivity.
  - destruct (exists_last (l := L)) as (k & y & EL); [discriminate|].
    exists k, y. rewrite EL in *.
    split; [apply max_speed_spec; exact Hm|]. split; [exact Hm|].
    split; [exact DR|]. split; [|split; [|left]].
    + rewrite <- EL. reflexivity.
    + apply (INk k [y]); [reflexivity|discriminate].
    + unfold back in E, BK. rewrite last_last in E, BK. repeat split; auto.
      unfold ends in BK. destruct BK as [B|[B|B]]; auto. right. right. lra.
Qed.

Lemma tractive_sum_total v vs : (forall vh, In vh vs -> exists p, In p (v_tractive vh) /\ v < p_to p) ->
  forall acc, exists f, tractive_sum acc vs v = Ok f.
Proof.
  induction vs as [|vh vs IH]; intros H acc; cbn [tractive_sum]; [eauto|].
  destruct (piecewise_total (v_tractive vh) v) as (y & Hy); [apply H; left; reflexivity|].
  rewrite Hy. cbn [bind]. apply IH. intros w Hw. apply H. right. exact Hw.
Qed.
Lemma acceleration_total tp v : ~ tp_weight tp == 0 ->
  (forall vh, In vh (tp_vehicles tp) -> exists p, In p (v_tractive vh) /\ v < p_to p) ->
  exists a, acceleration tp v = Ok a.
Proof.
  intros W H. destruct (tractive_sum_total v _ H 0) as (f & Hf).
  unfold acceleration, tractive_force. rewrite Hf. cbn [bind].
  destruct (Qeq_bool (tp_weight tp * MASS_FACTOR) 0) eqn:E; [|eauto].
  exfalso. apply Qeq_bool_iff in E. apply Qmult_integral in E. destruct E as [E|E]; [auto|discriminate].
Qed.
Lemma max_speed_total tp : tp_vehicles tp <> [] -> exists m, max_speed tp = Ok m.
Proof. unfold max_speed. destruct (tp_vehicles tp); [congruence|eauto]. Qed.

Lemma accelerate_loop_total tp m target D amin v0 : 0 < amin ->
  (forall v, v0 <= v -> v < m -> v < target -> exists a, acceleration tp v = Ok a /\ amin <= a) ->
  forall n t d v, v0 <= v -> target <= v + amin * half n ->
  forall fuel, (n <= fuel)%nat -> exists l, accelerate_loop fuel tp m target D t d v = Ok l.
Proof.
  intros Ham HA. induction n as [|n IH]; intros t d v Hv Hn fuel Hf.
  - rewrite half_0 in Hn. assert (E : qlt v m && qlt v target && qlt d D = false).
    { apply accel_cond. unfold ends. right. left. lra. }
    destruct fuel; cbn [accelerate_loop]; rewrite E; eauto.
  - destruct fuel as [|fuel]; [lia|]. cbn [accelerate_loop].
    destruct (qlt v m && qlt v target && qlt d D) eqn:E; [|eauto]. qb.
    destruct (HA v) as (a & Ha & La); auto. rewrite Ha. cbn [bind]. cbv zeta.
    destruct (IH (t + DELTA_T) (d + (v + (v + a * DELTA_T)) * (1#2) * DELTA_T) (v + a * DELTA_T)) with (fuel := fuel) as (l & ->).
    + unfold DELTA_T. lra.
    + rewrite half_S in Hn. unfold DELTA_T. lra.
    + lia.
    + cbn [bind]. eauto.
Qed.

Lemma coast_total v D : 0 < v -> exists n, forall fuel, (n <= fuel)%nat -> exists l, coast fuel v D = Ok l.
Proof.
  intros Hv. destruct (archimedes v D Hv) as (n & Hn). exists n. intros fuel Hf.
  destruct (coast_loop_total v D Hv n 0 0) with (fuel := fuel) as (l & Hl); [lra|exact Hf|].
  unfold coast. assert (E : qle v 0 = false) by (apply qle_false; exact Hv). rewrite E, Hl. cbn [bind]. eauto.
Qed.
Lemma brake_total tp a vi vt : deacceleration tp = Ok a -> a < 0 -> vt < vi ->
  exists n, forall fuel, (n <= fuel)%nat -> exists l, brake fuel tp vi vt = Ok l.
Proof.
  intros Ha La Lv. destruct (archimedes 1 (braking_time a vi vt)) as (n & Hn); [lra|].
  exists n. intros fuel Hf.
  destruct (brake_loop_total a (braking_time a vi vt) n 0 0 vi) with (fuel := fuel) as (l & Hl); [lra|exact Hf|].
  unfold brake. apply qlt_true in Lv. rewrite Lv. cbn [sassert bind]. rewrite Ha. cbn [bind].
  assert (E : qle 0 a = false) by (apply qle_false; exact La). rewrite E, Hl. cbn [bind]. eauto.
Qed.

(* distances of a driven list ascend when the speeds are not negative *)
Lemma driven_speeds tp l v0 : 0 <= v0 ->
  (forall v a, v0 <= v -> accelerates tp v a -> In v (map s_speed (removelast l)) -> 0 <= a) ->
  driven tp l -> (forall s, nth_error l 0 = Some s -> s_speed s = v0) ->
  forall i s, nth_error l i = Some s -> v0 <= s_speed s.
Proof.
  intros Hv HA DR H0 i. induction i as [|i IH]; intros s Hs.
  - rewrite (H0 s Hs). lra.
  - destruct (nth_error l i) as [r|] eqn:Er.
    + specialize (IH r eq_refl). destruct (DR i r s Er Hs) as (a & Ha & _ & Es & _).
      assert (0 <= a).
      { apply (HA (s_speed r)); auto. apply in_map.
        assert (L : (S i < length l)%nat) by (apply nth_error_Some; congruence).
        destruct (exists_last (l := l)) as (k & z & ->); [intros ->; destruct i; discriminate|].
        rewrite removelast_last. rewrite app_length in L. cbn [length] in L.
        rewrite nth_error_app1 in Er by lia. exact (nth_error_In _ _ Er). }
      rewrite Es. lra.
    + apply nth_error_None in Er. assert (S i < length l)%nat by (apply nth_error_Some; congruence). lia.
Qed.
