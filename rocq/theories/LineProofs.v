(* Proofs about line segments and bounding boxes. *)
From Coq Require Import Lqa Sorting.Sorted.
From Verif Require Import Base LineModel.
Local Open Scope Z_scope.

Lemma klt_spec a b : klt a b = true <-> (a < b)%Q.
Proof.
  unfold klt. destruct (Qle_bool b a) eqn:E; cbn [negb].
  - apply Qle_bool_iff in E. split; [discriminate|]. intros H. exfalso. lra.
  - split; [|reflexivity]. intros _. apply Qnot_le_lt. intros H. apply Qle_bool_iff in H. congruence.
Qed.
Lemma klt_false a b : klt a b = false <-> (b <= a)%Q.
Proof.
  destruct (klt a b) eqn:E.
  - apply klt_spec in E. split; [discriminate|]. intros. exfalso. lra.
  - split; [|reflexivity]. intros _. apply Qnot_lt_le. intros H. apply klt_spec in H. congruence.
Qed.
Lemma kle_spec a b : kle a b = true <-> (a <= b)%Q.
Proof. apply Qle_bool_iff. Qed.
Lemma kle_false a b : kle a b = false <-> (b < a)%Q.
Proof.
  destruct (kle a b) eqn:E.
  - apply kle_spec in E. split; [discriminate|]. intros. exfalso. lra.
  - split; [|reflexivity]. intros _. apply Qnot_le_lt. intros H. apply kle_spec in H. congruence.
Qed.

(* ---- bisection ---- *)
Lemma lower_bound_ok {A} (f : A -> bool) a b : Forall (fun x => f x = true) a -> Forall (fun x => f x = false) b ->
  forall fuel first len, (first <= length a <= first + len)%nat -> (first + len <= length (a ++ b))%nat -> (len < fuel)%nat ->
  lower_bound fuel f (a ++ b) first len = Ok (length a).
Proof.
  intros FA FB. rewrite Forall_forall in FA, FB.
  induction fuel as [|fuel IH]; intros first len B1 B2 B3; [lia|]. cbn [lower_bound].
  destruct (Nat.eqb_spec len 0) as [-> |N]; [f_equal; lia|].
  pose proof (Nat.div_lt len 2 ltac:(lia) ltac:(lia)) as HD. set (half := Nat.div len 2) in *. cbv zeta.
  destruct (nth_error (a ++ b) (first + half)) as [x|] eqn:E.
  2:{ apply nth_error_None in E. lia. }
  destruct (Nat.lt_ge_cases (first + half) (length a)) as [L|L].
  - rewrite nth_error_app1 in E by exact L. rewrite (FA x) by (eapply nth_error_In; exact E). apply IH; lia.
  - rewrite nth_error_app2 in E by exact L. rewrite (FB x) by (eapply nth_error_In; exact E). apply IH; lia.
Qed.

Definition from_le (s t : segment) : Prop := (sg_from s <= sg_from t)%Q.
Lemma split_at km l : StronglySorted from_le l -> exists a b, l = a ++ b /\
  Forall (fun s => kle (sg_from s) km = true) a /\ Forall (fun s => kle (sg_from s) km = false) b.
Proof.
  induction 1 as [|s l S IH F]; [exists [], []; auto|].
  destruct (kle (sg_from s) km) eqn:E.
  - destruct IH as (a & b & -> & FA & FB). exists (s :: a), b. auto.
  - exists [], (s :: l). split; [reflexivity|]. split; [constructor|]. constructor; [exact E|].
    eapply Forall_impl; [|exact F]. intros t. unfold from_le. rewrite kle_false in *. intros. lra.
Qed.

(* what is found between the first and the last segment *)
Lemma found l km fr : StronglySorted from_le (ln_segments l) -> hd_error (ln_segments l) = Some fr ->
  (sg_from fr <= km)%Q -> (km <= sg_to (last (ln_segments l) fr))%Q ->
  exists a s b, ln_segments l = a ++ s :: b /\ (sg_from s <= km)%Q /\ Forall (fun t => km < sg_from t)%Q b /\
    get_segment l km = (sassert (kle km (sg_to s)) ;; Ok s).
Proof.
  intros SS HD L1 L2. unfold get_segment. destruct (ln_segments l) as [|fr' rest] eqn:EL; [discriminate|]. injection HD as ->.
  rewrite <- EL in *. replace (klt km (sg_from fr)) with false by (symmetry; apply klt_false; exact L1). cbv zeta.
  replace (klt (sg_to (last (ln_segments l) fr)) km) with false by (symmetry; apply klt_false; exact L2).
  destruct (split_at km _ SS) as (a & b & E & FA & FB).
  assert (NE : a <> []).
  { intros ->. cbn [app] in E. rewrite <- E, EL in FB. inversion FB as [|? ? F _]; subst. apply kle_false in F. lra. }
  destruct (exists_last NE) as (a' & s & ->). exists a', s, b. rewrite <- app_assoc in E. cbn [app] in E. split; [exact E|].
  apply Forall_app in FA. destruct FA as (FA & FS). inversion FS as [|? ? F _]; subst. split; [apply kle_spec; exact F|].
  split; [eapply Forall_impl; [|exact FB]; intros t; apply kle_false|].
  pose proof (lower_bound_ok (fun s => kle (sg_from s) km) (a' ++ [s]) b) as LB. rewrite <- app_assoc in LB. cbn [app] in LB. rewrite <- E in LB.
  rewrite LB; [|apply Forall_app; auto|exact FB| | |]; rewrite ?E, ?app_length in *; cbn [length] in *; rewrite ?app_length; cbn [length]; try lia.
  cbn [bind]. replace (length a' + 1)%nat with (S (length a')) by lia.
  rewrite nth_error_app2, Nat.sub_diag by lia. cbn [nth_error]. rewrite F. reflexivity.
Qed.

(* ---- bounding boxes ---- *)
Definition grow (b : box) (p : gps) : box :=
  mkbox (mkgps (qmin (g_lon (bb_sw b)) (g_lon p)) (qmin (g_lat (bb_sw b)) (g_lat p)))
        (mkgps (qmax (g_lon (bb_ne b)) (g_lon p)) (qmax (g_lat (bb_ne b)) (g_lat p))).
Lemma qmin_spec a b : (qmin a b <= a /\ qmin a b <= b)%Q /\ (qmin a b = a \/ qmin a b = b).
Proof. unfold qmin. destruct (Qle_bool a b) eqn:E; [apply Qle_bool_iff in E|apply kle_false in E]; split; auto; lra. Qed.
Lemma qmax_spec a b : (a <= qmax a b /\ b <= qmax a b)%Q /\ (qmax a b = a \/ qmax a b = b).
Proof. unfold qmax. destruct (Qle_bool b a) eqn:E; [apply Qle_bool_iff in E|apply kle_false in E]; split; auto; lra. Qed.
Definition contains (b : box) (p : gps) : Prop :=
  (g_lon (bb_sw b) <= g_lon p <= g_lon (bb_ne b))%Q /\ (g_lat (bb_sw b) <= g_lat p <= g_lat (bb_ne b))%Q.
(* each of the four sides is that of some point, or still the one of the empty box *)
Definition side (f : gps -> Q) (x : Q) (dflt : Q) (ps : list gps) : Prop := x = dflt \/ exists p, In p ps /\ f p = x.
Definition tight (b0 b : box) (ps : list gps) : Prop :=
  side g_lon (g_lon (bb_sw b)) (g_lon (bb_sw b0)) ps /\ side g_lat (g_lat (bb_sw b)) (g_lat (bb_sw b0)) ps /\
  side g_lon (g_lon (bb_ne b)) (g_lon (bb_ne b0)) ps /\ side g_lat (g_lat (bb_ne b)) (g_lat (bb_ne b0)) ps.
Definition wider (b b' : box) : Prop :=
  (g_lon (bb_sw b') <= g_lon (bb_sw b))%Q /\ (g_lat (bb_sw b') <= g_lat (bb_sw b))%Q /\
  (g_lon (bb_ne b) <= g_lon (bb_ne b'))%Q /\ (g_lat (bb_ne b) <= g_lat (bb_ne b'))%Q.
Lemma grow_all ps : forall b, let b' := fold_left grow ps b in
  wider b b' /\ (forall p, In p ps -> contains b' p) /\ tight b b' ps.
Proof.
  induction ps as [|p ps IH]; intros b; cbn [fold_left].
  - cbv zeta. split; [unfold wider; repeat split; lra|]. split; [intros p []|]. unfold tight, side. auto.
  - destruct (IH (grow b p)) as ((W1 & W2 & W3 & W4) & C & (T1 & T2 & T3 & T4)). cbv zeta in *.
    remember (fold_left grow ps (grow b p)) as b' eqn:EB. clear EB.
    destruct (qmin_spec (g_lon (bb_sw b)) (g_lon p)) as ((A1 & A2) & A3). destruct (qmin_spec (g_lat (bb_sw b)) (g_lat p)) as ((B1 & B2) & B3).
    destruct (qmax_spec (g_lon (bb_ne b)) (g_lon p)) as ((C1 & C2) & C3). destruct (qmax_spec (g_lat (bb_ne b)) (g_lat p)) as ((D1 & D2) & D3).
    unfold grow in W1, W2, W3, W4. cbn [bb_sw bb_ne g_lon g_lat] in W1, W2, W3, W4. unfold grow in T1, T2, T3, T4. cbn [bb_sw bb_ne g_lon g_lat] in T1, T2, T3, T4.
    split; [unfold wider; repeat split; lra|]. split.
    + intros q [<-|H]; [|apply C; exact H]. unfold contains. repeat split; lra.
    + assert (SD : forall f x y z, side f x y ps -> (y = z \/ y = f p) -> side f x z (p :: ps)).
      { intros f x y z [-> |(q & Q1 & Q2)] [-> | ->]; [left; reflexivity|right; exists p; cbn; auto|right; exists q; cbn; auto|right; exists q; cbn; auto]. }
      unfold tight. repeat split; eapply SD; try eassumption.
Qed.
