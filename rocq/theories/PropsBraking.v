(* C59: the limits a train is given leave room to brake. *)
From Coq Require Import Lqa.
From Verif Require Import Base PhysModel PhysSpec PhysProofs PropsPhys RunModel RunProofs RunSpec RunIntervals RunLimits RunTrain PropsRun.

(* ---- specification ---- *)
(* braking from speed v to speed w takes no more than the given length *)
Definition brakes_within (fuel : nat) (tp : physics) (v w len : Q) : Prop :=
  exists v' w' b, v' == v /\ w' == w /\ brake fuel tp v' w' = Ok b /\ s_dist (back b) <= len.
(* v is the smaller one of the limit q and the top speed m *)
Definition entry_speed (q m v : Q) : Prop := v <= q /\ v <= m /\ (v == q \/ v == m).

(* ---- proofs ---- *)
Definition room fuel tp (a b : interval) : Prop :=
  exists q m, iv_left b = Some q /\ max_speed tp = Ok m /\
   ((qle (qmin q m) (iv_right b) = true /\ is_halt b = false) \/
    exists br, brake fuel tp (qmin q m) (qmin (if is_halt b then 0 else iv_right b) m) = Ok br /\ s_dist (back br) <= iv_dist b - iv_dist a).
Fixpoint rooms fuel tp (l : list interval) : Prop :=
  match l with a :: ((b :: _) as l') => room fuel tp a b /\ rooms fuel tp l' | _ => True end.
Lemma pass_rooms fuel tp l : forall prev l', adjust_pass fuel tp prev l = Ok (l', false) -> l' = prev :: l /\ rooms fuel tp (prev :: l).
Proof.
  induction l as [|iv l IH]; intros prev l'; cbn [adjust_pass].
  - intros [= <-]. split; [reflexivity|exact I].
  - intros H. inv_bind H. inv_bind H. unfold left_limit in B. destruct (iv_left iv) as [q|] eqn:El; [|discriminate]. injection B as <-.
    destruct (qle (qmin q x0) (iv_right iv) && negb (is_halt iv)) eqn:C.
    + inv_bind H. destruct x as [r c]. injection H as <- ->. destruct (IH _ _ B) as [-> R]. split; [reflexivity|]. split; [|exact R].
      apply andb_true_iff in C as [C1 C2]. apply negb_true_iff in C2. exists q, x0. auto.
    + inv_bind H. inv_bind H. destruct (qle (s_dist (back x1)) (iv_dist iv - iv_dist prev)) eqn:D.
      * inv_bind H. destruct x2 as [r c]. injection H as <- ->. destruct (IH _ _ B2) as [-> R]. split; [reflexivity|]. split; [|exact R].
        exists q, x0. split; [exact El|]. split; [exact B0|]. right. exists x1. unfold target_speed in B. rewrite B0 in B. cbn [bind] in B. injection B as <-.
        split; [exact B1|]. apply Qle_bool_iff. exact D.
      * inv_bind H. inv_bind H. inv_bind H. inv_bind H. destruct x5 as [r c]. discriminate H.
Qed.
Lemma all_rooms fuel bfuel tp : forall l l', adjust_all fuel bfuel tp l = Ok l' -> rooms bfuel tp l'.
Proof.
  assert (A : forall l r, adjust_speed_limits bfuel tp l = Ok (r, false) -> rooms bfuel tp r).
  { intros [|iv l] r; cbn [adjust_speed_limits]; [intros [= <-]; exact I|]. intros H. destruct (pass_rooms _ _ _ _ _ H) as [-> R]. exact R. }
  induction fuel as [|fuel IH]; intros l l'; cbn [adjust_all]; intros H; inv_bind H; destruct x as [r b]; destruct b; try discriminate;
    try (injection H as <-; eapply A; exact B). eapply IH. exact H.
Qed.
Lemma rooms_nth fuel tp l : rooms fuel tp l -> forall i a b, nth_error l i = Some a -> nth_error l (S i) = Some b -> room fuel tp a b.
Proof.
  induction l as [|x [|y l] IH]; intros R i a b Ha Hb; [destruct i; discriminate|destruct i as [|[|i]]; discriminate|].
  destruct R as [R1 R2]. destruct i as [|i]; [injection Ha as <-; injection Hb as <-; exact R1|]. exact (IH R2 i a b Ha Hb).
Qed.

(* On every stretch a train that enters it as fast as it may, at the limit or at its top speed, can
   brake before the end of the stretch: to a stand if it stops there, or to the limit behind it. *)
Theorem C59_room_to_brake fuel tp limit ns il m : get_interval_list fuel tp limit ns = Ok il -> top_speed tp m -> 0 <= m ->
  forall i a b, nth_error il i = Some a -> nth_error il (S i) = Some b ->
  exists q v, iv_left b = Some q /\ entry_speed q m v /\
    (iv_stop b <> None -> brakes_within fuel tp v 0 (iv_dist b - iv_dist a)) /\
    (iv_stop b = None -> iv_right b < v -> brakes_within fuel tp v (iv_right b) (iv_dist b - iv_dist a)).
Proof.
  intros H Hm M0 i a b Ha Hb. unfold get_interval_list in H. inv_bind H. apply all_rooms in H.
  destruct (rooms_nth _ _ _ H i a b Ha Hb) as (q & m' & El & EM & R). pose proof (top_speed_max _ _ _ Hm EM) as E.
  destruct (qmin_spec q m') as (Q1 & Q2 & Q3).
  exists q, (qmin q m'). split; [exact El|]. split.
  { split; [exact Q1|]. split; [lra|]. destruct Q3 as [-> | ->]; [left; reflexivity|right; lra]. }
  unfold is_halt in R. destruct R as [[R1 R2]|(br & R1 & R2)].
  - destruct (iv_stop b); [discriminate|]. split; [congruence|]. intros _ L. apply Qle_bool_iff in R1. lra.
  - split.
    + intros S. destruct (iv_stop b) as [s|]; [|congruence]. destruct (qmin_spec 0 m') as (P1 & P2 & P3).
      exists (qmin q m'), (qmin 0 m'), br. split; [reflexivity|]. split; [destruct P3 as [-> |P3]; [reflexivity|rewrite P3 in *; lra]|]. split; assumption.
    + intros S L. rewrite S in R1. destruct (qmin_spec (iv_right b) m') as (P1 & P2 & P3).
      exists (qmin q m'), (qmin (iv_right b) m'), br. split; [reflexivity|]. split; [destruct P3 as [-> |P3]; [reflexivity|rewrite P3 in *; lra]|]. split; assumption.
Qed.
Print Assumptions C59_room_to_brake.
(* Half a metre per second is allowed from 5 m on, 3 m/s before: two metres do not suffice to brake
   from 3 m/s, so only 2 m/s are allowed at the signal before them. *)
Example C59_room_sat :
  let ns := [demo_halt 0 0 (mkstop 0 1000); demo_signal 1 3; demo_limit 2 (1#2); demo_halt 2 1 (mkstop 30 1070)] in
  top_speed demo_train 40 /\ exists il, get_interval_list 60 demo_train 3 ns = Ok il /\
    map (fun x => (Qred (iv_dist x), Qred (iv_right x))) il = [(0, 3); (3, 2); (5, 1#2); (6, 1#2)].
Proof.
  cbv zeta. split; [|eexists; split; [vm_compute; reflexivity|reflexivity]].
  split; [cbn; lra|]. split; [intros vh [<-|[]]; cbn; lra|]. split; [left; reflexivity|discriminate].
Qed.

(* ---- and are not lowered further than that takes ---- *)
(* specification: braking from speed v to speed w takes at least the given length *)
Definition brakes_no_shorter (fuel : nat) (tp : physics) (v w len : Q) : Prop :=
  exists v' w' b, v' == v /\ w' == w /\ brake fuel tp v' w' = Ok b /\ len <= s_dist (back b).

(* proofs *)
Section LEAST.
  Variable fuel : nat.
  Variable tp : physics.
  Variable m : Q.
  Definition low (a b : interval) : Prop :=
    exists v w, iv_right a < v /\ v <= iv_right a + 1 /\ w < v /\ (if is_halt b then w == 0 else qmin (iv_right b) m <= w) /\
      brakes_no_shorter fuel tp v w (iv_dist b - iv_dist a).
  Fixpoint kept (o l : list interval) : Prop :=
    match o, l with
    | [], [] => True
    | x :: o', a :: l' => (iv_right a = iv_right x \/ exists b r, l' = b :: r /\ low a b) /\ kept o' l'
    | _, _ => False
    end.
  Lemma low_stable a b b' : low a b -> same_shape b b' -> iv_right b' <= iv_right b -> low a b'.
  Proof.
    intros (v & w & A & B & V & C & D) (S1 & S2 & _) L. exists v, w. unfold is_halt in *. rewrite <- S1, <- S2. split; [exact A|]. split; [exact B|]. split; [exact V|]. split; [|exact D].
    destruct (iv_stop b); [exact C|]. destruct (qmin_spec (iv_right b') m) as (P1 & P2 & _), (qmin_spec (iv_right b) m) as (Q1 & Q2 & [E|E]); rewrite E in *; lra.
  Qed.
  Lemma lower_tested bf target len : forall n new x, lower_speed n bf tp new target len = Ok x ->
    (exists v b, v == new + 1 /\ target < v /\ brake bf tp v target = Ok b /\ len <= s_dist (back b)) ->
    exists v b, v == x + 1 /\ target < v /\ brake bf tp v target = Ok b /\ len <= s_dist (back b).
  Proof.
    induction n as [|n IH]; intros new x H E; cbn [lower_speed] in H; destruct (qlt target new) eqn:C; try (injection H as <-; exact E);
      inv_bind H; destruct (qle len (s_dist (back x0))) eqn:D; try discriminate; try (injection H as <-; exact E).
    apply (IH _ _ H). exists new, x0. qb. split; [lra|]. split; [lra|]. split; [exact B|]. exact D.
  Qed.
  Hypothesis M : forall x, max_speed tp = Ok x -> x = m.
  Hypothesis M0 : 0 <= m.
  Lemma pass_kept l : forall o prev l' c, adjust_pass fuel tp prev l = Ok (l', c) -> limits_meet (prev :: l) -> kept o (prev :: l) -> kept o l'.
  Proof.
    induction l as [|iv l IH]; intros o prev l' c; cbn [adjust_pass].
    - intros [= <- <-] _ K. exact K.
    - intros H (M1 & M2) K. destruct o as [|x o]; [destruct K|]. destruct K as [K1 K2].
      assert (KEEP : forall r b, adjust_pass fuel tp iv l = Ok (r, b) -> kept (x :: o) (prev :: r)).
      { intros r b Hr. split; [|eapply IH; eauto]. destruct K1 as [K1|(b' & r' & E & Lo)]; [left; exact K1|right]. injection E as <- <-.
        pose proof (adjust_pass_shape _ _ _ _ _ _ Hr) as S. pose proof (adjust_pass_lowers _ _ _ _ _ _ Hr M2) as W.
        inversion S as [|? y ? r1 S1 S2]; subst. inversion W as [|? ? ? ? [_ W1] W2]; subst. exists y, r1. split; [reflexivity|].
        eapply low_stable; eauto. }
      inv_bind H. inv_bind H. destruct (qle (qmin x0 x1) (iv_right iv) && negb (is_halt iv)).
      + inv_bind H. destruct x2 as [r b]. injection H as <- <-. eauto.
      + inv_bind H. inv_bind H. destruct (qle (s_dist (back x3)) (iv_dist iv - iv_dist prev)) eqn:D.
        * inv_bind H. destruct x4 as [r b]. injection H as <- <-. eauto.
        * inv_bind H. set (new := if qle x4 x2 then x2 else x4) in *. inv_bind H. inv_bind H. inv_bind H. destruct x7 as [r b].
          injection H as <- <-. apply sassert_ok in B4.
          assert (MM : limits_meet (set_left new iv :: l)) by (destruct l; [exact I|split; [apply M2|apply M2]]).
          assert (KK : kept o (set_left new iv :: l)) by (destruct o as [|y o]; [destruct K2|exact K2]).
          split; [|eapply IH; eauto]. right.
          pose proof (adjust_pass_shape _ _ _ _ _ _ B6) as S. pose proof (adjust_pass_lowers _ _ _ _ _ _ B6 MM) as W.
          inversion S as [|? y ? r1 S1 S2]; subst. inversion W as [|? ? ? ? [_ W1] W2]; subst. exists y, r1. split; [reflexivity|].
          apply (low_stable _ (set_left new iv)); [|exact S1|exact W1].
          assert (G : x2 <= new) by (unfold new; destruct (qle x4 x2) eqn:F; qb; lra).
          destruct (lower_tested _ _ _ _ _ _ B3) as (v & bb & V1 & V2 & V3 & V4).
          { exists (qmin x0 x1), x3. qb. split; [lra|]. split; [lra|]. split; [exact B2|]. lra. }
          exists v, x2. cbn [iv_right iv_dist set_right set_left is_halt iv_stop].
          assert (NV : new < v /\ v <= new + 1) by (unfold new in *; destruct (qle x4 x2) eqn:F; qb; lra).
          split; [apply NV|]. split; [apply NV|]. split; [exact V2|]. split.
          { unfold target_speed in B1. rewrite B0 in B1. cbn [bind] in B1. injection B1 as <-. rewrite (M _ B0). unfold is_halt. cbn. destruct (iv_stop iv); [|apply Qle_refl].
            destruct (qmin_spec 0 m) as (P1 & P2 & [P|P]); rewrite P in *; lra. }
          exists v, x2, bb. split; [reflexivity|]. split; [reflexivity|]. split; [exact V3|exact V4].
  Qed.
  Lemma kept_refl l : kept l l.
  Proof. induction l; cbn; auto. Qed.
  Lemma all_kept n : forall o l l', adjust_all n fuel tp l = Ok l' -> limits_meet l -> nonneg l -> kept o l -> kept o l'.
  Proof.
    assert (A : forall o l r b, adjust_speed_limits fuel tp l = Ok (r, b) -> limits_meet l -> nonneg l -> kept o l -> limits_meet r /\ nonneg r /\ kept o r).
    { intros o [|iv l] r b; cbn [adjust_speed_limits]; [intros [= <- <-]; auto|]. intros H ML N K.
      destruct (adjust_pass_meet _ _ _ _ _ _ H ML N) as (A & B & _). split; [exact A|]. split; [exact B|]. eapply pass_kept; eauto. }
    induction n as [|n IH]; intros o l l'; cbn [adjust_all]; intros H ML N K; inv_bind H; destruct x as [r b];
      destruct (A o _ _ _ B ML N K) as (M' & N' & K'); destruct b; try discriminate; try (injection H as <-; exact K'). eauto.
  Qed.
  Lemma kept_nth : forall o l i x a b, kept o l -> nth_error o i = Some x -> nth_error l i = Some a -> nth_error l (S i) = Some b ->
    iv_right a = iv_right x \/ low a b.
  Proof.
    induction o as [|y o IH]; intros l i x a b K Hx Ha Hb; [destruct i; discriminate|]. destruct l as [|c l]; [destruct K|]. destruct K as [K1 K2].
    destruct i as [|i]; [|eapply IH; eauto]. injection Hx as <-. injection Ha as <-. cbn in Hb. destruct K1 as [K1|(b' & r & -> & Lo)]; [left; exact K1|right].
    injection Hb as <-. exact Lo.
  Qed.
End LEAST.

(* A limit in force is only lowered as far as this takes, in steps of one metre per second: if less
   is allowed at a border than the limits in force there say, then from a speed v at most 1 m/s above
   what is allowed, braking on the stretch behind it takes the whole stretch or more (to a stand if
   the train stops at its end, otherwise to a speed w not below what is allowed there or its top
   speed).  Missing: limits that are valid from the last signal on. *)
Theorem C59_lowered_least_partial fuel tp limit ns il m : get_interval_list fuel tp limit ns = Ok il -> top_speed tp m -> 0 <= m ->
  sane_limits limit ns -> (forall n, In n ns -> tn_last_signal n = None) ->
  forall i d q a b, nth_error (in_force limit ns) i = Some (d, q) -> nth_error il i = Some a -> nth_error il (S i) = Some b ->
  iv_right a = q \/
  exists v w, iv_right a < v /\ v <= iv_right a + 1 /\ w < v /\ (iv_stop b <> None -> w == 0) /\ (iv_stop b = None -> iv_right b <= w \/ m <= w) /\
    brakes_no_shorter fuel tp v w (iv_dist b - iv_dist a).
Proof.
  unfold get_interval_list. intros H Hm M0 (Hv & HQ) HL i d q a b Hq Ha Hb. inv_bind H.
  assert (I0 : here_inv (mkil [] 0 0 None limit [])).
  { constructor; cbn [il_list il_cur il_prev]; [exact I|constructor|exact Hv|intros [|? ?]; discriminate]. }
  destruct (il_steps_here ns _ _ I0 (fun n q Hn Hq => HQ n q Hn (or_introl Hq)) HL B) as ([ML N _ _] & E).
  cbn [il_list il_dist il_cur] in E. unfold joined in E. cbn [rev] in E. fold (in_force limit ns) in E.
  destruct (rooms_nth _ _ _ (all_rooms _ _ _ _ _ H) i a b Ha Hb) as (_ & m' & _ & EM & _).
  pose proof (top_speed_max _ _ _ Hm EM) as Em.
  assert (U : forall z, max_speed tp = Ok z -> z = m') by (intros z G; congruence). assert (P0 : 0 <= m') by lra.
  apply (all_kept fuel tp m' U P0 _ (il_list x)) in H; [|exact ML|exact N|apply kept_refl].
  rewrite <- E, nth_error_map in Hq. destruct (nth_error (il_list x) i) as [o|] eqn:Ho; [|discriminate]. injection Hq as _ <-.
  destruct (kept_nth _ _ _ _ _ _ _ _ _ H Ho Ha Hb) as [K|(v & w & L1 & L2 & L0 & L3 & L4)]; [left; exact K|right].
  exists v, w. split; [exact L1|]. split; [exact L2|]. split; [exact L0|]. unfold is_halt in L3. split; [|split; [|exact L4]].
  - intros S. destruct (iv_stop b); [exact L3|congruence].
  - intros S. rewrite S in L3. destruct (qmin_spec (iv_right b) m') as (_ & _ & [P|P]); rewrite P in L3; [left|right]; lra.
Qed.
Print Assumptions C59_lowered_least_partial.
(* In C59_room_sat 3 m/s are in force at the signal and only 2 m/s are allowed: braking from 3 m/s
   takes longer than the two metres behind it. *)
Example C59_least_sat :
  let ns := [demo_halt 0 0 (mkstop 0 1000); demo_signal 1 3; demo_limit 2 (1#2); demo_halt 2 1 (mkstop 30 1070)] in
  map (fun x => (Qred (fst x), Qred (snd x))) (in_force 3 ns) = [(0, 3); (3, 3); (5, 1#2); (6, 1#2)] /\ sane_limits 3 ns /\ (forall n, In n ns -> tn_last_signal n = None) /\ brakes_no_shorter 60 demo_train 3 (1#2) 2.
Proof.
  cbv zeta. split; [reflexivity|]. split; [|split].
  - split; [lra|]. intros n q [<-|[<-|[<-|[<-|[]]]]] [E|E]; cbn in E; try discriminate; injection E as <-; lra.
  - intros n [<-|[<-|[<-|[<-|[]]]]]; reflexivity.
  - exists 3, (1#2). eexists. split; [reflexivity|]. split; [reflexivity|]. split; [vm_compute; reflexivity|]. cbn. lra.
Qed.
