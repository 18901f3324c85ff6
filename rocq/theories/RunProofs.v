From Coq Require Import Lqa Qround.
From Verif Require Import Base PhysModel PhysSpec PhysProofs RunModel.

Ltac inv_bind H :=
  let a := fresh "x" in let H1 := fresh "B" in
  apply bind_Ok in H; destruct H as (a & H1 & H).
Lemma sassert_ok b u : sassert b = Ok u -> b = true.
Proof. unfold sassert. destruct b; [reflexivity|discriminate]. Qed.

Lemma accelerate_half fuel tp v0 target D l : 0 <= D -> accelerate fuel tp v0 target D = Ok l ->
  every_half_second l /\ l <> [] /\ s_dist (back l) <= D /\
  (forall s, In s (removelast l) -> s_dist s < D).
Proof.
  intros HD H.
  destruct (accelerate_ok fuel tp v0 target D l H HD) as (m & k & y & A & _ & B & C & E & F).
  assert (EH : every_half_second (k ++ [y])).
  { destruct (k ++ [y]) as [|s r] eqn:Ek; [destruct k; discriminate|].
    apply (driven_half tp); [exact B|]. injection C as ->. reflexivity. }
  assert (G : exists y', l = k ++ [y'] /\ s_time y' = s_time y /\ s_dist y' <= D).
  { destruct F as [(-> & F1 & _)|(z & _ & F2 & _ & _ & _ & ->)]; [exists y; auto|].
    eexists. split; [reflexivity|]. destruct k; cbn [s_time s_dist]; split; auto; lra. }
  destruct G as (y' & -> & G1 & G2). split; [|split; [|split]].
  - intros i s Hs. destruct (Nat.lt_ge_cases i (length k)) as [L|L].
    + apply EH. rewrite nth_error_app1 in Hs |- * by exact L. exact Hs.
    + assert (Li : (i < length (k ++ [y']))%nat) by (apply nth_error_Some; congruence).
      rewrite app_length in Li. cbn [length] in Li. assert (i = length k) by lia. subst i.
      rewrite nth_error_app2, Nat.sub_diag in Hs by lia. injection Hs as <-. rewrite G1. apply EH.
      rewrite nth_error_app2, Nat.sub_diag by lia. reflexivity.
  - destruct k; discriminate.
  - unfold back. rewrite last_last. exact G2.
  - intros s Hs. rewrite removelast_last in Hs. apply E in Hs. apply Hs.
Qed.

(* ---- phases of one interval ---- *)
Record phases_wf (p : phases) (len : Q) : Prop := {
  pw_accels : every_half_second (ph_accels p);
  pw_coasts : every_half_second (ph_coasts p);
  pw_deaccels : every_half_second (ph_deaccels p);
  pw_accel : (ph_accels p = [] /\ ph_accel p = zero_sample) \/
             exists k s, nth_error (ph_accels p) k = Some s /\
                         s_dist s = s_dist (ph_accel p) /\ s_time s = s_time (ph_accel p);
  pw_coast : ph_coast p = back (ph_coasts p);
  pw_deaccel : ph_deaccel p = back (ph_deaccels p);
  pw_total : s_dist (ph_accel p) + s_dist (ph_coast p) + s_dist (ph_deaccel p) == len }.

Lemma half_nil : every_half_second [].
Proof. intros [|i] s; discriminate. Qed.
Lemma adjust_loop_ok fuel tp delta next : forall l a ds, adjust_loop fuel tp l delta next = Ok (a, ds) ->
  In a l /\ ((ds = [] /\ s_speed a <= next) \/
             (brake fuel tp (s_speed a) next = Ok ds /\ s_dist (back ds) + s_dist a <= delta /\ next < s_speed a)).
Proof.
  induction l as [|b l IH]; intros a ds; cbn [adjust_loop]; [discriminate|].
  destruct (qle (s_speed b) next) eqn:E; qb.
  - intros [= <- <-]. split; [left; reflexivity|]. left. auto.
  - intros H. inv_bind H. destruct (qle (s_dist (back x) + s_dist b) delta) eqn:E2; qb.
    + injection H as <- <-. split; [left; reflexivity|]. right. auto.
    + apply IH in H. destruct H as (H1 & H2). split; [right; exact H1|exact H2].
Qed.

Lemma brake_half fuel tp vi vt l : brake fuel tp vi vt = Ok l ->
  every_half_second l /\ nonempty l = true /\ s_speed (back l) = vt /\ vt < vi.
Proof.
  intros H. destruct (brake_ok fuel tp vi vt l H) as (a & _ & _ & A & B & C & D & _ & E & _).
  repeat split; auto. destruct l; [discriminate|reflexivity].
Qed.

Definition end_speed (p : phases) : Q :=
  if nonempty (ph_deaccels p) then s_speed (ph_deaccel p)
  else if nonempty (ph_coasts p) then s_speed (ph_coast p) else s_speed (ph_accel p).

Lemma phases_ok fuel tp speed prev iv p :
  get_runtime_phases fuel tp speed prev iv = Ok p -> iv_dist prev < iv_dist iv ->
  phases_wf p (iv_dist iv - iv_dist prev) /\
  exists target, target_speed tp iv = Ok target /\ end_speed p <= target.
Proof.
  unfold get_runtime_phases. intros H HL.
  set (len := iv_dist iv - iv_dist prev) in *. assert (Hlen : 0 < len) by (unfold len; lra).
  inv_bind H. rename x into m. rename B into Hm.
  inv_bind H. rename x into left. rename B into Hleft.
  set (top := qmin left m) in *. cbv zeta in H.
  inv_bind H. destruct x as [[accel accels] v1]. rename B into Hacc.
  assert (A : every_half_second accels /\ s_dist accel <= len /\
              (forall s, In s (removelast accels) -> s_dist s < len) /\
              ((accels = [] /\ accel = zero_sample) \/
               (nonempty accels = true /\ s_speed accel = v1 /\
                nth_error accels (length accels - 1) = Some (back accels) /\
                s_dist (back accels) = s_dist accel /\ s_time (back accels) = s_time accel))).
  { destruct (qlt speed top) eqn:E.
    - inv_bind Hacc. destruct (accelerate_half fuel tp speed top len x) as (A1 & A2 & A3 & A4); [lra|exact B|].
      destruct x as [|x0 xs]; [discriminate|]. injection Hacc as <- <- <-.
      split; [exact A1|]. split; [|split; [exact A4|right]].
      + destruct (qlt top (s_speed (back (x0 :: xs)))); exact A3.
      + split; [reflexivity|]. split; [reflexivity|]. split; [apply back_nth; discriminate|].
        destruct (qlt top (s_speed (back (x0 :: xs)))); split; reflexivity.
    - injection Hacc as <- <- <-. split; [apply half_nil|]. split; [cbn; lra|]. split; [intros s []|]. left. auto. }
  clear Hacc. destruct A as (A1 & A2 & A3 & A4).
  inv_bind H. rename x into target. rename B into Htgt.
  inv_bind H. destruct x as [deaccel deaccels]. rename B into Hde.
  assert (D : every_half_second deaccels /\ deaccel = back deaccels /\
              ((deaccels = [] /\ v1 <= target) \/
               (nonempty deaccels = true /\ s_dist deaccel <= len /\ s_speed deaccel = target))).
  { destruct (qlt target v1) eqn:E; qb.
    - inv_bind Hde. apply brake_half in B. destruct B as (B1 & B2 & B3 & _).
      inv_bind Hde. inv_bind Hde. inv_bind Hde. injection Hde as <- <-.
      split; [exact B1|]. split; [reflexivity|]. right. split; [exact B2|]. split; [|exact B3].
      apply sassert_ok in B4. qb. exact B4.
    - injection Hde as <- <-. split; [apply half_nil|]. split; [reflexivity|]. left. auto. }
  clear Hde. destruct D as (D1 & D2 & D3).
  inv_bind H. destruct x as [[[accel' deaccel'] deaccels'] v2]. rename B into Hadj.
  assert (AD : every_half_second deaccels' /\ deaccel' = back deaccels' /\
          ((accels = [] /\ accel' = zero_sample) \/
            exists k s, nth_error accels k = Some s /\ s_dist s = s_dist accel' /\ s_time s = s_time accel') /\
          s_dist accel' + s_dist deaccel' <= len /\
          ((deaccels' = [] /\ v2 <= target) \/ (nonempty deaccels' = true /\ s_speed deaccel' = target)) /\
          (nonempty accels = true -> s_speed accel' = v2)).
  { destruct (qle len (s_dist accel + s_dist deaccel) && nonempty accels && nonempty deaccels) eqn:E.
    - qb. inv_bind Hadj. destruct x as [a ds]. injection Hadj as <- <- <- <-.
      unfold adjust_accel_and_deaccel in B. apply adjust_loop_ok in B. destruct B as (B1 & B2).
      apply in_rev in B1. pose proof (A3 a B1) as A3a.
      assert (Ia : In a accels).
      { clear -B1. destruct accels as [|x l]; [destruct B1|].
        destruct (exists_last (l := x :: l)) as (k & z & E0); [discriminate|].
        rewrite E0 in *. rewrite removelast_last in B1. apply in_or_app. auto. }
      apply In_nth_error in Ia. destruct Ia as (k & Hk).
      destruct B2 as [(-> & B2)|(B2 & B3 & _)].
      + split; [apply half_nil|]. split; [reflexivity|]. split; [right; exists k, a; auto|].
        split; [change (s_dist (back [])) with 0; lra|]. split; [left; auto|]. reflexivity.
      + apply brake_half in B2. destruct B2 as (B4 & B5 & B6 & _).
        split; [exact B4|]. split; [reflexivity|]. split; [right; exists k, a; auto|].
        split; [lra|]. split; [right; auto|]. reflexivity.
    - injection Hadj as <- <- <- <-.
      split; [exact D1|]. split; [exact D2|].
      split; [destruct A4 as [A4|(A4 & A5 & A6 & A7 & A8)]; [left; exact A4|right; eauto]|].
      split; [|split].
      + destruct A4 as [(-> & ->)|(A4 & A5 & A6 & A7 & A8)].
        * destruct D3 as [(-> & _)|(_ & D3 & _)]; [subst deaccel; change (s_dist (back [])) with 0; cbn [s_dist zero_sample]; lra|].
          cbn [s_dist zero_sample]. lra.
        * destruct D3 as [(-> & _)|(D3 & D4 & _)].
          -- subst deaccel. change (s_dist (back [])) with 0. lra.
          -- rewrite A4, D3, !andb_true_r in E. qb. lra.
      + destruct D3 as [D3|(D3 & D4 & D5)]; auto.
      + destruct A4 as [(-> & ->)|(A4 & A5 & _)]; [discriminate|auto]. }
  clear Hadj. destruct AD as (E1 & E2 & E3 & E4 & E5 & E6).
  inv_bind H. clear B x. 
  inv_bind H. destruct x as [cst coasts]. rename B into Hco.
  assert (CO : every_half_second coasts /\ cst = back coasts /\
            s_dist accel' + s_dist cst + s_dist deaccel' == len /\
            (nonempty coasts = true -> s_speed cst = v2)).
  { destruct (qlt 0 (len - s_dist accel' - s_dist deaccel')) eqn:E; qb.
    - inv_bind Hco. injection Hco as <- <-.
      destruct (coast_ok fuel v2 _ x B E) as (C0 & C1 & C2 & C3 & C4 & _ & C6 & _).
      split; [exact C3|]. split; [reflexivity|]. split; [rewrite C6; lra|]. intros _. apply C4.
      assert (NE : x <> []) by (intros ->; discriminate). exact (nth_error_In _ _ (back_nth x NE)).
    - injection Hco as <- <-. split; [apply half_nil|]. split; [reflexivity|].
      split; [cbn [s_dist zero_sample]; lra|]. discriminate. }
  clear Hco. destruct CO as (C1 & C2 & C3 & C4).
  inv_bind H. apply sassert_ok in B. injection H as <-.
  split.
  - constructor; cbn [ph_accel ph_accels ph_coast ph_coasts ph_deaccel ph_deaccels]; auto.
  - exists target. split; [exact Htgt|]. unfold end_speed.
    cbn [ph_accel ph_accels ph_coast ph_coasts ph_deaccel ph_deaccels].
    destruct E5 as [(-> & E5)|(E5 & E7)].
    + cbn [nonempty]. destruct (nonempty coasts) eqn:Ec; [rewrite C4 by reflexivity; exact E5|].
      destruct (nonempty accels) eqn:Ea; [rewrite E6 by reflexivity; exact E5|].
      cbn in B. discriminate.
    + rewrite E5, E7. lra.
Qed.

(* ---- times of events ---- *)
Lemma half_le i j : (i <= j)%nat -> half i <= half j.
Proof. intros H. unfold half, Qle. cbn [Qnum Qden]. lia. Qed.
Lemma half_times l i j a b : every_half_second l -> nth_error l i = Some a -> nth_error l j = Some b ->
  (i <= j)%nat -> 0 <= s_time a /\ s_time a <= s_time b.
Proof.
  intros H Ha Hb L. rewrite (H _ _ Ha), (H _ _ Hb). split; [apply half_nonneg|apply half_le; exact L].
Qed.
Lemma back_time l : every_half_second l -> 0 <= s_time (back l).
Proof.
  intros H. destruct l as [|a l]; [cbn; lra|].
  assert (NE : a :: l <> []) by discriminate.
  apply (half_times _ _ _ _ _ H (back_nth _ NE) (back_nth _ NE)). lia.
Qed.
Lemma in_time_back l i a : every_half_second l -> nth_error l i = Some a -> s_time a <= s_time (back l).
Proof.
  intros H Ha. assert (NE : l <> []) by (intros ->; destruct i; discriminate).
  apply (half_times _ _ _ _ _ H Ha (back_nth _ NE)).
  assert (i < length l)%nat by (apply nth_error_Some; congruence). lia.
Qed.
Lemma first_at_spec o l d s : first_at o l d = Some s ->
  exists i, nth_error l i = Some s /\ d <= o + s_dist s /\
    forall j r, (j < i)%nat -> nth_error l j = Some r -> o + s_dist r < d.
Proof.
  induction l as [|a l IH]; cbn [first_at]; [discriminate|].
  destruct (qle d (o + s_dist a)) eqn:E; qb.
  - intros [= <-]. exists O. repeat split; auto. intros; lia.
  - intros H. apply IH in H. destruct H as (i & H1 & H2 & H3). exists (S i). repeat split; auto.
    intros [|j] r L Hr; [injection Hr as <-; exact E|]. apply (H3 j r); auto. lia.
Qed.
Lemma first_at_mono o l d1 d2 s1 s2 : every_half_second l -> d1 <= d2 ->
  first_at o l d1 = Some s1 -> first_at o l d2 = Some s2 -> s_time s1 <= s_time s2.
Proof.
  intros H L H1 H2. apply first_at_spec in H1. apply first_at_spec in H2.
  destruct H1 as (i & A1 & A2 & A3). destruct H2 as (j & B1 & B2 & B3).
  assert (i <= j)%nat.
  { destruct (Nat.le_gt_cases i j); auto. specialize (A3 j s2 H0 B1). lra. }
  apply (half_times _ _ _ _ _ H A1 B1). exact H0.
Qed.
Definition total_time (p : phases) : Q := s_time (ph_accel p) + s_time (ph_coast p) + s_time (ph_deaccel p).

Lemma phase_times p len : phases_wf p len ->
  0 <= s_time (ph_accel p) /\ 0 <= s_time (ph_coast p) /\ 0 <= s_time (ph_deaccel p).
Proof.
  intros W. rewrite (pw_coast _ _ W), (pw_deaccel _ _ W). split; [|split; apply back_time; apply W].
  destruct (pw_accel _ _ W) as [(_ & ->)|(k & s & Hk & _ & <-)]; [cbn; lra|].
  apply (half_times _ _ _ _ _ (pw_accels _ _ W) Hk Hk). lia.
Qed.
Lemma accel_event p len d s : phases_wf p len -> d <= s_dist (ph_accel p) ->
  first_at 0 (ph_accels p) d = Some s -> 0 <= s_time s /\ s_time s <= s_time (ph_accel p).
Proof.
  intros W L H. apply first_at_spec in H. destruct H as (i & A1 & A2 & A3).
  destruct (pw_accel _ _ W) as [(E & _)|(k & r & Hk & Ed & Et)].
  - rewrite E in A1. destruct i; discriminate.
  - rewrite <- Et. apply (half_times _ i k _ _ (pw_accels _ _ W) A1 Hk).
    destruct (Nat.le_gt_cases i k); auto. specialize (A3 k r H Hk). rewrite Ed in A3. lra.
Qed.
Lemma event_time_range p len d t : phases_wf p len -> get_event_time p d = Ok t ->
  0 <= t /\ t <= total_time p.
Proof.
  intros W. destruct (phase_times p len W) as (T1 & T2 & T3). unfold get_event_time, total_time.
  destruct (nonempty (ph_accels p) && qle d (s_dist (ph_accel p))) eqn:E1.
  { qb. destruct (first_at 0 (ph_accels p) d) eqn:F; [|discriminate]. intros [= <-].
    destruct (accel_event _ _ _ _ W H0 F). lra. }
  destruct (nonempty (ph_coasts p) && qle d (s_dist (ph_accel p) + s_dist (ph_coast p))) eqn:E2.
  { destruct (first_at _ (ph_coasts p) d) eqn:F; [|discriminate]. intros [= <-].
    apply first_at_spec in F. destruct F as (i & Hi & _).
    pose proof (in_time_back _ _ _ (pw_coasts _ _ W) Hi) as L. rewrite <- (pw_coast _ _ W) in L.
    pose proof (half_times _ _ _ _ _ (pw_coasts _ _ W) Hi Hi (le_n i)). lra. }
  destruct (nonempty (ph_deaccels p) && _) eqn:E3; [|discriminate].
  destruct (first_at _ (ph_deaccels p) d) eqn:F; [|discriminate]. intros [= <-].
  apply first_at_spec in F. destruct F as (i & Hi & _).
  pose proof (in_time_back _ _ _ (pw_deaccels _ _ W) Hi) as L. rewrite <- (pw_deaccel _ _ W) in L.
  pose proof (half_times _ _ _ _ _ (pw_deaccels _ _ W) Hi Hi (le_n i)). lra.
Qed.
Lemma andb_qle_mono b d1 d2 x : d1 <= d2 -> b && qle d2 x = true -> b && qle d1 x = true.
Proof. intros L H. qb. subst b. cbn [andb]. apply qle_true. lra. Qed.
Lemma event_time_mono p len d1 d2 t1 t2 : phases_wf p len -> d1 <= d2 ->
  get_event_time p d1 = Ok t1 -> get_event_time p d2 = Ok t2 -> t1 <= t2.
Proof.
  intros W L. destruct (phase_times p len W) as (T1 & T2 & T3). unfold get_event_time.
  set (A := s_dist (ph_accel p)) in *. set (C := s_dist (ph_coast p)) in *.
  destruct (nonempty (ph_accels p) && qle d2 A) eqn:E2.
  { rewrite (andb_qle_mono _ _ _ _ L E2).
    destruct (first_at 0 (ph_accels p) d1) as [s1|] eqn:F1; [|discriminate].
    destruct (first_at 0 (ph_accels p) d2) as [s2|] eqn:F2; [|discriminate].
    intros [= <-] [= <-]. exact (first_at_mono _ _ _ _ _ _ (pw_accels _ _ W) L F1 F2). }
  destruct (nonempty (ph_coasts p) && qle d2 (A + C)) eqn:G2.
  { rewrite (andb_qle_mono _ _ _ _ L G2).
    destruct (first_at A (ph_coasts p) d2) as [s2|] eqn:F2; [|discriminate].
    destruct (nonempty (ph_accels p) && qle d1 A) eqn:E1.
    - qb. destruct (first_at 0 (ph_accels p) d1) as [s1|] eqn:F1; [|discriminate]. intros [= <-] [= <-].
      destruct (accel_event _ _ _ _ W H0 F1).
      apply first_at_spec in F2. destruct F2 as (i & Hi & _).
      pose proof (half_times _ _ _ _ _ (pw_coasts _ _ W) Hi Hi (le_n i)). lra.
    - destruct (first_at A (ph_coasts p) d1) as [s1|] eqn:F1; [|discriminate]. intros [= <-] [= <-].
      pose proof (first_at_mono _ _ _ _ _ _ (pw_coasts _ _ W) L F1 F2). lra. }
  destruct (nonempty (ph_deaccels p) && qle d2 _) eqn:K2; [|discriminate].
  destruct (first_at _ (ph_deaccels p) d2) as [s2|] eqn:F2; [|discriminate].
  rewrite (andb_qle_mono _ _ _ _ L K2).
  assert (P2 : 0 <= s_time s2).
  { apply first_at_spec in F2. destruct F2 as (i & Hi & _).
    apply (half_times _ _ _ _ _ (pw_deaccels _ _ W) Hi Hi (le_n i)). }
  destruct (nonempty (ph_accels p) && qle d1 A) eqn:E1.
  { qb. destruct (first_at 0 (ph_accels p) d1) as [s1|] eqn:F1; [|discriminate]. intros [= <-] [= <-].
    destruct (accel_event _ _ _ _ W H0 F1). lra. }
  destruct (nonempty (ph_coasts p) && qle d1 (A + C)) eqn:G1.
  { destruct (first_at A (ph_coasts p) d1) as [s1|] eqn:F1; [|discriminate]. intros [= <-] [= <-].
    apply first_at_spec in F1. destruct F1 as (i & Hi & _).
    pose proof (in_time_back _ _ _ (pw_coasts _ _ W) Hi) as G. rewrite <- (pw_coast _ _ W) in G. lra. }
  destruct (first_at _ (ph_deaccels p) d1) as [s1|] eqn:F1; [|discriminate]. intros [= <-] [= <-].
  pose proof (first_at_mono _ _ _ _ _ _ (pw_deaccels _ _ W) L F1 F2). lra.
Qed.

(* ---- clock readings ---- *)
Lemma to_relative t n : si_to_relative_time t = Ok n ->
  inject_Z (Z.of_N n) <= t /\ t < inject_Z (Z.of_N n) + 1 /\ (n <= TIME_MAX)%N.
Proof.
  unfold si_to_relative_time. destruct ((0 <=? Qfloor t)%Z && (Qfloor t <=? Z.of_N TIME_MAX)%Z) eqn:E; [|discriminate].
  intros [= <-]. apply andb_true_iff in E. destruct E as (E1 & E2).
  apply Z.leb_le in E1. apply Z.leb_le in E2. rewrite Z2N.id by exact E1.
  split; [apply Qfloor_le|]. split; [|lia]. pose proof (Qlt_floor t) as F.
  rewrite inject_Z_plus in F. exact F.
Qed.
Lemma inject_N_le a b : inject_Z (Z.of_N a) < inject_Z (Z.of_N b) + 1 -> (a <= b)%N.
Proof.
  intros H. change 1 with (inject_Z 1) in H. rewrite <- inject_Z_plus in H. rewrite <- Zlt_Qlt in H. lia.
Qed.
Lemma to_relative_mono t1 t2 n1 n2 : t1 <= t2 -> si_to_relative_time t1 = Ok n1 -> si_to_relative_time t2 = Ok n2 -> (n1 <= n2)%N.
Proof.
  intros L H1 H2. apply to_relative in H1. apply to_relative in H2. apply inject_N_le. lra.
Qed.
Lemma to_relative_plus t1 t2 n1 n2 n : si_to_relative_time t1 = Ok n1 -> si_to_relative_time t2 = Ok n2 ->
  si_to_relative_time (t1 + t2) = Ok n -> (n1 + n2 <= n)%N.
Proof.
  intros H1 H2 H3. apply to_relative in H1. apply to_relative in H2. apply to_relative in H3.
  apply inject_N_le. rewrite N2Z.inj_add, inject_Z_plus. lra.
Qed.
Lemma to_relative_unique t a b : inject_Z (Z.of_N a) <= t -> t < inject_Z (Z.of_N a) + 1 ->
  inject_Z (Z.of_N b) <= t -> t < inject_Z (Z.of_N b) + 1 -> a = b.
Proof.
  intros. apply N.le_antisymm; apply inject_N_le; lra.
Qed.
Lemma to_relative_stand t n k m : si_to_relative_time t = Ok n ->
  si_to_relative_time (t + relative_to_si_time k) = Ok m -> m = (n + k)%N.
Proof.
  intros H1 H2. apply to_relative in H1. apply to_relative in H2. unfold relative_to_si_time in H2.
  apply (to_relative_unique (t + inject_Z (Z.of_N k))); try apply H2.
  - rewrite N2Z.inj_add, inject_Z_plus. lra.
  - rewrite N2Z.inj_add, inject_Z_plus. lra.
Qed.
Lemma plus_time_ok a b c : plus_time a b = Ok c -> c = (a + b)%N /\ (a + b <= TIME_MAX)%N.
Proof. unfold plus_time. destruct (N.leb_spec (a + b) TIME_MAX); [intros [= <-]; auto|discriminate]. Qed.
Lemma minus_time_ok a b c : minus_time a b = Ok c -> (c = a - b /\ b <= a)%N.
Proof. unfold minus_time. destruct (N.leb_spec b a); [intros [= <-]; auto|discriminate]. Qed.
