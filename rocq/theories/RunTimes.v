From Coq Require Import Lqa Qround.
From Verif Require Import Base PhysModel PhysSpec PhysProofs RunModel RunSpec RunProofs.

Lemma fuzzy_near x y : fuzzy_eq x y = true <-> near x y.
Proof.
  unfold fuzzy_eq, near, FP_PRECISION. rewrite qlt_true. unfold qabs.
  destruct (qlt (x - y) 0) eqn:E; qb; split; lra.
Qed.
Lemma fuzzy_not_near x y : fuzzy_eq x y = false <-> ~ near x y.
Proof.
  rewrite <- fuzzy_near. destruct (fuzzy_eq x y); split; congruence.
Qed.

Lemma Forall2_weaken {A B} (P Q : A -> B -> Prop) l k :
  (forall a b, P a b -> Q a b) -> Forall2 P l k -> Forall2 Q l k.
Proof. intros H. induction 1; constructor; auto. Qed.

Lemma event_reached_ok ts a d e ts' : event_reached ts a d e = Ok ts' ->
  (a <= d)%N /\ tss_times ts' = tss_times ts ++ [mkts a d e] /\
  tss_halts ts' = if e_halt e then tss_halts ts ++ [length (tss_times ts)] else tss_halts ts.
Proof.
  unfold event_reached. intros H. inv_bind H. inv_bind H. apply sassert_ok in B0. apply N.leb_le in B0.
  injection H as <-. auto.
Qed.

Section EVENTS.
  Variables (prev iv : interval) (s0 arr dep : N) (p : phases) (len : Q).
  Hypothesis W : phases_wf p len.
  Hypothesis LATE : forall t n, 0 <= t -> t <= total_time p -> si_to_relative_time t = Ok n -> (s0 + n <= arr)%N.
  Hypothesis AD : (arr <= dep)%N.

  Definition stamped' (e : event) (t : timestamp) : Prop :=
    ts_elem t = ev_elem e /\
    ((near (ev_dist e) (iv_dist iv) /\ ts_arrival t = arr /\ ts_departure t = dep) \/
     (~ near (ev_dist e) (iv_dist iv) /\ exists q n, get_event_time p (ev_dist e - iv_dist prev) = Ok q /\
        si_to_relative_time q = Ok n /\ ts_arrival t = (s0 + n)%N /\ ts_departure t = (s0 + n)%N)).
  Lemma determine_events_ok evs : forall ts ts',
    determine_events prev iv s0 arr dep p evs ts = Ok ts' ->
    exists l, tss_times ts' = tss_times ts ++ l /\ Forall2 stamped' evs l.
  Proof.
    induction evs as [|e evs IH]; intros ts ts'; cbn [determine_events].
    - intros [= <-]. exists []. rewrite app_nil_r. split; auto.
    - intros H. inv_bind H. apply IH in H. destruct H as (l & H1 & H2).
      assert (exists t, tss_times x = tss_times ts ++ [t] /\ stamped' e t) as (t & Ht & St).
      { destruct (fuzzy_eq (ev_dist e) (iv_dist iv)) eqn:E.
        - apply event_reached_ok in B. destruct B as (_ & B & _). eexists. split; [exact B|].
          split; [reflexivity|]. left. apply fuzzy_near in E. auto.
        - inv_bind B. inv_bind B. inv_bind B. apply event_reached_ok in B. destruct B as (_ & B & _).
          apply plus_time_ok in B2. destruct B2 as (-> & _).
          eexists. split; [exact B|]. split; [reflexivity|]. right. apply fuzzy_not_near in E. split; [exact E|].
          exists x0, x1. auto. }
      exists (t :: l). split; [rewrite H1, Ht, <- app_assoc; reflexivity|]. constructor; auto.
  Qed.
  Lemma stamped'_stamped e t : stamped' e t -> stamped iv s0 arr dep e t.
  Proof.
    intros (E & H). split; [exact E|]. destruct H as [(N1 & H1 & H2)|(N1 & q & n & Q1 & Q2 & H1 & H2)].
    - split; [auto|]. intros G. contradiction.
    - split; [intros G; contradiction|]. intros _. split; [congruence|].
      destruct (event_time_range p len _ _ W Q1) as (R1 & R2). specialize (LATE q n R1 R2 Q2). lia.
  Qed.
  Lemma stamped'_mono e f a b : ev_dist e <= ev_dist f -> ev_dist f < iv_dist iv + (1#100) ->
    stamped' e a -> stamped' f b -> not_before a b.
  Proof.
    intros L Lf (_ & Ha) (_ & Hb). unfold not_before.
    destruct Ha as [(Na & A1 & A2)|(Na & q & n & Q1 & Q2 & A1 & A2)];
    destruct Hb as [(Nb & B1 & B2)|(Nb & r & m & R1 & R2 & B1 & B2)].
    - lia.
    - exfalso. apply Nb. unfold near in *. lra.
    - destruct (event_time_range p len _ _ W Q1) as (S1 & S2). specialize (LATE q n S1 S2 Q2). lia.
    - assert (G : q <= r) by (eapply (event_time_mono p len); [exact W| |exact Q1|exact R1]; lra).
      pose proof (to_relative_mono _ _ _ _ G Q2 R2). lia.
  Qed.
  Lemma stamped'_sorted evs l : Forall2 stamped' evs l ->
    StronglySorted (fun e f => ev_dist e <= ev_dist f) evs ->
    (forall e, In e evs -> ev_dist e < iv_dist iv + (1#100)) -> StronglySorted not_before l.
  Proof.
    induction 1 as [|e t evs l Ht H IH]; intros S F; [constructor|].
    apply StronglySorted_inv in S. destruct S as (S1 & S2). constructor.
    - apply IH; [exact S1|]. intros f Hf. apply F. right. exact Hf.
    - assert (F' : forall f, In f evs -> ev_dist f < iv_dist iv + (1#100)) by (intros f Hf; apply F; right; exact Hf).
      clear IH S1 F. induction H as [|f u evs l Hu H IH]; [constructor|].
      inversion S2 as [|? ? S3 S4]; subst. constructor.
      + apply (stamped'_mono e f); auto. apply F'. left. reflexivity.
      + apply IH; [exact S4|]. intros g Hg. apply F'. right. exact Hg.
  Qed.
End EVENTS.

Lemma run_interval_ok fuel tp start prev iv clock speed ts clock' speed' ts' :
  run_interval fuel tp start prev iv (clock, speed, ts) = Ok (clock', speed', ts') ->
  iv_dist prev < iv_dist iv -> events_fit iv ->
  exists n arr dep here, si_to_relative_time clock = Ok n /\
    tss_times ts' = tss_times ts ++ here /\ (start + n <= arr)%N /\
    leaves (iv_stop iv) arr dep /\
    Forall2 (stamped iv (start + n) arr dep) (iv_events iv) here /\
    StronglySorted not_before here /\
    (forall n', si_to_relative_time clock' = Ok n' -> (start + n')%N = dep) /\
    speed' <= iv_right iv /\ (exists target, target_speed tp iv = Ok target /\ speed' <= target).
Proof.
  unfold run_interval. intros H HL (HS & HF). inv_bind H. clear B x.
  inv_bind H. rename x into p. destruct (phases_ok _ _ _ _ _ _ B HL) as (W & target & T1 & T2). clear B.
  inv_bind H. rename x into n. rename B into Hn.
  inv_bind H. apply plus_time_ok in B. destruct B as (-> & Bs).
  cbv zeta in H. inv_bind H. rename x into n1. rename B into Hn1.
  inv_bind H. apply plus_time_ok in B. destruct B as (-> & Bn1).
  set (arr := (start + n1)%N) in *.
  fold (total_time p) in *.
  destruct (phase_times _ _ W) as (P1 & P2 & P3).
  assert (LATE : forall t k, 0 <= t -> t <= total_time p -> si_to_relative_time t = Ok k -> (start + n + k <= arr)%N).
  { intros t k L1 L2 Hk. apply to_relative in Hk. apply to_relative in Hn. apply to_relative in Hn1.
    assert (n + k <= n1)%N; [|unfold arr; lia]. apply inject_N_le. rewrite N2Z.inj_add, inject_Z_plus. lra. }
  inv_bind H. destruct x as [dep clock2]. rename B into Hst.
  inv_bind H. rename B into Hev. rename x into ts2.
  inv_bind H. apply sassert_ok in B. qb. injection H as <- <- <-.
  assert (LV : leaves (iv_stop iv) arr dep /\ (arr <= dep)%N /\
               forall n', si_to_relative_time clock2 = Ok n' -> (start + n')%N = dep).
  { unfold leaves. destruct (iv_stop iv) as [st|].
    - inv_bind Hst. apply plus_time_ok in B0. destruct B0 as (-> & _). inv_bind Hst.
      apply minus_time_ok in B0. destruct B0 as (-> & B0). injection Hst as <- <-.
      split; [reflexivity|]. split; [exact B0|]. intros n' Hn'.
      rewrite (to_relative_stand _ _ _ _ Hn1 Hn'). unfold arr in *. lia.
    - injection Hst as <- <-. split; [reflexivity|]. split; [lia|]. intros n' Hn'.
      unfold arr. congruence. }
  destruct LV as (LV & AD & NX).
  apply determine_events_ok in Hev. destruct Hev as (here & E1 & E2).
  exists n, arr, dep, here. split; [exact Hn|]. split; [exact E1|].
  split.
  { apply to_relative in Hn. apply to_relative in Hn1. assert (n <= n1)%N; [|unfold arr; lia].
    apply inject_N_le. unfold total_time in *. lra. }
  split; [exact LV|]. split; [|split; [|split; [exact NX|]]].
  - eapply Forall2_weaken; [|exact E2]. intros e t. apply (stamped'_stamped prev iv (start + n) arr dep p _ W LATE AD).
  - exact (stamped'_sorted prev iv (start + n) arr dep p _ W LATE AD _ _ E2 HS HF).
  - split; [exact B|]. exists target. split; [exact T1|]. unfold end_speed in T2.
    destruct (nonempty (ph_deaccels p)); [exact T2|]. destruct (nonempty (ph_coasts p)); exact T2.
Qed.

Lemma run_intervals_ok fuel tp start l : forall prev clock speed ts clock' speed' ts',
  run_intervals fuel tp start prev l (clock, speed, ts) = Ok (clock', speed', ts') ->
  intervals_fit prev l ->
  exists stamps, tss_times ts' = tss_times ts ++ stamps /\
    forall d, (forall n, si_to_relative_time clock = Ok n -> (start + n)%N = d) -> timed d l stamps.
Proof.
  induction l as [|iv l IH]; intros prev clock speed ts clock' speed' ts'; cbn [run_intervals intervals_fit].
  - intros [= <- <- <-] _. exists []. rewrite app_nil_r. split; [reflexivity|]. intros. reflexivity.
  - intros H (F1 & F2 & F3). inv_bind H. destruct x as [[c2 s2] t2].
    apply run_interval_ok in B; [|exact F1|exact F2].
    destruct B as (n & arr & dep & here & B1 & B2 & B3 & B4 & B5 & B6 & B7 & _).
    destruct (IH _ _ _ _ _ _ _ H F3) as (rest & R1 & R2).
    exists (here ++ rest). split; [rewrite R1, B2, <- app_assoc; reflexivity|].
    intros d Hd. specialize (Hd n B1). subst d.
    cbn [timed]. exists arr, dep, here, rest. repeat split; auto.
Qed.

Lemma first_events_ok start first evs : forall ts ts', first_events start first evs ts = Ok ts' ->
  tss_times ts' = tss_times ts ++ map (fun e => mkts start start (ev_elem e)) evs.
Proof.
  induction evs as [|e evs IH]; intros ts ts'; cbn [first_events map].
  - intros [= <-]. rewrite app_nil_r. reflexivity.
  - intros H. inv_bind H. inv_bind H. apply IH in H. apply event_reached_ok in B0. destruct B0 as (_ & B0 & _).
    rewrite H, B0, <- app_assoc. reflexivity.
Qed.
Lemma run_list_ok fuel tp start first il clock speed ts :
  run_list fuel tp start (first :: il) = Ok (clock, speed, ts) -> intervals_fit first il ->
  exists rest, tss_times ts = map (fun e => mkts start start (ev_elem e)) (iv_events first) ++ rest /\
    timed start il rest.
Proof.
  unfold run_list. intros H F. inv_bind H. inv_bind H. apply first_events_ok in B0. cbn [tss_times app] in B0.
  destruct (run_intervals_ok _ _ _ _ _ _ _ _ _ _ _ H F) as (rest & R1 & R2).
  exists rest. split; [rewrite R1, B0; reflexivity|]. apply R2. intros n Hn.
  assert (n = 0%N); [|subst n; apply N.add_0_r]. vm_compute in Hn. congruence.
Qed.

(* ---- halt indices ---- *)
Definition halts_indexed (ts : timestamps) : Prop :=
  tss_halts ts = filter (fun i => match nth_error (tss_times ts) i with Some t => e_halt (ts_elem t) | None => false end)
                        (seq 0 (length (tss_times ts))).
Lemma event_reached_halts ts a d e ts' : event_reached ts a d e = Ok ts' -> halts_indexed ts -> halts_indexed ts'.
Proof.
  intros H I. apply event_reached_ok in H. destruct H as (_ & H1 & H2). unfold halts_indexed in *.
  rewrite H1, H2, app_length. cbn [length]. rewrite seq_app, filter_app. cbn [seq filter Nat.add].
  rewrite nth_error_app2, Nat.sub_diag by lia. cbn [nth_error ts_elem].
  assert (E : filter (fun i => match nth_error (tss_times ts ++ [mkts a d e]) i with Some t => e_halt (ts_elem t) | None => false end)
                (seq 0 (length (tss_times ts))) = tss_halts ts).
  { rewrite I. apply filter_ext_in. intros i Hi. apply in_seq in Hi. rewrite nth_error_app1 by lia. reflexivity. }
  rewrite E. destruct (e_halt e); [reflexivity|]. rewrite app_nil_r. reflexivity.
Qed.
Lemma determine_events_halts prev iv s0 arr dep p evs : forall ts ts',
  determine_events prev iv s0 arr dep p evs ts = Ok ts' -> halts_indexed ts -> halts_indexed ts'.
Proof.
  induction evs as [|e evs IH]; intros ts ts'; cbn [determine_events]; [intros [= <-]; auto|].
  intros H I. inv_bind H. apply (IH _ _ H).
  destruct (fuzzy_eq (ev_dist e) (iv_dist iv)); [eapply event_reached_halts; eauto|].
  inv_bind B. inv_bind B. inv_bind B. eapply event_reached_halts; eauto.
Qed.
Lemma run_intervals_halts fuel tp start l : forall prev c v ts c' v' ts',
  run_intervals fuel tp start prev l (c, v, ts) = Ok (c', v', ts') -> halts_indexed ts -> halts_indexed ts'.
Proof.
  induction l as [|iv l IH]; intros prev c v ts c' v' ts'; cbn [run_intervals]; [intros [= <- <- <-]; auto|].
  intros H I. inv_bind H. destruct x as [[c2 v2] t2]. apply (IH _ _ _ _ _ _ _ H).
  unfold run_interval in B. inv_bind B. inv_bind B. inv_bind B. inv_bind B. cbv zeta in B. inv_bind B. inv_bind B.
  inv_bind B. destruct x5 as [dep clock2]. inv_bind B. inv_bind B. injection B as <- <- <-.
  eapply determine_events_halts; eauto.
Qed.
Lemma first_events_halts start first evs : forall ts ts', first_events start first evs ts = Ok ts' ->
  halts_indexed ts -> halts_indexed ts'.
Proof.
  induction evs as [|e evs IH]; intros ts ts'; cbn [first_events]; [intros [= <-]; auto|].
  intros H I. inv_bind H. inv_bind H. apply (IH _ _ H). eapply event_reached_halts; eauto.
Qed.
Lemma run_list_halts fuel tp start il c v ts : run_list fuel tp start il = Ok (c, v, ts) -> halts_indexed ts.
Proof.
  unfold run_list. intros H. inv_bind H. destruct il as [|first il]; [discriminate|]. inv_bind H.
  eapply run_intervals_halts; [exact H|]. eapply first_events_halts; [exact B0|]. reflexivity.
Qed.
