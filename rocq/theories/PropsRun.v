(* Running times of a train (runtime_calculation).  A train is a list of nodes
   (RunModel.tnode), its timestamps are compared with the nodes they are asked for
   (RunSpec.recorded), with their distances from the start. *)
From Coq Require Import Lqa.
From Verif Require Import Base PhysModel PhysSpec PhysProofs PropsPhys RunModel RunSpec RunProofs RunTimes RunIntervals RunTrain RunLimits.

Lemma proper_runtime fuel tp start v ns ts :
  runtime_calculation fuel tp start v ns = Ok ts -> proper_train ns ->
  exists first later, recorded ns = first ++ later /\
    tss_times ts = map (fun x => mkts start start (tn_elem (fst x))) first ++ skipn (length first) (tss_times ts) /\
    Forall2 (node_time (placed 0 ns)) later (skipn (length first) (tss_times ts)) /\
    StronglySorted in_turn (combine later (skipn (length first) (tss_times ts))) /\
    Forall (fun t => (start <= ts_arrival t)%N) (skipn (length first) (tss_times ts)) /\
    (forall x, In x first -> snd x < 1#100) /\
    (forall n l, ns = n :: l -> tn_record n = true -> exists e, first = (n, 0 + tn_step n) :: e).
Proof.
  intros H (P & (n & l & E1 & B1 & S1) & (k & m & E2 & B2)).
  destruct (runtime_ok _ _ _ _ _ _ H P) as (first & later & pend & R & A1 & A2 & A3 & A4 & A5 & _ & A7 & A8).
  rewrite (A5 k m E2 B2), app_nil_r in R. exists first, later.
  split; [exact R|]. split; [exact A1|]. split; [exact A2|]. split; [exact A3|]. split; [exact A4|]. split.
  - intros x Hx. specialize (A7 n l E1 B1 x Hx). lra.
  - intros n' l' E' R'. rewrite E1 in E'. injection E' as <- <-. exact (A8 n l E1 B1 R').
Qed.

(* ---- C58 ---- *)

(* Every element a timestamp is asked for gets exactly one, in order of travel. *)
Theorem C58_every_element fuel tp start limit ns ts :
  runtime_calculation fuel tp start limit ns = Ok ts -> proper_train ns ->
  map ts_elem (tss_times ts) = map (fun x => tn_elem (fst x)) (recorded ns).
Proof.
  intros H P. destruct (proper_runtime _ _ _ _ _ _ H P) as (first & later & R & A & F & _).
  rewrite R, A, !map_app, map_map. clear R A. apply f_equal2; [reflexivity|].
  induction F as [|x t later r N F IH]; [reflexivity|].
  cbn [map]. rewrite IH. f_equal. apply N.
Qed.
Print Assumptions C58_every_element.

(* The halt indices are the positions of the timestamps of halts, ascending. *)
Theorem C58_halt_indices fuel tp start limit ns ts :
  runtime_calculation fuel tp start limit ns = Ok ts ->
  StronglySorted lt (tss_halts ts) /\
  (forall i, In i (tss_halts ts) <-> exists t, nth_error (tss_times ts) i = Some t /\ e_halt (ts_elem t) = true).
Proof.
  unfold runtime_calculation. intros H. inv_bind H. inv_bind H. destruct x0 as [[c s] t]. injection H as <-.
  apply run_list_halts in B0. unfold halts_indexed in B0. rewrite B0. split.
  - clear B0. apply StronglySorted_filter. generalize 0%nat. induction (length (tss_times t)) as [|n IH]; intros k; cbn [seq]; constructor; auto.
    apply Forall_forall. intros j Hj. apply in_seq in Hj. lia.
  - intros i. rewrite filter_In, in_seq. split.
    + intros (_ & G). destruct (nth_error (tss_times t) i) as [u|]; [|discriminate]. eauto.
    + intros (u & U1 & U2). rewrite U1. split; [|exact U2]. split; [lia|]. apply nth_error_Some. congruence.
Qed.
Print Assumptions C58_halt_indices.

(* ---- C44 ---- *)

Lemma node_cases fuel tp start limit ns ts i n pos t :
  runtime_calculation fuel tp start limit ns = Ok ts -> proper_train ns ->
  nth_error (recorded ns) i = Some (n, pos) -> nth_error (tss_times ts) i = Some t ->
  (pos < 1#100 /\ t = mkts start start (tn_elem n)) \/
  ((start <= ts_arrival t)%N /\ node_time (placed 0 ns) (n, pos) t).
Proof.
  intros H P Hi Ht. destruct (proper_runtime _ _ _ _ _ _ H P) as (first & later & R & A & F & _ & S & L & _).
  rewrite R in Hi. rewrite A in Ht. clear A. set (r := skipn (length first) (tss_times ts)) in *. clearbody r.
  destruct (Nat.lt_ge_cases i (length first)) as [C|C].
  - left. rewrite nth_error_app1 in Hi by exact C. rewrite nth_error_app1 in Ht by (rewrite map_length; exact C).
    rewrite nth_error_map, Hi in Ht. cbn [option_map fst] in Ht. split; [|congruence].
    exact (L (n, pos) (nth_error_In _ _ Hi)).
  - right. rewrite nth_error_app2 in Hi by exact C. rewrite nth_error_app2, map_length in Ht by (rewrite map_length; exact C).
    set (j := (i - length first)%nat) in *. clearbody j. rewrite Forall_forall in S. split.
    + apply S. exact (nth_error_In _ _ Ht).
    + clear - F Hi Ht. revert j Hi Ht. induction F as [|x u later r N F IH]; intros [|j] Hi Ht; try discriminate.
      * injection Hi as ->. injection Ht as ->. exact N.
      * eapply IH; eauto.
Qed.

(* No timestamp is before the start of the train and none departs before it
   arrives. *)
Theorem C44_start fuel tp start limit ns ts :
  runtime_calculation fuel tp start limit ns = Ok ts -> proper_train ns ->
  (forall t, In t (tss_times ts) -> (start <= ts_arrival t <= ts_departure t)%N) /\
  (forall n l, ns = n :: l -> tn_record n = true ->
     exists r, tss_times ts = mkts start start (tn_elem n) :: r).
Proof.
  intros H P. split.
  - intros t Ht. apply In_nth_error in Ht. destruct Ht as (i & Hi).
    assert (L : (i < length (recorded ns))%nat).
    { pose proof (C58_every_element _ _ _ _ _ _ H P) as E. apply (f_equal (@length _)) in E. rewrite !map_length in E.
      rewrite <- E. apply nth_error_Some. congruence. }
    apply nth_error_Some in L. destruct (nth_error (recorded ns) i) as [(n, pos)|] eqn:En; [|congruence].
    destruct (node_cases _ _ _ _ _ _ _ _ _ _ H P En Hi) as [(_ & ->)|(A & _ & B & _)]; cbn; lia.
  - intros n l E R. destruct (proper_runtime _ _ _ _ _ _ H P) as (first & later & _ & A & _ & _ & _ & _ & F).
    destruct (F n l E R) as (e & ->). rewrite A. cbn [map app fst]. eauto.
Qed.
Print Assumptions C44_start.

(* A train leaves a halt at its planned departure or after the minimum stop time,
   whichever is later: never earlier than planned, never before arrival plus
   minimum stop time, and not later than necessary.  (At the very start it leaves
   at the start time, C44_start.) *)
Theorem C44_halts fuel tp start limit ns ts i n pos t st :
  runtime_calculation fuel tp start limit ns = Ok ts -> proper_train ns ->
  nth_error (recorded ns) i = Some (n, pos) -> nth_error (tss_times ts) i = Some t ->
  stops n st -> 1#100 <= pos ->
  ts_departure t = N.max (st_departure st) (ts_arrival t + st_min_stop st)%N.
Proof.
  intros H P Hi Ht S L. destruct (node_cases _ _ _ _ _ _ _ _ _ _ H P Hi Ht) as [(G & _)|(_ & _ & _ & A & _)]; [lra|].
  exact (A st S).
Qed.
Print Assumptions C44_halts.

(* It stands nowhere else: where arrival and departure differ there is a halt
   (within two centimetres) with this stop. *)
Theorem C44_stands_only_at_halts fuel tp start limit ns ts i n pos t :
  runtime_calculation fuel tp start limit ns = Ok ts -> proper_train ns ->
  nth_error (recorded ns) i = Some (n, pos) -> nth_error (tss_times ts) i = Some t ->
  ts_departure t <> ts_arrival t ->
  exists n' pos' st, In (n', pos') (placed 0 ns) /\ stops n' st /\ pos - pos' < 2#100 /\ pos' - pos < 2#100 /\
    ts_departure t = N.max (st_departure st) (ts_arrival t + st_min_stop st)%N.
Proof.
  intros H P Hi Ht G. destruct (node_cases _ _ _ _ _ _ _ _ _ _ H P Hi Ht) as [(_ & ->)|(_ & _ & _ & _ & A)]; [cbn in G; congruence|].
  destruct (A G) as ((n' & pos') & st & A1 & A2 & A3 & A4 & A5). exists n', pos', st. auto.
Qed.
Print Assumptions C44_stands_only_at_halts.

(* Times never go backwards along the train's path: arrivals do not, departures
   do not, and an element is reached no earlier than the one before is left,
   unless both lie within two centimetres at the same halt, where they share both
   times. *)
Theorem C44_order_partial fuel tp start limit ns ts i j n m p q t u :
  runtime_calculation fuel tp start limit ns = Ok ts -> proper_train ns -> (i < j)%nat ->
  nth_error (recorded ns) i = Some (n, p) -> nth_error (recorded ns) j = Some (m, q) ->
  nth_error (tss_times ts) i = Some t -> nth_error (tss_times ts) j = Some u ->
  (ts_arrival t <= ts_arrival u)%N /\ (ts_departure t <= ts_departure u)%N /\
  ((ts_departure t <= ts_arrival u)%N \/
   (ts_arrival t = ts_arrival u /\ ts_departure t = ts_departure u /\ q - p < 2#100)).
Proof.
  intros H P Lt Hi Hj Ht Hu.
  destruct (proper_runtime _ _ _ _ _ _ H P) as (first & later & R & A & F & S & G & L & _).
  pose proof (C44_start _ _ _ _ _ _ H P) as (ST & _).
  pose proof (ST u (nth_error_In _ _ Hu)) as Su.
  rewrite R in Hi, Hj. rewrite A in Ht, Hu. clear A ST. set (r := skipn (length first) (tss_times ts)) in *. clearbody r.
  destruct (Nat.lt_ge_cases i (length first)) as [C|C].
  - rewrite nth_error_app1 in Ht by (rewrite map_length; exact C).
    rewrite nth_error_map in Ht. destruct (nth_error first i); [|discriminate]. injection Ht as <-. cbn [ts_arrival ts_departure]. lia.
  - rewrite nth_error_app2 in Hi, Hj by lia. rewrite nth_error_app2, map_length in Ht, Hu by (rewrite map_length; lia).
    assert (IC : forall k x y, nth_error later k = Some x -> nth_error r k = Some y -> nth_error (combine later r) k = Some (x, y)).
    { clear. revert r. induction later as [|a l IH]; intros [|b r] [|k] x y Hx Hy; try discriminate; cbn [combine nth_error] in *; [congruence|auto]. }
    assert (LL : (i - length first < j - length first)%nat) by lia.
    destruct (StronglySorted_nth _ _ S _ _ _ _ LL (IC _ _ _ Hi Ht) (IC _ _ _ Hj Hu)) as ((N1 & N2) & N3).
    cbn [fst snd] in *. auto.
Qed.
Print Assumptions C44_order_partial.

(* a train that starts at 1000, passes a signal after 2 m and stops after 4 m for
   at least 30 s, then runs on 2 m; speed limit 1 m/s *)
Definition demo_elem (i : N) (h : bool) : elem := mkelem i h.
Definition demo_halt (i : N) (step : Q) (st : stop) : tnode :=
  mktn step HALTPOS (demo_elem i true) true false None None (Some st).
Definition demo_signal (i : N) (step : Q) : tnode :=
  mktn step SIGNAL (demo_elem i false) true false None None None.
Definition demo_run : list tnode :=
  [demo_halt 0 0 (mkstop 0 1000); demo_signal 1 2; demo_halt 2 2 (mkstop 30 1020);
   demo_halt 3 2 (mkstop 30 1400)].
Example C44_sat : proper_train demo_run /\
  exists ts, runtime_calculation 20 demo_train 1000 1 demo_run = Ok ts /\
    map (fun t => (ts_arrival t, ts_departure t)) (tss_times ts) =
      [(1000, 1000); (1002, 1002); (1005, 1035); (1038, 1400)]%N /\ tss_halts ts = [0; 2; 3]%nat.
Proof.
  split.
  - split; [|split].
    + intros n Hn. repeat (destruct Hn as [<-|Hn]; [cbn; lra|]). destruct Hn.
    + eexists. eexists. split; [reflexivity|]. split; [|reflexivity]. split; [reflexivity|]. left. discriminate.
    + exists [demo_halt 0 0 (mkstop 0 1000); demo_signal 1 2; demo_halt 2 2 (mkstop 30 1020)]. eexists.
      split; [reflexivity|]. split; [reflexivity|]. left. discriminate.
  - eexists. split; [vm_compute; reflexivity|]. split; reflexivity.
Qed.

(* FINDING.  Two elements less than a centimetre apart at a halt share arrival and
   departure: the second one is reached before the first one is left. *)
Theorem C44_order_refuted : exists tp start limit ns ts i t u fuel,
  runtime_calculation fuel tp start limit ns = Ok ts /\ proper_train ns /\
  nth_error (tss_times ts) i = Some t /\ nth_error (tss_times ts) (S i) = Some u /\
  ts_elem t <> ts_elem u /\ (ts_arrival u < ts_departure t)%N.
Proof.
  exists demo_train, 1000%N, 1, [demo_halt 0 0 (mkstop 0 1000); demo_halt 1 2 (mkstop 30 1020); demo_signal 2 (1#200)].
  eexists. exists 1%nat. eexists. eexists. exists 20%nat. split; [vm_compute; reflexivity|].
  split; [|split; [reflexivity|split; [reflexivity|split; [discriminate|reflexivity]]]].
  split; [|split].
  - intros n Hn. repeat (destruct Hn as [<-|Hn]; [cbn; lra|]). destruct Hn.
  - eexists. eexists. split; [reflexivity|]. split; [|reflexivity]. split; [reflexivity|]. left. discriminate.
  - exists [demo_halt 0 0 (mkstop 0 1000); demo_halt 1 2 (mkstop 30 1020)]. eexists. split; [reflexivity|].
    split; [reflexivity|]. left. discriminate.
Qed.
Print Assumptions C44_order_refuted.

(* FINDING.  A train that stops 10 cm behind its start never gets there: the
   acceleration phase is dropped and it is to coast at speed 0 (a division by
   zero in the code, C45_coast_standing_refuted). *)
Theorem C44_short_move_refuted : exists tp start limit ns, proper_train ns /\
  runtime_calculation 20 tp start limit ns = UB.
Proof.
  exists demo_train, 1000%N, 1, [demo_halt 0 0 (mkstop 0 1000); demo_signal 1 (1#10); demo_halt 2 2 (mkstop 30 1070)].
  split; [|vm_compute; reflexivity]. split; [|split].
  - intros n Hn. repeat (destruct Hn as [<-|Hn]; [cbn; lra|]). destruct Hn.
  - eexists. eexists. split; [reflexivity|]. split; [|reflexivity]. split; [reflexivity|]. left. discriminate.
  - exists [demo_halt 0 0 (mkstop 0 1000); demo_signal 1 (1#10)]. eexists. split; [reflexivity|].
    split; [reflexivity|]. left. discriminate.
Qed.
Print Assumptions C44_short_move_refuted.

(* ---- C59: speeds between two borders ---- *)

Lemma top_speed_max tp m m' : top_speed tp m -> max_speed tp = Ok m' -> m == m'.
Proof.
  intros (M1 & M2 & M3 & M4) B. destruct (proj1 (max_speed_spec tp m') B) as ((N1 & N2 & N3 & _) & _).
  assert (m <= m') by (destruct N3 as [-> |(vh & V1 & ->)]; auto).
  assert (m' <= m) by (destruct M3 as [-> |(vh & V1 & ->)]; auto). lra.
Qed.

(* The phases computed for a stretch between two borders cover exactly its length;
   a train that enters it no faster than allowed there never exceeds the limit of
   the stretch or its own top speed, and leaves it no faster than allowed behind
   it: standing, if it stops. *)
Theorem C59_phases fuel tp speed prev iv p limit m :
  get_runtime_phases fuel tp speed prev iv = Ok p -> iv_dist prev < iv_dist iv ->
  iv_left iv = Some limit -> top_speed tp m -> speed <= limit -> speed <= m ->
  s_dist (ph_accel p) + s_dist (ph_coast p) + s_dist (ph_deaccel p) == iv_dist iv - iv_dist prev /\
  within p limit /\ within p m /\
  (iv_stop iv <> None -> s_speed (exit_sample p) <= 0) /\
  (iv_stop iv = None -> s_speed (exit_sample p) <= iv_right iv).
Proof.
  intros H HL Hl Hm S1 S2.
  assert (EM : exists m', max_speed tp = Ok m').
  { unfold get_runtime_phases in H. inv_bind H. eauto. }
  destruct EM as (m' & EM). pose proof (top_speed_max _ _ _ Hm EM) as E.
  destruct (phases_ok _ _ _ _ _ _ H HL) as (W & _).
  split; [exact (pw_total _ _ W)|].
  assert (S3 : speed <= m') by lra.
  destruct (phases_within _ _ _ _ _ _ _ _ H HL Hl EM S1 S3) as (W1 & W2). split; [exact W1|].
  split; [intros s Hs; specialize (W2 s Hs); lra|].
  destruct (phases_exit _ _ _ _ _ _ H HL) as (t & T1 & T2). unfold target_speed in T1. rewrite EM in T1. cbn [bind] in T1.
  injection T1 as T1. destruct (qmin_spec (if is_halt iv then 0 else iv_right iv) m') as (Q1 & _ & _). rewrite T1 in Q1.
  unfold is_halt in Q1. split; intros Hs; destruct (iv_stop iv); try congruence; lra.
Qed.
Print Assumptions C59_phases.

(* A whole train without limits that are valid from the last signal on: on each
   stretch it keeps the limit in force from its beginning, and at its end the one
   in force from there on. *)
Theorem C59_speed_limits_partial fuel tp start limit ns ts m :
  runtime_calculation fuel tp start limit ns = Ok ts -> proper_train ns ->
  sane_limits limit ns -> (forall n, In n ns -> tn_last_signal n = None) ->
  top_speed tp m -> 0 <= m ->
  exists first il ps, get_interval_list fuel tp limit ns = Ok (first :: il) /\ drive fuel tp 0 first il ps /\
    length (in_force limit ns) = S (length ps) /\
    forall i p d q d' q', nth_error ps i = Some p ->
      nth_error (in_force limit ns) i = Some (d, q) -> nth_error (in_force limit ns) (S i) = Some (d', q') ->
      s_dist (ph_accel p) + s_dist (ph_coast p) + s_dist (ph_deaccel p) == d' - d /\
      within p q /\ within p m /\ s_speed (exit_sample p) <= q'.
Proof.
  unfold runtime_calculation. intros H (P & _) HS HL Hm M0. inv_bind H. rename x into l. inv_bind H. clear H.
  destruct x as [[c v] t]. destruct l as [|first il]; [unfold run_list in B0; inv_bind B0; discriminate|].
  unfold run_list in B0. inv_bind B0. inv_bind B0.
  destruct (run_intervals_drive _ _ _ _ _ _ _ _ _ _ _ B0) as (ps & D).
  exists first, il, ps. split; [exact B|]. split; [exact D|].
  destruct (interval_list_ok _ _ _ _ _ B P) as (_ & _ & _ & _ & A & _).
  destruct (interval_list_in_force _ _ _ _ _ B HS HL) as (LM & NN & F).
  assert (LP : length il = length ps).
  { clear - D. revert D. generalize 0 at 1. revert first ps. induction il as [|iv il IH]; intros first [|p ps] v D; cbn [drive] in D; try tauto.
    cbn [length]. f_equal. destruct D as (_ & D). eapply IH; eauto. }
  split; [rewrite (F2_length _ _ _ F); cbn [length]; congruence|].
  (* step by step *)
  assert (GEN : forall il fl first ps v x0, drive fuel tp v first il ps -> ascending_ivs (first :: il) ->
    limits_meet (first :: il) -> nonneg (first :: il) -> v <= iv_right first -> v <= m ->
    Forall2 (fun x iv => iv_dist iv = fst x /\ iv_right iv <= snd x) (x0 :: fl) (first :: il) ->
    forall i p d q d' q', nth_error ps i = Some p ->
      nth_error (x0 :: fl) i = Some (d, q) -> nth_error (x0 :: fl) (S i) = Some (d', q') ->
      s_dist (ph_accel p) + s_dist (ph_coast p) + s_dist (ph_deaccel p) == d' - d /\
      within p q /\ within p m /\ s_speed (exit_sample p) <= q').
  { clear - Hm. induction il as [|iv il IH]; intros fl first ps v x0 D A M N V1 V2 F i p d q d' q' Hp Hd Hd'.
    - destruct ps; [destruct i; discriminate|destruct D].
    - destruct ps as [|p0 ps]; [destruct D|]. destruct D as (D1 & D2).
      inversion F as [|? ? ? ? (F1 & F2) F']; subst. inversion F' as [|x1 ? fl' ? (F3 & F4) F'']; subst.
      cbn [ascending_ivs] in A. destruct A as (A1 & A2). destruct M as (M1 & M2).
      assert (N2 : nonneg (iv :: il)) by (inversion N; assumption).
      destruct (C59_phases _ _ _ _ _ _ _ _ D1 A1 M1 Hm V1 V2) as (C1 & C2 & C3 & C4 & C5).
      assert (X : s_speed (exit_sample p0) <= iv_right iv).
      { destruct (iv_stop iv); [|apply C5; reflexivity]. assert (s_speed (exit_sample p0) <= 0) by (apply C4; discriminate).
        inversion N2; subst. lra. }
      destruct i as [|i].
      + injection Hp as <-. cbn [nth_error] in Hd, Hd'. injection Hd as ->. injection Hd' as ->. cbn [fst snd] in *.
        split; [rewrite C1, F1, F3; reflexivity|]. split; [intros s Hs; specialize (C2 s Hs); lra|]. split; [exact C3|]. lra.
      + cbn [nth_error] in Hp. apply (IH fl' iv ps (s_speed (exit_sample p0)) x1 D2 A2 M2 N2 X) with (i := i); auto.
        destruct (phases_exit _ _ _ _ _ _ D1 A1) as (t & T1 & T2).
        unfold target_speed in T1. inv_bind T1. injection T1 as <-.
        pose proof (top_speed_max _ _ _ Hm B). destruct (qmin_spec (if is_halt iv then 0 else iv_right iv) x) as (_ & Q & _). lra. }
  destruct (in_force limit ns) as [|y0 fl]; [inversion F|].
  assert (N0 : 0 <= iv_right first) by (inversion NN; assumption).
  exact (GEN il fl first ps 0 y0 D A LM NN N0 M0 F).
Qed.
Print Assumptions C59_speed_limits_partial.

(* Also with limits that are valid from the last signal on, if borders are at least
   a centimetre apart: what is allowed at the end of a stretch is allowed on the next
   one, and the drive keeps the limits of its stretches and the top speed. *)
Theorem C59_meeting_limits_partial fuel tp start limit ns ts m :
  runtime_calculation fuel tp start limit ns = Ok ts -> proper_train ns ->
  borders_apart ns -> sane_limits limit ns -> top_speed tp m -> 0 <= m ->
  exists first il ps, get_interval_list fuel tp limit ns = Ok (first :: il) /\ drive fuel tp 0 first il ps /\
    limits_meet (first :: il) /\
    forall i p a b, nth_error ps i = Some p -> nth_error (first :: il) i = Some a -> nth_error il i = Some b ->
      within p (iv_right a) /\ within p m /\ s_speed (exit_sample p) <= iv_right b /\
      (iv_stop b <> None -> s_speed (exit_sample p) <= 0).
Proof.
  unfold runtime_calculation. intros H (P & _) HA HS Hm M0. inv_bind H. rename x into l. inv_bind H. clear H.
  destruct x as [[c v] t]. destruct l as [|first il]; [unfold run_list in B0; inv_bind B0; discriminate|].
  unfold run_list in B0. inv_bind B0. inv_bind B0.
  destruct (run_intervals_drive _ _ _ _ _ _ _ _ _ _ _ B0) as (ps & D).
  exists first, il, ps. split; [exact B|]. split; [exact D|].
  destruct (interval_list_ok _ _ _ _ _ B P) as (_ & _ & _ & _ & A & _).
  destruct (interval_list_limits _ _ _ _ _ B HS HA) as (LM & NN). split; [exact LM|].
  assert (N0 : 0 <= iv_right first) by (inversion NN; assumption).
  assert (V : exists v, v = 0) by eauto. destruct V as (v0 & V). rewrite <- V in D, N0, M0. clear V.
  clear - D A LM NN N0 M0 Hm. revert v0 first ps D A LM NN N0 M0.
  induction il as [|iv il IH]; intros v first ps D A M N V1 V2 i p a b Hp Ha Hb; [destruct i; discriminate|].
  destruct ps as [|p0 ps]; [destruct i; discriminate|]. destruct D as (D1 & D2).
  cbn [ascending_ivs] in A. destruct A as (A1 & A2). destruct M as (M1 & M2).
  assert (N2 : nonneg (iv :: il)) by (inversion N; assumption).
  destruct (C59_phases _ _ _ _ _ _ _ _ D1 A1 M1 Hm V1 V2) as (C1 & C2 & C3 & C4 & C5).
  assert (X : s_speed (exit_sample p0) <= iv_right iv).
  { destruct (iv_stop iv); [|apply C5; reflexivity]. assert (s_speed (exit_sample p0) <= 0) by (apply C4; discriminate).
    inversion N2; subst. lra. }
  destruct i as [|i].
  - injection Hp as <-. injection Ha as <-. injection Hb as <-. auto.
  - cbn [nth_error] in Hp, Ha, Hb. apply (IH (s_speed (exit_sample p0)) iv ps D2 A2 M2 N2 X) with (i := i); auto.
    destruct (phases_exit _ _ _ _ _ _ D1 A1) as (t & T1 & T2).
    unfold target_speed in T1. inv_bind T1. injection T1 as <-.
    pose proof (top_speed_max _ _ _ Hm B). destruct (qmin_spec (if is_halt iv then 0 else iv_right iv) x) as (_ & Q & _). lra.
Qed.
Print Assumptions C59_meeting_limits_partial.

(* ---- C60: the times of a train are those of its drive ---- *)
Theorem C60_times fuel tp start limit ns ts :
  runtime_calculation fuel tp start limit ns = Ok ts ->
  exists first il ps stamps, get_interval_list fuel tp limit ns = Ok (first :: il) /\ drive fuel tp 0 first il ps /\
    tss_times ts = map (fun e => mkts start start (ev_elem e)) (iv_events first) ++ stamps /\
    clocked start 0 first il ps stamps.
Proof.
  unfold runtime_calculation. intros H. inv_bind H. rename x into l. inv_bind H.
  destruct x as [[c v] t]. injection H as <-. destruct l as [|first il]; [unfold run_list in B0; inv_bind B0; discriminate|].
  unfold run_list in B0. inv_bind B0. inv_bind B0. apply first_events_ok in B2. cbn [tss_times app] in B2.
  destruct (run_intervals_clocked _ _ _ _ _ _ _ _ _ _ _ B0) as (ps & stamps & D & T & C).
  exists first, il, ps, stamps. split; [exact B|]. split; [exact D|]. split; [rewrite T, B2; reflexivity|exact C].
Qed.
Print Assumptions C60_times.
Example C60_sat :
  let passed := mktn 1 OTHER (demo_elem 5 false) true false None None None in
  exists ts, runtime_calculation 20 demo_train 1000 1 [demo_halt 0 0 (mkstop 0 1000); passed; demo_halt 2 1 (mkstop 30 1020)] = Ok ts /\
    map (fun t => (ts_arrival t, ts_departure t)) (tss_times ts) = [(1000, 1000); (1001, 1001); (1003, 1033)]%N.
Proof. cbv zeta. eexists. split; [vm_compute; reflexivity|]. reflexivity. Qed.

(* No element on a stretch is left without a time: wherever on the stretch it is,
   one of the samples of the drive is at or behind it, so that the lookup of its time
   succeeds (in exact arithmetic). *)
Lemma first_at_found o l d s : In s l -> d <= o + s_dist s -> exists r, first_at o l d = Some r.
Proof.
  induction l as [|a l IH]; intros H L; [destruct H|]. cbn [first_at].
  destruct (qle d (o + s_dist a)) eqn:E; [eauto|]. destruct H as [<-|H]; [|auto].
  exfalso. qb. lra.
Qed.
Lemma nonempty_back l : nonempty l = true -> In (back l) l.
Proof. intros H. apply (nth_error_In _ (length l - 1)). apply back_nth. destruct l; discriminate. Qed.
Theorem C60_no_element_missed fuel tp speed prev iv p d :
  get_runtime_phases fuel tp speed prev iv = Ok p -> iv_dist prev < iv_dist iv ->
  d <= iv_dist iv - iv_dist prev ->
  exists t, get_event_time p d = Ok t.
Proof.
  intros H HL Hd. destruct (phases_ok _ _ _ _ _ _ H HL) as (W & _).
  pose proof (pw_total _ _ W) as T. pose proof (pw_coast _ _ W) as C. pose proof (pw_deaccel _ _ W) as D.
  unfold get_event_time.
  destruct (nonempty (ph_accels p) && qle d (s_dist (ph_accel p))) eqn:E1.
  { apply andb_prop in E1. destruct E1 as (E1 & L). qb.
    destruct (pw_accel _ _ W) as [(E & _)|(k & s & Hk & Es & _)]; [rewrite E in E1; discriminate|].
    destruct (first_at_found 0 (ph_accels p) d s (nth_error_In _ _ Hk)) as (r & R); [rewrite Es; lra|].
    rewrite R. eauto. }
  destruct (nonempty (ph_coasts p) && qle d (s_dist (ph_accel p) + s_dist (ph_coast p))) eqn:E2.
  { apply andb_prop in E2. destruct E2 as (E2 & L). qb.
    destruct (first_at_found (s_dist (ph_accel p)) _ d _ (nonempty_back _ E2)) as (r & R); [rewrite <- C; lra|].
    rewrite R. eauto. }
  assert (L : qle d (s_dist (ph_accel p) + s_dist (ph_coast p) + s_dist (ph_deaccel p)) = true).
  { apply Qle_bool_iff. lra. }
  rewrite L, andb_true_r. destruct (nonempty (ph_deaccels p)) eqn:E3.
  { destruct (first_at_found (s_dist (ph_accel p) + s_dist (ph_coast p)) _ d _ (nonempty_back _ E3)) as (r & R); [rewrite <- D; lra|].
    rewrite R. eauto. }
  exfalso. assert (D0 : s_dist (ph_deaccel p) == 0) by (rewrite D; destruct (ph_deaccels p); [reflexivity|discriminate]).
  assert (L2 : qle d (s_dist (ph_accel p) + s_dist (ph_coast p)) = true) by (apply Qle_bool_iff; lra).
  rewrite L2, andb_true_r in E2.
  assert (C0 : s_dist (ph_coast p) == 0) by (rewrite C; destruct (ph_coasts p); [reflexivity|discriminate]).
  assert (L1 : qle d (s_dist (ph_accel p)) = true) by (apply Qle_bool_iff; lra).
  rewrite L1, andb_true_r in E1.
  destruct (pw_accel _ _ W) as [(_ & E)|(k & s & Hk & _)]; [|destruct (ph_accels p); [destruct k; discriminate|discriminate]].
  rewrite E in T. cbn [zero_sample s_dist] in T. lra.
Qed.
Print Assumptions C60_no_element_missed.
Example C60_missed_sat : exists prev iv p,
  get_runtime_phases 20 demo_train 0 prev iv = Ok p /\ iv_dist prev < iv_dist iv /\
  (nonempty (ph_accels p), nonempty (ph_coasts p), nonempty (ph_deaccels p)) = (true, true, true).
Proof.
  exists (mkiv 0 (Some 1) 1 None []), (mkiv 4 (Some 1) 1 (Some (mkstop 0 1000)) []).
  eexists. split; [vm_compute; reflexivity|]. split; [reflexivity|reflexivity].
Qed.

Definition demo_limit (step q : Q) : tnode := mktn step OTHER (demo_elem 9 false) false false (Some q) None None.
Example C59_sat :
  let ns := [demo_halt 0 0 (mkstop 0 1000); demo_limit 2 (1#2); demo_signal 1 1; demo_halt 2 1 (mkstop 30 1070)] in
  borders_apart ns /\ sane_limits 1 ns /\ top_speed demo_train 40 /\
  map (fun x => (Qred (fst x), Qred (snd x))) (in_force 1 ns) = [(0, 1); (2, 1#2); (3, 1#2); (4, 1#2)] /\
  exists ts, runtime_calculation 20 demo_train 1000 1 ns = Ok ts.
Proof.
  cbv zeta. split; [|split; [|split; [|split; [reflexivity|eexists; vm_compute; reflexivity]]]].
  - unfold borders_apart. cbn [placed tn_step demo_halt demo_limit demo_signal].
    repeat (constructor; [|repeat (constructor; [intros _ _; cbn [snd]; lra|]); constructor]). constructor.
  - split; [lra|]. intros n q Hn Hq. repeat (destruct Hn as [<-|Hn]; [cbn in Hq; destruct Hq as [[= <-]|[=]]; try lra; try discriminate|]); try destruct Hn.
    all: cbn in Hq; destruct Hq; discriminate.
  - split; [cbn; lra|]. split; [intros vh [<-|[]]; cbn; lra|]. split; [left; reflexivity|discriminate].
Qed.

(* FINDING.  A limit that is valid from the last signal on is not applied when
   that signal lies within a centimetre of the border before it: here the train
   passes the signal at 2 m/s and takes 3 s for the next 4 m, although only half
   a metre per second is allowed there. *)
Theorem C59_last_signal_refuted :
  let slow := mktn 2 OTHER (demo_elem 8 false) false false None (Some (1#2)) None in
  let train := fun step => [demo_halt 0 0 (mkstop 0 1000); demo_limit 2 2; demo_signal 1 step; slow;
                            demo_halt 2 2 (mkstop 30 1070)] in
  (* a metre behind the border *)
  (exists ts, runtime_calculation 20 demo_train 1000 2 (train 1) = Ok ts /\
     map ts_arrival (tss_times ts) = [1000; 1004; 1012]%N) /\
  (* half a centimetre behind it *)
  (exists ts, runtime_calculation 20 demo_train 1000 2 (train (1#200)) = Ok ts /\
     map ts_arrival (tss_times ts) = [1000; 1002; 1005]%N).
Proof.
  cbv zeta. split; eexists; (split; [vm_compute; reflexivity|]).
  - reflexivity.
  - reflexivity.
Qed.
Print Assumptions C59_last_signal_refuted.
