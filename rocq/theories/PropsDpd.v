(* C46: inserting into probability distributions; C61: iterating them and the
   distributions of delays (PropsDpd). *)
From Coq Require Import Lqa Qpower Sorting.Sorted.
From Verif Require Import Base DpdModel DpdSpec DpdProofs.
Local Open Scope Z_scope.

Lemma time_fits h : ordinary h -> fits time_primary h.
Proof. intros H. unfold fits, ordinary in *. cbn [pr_gran pr_max time_primary]. unfold INT64_MAX. lia. Qed.
Lemma speed_fits v : 0 <= v < 65535 -> fits speed_primary v.
Proof. intros H. unfold fits. cbn [pr_gran pr_max speed_primary]. lia. Qed.

(* ---- C46 ---- *)
(* A time is rounded to the next multiple of the granularity of six seconds. *)
Theorem C46_rounding h : ordinary h -> exists r, round_to_nearest_multiple time_primary h = Ok r /\ rounds 6 h r.
Proof.
  intros H. apply time_fits in H. destruct H as (H1 & H2).
  destruct (round_ok time_primary time_norm_ok h) as (r & E & R & _); [lia|exact H2|]. exists r. auto.
Qed.
Print Assumptions C46_rounding.
(* FINDING.  Negative values are rounded towards zero. *)
Theorem C46_rounding_negative_refuted : exists h r, round_to_nearest_multiple time_primary h = Ok r /\ ~ rounds 6 h r.
Proof. exists (-5), 0. split; [reflexivity|]. intros (_ & H). lia. Qed.
Print Assumptions C46_rounding_negative_refuted.

(* After any number of insertions, none of which rounds to less than the first one,
   each bucket holds the sum of the probabilities inserted for it. *)
Theorem C46_history_partial l : l <> [] -> (forall h p, In (h, p) l -> ordinary h) -> first_least 6 (map fst l) ->
  exists d es, inserts1 time_primary (empty1 time_primary) l = Ok d /\ entries1 time_primary d = Ok es /\
    forall x q, mass 6 x l q -> (listed Z.eqb es x == q)%Q.
Proof.
  intros NE HF FL.
  destruct (inserts1_history time_primary time_norm_ok l NE) as (d & E & G & A).
  { intros h p I. apply time_fits. eapply HF. exact I. }
  { exact FL. }
  destruct (entries_at time_primary time_norm_ok d G) as (es & E2 & A2). exists d, es. split; [exact E|]. split; [exact E2|].
  intros x q M. rewrite A2. apply A. exact M.
Qed.
Print Assumptions C46_history_partial.
(* The same for distributions over times and speeds. *)
Theorem C46_pairs_partial l : l <> [] -> (forall h v p, In (h, v, p) l -> ordinary h /\ 0 <= v < 65535) ->
  first_least 6 (map (fun e => fst (fst e)) l) -> slowest_first 6 l ->
  exists d ds es, inserts2 time_primary speed_primary (empty2 time_primary) l = Ok d /\
    entries2 time_primary speed_primary d = Ok ds /\ walk speed_primary ds = Ok es /\
    forall x v q, mass2 6 x v l q -> (listed pair_eqb es (x, v) == q)%Q.
Proof.
  intros NE HF FL SF.
  destruct (inserts2_history time_primary speed_primary time_norm_ok speed_norm_ok eq_refl l NE) as (d & E & G & C & M).
  { intros h v p I. destruct (HF h v p I). split; [apply time_fits|apply speed_fits]; assumption. }
  { exact FL. } { exact SF. }
  destruct (walk_cells time_primary speed_primary time_norm_ok speed_norm_ok d l G C) as (es & ds & W1 & W2 & W3).
  exists d, ds, es. split; [exact E|]. split; [exact W1|]. split; [exact W2|]. intros x v q MQ. rewrite W3. apply M. exact MQ.
Qed.
Print Assumptions C46_pairs_partial.
(* the sums the two theorems speak about exist *)
Theorem C46_mass_defined x v l l2 : (exists q, mass 6 x l q) /\ (exists q, mass2 6 x v l2 q).
Proof.
  split; [apply (mass_exists time_primary time_norm_ok)|].
  induction l2 as [|[[h w] p] l2 (q & IH)]; [exists 0%Q; constructor|].
  destruct (rounds_dec 6 h x) as [R|R]; [lia| |exists q; apply mass2_out; tauto].
  destruct (Z.eq_dec w v) as [-> |N]; [exists (p + q)%Q; apply mass2_in; assumption|exists q; apply mass2_out; tauto].
Qed.
Print Assumptions C46_mass_defined.
Example C46_sat :
  let l := [(7, 1#2); (20, 1#4); (8, 1#8)] in
  first_least 6 (map fst l) /\ (forall h p, In (h, p) l -> ordinary h) /\
  exists d, inserts1 time_primary (empty1 time_primary) l = Ok d /\ d1_first d = 6 /\ map Qred (d1_mass d) = [5#8; 0#1; 1#4]%Q.
Proof.
  cbv zeta. split; [|split].
  - cbn [map fst first_least]. intros h x0 x H ((j & ->) & A) ((k & ->) & B). destruct H as [<-|[<-|[]]]; lia.
  - intros h p H. unfold ordinary. repeat (destruct H as [[= <- <-]|H]; [lia|]). destruct H.
  - eexists. split; [vm_compute; reflexivity|]. split; reflexivity.
Qed.
Example C46_pairs_sat :
  let l := [(7, 50, 1#2); (8, 51, 1#8); (20, 60, 1#4); (19, 60, 1#8)] in
  first_least 6 (map (fun e => fst (fst e)) l) /\ slowest_first 6 l /\
  exists d, inserts2 time_primary speed_primary (empty2 time_primary) l = Ok d /\ length (d2_dpds d) = 3%nat.
Proof.
  cbv zeta. split; [|split].
  - cbn [map fst first_least]. intros h x0 x H ((j & ->) & A) ((k & ->) & B). destruct H as [<-|[<-|[<-|[]]]]; lia.
  - apply sorted_slowest. repeat constructor; cbn [fst snd]; lia.
  - eexists. split; [vm_compute; reflexivity|]. reflexivity.
Qed.

(* FINDING.  Inserting a time that rounds to less than the first bucket never works:
   the first insertion decides about the smallest time. *)
Theorem C46_below_first_refuted d h p r :
  d1_mass d <> [] -> 0 <= d1_first d <= 2 ^ 57 -> (6 | d1_first d) -> Z.of_nat (length (d1_mass d)) < 2 ^ 57 ->
  ordinary h -> rounds 6 h r -> r < d1_first d ->
  insert1 time_primary d h p = UB \/ insert1 time_primary d h p = Throw.
Proof.
  intros NE F0 D LN OR R LT. unfold insert1. pose proof (time_fits h OR) as HF.
  destruct (round_ok time_primary time_norm_ok h) as (r' & E & R' & P0); [destruct HF; lia|destruct HF; lia|].
  rewrite (rounds_unique 6 h r' r eq_refl R' R) in *. rewrite E. cbn [bind].
  destruct (d1_mass d) as [|q0 mass0] eqn:EM; [congruence|]. rewrite <- EM in *.
  replace (r <? d1_first d) with true by (symmetry; apply Z.ltb_lt; exact LT).
  assert (I64 : forall z, - 2 ^ 60 <= z <= 2 ^ 60 -> int64 z = Ok z).
  { intros z Hz. unfold int64. replace (- INT64_MAX - 1 <=? z) with true by (symmetry; apply Z.leb_le; unfold INT64_MAX; lia).
    replace (z <=? INT64_MAX) with true by (symmetry; apply Z.leb_le; unfold INT64_MAX; lia). reflexivity. }
  assert (DV : (6 | d1_first d - r)) by (apply Z.divide_sub_r; [exact D|apply R]). destruct DV as (k & K).
  cbn [pr_norm time_primary]. rewrite I64 by lia. cbn [bind pr_gran time_primary]. rewrite K.
  rewrite Z.quot_mul by lia. replace (size_of k) with (Z.to_N k) by (unfold size_of; rewrite Z.mod_small by (unfold M64; lia); reflexivity).
  destruct (shift_loop1 (length (d1_mass d)) (N.to_nat (Z.to_N k))) eqn:SL; [|left; reflexivity]. cbn [bind].
  unfold to_idx. rewrite E. cbn [bind pr_norm time_primary]. rewrite I64 by lia. cbn [bind pr_gran time_primary].
  replace (r - d1_first d) with (- k * 6) by lia. rewrite Z.quot_mul by lia.
  assert (SZ : size_of (- k) = Z.to_N (M64 - k)).
  { unfold size_of. f_equal. symmetry. apply (Z.mod_unique (- k) M64 (-1)); [left; unfold M64; lia|ring]. }
  rewrite SZ. replace (N.of_nat (length (d1_mass d)) <=? Z.to_N (M64 - k))%N with true by (symmetry; apply N.leb_le; unfold M64; lia).
  rewrite Z2N.id by (unfold M64; lia). destruct (Z.eq_dec k 1) as [-> |NK].
  - left. assert (Z0 : size_of (M64 - 1 + 1) = 0%N) by reflexivity. rewrite Z0. unfold resize. cbn [N.ltb N.compare FLOATS_MAX].
    change (N.to_nat 0) with O. cbn [firstn app Nat.sub repeat bind length N.of_nat]. reflexivity.
  - right. unfold size_of. rewrite Z.mod_small by (unfold M64; lia). unfold resize.
    replace (FLOATS_MAX <? Z.to_N (M64 - k + 1))%N with true; [reflexivity|]. symmetry. apply N.ltb_lt. unfold FLOATS_MAX, M64. lia.
Qed.
Print Assumptions C46_below_first_refuted.
Example C46_below_first_sat :
  exists d, inserts1 time_primary (empty1 time_primary) [(12, 1#2)] = Ok d /\
    insert1 time_primary d 6 (1#2) = UB /\
    (exists d2, inserts1 time_primary (empty1 time_primary) [(12, 1#2); (18, 1#4); (24, 1#8)] = Ok d2 /\ insert1 time_primary d2 0 (1#2) = Throw).
Proof. eexists. split; [vm_compute; reflexivity|]. split; [reflexivity|]. eexists. split; [vm_compute; reflexivity|]. reflexivity. Qed.

(* ---- C61 ---- *)
(* Iterating a distribution over times yields, in order, the buckets whose
   probability is not below one per cent, with their values. *)
Theorem C61_iterate l d : l <> [] -> (forall h p, In (h, p) l -> ordinary h) -> first_least 6 (map fst l) ->
  inserts1 time_primary (empty1 time_primary) l = Ok d ->
  exists es f, entries1 time_primary d = Ok es /\ iterate1 time_primary d = Ok (filter f es) /\
    forall e, f e = true <-> ((1#100) <= snd e \/ snd e <= - (1#100))%Q.
Proof.
  intros NE HF FL HD.
  destruct (inserts1_history time_primary time_norm_ok l NE) as (d' & E & G & _).
  { intros h p I. apply time_fits. eapply HF. exact I. }
  { exact FL. }
  assert (d' = d) by congruence. subst d'.
  destruct (iterate1_ok time_primary d time_norm_ok G) as (es & E1 & E2). exists es, (fun e => big (snd e)).
  split; [exact E1|]. split; [exact E2|]. intros e. apply big_spec.
Qed.
Print Assumptions C61_iterate.
(* FINDING.  Iterating a distribution over times and speeds reports every speed one
   km/h too high. *)
Theorem C61_speeds_shifted_refuted l d : l <> [] -> (forall h v p, In (h, v, p) l -> ordinary h /\ 0 <= v < 65535) ->
  first_least 6 (map (fun e => fst (fst e)) l) -> slowest_first 6 l ->
  inserts2 time_primary speed_primary (empty2 time_primary) l = Ok d ->
  exists ds es f, entries2 time_primary speed_primary d = Ok ds /\ walk speed_primary ds = Ok es /\
    iterate2 time_primary speed_primary d =
      Ok (map (fun e => (fst (fst e), (snd (fst e) + 1) mod 65536, snd e)) (filter f es)) /\
    forall e, f e = true <-> ((1#100) <= snd e \/ snd e <= - (1#100))%Q.
Proof.
  intros NE HF FL SF HD.
  destruct (inserts2_history time_primary speed_primary time_norm_ok speed_norm_ok eq_refl l NE) as (d' & E & G & C & M).
  { intros h v p I. destruct (HF h v p I). split; [apply time_fits|apply speed_fits]; assumption. }
  { exact FL. } { exact SF. }
  assert (d' = d) by congruence. subst d'.
  destruct (iterate2_ok time_primary d l time_norm_ok G C) as (ds & es & W1 & W2 & W3).
  exists ds, es, (fun e => big (snd e)). split; [exact W1|]. split; [exact W2|]. split; [exact W3|]. intros e. apply big_spec.
Qed.
Print Assumptions C61_speeds_shifted_refuted.
Example C61_shifted_sat : exists d, inserts2 time_primary speed_primary (empty2 time_primary) [(6, 50, 1#2)] = Ok d /\
  iterate2 time_primary speed_primary d = Ok [(6, 51, 1#2)].
Proof. exists (mkdpd2 6 [mkdpd1 50 [1#2]]). split; reflexivity. Qed.

(* The distribution of the delay at a halt can be built; each bucket holds the
   probabilities of the delays that round to it. *)
Lemma delays_ok d : In d five_minutes -> 0 <= d < 300.
Proof. unfold five_minutes. intros H. apply in_map_iff in H. destruct H as (n & <- & H). apply in_seq in H. lia. Qed.
Lemma lateness_nonneg d : (0 <= lateness d)%Q.
Proof. unfold lateness. apply Qmult_le_0_compat; [|discriminate]. apply Qpower_pos. discriminate. Qed.
Lemma minutes_cons : five_minutes = 0 :: map Z.of_nat (seq 1 299).
Proof. reflexivity. Qed.
Lemma lateness_0 : (lateness 0 == 3)%Q.
Proof. reflexivity. Qed.
Lemma delays_eq : delays = five_minutes. Proof. reflexivity. Qed.
Lemma delay_prob_eq : delay_prob = lateness. Proof. reflexivity. Qed.
Local Opaque delays delay_prob five_minutes lateness.
Theorem C61_halt_distribution : exists d es, halt_distribution = Ok d /\ entries1 time_primary d = Ok es /\
  forall x q, mass 6 x halt_cases q -> (listed Z.eqb es x == q)%Q.
Proof.
  unfold halt_distribution. rewrite delays_eq, delay_prob_eq. fold halt_cases. apply C46_history_partial; unfold halt_cases.
  - rewrite minutes_cons. discriminate.
  - intros h p H. apply in_map_iff in H. destruct H as (d & [= <- <-] & H). apply delays_ok in H. unfold ordinary. lia.
  - rewrite minutes_cons, map_map. cbn [map fst first_least]. rewrite map_id.
    intros h x0 x H ((j & ->) & R0) ((k & ->) & R). apply in_map_iff in H. destruct H as (n & <- & H). lia.
Qed.
Print Assumptions C61_halt_distribution.
(* FINDING.  The exponent is one too small (delay - 1 for delays from 0 on), so the
   "probability" of the first bucket alone is three or more. *)
Theorem C61_halt_probability_refuted : exists d es, halt_distribution = Ok d /\ entries1 time_primary d = Ok es /\
  (3 <= listed Z.eqb es 0%Z)%Q.
Proof.
  destruct C61_halt_distribution as (d & es & H1 & H2 & H3). exists d, es. split; [exact H1|]. split; [exact H2|].
  destruct (mass_exists time_primary time_norm_ok 0 halt_cases) as (q & M).
  cbn [pr_gran time_primary] in M. rewrite (H3 0 q M). clear H1 H2 H3. unfold halt_cases in M.
  rewrite minutes_cons in M. remember (map Z.of_nat (seq 1 299)) as later. cbn [map] in M.
  assert (P : forall l q, mass 6 0 (map (fun d => (d, lateness d)) l) q -> (0 <= q)%Q).
  { induction l as [|a l IH]; cbn [map]; intros q0 MQ; inversion MQ; subst; [lra| |auto].
    pose proof (lateness_nonneg a). assert (0 <= q1)%Q by auto. lra. }
  inversion M as [|? ? ? q' R1 M1|? ? ? q' R1 M1]; subst.
  - apply P in M1. pose proof lateness_0. lra.
  - exfalso. apply R1. split; [exists 0; reflexivity|lia].
Qed.
Print Assumptions C61_halt_probability_refuted.

(* The distribution of arrival and speed can be built for every time and every
   speed of at least 1 km/h. *)
Lemma times_ok arrival : ordinary arrival -> arrival + 300 < 2 ^ 57 -> forall ds, (forall d, In d ds -> 0 <= d < 300) ->
  fold_right (fun d r => do r <- r; do t <- int64 (arrival + d); Ok ((t, lateness d) :: r)) (Ok []) ds =
  Ok (map (fun d => (arrival + d, lateness d)) ds).
Proof.
  intros O B. induction ds as [|d ds IH]; intros H; cbn [fold_right map]; [reflexivity|].
  rewrite IH by (intros; apply H; right; assumption). cbn [bind]. pose proof (H d (or_introl eq_refl)). unfold ordinary in O.
  unfold int64. replace (- INT64_MAX - 1 <=? arrival + d) with true by (symmetry; apply Z.leb_le; unfold INT64_MAX; lia).
  replace (arrival + d <=? INT64_MAX) with true by (symmetry; apply Z.leb_le; unfold INT64_MAX; lia). reflexivity.
Qed.
Lemma speeds_sorted {A} (f : nat -> A -> Z * Z * Q) (s : Z) (ts : list A) :
  (forall k t, snd (fst (f k t)) = s + Z.of_nat k) -> forall n i,
  StronglySorted (fun e g : Z * Z * Q => snd (fst e) <= snd (fst g)) (flat_map (fun k => map (f k) ts) (seq i n)).
Proof.
  intros HF. assert (B : forall n i e, In e (flat_map (fun k => map (f k) ts) (seq i n)) -> s + Z.of_nat i <= snd (fst e)).
  { intros n i e H. apply in_flat_map in H. destruct H as (k & K & H). apply in_seq in K. apply in_map_iff in H.
    destruct H as (t & <- & _). rewrite HF. lia. }
  induction n as [|n IH]; intros i; cbn [seq flat_map]; [constructor|].
  specialize (B n (S i)). specialize (IH (S i)). revert B IH. generalize (flat_map (fun k => map (f k) ts) (seq (S i) n)) as rest.
  intros rest B IH. induction ts as [|t ts' IHt]; cbn [map app]; [exact IH|]. constructor; [exact IHt|].
  apply Forall_app. split; apply Forall_forall; intros e He.
  - apply in_map_iff in He. destruct He as (t' & <- & _). rewrite !HF. lia.
  - apply B in He. rewrite HF. lia.
Qed.
Theorem C61_runtime_distribution arrival speed : ordinary arrival -> arrival + 300 < 2 ^ 57 -> 1 <= speed < 65530 ->
  exists d ds es, runtime_distribution arrival speed = Ok d /\
    entries2 time_primary speed_primary d = Ok ds /\ walk speed_primary ds = Ok es /\
    forall x v q, mass2 6 x v (running_cases arrival speed) q -> (listed pair_eqb es (x, v) == q)%Q.
Proof.
  intros O B SP. unfold runtime_distribution. rewrite delays_eq, delay_prob_eq. unfold running_cases.
  replace (if speed <? 5 then speed else 5) with (Z.min speed 5) by (destruct (Z.ltb_spec speed 5); lia).
  set (w := Z.min speed 5) in *.
  assert (W : 1 <= w <= 5 /\ w <= speed) by (unfold w; lia).
  replace (w =? 0) with false by (symmetry; apply Z.eqb_neq; lia).
  replace (65535 <=? speed + w) with false by (symmetry; apply Z.leb_gt; lia). cbn [orb].
  rewrite (times_ok arrival O B five_minutes delays_ok). cbn [bind]. cbv zeta.
  match goal with |- context [inserts2 _ _ _ ?l] =>
    replace l with (flat_map (fun k => map (fun d => (arrival + d, speed - w + Z.of_nat k, (lateness d / inject_Z w * 2)%Q)) five_minutes)
                            (seq 0 (Z.to_nat (2 * w + 1)))) end.
  2:{ apply flat_map_ext. intros k. rewrite map_map. reflexivity. }
  apply C46_pairs_partial.
  - replace (Z.to_nat (2 * w + 1)) with (S (Z.to_nat (2 * w))) by lia. rewrite minutes_cons. discriminate.
  - intros h v p H. apply in_flat_map in H. destruct H as (k & K & H). apply in_seq in K. apply in_map_iff in H.
    destruct H as (d & [= <- <- <-] & H). apply delays_ok in H. unfold ordinary in *. lia.
  - replace (Z.to_nat (2 * w + 1)) with (S (Z.to_nat (2 * w))) by lia. cbn [seq flat_map].
    rewrite minutes_cons at 1. remember (map Z.of_nat (seq 1 299)) as later eqn:EL. cbn [map app fst first_least]. intros h x0 x H R0 R.
    assert (HB : arrival <= h).
    { apply in_map_iff in H. destruct H as (e & <- & H). apply in_app_or in H. destruct H as [H|H].
      - apply in_map_iff in H. destruct H as (d & <- & H). rewrite EL in H. apply in_map_iff in H. destruct H as (n & <- & _). cbn [fst]. lia.
      - apply in_flat_map in H. destruct H as (k & _ & H). apply in_map_iff in H. destruct H as (d & <- & H). apply delays_ok in H. cbn [fst]. lia. }
    destruct R0 as ((a & ->) & R0), R as ((b & ->) & R). lia.
  - apply sorted_slowest. apply (speeds_sorted _ (speed - w)). intros k t. reflexivity.
Qed.
Print Assumptions C61_runtime_distribution.
(* FINDING.  Here too one bucket alone gets more than one. *)
Theorem C61_runtime_probability_refuted arrival speed : ordinary arrival -> arrival + 300 < 2 ^ 57 -> 1 <= speed < 65530 ->
  exists d ds es x v, runtime_distribution arrival speed = Ok d /\
    entries2 time_primary speed_primary d = Ok ds /\ walk speed_primary ds = Ok es /\ ((6#5) <= listed pair_eqb es (x, v))%Q.
Proof.
  intros O B SP. destruct (C61_runtime_distribution arrival speed O B SP) as (d & ds & es & H1 & H2 & H3 & H4).
  destruct (C46_rounding arrival O) as (x & _ & RX). set (w := if speed <? 5 then speed else 5).
  assert (W : 1 <= w <= 5) by (unfold w; destruct (Z.ltb_spec speed 5); lia).
  exists d, ds, es, x, (speed - w). split; [exact H1|]. split; [exact H2|]. split; [exact H3|].
  destruct (C46_mass_defined x (speed - w) [] (running_cases arrival speed)) as (_ & q & M). rewrite (H4 _ _ _ M). clear H1 H2 H3 H4.
  assert (NN : forall e, In e (running_cases arrival speed) -> (0 <= snd e)%Q).
  { intros e H. apply in_flat_map in H. destruct H as (k & _ & H). apply in_map_iff in H. destruct H as (dl & <- & _). cbn [snd]. fold w.
    apply Qmult_le_0_compat; [|discriminate]. apply Qmult_le_0_compat; [apply lateness_nonneg|]. apply Qinv_le_0_compat.
    change 0%Q with (inject_Z 0). rewrite <- Zle_Qle. lia. }
  assert (PS : forall l q, (forall e, In e l -> (0 <= snd e)%Q) -> mass2 6 x (speed - w) l q -> (0 <= q)%Q).
  { induction l as [|a l IH]; intros q0 NL MQ; inversion MQ; subst; [lra| |apply IH; [intros; apply NL; right|]; assumption].
    pose proof (NL _ (or_introl eq_refl)) as Z0. cbn [snd] in Z0. assert (0 <= q1)%Q by (apply IH; [intros; apply NL; right|]; assumption). lra. }
  assert (EQ : exists rest, running_cases arrival speed = (arrival, speed - w, (lateness 0 / inject_Z w * 2)%Q) :: rest).
  { unfold running_cases. cbv zeta. fold w. replace (Z.to_nat (2 * w + 1)) with (S (Z.to_nat (2 * w))) by lia.
    cbn [seq flat_map]. rewrite minutes_cons. remember (map Z.of_nat (seq 1 299)) as later. cbn [map app]. eexists. f_equal. f_equal. f_equal; lia. }
  destruct EQ as (rest & EQ). rewrite EQ in *.
  inversion M as [|? ? ? q' R1 M1|? ? ? ? q' R1 M1]; subst; [|exfalso; apply R1; auto].
  apply PS in M1; [|intros e He; apply NN; right; exact He].
  assert (((6#5) <= lateness 0 / inject_Z w * 2)%Q).
  { rewrite lateness_0. assert (C : w = 1 \/ w = 2 \/ w = 3 \/ w = 4 \/ w = 5) by lia.
    destruct C as [-> |[-> |[-> |[-> | ->]]]]; discriminate. }
  lra.
Qed.
Print Assumptions C61_runtime_probability_refuted.
