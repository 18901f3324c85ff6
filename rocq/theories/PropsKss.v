(* C40 - C43, C57: reading a KSS timetable.

   Vocabulary: KssSpec.v (what a service adds, removes and mentions), digit and
   numeral from KssDates.v, duration from KssDur.v, runs / good_train from
   PropsBitfield.v, the C39 vocabulary of PropsTransform.v. *)
From Verif Require Import Base BitfieldModel BitfieldProofs TrainModel TrainProofs PropsBitfield TextModel AlgoModel RouteModel
  RouteProofs RouteSpec RouteIter RouteIndex PropsRoute TransformModel TransformProofs PropsTransform
  KssModel KssSpec KssDates KssDur KssServices KssTrains.
From Coq Require Import Ascii String List Permutation ZifyBool ZifyNat ZifyN.
Import ListNotations.
Open Scope Z_scope.

Definition txt (s : string) : list ascii := list_ascii_of_string s.
Definition mask (a b m : string) : service := Mask (txt a) (txt b) (txt m).
Definition special (t d : string) : service := Special (txt t) (txt d).

(* ---- C40: services ---- *)
(* A day is in the calendar exactly if the last service that speaks about it
   adds it. *)
Theorem C40_days : forall l b, parse_services l = Ok b ->
  PropsBitfield.built b /\ forall d, runs b d <-> last_adds l d.
Proof. exact services_days. Qed.
Print Assumptions C40_days.

(* The full property (added by some service and excluded by none, in any order)
   needs that no service adds a day which an earlier service excluded. *)
Theorem C40_union_minus_partial : forall l b, parse_services l = Ok b ->
  (forall l1 s l2 s' d, l = l1 ++ s :: l2 -> In s' l2 -> removes s d -> ~ adds s' d) ->
  forall d, runs b d <-> (exists s, In s l /\ adds s d) /\ ~ (exists s, In s l /\ removes s d).
Proof.
  intros l b E NR d. rewrite (proj2 (services_days l b E) d).
  assert (X : forall s, adds s d -> removes s d -> False).
  { intros [a z m|ty x] A R; [exact R|]. destruct A as [A _], R as [R _]. subst ty. discriminate. }
  split.
  - intros [l1 [s [l2 [-> [A R]]]]]. split; [exists s; split; [apply in_app_iff; right; now left|exact A]|].
    intros [s' [I R']]. apply in_app_iff in I as [I|[<-|I]].
    + apply in_split in I as [k1 [k2 ->]]. eapply (NR k1 s' (k2 ++ s :: l2) s d); auto.
      * now rewrite <- app_assoc.
      * apply in_app_iff. right. now left.
    + exact (X _ A R').
    + exact (R s' I R').
  - intros [[s [I A]] NX]. apply in_split in I as [l1 [l2 ->]]. exists l1, s, l2. split; [reflexivity|]. split; [exact A|].
    intros s' I R. apply NX. exists s'. split; [apply in_app_iff; right; now right|exact R].
Qed.
Print Assumptions C40_union_minus_partial.

(* Which service lists are accepted (debug build): the acceptable ones whose
   announced number of days is the number of days in the calendar. *)
Theorem C40_accepted : forall l ds, NoDup ds -> (forall d, In d ds <-> last_adds l d) ->
  (acceptable l -> tally l mod 2 ^ 64 = Z.of_nat (List.length ds) ->
     exists b, parse_services l = Ok b /\ forall d, runs b d <-> In d ds) /\
  (acceptable l -> tally l mod 2 ^ 64 <> Z.of_nat (List.length ds) -> parse_services l = Throw) /\
  (~ acceptable l -> forall b, parse_services l <> Ok b).
Proof.
  intros l ds ND H. split; [|split].
  - intros A T. destruct (proj1 (services_ok l ds A ND H) T) as [b [E [_ R]]]. eauto.
  - intros A T. exact (proj2 (services_ok l ds A ND H) T).
  - intros NA b E. exact (NA (services_inv l b E)).
Qed.
Print Assumptions C40_accepted.

(* two masks, an exclude of a set day, an include beyond the masks *)
Definition ex40 : list service :=
  [mask "2022-11-19" "2022-11-21" "110"; mask "2022-11-25" "2022-11-25" "1";
   special "exclude" "2022-11-20"; special "include" "2022-11-28"; special "other" "2022-12-01"].
Example ex_C40 : (do b <- parse_services ex40; bf_get_set_days b) = Ok [19315; 19321; 19324].
Proof. vm_compute. reflexivity. Qed.
Example ex_C40_no_readd : forall l1 s l2 s' d, ex40 = l1 ++ s :: l2 -> In s' l2 -> removes s d -> ~ adds s' d.
Proof.
  intros l1 s l2 s' d E I R A.
  repeat (destruct l1 as [|? l1]; cbn in E; [injection E as <- <-|injection E as <- E]);
    try (destruct R as [R _]; discriminate R); try destruct R; try (destruct l1; discriminate).
  destruct I as [<-|[<-|[]]]; [|destruct A as [A _]; discriminate A].
  destruct A as [_ A]. vm_compute in H0, A. congruence.
Qed.

(* An excluded day comes back when a later mask contains it; with the services
   in another order the same train is rejected. *)
Theorem C40_exclusion_overruled_refuted : exists l l' b d,
  Permutation l l' /\ parse_services l = Ok b /\ (exists s, In s l /\ removes s d) /\ runs b d /\
  parse_services l' = Throw.
Proof.
  set (m1 := mask "2022-11-19" "2022-11-20" "11"). set (m2 := mask "2022-11-19" "2022-11-19" "1").
  set (x := special "exclude" "2022-11-19").
  exists [m1; x; m2], [m1; m2; x]. eexists. exists 19315.
  split; [apply perm_skip, perm_swap|]. split; [vm_compute; reflexivity|].
  split; [exists x; split; [right; now left|split; vm_compute; reflexivity]|].
  split; vm_compute; reflexivity.
Qed.
Print Assumptions C40_exclusion_overruled_refuted.

(* A day that two masks (or a mask and an include) both contain is announced
   twice: the train is rejected although the union is well defined. *)
Theorem C40_overlap_refuted :
  acceptable [mask "2022-11-19" "2022-11-20" "11"; mask "2022-11-20" "2022-11-21" "11"] /\
  parse_services [mask "2022-11-19" "2022-11-20" "11"; mask "2022-11-20" "2022-11-21" "11"] = Throw.
Proof.
  split; [|vm_compute; reflexivity]. split; [unfold mask; eauto 6|]. split.
  - intros s [<-|[<-|[]]]; [exists 19315, 19316|exists 19316, 19317]; vm_compute; repeat split; congruence.
  - assert (M : forall s d, In s [mask "2022-11-19" "2022-11-20" "11"; mask "2022-11-20" "2022-11-21" "11"] ->
       mentions s d -> 19315 <= d <= 19317).
    { intros s d [<-|[<-|[]]] [H|H]; vm_compute in H; injection H as <-; lia. }
    intros s s' d e I I' H H'. apply M in H; [|exact I]. apply M in H'; [|exact I']. lia.
Qed.
Print Assumptions C40_overlap_refuted.

(* ---- C41: dates, times, durations ---- *)
(* the calendar rules *)
Definition is_leap (y : Z) : Prop := (4 | y) /\ (~ (100 | y) \/ (400 | y)).
Inductive month_length (y : Z) : Z -> Z -> Prop :=
| ml_31 m : In m [1; 3; 5; 7; 8; 10; 12] -> month_length y m 31
| ml_30 m : In m [4; 6; 9; 11] -> month_length y m 30
| ml_28 : ~ is_leap y -> month_length y 2 28
| ml_29 : is_leap y -> month_length y 2 29.
Definition valid_date (y m d : Z) : Prop := exists k, month_length y m k /\ 1 <= d <= k.

Lemma leap_spec y : leap y = true <-> is_leap y.
Proof.
  unfold leap, is_leap. rewrite andb_true_iff, orb_true_iff, negb_true_iff, !Z.eqb_eq, Z.eqb_neq.
  rewrite !Z.mod_divide by lia. reflexivity.
Qed.
Lemma month_length_spec y m k : month_length y m k <-> 1 <= m <= 12 /\ k = month_days y m.
Proof.
  split.
  - intros [m0 I|m0 I|N|L].
    + cbn in I. repeat (destruct I as [<-|I]); try destruct I; (split; [lia|reflexivity]).
    + cbn in I. repeat (destruct I as [<-|I]); try destruct I; (split; [lia|reflexivity]).
    + split; [lia|]. unfold month_days. cbn. destruct (leap y) eqn:E; [apply leap_spec in E; contradiction|reflexivity].
    + split; [lia|]. unfold month_days. cbn. apply leap_spec in L. now rewrite L.
  - intros [R ->].
    assert (C : m = 1 \/ m = 2 \/ m = 3 \/ m = 4 \/ m = 5 \/ m = 6 \/ m = 7 \/ m = 8 \/ m = 9 \/ m = 10 \/ m = 11 \/ m = 12) by lia.
    repeat (destruct C as [->|C]); [..|subst m]; unfold month_days; cbn;
      try (apply ml_31; cbn; tauto); try (apply ml_30; cbn; tauto).
    destruct (leap y) eqn:E; [apply ml_29, leap_spec, E|apply ml_28]. intros L. apply leap_spec in L. congruence.
Qed.
Lemma date_okb_spec y m d : date_okb y m d = true <-> valid_date y m d.
Proof.
  unfold valid_date, date_okb. split.
  - intros H. exists (month_days y m). rewrite month_length_spec. lia.
  - intros [k [H D]]. apply month_length_spec in H. lia.
Qed.

(* A date is read exactly if it has ten characters with a four character year,
   two digit month and day at their places, and is a date of the calendar. *)
Theorem C41_date : forall s r, parse_date s = Ok r <->
  exists y m d y1 y2 y3 y4 c1 m1 m2 c2 d1 d2,
    s = [y1; y2; y3; y4; c1; m1; m2; c2; d1; d2] /\
    signed_numeral [y1; y2; y3; y4] y /\ numeral [m1; m2] m /\ numeral [d1; d2] d /\
    valid_date y m d /\ r = days_from_civil y m d.
Proof.
  intros s r. rewrite parse_date_ok. split; intros [y [m [d [y1 [y2 [y3 [y4 [c1 [m1 [m2 [c2 [d1 [d2 H]]]]]]]]]]]]];
    exists y, m, d, y1, y2, y3, y4, c1, m1, m2, c2, d1, d2; rewrite date_okb_spec in *; exact H.
Qed.
Print Assumptions C41_date.

(* The day numbers: 1970-01-01 is day 0, consecutive dates have consecutive
   numbers, later dates larger numbers. *)
Theorem C41_day_numbers :
  days_from_civil 1970 1 1 = 0 /\
  (forall y m d, valid_date y m (d + 1) -> 1 <= d -> days_from_civil y m (d + 1) = days_from_civil y m d + 1) /\
  (forall y m k, month_length y m k -> m < 12 -> days_from_civil y (m + 1) 1 = days_from_civil y m k + 1) /\
  (forall y, days_from_civil (y + 1) 1 1 = days_from_civil y 12 31 + 1) /\
  (forall y m d y' m' d', valid_date y m d -> valid_date y' m' d' -> date_lt (y, m, d) (y', m', d') ->
     days_from_civil y m d < days_from_civil y' m' d').
Proof.
  split; [reflexivity|]. split; [|split; [|split]].
  - intros y m d [k [M L]] D. apply month_length_spec in M as [M ->].
    assert (N := civil_next y m d). unfold next_day in N. destruct (Z.ltb_spec d (month_days y m)); [|lia].
    apply N. unfold date_okb. lia.
  - intros y m k M L. apply month_length_spec in M as [M ->]. assert (N := civil_next y m (month_days y m)).
    unfold next_day in N. rewrite Z.ltb_irrefl in N. replace (m <? 12) with true in N by lia. apply N.
    apply date_okb_spec. exists (month_days y m). split; [now apply month_length_spec|].
    unfold month_days. destruct (m =? 2), (leap y), ((m =? 4) || (m =? 6) || (m =? 9) || (m =? 11)); lia.
  - intros y. assert (N := civil_next y 12 31). unfold next_day in N. cbn in N. apply N. reflexivity.
  - intros y m d y' m' d' V V' L. apply date_okb_spec in V, V'. now apply (civil_lt y m d y' m' d').
Qed.
Print Assumptions C41_day_numbers.
Example ex_C41_date : parse_date (txt "2022-11-19") = Ok 19315 /\ parse_date (txt "2024-02-29") = Ok 19782 /\
  parse_date (txt "2023-02-29") = Throw /\ parse_date (txt "1900-02-29") = Throw.
Proof. vm_compute. auto. Qed.

(* A time is read exactly if it has eleven characters with two digit hours,
   minutes and seconds at their places; the result is the number of seconds,
   one day more with a night leap. Every other string is rejected. *)
Theorem C41_time_offset : forall s night r, parse_time_offset s night = Ok r <->
  exists h m sec h1 h2 c1 m1 m2 c2 s1 s2 t1 t2 t3,
    s = [h1; h2; c1; m1; m2; c2; s1; s2; t1; t2; t3] /\
    numeral [h1; h2] h /\ numeral [m1; m2] m /\ numeral [s1; s2] sec /\
    Z.of_N r = 3600 * h + 60 * m + sec + (if night then 86400 else 0).
Proof. exact time_offset_ok. Qed.
Print Assumptions C41_time_offset.
Theorem C41_rejects : forall s night,
  ((exists r, parse_time_offset s night = Ok r) \/ parse_time_offset s night = Throw) /\
  ((exists r, parse_date s = Ok r) \/ parse_date s = Throw).
Proof. intros s night. split; [apply time_offset_total|apply parse_date_total]. Qed.
Print Assumptions C41_rejects.
Example ex_C41_time : parse_time_offset (txt "23:59:07.00") false = Ok 86347%N /\
  parse_time_offset (txt "00:10:00.00") true = Ok 87000%N /\ parse_time_offset (txt "0:10:00.00") true = Throw.
Proof. vm_compute. auto. Qed.
(* Nothing checks the separators or the ranges of minutes and seconds. *)
Theorem C41_time_unchecked_refuted : parse_time_offset (txt "99x99y99 zz") false = Ok 362439%N.
Proof. vm_compute. reflexivity. Qed.
Print Assumptions C41_time_unchecked_refuted.

(* A duration: PT, then numbers with the units H, M, S. *)
Theorem C41_duration : forall s r, parse_duration s = Ok r <->
  exists s' t, s = "P"%char :: "T"%char :: s' /\ duration s' t /\ Z.of_N r = t mod 2 ^ 32.
Proof.
  intros s r. split.
  - intros E. destruct s as [|p [|q s']]; try discriminate. cbn [parse_duration] in E.
    destruct (Ascii.eqb_spec p "P"%char) as [->|]; [|discriminate].
    destruct (Ascii.eqb_spec q "T"%char) as [->|]; [|discriminate]. cbn [sassert bind] in E.
    apply dur_loop_ok in E as [t [D R]]; [|reflexivity]. exists s', t. auto.
  - intros [s' [t [-> [D R]]]]. cbn [parse_duration Ascii.eqb Bool.eqb sassert bind].
    destruct (dur_loop_complete s' t D (List.length s') 0%N) as [r' [E R']]; [lia|reflexivity|].
    rewrite E. f_equal. rewrite Z.add_0_l in R'. lia.
Qed.
Print Assumptions C41_duration.
Lemma two_numeral a b x y : digit a x -> digit b y -> numeral [a; b] (10 * x + y).
Proof. intros H K. apply (num_snoc [a]); [constructor; exact H|exact K]. Qed.
Example ex_C41_duration : parse_duration (txt "PT15M54.99S") = Ok 955%N /\ parse_duration (txt "PT") = Ok 0%N /\
  parse_duration (txt "PT1H2M3S") = Ok 3723%N /\ parse_duration (txt "PT.5S") = Ok 1%N.
Proof. vm_compute. auto. Qed.
Example ex_C41_duration_spec : duration (txt "15M54.99S") 955.
Proof.
  change (duration (["1"; "5"]%char ++ "M"%char :: (["5"; "4"; "."; "9"; "9"]%char ++ ["S"%char])) (60 * 15 + (55 + 0))).
  apply dur_M; [apply (two_numeral _ _ 1 5); split; [lia|reflexivity|lia|reflexivity]|lia|].
  apply dur_S; [|lia|constructor]. right. exists ["5"; "4"]%char, ["9"; "9"]%char, 5499. split; [reflexivity|].
  split; [|cbn; lia].
  apply (num_snoc ["5"; "4"; "9"]%char 549 _ 9); [|split; [lia|reflexivity]].
  apply (num_snoc ["5"; "4"]%char 54 _ 9); [|split; [lia|reflexivity]].
  apply (two_numeral _ _ 5 4); split; [lia|reflexivity|lia|reflexivity].
Qed.

(* A duration whose last number has no unit is read past the end of the string. *)
Theorem C41_duration_truncated_refuted : forall s t n, duration s t -> n <> [] -> no_capital n ->
  parse_duration ("P"%char :: "T"%char :: s ++ n) = UB.
Proof.
  intros s t n D NE NC. cbn [parse_duration Ascii.eqb Bool.eqb sassert bind].
  apply (dur_loop_truncated s t n D NE NC); [|reflexivity]. rewrite app_length. destruct n; [congruence|cbn; lia].
Qed.
Print Assumptions C41_duration_truncated_refuted.
Example ex_C41_truncated : parse_duration (txt "PT5M30") = UB.
Proof. vm_compute. reflexivity. Qed.
(* Units other than H, M and S are skipped: one day counts as nothing. *)
Theorem C41_unit_ignored_refuted : parse_duration (txt "PT1D") = Ok 0%N.
Proof. vm_compute. reflexivity. Qed.
Print Assumptions C41_unit_ignored_refuted.

(* ---- C42: ids and interval ---- *)
Theorem C42_ids : forall l, (N.of_nat (List.length l) <= 2 ^ 32)%N ->
  List.length (set_ids l) = List.length l /\
  forall i t, nth_error (set_ids l) i = Some t ->
    tr_id t = N.of_nat i /\ exists t0, nth_error l i = Some t0 /\ tr_days t = tr_days t0 /\
      tr_first_departure t = tr_first_departure t0 /\ tr_last_arrival t = tr_last_arrival t0.
Proof.
  intros l L. split.
  - unfold set_ids. rewrite map_length, combine_length, seq_length. lia.
  - intros i t E. rewrite set_ids_nth in E. destruct (nth_error l i) as [t0|] eqn:E0; [|discriminate].
    injection E as <-. cbn. split; [|eauto].
    assert (i < List.length l)%nat by (apply nth_error_Some; congruence).
    unfold w32, M32. apply N.mod_small. lia.
Qed.
Print Assumptions C42_ids.

(* The interval contains every trip of every train and is tight, provided that
   every train has a service day and all times are representable. *)
Definition has_day (t : train) : Prop := exists d, runs (tr_days t) d.
Theorem C42_interval_partial : forall l,
  (forall t, In t l -> good_train t /\ in_epoch t /\ has_day t) ->
  exists iv, get_interval l = Ok iv /\
    (forall t d, In t l -> runs (tr_days t) d ->
       Z.of_N (iv_start iv) <= d * 86400 + Z.of_N (tr_first_departure t) /\
       d * 86400 + Z.of_N (tr_last_arrival t) <= Z.of_N (iv_end iv)) /\
    (l <> [] -> exists t d, In t l /\ runs (tr_days t) d /\
       Z.of_N (iv_start iv) = d * 86400 + Z.of_N (tr_first_departure t)) /\
    (l <> [] -> exists t d, In t l /\ runs (tr_days t) d /\
       Z.of_N (iv_end iv) = d * 86400 + Z.of_N (tr_last_arrival t)) /\
    (l = [] -> iv = mkint 4294967295 0).
Proof.
  intros l H.
  assert (X : exists ds as_, Forall2 (fun t d => first_absolute_departure t = Ok d) l ds /\
     Forall2 (fun t a => last_absolute_arrival t = Ok a) l as_ /\
     (forall x, In x ds -> exists t d, In t l /\ runs (tr_days t) d /\ Z.of_N x = d * 86400 + Z.of_N (tr_first_departure t)) /\
     (forall x, In x as_ -> exists t d, In t l /\ runs (tr_days t) d /\ Z.of_N x = d * 86400 + Z.of_N (tr_last_arrival t)) /\
     (forall t d, In t l -> runs (tr_days t) d -> exists x y, In x ds /\ In y as_ /\
        Z.of_N x <= d * 86400 + Z.of_N (tr_first_departure t) /\ d * 86400 + Z.of_N (tr_last_arrival t) <= Z.of_N y) /\
     (forall x, In x ds -> (x < 4294967296)%N)).
  { induction l as [|t l IH].
    - exists [], []. split; [constructor|]. split; [constructor|]. split; [intros ? []|]. split; [intros ? []|].
      split; [intros ? ? []|intros ? []].
    - destruct IH as [ds [as_ [D [A [P [Q [R S]]]]]]]; [intros; apply H; now right|].
      destruct (H t (or_introl eq_refl)) as [G [W [d0 R0]]].
      destruct (C15_first_departure_last_arrival t d0 G W R0) as [lo [hi [L1 [L2 [L3 [E1 E2]]]]]].
      assert (LO : 0 <= lo /\ hi <= bf_last (tr_days t) /\ lo <= hi /\ 0 <= hi).
      { assert (K := built_ok _ (proj1 G)). destruct G as [_ [G1 _]].
        assert (M1 := proj1 (at_true _ _ K) L1). assert (M2 := proj1 (at_true _ _ K) L2).
        apply (mem_range _ _ K) in M1, M2. assert (Y := L3 _ L2). lia. }
      unfold in_epoch in W.
      eexists (_ :: ds), (_ :: as_). split; [constructor; [exact E1|exact D]|]. split; [constructor; [exact E2|exact A]|].
      split; [|split; [|split]].
      + intros x [<-|I]; [exists t, lo; split; [now left|]; split; [exact L1|lia]|].
        destruct (P x I) as [t' [d' [I' Y]]]. exists t', d'. split; [now right|exact Y].
      + intros x [<-|I]; [exists t, hi; split; [now left|]; split; [exact L2|lia]|].
        destruct (Q x I) as [t' [d' [I' Y]]]. exists t', d'. split; [now right|exact Y].
      + intros t' d' [<-|I] R'.
        * eexists _, _. split; [now left|]. split; [now left|]. assert (Y := L3 _ R'). lia.
        * destruct (R t' d' I R') as [x [y [I1 [I2 Y]]]]. exists x, y. split; [now right|]. split; [now right|exact Y].
      + intros x [<-|I]; [lia|auto]. }
  destruct X as [ds [as_ [D [A [P [Q [R S]]]]]]].
  destruct (interval_fold l (mkint 4294967295 0) ds as_ D A) as [iv [E [B [B1 [B2 [U V]]]]]].
  exists iv. split; [exact E|]. cbn [iv_start iv_end] in *. split; [|split; [|split]].
  - intros t d I RN. destruct (R t d I RN) as [x [y [I1 [I2 Y]]]]. apply B1 in I1. apply B2 in I2. lia.
  - intros NE. destruct l as [|t l]; [congruence|]. inversion D as [|? x ? ds' Ex Dl]; subst.
    apply P. destruct U as [U|U]; [|exact U].
    left. assert (x < 4294967296)%N by (apply S; now left). assert (iv_start iv <= x)%N by (apply B1; now left). lia.
  - intros NE. destruct l as [|t l]; [congruence|]. inversion A as [|? x ? as' Ex Al]; subst.
    apply Q. destruct V as [V|V]; [|exact V].
    left. assert (x <= iv_end iv)%N by (apply B2; now left). lia.
  - intros ->. cbn in E. congruence.
Qed.
Print Assumptions C42_interval_partial.
(* The same, seen from the points of the imported trains: no train departs from its first point
   before the interval, none arrives at its last one after it, and the ends are reached. *)
Theorem C42_points_partial : forall ks ts, Forall2 (fun k t => calendar_part k = Ok t) ks ts ->
  (forall t, In t ts -> good_train t /\ in_epoch t /\ has_day t) -> ks <> [] ->
  exists iv, get_interval ts = Ok iv /\
    (forall k f b d, In k ks -> runs (kt_days k) d -> hd_error (kt_points k) = Some f -> hd_error (rev (kt_points k)) = Some b ->
       Z.of_N (iv_start iv) <= d * 86400 + Z.of_N (sp_departure f) /\ d * 86400 + Z.of_N (sp_arrival b) <= Z.of_N (iv_end iv)) /\
    (exists k f d, In k ks /\ runs (kt_days k) d /\ hd_error (kt_points k) = Some f /\
       Z.of_N (iv_start iv) = d * 86400 + Z.of_N (sp_departure f)) /\
    (exists k b d, In k ks /\ runs (kt_days k) d /\ hd_error (rev (kt_points k)) = Some b /\
       Z.of_N (iv_end iv) = d * 86400 + Z.of_N (sp_arrival b)).
Proof.
  intros ks ts F H NE. destruct (C42_interval_partial ts H) as [iv [E [B [LO [HI _]]]]].
  assert (PART : forall k t, calendar_part k = Ok t -> tr_days t = kt_days k /\
     exists f b, hd_error (kt_points k) = Some f /\ hd_error (rev (kt_points k)) = Some b /\
       tr_first_departure t = sp_departure f /\ tr_last_arrival t = sp_arrival b).
  { intros k t C. unfold calendar_part in C. destruct (kt_points k) as [|f ps]; [discriminate|].
    destruct (rev (f :: ps)) as [|b qs]; [discriminate|]. injection C as <-. cbn. eauto 8. }
  assert (TO : forall k, In k ks -> exists t, In t ts /\ calendar_part k = Ok t).
  { clear - F. induction F as [|k t ks ts C F IH]; intros x I; [destruct I|]. destruct I as [<-|I]; [exists t; split; [left; reflexivity|exact C]|].
    destruct (IH x I) as (u & Iu & Cu). exists u. split; [right; exact Iu|exact Cu]. }
  assert (OF : forall t, In t ts -> exists k, In k ks /\ calendar_part k = Ok t).
  { clear - F. induction F as [|k t ks ts C F IH]; intros x I; [destruct I|]. destruct I as [<-|I]; [exists k; split; [left; reflexivity|exact C]|].
    destruct (IH x I) as (u & Iu & Cu). exists u. split; [right; exact Iu|exact Cu]. }
  assert (NT : ts <> []) by (intros ->; inversion F; congruence).
  exists iv. split; [exact E|]. split; [|split].
  - intros k f b d I R Hf Hb. destruct (TO k I) as (t & It & C). destruct (PART k t C) as (D & f' & b' & Hf' & Hb' & P1 & P2).
    rewrite Hf in Hf'. rewrite Hb in Hb'. injection Hf' as <-. injection Hb' as <-. rewrite <- P1, <- P2. apply (B t d It). rewrite D. exact R.
  - destruct (LO NT) as (t & d & It & R & EQ). destruct (OF t It) as (k & Ik & C). destruct (PART k t C) as (D & f & b & Hf & _ & P1 & _).
    exists k, f, d. rewrite <- D, <- P1. auto.
  - destruct (HI NT) as (t & d & It & R & EQ). destruct (OF t It) as (k & Ik & C). destruct (PART k t C) as (D & f & b & _ & Hb & _ & P2).
    exists k, b, d. rewrite <- D, <- P2. auto.
Qed.
Print Assumptions C42_points_partial.
Example ex_C42 : (forall t, In t [ex_train] -> good_train t /\ in_epoch t /\ has_day t) /\
  get_interval [ex_train] = Ok (mkint (18993 * 86400 + 79200) (18995 * 86400 + 108000)).
Proof.
  split; [|vm_compute; reflexivity]. intros t [<-|[]]. destruct ex_train_good as [A B].
  split; [exact A|]. split; [exact B|]. exists 18993. vm_compute. reflexivity.
Qed.
Example ex_C42_points : exists k t, calendar_part k = Ok t /\ length (kt_points k) = 2%nat /\ good_train t /\ in_epoch t /\ has_day t /\
  get_interval [t] = Ok (mkint (18993 * 86400 + 79200) (18995 * 86400 + 108000)).
Proof.
  exists (mkkt (4711, 1)%N (tr_days ex_train) true false false false [0]%N [mkpt PASSENGER 79000 79200 0 0; mkpt PASSENGER 108000 108500 0 1]).
  eexists. split; [reflexivity|]. split; [reflexivity|]. destruct ex_train_good as [A B].
  split; [exact A|]. split; [exact B|]. split; [exists 18993; vm_compute; reflexivity|vm_compute; reflexivity].
Qed.
(* A train whose services have no day is accepted, but then the whole timetable
   has no interval. *)
Theorem C42_empty_calendar_refuted : exists b, parse_services [mask "2022-11-19" "2022-11-20" "00"] = Ok b /\
  forall l l' id dep arr, (forall t, In t l -> good_train t /\ in_epoch t /\ has_day t) ->
    get_interval (l ++ mktrain id b dep arr :: l') = Throw.
Proof.
  eexists. split; [vm_compute; reflexivity|]. intros l l' id dep arr H.
  destruct (C42_interval_partial l H) as [iv [E _]].
  unfold get_interval in *. rewrite fold_left_app, E. cbn [fold_left bind].
  unfold first_absolute_departure, bf_first_set_date. cbn [tr_days bf_bits sassert bind negb N.eqb].
  induction l' as [|t l' IH]; [reflexivity|exact IH].
Qed.
Print Assumptions C42_empty_calendar_refuted.

(* ---- C43: files in parallel ---- *)
(* Whatever the interleaving of the workers' steps, the trains come file by file
   in the order of the files, each file's trains in file order, and each error
   is counted as often as a train failed with it. *)
Definition parsed := list (kss_error + list ktrain).
Definition succeeded (r : kss_error + list ktrain) : list ktrain := match r with inl _ => [] | inr ts => ts end.
Definition fails_with (e : kss_error) (r : kss_error + list ktrain) : bool :=
  match r with inl e' => if kss_error_dec e e' then true else false | inr _ => false end.
Definition is_failure (r : kss_error + list ktrain) : bool := match r with inl _ => true | inr _ => false end.

Lemma file_result_eq rs : file_result rs = concat (map succeeded rs).
Proof. induction rs as [|[e|ts] rs IH]; cbn; [reflexivity|exact IH|now rewrite IH]. Qed.

Theorem C43_schedule_independent : forall (files : list parsed) tr,
  interleaves (map (fun x => file_steps (fst x) (snd x)) (combine (seq 0 (List.length files)) files)) tr ->
  let final := run_steps tr (initial (List.length files)) in
  collect final = concat (map succeeded (concat files)) /\
  forall e, sh_errors final e = N.of_nat (List.length (filter (fails_with e) (concat files))).
Proof.
  intros files tr H. cbv zeta. split.
  - assert (PR := parallel_results files tr H). unfold collect, parsed in *. rewrite PR. clear H PR tr.
    induction files as [|rs files IH]; cbn [map concat]; [reflexivity|].
    rewrite map_app, concat_app, IH, file_result_eq. reflexivity.
  - intros e. exact (parallel_errors files tr e H).
Qed.
Print Assumptions C43_schedule_independent.

(* every train is either counted under exactly one error or its construction
   trains are in the timetable *)
Theorem C43_counts : forall (files : list parsed) tr es,
  interleaves (map (fun x => file_steps (fst x) (snd x)) (combine (seq 0 (List.length files)) files)) tr ->
  NoDup es -> (forall e, In (inl e) (concat files) -> In e es) ->
  (fold_right (fun e n => sh_errors (run_steps tr (initial (List.length files))) e + n)%N 0%N es
   + N.of_nat (List.length (filter (fun r => negb (is_failure r)) (concat files)))
   = N.of_nat (List.length (concat files)))%N.
Proof.
  intros files tr es H ND C.
  assert (E : forall e, sh_errors (run_steps tr (initial (List.length files))) e = N.of_nat (List.length (filter (fails_with e) (concat files))))
    by (intros e; exact (proj2 (C43_schedule_independent files tr H) e)).
  revert C. generalize (sh_errors (run_steps tr (initial (List.length files)))) as f, (concat files) as l, E.
  clear H. clear E. intros f l E.
  assert (S : fold_right (fun e n => f e + n)%N 0%N es =
              fold_right (fun e n => N.of_nat (List.length (filter (fails_with e) l)) + n)%N 0%N es).
  { clear ND. induction es as [|e es IH]; cbn; [reflexivity|]. now rewrite E, IH. }
  rewrite S. clear S E f. intros C. induction l as [|r l IH].
  - cbn. clear. induction es; cbn; auto.
  - assert (IHl := IH (fun e I => C e (or_intror I))). cbn [filter List.length]. destruct r as [e0|ts].
    + assert (I0 : In e0 es) by (apply C; now left).
      assert (S : fold_right (fun e n => N.of_nat (List.length (if fails_with e (inl e0) then inl e0 :: filter (fails_with e) l else filter (fails_with e) l)) + n)%N 0%N es
         = (1 + fold_right (fun e n => N.of_nat (List.length (filter (fails_with e) l)) + n)%N 0%N es)%N).
      { clear - ND I0. induction es as [|e es IH]; [destruct I0|]. cbn [fold_right].
        inversion ND as [|? ? N1 N2]; subst. cbn [fails_with]. destruct (kss_error_dec e e0) as [->|NE].
        - match goal with |- (_ + ?a = 1 + (_ + ?b))%N => assert (T : a = b) end.
          { clear - N1. induction es as [|e es IH]; [reflexivity|]. cbn [fold_right fails_with].
            destruct (kss_error_dec e e0) as [->|NE]; [destruct N1; now left|]. rewrite IH; [reflexivity|].
            intros I. apply N1. now right. }
          rewrite T. cbn [List.length]. lia.
        - destruct I0 as [I0|I0]; [congruence|]. cbn [fails_with] in IH. rewrite IH by assumption. lia. }
      cbn [negb is_failure]. rewrite S. lia.
    + cbn [negb is_failure List.length].
      assert (S : fold_right (fun e n => N.of_nat (List.length (if fails_with e (inr ts) then inr ts :: filter (fails_with e) l else filter (fails_with e) l)) + n)%N 0%N es
         = fold_right (fun e n => N.of_nat (List.length (filter (fails_with e) l)) + n)%N 0%N es) by reflexivity.
      rewrite S. lia.
Qed.
Print Assumptions C43_counts.
(* interleavings exist: one file after the other is one *)
Example ex_C43 : let files : list parsed := [[inl WORKED_ON_TRAIN; inr []]; [inl CTC_NOT_SUPPORTED]] in
  interleaves (map (fun x => file_steps (fst x) (snd x)) (combine (seq 0 (List.length files)) files))
    [Count CTC_NOT_SUPPORTED; Count WORKED_ON_TRAIN; Store 1 []; Store 0 []] /\
  forall fs : list parsed, exists tr, interleaves (map (fun x => file_steps (fst x) (snd x)) (combine (seq 0 (List.length fs)) fs)) tr.
Proof.
  split.
  - cbn. apply (il_step [[Count WORKED_ON_TRAIN; Store 0 []]] _ [Store 1 []] []).
    apply (il_step [] _ [Store 0 []] [[Store 1 []]]). apply (il_step [[Store 0 []]] _ [] []).
    apply (il_step [] _ [] [[]]). constructor. repeat constructor.
  - intros fs. eexists. apply interleaves_seq.
Qed.

(* ---- C57: what enters the timetable ---- *)
(* the infrastructure as the parser sees it *)
Definition infra_of stations srs checkpoint (il : interlocking) : kinfra :=
  mkki stations srs checkpoint (il_routes il) (il_part il) (il_start il) (il_halt il).

(* A construction train enters the timetable only if its points name known
   stations and station routes, it is not CTC controlled, it halts at both ends,
   does not break in or out, and every halt and transit time has a place on its
   station route. Its calendar is that of its services, its path is a connected
   run of interlocking routes starting on its first station route, and its
   sequence points are its points that are measured. *)
Theorem C57_supported : forall stations srs checkpoint n il fuel x t,
  let inf := infra_of stations srs checkpoint il in
  PropsTransform.built srs n il ->
  parse_construction_train fuel inf x = Ok (inr t) ->
  exists ps, Forall2 (point_of inf) (xt_points x) ps /\
    xt_physics x = inr (kt_freight t, false) /\ kt_ctc t = false /\
    kt_break_in t = false /\ kt_break_out t = false /\
    xt_breakin x <> txt "true" /\ xt_breakout x <> txt "true" /\
    supported srs checkpoint (kt_freight t) (mkss ps false false) /\
    parse_services (xt_services x) = Ok (kt_days t) /\
    (exists m s, numeral (xt_main x) m /\ numeral (xt_sub x) s /\ kt_number t = (Z.to_N m, Z.to_N s) /\ s <= 65535) /\
    (exists r0 rs, routes_of il (kt_path t) (r0 :: rs) /\ consecutive (meets srs) (r0 :: rs) /\
       exists s, nth_error (map sp_sr ps) 0 = Some s /\ In s (ir_srs r0)) /\
    (forall p, In p (kt_points t) -> In p ps) /\
    List.length (kt_points t) = List.length (filter (fun p => sp_halt p || sp_timed p) ps).
Proof.
  intros stations srs cp n il fuel x t inf B E. unfold parse_construction_train in E.
  apply bind_Ok in E as [m [E1 E]]. apply bind_Ok in E as [s [E2 E]]. apply bind_Ok in E as [days [E3 E]].
  apply bind_Ok in E as [sq [E4 E]]. destruct sq as [e|ss]; [discriminate|].
  destruct (xt_physics x) as [e|[fr ctc]] eqn:PH; [discriminate|].
  apply bind_Ok in E as [sup [E5 E]]. destruct sup as [e|]; [discriminate|].
  apply bind_Ok in E as [tr [E6 E]]. destruct tr as [e|[path pts]]; [discriminate|]. injection E as <-.
  unfold parse_sequence in E4. apply bind_Ok in E4 as [r [E4 E4']]. destruct r as [e|ps]; [discriminate|].
  injection E4' as <-. apply parse_points_ok in E4 as [F2 CK].
  unfold is_supported in E5. cbn [ss_points ss_break_in ss_break_out] in E5.
  destruct ctc; [discriminate|]. destruct (Nat.ltb_spec (List.length ps) 2) as [|L2]; [discriminate|].
  destruct (str_eqb (xt_breakin x) s_true) eqn:BI; [discriminate|].
  destruct (str_eqb (xt_breakout x) s_true) eqn:BO; [discriminate|].
  destruct ps as [|f ps']; [discriminate|]. remember (f :: ps') as ps. destruct (rev ps) as [|b rps] eqn:RV; [discriminate|].
  destruct (sp_halt f) eqn:HF; [|discriminate]. destruct (sp_halt b) eqn:HB; [|discriminate]. cbn [negb] in E5.
  assert (PS := points_supported_ok inf fr ps E5).
  apply str_eqb_false in BI, BO.
  apply parse_unsigned in E1 as [E1 _]. apply parse_unsigned in E2 as [E2 E2'].
  exists ps. cbn [kt_freight kt_ctc kt_break_in kt_break_out kt_days kt_number kt_path kt_points ss_break_in ss_break_out].
  split; [exact F2|]. repeat (split; [reflexivity|]). split; [exact BI|]. split; [exact BO|]. split.
  { split; [exact L2|]. split; [reflexivity|]. split; [reflexivity|].
    cbn [ss_points]. split; [subst ps; intros p [= <-]; exact HF|].
    split; [rewrite RV; intros p [= <-]; exact HB|].
    intros p I HT. destruct (PS p I) as [sr [S1 S2]]. cbn [ki_srs inf infra_of] in S1.
    unfold position. destruct (sp_halt p) eqn:HP.
    - unfold sr_of. rewrite S1. destruct (S2 eq_refl) as [i Hi]. unfold halt_idx in Hi. destruct fr; congruence.
    - cbn [orb] in HT. rewrite HT. destruct (CK p I) as [i Hi]; [unfold has_transit_time; now rewrite HP, HT|].
      cbn [ki_checkpoint inf infra_of] in Hi. congruence. }
  split; [exact E3|]. split; [eauto 6|].
  change (transform srs cp il fr fuel (mkss ps false false) = Ok (inr (path, pts))) in E6.
  split.
  - destruct (C39_connected srs cp n il fr fuel _ path pts B E6) as [r0 [rs [P1 [P2 [P3 [s0 [P4 [P5 _]]]]]]]].
    exists r0, rs. split; [exact P1|]. split; [exact P2|]. exists s0. auto.
  - destruct (built_tables _ _ _ B) as [PA ST].
    apply transform_ok in E6; [|exact (proj1 B)|exact (proj1 (proj2 B))|exact PA|exact ST].
    destruct E6 as [r0 [rs [_ [_ [_ [_ [P5 [_ [P6 _]]]]]]]]]. split; [intros p I; exact (proj1 (P5 p I))|].
    rewrite P6. cbn [ss_points]. f_equal. apply filter_ext. intros p. unfold measurable, has_transit_time.
    destruct (sp_halt p), (sp_timed p); reflexivity.
Qed.
Print Assumptions C57_supported.

(* A train is taken as a whole or not at all, in the order of its construction
   trains; its error is that of the first one that fails. *)
Theorem C57_all_or_nothing : forall fuel inf status xs,
  (forall ts, parse_kss_train fuel inf (status, xs) = Ok (inr ts) <->
     status = txt "freig" /\ Forall2 (fun x t => parse_construction_train fuel inf x = Ok (inr t)) xs ts) /\
  (forall e, parse_kss_train fuel inf (status, xs) = Ok (inl e) <->
     (status <> txt "freig" /\ e = WORKED_ON_TRAIN) \/
     (status = txt "freig" /\ exists l1 x l2 ts, xs = l1 ++ x :: l2 /\
        Forall2 (fun x t => parse_construction_train fuel inf x = Ok (inr t)) l1 ts /\
        parse_construction_train fuel inf x = Ok (inl e))).
Proof.
  intros fuel inf status xs. unfold parse_kss_train. cbn [fst snd].
  change (txt "freig") with s_freig. destruct (str_eqb status s_freig) eqn:E.
  - apply str_eqb_spec in E. cbn [negb]. split.
    + intros ts. rewrite constructions_ok. tauto.
    + intros e. rewrite constructions_err. split; [auto|]. intros [[N _]|[_ H]]; [contradiction|exact H].
  - apply str_eqb_false in E. cbn [negb]. split.
    + intros ts. split; [discriminate|tauto].
    + intros e. split; [intros [= <-]; now left|]. intros [[_ ->]|[H _]]; [reflexivity|contradiction].
Qed.
Print Assumptions C57_all_or_nothing.

(* a passenger train from A to B *)
Definition ex57_srs : list sroute :=
  [mksr [0; 1; 2]%N [1%nat] [] [] None (Some 0%nat) 0%N false; mksr [3; 4; 5]%N [1%nat] [] [] None (Some 2%nat) 1%N false].
Definition ex57_il : interlocking :=
  mkil [mkir 0 0 2 [0]; mkir 1 1 2 [0; 1]; mkir 2 1 3 [1]]%nat
       [[0; 1]; [1; 2]]%N [[0]; [1]; []; []; [2]; []]%N [[0]; []; []; []; []; [2]]%N.
Definition ex57_stations (s : list ascii) : option (list ascii -> option nat) :=
  if str_eqb s (txt "AA") then Some (fun t => if str_eqb t (txt "1") then Some 0%nat else None)
  else if str_eqb s (txt "BB") then Some (fun t => if str_eqb t (txt "1") then Some 1%nat else None)
  else None.
Definition ex57_point st (arr dep mode : string) : xpoint :=
  mkxp (txt st) (txt "1") (Some (txt arr, false)) (Some (txt dep, false))
       (if String.eqb mode "" then None else Some (txt mode)) (Some (txt "PT1M")).
Definition ex57_train last : xtrain :=
  mkxt (txt "4711") (txt "1") ex40 [ex57_point "AA" "10:00:00.00" "10:01:00.00" "4"; last]
       (txt "false") (txt "false") (inr (true, false)).
Definition ex57_inf := infra_of ex57_stations ex57_srs (fun _ => None) ex57_il.
Example ex_C57_built : PropsTransform.built ex57_srs 6 ex57_il.
Proof.
  split; [reflexivity|]. split.
  { repeat (apply Forall_cons || apply Forall_nil);
      (split; [|split; [discriminate|split; cbn; lia]]);
      (constructor; cbn; [discriminate|intros s I|lia|lia|try lia]);
      repeat (destruct I as [<-|I]); try destruct I; eexists; split; reflexivity. }
  split.
  { intros [|[|s]] sr x E I; cbn in E; try discriminate; [| |destruct s; discriminate]; injection E as <-; cbn in I; lia. }
  repeat split; reflexivity.
Qed.
Example ex_C57 : exists b,
  parse_kss_train 5 ex57_inf (txt "freig", [ex57_train (ex57_point "BB" "11:00:00.00" "11:01:00.00" "4")]) =
    Ok (inr [mkkt (4711, 1)%N b true false false false [0; 1; 2]%N
               [mkpt PASSENGER 36000 36060 60 0; mkpt PASSENGER 39600 39660 60 1]]) /\
  parse_kss_train 5 ex57_inf (txt "freig", [ex57_train (ex57_point "CC" "11:00:00.00" "11:01:00.00" "4")]) =
    Ok (inl STATION_NOT_FOUND) /\
  parse_kss_train 5 ex57_inf (txt "bearb", []) = Ok (inl WORKED_ON_TRAIN).
Proof. eexists. vm_compute. split; [reflexivity|]. split; reflexivity. Qed.

(* A transit time on a station route without a runtime checkpoint is never
   reported as the error made for it: reading the point throws first, so one
   such train ends the whole import (debug build). *)
Theorem C57_missing_checkpoint_refuted :
  (forall fuel inf x, parse_construction_train fuel inf x <> Ok (inl TRANSIT_TIME_BUT_NO_RUNTIME_CHECKPOINT)) /\
  (forall fuel, parse_construction_train fuel ex57_inf
     (ex57_train (ex57_point "BB" "11:00:00.00" "11:01:00.00" "")) = Throw).
Proof.
  split.
  - intros fuel inf x E. unfold parse_construction_train in E.
    apply bind_Ok in E as [m [E1 E]]. apply bind_Ok in E as [s [E2 E]]. apply bind_Ok in E as [days [E3 E]].
    apply bind_Ok in E as [sq [E4 E]]. unfold parse_sequence in E4. apply bind_Ok in E4 as [r [E4 E4']].
    injection E4' as <-. destruct r as [e|ps].
    + injection E as ->. clear - E4. revert E4. generalize (xt_points x) as l. induction l as [|y l IH]; intros E4;
        cbn [parse_points] in E4; [discriminate|]. apply bind_Ok in E4 as [r [E1 E]]. destruct r as [e|p].
      * injection E as ->. unfold parse_point in E1. destruct (ki_station inf (xp_ds100 y)) as [rt|]; [|discriminate].
        destruct (rt (xp_track y)); [|discriminate]. repeat (apply bind_Ok in E1 as [? [_ E1]]). discriminate.
      * apply bind_Ok in E as [t [E2 E]]. destruct t as [e|t]; [injection E as ->; auto|discriminate].
    + destruct (xt_physics x) as [e|[fr ctc]].
      * discriminate.
      * apply parse_points_ok in E4 as [_ CK].
        apply bind_Ok in E as [sup [E5 E]]. destruct sup as [e|].
        -- injection E as ->. unfold is_supported in E5. cbn [ss_points ss_break_in ss_break_out] in E5.
           destruct ctc; [discriminate|]. destruct (Nat.ltb _ _); [discriminate|].
           destruct (str_eqb (xt_breakin x) s_true); [discriminate|].
           destruct (str_eqb (xt_breakout x) s_true); [discriminate|].
           destruct ps as [|f ps']; [discriminate|]. destruct (rev (f :: ps')) as [|b rps]; [discriminate|].
           destruct (negb (sp_halt f)); [discriminate|]. destruct (negb (sp_halt b)); [discriminate|].
           exact (points_supported_never inf fr _ CK E5).
        -- apply bind_Ok in E as [tr [E6 E]]. destruct tr as [e|[path pts]]; discriminate.
  - intros fuel. reflexivity.
Qed.
Print Assumptions C57_missing_checkpoint_refuted.

(* Which construction trains are taken over, and under which error the others
   are counted. *)
(* the point is readable, and has a runtime checkpoint if it is run through at
   a given time *)
Definition readable (inf : kinfra) (x : xpoint) (p : seqpoint) : Prop :=
  point_of inf x p /\ (sp_halt p = false -> sp_timed p = true -> exists i, ki_checkpoint inf (sp_sr p) = Some i).
(* the station routes the stations know exist *)
Definition known_routes (stations : list ascii -> option (list ascii -> option nat)) (srs : list sroute) : Prop :=
  forall st routes t s, stations st = Some routes -> routes t = Some s -> (s < List.length srs)%nat.
(* e is the error of the first reason that applies *)
Definition first_reason (reasons : list (Prop * kss_error)) (e : kss_error) : Prop :=
  exists before c after, reasons = before ++ (c, e) :: after /\ c /\ Forall (fun r => ~ fst r) before.
Definition no_reason (reasons : list (Prop * kss_error)) : Prop := Forall (fun r => ~ fst r) reasons.
(* the reasons not to take over a train whose points are ps *)
Definition reasons srs checkpoint (x : xtrain) (freight ctc : bool) (ps : list seqpoint) : list (Prop * kss_error) :=
  [(ctc = true, CTC_NOT_SUPPORTED);
   ((List.length ps < 2)%nat, SINGLE_STOP_NOT_SUPPORTED);
   (xt_breakin x = txt "true", BREAK_IN_NOT_SUPPORTED);
   (xt_breakout x = txt "true", BREAK_OUT_NOT_SUPPORTED);
   ((exists p, nth_error ps 0 = Some p /\ sp_halt p = false), FIRST_STOP_NO_HALT_NOT_SUPPORTED);
   ((exists p, nth_error ps (List.length ps - 1) = Some p /\ sp_halt p = false), LAST_STOP_NO_HALT_NOT_SUPPORTED);
   ((exists p, In p ps /\ sp_halt p = true /\ position srs checkpoint freight p = None),
      STOP_IS_HALT_BUT_STATION_ROUTE_NO_HALT)].

Lemma parse_point_iff inf x p : parse_point inf x = Ok (inr p) <-> readable inf x p.
Proof.
  split.
  - intros E. apply parse_point_ok in E as [A B]. split; [exact A|]. intros H T. apply B. unfold has_transit_time. now rewrite H, T.
  - intros [[R A D T M] C]. destruct R as [routes [S R]]. unfold parse_point. rewrite S, R.
    assert (XA : match xp_arrival x with Some (t, n) => parse_time_offset t n | None => Ok TIME_INVALID end = Ok (sp_arrival p)).
    { destruct (xp_arrival x) as [[t nl]|]; cbn [offset_of] in A; [exact A|now rewrite A]. }
    assert (XD : match xp_departure x with Some (t, n) => parse_time_offset t n | None => Ok TIME_INVALID end = Ok (sp_departure p)).
    { destruct (xp_departure x) as [[t nl]|]; cbn [offset_of] in D; [exact D|now rewrite D]. }
    assert (XT : match xp_stop_mode x with Some k => key_to_stop_type k | None => Ok TRANSIT end = Ok (sp_type p)).
    { destruct (xp_stop_mode x); [now apply stop_mode_ok|now rewrite T]. }
    assert (XM : match xp_min_stop x with Some d => parse_duration d | None => Ok 0%N end = Ok (sp_min_stop p)).
    { destruct (xp_min_stop x); [exact M|now rewrite M]. }
    rewrite XA. cbn [bind]. rewrite XD. cbn [bind]. rewrite XT. cbn [bind]. rewrite XM. cbn [bind].
    assert (EP : mkpt (sp_type p) (sp_arrival p) (sp_departure p) (sp_min_stop p) (sp_sr p) = p) by (destruct p; reflexivity).
    rewrite EP. destruct (sp_halt p) eqn:HP; [reflexivity|]. destruct (sp_timed p) eqn:TP; [|reflexivity]. cbn [negb andb].
    destruct (C eq_refl eq_refl) as [i ->]. reflexivity.
Qed.
Lemma parse_point_err inf x e : parse_point inf x = Ok (inl e) <->
  (ki_station inf (xp_ds100 x) = None /\ e = STATION_NOT_FOUND) \/
  (exists routes, ki_station inf (xp_ds100 x) = Some routes /\ routes (xp_track x) = None /\ e = STATION_ROUTE_NOT_FOUND).
Proof.
  unfold parse_point. destruct (ki_station inf (xp_ds100 x)) as [routes|] eqn:S.
  - destruct (routes (xp_track x)) as [sr|] eqn:R.
    + split.
      * intros E. repeat (apply bind_Ok in E as [? [_ E]]). discriminate.
      * intros [[? _]|[r [[= <-] [K _]]]]; congruence.
    + split; [intros [= <-]; right; eauto|]. intros [[? _]|[r [_ [_ ->]]]]; [discriminate|reflexivity].
  - split; [intros [= <-]; now left|]. intros [[_ ->]|[r [? _]]]; [reflexivity|discriminate].
Qed.
Lemma parse_points_iff inf : forall l ps, parse_points inf l = Ok (inr ps) <-> Forall2 (readable inf) l ps.
Proof.
  induction l as [|x l IH]; intros ps; cbn [parse_points].
  - split; [intros [= <-]; constructor|intros H; inversion H; reflexivity].
  - split.
    + intros E. apply bind_Ok in E as [r [E1 E]]. destruct r as [e|p]; [discriminate|].
      apply bind_Ok in E as [t [E2 E]]. destruct t as [e|t]; [discriminate|]. injection E as <-.
      constructor; [now apply parse_point_iff|now apply IH].
    + intros H. inversion H as [|? p ? t H1 H2]; subst. apply parse_point_iff in H1. apply IH in H2.
      rewrite H1. cbn [bind]. rewrite H2. reflexivity.
Qed.
Lemma parse_points_err inf : forall l e, parse_points inf l = Ok (inl e) <->
  exists l1 y l2 ps, l = l1 ++ y :: l2 /\ Forall2 (readable inf) l1 ps /\ parse_point inf y = Ok (inl e).
Proof.
  induction l as [|x l IH]; intros e; cbn [parse_points].
  - split; [discriminate|]. intros [[|? ?] [? [? [? [? _]]]]]; discriminate.
  - split.
    + intros E. apply bind_Ok in E as [r [E1 E]]. destruct r as [e'|p].
      * injection E as ->. exists [], x, l, []. split; [reflexivity|]. split; [constructor|exact E1].
      * apply bind_Ok in E as [t [E2 E]]. destruct t as [e'|t]; [|discriminate]. injection E as ->.
        apply IH in E2 as (l1 & y & l2 & ps & -> & F & H). exists (x :: l1), y, l2, (p :: ps).
        split; [reflexivity|]. split; [constructor; [now apply parse_point_iff|exact F]|exact H].
    + intros (l1 & y & l2 & ps & EQ & F & H). destruct l1 as [|z l1]; cbn [app] in EQ; injection EQ as -> ->.
      * rewrite H. reflexivity.
      * inversion F as [|? p ? t F1 F2]; subst. apply parse_point_iff in F1. rewrite F1. cbn [bind].
        rewrite (proj2 (IH e)); [reflexivity|]. exists l1, y, l2, t. auto.
Qed.
Lemma points_supported_none inf fr : forall l,
  (forall p, In p l -> (sp_sr p < List.length (ki_srs inf))%nat) ->
  (forall p, In p l -> sp_halt p = false -> sp_timed p = true -> exists i, ki_checkpoint inf (sp_sr p) = Some i) ->
  ((exists p, In p l /\ sp_halt p = true /\ position (ki_srs inf) (ki_checkpoint inf) fr p = None) ->
     points_supported inf fr l = Ok (Some STOP_IS_HALT_BUT_STATION_ROUTE_NO_HALT)) /\
  (~ (exists p, In p l /\ sp_halt p = true /\ position (ki_srs inf) (ki_checkpoint inf) fr p = None) ->
     points_supported inf fr l = Ok None).
Proof.
  induction l as [|p l IH]; intros L C.
  - split; [intros [p [[] _]]|reflexivity].
  - destruct IH as [I1 I2]; [intros q I; apply L; now right|intros q I; apply C; now right|].
    cbn [points_supported]. destruct (nth_error (ki_srs inf) (sp_sr p)) as [sr|] eqn:N;
      [|apply nth_error_None in N; specialize (L p (or_introl eq_refl)); lia].
    assert (A : at_ (ki_srs inf) (sp_sr p) = Ok sr) by (unfold at_; now rewrite N). rewrite A. cbn [bind].
    assert (P : sp_halt p = true -> position (ki_srs inf) (ki_checkpoint inf) fr p = halt_idx fr sr).
    { intros H. unfold position, sr_of. rewrite H, N. reflexivity. }
    assert (T : has_transit_time p && negb (some (ki_checkpoint inf (sp_sr p))) = false).
    { unfold has_transit_time. destruct (sp_halt p) eqn:H; [reflexivity|]. destruct (sp_timed p) eqn:TT; [|reflexivity].
      destruct (C p (or_introl eq_refl) H TT) as [i ->]. reflexivity. }
    rewrite T. destruct (sp_halt p) eqn:H; cbn [andb].
    + destruct (halt_idx fr sr) as [i|] eqn:HI; cbn [some negb].
      * split.
        -- intros [q [[<-|I] [HQ PQ]]]; [rewrite P in PQ by reflexivity; discriminate|apply I1; eauto].
        -- intros NX. apply I2. intros [q [I K]]. apply NX. exists q. split; [now right|exact K].
      * split; [reflexivity|]. intros NX. destruct NX. exists p. split; [now left|]. split; [exact H|]. now apply P.
    + split.
      * intros [q [[<-|I] [HQ PQ]]]; [congruence|apply I1; eauto].
      * intros NX. apply I2. intros [q [I K]]. apply NX. exists q. split; [now right|exact K].
Qed.
Lemma first_reason_fun : forall l e e', first_reason l e -> first_reason l e' -> e = e'.
Proof.
  induction l as [|[c0 e0] l IH]; intros e e' (b & c & a & E & C & F) (b' & c' & a' & E' & C' & F').
  - destruct b; discriminate.
  - destruct b as [|r b], b' as [|r' b']; cbn [app] in E, E'; injection E; injection E'; intros; subst.
    + congruence.
    + inversion F'; subst. cbn [fst] in *. contradiction.
    + inversion F; subst. cbn [fst] in *. contradiction.
    + inversion F; inversion F'; subst. eapply IH; [exists b, c, a|exists b', c', a']; eauto.
Qed.
Lemma first_reason_some l e : first_reason l e -> ~ no_reason l.
Proof. intros (b & c & a & -> & C & F) N. apply Forall_app in N as [_ N]. inversion N; subst. contradiction. Qed.
Lemma fr_here (c : Prop) e l : c -> first_reason ((c, e) :: l) e.
Proof. intros C. exists [], c, l. repeat split; [exact C|constructor]. Qed.
Lemma fr_next (c : Prop) e0 l e : ~ c -> first_reason l e -> first_reason ((c, e0) :: l) e.
Proof.
  intros N (b & c' & a & -> & C & F). exists ((c, e0) :: b), c', a. split; [reflexivity|]. split; [exact C|].
  constructor; [exact N|exact F].
Qed.
Lemma nth_last {A} (l : list A) b r : rev l = b :: r -> nth_error l (List.length l - 1) = Some b.
Proof.
  intros E. apply (f_equal (@rev A)) in E. rewrite rev_involutive in E. cbn [rev] in E. subst l.
  rewrite app_length. cbn [List.length]. replace (List.length (rev r) + 1 - 1)%nat with (List.length (rev r)) by lia.
  rewrite nth_error_app2 by lia. now rewrite Nat.sub_diag.
Qed.
(* the checks before the path is looked for *)
Lemma supported_verdict stations srs cp il x ps fr ctc :
  let inf := infra_of stations srs cp il in
  let ss := mkss ps (str_eqb (xt_breakin x) s_true) (str_eqb (xt_breakout x) s_true) in
  (forall p, In p ps -> (sp_sr p < List.length srs)%nat) ->
  (forall p, In p ps -> sp_halt p = false -> sp_timed p = true -> exists i, cp (sp_sr p) = Some i) ->
  (exists e, is_supported inf ss fr ctc = Ok (Some e) /\ first_reason (reasons srs cp x fr ctc ps) e) \/
  (is_supported inf ss fr ctc = Ok None /\ no_reason (reasons srs cp x fr ctc ps)).
Proof.
  intros inf ss L C. unfold is_supported, reasons. cbn [ss_points ss_break_in ss_break_out ss].
  assert (SE : forall s, str_eqb s s_true = true <-> s = txt "true").
  { intros s. exact (str_eqb_spec s s_true). }
  destruct ctc; [left; eexists; split; [reflexivity|now apply fr_here]|].
  destruct (Nat.ltb_spec (List.length ps) 2) as [L2|L2].
  { left; eexists; split; [reflexivity|]. apply fr_next; [discriminate|]. now apply fr_here. }
  destruct (str_eqb (xt_breakin x) s_true) eqn:BI.
  { left; eexists; split; [reflexivity|]. apply SE in BI. apply fr_next; [discriminate|]. apply fr_next; [lia|]. now apply fr_here. }
  assert (NBI : xt_breakin x <> txt "true") by (intros K; apply SE in K; congruence).
  destruct (str_eqb (xt_breakout x) s_true) eqn:BO.
  { left; eexists; split; [reflexivity|]. apply SE in BO. apply fr_next; [discriminate|]. apply fr_next; [lia|].
    apply fr_next; [exact NBI|]. now apply fr_here. }
  assert (NBO : xt_breakout x <> txt "true") by (intros K; apply SE in K; congruence).
  destruct ps as [|f ps']; [cbn in L2; lia|]. destruct (rev (f :: ps')) as [|b rps] eqn:RV.
  { apply (f_equal (@List.length _)) in RV. rewrite rev_length in RV. discriminate. }
  apply nth_last in RV. set (ps := f :: ps') in *.
  destruct (sp_halt f) eqn:HF; cbn [negb].
  2:{ left; eexists; split; [reflexivity|]. do 4 (apply fr_next; [first [discriminate|lia|assumption]|]).
      apply fr_here. exists f. split; [reflexivity|exact HF]. }
  assert (NF : ~ exists p, nth_error ps 0 = Some p /\ sp_halt p = false) by (intros [p [[= <-] K]]; congruence).
  destruct (sp_halt b) eqn:HB; cbn [negb].
  2:{ left; eexists; split; [reflexivity|]. do 5 (apply fr_next; [first [discriminate|lia|assumption]|]).
      apply fr_here. exists b. split; [exact RV|exact HB]. }
  assert (NB : ~ exists p, nth_error ps (List.length ps - 1) = Some p /\ sp_halt p = false).
  { intros [p [K1 K2]]. rewrite RV in K1. congruence. }
  destruct (points_supported_none inf fr ps L C) as [P1 P2].
  destruct (points_supported inf fr ps) as [[e|]| | |] eqn:PS.
  - left. exists e. split; [reflexivity|]. do 6 (apply fr_next; [first [discriminate|lia|assumption]|]).
    assert (DN : ~ ~ exists p, In p ps /\ sp_halt p = true /\ position srs cp fr p = None) by (intros K; apply P2 in K; discriminate).
    assert (DEC : {Exists (fun p => sp_halt p = true /\ position srs cp fr p = None) ps} +
                  {~ Exists (fun p => sp_halt p = true /\ position srs cp fr p = None) ps}).
    { apply Exists_dec. intros p. destruct (sp_halt p); [|right; intros [? _]; discriminate].
      destruct (position srs cp fr p); [right; intros [_ ?]; discriminate|left; auto]. }
    destruct DEC as [D|D]; [|destruct DN; intros K; apply D, Exists_exists; exact K].
    apply Exists_exists in D. specialize (P1 D). injection P1 as ->. now apply fr_here.
  - right. split; [reflexivity|]. repeat constructor; cbn [fst]; try assumption; try discriminate; try lia.
    intros D. apply P1 in D. discriminate.
  - exfalso. assert (K : ~ ~ exists p, In p ps /\ sp_halt p = true /\ position srs cp fr p = None) by (intros K; apply P2 in K; discriminate).
    apply K. intros D. apply P1 in D. discriminate.
  - exfalso. assert (K : ~ ~ exists p, In p ps /\ sp_halt p = true /\ position srs cp fr p = None) by (intros K; apply P2 in K; discriminate).
    apply K. intros D. apply P1 in D. discriminate.
  - exfalso. assert (K : ~ ~ exists p, In p ps /\ sp_halt p = true /\ position srs cp fr p = None) by (intros K; apply P2 in K; discriminate).
    apply K. intros D. apply P1 in D. discriminate.
Qed.
Lemma readable_below stations srs cp il l ps : known_routes stations srs ->
  Forall2 (readable (infra_of stations srs cp il)) l ps ->
  (forall p, In p ps -> (sp_sr p < List.length srs)%nat) /\
  (forall p, In p ps -> sp_halt p = false -> sp_timed p = true -> exists i, cp (sp_sr p) = Some i).
Proof.
  intros KR F. induction F as [|x p l ps [R C] F [I1 I2]]; [split; intros ? []|].
  destruct R as [[routes [S R]] _ _ _ _]. split; intros q [<-|I]; auto. exact (KR _ _ _ _ S R).
Qed.
(* A construction train whose numbers and services can be read is taken over
   exactly if all its points can be read and name known stations and routes, its
   rolling stock is known, there is no reason against it and a path is found: it
   then has these numbers, days, path and points. Otherwise the error is that of
   the first thing wrong: the first point whose station or route is unknown,
   then the rolling stock, then the first reason of the list, then the path. *)
Theorem C57_accepted : forall stations srs checkpoint il fuel x m s days,
  let inf := infra_of stations srs checkpoint il in
  known_routes stations srs ->
  numeral (xt_main x) m -> m < 2 ^ 32 -> numeral (xt_sub x) s -> s < 2 ^ 16 ->
  parse_services (xt_services x) = Ok days ->
  (forall t, parse_construction_train fuel inf x = Ok (inr t) <->
     exists ps freight path pts, Forall2 (readable inf) (xt_points x) ps /\
       xt_physics x = inr (freight, false) /\
       no_reason (reasons srs checkpoint x freight false ps) /\
       transform srs checkpoint il freight fuel (mkss ps false false) = Ok (inr (path, pts)) /\
       t = mkkt (Z.to_N m, Z.to_N s) days freight false false false path pts) /\
  (forall e, parse_construction_train fuel inf x = Ok (inl e) <->
     (exists l1 y l2 ps, xt_points x = l1 ++ y :: l2 /\ Forall2 (readable inf) l1 ps /\
        ((stations (xp_ds100 y) = None /\ e = STATION_NOT_FOUND) \/
         (exists routes, stations (xp_ds100 y) = Some routes /\ routes (xp_track y) = None /\ e = STATION_ROUTE_NOT_FOUND))) \/
     (exists ps, Forall2 (readable inf) (xt_points x) ps /\
        ((exists k, xt_physics x = inl k /\ e = ROLLING_STOCK k) \/
         (exists freight ctc, xt_physics x = inr (freight, ctc) /\
            (first_reason (reasons srs checkpoint x freight ctc ps) e \/
             (no_reason (reasons srs checkpoint x freight ctc ps) /\
              exists k, transform srs checkpoint il freight fuel (mkss ps false false) = Ok (inl k) /\ e = TRANSFORM k)))))).
Proof.
  intros stations srs cp il fuel x m s days inf KR NM M32 NS S16 DY.
  assert (PM : parse_int 0 U32_MAX (xt_main x) = Ok m) by (apply parse_unsigned; split; [exact NM|unfold U32_MAX; lia]).
  assert (PS : parse_int 0 65535 (xt_sub x) = Ok s) by (apply parse_unsigned; split; [exact NS|lia]).
  assert (RB : forall ps, Forall2 (readable inf) (xt_points x) ps -> _) by (intros ps F; exact (readable_below _ _ _ _ _ _ KR F)).
  assert (SE : forall y, y <> txt "true" -> str_eqb y s_true = false).
  { intros y N. destruct (str_eqb y s_true) eqn:E; [|reflexivity]. apply str_eqb_spec in E. now destruct N. }
  assert (NR : forall fr ctc ps, no_reason (reasons srs cp x fr ctc ps) ->
     ctc = false /\ str_eqb (xt_breakin x) s_true = false /\ str_eqb (xt_breakout x) s_true = false).
  { intros fr ctc ps N. unfold reasons in N. inversion N as [|? ? N1 N']; subst. inversion N' as [|? ? _ N'']; subst.
    inversion N'' as [|? ? N2 N3]; subst. inversion N3 as [|? ? N4 _]; subst. cbn [fst] in *.
    split; [destruct ctc; [now destruct N1|reflexivity]|]. split; now apply SE. }
  assert (U : parse_construction_train fuel inf x =
    do r <- parse_points inf (xt_points x);
    match r with
    | inl e => Ok (inl e)
    | inr ps =>
      match xt_physics x with
      | inl e => Ok (inl (ROLLING_STOCK e))
      | inr (freight, ctc) =>
        do sup <- is_supported inf (mkss ps (str_eqb (xt_breakin x) s_true) (str_eqb (xt_breakout x) s_true)) freight ctc;
        match sup with
        | Some e => Ok (inl e)
        | None =>
          do t <- transform srs cp il freight fuel (mkss ps (str_eqb (xt_breakin x) s_true) (str_eqb (xt_breakout x) s_true));
          Ok (match t with
              | inl e => inl (TRANSFORM e)
              | inr (path, pts) =>
                  inr (mkkt (Z.to_N m, Z.to_N s) days freight ctc (str_eqb (xt_breakin x) s_true) (str_eqb (xt_breakout x) s_true) path pts)
              end)
        end
      end
    end).
  { unfold parse_construction_train, parse_sequence. rewrite PM. cbn [bind]. rewrite PS. cbn [bind]. rewrite DY. cbn [bind].
    destruct (parse_points inf (xt_points x)) as [[e|ps]| | |]; reflexivity. }
  rewrite U. clear U.
  split.
  - intros t. split.
    + intros E. apply bind_Ok in E as [r [E1 E]]. destruct r as [e|ps]; [discriminate|]. apply parse_points_iff in E1.
      destruct (xt_physics x) as [e|[fr ctc]]; [discriminate|].
      destruct (RB ps E1) as [L C]. destruct (supported_verdict stations srs cp il x ps fr ctc L C) as [[e [K _]]|[K N]].
      { fold inf in K. rewrite K in E. discriminate. }
      fold inf in K. rewrite K in E. cbn [bind] in E. apply bind_Ok in E as [tr [E2 E]].
      destruct tr as [e|[path pts]]; [discriminate|]. injection E as <-.
      destruct (NR _ _ _ N) as [-> [B1 B2]]. rewrite B1, B2 in *. exists ps, fr, path, pts. auto 6.
    + intros (ps & fr & path & pts & F & PH & N & T & ->). pose proof F as F'. apply parse_points_iff in F'. rewrite F'. cbn [bind].
      rewrite PH. destruct (RB ps F) as [L C].
      destruct (supported_verdict stations srs cp il x ps fr false L C) as [[e [_ K]]|[K _]].
      { now apply first_reason_some in K. }
      fold inf in K. rewrite K. cbn [bind]. destruct (NR _ _ _ N) as [_ [-> ->]]. rewrite T. reflexivity.
  - intros e. split.
    + intros E. apply bind_Ok in E as [r [E1 E]]. destruct r as [e'|ps].
      { injection E as ->. left. apply parse_points_err in E1 as (l1 & y & l2 & ps & E1 & F & K).
        apply parse_point_err in K. exists l1, y, l2, ps. auto. }
      right. apply parse_points_iff in E1. exists ps. split; [exact E1|].
      destruct (xt_physics x) as [k|[fr ctc]]; [left; injection E as <-; eauto|right; exists fr, ctc; split; [reflexivity|]].
      destruct (RB ps E1) as [L C]. destruct (supported_verdict stations srs cp il x ps fr ctc L C) as [[e' [K N]]|[K N]];
        fold inf in K; rewrite K in E; cbn [bind] in E.
      { left. injection E as <-. exact N. }
      right. split; [exact N|]. apply bind_Ok in E as [tr [E2 E]].
      destruct (NR _ _ _ N) as [-> [B1 B2]]. rewrite B1, B2 in E2.
      destruct tr as [k|[path pts]]; [|discriminate]. injection E as <-. eauto.
    + intros [(l1 & y & l2 & ps & E & F & K)|(ps & F & K)].
      { rewrite (proj2 (parse_points_err inf (xt_points x) e)); [reflexivity|]. exists l1, y, l2, ps. split; [exact E|].
        split; [exact F|]. now apply parse_point_err. }
      pose proof F as F'. apply parse_points_iff in F'. rewrite F'. cbn [bind].
      destruct K as [(k & -> & ->)|(fr & ctc & -> & K)]; [reflexivity|].
      destruct (RB ps F) as [L C]. destruct (supported_verdict stations srs cp il x ps fr ctc L C) as [[e' [K' N]]|[K' N]];
        fold inf in K'; rewrite K'; cbn [bind].
      * destruct K as [K|[K _]]; [now rewrite (first_reason_fun _ _ _ N K)|]. now apply first_reason_some in N.
      * destruct K as [K|[_ (k & T & ->)]]; [now apply first_reason_some in K|].
        destruct (NR _ _ _ N) as [-> [-> ->]]. rewrite T. reflexivity.
Qed.
Print Assumptions C57_accepted.
(* Text that cannot be read ends the import with an exception, except for a
   duration that is cut off or out of range (C41). *)
Theorem C57_unreadable : forall fuel inf x y l1 l2 ps m s days,
  numeral (xt_main x) m -> m < 2 ^ 32 -> numeral (xt_sub x) s -> s < 2 ^ 16 ->
  parse_services (xt_services x) = Ok days ->
  xt_points x = l1 ++ y :: l2 -> Forall2 (readable inf) l1 ps ->
  (exists routes sr, ki_station inf (xp_ds100 y) = Some routes /\ routes (xp_track y) = Some sr) ->
  ((exists t n, (xp_arrival y = Some (t, n) \/ xp_departure y = Some (t, n)) /\ forall v, parse_time_offset t n <> Ok v) \/
   (exists k, xp_stop_mode y = Some k /\ forall t, ~ stop_mode k t) \/
   (exists d, xp_min_stop y = Some d /\ forall s', d <> "P"%char :: "T"%char :: s')) ->
  parse_construction_train fuel inf x = Throw.
Proof.
  intros fuel inf x y l1 l2 ps m s days NM M32 NS S16 DY EQ F (routes & sr & S & R) BAD.
  assert (PM : parse_int 0 U32_MAX (xt_main x) = Ok m) by (apply parse_unsigned; split; [exact NM|unfold U32_MAX; lia]).
  assert (PS : parse_int 0 65535 (xt_sub x) = Ok s) by (apply parse_unsigned; split; [exact NS|lia]).
  assert (TH : parse_point inf y = Throw).
  { unfold parse_point. rewrite S, R.
    assert (TO : forall o, (exists v, match o with Some (t, n) => parse_time_offset t n | None => Ok TIME_INVALID end = Ok v) \/
       match o with Some (t, n) => parse_time_offset t n | None => Ok TIME_INVALID end = Throw).
    { intros [[t n]|]; [apply time_offset_total|left; eauto]. }
    destruct (TO (xp_arrival y)) as [[a A]|A]; rewrite A; cbn [bind]; [|reflexivity].
    destruct (TO (xp_departure y)) as [[d D]|D]; rewrite D; cbn [bind]; [|reflexivity].
    assert (TK : forall k, (exists t, key_to_stop_type k = Ok t) \/ key_to_stop_type k = Throw).
    { intros [|c k]; [now right|]. unfold key_to_stop_type. destruct (Ascii.eqb c "2"); [left; eauto|].
      destruct (Ascii.eqb c "3"); [left; eauto|]. destruct (Ascii.eqb c "4"); [left; eauto|now right]. }
    destruct BAD as [(t & n & [B|B] & NV)|[(k & B & NV)|(dd & B & NV)]].
    - rewrite B in A. now apply NV in A.
    - rewrite B in D. now apply NV in D.
    - rewrite B. destruct (TK k) as [[t T]|T]; rewrite T; [|reflexivity]. apply stop_mode_ok in T. now apply NV in T.
    - assert (TT : (exists t, match xp_stop_mode y with Some k => key_to_stop_type k | None => Ok TRANSIT end = Ok t) \/
        match xp_stop_mode y with Some k => key_to_stop_type k | None => Ok TRANSIT end = Throw).
      { destruct (xp_stop_mode y); [apply TK|left; eauto]. }
      destruct TT as [[t T]|T]; rewrite T; cbn [bind]; [|reflexivity]. rewrite B.
      assert (PD : parse_duration dd = Throw).
      { destruct dd as [|p [|q r]]; try reflexivity. cbn [parse_duration].
        destruct (Ascii.eqb_spec p "P"%char) as [->|]; [|reflexivity]. destruct (Ascii.eqb_spec q "T"%char) as [->|]; [|reflexivity].
        now destruct (NV r). }
      rewrite PD. reflexivity. }
  assert (TP : parse_points inf (xt_points x) = Throw).
  { rewrite EQ. clear - F TH. revert ps F. induction l1 as [|z l1 IH]; intros ps F; cbn [app parse_points].
    - rewrite TH. reflexivity.
    - inversion F as [|? p ? t F1 F2]; subst. apply parse_point_iff in F1. rewrite F1. cbn [bind]. rewrite (IH _ F2). reflexivity. }
  unfold parse_construction_train, parse_sequence. rewrite PM. cbn [bind]. rewrite PS. cbn [bind]. rewrite DY. cbn [bind].
  rewrite TP. reflexivity.
Qed.
Print Assumptions C57_unreadable.
(* the passenger train of ex_C57 has no reason against it *)
Example ex_C57_accepted : known_routes ex57_stations ex57_srs /\
  let last := ex57_point "BB" "11:00:00.00" "11:01:00.00" "4" in
  let ps := [mkpt PASSENGER 36000 36060 60 0; mkpt PASSENGER 39600 39660 60 1] in
  Forall2 (readable ex57_inf) (xt_points (ex57_train last)) ps /\
  no_reason (reasons ex57_srs (fun _ => None) (ex57_train last) true false ps) /\
  transform ex57_srs (fun _ => None) ex57_il true 5 (mkss ps false false) = Ok (inr ([0; 1; 2]%N, ps)) /\
  first_reason (reasons ex57_srs (fun _ => None) (ex57_train last) false false ps) STOP_IS_HALT_BUT_STATION_ROUTE_NO_HALT.
Proof.
  split.
  { intros st routes t s S R. unfold ex57_stations in S.
    destruct (str_eqb st (txt "AA")); [injection S as <-|destruct (str_eqb st (txt "BB")); [injection S as <-|discriminate]];
      match type of R with (if ?c then _ else _) = _ => destruct c end; try discriminate; injection R as <-; cbn; lia. }
  split.
  { apply parse_points_iff. vm_compute. reflexivity. }
  split.
  { repeat constructor; cbn; try discriminate; try lia.
    - intros [p [[= <-] K]]. discriminate.
    - intros [p [[= <-] K]]. discriminate.
    - intros [p [[<-|[<-|[]]] [_ K]]]; discriminate. }
  split; [vm_compute; reflexivity|].
  do 6 (apply fr_next; [first [discriminate|cbn; lia|intros [p [[= <-] K]]; discriminate]|]).
  apply fr_here. exists (mkpt PASSENGER 36000 36060 60 0). split; [now left|]. split; reflexivity.
Qed.
