(* C08 - C15: bitfields (calendars) and the departures of a train.

   Reading guide: a day is a signed day number, a time (absolute_time) a number
   of seconds below 2^32.  Calendars are exactly the values that make_bitfield,
   set and | can build (`built`), with dates whose absolute value is below 2^30
   (a range of 2.9 million years). *)
From Verif Require Import Base BitfieldModel BitfieldProofs TrainModel TrainProofs.
From Coq Require Import ZifyBool ZifyNat ZifyN Sorting.Sorted Ascii FinFun.
Open Scope Z_scope.

Definition date_ok (d : Z) : Prop := -1073741824 <= d < 1073741824.

Inductive built : bf -> Prop :=
| built_make first last mask b :
    date_ok first -> date_ok last -> make_bitfield first last mask = Ok b -> built b
| built_set b d v b' : built b -> date_ok d -> bf_set b d v = Ok b' -> built b'
| built_or a b c : built a -> built b -> bf_or a b = Ok c -> built c.

(* the days covered by a calendar *)
Definition covered (b : bf) (d : Z) : Prop := bf_first b <= d <= bf_last b.
(* the days on which a calendar is set *)
Definition runs (b : bf) (d : Z) : Prop := bf_at b d = Ok true.

Definition zero_one (mask : list ascii) : Prop := forall c, In c mask -> c = "0"%char \/ c = "1"%char.

(* ---- auxiliary facts ---- *)

Lemma distance_inv a c n : distance a c = Ok n -> a <= c /\ n = Z.to_N (c - a).
Proof.
  unfold distance. intros H. apply bind_Ok in H. destruct H as [? [_ H]].
  apply bind_Ok in H. destruct H as [? [_ H]]. apply bind_Ok in H. destruct H as [? [A H]].
  unfold sassert in A. destruct (a <=? c) eqn:E; [|discriminate].
  destruct (c - a <? 2147483648); [|discriminate]. injection H as <-. split; [lia|reflexivity].
Qed.

Lemma sassert_inv x u : sassert x = Ok u -> x = true.
Proof. unfold sassert. destruct x; [reflexivity|discriminate]. Qed.

Lemma set_inv b d v b' : bf_set b d v = Ok b' -> bf_first b <= bf_last b ->
  Z.max (bf_last b) d - Z.min (bf_first b) d < 512.
Proof.
  unfold bf_set. intros H L. apply bind_Ok in H. destruct H as [b1 [E H]].
  assert (bf_first b1 = Z.min (bf_first b) d /\ bf_last b1 = Z.max (bf_last b) d) as [F1 F2].
  { unfold in_range in E. destruct (Z.ltb_spec d (bf_first b)).
    - cbn [Z.ltb Z.compare] in E. apply bind_Ok in E. destruct E as [n [_ E]]. injection E as <-.
      cbn [bf_first bf_last]. lia.
    - destruct (Z.leb_spec d (bf_last b)); cbn [Z.ltb Z.compare] in E; injection E as <-;
        cbn [bf_first bf_last]; lia. }
  apply bind_Ok in H. destruct H as [n [D H]]. apply distance_inv in D. destruct D as [D1 D2].
  apply bind_Ok in H. destruct H as [u [A H]]. apply sassert_inv in A. unfold BITSIZE in A. lia.
Qed.

Lemma or_inv a b c : bf_or a b = Ok c ->
  Z.max (bf_last a) (bf_last b) - Z.min (bf_first a) (bf_first b) < 512.
Proof.
  unfold bf_or. intros H. apply bind_Ok in H. destruct H as [n [D H]].
  apply distance_inv in D. destruct D as [D1 D2].
  apply bind_Ok in H. destruct H as [u [A H]]. apply sassert_inv in A. unfold BITSIZE in A. lia.
Qed.

Lemma make_inv first last mask b : make_bitfield first last mask = Ok b ->
  first <= last /\ last - first < 512 /\ List.length mask = Z.to_nat (last - first + 1).
Proof.
  unfold make_bitfield. intros H. apply bind_Ok in H. destruct H as [n [D H]].
  apply distance_inv in D. destruct D as [D1 D2].
  apply bind_Ok in H. destruct H as [u [A H]].
  apply bind_Ok in H. destruct H as [u' [A' H]]. apply sassert_inv in A'.
  destruct (n + 1 <=? BITSIZE)%N eqn:E; [|discriminate]. unfold BITSIZE in E. lia.
Qed.

Lemma built_ok b : built b -> bf_ok b.
Proof.
  induction 1 as [first last mask b F L E | b d v b' B IH D E | a b c A IHa B IHb E].
  - destruct (make_inv _ _ _ _ E) as [I1 [I2 I3]]. unfold date_ok in *.
    destruct (make_ok first last mask) as [b' [E' [K _]]]; try lia. congruence.
  - unfold date_ok in D. destruct (set_ok b d v IH D (set_inv _ _ _ _ E (ok_le b IH))) as [b2 [E' [K _]]].
    congruence.
  - destruct (or_ok a b IHa IHb (or_inv _ _ _ E)) as [c' [E' [K _]]]. congruence.
Qed.

Lemma ok_date b : bf_ok b -> date_ok (bf_first b) /\ date_ok (bf_last b).
Proof. intros []. unfold date_ok. lia. Qed.

Lemma at_covered b d v : bf_ok b -> bf_at b d = Ok v -> covered b d /\ mem b d = v.
Proof.
  intros H A. unfold covered.
  destruct (Z_le_dec (bf_first b) d); [destruct (Z_le_dec d (bf_last b))|].
  - rewrite at_ok in A by (try assumption; lia). split; [lia|congruence].
  - rewrite at_out in A by lia. discriminate.
  - rewrite at_out in A by lia. discriminate.
Qed.

(* ---- C08 ---- *)

Theorem C08_make_bitfield :
  forall first last mask,
    date_ok first -> date_ok last -> first <= last -> last - first < 512 ->
    zero_one mask -> List.length mask = Z.to_nat (last - first + 1) ->
    exists b l,
      make_bitfield first last mask = Ok b /\
      (forall d, first <= d <= last ->
         (bf_at b d = Ok true /\ nth_error mask (Z.to_nat (d - first)) = Some "1"%char) \/
         (bf_at b d = Ok false /\ nth_error mask (Z.to_nat (d - first)) = Some "0"%char)) /\
      (forall d, ~ (first <= d <= last) -> bf_at b d = Throw) /\
      bf_get_set_days b = Ok l /\ StronglySorted Z.lt l /\
      (forall d, In d l <->
         first <= d <= last /\ nth_error mask (Z.to_nat (d - first)) = Some "1"%char).
Proof.
  intros first last mask F L Le Sp Z1 Len. unfold date_ok in *.
  destruct (make_ok first last mask) as [b [E [K [Ef [El M]]]]]; try lia.
  destruct (set_days_ok b K) as [l [G [S [I _]]]].
  exists b, l. split; [exact E|].
  assert (N1 : forall d, first <= d <= last ->
     exists c, nth_error mask (Z.to_nat (d - first)) = Some c /\ (c = "0"%char \/ c = "1"%char)).
  { intros d Hd. destruct (nth_error mask (Z.to_nat (d - first))) as [c|] eqn:N.
    - exists c. split; [reflexivity|]. apply Z1. eapply nth_error_In, N.
    - apply nth_error_None in N. lia. }
  split; [|split; [|split; [exact G|split; [exact S|]]]].
  - intros d Hd. rewrite at_ok by (try assumption; lia). rewrite M.
    destruct (N1 d Hd) as [c [-> [-> | ->]]]; replace (first <=? d) with true by lia;
      [right|left]; split; reflexivity.
  - intros d Hd. apply at_out. lia.
  - intros d. rewrite I, M. split.
    + intros H. apply andb_true_iff in H. destruct H as [H1 H2].
      destruct (nth_error mask (Z.to_nat (d - first))) as [c|] eqn:N; [|discriminate].
      assert (Z.to_nat (d - first) < List.length mask)%nat by (apply nth_error_Some; congruence).
      split; [lia|]. destruct (Z1 c (nth_error_In _ _ N)) as [-> | ->]; [discriminate|reflexivity].
    + intros [Hd ->]. replace (first <=? d) with true by lia. reflexivity.
Qed.
Print Assumptions C08_make_bitfield.

(* 2022-01-01 .. 2022-01-03 with mask 101 *)
Definition ex_cal (mask : list ascii) (first : Z) : bf :=
  match make_bitfield first (first + Z.of_nat (List.length mask) - 1) mask with
  | Ok b => b | _ => mkbf 0 0 0 end.
Definition ex_mask : list ascii := ["1"; "0"; "1"]%char.
Example ex_C08 : bf_get_set_days (ex_cal ex_mask 18993) = Ok [18993; 18995] /\
                 bf_at (ex_cal ex_mask 18993) 18994 = Ok false /\
                 bf_at (ex_cal ex_mask 18993) 18996 = Throw.
Proof. vm_compute. repeat split; reflexivity. Qed.
Example ex_built : built (ex_cal ex_mask 18993).
Proof.
  apply (built_make 18993 18995 ex_mask); [vm_compute; split; congruence| vm_compute; split; congruence|].
  vm_compute. reflexivity.
Qed.

(* ---- C09 ---- *)

Theorem C09_set_changes_one_day :
  forall b d v, built b -> date_ok d ->
    Z.max (bf_last b) d - Z.min (bf_first b) d < 512 ->
    exists b', bf_set b d v = Ok b' /\ built b' /\
      bf_first b' = Z.min (bf_first b) d /\ bf_last b' = Z.max (bf_last b) d /\
      bf_at b' d = Ok v /\
      (forall e, e <> d -> covered b e -> bf_at b' e = bf_at b e) /\
      (forall e, e <> d -> covered b' e -> ~ covered b e -> bf_at b' e = Ok false).
Proof.
  intros b d v B D H. pose proof (built_ok b B) as K. unfold date_ok in D.
  destruct (set_ok b d v K D H) as [b' [E [K' [F [L M]]]]].
  exists b'. split; [exact E|]. split; [exact (built_set b d v b' B D E)|].
  split; [exact F|]. split; [exact L|]. pose proof (ok_le b K). split; [|split].
  - rewrite at_ok by (try assumption; lia). rewrite M, Z.eqb_refl. reflexivity.
  - unfold covered. intros e Ne C. rewrite !at_ok by (try assumption; lia). rewrite M.
    replace (d =? e) with false by lia. reflexivity.
  - unfold covered. intros e Ne C NC. rewrite at_ok by (try assumption; lia). rewrite M.
    replace (d =? e) with false by lia. destruct (mem b e) eqn:X; [|reflexivity].
    apply (mem_range b e K) in X. lia.
Qed.
Print Assumptions C09_set_changes_one_day.

(* A day that does not fit into 512 days is rejected, not silently dropped
   (debug build). *)
Theorem C09_set_beyond_capacity :
  forall b d v, built b -> date_ok d ->
    512 <= Z.max (bf_last b) d - Z.min (bf_first b) d -> bf_set b d v = Throw.
Proof.
  intros b d v B D H. pose proof (built_ok b B) as K. unfold date_ok in D. destruct K as [L1 L2 L3 L4 _].
  unfold bf_set, in_range. destruct (Z.ltb_spec d (bf_first b)) as [A|A].
  - cbn [Z.ltb Z.compare]. rewrite distance_ok by lia. cbn [bind bf_first bf_last].
    rewrite distance_ok by lia. cbn [bind]. unfold BITSIZE.
    replace (Z.to_N (bf_last b - d) <? 512)%N with false by lia. reflexivity.
  - destruct (Z.leb_spec d (bf_last b)) as [C|C]; [lia|]. cbn [Z.ltb Z.compare bind bf_first bf_last].
    rewrite distance_ok by lia. cbn [bind]. unfold BITSIZE.
    replace (Z.to_N (d - bf_first b) <? 512)%N with false by lia. reflexivity.
Qed.
Print Assumptions C09_set_beyond_capacity.

(* extending to the left and to the right *)
Example ex_C09 :
  (do b1 <- bf_set (ex_cal ex_mask 18993) 18990 true;
   do b2 <- bf_set b1 19001 true;
   do b3 <- bf_set b2 18993 false; bf_get_set_days b3) = Ok [18990; 18995; 19001].
Proof. vm_compute. reflexivity. Qed.

(* ---- C10 ---- *)

Theorem C10_union :
  forall a b, built a -> built b ->
    Z.max (bf_last a) (bf_last b) - Z.min (bf_first a) (bf_first b) < 512 ->
    exists c, bf_or a b = Ok c /\ built c /\
      bf_first c = Z.min (bf_first a) (bf_first b) /\ bf_last c = Z.max (bf_last a) (bf_last b) /\
      (forall d, runs c d <-> runs a d \/ runs b d).
Proof.
  intros a b A B H. pose proof (built_ok a A) as Ka. pose proof (built_ok b B) as Kb.
  destruct (or_ok a b Ka Kb H) as [c [E [K [F [L M]]]]].
  exists c. split; [exact E|]. split; [exact (built_or a b c A B E)|].
  split; [exact F|]. split; [exact L|]. intros d. unfold runs.
  rewrite !at_true by assumption. rewrite M, orb_true_iff. reflexivity.
Qed.
Print Assumptions C10_union.

Example ex_C10 :
  (do c <- bf_or (ex_cal ex_mask 18993) (ex_cal ex_mask 18990); bf_get_set_days c)
  = Ok [18990; 18992; 18993; 18995].
Proof. vm_compute. reflexivity. Qed.

(* ---- C11 ---- *)

(* day number of a time: whole days since the epoch *)
Definition day (t : N) : Z := Z.of_N t / 86400.

Lemma day_day_of t : day_of t = day t.
Proof. rewrite day_of_eq. unfold day. rewrite N2Z.inj_div. reflexivity. Qed.

Theorem C11_window :
  forall b t1 t2, built b -> (t1 <= t2)%N -> (t2 < 2 ^ 32)%N ->
    exists l, bf_window b t1 t2 = Ok l /\ StronglySorted Z.lt l /\
      forall d, In d l <-> runs b d /\ day t1 <= d <= day t2.
Proof.
  intros b t1 t2 B H1 H2. pose proof (built_ok b B) as K.
  destruct (window_ok b t1 t2 K H1) as [l [E [S I]]]; [exact H2|].
  exists l. split; [exact E|]. split; [exact S|]. intros d. rewrite I, !day_day_of.
  unfold runs. rewrite at_true by exact K. tauto.
Qed.
Print Assumptions C11_window.

Theorem C11_iterate_all :
  forall b, built b ->
    exists l, bf_iterate b = Ok l /\ StronglySorted Z.lt l /\ forall d, In d l <-> runs b d.
Proof.
  intros b B. pose proof (built_ok b B) as K. destruct (iterate_ok b K) as [l [E [S I]]].
  exists l. split; [exact E|]. split; [exact S|]. intros d. rewrite I. unfold runs.
  rewrite at_true by exact K. reflexivity.
Qed.
Print Assumptions C11_iterate_all.

Example ex_C11 :
  bf_window (ex_cal (ex_mask ++ ex_mask) 18993) (18994 * 86400 + 5) (18996 * 86400 + 7) = Ok [18995; 18996].
Proof. vm_compute. reflexivity. Qed.

(* ---- C12 ---- *)

Theorem C12_count_first_last :
  forall b, built b ->
    exists l, bf_get_set_days b = Ok l /\ (forall d, In d l <-> runs b d) /\ NoDup l /\
      bf_count b = N.of_nat (List.length l) /\
      (l <> [] -> 0 <= bf_first b -> bf_last b <= 49710 ->
       exists lo hi, runs b lo /\ runs b hi /\ (forall d, runs b d -> lo <= d <= hi) /\
         bf_first_set_date b = Ok (Z.to_N (lo * 86400)) /\
         bf_last_set_date b = Ok (Z.to_N (hi * 86400))).
Proof.
  intros b B. pose proof (built_ok b B) as K. destruct (set_days_ok b K) as [l [E [S [I C]]]].
  exists l. split; [exact E|].
  assert (I' : forall d, In d l <-> runs b d).
  { intros d. rewrite I. unfold runs. rewrite at_true by exact K. reflexivity. }
  split; [exact I'|]. split.
  { clear - S. induction S as [|a l S IH F]; constructor; [|exact IH].
    rewrite Forall_forall in F. intros X. apply F in X. lia. }
  split; [exact C|]. intros Ne Lo Hi.
  destruct l as [|d0 l]; [congruence|].
  assert (M0 : mem b d0 = true) by (apply I; left; reflexivity).
  destruct (first_set_ok b d0 K M0) as [lo [E1 [M1 X1]]].
  destruct (last_set_ok b d0 K M0) as [hi [E2 [M2 X2]]].
  exists lo, hi. unfold runs. rewrite !at_true by exact K.
  split; [exact M1|]. split; [exact M2|].
  pose proof (mem_range b lo K M1). pose proof (mem_range b hi K M2). split; [|split].
  - intros d Hd. apply at_true in Hd; [|exact K]. split; [apply X1|apply X2]; exact Hd.
  - rewrite E1, day_to_abs_ok by lia. reflexivity.
  - rewrite E2, day_to_abs_ok by lia. reflexivity.
Qed.
Print Assumptions C12_count_first_last.

Example ex_C12 :
  let b := ex_cal ["0"; "1"; "1"; "0"; "1"; "0"]%char 18993 in
  bf_count b = 3%N /\ bf_first_set_date b = Ok (18994 * 86400)%N /\
  bf_last_set_date b = Ok (18997 * 86400)%N.
Proof. vm_compute. repeat split; reflexivity. Qed.

(* ---- C13: equivalent ---- *)

(* The full statement is false: the shifted copy is thrown away, so two
   calendars with the same days but different covered ranges are reported as
   different. *)
Theorem C13_equivalent_refuted :
  exists a b, built a /\ built b /\ (forall d, runs a d <-> runs b d) /\
              bf_equivalent a b = Ok false.
Proof.
  exists (ex_cal ["0"; "1"]%char 18993), (ex_cal ["1"]%char 18994).
  assert (Ba : built (ex_cal ["0"; "1"]%char 18993)).
  { apply (built_make 18993 18994 ["0"; "1"]%char); [vm_compute; split; congruence|vm_compute; split; congruence|].
    vm_compute. reflexivity. }
  assert (Bb : built (ex_cal ["1"]%char 18994)).
  { apply (built_make 18994 18994 ["1"]%char); [vm_compute; split; congruence|vm_compute; split; congruence|].
    vm_compute. reflexivity. }
  split; [exact Ba|]. split; [exact Bb|]. split; [|vm_compute; reflexivity].
  intros d. destruct (set_days_ok _ (built_ok _ Ba)) as [la [Ea [_ [Ia _]]]].
  destruct (set_days_ok _ (built_ok _ Bb)) as [lb [Eb [_ [Ib _]]]].
  unfold runs. rewrite !at_true by (apply built_ok; assumption). rewrite <- Ia, <- Ib.
  assert (bf_get_set_days (ex_cal ["0"; "1"]%char 18993) = bf_get_set_days (ex_cal ["1"]%char 18994))
    by (vm_compute; reflexivity).
  assert (la = lb) by congruence. subst. reflexivity.
Qed.
Print Assumptions C13_equivalent_refuted.

(* What holds: no false positives, and it is exact on equal ranges. *)
Theorem C13_equivalent_partial :
  forall a b, built a -> built b ->
    exists r, bf_equivalent a b = Ok r /\
      (r = true -> forall d, runs a d <-> runs b d) /\
      (bf_first a = bf_first b -> bf_last a = bf_last b ->
       (forall d, runs a d <-> runs b d) -> r = true).
Proof.
  intros a b A B. pose proof (built_ok a A) as Ka. pose proof (built_ok b B) as Kb.
  exists (bf_eqb a b). split; [apply equivalent_eq; assumption|]. split.
  - intros E. apply bf_eqb_spec in E. subst b. tauto.
  - intros F L R. apply bf_eqb_spec.
    assert (bf_bits a = bf_bits b).
    { apply bits_ext; try assumption. intros d. specialize (R d). unfold runs in R.
      rewrite !at_true in R by assumption. destruct (mem a d), (mem b d); try reflexivity.
      - symmetry. apply R. reflexivity.
      - apply R. reflexivity. }
    destruct a, b; cbn in *; congruence.
Qed.
Print Assumptions C13_equivalent_partial.

(* ---- C14: departures ---- *)

(* a train with a built calendar between 1970 and 2106 and valid times *)
Definition good_train (t : train) : Prop :=
  built (tr_days t) /\ 0 <= bf_first (tr_days t) /\ bf_last (tr_days t) <= 49710 /\
  tr_first_departure t <> REL_INVALID /\ tr_last_arrival t <> REL_INVALID.
(* no event of the train lies beyond the last representable time *)
Definition in_epoch (t : train) : Prop :=
  bf_last (tr_days t) * 86400 + Z.of_N (N.max (tr_first_departure t) (tr_last_arrival t)) < 2 ^ 32.
(* the trip of service day d shares a moment with the interval *)
Definition trip_overlaps (t : train) (iv : interval) (d : Z) : Prop :=
  Z.of_N (iv_start iv) <= d * 86400 + Z.of_N (tr_last_arrival t) /\
  d * 86400 + Z.of_N (tr_first_departure t) <= Z.of_N (iv_end iv).
Definition good_interval (iv : interval) : Prop := (iv_start iv <= iv_end iv < 2 ^ 32)%N.

Lemma good_ok t : good_train t -> train_ok t.
Proof. intros [B [L [U [D A]]]]. constructor; try assumption. apply built_ok, B. Qed.

(* Exact characterisation of what departures() yields. Missing from the full
   property: trips that started on a day before the interval's first day. *)
Theorem C14_departures_partial :
  forall t iv, good_train t -> in_epoch t -> good_interval iv ->
    exists l, departures t iv = Ok l /\ StronglySorted N.lt l /\
      forall a, In a l <-> exists d, a = Z.to_N (d * 86400) /\ runs (tr_days t) d /\
                           trip_overlaps t iv d /\ day (iv_start iv) <= d.
Proof.
  intros t iv G W [V1 V2]. pose proof (good_ok t G) as K. unfold in_epoch in W.
  change (2 ^ 32) with 4294967296 in W.
  destruct (departures_ok t iv K V1 V2) as [l [E [S I]]].
  exists l. split; [exact E|]. split; [exact S|]. intros a. rewrite I.
  pose proof (tk_days t K) as Kb. pose proof (tk_lo t K). pose proof (tk_hi t K).
  split.
  - intros [d [-> [M [D O]]]]. exists d. pose proof (mem_range _ d Kb M).
    rewrite day_to_abs_ok by lia. split; [reflexivity|]. unfold runs. rewrite at_true by exact Kb.
    split; [exact M|]. split; [apply (ov_spec t iv d K M W), O|]. rewrite <- day_day_of. lia.
  - intros [d [-> [R [O D]]]]. unfold runs in R. apply at_true in R; [|exact Kb].
    exists d. pose proof (mem_range _ d Kb R).
    rewrite day_to_abs_ok by lia. split; [reflexivity|]. split; [exact R|].
    split; [|apply (ov_spec t iv d K R W), O]. rewrite day_day_of. split; [exact D|].
    apply day_of_le; [lia|]. destruct O. lia.
Qed.
Print Assumptions C14_departures_partial.

(* The full property for trains that arrive on the day they depart. *)
Theorem C14_departures_same_day :
  forall t iv, good_train t -> in_epoch t -> good_interval iv -> (tr_last_arrival t < 86400)%N ->
    exists l, departures t iv = Ok l /\ StronglySorted N.lt l /\
      forall a, In a l <-> exists d, a = Z.to_N (d * 86400) /\ runs (tr_days t) d /\
                           trip_overlaps t iv d.
Proof.
  intros t iv G W V A. destruct (C14_departures_partial t iv G W V) as [l [E [S I]]].
  exists l. split; [exact E|]. split; [exact S|]. intros a. rewrite I. split.
  - intros [d [X [R [O _]]]]. exists d. auto.
  - intros [d [X [R O]]]. exists d. split; [exact X|]. split; [exact R|]. split; [exact O|].
    destruct O as [O _]. unfold day.
    assert (Z.of_N (iv_start iv) / 86400 < d + 1) by (apply Z.div_lt_upper_bound; lia). lia.
Qed.
Print Assumptions C14_departures_same_day.

(* 2022-01-01 .. 2022-01-03, departing 22:00, arriving 06:00 the next day *)
Definition ex_train : train := mktrain 0 (ex_cal ["1"; "1"; "1"]%char 18993) 79200 108000.
Definition ex_iv : interval := mkint (18994 * 86400 + 3600) (18994 * 86400 + 7200).

Lemma ex_train_good : good_train ex_train /\ in_epoch ex_train.
Proof.
  split; [|vm_compute; reflexivity].
  split; [|vm_compute; repeat split; congruence].
  apply (built_make 18993 18995 ["1"; "1"; "1"]%char); [vm_compute; split; congruence|vm_compute; split; congruence|].
  vm_compute. reflexivity.
Qed.

(* The full property is false: the trip of 2022-01-01 is under way on
   2022-01-02 between 01:00 and 02:00, but departures() does not report it. *)
Theorem C14_departures_overnight_refuted :
  exists t iv d, good_train t /\ in_epoch t /\ good_interval iv /\
    runs (tr_days t) d /\ trip_overlaps t iv d /\ departures t iv = Ok [].
Proof.
  exists ex_train, ex_iv, 18993. destruct ex_train_good as [G W].
  split; [exact G|]. split; [exact W|]. split; [vm_compute; split; congruence|].
  split; [vm_compute; reflexivity|]. split; [vm_compute; split; congruence|].
  vm_compute. reflexivity.
Qed.
Print Assumptions C14_departures_overnight_refuted.

Example ex_C14 : departures ex_train (mkint (18993 * 86400) (18994 * 86400 + 80000))
                 = Ok [18993 * 86400; 18994 * 86400]%N.
Proof. vm_compute. reflexivity. Qed.

(* ---- C15: trips ---- *)

Theorem C15_trips :
  forall t, good_train t ->
    exists l, trips t = Ok l /\ NoDup l /\
      (forall i a, In (i, a) l <-> i = tr_id t /\
         exists d, runs (tr_days t) d /\ a = Z.to_N (d * 86400)) /\
      trip_count t = N.of_nat (List.length l).
Proof.
  intros t G. pose proof (good_ok t G) as K. destruct (departures_all t K) as [l [E [S [I C]]]].
  unfold trips. rewrite E. cbn [bind]. eexists. split; [reflexivity|]. split; [|split].
  - assert (ND : NoDup l).
    { clear - S. induction S as [|a l S IH F]; constructor; [|exact IH].
      rewrite Forall_forall in F. intros X. apply F in X. lia. }
    apply Injective_map_NoDup; [|exact ND]. intros x y [= ->]. reflexivity.
  - pose proof (tk_days t K) as Kb. pose proof (tk_lo t K). pose proof (tk_hi t K).
    intros i a. rewrite in_map_iff. split.
    + intros [a' [[= <- <-] Ia]]. split; [reflexivity|]. apply I in Ia. destruct Ia as [d [-> M]].
      exists d. pose proof (mem_range _ d Kb M). unfold runs. rewrite at_true by exact Kb.
      split; [exact M|]. apply day_to_abs_ok. lia.
    + intros [-> [d [R ->]]]. unfold runs in R. apply at_true in R; [|exact Kb].
      pose proof (mem_range _ d Kb R). exists (Z.to_N (d * 86400)). split; [reflexivity|].
      apply I. exists d. split; [symmetry; apply day_to_abs_ok; lia|exact R].
  - unfold trip_count. rewrite C, map_length. reflexivity.
Qed.
Print Assumptions C15_trips.

(* first_absolute_departure / last_absolute_arrival bound all trips *)
Theorem C15_first_departure_last_arrival :
  forall t d0, good_train t -> in_epoch t -> runs (tr_days t) d0 ->
    exists lo hi, runs (tr_days t) lo /\ runs (tr_days t) hi /\
      (forall d, runs (tr_days t) d -> lo <= d <= hi) /\
      first_absolute_departure t = Ok (Z.to_N (lo * 86400) + tr_first_departure t)%N /\
      last_absolute_arrival t = Ok (Z.to_N (hi * 86400) + tr_last_arrival t)%N.
Proof.
  intros t d0 G W R. pose proof (good_ok t G) as K. destruct G as [B [Lo [Hi [Dv Av]]]].
  unfold in_epoch in W. change (2 ^ 32) with 4294967296 in W.
  destruct (C12_count_first_last _ B) as [l [E [I [_ [_ X]]]]].
  destruct X as [lo [hi [R1 [R2 [All [E1 E2]]]]]]; [|exact Lo|exact Hi|].
  { intros ->. apply I in R. destruct R. }
  exists lo, hi. split; [exact R1|]. split; [exact R2|]. split; [exact All|].
  pose proof (built_ok _ B) as Kb. unfold runs in R1, R2. apply at_true in R1; [|exact Kb]. apply at_true in R2; [|exact Kb].
  pose proof (mem_range _ _ Kb R1). pose proof (mem_range _ _ Kb R2).
  unfold first_absolute_departure, last_absolute_arrival, first_departure, last_arrival.
  rewrite E1, E2. cbn [bind].
  replace (tr_first_departure t =? REL_INVALID)%N with false by lia.
  replace (tr_last_arrival t =? REL_INVALID)%N with false by lia.
  cbn [negb sassert bind]. unfold relative_to_absolute. rewrite !add32_small by (rewrite M32_eq; lia).
  split; reflexivity.
Qed.
Print Assumptions C15_first_departure_last_arrival.

(* a train without a valid first departure or last arrival is refused *)
Theorem C15_invalid_refused : forall t,
  (tr_first_departure t = REL_INVALID -> first_departure t = Throw /\
    forall x, first_absolute_departure t <> Ok x) /\
  (tr_last_arrival t = REL_INVALID -> last_arrival t = Throw /\
    forall x, last_absolute_arrival t <> Ok x).
Proof.
  intros t. split; intros H.
  - assert (E : first_departure t = Throw) by (unfold first_departure; rewrite H; reflexivity).
    split; [exact E|]. intros x K. unfold first_absolute_departure in K.
    apply bind_Ok in K. destruct K as (d & _ & K). rewrite E in K. discriminate K.
  - assert (E : last_arrival t = Throw) by (unfold last_arrival; rewrite H; reflexivity).
    split; [exact E|]. intros x K. unfold last_absolute_arrival in K.
    apply bind_Ok in K. destruct K as (d & _ & K). rewrite E in K. discriminate K.
Qed.
Print Assumptions C15_invalid_refused.

(* an iterator over departures that is at its end is not moved further *)
Theorem C14_end_not_advanced : forall t iv e, bf_end (tr_days t) = Ok e -> train_it_inc t iv e = Throw.
Proof.
  intros t iv e H. unfold train_it_inc. rewrite H. cbn [bind]. rewrite N.eqb_refl. reflexivity.
Qed.
Print Assumptions C14_end_not_advanced.

Example ex_C15 : trips ex_train = Ok [(0, 18993 * 86400); (0, 18994 * 86400); (0, 18995 * 86400)]%N /\
                 trip_count ex_train = 3%N.
Proof. vm_compute. split; reflexivity. Qed.
