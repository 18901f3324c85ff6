(* C74: numbers in texts.  C75: the rolling stock.  C76: the physics of the
   trains of a timetable. *)
From Coq Require Import Ascii String Lqa.
From Verif Require Import Base TextModel PhysModel PhysSpec PhysProofs KssModel KssDates StockModel StockSpec StockText StockProofs.
Local Open Scope Q_scope.

(* ---- C74 ---- *)
(* A text is accepted exactly if it is a number in decimal notation (with
   decimal comma only on request), and then its value is delivered; every other
   text throws. *)
Theorem C74_parse_fp : forall comma s v,
  ((exists v', parse_fp comma s = Ok v' /\ v' == v) <-> fp_text comma s v) /\
  ((forall w, ~ fp_text comma s w) -> parse_fp comma s = Throw).
Proof.
  intros comma s v. split; [apply parse_fp_iff|]. intros N.
  destruct (parse_fp_total comma s) as [(w & H)|H]; [|exact H]. exfalso. exact (N w (parse_fp_reads _ _ _ H)).
Qed.
Print Assumptions C74_parse_fp.
(* a text has at most one value, and asking for decimal commas changes no value *)
Theorem C74_one_value : forall s,
  (forall comma v w, fp_text comma s v -> fp_text comma s w -> v == w) /\
  (forall v, parse_fp false s = Ok v -> parse_fp true s = Ok v).
Proof.
  intros s. split; [intros comma v w; apply fp_text_det|].
  unfold parse_fp. intros v H. destruct (negb (contains_char s ",")) eqn:C; [|discriminate]. cbn [sassert bind] in H.
  change (detail_parse_fp (map dot s) = Ok v). rewrite dot_id; [exact H|].
  intros c I. apply negb_true_iff in C. unfold contains_char in C.
  destruct (Ascii.eqb c ",") eqn:E; [|reflexivity].
  rewrite (proj2 (existsb_exists _ _)) in C; [discriminate|]. exists c. auto.
Qed.
Print Assumptions C74_one_value.
Example C74_sat :
  parse_fp true (list_ascii_of_string "-12,50") = Ok (-(1250 * (1 # 100))) /\
  fp_text true (list_ascii_of_string "-12,50") (-(25 # 2)) /\
  parse_fp false (list_ascii_of_string "-12,50") = Throw /\
  parse_fp false (list_ascii_of_string "-12.50e1") = Ok (-(1250 * (1 # 10))) /\
  parse_fp true (list_ascii_of_string "12,5km") = Throw /\ parse_fp true [] = Throw.
Proof.
  split; [reflexivity|]. split; [apply parse_fp_iff; eexists; split; [reflexivity|]; reflexivity|].
  repeat split.
Qed.

(* ---- C75 ---- *)
(* What the lookup of a series, an owner and a variant delivers is a vehicle
   that does what the data sheet of that variant says; the sheet is the first
   usable one of that number under that key.  Every usable variant is found. *)
Theorem C75_lookup : forall fs dv rs, parse_core_data fs = Ok (dv, rs) -> forall s o id,
  (forall tv, get_traction_vehicle rs (c_string s) (c_string o) id = Some tv ->
     exists xs x, In xs (all_series fs) /\ key_of xs = series_key s o /\ variant_for xs id x /\ describes x tv) /\
  (forall xs x, In xs (all_series fs) -> key_of xs = series_key s o -> variant_for xs id x ->
     exists tv, get_traction_vehicle rs (c_string s) (c_string o) id = Some tv /\ describes x tv) /\
  NoDup (map key_of (all_series fs)).
Proof.
  intros fs dv rs H s o id. destruct (lookup_key fs dv rs H s o id) as (L1 & L2).
  destruct (import_parts fs dv rs H) as (tss & _ & _ & _ & ND & _).
  split; [exact L1|]. split; [|exact ND]. intros xs x Hxs Ek (i & V1 & V2 & V3 & V4).
  destruct (L2 xs x Hxs Ek (nth_error_In _ _ V1) V3 V2) as (tv & G). exists tv. split; [exact G|].
  destruct (L1 tv G) as (xs' & x' & A & B & (i' & W1 & W2 & W3 & W4) & D).
  assert (E : xs' = xs).
  { assert (K : forall l : list xseries, NoDup (map key_of l) -> In xs l -> In xs' l -> key_of xs = key_of xs' -> xs' = xs).
    { induction l as [|y l IH]; intros N I I' E; [contradiction|]. cbn [map] in N. inversion N; subst.
      destruct I as [<-|I], I' as [<-|I']; [reflexivity| | |auto]; exfalso; apply H2.
      - rewrite E. apply in_map. exact I'.
      - rewrite <- E. apply in_map. exact I. }
    apply (K _ ND Hxs A). congruence. }
  subst xs'. assert (E : i' = i).
  { destruct (Nat.lt_trichotomy i i') as [L|[L|L]]; [|auto|].
    - exfalso. exact (W4 i x L V1 V3 V2).
    - exfalso. exact (V4 i' x' L W1 W3 W2). }
  subst i'. rewrite V1 in W1. injection W1 as <-. exact D.
Qed.
Print Assumptions C75_lookup.

(* As long as no company number contains a dash, the vehicle found belongs to
   the series and the owner asked for. *)
Theorem C75_right_series_partial : forall fs dv rs, parse_core_data fs = Ok (dv, rs) ->
  (forall xs, In xs (all_series fs) -> ~ has_dash (xs_company xs)) ->
  forall s o id, ~ has_dash o ->
  (forall tv, get_traction_vehicle rs (c_string s) (c_string o) id = Some tv ->
     exists xs x, In xs (all_series fs) /\ xs_nr xs = s /\ xs_company xs = o /\ variant_for xs id x /\ describes x tv) /\
  (get_traction_vehicle rs (c_string s) (c_string o) id = None ->
     forall xs x, In xs (all_series fs) -> xs_nr xs = s -> xs_company xs = o -> ~ variant_for xs id x).
Proof.
  intros fs dv rs H ND s o id No. destruct (C75_lookup fs dv rs H s o id) as (L1 & L2 & _). split.
  - intros tv G. destruct (L1 tv G) as (xs & x & A & B & C & D). exists xs, x.
    destruct (dash_split _ _ _ _ (ND xs A) No B) as (<- & <-). auto.
  - intros G xs x A <- <- V. destruct (L2 xs x A eq_refl V) as (tv & G' & _). congruence.
Qed.
Print Assumptions C75_right_series_partial.

(* The import succeeds exactly if every text that is read is readable and no
   two series are filed under the same name, otherwise it throws. *)
Theorem C75_import : forall fs,
  ((exists r, parse_core_data fs = Ok r) <-> readable_files fs) /\
  (~ readable_files fs -> parse_core_data fs = Throw).
Proof.
  intros fs. split; [apply import_iff|]. intros N.
  destruct (core_oot fs (no_defaults, [])) as [H|H]; [|exact H]. exfalso. apply N. apply import_iff. exact H.
Qed.
Print Assumptions C75_import.

(* The default values are those of the last file that has some. *)
Theorem C75_defaults : forall fs dv rs, parse_core_data fs = Ok (dv, rs) ->
  (all_defaults fs = [] -> dv = no_defaults) /\
  (forall l d, all_defaults fs = l ++ [d] -> defaults_read d dv).
Proof.
  intros fs dv rs H. apply import_parts in H. destruct H as (tss & _ & _ & _ & _ & _ & D). split.
  - intros E. rewrite E in D. exact D.
  - intros l d E. rewrite E, rev_app_distr in D. exact D.
Qed.
Print Assumptions C75_defaults.

Definition tx (s : string) : text := list_ascii_of_string s.
Definition demo_line1 : xfactor := mkxf (tx "0") (tx "36") (tx "250") (tx "-1,5") (tx "0").
Definition demo_line2 : xfactor := mkxf (tx "36") (tx "90") (tx "200") (tx "-1") (tx "0,0025").
Definition demo_variant (id : string) : xvariant :=
  mkxv (tx id) (tx "loco") (tx "84,5") (tx "90") [[demo_line1; demo_line2]] (tx "2") (tx "0,5") (tx "0,25").
Definition demo_gap : xvariant :=
  mkxv (tx "2") (tx "gap") (tx "84,5") (tx "90") [[demo_line1; demo_line1]; [demo_line1; demo_line2]] (tx "2") (tx "0,5") (tx "0,25").
Definition demo_files (nr company : string) (vs : list xvariant) : list core_file :=
  [mkcore (Some (mkxd (tx "D4") (tx "6") (tx "700") (tx "100"))) (Some [mkxs (tx nr) (tx company) vs])].

(* The key runs series and owner together: the owner B-C of the series A gets
   the vehicle of the series A-B of the company C; and the two cannot be
   imported together. *)
Theorem C75_right_series_refuted : exists fs fs2 a b dv rs tv,
  parse_core_data fs = Ok (dv, rs) /\
  get_traction_vehicle rs (c_string (tx "A")) (c_string (tx "B-C")) 1 = Some tv /\
  (forall xs, In xs (all_series fs) -> xs_nr xs <> tx "A" /\ xs_company xs <> tx "B-C") /\
  all_series fs2 = [a; b] /\ xs_nr a <> xs_nr b /\ xs_company a <> xs_company b /\
  (forall xs x, In xs (all_series fs2) -> In x (xs_variants xs) -> readable_variant x) /\
  parse_core_data fs2 = Throw.
Proof.
  exists (demo_files "A-B" "C" [demo_variant "1"]),
         (demo_files "A-B" "C" [] ++ demo_files "A" "B-C" []),
         (mkxs (tx "A-B") (tx "C") []), (mkxs (tx "A") (tx "B-C") []).
  assert (H : match parse_core_data (demo_files "A-B" "C" [demo_variant "1"]) with
    | Ok (dv, rs) => match get_traction_vehicle rs (c_string (tx "A")) (c_string (tx "B-C")) 1 with Some _ => True | None => False end
    | _ => False end) by (vm_compute; exact I).
  destruct (parse_core_data _) as [[dv rs]| | |]; [|contradiction..]. exists dv, rs.
  destruct (get_traction_vehicle _ _ _ _) as [tv|]; [|contradiction]. exists tv.
  split; [reflexivity|]. split; [reflexivity|].
  split; [|split; [reflexivity|split; [discriminate|split; [discriminate|split]]]].
  - intros xs [<-|[]]. split; discriminate.
  - intros xs x [<-|[<-|[]]] [].
  - vm_compute. reflexivity.
Qed.
Print Assumptions C75_right_series_refuted.

(* The numbers of variants are cut to 32 bits without notice: a variant
   4294967297 is delivered for the number 1, before a variant numbered 1; -1 is
   taken for 4294967295. *)
Theorem C75_variant_number_refuted :
  numbered (demo_variant "4294967297") 1 /\ numbered (demo_variant "-1") 4294967295 /\
  exists fs dv rs xs tv, parse_core_data fs = Ok (dv, rs) /\ In xs (all_series fs) /\
    In (demo_variant "1") (xs_variants xs) /\ usable (demo_variant "1") /\
    ~ variant_for xs 1 (demo_variant "1") /\ variant_for xs 1 (demo_variant "4294967297") /\
    get_traction_vehicle rs (c_string (xs_nr xs)) (c_string (xs_company xs)) 1 = Some tv.
Proof.
  assert (N1 : numbered (demo_variant "4294967297") 1) by (apply numbered_iff; vm_compute; reflexivity).
  split; [exact N1|]. split; [apply numbered_iff; vm_compute; reflexivity|].
  pose (vs := [demo_variant "4294967297"; demo_variant "1"]).
  assert (R : match parse_core_data (demo_files "103" "80" vs) with Ok _ => True | _ => False end) by (vm_compute; exact I).
  destruct (parse_core_data (demo_files "103" "80" vs)) as [[dv rs]| | |] eqn:E; [|contradiction..].
  assert (U : forall id, usable (demo_variant id)).
  { intros id. split; [discriminate|].
    destruct (curve_ok (table (demo_variant id)) [_; _] eq_refl) as (_ & C & _).
    destruct C as (_ & C & _); [discriminate|exact C]. }
  assert (V : variant_for (mkxs (tx "103") (tx "80") vs) 1 (demo_variant "4294967297")).
  { exists 0%nat. split; [reflexivity|]. split; [exact N1|]. split; [apply U|]. intros j y J. lia. }
  exists (demo_files "103" "80" vs), dv, rs, (mkxs (tx "103") (tx "80") vs).
  destruct (C75_lookup _ dv rs E (tx "103") (tx "80") 1) as (_ & L & _).
  destruct (L (mkxs (tx "103") (tx "80") vs) (demo_variant "4294967297")) as (tv & G & _);
    [left; reflexivity|reflexivity|exact V|].
  exists tv. split; [exact E|]. split; [left; reflexivity|]. split; [right; left; reflexivity|].
  split; [apply U|]. split; [|auto].
  intros (i & W1 & _ & _ & W4). destruct i as [|i]; [discriminate|].
  exact (W4 0%nat (demo_variant "4294967297") (Nat.lt_0_succ i) eq_refl (U _) N1).
Qed.
Print Assumptions C75_variant_number_refuted.

(* A view that does not end where its text ends is read beyond its end: the
   lookup of the first three characters of 103X fails. *)
Theorem C75_views_refuted : exists fs dv rs tv,
  parse_core_data fs = Ok (dv, rs) /\
  get_traction_vehicle rs (c_string (tx "103")) (c_string (tx "80")) 1 = Some tv /\
  get_traction_vehicle rs (mkview (tx "103") (tx "X")) (c_string (tx "80")) 1 = None.
Proof.
  exists (demo_files "103" "80" [demo_variant "1"]).
  assert (H : match parse_core_data (demo_files "103" "80" [demo_variant "1"]) with
    | Ok (dv, rs) => match get_traction_vehicle rs (c_string (tx "103")) (c_string (tx "80")) 1 with Some _ => True | None => False end /\
        get_traction_vehicle rs (mkview (tx "103") (tx "X")) (c_string (tx "80")) 1 = None
    | _ => False end) by (vm_compute; split; [exact I|reflexivity]).
  destruct (parse_core_data _) as [[dv rs]| | |]; [|contradiction..]. destruct H as (H & K).
  destruct (get_traction_vehicle rs (c_string (tx "103")) _ _) as [tv|] eqn:G; [|contradiction]. exists dv, rs, tv. auto.
Qed.
Print Assumptions C75_views_refuted.

(* The hypotheses are met: a file with a usable variant and one with a gap in
   its first table. *)
Lemma demo_number s w v : parse_fp true s = Ok w -> w == v -> number s v.
Proof. intros H E. exact (fp_text_eq _ _ _ _ (parse_fp_reads _ _ _ H) E). Qed.
Example C75_sat :
  usable (demo_variant "1") /\ ~ usable demo_gap /\ numbered (demo_variant "1") 1 /\ numbered demo_gap 2 /\
  readable_files (demo_files "103" "80" [demo_variant "1"; demo_gap]) /\
  pulls (table (demo_variant "1")) 72 140960 /\ resists (demo_variant "1") 72 (44213 + (67 # 100)) /\
  exists dv rs tv, parse_core_data (demo_files "103" "80" [demo_variant "1"; demo_gap]) = Ok (dv, rs) /\
    get_traction_vehicle rs (c_string (tx "103")) (c_string (tx "80")) 1 = Some tv /\
    get_traction_vehicle rs (c_string (tx "103")) (c_string (tx "80")) 2 = None /\
    dv_brake_path dv = Some 700.
Proof.
  split; [|split; [|split; [|split; [|split; [|split; [|split]]]]]].
  - split; [discriminate|]. destruct (curve_ok (table (demo_variant "1")) [_; _] eq_refl) as (_ & C & _).
    destruct C as (_ & C & _); [discriminate|exact C].
  - intros (A & B). destruct (curve_ok (table demo_gap) [] eq_refl) as (_ & _ & C). exact (C A B eq_refl).
  - apply numbered_iff. vm_compute. reflexivity.
  - apply numbered_iff. vm_compute. reflexivity.
  - apply import_iff. destruct (parse_core_data _) eqn:E; [eauto|vm_compute in E; discriminate..].
  - exists 1%nat, demo_line2, 36, 90, 200, (-(1)), (25 # 10000). split; [reflexivity|].
    split; [repeat split; (eapply demo_number; [reflexivity|reflexivity])|]. split; [lra|]. split; [|vm_compute; reflexivity].
    intros j y h J Hy Nh. destruct j as [|j]; [|lia]. cbn in Hy. injection Hy as <-.
    assert (N36 : number (xf_to demo_line1) 36) by (eapply demo_number; [reflexivity|reflexivity]).
    rewrite (fp_text_det _ _ _ _ Nh N36). lra.
  - exists (845 # 10), 2, (1 # 2), (1 # 4). do 4 (split; [eapply demo_number; [reflexivity|reflexivity]|]). vm_compute. reflexivity.
  - assert (H : match parse_core_data (demo_files "103" "80" [demo_variant "1"; demo_gap]) with
      | Ok (dv, rs) => match get_traction_vehicle rs (c_string (tx "103")) (c_string (tx "80")) 1 with Some _ => True | None => False end /\
          get_traction_vehicle rs (c_string (tx "103")) (c_string (tx "80")) 2 = None /\ dv_brake_path dv = Some 700
      | _ => False end) by (vm_compute; repeat split).
    destruct (parse_core_data _) as [[dv rs]| | |]; [|contradiction..]. destruct H as (H & K).
    destruct (get_traction_vehicle rs _ _ 1) as [tv|] eqn:G; [|contradiction]. exists dv, rs, tv. auto.
Qed.

(* ---- C76 ---- *)
(* A train of a timetable that is accepted has one vehicle per unit, each by the
   data sheet of its unit; its forces are the sums of the forces on the sheets,
   its speed the least of all. *)
Theorem C76_train : forall fs dv rs x tp, parse_core_data fs = Ok (dv, rs) ->
  parse_characteristic rs x = Ok (Some tp) ->
  exists sheets, Forall2 (unit_is fs) (xc_units x) sheets /\
    (forall v F, tractive_force (tp_physics tp) v = Ok F ->
       exists Fs, Forall2 (fun s F => pulls (table s) ((36 # 10) * v) F) sheets Fs /\ F == total Fs) /\
    (forall v Fs, Forall2 (fun s F => pulls (table s) ((36 # 10) * v) F) sheets Fs ->
       exists F, tractive_force (tp_physics tp) v = Ok F /\ F == total Fs) /\
    (forall v, exists Rs, Forall2 (fun s R => resists s ((36 # 10) * v) R) sheets Rs /\
       resistive_force (tp_physics tp) v == total Rs) /\
    (forall m, max_speed (tp_physics tp) = Ok m -> slowest_of x sheets m) /\
    (xc_units x <> [] -> (exists m, max_speed (tp_physics tp) = Ok m) /\ deacceleration (tp_physics tp) = Ok (- (7 # 10))) /\
    fp_text false (xc_weight x) (tp_weight (tp_physics tp) / 1000) /\ fp_text false (xc_length x) (tp_length tp) /\
    (tp_freight tp = true <-> xc_stop_mode x = tx "G") /\ (tp_ctc tp = true <-> xc_protection x = tx "true").
Proof.
  intros fs dv rs x tp H P. unfold parse_characteristic in P. apply bind_Ok in P. destruct P as (us & Hus & P).
  destruct us as [tvs|]; [|discriminate].
  apply bind_Ok in P. destruct P as (len & Hl & P). apply bind_Ok in P. destruct P as (w & Hw & P).
  apply bind_Ok in P. destruct P as (k & Hk & P). injection P as <-.
  pose proof (units_ok fs dv rs H _ _ Hus) as (sheets & U & D).
  apply parse_fp_reads in Hl. apply parse_fp_reads in Hw. apply parse_fp_reads in Hk.
  exists sheets. cbn [tp_physics tp_weight tp_length tp_freight tp_ctc].
  split; [exact U|]. split; [|split; [|split; [|split; [|split; [|split; [|split; [exact Hl|split]]]]]]].
  - intros v F T. apply (tractive_total _ _ v D 0) in T. destruct T as (Fs & A & B). exists Fs. split; [exact A|]. rewrite B. ring.
  - intros v Fs A. destruct (proj2 (tractive_total _ _ v D 0) Fs A) as (F & E & B). exists F. split; [exact E|]. rewrite B. ring.
  - intros v. destruct (resistive_total _ _ v D 0) as (Rs & A & B). exists Rs. split; [exact A|]. unfold resistive_force. cbn [tp_vehicles]. rewrite B. ring.
  - intros m M. apply max_speed_spec in M. destruct M as ((M1 & M2 & M3 & _) & _). cbn [tp_max tp_vehicles] in *.
    pose proof (Forall2_nth _ _ _ D) as (D1 & D2).
    assert (KM : forall V, fp_text false (xc_speed x) V -> V == (36 # 10) * from_km_h k).
    { intros V N. rewrite (fp_text_det _ _ _ _ N Hk). unfold from_km_h, Qdiv. change (/ (36 # 10)) with (10 # 36). ring. }
    split; [|split].
    + intros V N. rewrite (KM V N). lra.
    + intros s V Hs N. apply In_nth_error in Hs. destruct Hs as (i & Hs). destruct (D1 i s Hs) as (tv & Htv & _ & _ & Sp & _).
      rewrite (fp_text_det _ _ _ _ N Sp). specialize (M2 (tv_vehicle tv) (in_map _ _ _ (nth_error_In _ _ Htv))). lra.
    + destruct M3 as [-> |(vh & Hvh & ->)].
      * left. apply (fp_text_eq _ _ _ _ Hk). unfold from_km_h, Qdiv. change (/ (36 # 10)) with (10 # 36). ring.
      * right. apply in_map_iff in Hvh. destruct Hvh as (tv & <- & Htv). apply In_nth_error in Htv. destruct Htv as (i & Htv).
        destruct (D2 i tv Htv) as (s & Hs & _ & _ & Sp & _). exists s. split; [exact (nth_error_In _ _ Hs)|exact Sp].
  - intros NE. destruct D as [|s tv sheets tvs Ds D]; [inversion U; congruence|]. split.
    + apply max_speed_total. cbn [tp_vehicles map]. discriminate.
    + unfold deacceleration. cbn [tp_vehicles map]. destruct Ds as (_ & _ & _ & -> & _). reflexivity.
  - apply (fp_text_eq _ _ _ _ Hw). unfold from_ton, Qdiv. change (/ 1000) with (1 # 1000). ring.
  - apply str_eqb_eq.
  - apply str_eqb_eq.
Qed.
Print Assumptions C76_train.

(* It is accepted exactly if every unit has a data sheet and the numbers can be
   read; it is reported as not found exactly if there is a first unit without
   one; else reading it throws. *)
Theorem C76_accepted : forall fs dv rs x, parse_core_data fs = Ok (dv, rs) ->
  ((exists tp, parse_characteristic rs x = Ok (Some tp)) <->
   (exists sheets, Forall2 (unit_is fs) (xc_units x) sheets) /\
   (exists l, fp_text false (xc_length x) l) /\ (exists w, fp_text false (xc_weight x) w) /\
   (exists s, fp_text false (xc_speed x) s)) /\
  (parse_characteristic rs x = Ok None <->
   exists a u b sheets, xc_units x = a ++ u :: b /\ Forall2 (unit_is fs) a sheets /\ numbered_unit u /\
     forall y, ~ unit_is fs u y) /\
  ((exists r, parse_characteristic rs x = Ok r) \/ parse_characteristic rs x = Throw).
Proof.
  intros fs dv rs x H. unfold parse_characteristic. split; [split|split; [split|]].
  - intros (tp & P). apply bind_Ok in P. destruct P as (us & Hus & P). destruct us as [tvs|]; [|discriminate].
    apply bind_Ok in P. destruct P as (len & Hl & P). apply bind_Ok in P. destruct P as (w & Hw & P).
    apply bind_Ok in P. destruct P as (k & Hk & P).
    pose proof (units_ok fs dv rs H _ _ Hus) as (sheets & U & _).
    apply parse_fp_reads in Hl. apply parse_fp_reads in Hw. apply parse_fp_reads in Hk. repeat split; eauto.
  - intros ((sheets & U) & (l & L) & (w & W) & (s & S)). destruct (units_all fs dv rs _ _ H U) as (tvs & ->). cbn [bind].
    apply parse_fp_iff in L. apply parse_fp_iff in W. apply parse_fp_iff in S.
    destruct L as (l' & -> & _). cbn [bind]. destruct W as (w' & -> & _). cbn [bind]. destruct S as (s' & -> & _). cbn [bind]. eauto.
  - intros P. apply bind_Ok in P. destruct P as (us & Hus & P). destruct us as [tvs|].
    + apply bind_Ok in P. destruct P as (len & Hl & P). apply bind_Ok in P. destruct P as (w & Hw & P).
      apply bind_Ok in P. destruct P as (k & Hk & P). discriminate.
    + exact (units_ok fs dv rs H _ _ Hus).
  - intros (a & u & b & sheets & -> & A & B & C). rewrite (units_none fs dv rs a u b sheets H A B C). reflexivity.
  - apply bind_oot; [apply units_oot|]. intros [tvs|] _; [|apply ok_oot].
    do 3 (apply bind_oot; [apply fp_oot|intros ? _]). apply ok_oot.
Qed.
Print Assumptions C76_accepted.

(* A train without traction units is accepted, but has no speed and no braking
   rate: both are read through an invalid iterator. *)
Theorem C76_no_units_refuted : forall rs, exists x tp,
  parse_characteristic rs x = Ok (Some tp) /\ max_speed (tp_physics tp) = UB /\ deacceleration (tp_physics tp) = UB.
Proof.
  intros rs. exists (mkxc [] (tx "100") (tx "400") (tx "80") (tx "G") (tx "false")). eexists.
  split; [reflexivity|]. split; reflexivity.
Qed.
Print Assumptions C76_no_units_refuted.

Example C76_sat : exists dv rs tp,
  parse_core_data (demo_files "103" "80" [demo_variant "1"; demo_gap]) = Ok (dv, rs) /\
  parse_characteristic rs (mkxc [mkxu (tx "103") (tx "80") (tx "1"); mkxu (tx "103") (tx "80") (tx "1")]
     (tx "300") (tx "1200.5") (tx "80") (tx "G") (tx "true")) = Ok (Some tp) /\
  (exists F, tractive_force (tp_physics tp) 20 = Ok F /\ F == 2 * 140960) /\
  max_speed (tp_physics tp) = Ok (80 / (36 # 10)) /\ tp_freight tp = true /\
  parse_characteristic rs (mkxc [mkxu (tx "103") (tx "80") (tx "2")]
     (tx "300") (tx "1200.5") (tx "80") (tx "G") (tx "true")) = Ok None.
Proof.
  assert (H : match parse_core_data (demo_files "103" "80" [demo_variant "1"; demo_gap]) with
    | Ok (dv, rs) =>
        match parse_characteristic rs (mkxc [mkxu (tx "103") (tx "80") (tx "1"); mkxu (tx "103") (tx "80") (tx "1")]
           (tx "300") (tx "1200.5") (tx "80") (tx "G") (tx "true")) with
        | Ok (Some tp) => (match tractive_force (tp_physics tp) 20 with Ok F => F == 2 * 140960 | _ => False end) /\
            max_speed (tp_physics tp) = Ok (80 / (36 # 10)) /\ tp_freight tp = true
        | _ => False end /\
        parse_characteristic rs (mkxc [mkxu (tx "103") (tx "80") (tx "2")]
          (tx "300") (tx "1200.5") (tx "80") (tx "G") (tx "true")) = Ok None
    | _ => False end) by (vm_compute; repeat split).
  destruct (parse_core_data _) as [[dv rs]| | |]; [|contradiction..]. exists dv, rs.
  destruct H as (H & K). destruct (parse_characteristic rs (mkxc [_; _] _ _ _ _ _)) as [[tp|]| | |]; [|contradiction..].
  destruct H as (H1 & H2 & H3). exists tp. split; [reflexivity|]. split; [reflexivity|]. split; [|auto].
  destruct (tractive_force (tp_physics tp) 20) as [F| | |]; [|contradiction..]. eauto.
Qed.
