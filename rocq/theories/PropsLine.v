(* C47: segments of lines; C48: bounding boxes; C62: import of lines. *)
From Coq Require Import Lqa Sorting.Sorted.
From Verif Require Import Base LineModel LineProofs.
Local Open Scope Z_scope.

(* ---- vocabulary ---- *)
(* every segment starts where, or before, the segment in front of it ends, but not
   before that one starts *)
Fixpoint contiguous (l : list segment) : Prop :=
  match l with
  | s :: ((t :: _) as l') => (sg_from s <= sg_from t <= sg_to s)%Q /\ contiguous l'
  | _ => True
  end.
Definition covers (s : segment) (km : Q) : Prop := (sg_from s <= km <= sg_to s)%Q.
(* where kilometrages lie *)
Definition below (l : list segment) (km : Q) : Prop := exists s r, l = s :: r /\ (km < sg_from s)%Q.
Definition beyond (l : list segment) (km : Q) : Prop := exists r s, l = r ++ [s] /\ (sg_to s < km)%Q.

Lemma contiguous_sorted l : contiguous l -> StronglySorted from_le l.
Proof.
  induction l as [|s l IH]; [constructor|]. intros H. destruct l as [|t l]; [repeat constructor|]. destruct H as (H1 & H2).
  specialize (IH H2). constructor; [exact IH|]. inversion IH as [|? ? S F]; subst. constructor; [unfold from_le; lra|].
  eapply Forall_impl; [|exact F]. intros u. unfold from_le. intros. lra.
Qed.

(* ---- C47 ---- *)
Theorem C47_segment id segs km : segs <> [] -> contiguous segs ->
  exists a s b, segs = a ++ s :: b /\ get_segment (mkline id segs) km = Ok s /\
    (below segs km -> a = []) /\ (beyond segs km -> ~ below segs km -> b = []) /\
    (~ below segs km -> ~ beyond segs km -> covers s km /\ forall t, In t b -> (km < sg_from t)%Q).
Proof.
  intros NE CT. destruct segs as [|fr rest]; [congruence|]. set (segs := fr :: rest) in *.
  pose proof (app_removelast_last fr NE) as EL. set (bk := last segs fr) in *.
  destruct (Qlt_le_dec km (sg_from fr)) as [L|L].
  { exists [], fr, rest. assert (BL : below segs km) by (exists fr, rest; auto). split; [reflexivity|]. split.
    - unfold get_segment. cbn [ln_segments]. change segs with (fr :: rest). cbv iota zeta. replace (klt km (sg_from fr)) with true by (symmetry; apply klt_spec; exact L). reflexivity.
    - split; [reflexivity|]. split; intros; tauto. }
  assert (NB : ~ below segs km). { intros (s & r & [= <- <-] & H). lra. }
  destruct (Qlt_le_dec (sg_to bk) km) as [R|R].
  { exists (removelast segs), bk, []. split; [exact EL|]. assert (BY : beyond segs km) by (exists (removelast segs), bk; auto). split.
    - unfold get_segment. cbn [ln_segments]. change segs with (fr :: rest) at 1. cbv iota zeta. fold segs. fold bk.
      replace (klt km (sg_from fr)) with false by (symmetry; apply klt_false; exact L).
      replace (klt (sg_to bk) km) with true by (symmetry; apply klt_spec; exact R). reflexivity.
    - split; [tauto|]. split; [reflexivity|tauto]. }
  assert (NY : ~ beyond segs km).
  { intros (r & s & E & H). rewrite E in EL. apply app_inj_tail in EL. destruct EL as (_ & ->). lra. }
  destruct (found (mkline id segs) km fr) as (a & s & b & E & F1 & F2 & F3); [apply contiguous_sorted; exact CT|reflexivity|exact L|exact R|].
  cbn [ln_segments] in E. exists a, s, b. split; [exact E|].
  assert (T : (km <= sg_to s)%Q).
  { destruct b as [|t b]; [rewrite E in EL; apply app_inj_tail in EL; destruct EL as (_ & ->); exact R|].
    inversion F2 as [|? ? F _]; subst. clear - E CT F. rewrite E in CT. clear E. induction a as [|u a IH]; cbn [app] in CT.
    - destruct CT as (H & _). lra.
    - apply IH. destruct a; apply CT. }
  rewrite F3. replace (kle km (sg_to s)) with true by (symmetry; apply kle_spec; exact T). split; [reflexivity|].
  split; [tauto|]. split; [tauto|]. intros _ _. split; [split; assumption|]. rewrite Forall_forall in F2. exact F2.
Qed.
Print Assumptions C47_segment.
(* the attributes of a place are those of this segment *)
Theorem C47_attributes l km b : 
  (has_signalling l km = Ok b <-> exists s, get_segment l km = Ok s /\ sg_signalling s = b) /\
  (has_etcs l km = Ok b <-> exists s, get_segment l km = Ok s /\ sg_etcs s = b).
Proof.
  unfold has_signalling, has_etcs. destruct (get_segment l km) as [s| | |]; cbn [bind]; split; split;
    try discriminate; try (intros (? & [=] & _); fail); try (intros [= <-]; eauto; fail); intros (? & [= <-] & <-); reflexivity.
Qed.
Print Assumptions C47_attributes.
Example C47_sat :
  let segs := [mkseg 0 10 false false true; mkseg 10 25 true false false; mkseg 25 30 false false true] in
  contiguous segs /\ get_segment (mkline 1 segs) 12 = Ok (mkseg 10 25 true false false) /\
  get_segment (mkline 1 segs) 10 = Ok (mkseg 10 25 true false false) /\
  get_segment (mkline 1 segs) 99 = Ok (mkseg 25 30 false false true).
Proof. cbv zeta. split; [cbn [contiguous sg_from sg_to]; repeat split; lra|]. repeat split. Qed.
(* FINDING.  A kilometrage in a gap between two segments fails. *)
Theorem C47_gap_refuted id a s t b km : StronglySorted (fun s t => sg_from s <= sg_from t)%Q (a ++ s :: t :: b) ->
  (sg_from s <= sg_to s)%Q -> (sg_to s < km < sg_from t)%Q ->
  ~ beyond (a ++ s :: t :: b) km -> get_segment (mkline id (a ++ s :: t :: b)) km = Throw.
Proof.
  intros SS W G NY. set (segs := a ++ s :: t :: b) in *.
  assert (HD : exists fr, hd_error segs = Some fr /\ (sg_from fr <= sg_from s)%Q).
  { unfold segs in *. destruct a as [|fr a]; cbn [app hd_error] in *; [exists s; split; [reflexivity|lra]|]. exists fr. split; [reflexivity|].
    inversion SS as [|? ? _ F]; subst. rewrite Forall_forall in F. apply F. apply in_or_app. right. left. reflexivity. }
  destruct HD as (fr & HD & HF). assert (NE : segs <> []) by (intros EN; rewrite EN in HD; discriminate).
  destruct (found (mkline id segs) km fr SS HD) as (a' & s' & b' & E & F1 & F2 & F3).
  - lra.
  - cbn [ln_segments]. destruct (Qlt_le_dec (sg_to (last segs fr)) km) as [R|R]; [|exact R]. exfalso. apply NY.
    exists (removelast segs), (last segs fr). split; [apply app_removelast_last; exact NE|exact R].
  - rewrite F3. cbn [ln_segments] in E.
    assert (s' = s).
    { (* both are the last segment starting at or before km *)
      unfold segs in *. clear - SS E F1 F2 G W. revert a' E. induction a as [|u a IH]; intros a' E; cbn [app] in *.
      - destruct a' as [|v a']; cbn [app] in E; [congruence|]. injection E as -> E. exfalso.
        destruct a' as [|w a']; cbn [app] in E; injection E as E1 E2.
        + subst s'. lra.
        + subst w. inversion SS as [|? ? S1 _]; subst. inversion S1 as [|? ? _ FT]; subst. rewrite Forall_forall in FT.
          specialize (FT s' ltac:(apply in_or_app; right; left; reflexivity)). cbv beta in FT. lra.
      - inversion SS as [|? ? S1 F']; subst. destruct a' as [|v a']; cbn [app] in E; injection E as E1 E2.
        + exfalso. rewrite Forall_forall in F2. subst s'.
          assert (In s b') by (rewrite <- E2; apply in_or_app; right; left; reflexivity). apply F2 in H. lra.
        + apply (IH S1 a' E2). }
    subst s'. replace (kle km (sg_to s)) with false by (symmetry; apply kle_false; lra). reflexivity.
Qed.
Print Assumptions C47_gap_refuted.
Example C47_gap_sat : get_segment (mkline 1 [mkseg 0 10 false false true; mkseg 20 30 false false true]) 15 = Throw.
Proof. reflexivity. Qed.
(* FINDING.  The import does not sort the segments; a line listed from its end to its
   start is answered with segments that do not contain the kilometrage. *)
Theorem C47_unsorted_refuted : exists segs km s, get_segment (mkline 1 segs) km = Ok s /\ ~ covers s km /\
  exists t, In t segs /\ covers t km.
Proof.
  exists [mkseg 10 20 true false false; mkseg 0 10 false false true], 5%Q, (mkseg 10 20 true false false).
  split; [reflexivity|]. unfold covers. cbn [sg_from sg_to]. split; [lra|]. exists (mkseg 0 10 false false true). split; [right; left; reflexivity|].
  cbn [sg_from sg_to]. lra.
Qed.
Print Assumptions C47_unsorted_refuted.

(* ---- C62 ---- *)
(* types of segments that are known, and what they come with *)
Definition known_types : list Z := [1; 2; 3; 6; 8; 9; 12; 13; 14; 15; 18; 20; 21; 23; 24].
Definition without_signals : list Z := [3; 13; 14; 24].
Definition with_lzb : list Z := [2; 3].
Definition with_etcs : list Z := [8; 9; 12; 13; 18; 23].
Definition taken_over (x : xml_segment) (s : segment) : Prop :=
  sg_from s = xs_from x /\ sg_to s = xs_to x /\
  match xs_type x with
  | None => sg_signalling s = false /\ sg_lzb s = false /\ sg_etcs s = false
  | Some k => In k known_types /\ (sg_signalling s = false <-> In k without_signals) /\
      (sg_lzb s = true <-> In k with_lzb) /\ (sg_etcs s = true <-> In k with_etcs)
  end.
Definition line_taken_over (x : xml_line) (l : line) : Prop :=
  ln_id l = xl_nr x /\ Forall2 taken_over (xl_segments x) (ln_segments l).
Definition complete (x : xml_segment) : Prop := match xs_type x with None => True | Some k => In k known_types end.

Lemma parse_segment_ok x s : parse_segment x = Ok s -> taken_over x s.
Proof.
  unfold parse_segment, taken_over. destruct (xs_type x) as [k|]; [|intros [= <-]; cbn; auto].
  unfold known_types, without_signals, with_lzb, with_etcs. cbn [line_types at_key].
  repeat (match goal with |- context [if ?c =? k then _ else _] => destruct (Z.eqb_spec c k) as [<-|?] end;
    [cbn [bind]; intros [= <-]; cbn [sg_from sg_to sg_signalling sg_lzb sg_etcs fst snd In]; split; [reflexivity|]; split; [reflexivity|]; split; [lia|];
      repeat split; first [discriminate | lia | (intros; lia) | (intros; reflexivity) | (intros H; exfalso; lia)]|]).
  discriminate.
Qed.
Lemma parse_segment_known x : complete x -> exists s, parse_segment x = Ok s.
Proof.
  unfold complete, parse_segment. destruct (xs_type x) as [k|]; [|eauto]. unfold known_types. cbn [In].
  intros H. repeat (destruct H as [<-|H]; [cbn; eauto|]). destruct H.
Qed.
Lemma parse_segments_ok l : forall ss, parse_segments l = Ok ss -> Forall2 taken_over l ss.
Proof.
  induction l as [|x l IH]; cbn [parse_segments]; intros ss H; [injection H as <-; constructor|].
  destruct (parse_segment x) eqn:E; try discriminate. cbn [bind] in H. destruct (parse_segments l) eqn:E2; try discriminate.
  cbn [bind] in H. injection H as <-. constructor; [apply parse_segment_ok; exact E|apply IH; reflexivity].
Qed.
Lemma parse_file_ok l : forall ls, parse_lines_from_file l = Ok ls -> Forall2 line_taken_over l ls.
Proof.
  induction l as [|x l IH]; cbn [parse_lines_from_file]; intros ls H; [injection H as <-; constructor|].
  destruct (parse_segments (xl_segments x)) eqn:E; try discriminate. cbn [bind] in H. destruct (parse_lines_from_file l) eqn:E2; try discriminate.
  cbn [bind] in H. injection H as <-. constructor; [split; [reflexivity|apply parse_segments_ok; exact E]|apply IH; reflexivity].
Qed.
Lemma concat_files_ok fs : forall ls, concat_files fs = Ok ls -> Forall2 line_taken_over (concat fs) ls.
Proof.
  induction fs as [|f fs IH]; cbn [concat_files concat]; intros ls H; [injection H as <-; constructor|].
  destruct (parse_lines_from_file f) eqn:E; try discriminate. cbn [bind] in H. destruct (concat_files fs) eqn:E2; try discriminate.
  cbn [bind] in H. injection H as <-. apply Forall2_app; [apply parse_file_ok; exact E|apply IH; reflexivity].
Qed.
Definition keyed (m : list (Z * line)) : Prop := forall k l, In (k, l) m -> ln_id l = k.
Lemma emplace_in m k l k' l' : NoDup (map fst m) ->
  (In (k', l') (emplace m k l) <-> In (k', l') m \/ (k' = k /\ l' = l /\ ~ In k (map fst m))).
Proof.
  induction m as [|[k0 l0] m IH]; cbn [emplace map fst]; intros ND; [cbn; intuition congruence|].
  inversion ND as [|? ? NI ND']; subst. destruct (Z.eqb_spec k0 k) as [-> |N].
  - cbn [In]. intuition.
  - cbn [In]. rewrite (IH ND'). intuition congruence.
Qed.
Lemma emplace_keys m k l : NoDup (map fst m) -> NoDup (map fst (emplace m k l)) /\
  forall j, In j (map fst (emplace m k l)) <-> In j (map fst m) \/ j = k.
Proof.
  induction m as [|[k0 l0] m IH]; cbn [emplace map fst]; intros ND; [split; [repeat constructor; intros []|cbn; intuition congruence]|].
  inversion ND as [|? ? NI ND']; subst. destruct (Z.eqb_spec k0 k) as [-> |N]; cbn [map fst].
  - split; [exact ND|]. cbn [In]. intuition.
  - destruct (IH ND') as (A & B). split; [constructor; [rewrite B; intuition congruence|exact A]|]. intros j. cbn [In]. rewrite B. intuition.
Qed.
Lemma emplaces_in ls : forall m, NoDup (map fst m) ->
  let m' := fold_left (fun m l => emplace m (ln_id l) l) ls m in NoDup (map fst m') /\
  forall k l, In (k, l) m' <-> In (k, l) m \/ (~ In k (map fst m) /\ exists a b, ls = a ++ l :: b /\ ln_id l = k /\ ~ In k (map ln_id a)).
Proof.
  induction ls as [|x ls IH]; intros m ND; cbn [fold_left].
  { cbv zeta. split; [exact ND|]. intros k l. split; [auto|]. intros [H|(_ & a & b & E & _)]; [exact H|destruct a; discriminate]. }
  destruct (emplace_keys m (ln_id x) x ND) as (K1 & K2). destruct (IH _ K1) as (A & B). cbv zeta in *. split; [exact A|]. intros k l.
  rewrite B, (emplace_in m (ln_id x) x k l ND), K2. split.
  - intros [[H|(-> & -> & N)]|(N & a & b & -> & E & NA)]; [auto| |].
    + right. split; [exact N|]. exists [], ls. auto.
    + right. split; [tauto|]. exists (x :: a), b. split; [reflexivity|]. split; [exact E|]. cbn [map In]. intuition congruence.
  - intros [H|(N & a & b & E & EK & NA)]; [auto|]. destruct a as [|y a]; cbn [app] in E; injection E as <- ->.
    + left. right. subst k. auto.
    + right. cbn [map In] in NA. split; [intuition congruence|]. exists a, b. intuition.
Qed.
Lemma Forall2_split {A B} (R : A -> B -> Prop) xs a y b : Forall2 R xs (a ++ y :: b) -> exists xa x xb, xs = xa ++ x :: xb /\ Forall2 R xa a /\ R x y.
Proof.
  intros H. apply Forall2_app_inv_r in H. destruct H as (xa & xr & F1 & F2 & ->). inversion F2 as [|x ? xb ? HR _]; subst. exists xa, x, xb. auto.
Qed.
Lemma Forall2_split_l {A B} (R : A -> B -> Prop) a y b xs : Forall2 R (a ++ y :: b) xs -> exists xa x xb, xs = xa ++ x :: xb /\ Forall2 R a xa /\ R y x.
Proof.
  intros H. apply Forall2_app_inv_l in H. destruct H as (xa & xr & F1 & F2 & ->). inversion F2 as [|? x ? xb HR _]; subst. exists xa, x, xb. auto.
Qed.
Lemma nrs xs ls : Forall2 line_taken_over xs ls -> map ln_id ls = map xl_nr xs.
Proof. induction 1 as [|x l xs ls (E & _) F IH]; cbn [map]; congruence. Qed.

(* Each number is listed at most once, with the first line of that number in the
   files and all its segments, in their order. *)
Theorem C62_lines files m : parse_lines files = Ok m ->
  NoDup (map fst m) /\
  (forall k l, In (k, l) m -> exists a x b, concat files = a ++ x :: b /\ xl_nr x = k /\ ~ In k (map xl_nr a) /\ line_taken_over x l) /\
  (forall x, In x (concat files) -> In (xl_nr x) (map fst m)).
Proof.
  unfold parse_lines. destruct (concat_files files) as [ls| | |] eqn:E; try discriminate. cbn [bind]. intros [= <-].
  apply concat_files_ok in E. destruct (emplaces_in ls [] (NoDup_nil _)) as (ND & IN). cbv zeta in *. split; [exact ND|]. split.
  - intros k l H. apply IN in H. destruct H as [[]|(_ & a & b & -> & EK & NA)].
    destruct (Forall2_split _ _ _ _ _ E) as (xa & x & xb & -> & F1 & F2). exists xa, x, xb. split; [reflexivity|].
    split; [destruct F2 as (F2 & _); congruence|]. split; [rewrite <- (nrs _ _ F1); exact NA|exact F2].
  - intros x H. assert (HN : In (xl_nr x) (map ln_id ls)) by (rewrite (nrs _ _ E); apply in_map; exact H).
    assert (FI : forall ls : list line, In (xl_nr x) (map ln_id ls) -> exists a l b, ls = a ++ l :: b /\ ln_id l = xl_nr x /\ ~ In (xl_nr x) (map ln_id a)).
    { clear. induction ls as [|l ls IH]; [intros []|]. intros H. destruct (Z.eq_dec (ln_id l) (xl_nr x)) as [EQ|NE].
      - exists [], l, ls. auto.
      - destruct H as [H|H]; [congruence|]. destruct (IH H) as (a & l' & b & -> & E & N). exists (l :: a), l', b. cbn [map In app]. intuition. }
    destruct (FI ls HN) as (a & l & b & EQ & EK & NA). change (xl_nr x) with (fst (xl_nr x, l)). apply in_map. apply IN. right. split; [intros []|]. exists a, b. auto.
Qed.
Print Assumptions C62_lines.
(* The import fails exactly when the type of a segment is unknown. *)
Theorem C62_accepted files :
  (exists m, parse_lines files = Ok m) <-> forall x s, In x (concat files) -> In s (xl_segments x) -> complete s.
Proof.
  split.
  - intros (m & H) x s HX HS. unfold parse_lines in H. destruct (concat_files files) as [ls| | |] eqn:E; try discriminate.
    apply concat_files_ok in E. apply in_split in HX. destruct HX as (a & b & HX). rewrite HX in E.
    destruct (Forall2_split_l _ _ _ _ _ E) as (xa & l & xb & _ & _ & (_ & F)). apply in_split in HS. destruct HS as (c & d & HS). rewrite HS in F.
    destruct (Forall2_split_l _ _ _ _ _ F) as (_ & g & _ & _ & _ & (_ & _ & T)). unfold complete. destruct (xs_type s); tauto.
  - intros H. unfold parse_lines.
    assert (S : forall l, (forall s, In s l -> complete s) -> exists r, parse_segments l = Ok r).
    { induction l as [|s l IH]; cbn [parse_segments]; [eauto|]. intros C. destruct (parse_segment_known s) as (t & ->); [apply C; left; reflexivity|].
      destruct IH as (r & ->); [intros; apply C; right; assumption|]. cbn [bind]. eauto. }
    assert (F : forall f, (forall x s, In x f -> In s (xl_segments x) -> complete s) -> exists r, parse_lines_from_file f = Ok r).
    { induction f as [|x f IH]; cbn [parse_lines_from_file]; [eauto|]. intros C. destruct (S (xl_segments x)) as (t & ->); [intros; eapply C; [left; reflexivity|assumption]|].
      destruct IH as (r & ->); [intros; eapply C; [right; eassumption|assumption]|]. cbn [bind]. eauto. }
    assert (G : exists r, concat_files files = Ok r).
    { induction files as [|f fs IH]; cbn [concat_files concat] in *; [eauto|].
      destruct (F f) as (t & ->); [intros x s H1 H2; eapply H; [apply in_or_app; left; exact H1|exact H2]|].
      destruct IH as (r & ->); [intros x s H1 H2; eapply H; [apply in_or_app; right; exact H1|exact H2]|]. cbn [bind]. eauto. }
    destruct G as (r & ->). cbn [bind]. eauto.
Qed.
Print Assumptions C62_accepted.
Example C62_sat : exists m,
  parse_lines [[mkxl 7 [mkxs 0 10 (Some 8); mkxs 10 20 None]]; [mkxl 8 []; mkxl 7 []]] = Ok m /\ map fst m = [7; 8] /\
  map (fun e => length (ln_segments (snd e))) m = [2; 0]%nat.
Proof. eexists. split; [reflexivity|]. split; reflexivity. Qed.
(* FINDING.  A second line with the same number, e.g. from another file, is dropped
   without notice. *)
Theorem C62_second_dropped_refuted : exists files m x, parse_lines files = Ok m /\ In x (concat files) /\
  forall k l, In (k, l) m -> ~ line_taken_over x l.
Proof.
  exists [[mkxl 7 []]; [mkxl 7 [mkxs 0 10 None]]], [(7, mkline 7 [])], (mkxl 7 [mkxs 0 10 None]).
  split; [reflexivity|]. split; [right; left; reflexivity|]. intros k l [[= <- <-]|[]] (_ & F). inversion F.
Qed.
Print Assumptions C62_second_dropped_refuted.

(* ---- C48 ---- *)
Definition valid_position (p : gps) : Prop := (-360 <= g_lon p <= 360)%Q /\ (-360 <= g_lat p <= 360)%Q.
Definition inside (b : box) (p : gps) : Prop :=
  (g_lon (bb_sw b) <= g_lon p <= g_lon (bb_ne b))%Q /\ (g_lat (bb_sw b) <= g_lat p <= g_lat (bb_ne b))%Q.
Theorem C48_bounding_box ps : ps <> [] -> (forall p, In p ps -> valid_position p) ->
  (forall p, In p ps -> inside (get_bounding_box ps) p) /\
  (exists p, In p ps /\ g_lon p = g_lon (bb_sw (get_bounding_box ps))) /\ (exists p, In p ps /\ g_lat p = g_lat (bb_sw (get_bounding_box ps))) /\
  (exists p, In p ps /\ g_lon p = g_lon (bb_ne (get_bounding_box ps))) /\ (exists p, In p ps /\ g_lat p = g_lat (bb_ne (get_bounding_box ps))).
Proof.
  intros NE V. destruct (grow_all ps no_box) as (_ & C & T1 & T2 & T3 & T4). change (fold_left grow ps no_box) with (get_bounding_box ps) in *.
  cbv zeta in *. split; [exact C|]. destruct ps as [|p ps]; [congruence|]. pose proof (C p (or_introl eq_refl)) as ((C1 & C2) & (C3 & C4)).
  destruct (V p (or_introl eq_refl)) as (V1 & V2).
  assert (E1 : g_lon (bb_sw no_box) = 361%Q) by reflexivity. assert (E2 : g_lat (bb_sw no_box) = 361%Q) by reflexivity.
  assert (E3 : g_lon (bb_ne no_box) = (-361)%Q) by reflexivity. assert (E4 : g_lat (bb_ne no_box) = (-361)%Q) by reflexivity.
  repeat split.
  - destruct T1 as [T|T]; [rewrite T, E1 in C1; exfalso; lra|exact T].
  - destruct T2 as [T|T]; [rewrite T, E2 in C3; exfalso; lra|exact T].
  - destruct T3 as [T|T]; [rewrite T, E3 in C2; exfalso; lra|exact T].
  - destruct T4 as [T|T]; [rewrite T, E4 in C4; exfalso; lra|exact T].
Qed.
Print Assumptions C48_bounding_box.
Example C48_sat : get_bounding_box [mkgps 8 50; mkgps 9 49; mkgps (17#2) 51] = mkbox (mkgps 8 49) (mkgps 9 51).
Proof. reflexivity. Qed.
(* FINDING.  A position that could not be determined is left at -361 degrees and
   becomes the south-west corner of the box of every list it occurs in. *)
Theorem C48_invalid_refuted ps p : In p ps -> p = mkgps GPS_INVALID GPS_INVALID ->
  (forall q, In q ps -> q <> p -> valid_position q) -> (g_lon (bb_sw (get_bounding_box ps)) == -361 /\ g_lat (bb_sw (get_bounding_box ps)) == -361)%Q.
Proof.
  intros H -> V. destruct (grow_all ps no_box) as (_ & C & T1 & T2 & _). change (fold_left grow ps no_box) with (get_bounding_box ps) in *.
  cbv zeta in *. destruct (C _ H) as ((C1 & _) & (C3 & _)). cbn [g_lon g_lat] in C1, C3. unfold GPS_INVALID in *.
  assert (Q0 : forall q, In q ps -> (-361 <= g_lon q /\ -361 <= g_lat q)%Q).
  { intros q HQ. assert (D : q = mkgps (-361 # 1) (-361 # 1) \/ (g_lon q, g_lat q) <> (-361 # 1, -361 # 1)%Q).
    { assert (DZ : forall a b : Q, {a = b} + {a <> b}) by (repeat decide equality). destruct q as [x y]. destruct (DZ x (-361#1)), (DZ y (-361#1)); cbn [g_lon g_lat]; [left|right|right|right]; congruence. }
    destruct D as [-> |D]; [cbn [g_lon g_lat]; lra|]. destruct (V q HQ) as (V1 & V2); [intros ->; apply D; reflexivity|]. lra. }
  split.
  - destruct T1 as [T|(q & HQ & T)]; [rewrite T in *; cbn in C1; exfalso; revert C1; unfold GPS_MAX_INVALID; lra|]. destruct (Q0 q HQ). rewrite T in *. lra.
  - destruct T2 as [T|(q & HQ & T)]; [rewrite T in *; cbn in C3; exfalso; revert C3; unfold GPS_MAX_INVALID; lra|]. destruct (Q0 q HQ). rewrite T in *. lra.
Qed.
Print Assumptions C48_invalid_refuted.
Example C48_invalid_sat : bb_sw (get_bounding_box [mkgps 8 50; mkgps GPS_INVALID GPS_INVALID]) = mkgps GPS_INVALID GPS_INVALID.
Proof. reflexivity. Qed.
(* FINDING.  The box of no positions has its corners the wrong way round. *)
Theorem C48_empty_refuted : (g_lon (bb_ne (get_bounding_box [])) < g_lon (bb_sw (get_bounding_box [])))%Q.
Proof. reflexivity. Qed.
Print Assumptions C48_empty_refuted.
