(* C77 - C79: places on the map.
   C77 the layout of the elements, C78 the file of coordinates of the stations,
   C79 the places of the other stations. *)
From Coq Require Import Ascii String Permutation.
From Coq Require Import QArith Qabs Lqa.
From Verif Require Import Base TextModel KssDates PhysModel KssModel StockModel StockSpec StockText
  GraphModel GraphProofs LayoutModel LayoutSpec LayoutProofs LayoutStations.
Local Open Scope Q_scope.

(* ---- C77 ---- *)
(* inside a station the elements lie as the plan draws them *)
Theorem C77_layout :
  forall element_of is_track nodes sections stations count l,
    numbered_nodes nodes -> sections_ok is_track sections -> NoDup (concat stations) ->
    get_layout element_of is_track nodes stations sections count = Ok l ->
    forall st e1 e2 p1 p2, In st stations -> In e1 st -> In e2 st ->
      drawn element_of is_track nodes sections e1 p1 -> drawn element_of is_track nodes sections e2 p2 ->
      exists q1 q2, placed_at l e1 q1 /\ placed_at l e2 q2 /\
        x_ q1 - x_ q2 == x_ p1 - x_ p2 /\ y_ q1 - y_ q2 == y_ p1 - y_ p2.
Proof.
  intros eo tr nodes secs sts n l Nn So Sn H st e1 e2 p1 p2 Hs H1 H2 D1 D2.
  pose proof (adjusted_in_range eo tr nodes secs sts n Nn So Sn l H) as Ran.
  destruct (get_layout_drawn eo tr nodes secs sts n Nn So l H) as (raw & Ad & Lr & Dr).
  destruct (adjust_spec tr sts raw l Sn Ad) as (_ & _ & A). destruct (A st Hs) as (m & _ & _ & M & _).
  destruct (M e1 H1) as (r1 & R1 & Q1 & _). destruct (M e2 H2) as (r2 & R2 & Q2 & _).
  destruct (Dr e1 p1 (Ran st e1 Hs H1) D1) as (s1 & S1 & X1 & Y1). rewrite R1 in S1. injection S1 as <-.
  destruct (Dr e2 p2 (Ran st e2 Hs H2) D2) as (s2 & S2 & X2 & Y2). rewrite R2 in S2. injection S2 as <-.
  exists (moved m r1), (moved m r2). split; [exact Q1|]. split; [exact Q2|]. unfold moved. cbn [x_ y_].
  rewrite X1, X2, Y1, Y2. split; ring.
Qed.
Print Assumptions C77_layout.

(* the upper left corner of every station is the origin *)
Theorem C77_corner :
  forall element_of is_track nodes sections stations count l,
    numbered_nodes nodes -> sections_ok is_track sections -> NoDup (concat stations) ->
    get_layout element_of is_track nodes stations sections count = Ok l ->
    forall st, In st stations -> st <> [] ->
      (forall e, In e st -> exists p, drawn element_of is_track nodes sections e p /\ fits p) ->
      (forall e, In e st -> exists q, placed_at l e q /\ 0 <= x_ q /\ 0 <= y_ q) /\
      (exists e q, In e st /\ placed_at l e q /\ x_ q == 0) /\
      (exists e q, In e st /\ placed_at l e q /\ y_ q == 0).
Proof.
  intros eo tr nodes secs sts n l Nn So Sn H st Hs Ne Dn. assert (LD : largest_double == MAX_DOUBLE) by (vm_compute; reflexivity).
  pose proof (adjusted_in_range eo tr nodes secs sts n Nn So Sn l H) as Ran.
  destruct (get_layout_drawn eo tr nodes secs sts n Nn So l H) as (raw & Ad & Lr & Dr).
  destruct (adjust_spec tr sts raw l Sn Ad) as (_ & _ & A). destruct (A st Hs) as (m & Mx & My & M & Ex & Ey).
  split; [|split].
  - intros e He. destruct (M e He) as (p & _ & Q & X & Y). exists (moved m p). split; [exact Q|]. unfold moved. cbn [x_ y_]. split; lra.
  - destruct Ex as [Ex|(e & p & He & Hp & Ex)].
    + destruct st as [|e st]; [congruence|]. destruct (M e (or_introl eq_refl)) as (p & Hp & Q & X & Y).
      destruct (Dn e (or_introl eq_refl)) as (p' & D & F & _). rewrite LD in F. destruct (Dr e p' (Ran _ e Hs (or_introl eq_refl)) D) as (s & S1 & X1 & _).
      rewrite Hp in S1. injection S1 as <-. exists e, (moved m p). split; [left; reflexivity|]. split; [exact Q|].
      unfold moved. cbn [x_]. rewrite Ex in *. rewrite X1 in *. lra.
    + destruct (M e He) as (p' & Hp' & Q & X & Y). rewrite Hp in Hp'. injection Hp' as <-.
      exists e, (moved m p). split; [exact He|]. split; [exact Q|]. unfold moved. cbn [x_]. rewrite Ex. ring.
  - destruct Ey as [Ey|(e & p & He & Hp & Ey)].
    + destruct st as [|e st]; [congruence|]. destruct (M e (or_introl eq_refl)) as (p & Hp & Q & X & Y).
      destruct (Dn e (or_introl eq_refl)) as (p' & D & _ & F). rewrite LD in F. destruct (Dr e p' (Ran _ e Hs (or_introl eq_refl)) D) as (s & S1 & _ & Y1).
      rewrite Hp in S1. injection S1 as <-. exists e, (moved m p). split; [left; reflexivity|]. split; [exact Q|].
      unfold moved. cbn [y_]. rewrite Ey in *. rewrite Y1 in *. lra.
    + destruct (M e He) as (p' & Hp' & Q & X & Y). rewrite Hp in Hp'. injection Hp' as <-.
      exists e, (moved m p). split; [exact He|]. split; [exact Q|]. unfold moved. cbn [y_]. rewrite Ey. ring.
Qed.
Print Assumptions C77_corner.

(* a plan whose numbers are readable and name elements has a layout *)
Definition readable_node (element_of : N -> option nat) (count : nat) (n : rp_node) : Prop :=
  rp_point n = true \/ rp_coord n = None \/
  exists i e p, numeral (rp_id n) (Z.of_N i) /\ (i < 2 ^ 64)%N /\ element_of i = Some e /\ (e < count)%nat /\
    coordinates n p.
Theorem C77_loads :
  forall element_of is_track nodes sections stations count,
    (forall n, In n nodes -> readable_node element_of count n) ->
    (forall sec, In sec sections -> sec <> [] /\ forall e, In e sec -> (e < count)%nat) ->
    (forall st e, In st stations -> In e st -> (e < count)%nat) ->
    exists l, get_layout element_of is_track nodes stations sections count = Ok l /\ length l = count.
Proof.
  intros eo tr nodes secs sts n Hn Hsec Hst. unfold get_layout.
  assert (E1 : forall ns l, length l = n -> (forall m, In m ns -> readable_node eo n m) ->
    exists l', for_each (place_node eo) l ns = Ok l' /\ length l' = n).
  { clear nodes Hn. induction ns as [|m ns IH]; intros l L H; [exists l; split; [reflexivity|exact L]|]. cbn [for_each].
    assert (X : exists l1, place_node eo l m = Ok l1 /\ length l1 = n).
    { destruct (H m (or_introl eq_refl)) as [P|[C|(i & e & p & Ni & Li & Ei & Le & (xt & yt & C & A & B))]]; unfold place_node.
      - rewrite P. eauto.
      - rewrite C. destruct (rp_point m); eauto.
      - destruct (rp_point m); [eauto|]. rewrite C, (stoul_numeral _ _ Ni Li). cbn [bind]. rewrite Ei.
        unfold parse_coordinates. cbn [fst snd]. apply parse_fp_iff in A, B. destruct A as (x & -> & _), B as (y & -> & _). cbn [bind].
        destruct (put_ok l e (mk_place x y)) as (l1 & E); [lia|]. exists l1. split; [exact E|]. apply put_Ok in E. lia. }
    destruct X as (l1 & -> & L1). cbn [bind]. apply (IH l1 L1). intros k Hk. apply H. right. exact Hk. }
  destruct (E1 nodes (repeat unplaced n) (repeat_length _ _) Hn) as (l1 & -> & L1). cbn [bind]. clear E1.
  assert (E2 : forall first up ltr xt yt tot es idx l, length l = n -> (first < n)%nat -> (forall e, In e es -> (e < n)%nat) ->
    exists l', spread_loop tr first up ltr xt yt tot es idx l = Ok l' /\ length l' = n).
  { intros first up ltr xt yt tot es. induction es as [|e es IH]; intros idx l L F H; cbn [spread_loop]; [eauto|].
    assert (H' : forall e, In e es -> (e < n)%nat) by (intros x Hx; apply H; right; exact Hx).
    destruct (tr e); [|apply IH; assumption].
    unfold at_. destruct (nth_error l first) as [s|] eqn:E; [|apply nth_error_None in E; lia]. cbn [bind].
    destruct (put_ok l e (mk_place (x_ s + (if ltr then xt * (inject_Z (Z.of_nat idx) / (tot + 1)) else - (xt * (inject_Z (Z.of_nat idx) / (tot + 1)))))
       (y_ s + (if up then - (yt * (inject_Z (Z.of_nat idx) / (tot + 1))) else yt * (inject_Z (Z.of_nat idx) / (tot + 1)))))) as (l2 & E2).
    { rewrite L. apply H. left. reflexivity. }
    cbv zeta. rewrite E2. cbn [bind]. apply put_Ok in E2. apply IH; [lia|exact F|exact H']. }
  assert (E3 : forall ss l, length l = n -> (forall sec, In sec ss -> sec <> [] /\ forall e, In e sec -> (e < n)%nat) ->
    exists l', calculate_track_element_coords tr l ss = Ok l' /\ length l' = n).
  { unfold calculate_track_element_coords. induction ss as [|sec ss IH]; intros l L H; cbn [for_each]; [eauto|].
    destruct (H sec (or_introl eq_refl)) as (Ne & B). destruct sec as [|first rest]; [congruence|]. unfold spread_section at 1.
    assert (B1 : (first < n)%nat) by (apply B; left; reflexivity).
    assert (B2 : (last (first :: rest) first < n)%nat).
    { apply B. destruct (exists_last (l := first :: rest)) as (u & v & Ev); [discriminate|]. rewrite Ev, last_last.
      apply in_or_app. right. left. reflexivity. }
    unfold at_. destruct (nth_error l first) as [s|] eqn:Es; [|apply nth_error_None in Es; lia]. cbn [bind].
    destruct (nth_error l (last (first :: rest) first)) as [t|] eqn:Et; [|apply nth_error_None in Et; lia]. cbn [bind].
    match goal with |- context [spread_loop ?a ?b ?c ?d ?e ?f ?g ?h ?i ?j] => destruct (E2 b c d e f g h i j L B1 B) as (l2 & -> & L2) end.
    cbn [bind]. apply IH; [exact L2|]. intros k Hk. apply H. right. exact Hk. }
  destruct (E3 secs l1 L1 Hsec) as (l2 & -> & L2). cbn [bind]. clear E2 E3.
  assert (E4 : forall l es m, length l = n -> (forall e, In e es -> (e < n)%nat) -> exists r, min_loop l es m = Ok r).
  { intros l es. induction es as [|e es IH]; intros m L B; cbn [min_loop]; [eauto|]. unfold at_.
    destruct (nth_error l e) as [p|] eqn:E; [|apply nth_error_None in E; specialize (B e (or_introl eq_refl)); lia].
    cbn [bind]. apply IH; [exact L|]. intros k Hk. apply B. right. exact Hk. }
  assert (E5 : forall m es l, length l = n -> (forall e, In e es -> (e < n)%nat) ->
    exists l', for_each (fun l e => do p <- at_ l e; put l e (mk_place (x_ p - x_ m) (y_ p - y_ m))) l es = Ok l' /\ length l' = n).
  { intros m es. induction es as [|e es IH]; intros l L B; cbn [for_each]; [eauto|]. unfold at_ at 1.
    destruct (nth_error l e) as [p|] eqn:E; [|apply nth_error_None in E; specialize (B e (or_introl eq_refl)); lia].
    cbn [bind]. destruct (put_ok l e (mk_place (x_ p - x_ m) (y_ p - y_ m))) as (l3 & E3); [rewrite L; apply B; left; reflexivity|].
    rewrite E3. cbn [bind]. apply put_Ok in E3. apply IH; [lia|]. intros k Hk. apply B. right. exact Hk. }
  clear l1 L1. revert l2 L2. unfold adjust_coordinates. induction sts as [|st sts IH]; intros l L; cbn [for_each]; [eauto|].
  unfold adjust_station at 1. destruct (E4 l st unplaced L) as (m & ->); [intros e He; apply (Hst st); [left; reflexivity|exact He]|].
  cbn [bind]. destruct (E5 m st l L) as (l3 & -> & L3); [intros e He; apply (Hst st); [left; reflexivity|exact He]|].
  cbn [bind]. apply IH; [|exact L3]. intros s e Hs. apply Hst. right. exact Hs.
Qed.
Print Assumptions C77_loads.

(* the first element on the track of a section lies on the start of the section:
   elements of a section that the plan keeps apart get one place *)
Theorem C77_apart_refuted :
  forall element_of is_track nodes sections stations count l,
    numbered_nodes nodes -> sections_ok is_track sections -> NoDup (concat stations) ->
    get_layout element_of is_track nodes stations sections count = Ok l ->
    forall st first rest e p q, In st stations -> In first st -> In e st ->
      In (first :: rest) sections -> hd_error (filter is_track (first :: rest)) = Some e ->
      drawn element_of is_track nodes sections first p ->
      drawn element_of is_track nodes sections (last (first :: rest) first) q ->
      exists a b, placed_at l first a /\ placed_at l e b /\ x_ a == x_ b /\ y_ a == y_ b.
Proof.
  intros eo tr nodes secs sts n l Nn So Sn H st first rest e p q Hs Hf He Hsec Hh D1 D2.
  assert (De : drawn eo tr nodes secs e (on_the_way p q 0 (length (first :: rest)))).
  { eapply drawn_between; [exact Hsec|exact D1|exact D2|]. destruct (filter tr (first :: rest)); [discriminate|exact Hh]. }
  destruct (C77_layout eo tr nodes secs sts n l Nn So Sn H st first e _ _ Hs Hf He D1 De) as (a & b & A & B & X & Y).
  exists a, b. split; [exact A|]. split; [exact B|]. unfold on_the_way in X, Y. cbn [x_ y_] in X, Y.
  change (inject_Z (Z.of_nat 0)) with 0 in X, Y. unfold Qdiv in X, Y. rewrite Qmult_0_l, Qmult_0_r in X, Y. split; lra.
Qed.
Print Assumptions C77_apart_refuted.

Local Open Scope char_scope.
(* two ends at (10, 30) and (60, 5) with two signals between them, a third end
   drawn twice *)
Definition ex_nodes : list rp_node :=
  [mk_rp false (Some (["1"; "0"], ["3"; "0"])) ["7"]; mk_rp true None []; mk_rp false None ["8"];
   mk_rp false (Some (["6"; "0"], ["5"])) ["9"]; mk_rp false (Some (["1"], ["1"])) ["1"; "1"];
   mk_rp false (Some (["2"; "0"; ","; "5"], ["3"; "0"])) ["1"; "1"]].
Definition ex_element (i : N) : option nat :=
  if (i =? 7)%N then Some 0%nat else if (i =? 8)%N then Some 1%nat else if (i =? 9)%N then Some 3%nat
  else if (i =? 11)%N then Some 4%nat else None.
Definition ex_track (e : nat) : bool := Nat.eqb e 1 || Nat.eqb e 2.
Local Close Scope char_scope.
Definition ex_sections : list (list nat) := [[0; 1; 2; 3]%nat].
Definition ex_stations : list (list nat) := [[0; 1; 2; 3; 4]%nat].
Example C77_sat :
  numbered_nodes ex_nodes /\
  sections_ok ex_track ex_sections /\ NoDup (concat ex_stations) /\
  match get_layout ex_element ex_track ex_nodes ex_stations ex_sections 5 with
  | Ok l => map (fun p => (Qred (x_ p), Qred (y_ p))) l = [(0, 25); (0, 25); (10, 20); (50, 0); (21 # 2, 25)]
  | _ => False
  end.
Proof.
  split; [|split; [|split]].
  - intros n Hn P C. cbn in Hn. destruct Hn as [<-|[<-|[<-|[<-|[<-|[<-|[]]]]]]]; cbn [rp_id]; try discriminate P; try (exfalso; exact (C eq_refl)).
    + exists 7%N. split; [|reflexivity]. apply (digits_numeral ["7"%char]); [discriminate|repeat constructor].
    + exists 9%N. split; [|reflexivity]. apply (digits_numeral ["9"%char]); [discriminate|repeat constructor].
    + exists 11%N. split; [|reflexivity]. apply (digits_numeral ["1"; "1"]%char); [discriminate|repeat constructor].
    + exists 11%N. split; [|reflexivity]. apply (digits_numeral ["1"; "1"]%char); [discriminate|repeat constructor].
  - split.
    + intros first rest [E|[]]. injection E as <- <-. split; reflexivity.
    + repeat constructor; cbn; intuition discriminate.
  - repeat constructor; cbn; intuition discriminate.
  - vm_compute. reflexivity.
Qed.

(* an element without coordinates is placed at the largest number, less the corner *)
Theorem C77_every_element_refuted :
  exists l q, get_layout ex_element ex_track [hd (mk_rp true None []) ex_nodes] [[0; 3]%nat] [] 4 = Ok l /\
    placed_at l 3 q /\ x_ q == largest_double - 10.
Proof. eexists. eexists. split; [vm_compute; reflexivity|]. split; [reflexivity|]. vm_compute. reflexivity. Qed.
Print Assumptions C77_every_element_refuted.

(* ---- C78 ---- *)
Lemma parse_degrees_spec t v : parse_degrees t = Ok v -> degrees t v.
Proof.
  unfold parse_degrees, degrees. destruct t as [|c t].
  - intros E. injection E as <-. left. split; reflexivity.
  - intros E. right. split; [discriminate|]. apply parse_fp_iff. exists v. split; [exact E|reflexivity].
Qed.
Lemma degrees_parse t v : degrees t v -> exists v', parse_degrees t = Ok v' /\ v' == v.
Proof.
  unfold parse_degrees, degrees. intros [(-> & E)|(Ne & N)].
  - exists GPS_INVALID. split; [reflexivity|]. rewrite E. reflexivity.
  - destruct t as [|c t]; [congruence|]. apply parse_fp_iff, N.
Qed.
Lemma add_rows_spec station_of rows : forall l l',
  for_each (add_row station_of) l rows = Ok l' ->
  length l' = length l /\
  forall s, ((forall r, In r rows -> station_of (row_ds100 r) <> Some s) /\ nth_error l' s = nth_error l s) \/
    exists before r after g, rows = (before ++ r :: after)%list /\ station_of (row_ds100 r) = Some s /\
      (forall r', In r' after -> station_of (row_ds100 r') <> Some s) /\ row_gives r g /\ nth_error l' s = Some g.
Proof.
  induction rows as [|r rows IH]; intros l l' H; cbn [for_each] in H.
  - injection H as <-. split; [reflexivity|]. intros s. left. split; [intros r []|reflexivity].
  - apply bind_Ok in H. destruct H as (l1 & H1 & H). destruct (IH _ _ H) as (L & A). unfold add_row in H1.
    assert (B : length l1 = length l /\ forall s,
       (station_of (row_ds100 r) <> Some s /\ nth_error l1 s = nth_error l s) \/
       (station_of (row_ds100 r) = Some s /\ exists g, row_gives r g /\ nth_error l1 s = Some g)).
    { destruct (station_of (row_ds100 r)) as [s0|] eqn:E.
      - apply bind_Ok in H1. destruct H1 as (lon & Hlon & H1). apply bind_Ok in H1. destruct H1 as (lat & Hlat & H1).
        apply put_Ok in H1. destruct H1 as (L1 & _ & H1). split; [exact L1|]. intros s. rewrite H1.
        destruct (Nat.eqb_spec s s0) as [->|Ne].
        + right. split; [reflexivity|]. exists (mk_gps lon lat). split; [|reflexivity].
          split; apply parse_degrees_spec; assumption.
        + left. split; [congruence|reflexivity].
      - injection H1 as <-. split; [reflexivity|]. intros s. left. split; [discriminate|reflexivity]. }
    destruct B as (L1 & B). split; [congruence|]. intros s. destruct (A s) as [(X & E)|(b & r' & a & g & -> & X)].
    + destruct (B s) as [(Y & E1)|(Y & g & G & E1)].
      * left. split; [intros r' [<-|I]; [exact Y|exact (X r' I)]|]. rewrite E. exact E1.
      * right. exists [], r, rows, g. split; [reflexivity|]. split; [exact Y|]. split; [exact X|]. split; [exact G|].
        rewrite E. exact E1.
    + right. exists (r :: b), r', a, g. split; [reflexivity|exact X].
Qed.

(* every station gets the coordinates of its last row, a station without row none *)
Theorem C78_coordinates :
  forall rows station_of count l, parse_station_coords (Some rows) station_of count = Ok l ->
    length l = count /\
    forall s, (s < count)%nat ->
      (exists before r after g, rows = (before ++ r :: after)%list /\ station_of (row_ds100 r) = Some s /\
         (forall r', In r' after -> station_of (row_ds100 r') <> Some s) /\
         row_gives r g /\ nth_error l s = Some g) \/
      ((forall r, In r rows -> station_of (row_ds100 r) <> Some s) /\
         exists g, nth_error l s = Some g /\ ~ located g).
Proof.
  intros rows so n l H. unfold parse_station_coords in H. destruct (add_rows_spec _ _ _ _ H) as (L & A).
  rewrite repeat_length in L. split; [exact L|]. intros s Ls. destruct (A s) as [(X & E)|X]; [right|left; exact X].
  split; [exact X|]. rewrite E. destruct (nth_error (repeat no_gps n) s) as [g|] eqn:Eg.
  - apply nth_error_In, repeat_spec in Eg. subst g. exists no_gps. split; [reflexivity|]. rewrite <- valid_iff. discriminate.
  - apply nth_error_None in Eg. rewrite repeat_length in Eg. lia.
Qed.
Print Assumptions C78_coordinates.

(* rows of other stations are skipped unread; a file whose other rows are
   numbers is accepted *)
Theorem C78_accepted :
  forall rows station_of count,
    (forall r s, In r rows -> station_of (row_ds100 r) = Some s -> (s < count)%nat /\ exists g, row_gives r g) ->
    exists l, parse_station_coords (Some rows) station_of count = Ok l.
Proof.
  intros rows so n H. unfold parse_station_coords. generalize (repeat_length no_gps n). generalize (repeat no_gps n).
  induction rows as [|r rows IH]; intros l L; cbn [for_each]; [eauto|].
  assert (X : exists l1, add_row so l r = Ok l1 /\ length l1 = n).
  { unfold add_row. destruct (so (row_ds100 r)) as [s|] eqn:E; [|eauto].
    destruct (H r s (or_introl eq_refl) E) as (Ls & g & G1 & G2).
    destruct (degrees_parse _ _ G1) as (a & -> & _). destruct (degrees_parse _ _ G2) as (b & -> & _). cbn [bind].
    destruct (put_ok l s (mk_gps a b)) as (l1 & E1); [lia|]. exists l1. split; [exact E1|]. apply put_Ok in E1. lia. }
  destruct X as (l1 & -> & L1). cbn [bind]. apply IH; [|exact L1]. intros r' s I. apply H. right. exact I.
Qed.
Print Assumptions C78_accepted.

(* a missing file is warned about only, but the layout then throws *)
Theorem C78_missing_file_refuted :
  forall station_of count addr borders, count <> 0%nat ->
    exists l, parse_station_coords None station_of count = Ok l /\
      interpolate_coordinates addr borders count l = Throw.
Proof.
  intros so n addr bo N. exists []. split; [reflexivity|]. unfold interpolate_coordinates.
  destruct n; [congruence|reflexivity].
Qed.
Print Assumptions C78_missing_file_refuted.

Local Open Scope char_scope.
Example C78_sat :
  let st t := match t with ["F"] => Some 0%nat | ["K"] => Some 1%nat | _ => None end in
  match parse_station_coords (Some [mk_row ["X"] ["?"] []; mk_row ["F"] ["5"; "0"; ","; "1"] ["8"; "."; "5"];
                                    mk_row ["K"] ["1"] []; mk_row ["K"] [] ["7"]]) st 3 with
  | Ok l => map (fun g => (Qred (lon_ g), Qred (lat_ g), valid g)) l =
            [(17 # 2, 501 # 10, true); (7, - (361), false); (- (361), - (361), false)]
  | _ => False
  end.
Proof. vm_compute. reflexivity. Qed.
Local Close Scope char_scope.

(* ---- C79 ---- *)
Definition stations_known (borders : nat -> list nat) (n : nat) : Prop :=
  forall s t, (s < n)%nat -> In t (borders s) -> (t < n)%nat.

(* every station gets a place: the given one, or by the stations around *)
Theorem C79_interpolated :
  forall addr borders coords, stations_known borders (length coords) ->
    exists result, interpolate_coordinates addr borders (length coords) coords = Ok result /\
      length result = length coords /\
      forall s, (s < length coords)%nat -> exists g, nth_error result s = Some g /\
        (forall g0, given coords s g0 -> g = g0) /\
        (~ (exists g0, given coords s g0) ->
           (exists l, surroundings borders coords s l) /\
           forall l, surroundings borders coords s l ->
             match l with
             | [] => same_gps g (mk_gps 8 47)
             | [(t, h, k)] => lon_ g == lon_ h - inject_Z (Z.of_nat k) / 10 /\ lat_ g == lat_ h
             | _ => mean borders s l g
             end).
Proof.
  intros addr bo coords R. destruct (interpolate_spec addr bo coords R) as (r & E & L & A).
  exists r. split; [exact E|]. split; [exact L|]. intros s Ls. destruct (A s Ls) as (g & Hg & G1 & G2).
  exists g. split; [exact Hg|]. split; [exact G1|]. intros No. destruct (G2 No) as (l & Su & X).
  split; [eauto|]. intros l' Su'. pose proof (surroundings_perm _ _ _ _ _ Su Su') as P.
  destruct l as [|[[t h] k] [|y l]].
  - apply Permutation_nil in P. subst l' g. split; reflexivity.
  - apply Permutation_length_1_inv in P. subst l' g. cbn [lon_ lat_]. split; [|reflexivity]. unfold ofn. field.
  - destruct l' as [|z1 [|z2 l']].
    + apply Permutation_length in P. cbn in P. lia.
    + apply Permutation_length in P. cbn in P. lia.
    + destruct z1 as [[? ?] ?]. exact (mean_perm addr bo coords R s _ _ g P X).
Qed.
Print Assumptions C79_interpolated.

(* a mean lies between the places it is taken of *)
Theorem C79_between :
  forall addr borders coords result, stations_known borders (length coords) ->
    interpolate_coordinates addr borders (length coords) coords = Ok result ->
    forall s g l, nth_error result s = Some g -> ~ (exists g0, given coords s g0) ->
      surroundings borders coords s l -> (2 <= length l)%nat ->
      (forall lo hi, (forall t h k, In (t, h, k) l -> lo <= lon_ h <= hi) -> lo <= lon_ g <= hi) /\
      (forall lo hi, (forall t h k, In (t, h, k) l -> lo <= lat_ h <= hi) -> lo <= lat_ g <= hi).
Proof.
  intros addr bo coords result R E s g l Hg No Su Le.
  destruct (C79_interpolated addr bo coords R) as (r & E' & L & A). rewrite E in E'. injection E' as <-.
  assert (Ls : (s < length coords)%nat) by (rewrite <- L; apply nth_error_Some; congruence).
  destruct (A s Ls) as (g' & Hg' & _ & X). rewrite Hg in Hg'. injection Hg' as <-. destruct (X No) as (_ & X').
  specialize (X' l Su). destruct l as [|[[t h] k] [|y l]]; cbn [length] in Le; [lia|lia|]. exact (mean_between addr bo coords R s _ g X').
Qed.
Print Assumptions C79_between.

(* where the stations lie in memory does not matter *)
Theorem C79_order_free :
  forall addr1 addr2 borders coords r1 r2, stations_known borders (length coords) ->
    interpolate_coordinates addr1 borders (length coords) coords = Ok r1 ->
    interpolate_coordinates addr2 borders (length coords) coords = Ok r2 ->
    forall s g1 g2, nth_error r1 s = Some g1 -> nth_error r2 s = Some g2 -> same_gps g1 g2.
Proof.
  intros a1 a2 bo coords r1 r2 R E1 E2 s g1 g2 H1 H2.
  destruct (C79_interpolated a1 bo coords R) as (r & E & L & A). rewrite E1 in E. injection E as <-.
  destruct (C79_interpolated a2 bo coords R) as (r & E & L' & B). rewrite E2 in E. injection E as <-.
  assert (Ls : (s < length coords)%nat) by (rewrite <- L; apply nth_error_Some; congruence).
  destruct (A s Ls) as (g & Hg & A1 & A2). rewrite H1 in Hg. injection Hg as <-.
  destruct (B s Ls) as (g & Hg & B1 & B2). rewrite H2 in Hg. injection Hg as <-.
  destruct (valid (at_gps coords s)) eqn:V.
  - assert (G : given coords s (at_gps coords s)) by (apply given_iff; split; [reflexivity|exact V]).
    rewrite (A1 _ G), (B1 _ G). split; reflexivity.
  - assert (No : ~ (exists g0, given coords s g0)) by (rewrite some_given, V; discriminate).
    destruct (A2 No) as ((l & Su) & X). destruct (B2 No) as (_ & Y). specialize (X l Su). specialize (Y l Su).
    destruct l as [|[[t h] k] [|y l]].
    + destruct X as [X1 X2], Y as [Y1 Y2]. split; [rewrite X1|rewrite X2]; symmetry; assumption.
    + destruct X as [X1 X2], Y as [Y1 Y2]. split; [rewrite X1|rewrite X2]; symmetry; assumption.
    + destruct X as (X1 & X2 & X3), Y as (Y1 & Y2 & _). split.
      * eapply Qmult_inj_r; [exact X3|]. rewrite X1, Y1. reflexivity.
      * eapply Qmult_inj_r; [exact X3|]. rewrite X2, Y2. reflexivity.
Qed.
Print Assumptions C79_order_free.

(* away from the edge of the map every station ends with a place *)
Theorem C79_everywhere_partial :
  forall addr borders coords result, stations_known borders (length coords) ->
    interpolate_coordinates addr borders (length coords) coords = Ok result ->
    forall s g, nth_error result s = Some g ->
      (forall t h k, near borders coords s t k -> given coords t h ->
         - (360) <= lon_ h - inject_Z (Z.of_nat k) / 10) ->
      located g.
Proof.
  intros addr bo coords result R E s g Hg F.
  destruct (C79_interpolated addr bo coords R) as (r & E' & L & A). rewrite E in E'. injection E' as <-.
  assert (Ls : (s < length coords)%nat) by (rewrite <- L; apply nth_error_Some; congruence).
  destruct (A s Ls) as (g' & Hg' & A1 & A2). rewrite Hg in Hg'. injection Hg' as <-.
  destruct (valid (at_gps coords s)) eqn:V.
  - assert (G : given coords s (at_gps coords s)) by (apply given_iff; split; [reflexivity|exact V]).
    rewrite (A1 _ G). apply G.
  - assert (No : ~ (exists g0, given coords s g0)) by (rewrite some_given, V; discriminate).
    destruct (A2 No) as ((l & Su) & X). specialize (X l Su). destruct l as [|[[t h] k] [|y l]].
    + destruct X as [X1 X2]. cbn [lon_ lat_] in X1, X2. split; rewrite ?X1, ?X2; lra.
    + destruct Su as (_ & Gi & Ne). specialize (Gi t h k (or_introl eq_refl)).
      assert (Nr : near bo coords s t k) by (apply Ne; exists h; left; reflexivity). specialize (F t h k Nr Gi).
      destruct Gi as (_ & (B1 & B2)). destruct X as [X1 X2].
      assert (K : 0 <= inject_Z (Z.of_nat k) / 10).
      { apply Qle_shift_div_l; [reflexivity|]. rewrite Qmult_0_l. change 0 with (inject_Z 0). rewrite <- Zle_Qle. lia. }
      split; rewrite ?X1, ?X2; lra.
    + apply valid_iff. exact (mean_valid addr bo coords R s _ g Su X).
Qed.
Print Assumptions C79_everywhere_partial.

(* at the edge of the map the place left of the neighbour is none *)
Theorem C79_everywhere_refuted :
  exists addr borders coords result, stations_known borders (length coords) /\
    interpolate_coordinates addr borders (length coords) coords = Ok result /\
    exists g, nth_error result 1 = Some g /\ ~ located g.
Proof.
  exists (fun s => s), (fun s => if Nat.eqb s 0 then [1%nat] else [0%nat]), [mk_gps (- (360)) 50; no_gps].
  eexists. split; [|split; [vm_compute; reflexivity|]].
  - intros s t L I. cbn [length] in *. destruct (Nat.eqb s 0); destruct I as [<-|[]]; lia.
  - eexists. split; [reflexivity|]. rewrite <- valid_iff. vm_compute. discriminate.
Qed.
Print Assumptions C79_everywhere_refuted.

(* station 1 between 0 (five borders) and 2, 3, 4 behind 3, 5 alone, 6 next to 4 only *)
Definition ex_borders (s : nat) : list nat :=
  nth s [[1; 1; 1; 1; 1]; [2; 0; 0; 3; 0; 0; 0]; [1]; [1; 4]; [3; 6]; []; [4]]%nat [].
Definition ex_coords : list gps :=
  [mk_gps 8 50; no_gps; mk_gps 9 51; no_gps; mk_gps 11 49; no_gps; mk_gps (-361) 3].
Example C79_sat :
  stations_known ex_borders (length ex_coords) /\
  match interpolate_coordinates (fun s => 7 - s)%nat ex_borders 7 ex_coords with
  | Ok r => map (fun g => (Qred (lon_ g), Qred (lat_ g))) r =
            [(8, 50); (61 # 7, 351 # 7); (9, 51); (39 # 4, 199 # 4); (11, 49); (8, 47); (109 # 10, 49)]
  | _ => False
  end.
Proof.
  split.
  - intros s t L I. cbn [length ex_coords] in *. unfold ex_borders in I.
    do 7 (destruct s as [|s]; [cbn in I; intuition lia|]). lia.
  - vm_compute. reflexivity.
Qed.
