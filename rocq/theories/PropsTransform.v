(* C39: mapping a sequence of station routes to a path of interlocking routes. *)
From Verif Require Import Base AlgoModel RouteModel RouteProofs RouteSpec RouteIter RouteIndex PropsRoute
  TransformModel TransformProofs.
From Coq Require Import Sorted Permutation ZifyBool ZifyNat ZifyN.

(* ---- specification ----
   From TransformProofs.v: meets, consecutive, runs_along, runs_through, ends_with. *)

(* an interlocking with its lookup tables *)
Record interlocking : Type := mkil {
  il_routes : list iroute;
  il_part : list (list N);       (* station route -> routes using it *)
  il_start : list (list N);      (* node -> routes starting there *)
  il_halt : list (list N)        (* node -> routes halting there *)
}.
(* the tables were computed from the routes, and ids are positions *)
Definition built (srs : list sroute) (n : nat) (il : interlocking) : Prop :=
  map ir_id (il_routes il) = map N.of_nat (seq 0 (length (il_routes il))) /\
  Forall (proper_route srs) (il_routes il) /\ node_ids_below srs n /\
  get_sr_to_participating_irs srs (il_routes il) = Ok (il_part il) /\
  get_starting_at srs n (il_routes il) = Ok (il_start il) /\
  get_halting_at srs n (il_routes il) = Ok (il_halt il).
Definition transform srs checkpoint il freight fuel ss :=
  transform_to_interlocking srs checkpoint (il_routes il) (il_part il) (il_start il) (il_halt il) freight fuel ss.
(* the routes with the given ids *)
Definition routes_of (il : interlocking) (path : list N) (rs : list iroute) : Prop :=
  Forall2 (fun id r => nth_error (il_routes il) (N.to_nat id) = Some r) path rs.
(* the station routes of the sequence *)
Definition sequence (ss : stopseq) : list nat := map sp_sr (ss_points ss).
(* the position at which a point is measured: its halt, or, for a timed run
   through, the runtime checkpoint *)
Definition position (srs : list sroute) (checkpoint : nat -> option nat) (freight : bool) (p : seqpoint) : option nat :=
  if sp_halt p then match sr_of srs (sp_sr p) with
                    | Some sr => if freight then sr_freight_halt sr else sr_passenger_halt sr
                    | None => None
                    end
  else if sp_timed p then checkpoint (sp_sr p) else None.
(* the route passes over the position at which the point is measured *)
Definition passes (srs : list sroute) (checkpoint : nat -> option nat) (freight : bool) (r : iroute) (p : seqpoint) : Prop :=
  exists i, position srs checkpoint freight p = Some i /\ In (sp_sr p, i) (ir_cells srs r).
(* l lists, in order, those points of a contiguous piece of ps that have P *)
Definition selects {A} (P : A -> Prop) (ps l : list A) : Prop :=
  exists o n f, l = filter f (firstn n (skipn o ps)) /\ forall p, In p ps -> (f p = true <-> P p).
Definition positions_valid (srs : list sroute) (checkpoint : nat -> option nat) : Prop :=
  (forall s i, checkpoint s = Some i -> i < sr_len srs s) /\
  (forall s sr i, sr_of srs s = Some sr -> sr_passenger_halt sr = Some i \/ sr_freight_halt sr = Some i -> i < sr_len srs s).

Lemma built_tables srs n il : built srs n il ->
  lists_exactly (il_part il) (il_routes il) (fun r k => In (N.to_nat k) (ir_srs r)) /\
  lists_exactly (il_start il) (il_routes il) (starts_at srs).
Proof.
  intros [B1 [B2 [B3 [B4 [B5 B6]]]]]. split.
  - destruct (C38_participating srs (il_routes il)) as [t [T1 [T2 [T3 T4]]]].
    { intros r I. rewrite Forall_forall in B2. exact (proj1 (B2 r I)). }
    rewrite B4 in T1. injection T1 as <-. exact T3.
  - destruct (C38_starting_at srs n (il_routes il) B2 B3) as [t [T1 [T2 [T3 T4]]]].
    rewrite B5 in T1. injection T1 as <-. exact T3.
Qed.

Lemma routes_of_ids srs n il rs : built srs n il -> Forall (fun r => In r (il_routes il)) rs ->
  routes_of il (map ir_id rs) rs.
Proof.
  intros B. induction 1 as [|r rs I F IH]; cbn; [constructor|]. constructor; [|exact IH].
  apply In_nth_error in I as [k E]. rewrite (id_position (il_routes il) (proj1 B) _ _ E).
  now rewrite Nat2N.id.
Qed.

Lemma in_skipn {A} n : forall (l : list A) x, In x (skipn n l) -> In x l.
Proof. induction n as [|n IH]; intros [|a l] x I; cbn in *; auto. Qed.
Lemma in_firstn {A} n : forall (l : list A) x, In x (firstn n l) -> In x l.
Proof. induction n as [|n IH]; intros [|a l] x I; cbn in *; try contradiction. destruct I; auto. Qed.
Lemma ir_cells_sr srs r c : In c (ir_cells srs r) -> exists sr, sr_of srs (fst c) = Some sr.
Proof.
  intros I. apply in_skipn, in_firstn, in_cells_of in I as [_ L]. unfold sr_len in L.
  destruct (sr_of srs (fst c)) as [sr|]; [eauto|lia].
Qed.

(* ---- theorems ---- *)
(* Every path returned is a connected run: it starts with a route using the
   first station route of the sequence (from its first node if the sequence
   breaks in), every further route starts at the node where the one before it
   ended, every route uses some station route of the sequence. *)
Theorem C39_connected : forall srs checkpoint n il freight fuel ss path pts,
  built srs n il ->
  transform srs checkpoint il freight fuel ss = Ok (inr (path, pts)) ->
  exists r0 rs, routes_of il path (r0 :: rs) /\
    consecutive (meets srs) (r0 :: rs) /\
    (forall r, In r (r0 :: rs) -> exists s, In s (sequence ss) /\ In s (ir_srs r)) /\
    (exists s, nth_error (sequence ss) 0 = Some s /\ In s (ir_srs r0) /\
       (ss_break_in ss = true -> exists x, cell_node srs (s, 0) x /\ starts_at srs r0 x)).
Proof.
  intros srs cp n il fr fuel ss path pts B E.
  destruct (built_tables _ _ _ B) as [PA ST].
  apply transform_ok in E; [|exact (proj1 B)|exact (proj1 (proj2 B))|exact PA|exact ST].
  destruct E as [r0 [rs [P1 [P2 [P3 [P4 [P5 [P8 [P6 P7]]]]]]]]].
  exists r0, rs. split.
  { rewrite P1. eapply routes_of_ids; [exact B|]. eapply Forall_impl; [|exact P2]. now intros r [A _]. }
  split; [exact P3|]. split.
  { intros r I. rewrite Forall_forall in P2. exact (proj2 (P2 r I)). }
  destruct P4 as [p [A1 [A2 A3]]]. exists (sp_sr p).
  split; [unfold sequence; rewrite nth_error_map, A1; reflexivity|]. split; [exact A2|].
  intros BI. destruct (A3 BI) as [sr [x [C1 [C2 C3]]]]. exists x. split; [|exact C3].
  unfold cell_node. exists sr. cbn. split; [exact C1|]. unfold sr_node in C2.
  now apply at_nth in C2.
Qed.
Print Assumptions C39_connected.

(* Every sequence point handed out is a point of the sequence, it is measured
   at a position that one of the routes of the path passes over, and there are
   as many as the sequence has measurable points. They come route by route: for
   each route the points, in order, of a contiguous piece of the sequence which
   the route passes over. *)
Theorem C39_points : forall srs checkpoint n il freight fuel ss path pts,
  built srs n il -> positions_valid srs checkpoint ->
  (N.of_nat (length (ss_points ss)) < 2 ^ 63)%N ->
  transform srs checkpoint il freight fuel ss = Ok (inr (path, pts)) ->
  exists rs, routes_of il path rs /\
    (forall p, In p pts -> In p (ss_points ss) /\ exists r, In r rs /\ passes srs checkpoint freight r p) /\
    (exists pieces, pts = concat pieces /\
       Forall2 (fun r => selects (passes srs checkpoint freight r) (ss_points ss)) rs pieces) /\
    length pts = length (filter (fun p => sp_halt p || sp_timed p) (ss_points ss)).
Proof.
  intros srs cp n il fr fuel ss path pts B PV LEN E.
  destruct (built_tables _ _ _ B) as [PA ST].
  apply transform_ok in E; [|exact (proj1 B)|exact (proj1 (proj2 B))|exact PA|exact ST].
  destruct E as [r0 [rs [P1 [P2 [P3 [P4 [P5 [P8 [P6 P7]]]]]]]]].
  exists (r0 :: rs). split.
  { rewrite P1. eapply routes_of_ids; [exact B|]. eapply Forall_impl; [|exact P2]. now intros r [A _]. }
  assert (PS : forall r p, In r (il_routes il) -> (exists k, node_idx srs cp fr p = Ok (Some k) /\ ir_contains r (sp_sr p) k = true)
                 <-> sr_of srs (sp_sr p) <> None /\ passes srs cp fr r p).
  { intros r p I.
    assert (W : wf_ir srs r) by (destruct B as [_ [B2 _]]; rewrite Forall_forall in B2; exact (proj1 (B2 r I))).
    assert (NP : forall sr, sr_of srs (sp_sr p) = Some sr -> node_idx srs cp fr p = Ok (position srs cp fr p)).
    { intros sr E. unfold node_idx, position, at_, sr_of in *. rewrite E. cbn. unfold has_transit_time, halt_idx.
      destruct (sp_halt p), (sp_timed p); reflexivity. }
    assert (RG : forall k, position srs cp fr p = Some k -> k < sr_len srs (sp_sr p)).
    { intros k. unfold position. destruct PV as [V1 V2]. destruct (sp_halt p).
      - destruct (sr_of srs (sp_sr p)) as [sr|] eqn:E; [|discriminate]. intros H. apply (V2 _ sr); [exact E|].
        destruct fr; auto.
      - destruct (sp_timed p); [apply V1|discriminate]. }
    split.
    - intros [k [K1 K2]]. destruct (sr_of srs (sp_sr p)) as [sr|] eqn:E.
      + split; [discriminate|]. rewrite (NP sr eq_refl) in K1. injection K1 as K1. exists k. split; [exact K1|].
        apply C37_contains; auto.
      + exfalso. unfold node_idx, at_, sr_of in *. rewrite E in K1. discriminate.
    - intros [N0 [k [K1 K2]]]. destruct (sr_of srs (sp_sr p)) as [sr|] eqn:E; [|congruence].
      exists k. rewrite (NP sr eq_refl), K1. split; [reflexivity|]. apply (C37_contains srs); auto. }
  assert (II : forall r, In r (r0 :: rs) -> In r (il_routes il)).
  { rewrite Forall_forall in P2. intros r I. exact (proj1 (P2 r I)). }
  split; [|split].
  - intros p I. destruct (P5 p I) as [A [r [k [C1 [C2 C3]]]]]. split; [exact A|]. exists r. split; [exact C1|].
    apply PS; [now apply II|]. eauto.
  - destruct (P8 LEN) as [pieces [F ->]]. exists pieces. split; [reflexivity|]. clear - F II PS.
    assert (F' : forall rs0 pcs, (forall r, In r rs0 -> In r (il_routes il)) -> Forall2 (piece_of srs cp fr ss) rs0 pcs ->
      Forall2 (fun r => selects (passes srs cp fr r) (ss_points ss)) rs0 pcs); [|now apply F'].
    clear F II. intros rs0 pcs II F. induction F as [|r pc rs0 pcs P F IH]; constructor; [|apply IH; intros; apply II; now right].
    destruct P as [o [n0 ->]]. exists o, n0, (on_route srs cp fr r). split; [reflexivity|].
    intros p Ip. unfold on_route. split.
    + intros H. destruct (node_idx srs cp fr p) as [[k|]| | |] eqn:E; try discriminate.
      apply PS; [apply II; now left|]. eauto.
    + intros H. destruct (sr_of srs (sp_sr p)) as [sr|] eqn:E.
      * destruct (proj2 (PS r p (II r (or_introl eq_refl)))) as [k [-> K]]; [split; [rewrite E; discriminate|exact H]|exact K].
      * exfalso. destruct H as [k [_ H]]. apply ir_cells_sr in H as [sr Hs]. cbn [fst] in Hs. congruence.
  - rewrite P6. f_equal. apply filter_ext. intros p. unfold measurable, has_transit_time.
    destruct (sp_halt p), (sp_timed p); reflexivity.
Qed.
Print Assumptions C39_points.

(* The path runs through the whole sequence, station route by station route,
   provided: the first route begins with the first station route of the
   sequence; a route begins on the station route on which the one before it
   ended; no route of the path ends exactly at the end of a station route of
   the sequence, except the last one of the sequence; and a route of the path
   that begins with a station route of the sequence does not branch off.
   Missing for the full property: the last condition is not checked by the
   code (C39_wrong_branch_refuted), and neither is the third
   (C39_stops_early_refuted). *)
Theorem C39_cover_partial : forall srs checkpoint n il freight fuel ss path pts rs,
  built srs n il ->
  transform srs checkpoint il freight fuel ss = Ok (inr (path, pts)) ->
  routes_of il path rs ->
  (N.of_nat (length (ss_points ss)) < 2 ^ 63)%N ->
  (forall r, In r rs -> (N.of_nat (length (ir_srs r)) < 2 ^ 63)%N) ->
  (forall r, nth_error rs 0 = Some r -> nth_error (sequence ss) 0 = Some (hd 0 (ir_srs r))) ->
  consecutive (fun a b => hd 0 (ir_srs b) = last (ir_srs a) 0) rs ->
  (forall r i s, In r rs -> S i < length (sequence ss) -> nth_error (sequence ss) i = Some s -> ~ ends_with srs r s) ->
  (forall r o, In r rs -> nth_error (sequence ss) o = Some (hd 0 (ir_srs r)) -> runs_along (sequence ss) o r) ->
  runs_through (sequence ss) 0 rs.
Proof.
  intros srs cp n il fr fuel ss path pts rs B E RO L1 L2 H0 H1 H2 H3.
  destruct (built_tables _ _ _ B) as [PA ST].
  apply transform_ok in E; [|exact (proj1 B)|exact (proj1 (proj2 B))|exact PA|exact ST].
  destruct E as [r0 [rs' [P1 [P2 [P3 [P4 [P5 [P8 [P6 P7]]]]]]]]].
  assert (RO' : routes_of il path (r0 :: rs')).
  { rewrite P1. eapply routes_of_ids; [exact B|]. eapply Forall_impl; [|exact P2]. now intros r [A _]. }
  assert (EQ : rs = r0 :: rs').
  { clear - RO RO'. revert RO RO'. generalize (r0 :: rs'). intros l A. revert l.
    induction A as [|x y xs ys E A IH]; intros l B; inversion B; subst; [reflexivity|].
    f_equal; [congruence|auto]. }
  subst rs. apply P7; try assumption.
  - now rewrite map_length.
  - apply H0. reflexivity.
Qed.
Print Assumptions C39_cover_partial.

(* ---- a case meeting the hypotheses ----
   A (nodes 0 1 2, main signal 1), then B (nodes 3 4 5, main signal 4, halt 5) *)
Definition ex39_srs : list sroute :=
  [mksr [0; 1; 2]%N [1] [] [] None None 0%N false; mksr [3; 4; 5]%N [1] [] [] (Some 2) (Some 2) 1%N false].
Definition ex39_il : interlocking :=
  mkil [mkir 0 0 2 [0]; mkir 1 1 2 [0; 1]; mkir 2 1 3 [1]]
       [[0; 1]; [1; 2]]%N [[0]; [1]; []; []; [2]; []]%N [[]; []; []; []; []; [2; 2]]%N.
Definition mksp (halt timed : bool) (sr : nat) : seqpoint :=
  mkpt (if halt then PASSENGER else TRANSIT) 0 (if timed then 60 else TIME_INVALID)%N 0 sr.
Definition ex39_ss : stopseq := mkss [mksp false true 0; mksp true true 1] true true.
Example C39_example_built : built ex39_srs 6 ex39_il.
Proof.
  split; [reflexivity|]. split.
  { repeat (apply Forall_cons || apply Forall_nil);
      (split; [|split; [discriminate|split; cbn; lia]]);
      (constructor; cbn; [discriminate|intros s I|lia|lia|try lia]);
      repeat (destruct I as [<-|I]); try destruct I; eexists; split; reflexivity. }
  split.
  { intros [|[|s]] sr x E I; cbn in E; try discriminate; [| |destruct s; discriminate]; injection E as <-; cbn in I; lia. }
  repeat split; reflexivity.
Qed.
Example C39_example : transform ex39_srs (fun s => if Nat.eqb s 0 then Some 0 else None) ex39_il true 5 ex39_ss
  = Ok (inr ([0; 1; 2]%N, [mksp false true 0; mksp true true 1])).
Proof. vm_compute. reflexivity. Qed.
Example C39_example_cover : forall rs, routes_of ex39_il [0; 1; 2]%N rs ->
  consecutive (fun a b => hd 0 (ir_srs b) = last (ir_srs a) 0) rs /\
  (forall r i s, In r rs -> S i < length (sequence ex39_ss) -> nth_error (sequence ex39_ss) i = Some s ->
     ~ ends_with ex39_srs r s) /\
  (forall r o, In r rs -> nth_error (sequence ex39_ss) o = Some (hd 0 (ir_srs r)) -> runs_along (sequence ex39_ss) o r) /\
  runs_through (sequence ex39_ss) 0 rs.
Proof.
  intros rs H.
  assert (E : rs = [mkir 0 0 2 [0]; mkir 1 1 2 [0; 1]; mkir 2 1 3 [1]]).
  { inversion H as [|x1 y1 l1 m1 A1 H1]; subst. inversion H1 as [|x2 y2 l2 m2 A2 H2]; subst.
    inversion H2 as [|x3 y3 l3 m3 A3 H3]; subst. inversion H3; subst. vm_compute in A1, A2, A3.
    congruence. }
  subst rs. assert (D3 : forall r o, In r [mkir 0 0 2 [0]; mkir 1 1 2 [0; 1]; mkir 2 1 3 [1]] ->
    nth_error (sequence ex39_ss) o = Some (hd 0 (ir_srs r)) -> runs_along (sequence ex39_ss) o r).
  { intros r o [<-|[<-|[<-|[]]]] E j s1 s2 A B; destruct o as [|[|o]]; cbn in E; try discriminate;
      try (destruct o; discriminate);
      destruct j as [|[|j]]; cbn in A, B; try congruence; try (destruct j; discriminate). }
  split; [cbn; auto|]. split; [|split; [exact D3|]].
  - intros r i s I L E. cbn in L. assert (i = 0) by lia. subst i. cbn in E. injection E as <-.
    intros [sr [x [S1 [S2 S3]]]]. cbn in S1. injection S1 as <-. cbn in S3. injection S3 as <-.
    destruct S2 as [sr [T1 T2]]. destruct I as [<-|[<-|[<-|[]]]]; cbn in T1, T2; injection T1 as <-; discriminate.
  - cbn. split; [apply D3; [now left|reflexivity]|]. right. split; [apply D3; [right; now left|reflexivity]|]. left. lia.
Qed.

(* If no point is measured where two of the routes pass (in particular not at the
   signal where they meet), every halt and every timed run through of the sequence is
   handed out exactly once. *)
Lemma nth_error_skipn_plus {A} k : forall (l : list A) j, nth_error (skipn k l) j = nth_error l (k + j).
Proof. induction k as [|k IH]; intros [|x l] j; cbn; auto. now destruct j. Qed.
Lemma nth_window {A} (d : A) ps : forall n o, firstn n (skipn o ps) = map (fun i => nth i ps d) (seq o (min n (length ps - o))).
Proof.
  induction n as [|n IH]; intros o; [reflexivity|]. destruct (nth_error ps o) as [x|] eqn:E.
  - assert (L : o < length ps) by (apply nth_error_Some; congruence).
    replace (min (S n) (length ps - o)) with (S (min n (length ps - S o))) by lia. cbn [seq map]. rewrite <- IH.
    rewrite (nth_error_nth _ _ d E). assert (K : skipn o ps = x :: skipn (S o) ps).
    { clear - E. revert ps E. induction o as [|o IH]; intros [|y ps] E; try discriminate; cbn in *; [congruence|exact (IH ps E)]. }
    rewrite K. reflexivity.
  - apply nth_error_None in E. rewrite skipn_all2 by exact E. replace (length ps - o) with 0 by lia. rewrite Nat.min_0_r. now rewrite firstn_nil.
Qed.
Lemma filter_map {A B} (f : B -> bool) (g : A -> B) l : filter f (map g l) = map g (filter (fun x => f (g x)) l).
Proof. induction l as [|x l IH]; cbn; [reflexivity|]. destruct (f (g x)); cbn; now rewrite IH. Qed.
Theorem C39_all_points_partial : forall srs checkpoint n il freight fuel ss path pts rs,
  built srs n il -> positions_valid srs checkpoint ->
  (N.of_nat (length (ss_points ss)) < 2 ^ 63)%N ->
  transform srs checkpoint il freight fuel ss = Ok (inr (path, pts)) ->
  routes_of il path rs ->
  (forall j k r q p, nth_error rs j = Some r -> nth_error rs k = Some q -> In p (ss_points ss) ->
     passes srs checkpoint freight r p -> passes srs checkpoint freight q p -> j = k) ->
  Permutation pts (filter (fun p => sp_halt p || sp_timed p) (ss_points ss)).
Proof.
  intros srs cp n il fr fuel ss path pts rs B PV LEN E RO ONE.
  destruct (C39_points _ _ _ _ _ _ _ _ _ B PV LEN E) as (rs' & RO' & _ & (pieces & EP & F2) & CNT).
  assert (rs' = rs).
  { clear - RO RO'. unfold routes_of in *. revert rs RO. induction RO' as [|i r is rs' K _ IH]; intros rs RO; inversion RO; subst; [reflexivity|].
    f_equal; [congruence|apply IH; assumption]. } subst rs'.
  set (ps := ss_points ss) in *. set (d := mkpt TRANSIT 0 0 0 0). set (g := fun i => nth i ps d).
  set (m := fun p => sp_halt p || sp_timed p) in *.
  assert (MEAS : forall r p, passes srs cp fr r p -> m p = true).
  { intros r p (i & P & _). unfold position in P. unfold m. destruct (sp_halt p); [reflexivity|]. destruct (sp_timed p); [reflexivity|discriminate]. }
  (* the indices handed out *)
  assert (IX : exists ix, pts = map g (concat ix) /\ length ix = length rs /\
    forall k l, nth_error ix k = Some l -> NoDup l /\
      exists r, nth_error rs k = Some r /\ forall i, In i l -> i < length ps /\ passes srs cp fr r (g i)).
  { rewrite EP. clear - F2. induction F2 as [|r pc rs pcs S _ IH].
    - exists []. split; [reflexivity|]. split; [reflexivity|]. intros [|k]; discriminate.
    - destruct IH as (ix & I1 & I2 & I3). destruct S as (o & c & f & S1 & S2).
      rewrite (nth_window d), filter_map in S1. fold g in S1.
      exists (filter (fun i => f (g i)) (seq o (min c (length ps - o))) :: ix). split; [cbn [concat]; rewrite map_app, I1; f_equal; exact S1|].
      split; [cbn; now rewrite I2|]. intros [|k] l K; [|destruct (I3 k l K) as (A & q & Q & C); split; [exact A|exists q; auto]].
      cbn in K. injection K as <-. split; [apply NoDup_filter, seq_NoDup|]. exists r. split; [reflexivity|].
      intros i I. apply filter_In in I. destruct I as [I J]. apply in_seq in I. assert (i < length ps) by lia. split; [assumption|].
      apply S2; [apply nth_In; assumption|exact J]. }
  destruct IX as (ix & I1 & I2 & I3).
  assert (ND : NoDup (concat ix)).
  { assert (G : forall k, NoDup (concat (skipn k ix))).
    { intros k. remember (length ix - k) as z eqn:Z. revert k Z. induction z as [|z IH]; intros k Z.
      - rewrite skipn_all2 by lia. constructor.
      - destruct (nth_error ix k) as [l|] eqn:K; [|apply nth_error_None in K; lia].
        assert (SK : skipn k ix = l :: skipn (S k) ix).
        { clear - K. revert ix K. induction k as [|k IH]; intros [|y ix] K; try discriminate; cbn in *; [congruence|exact (IH ix K)]. }
        rewrite SK. cbn [concat]. destruct (I3 k l K) as (NL & r & R & IN).
        assert (X : forall i, In i l -> ~ In i (concat (skipn (S k) ix))).
        { intros i Il Ic. apply in_concat in Ic. destruct Ic as (l' & L' & Il'). apply In_nth_error in L'. destruct L' as [j J].
          rewrite nth_error_skipn_plus in J. destruct (I3 _ _ J) as (_ & q & Q & IN').
          destruct (IN i Il) as [Li Pi]. destruct (IN' i Il') as [_ Pi'].
          assert (k = S k + j) by (apply (ONE _ _ r q (g i) R Q); [apply nth_In; exact Li|exact Pi|exact Pi']). lia. }
        clear - NL X IH Z. specialize (IH (S k) ltac:(lia)). induction l as [|i l IHl]; [exact IH|].
        inversion NL as [|? ? N1 N2]; subst. cbn. constructor; [|apply IHl; [exact N2|intros h H; apply X; right; exact H]].
        intros I. apply in_app_or in I. destruct I as [I|I]; [exact (N1 I)|exact (X i (or_introl eq_refl) I)]. }
    exact (G 0). }
  set (jx := filter (fun i => m (g i)) (seq 0 (length ps))).
  assert (JX : filter m ps = map g jx).
  { rewrite <- (firstn_all ps) at 1. change ps with (skipn 0 ps) at 2. rewrite (nth_window d), filter_map, Nat.sub_0_r, Nat.min_id. reflexivity. }
  rewrite JX, I1. apply Permutation_map. apply NoDup_Permutation_bis; [exact ND| |].
  - rewrite JX, I1, !map_length in CNT. lia.
  - intros i I. apply in_concat in I. destruct I as (l & L & Il). apply In_nth_error in L. destruct L as [k K].
    destruct (I3 k l K) as (_ & r & _ & IN). destruct (IN i Il) as [Li Pi]. unfold jx. apply filter_In. split; [apply in_seq; lia|].
    exact (MEAS r (g i) Pi).
Qed.
Print Assumptions C39_all_points_partial.

Example C39_example_points : forall j k r q p,
  nth_error [mkir 0 0 2 [0]; mkir 1 1 2 [0; 1]; mkir 2 1 3 [1]] j = Some r ->
  nth_error [mkir 0 0 2 [0]; mkir 1 1 2 [0; 1]; mkir 2 1 3 [1]] k = Some q -> In p (ss_points ex39_ss) ->
  passes ex39_srs (fun s => if Nat.eqb s 0 then Some 0 else None) true r p ->
  passes ex39_srs (fun s => if Nat.eqb s 0 then Some 0 else None) true q p -> j = k.
Proof.
  intros j k r q p J K I (i & P & C) (i' & P' & C'). rewrite P in P'. injection P' as <-.
  cbn in I. repeat (destruct I as [<-|I]; [cbn in P; injection P as <-;
    destruct j as [|[|[|j]]]; try (destruct j; discriminate); cbn in J; injection J as <-;
    destruct k as [|[|[|k]]]; try (destruct k; discriminate); cbn in K; injection K as <-;
    try reflexivity; exfalso; vm_compute in C, C'; intuition discriminate|]). destruct I.
Qed.

(* ---- findings ---- *)
(* what the timetable parser lets through (is_supported): at least two points,
   no break-in or break-out, halts at both ends, halts and times where the
   station route has a place for them *)
Definition supported (srs : list sroute) (checkpoint : nat -> option nat) (freight : bool) (ss : stopseq) : Prop :=
  2 <= length (ss_points ss) /\ ss_break_in ss = false /\ ss_break_out ss = false /\
  (forall p, nth_error (ss_points ss) 0 = Some p -> sp_halt p = true) /\
  (forall p, nth_error (rev (ss_points ss)) 0 = Some p -> sp_halt p = true) /\
  (forall p, In p (ss_points ss) -> sp_halt p || sp_timed p = true -> position srs checkpoint freight p <> None).
Ltac supp := split; [cbn; lia|]; repeat (split; [reflexivity|]); split;
  [intros ? [= <-]; reflexivity|]; split; [intros ? [= <-]; reflexivity|];
  intros ? I _; cbn in I; repeat (destruct I as [<-|I]; [discriminate|]); destruct I.

Ltac build :=
  split; [reflexivity|]; split;
  [ repeat (apply Forall_cons || apply Forall_nil);
    (split; [|split; [discriminate|split; cbn; lia]]);
    (constructor; cbn; [discriminate|intros ? ?|lia|lia|try lia]);
    repeat match goal with H : _ \/ _ |- _ => destruct H as [<-|H] | H : False |- _ => destruct H end;
    eexists; split; reflexivity
  | split;
    [ intros s sr x E I; unfold sr_of in E;
      repeat (destruct s as [|s]; [cbn in E; injection E as <-; cbn in I; lia|]);
      destruct s; discriminate
    | repeat split; reflexivity ] ].

(* A timed run through that is measured at the signal where two routes meet is
   found on both routes: the final check counts it twice and throws. *)
Theorem C39_boundary_point_refuted : exists srs checkpoint n il ss,
  built srs n il /\ positions_valid srs checkpoint /\ forall fuel, transform srs checkpoint il true (S (S (S (S fuel)))) ss = Throw.
Proof.
  exists ex39_srs, (fun s => if Nat.eqb s 0 then Some 1 else None), 6, ex39_il, ex39_ss.
  split; [exact C39_example_built|]. split.
  - split.
    + intros [|s] i E; cbn in E; [injection E as <-; cbn; lia|discriminate].
    + intros [|[|s]] sr i E H; cbn in E; try (destruct s; discriminate); injection E as <-; cbn in *;
        destruct H as [H|H]; try discriminate; injection H as <-; lia.
  - intros fuel. reflexivity.
Qed.
Print Assumptions C39_boundary_point_refuted.

(* The sequence is A, B. B has no routes of its own (it is an ETCS section), the
   only route leaving A goes through C to D. The path returned follows that
   route; B is not on it. *)
Theorem C39_wrong_branch_refuted : exists srs checkpoint n il ss path pts rs,
  built srs n il /\ transform srs checkpoint il true 5 ss = Ok (inr (path, pts)) /\ routes_of il path rs /\
  consecutive (fun a b => hd 0 (ir_srs b) = last (ir_srs a) 0) rs /\
  ~ (forall s, In s (sequence ss) -> exists r, In r rs /\ In s (ir_srs r)).
Proof.
  exists [mksr [0; 1]%N [1] [] [] None None 0%N false; mksr [2; 3]%N [1] [] [] None None 1%N true;
          mksr [4; 5]%N [] [] [] None None 1%N false; mksr [6; 7]%N [1] [] [] None None 2%N false],
    (fun _ => None), 8,
    (mkil [mkir 0 0 2 [0]; mkir 1 1 2 [0; 2; 3]] [[0; 1]; []; [1]; [1]]%N
          [[0]; [1]; []; []; []; []; []; []]%N [[]; []; []; []; []; []; []; []]),
    (mkss [mksp false false 0; mksp false false 1] true true),
    [0; 1]%N, [], [mkir 0 0 2 [0]; mkir 1 1 2 [0; 2; 3]].
  split; [build|]. split; [reflexivity|]. split; [repeat constructor|]. split; [cbn; auto|].
  intros H. destruct (H 1) as [r [[<-|[<-|[]]] I]]; [right; now left| |]; cbn in I; lia.
Qed.
Print Assumptions C39_wrong_branch_refuted.

(* The sequence is A, B and the second route, inside A, ends exactly at the end
   of A. The search moves on to B but keeps the node index reached in A, which
   is past the end of B: the cover is taken to be complete and the returned
   path only has A on it. *)
Theorem C39_stops_early_refuted : exists srs checkpoint n il ss path pts rs,
  built srs n il /\ transform srs checkpoint il true 5 ss = Ok (inr (path, pts)) /\ routes_of il path rs /\
  ~ (forall s, In s (sequence ss) -> exists r, In r rs /\ In s (ir_srs r)).
Proof.
  exists [mksr [0; 1; 2]%N [1; 2] [] [] None None 0%N false; mksr [3; 4]%N [] [] [] None None 1%N false],
    (fun _ => None), 5,
    (mkil [mkir 0 0 2 [0]; mkir 1 1 3 [0]; mkir 2 2 2 [0; 1]] [[0; 1; 2]; [2]]%N
          [[0]; [1]; [2]; []; []]%N [[]; []; []; []; []]),
    (mkss [mksp false false 0; mksp false false 1] true true),
    [0; 1]%N, [], [mkir 0 0 2 [0]; mkir 1 1 3 [0]].
  split; [build|]. split; [reflexivity|]. split; [repeat constructor|].
  intros H. destruct (H 1) as [r [[<-|[<-|[]]] I]]; [right; now left| |]; cbn in I; lia.
Qed.
Print Assumptions C39_stops_early_refuted.

(* A ring with one signal: the only route leads from the signal back to it. A
   sequence that leaves the ring on a section without routes is searched for
   for ever. *)
Theorem C39_endless_refuted : exists srs checkpoint n il ss,
  built srs n il /\ supported srs checkpoint true ss /\
  forall fuel, transform srs checkpoint il true fuel ss = Fuel.
Proof.
  exists [mksr [0; 1]%N [0] [] [] None (Some 1) 0%N false; mksr [2; 3]%N [1] [] [] None (Some 1) 1%N true],
    (fun _ => None), 4,
    (mkil [mkir 0 0 1 [0; 0]] [[0; 0]; []]%N [[0]; []; []; []]%N [[]; [0]; []; []]%N),
    (mkss [mksp true true 0; mksp true true 1] false false).
  split; [build|]. split; [supp|].
  intros fuel. unfold transform, transform_to_interlocking.
  match goal with |- bind ?m _ = _ => change m with (@Ok (rt_error + N * cover) (inr (0%N, mkcover 0 1))) end.
  cbn [bind]. match goal with |- bind ?m _ = _ => change m with (Ok (mkir 0 0 1 [0; 0])) end. cbn [bind].
  match goal with |- bind ?m _ = _ => change m with (Ok [mksp true true 0]) end. cbn [bind].
  cbn [il_routes il_part il_start il_halt].
  match goal with |- bind (?f ?pa ?pt) _ = _ =>
    assert (H : forall (pts : list seqpoint) (path : list N), f path pts = Fuel); [|now rewrite H] end.
  induction fuel as [|fuel IH]; intros pts path; [reflexivity|].
  exact (IH (pts ++ [mksp true true 0]) (path ++ [0%N])).
Qed.
Print Assumptions C39_endless_refuted.

(* The sequence lies inside a single route (B, C on the route A, B, C, D): the
   points of the sequence are read past their end. *)
Theorem C39_overhang_refuted : exists srs checkpoint n il ss,
  built srs n il /\ supported srs checkpoint true ss /\
  forall fuel, transform srs checkpoint il true fuel ss = UB.
Proof.
  exists [mksr [0; 1]%N [1] [] [] None None 0%N false; mksr [2; 3]%N [] [] [] None (Some 1) 1%N false;
          mksr [4; 5]%N [] [] [] None (Some 0) 2%N false; mksr [6; 7]%N [1] [] [] None None 3%N false],
    (fun _ => None), 8,
    (mkil [mkir 0 1 2 [0; 1; 2; 3]] [[0]; [0]; [0]; [0]]%N [[]; [0]; []; []; []; []; []; []]%N
          [[]; []; []; [0]; [0]; []; []; []]%N),
    (mkss [mksp true true 1; mksp true true 2] false false).
  split; [build|]. split; [supp|]. intros fuel. reflexivity.
Qed.
Print Assumptions C39_overhang_refuted.

(* A is entered from a section without routes, so the part of A before its signal is
   on no route; the train halts there, then at the signal of B, then in C. The halt in
   A is left out, the one in B is on two routes and handed out twice: the final check
   only compares the numbers. *)
Definition lost_srs : list sroute :=
  [mksr [0; 1]%N [] [] [] None None 0%N true; mksr [2; 3; 4]%N [2] [] [] None (Some 1) 1%N false;
   mksr [5; 6; 7]%N [1] [] [] None (Some 1) 2%N false; mksr [8; 9]%N [] [] [] None (Some 1) 3%N false].
Definition lost_il : interlocking :=
  mkil [mkir 0 2 2 [1; 2]; mkir 1 1 2 [2; 3]] [[]; [0]; [0; 1]; [1]]%N
       [[]; []; []; []; [0]; []; [1]; []; []; []]%N [[]; []; []; []; []; []; [0; 1]; []; []; [1]]%N.
Definition lost_ss : stopseq := mkss [mksp true true 1; mksp true true 2; mksp true true 3] false false.
Theorem C39_lost_stop_refuted :
  get_interlocking_routes lost_srs (mksrg [[1]; [2]; [3]; []] [[]; [0]; [1]; [2]]) 10 = Ok (il_routes lost_il) /\
  built lost_srs 10 lost_il /\ supported lost_srs (fun _ => None) true lost_ss /\
  exists path, transform lost_srs (fun _ => None) lost_il true 10 lost_ss =
    Ok (inr (path, [mksp true true 2; mksp true true 2; mksp true true 3])).
Proof. split; [reflexivity|]. split; [build|]. split; [supp|]. eexists. reflexivity. Qed.
Print Assumptions C39_lost_stop_refuted.
