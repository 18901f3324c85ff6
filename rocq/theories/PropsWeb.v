(* C126: a whole request, from what the user of the web client does to the answer of the server.
   Reading guide: WebSpec.v (in_order, timetable_of, fatal), RouterSpec.v (plain, asks_for),
   ServeSpec.v and PropsServe.v (station_facts, ...), OgServeSpec.v (the ordering graph).
   `address` is the address the client sends, `handle` the answer of the server to it. *)
From Coq Require Import List Bool NArith ZArith Lia Ascii String.
From Verif Require Import Base OgServeModel OgServeSpec ClientViewModel RouterModel RouterSpec RouterProofs WebModel WebSpec PropsRouter PropsServe.
From Verif Require OrderingSpec KssDates PropsClientView PropsOgServe PropsOrdering ServeModel ServeSpec StartModel StartSpec StartProofs PropsStart PropsBitfield.
Import ListNotations.
Local Open Scope nat_scope.
Import ServeModel ServeSpec.

Lemma digits_numeral s : digits s -> exists v, KssDates.numeral s (Z.of_N v).
Proof.
  induction s as [|c s IH] using rev_ind; intros (N & F); [congruence|]. apply Forall_app in F as (F & Fc). inversion Fc as [|? ? I _]; subst.
  assert (D : exists k, (k < 10)%N /\ KssDates.digit c (Z.of_N k)).
  { cbn in I. repeat (destruct I as [<-|I]; [first [exists 0%N; split; [lia|split; [lia|reflexivity]]|exists 1%N; split; [lia|split; [lia|reflexivity]]
      |exists 2%N; split; [lia|split; [lia|reflexivity]]|exists 3%N; split; [lia|split; [lia|reflexivity]]|exists 4%N; split; [lia|split; [lia|reflexivity]]
      |exists 5%N; split; [lia|split; [lia|reflexivity]]|exists 6%N; split; [lia|split; [lia|reflexivity]]|exists 7%N; split; [lia|split; [lia|reflexivity]]
      |exists 8%N; split; [lia|split; [lia|reflexivity]]|exists 9%N; split; [lia|split; [lia|reflexivity]]]|]). destruct I. }
  destruct D as (k & _ & D). destruct s as [|d s].
  - exists k. constructor. exact D.
  - destruct IH as (v & H); [split; [discriminate|exact F]|]. exists (10 * v + k)%N.
    replace (Z.of_N (10 * v + k)) with (10 * Z.of_N v + Z.of_N k)%Z by lia. constructor; assumption.
Qed.

Section Whole.
  Variable guess : list text -> text -> list N.
  Variable usort : list OrderingModel.usage -> list OrderingModel.usage.
  Variable tsort : list (N * tentry) -> list (N * tentry).
  Variable excl_of : infra -> exclusion.
  Notation handle := (handle guess usort tsort excl_of).
  Notation call := (call guess usort tsort excl_of).

  Lemma handle_served w h ps t : asks_for h ps t -> handle w t = call w h ps.
  Proof. intros A. unfold WebModel.handle. rewrite (route_served _ _ _ A). reflexivity. Qed.
  Lemma infra_known w n i : in_order w -> In (n, i) (infras w) -> StartModel.lookup n (sv_infras (wb_server w)) = Some i.
  Proof. intros O I. apply lookup_In; [exact (io_names w O)|exact I]. Qed.
  Lemma contexts_names w : map fst (wb_contexts w) = map fst (wb_timetables w).
  Proof. unfold wb_contexts. rewrite map_map. reflexivity. Qed.
  Lemma contexts_unique w : in_order w -> unique_names (wb_contexts w).
  Proof.
    intros O. split; [rewrite contexts_names; exact (io_tt_infras w O)|].
    intros i tts I. apply in_map_iff in I as ((n & l) & [= <- <-] & I). rewrite map_map. exact (io_tt_names w O n l I).
  Qed.
  Lemma contexts_offers w i t iv : offers (wb_contexts w) i t iv <-> exists trains, timetable_of w i t iv trains.
  Proof.
    split.
    - intros (tts & I & J). apply in_map_iff in I as ((n & l) & [= <- <-] & I). apply in_map_iff in J as ((m & (iv' & trains)) & [= <- <-] & J).
      exists trains, l. auto.
    - intros (trains & tts & I & J). exists (map (fun t => (fst t, fst (snd t))) tts). split; apply in_map_iff; [exists (i, tts); auto|exists (t, (iv, trains)); auto].
  Qed.
  Lemma web_timetable_In w i t trains : in_order w -> web_timetable w i t = Some trains <-> exists iv, timetable_of w i t iv trains.
  Proof.
    intros O. assert (U : NoDup (map fst (wb_timetables w))) by exact (io_tt_infras w O).
    unfold web_timetable. split.
    - destruct (StartModel.lookup i (wb_timetables w)) as [tts|] eqn:L; [|discriminate]. apply (lookup_In _ _ _ U) in L.
      destruct (StartModel.lookup t tts) as [(iv & tr)|] eqn:K; [|discriminate]. intros [= <-]. exists iv, tts. split; [exact L|].
      apply (lookup_In _ _ _ (io_tt_names w O _ _ L)), K.
    - intros (iv & tts & I & J). rewrite (proj2 (lookup_In i _ tts U) I), (proj2 (lookup_In t _ (iv, trains) (io_tt_names w O _ _ I)) J). reflexivity.
  Qed.

  (* the addresses of the client *)
  Lemma asked_about w a h args : Forall plain (names_of a) -> concerns a h args -> (forall i, a <> Stations i) ->
    exists ps, handle w (address a) = call w h ps /\ Forall2 spells ps args.
  Proof.
    intros P C N. destruct (C124_served_partial a h args P C N) as (ps & R & F). exists ps. split; [|exact F].
    unfold WebModel.handle. rewrite R. reflexivity.
  Qed.
End Whole.
Arguments handle_served {guess usort tsort excl_of}.

(* ---- the server answers ---- *)
(* A server in good order answers every address, of whatever characters, unless it is one of the
   fatal ones or asks for the ordering of trains (for those see C126_graph and C126_turned_down). *)
Theorem C126_answered_partial guess usort tsort excl_of w target : in_order w -> guesses guess ->
  ~ fatal w target -> ~ about_ordering target -> exists r, handle guess usort tsort excl_of w target = Ok r.
Proof.
  intros O G NF NO. destruct (route target) as [(h & ps)|] eqn:R; [|unfold handle; rewrite R; eauto].
  apply route_inv in R as [A|(-> & -> & N)]; [|unfold handle; rewrite (route_static _ N); cbn; eauto].
  rewrite (handle_served w h ps target A). pose proof (io_search w O) as S. pose proof (io_names w O) as ND.
  assert (K : forall n, (exists i, In (n, i) (infras w)) \/ ~ In n (map fst (infras w))).
  { intros n. destruct (in_dec (list_eq_dec ascii_dec) n (map fst (infras w))) as [I|I]; [|auto].
    apply in_map_iff in I as ((m & i) & <- & I). left. exists i. exact I. }
  assert (Num : forall n s, asks_for h [n; s] target -> digits s ->
     h = H_station \/ h = H_station_route \/ h = H_interlocking_route \/ h = H_element \/ h = H_exclusion_set ->
     exists r, call guess usort tsort excl_of w h [n; s] = Ok r).
  { intros n s A' D H. destruct (digits_numeral s D) as (v & Hv). destruct (C91_requests_partial (infras w) (wb_server w) S ND n) as (Un & Kn).
    destruct (K n) as [(i & I)|I].
    - destruct (Kn i I (io_sound w O n i I)) as (R1 & R2 & R3 & R4 & _).
      assert (L : (v < 2 ^ 32)%N).
      { destruct (N.lt_ge_cases v (2 ^ 32)) as [L|L]; [exact L|]. exfalso. apply NF. left. exists n, i, s, v. split; [exact I|]. split; [exact Hv|]. right. right.
        split; [|exact L]. destruct H as [->|[->|[->|[->| ->]]]]; auto 10. }
      assert (W : forall X (l : list X), within l v \/ ~ within l v) by (intros X l; unfold within; lia).
      destruct H as [->|[->|[->|[->| ->]]]]; cbn.
      + destruct (W _ (in_stations i)) as [Wi|Wi]; [destruct (proj1 (R1 s v Hv L) Wi) as (a & -> & _)|rewrite (proj2 (R1 s v Hv L) Wi)]; cbn; eauto.
      + destruct (W _ (in_sroutes i)) as [Wi|Wi]; [destruct (proj1 (R2 s v Hv L) Wi) as (a & -> & _)|rewrite (proj2 (R2 s v Hv L) Wi)]; cbn; eauto.
      + destruct (W _ (in_iroutes i)) as [Wi|Wi]; [destruct (proj1 (R3 s v Hv L) Wi) as (a & -> & _)|rewrite (proj2 (R3 s v Hv L) Wi)]; cbn; eauto.
      + destruct (W _ (in_elements i)) as [Wi|Wi]; [destruct (proj1 (R4 s v Hv L) Wi) as (a & -> & _); cbn; eauto|].
        exfalso. apply NF. left. exists n, i, s, v. auto 10.
      + destruct (W _ (in_exclusion_sets i)) as [Wi|Wi]; [destruct (proj2 (R4 s v Hv L) Wi) as (a & -> & _); cbn; eauto|].
        exfalso. apply NF. left. exists n, i, s, v. auto 10.
    - destruct (Un I s) as (E1 & E2 & E3 & E4 & E5 & _). destruct H as [->|[->|[->|[->| ->]]]]; cbn; rewrite ?E1, ?E2, ?E3, ?E4, ?E5; cbn; eauto. }
  pose proof A as A0. destruct A.
  - cbn. eauto.
  - cbn. unfold serve_tile. destruct (existsb _ _); cbn; eauto.
  - cbn. destruct (K i) as [(x & I)|I].
    + unfold serve_bounding_box, with_infra. rewrite (infra_known w i x O I). cbn. eauto.
    + destruct (C91_requests_partial (infras w) (wb_server w) S ND i) as (Un & _). destruct (Un I []) as (_ & _ & _ & _ & _ & _ & ->). cbn. eauto.
  - cbn. unfold serve_station_names, with_infra. destruct (StartModel.lookup i _); cbn; eauto.
  - apply Num; auto.
  - apply Num; auto.
  - apply Num; auto 10.
  - apply Num; auto 10.
  - apply Num; auto 10.
  - cbn. destruct (C89_results_partial guess (infras w) G ND (io_sound w O)) as (sv & E & R). assert (sv = wb_server w) by congruence. subst sv.
    destruct (R i q) as (R1 & R2 & R3). destruct (K i) as [(x & I)|I].
    + destruct (Nat.lt_ge_cases (List.length q) 3) as [L|L].
      * rewrite (R2 x I L). cbn. eauto.
      * destruct (R3 x I L) as (rs & texts & -> & _). cbn. eauto.
    + rewrite (R1 I). cbn. eauto.
  - cbn. unfold serve_timetable_names. destruct (StartModel.lookup i (wb_contexts w)) as [l|] eqn:L; [cbn; eauto|].
    exfalso. apply NF. right. exists i. split; [exact A0|]. apply lookup_none in L. rewrite contexts_names in L. intros Ki. apply L, (io_timetables w O), Ki.
  - cbn. unfold serve_timetable. destruct (get_timetable _ _ _); cbn; eauto.
  - exfalso. apply NO. eexists. exact A0.
Qed.
Print Assumptions C126_answered_partial.
(* FINDING.  The fatal addresses are not answered: a read outside of a vector, a failed
   assertion, or an exception nobody catches. *)
Theorem C126_fatal_refuted guess usort tsort excl_of w target : in_order w -> fatal w target ->
  handle guess usort tsort excl_of w target = UB \/ handle guess usort tsort excl_of w target = Throw.
Proof.
  intros O [(n & i & s & v & I & Hv & F)|(n & A & U)].
  - pose proof (infra_known w n i O I) as L. destruct (N.lt_ge_cases v (2 ^ 32)) as [B|B].
    + destruct F as [(A & W)|[(A & W)|(_ & B')]]; [| |lia]; rewrite (handle_served w _ _ _ A); cbn.
      * rewrite (C91_element_refuted (wb_server w) n i s v L Hv B W). auto.
      * rewrite (C91_set_refuted (wb_server w) n i s v L Hv B W). auto.
    + destruct (C91_big_refuted (wb_server w) n i s v L Hv B) as (E1 & E2 & E3 & E4 & E5). right.
      assert (A : asks_for H_station [n; s] target \/ asks_for H_station_route [n; s] target \/ asks_for H_interlocking_route [n; s] target \/
                  asks_for H_element [n; s] target \/ asks_for H_exclusion_set [n; s] target) by tauto.
      destruct A as [A|[A|[A|[A|A]]]]; rewrite (handle_served w _ _ _ A); cbn; rewrite ?E1, ?E2, ?E3, ?E4, ?E5; reflexivity.
  - right. rewrite (handle_served w _ _ _ A). cbn. assert (E : serve_timetable_names (wb_contexts w) n = Throw).
    { apply C124_timetables_refuted. rewrite contexts_names, (io_timetables w O). exact U. }
    rewrite E. reflexivity.
Qed.
Print Assumptions C126_fatal_refuted.
(* So every server in good order with an infrastructure of a plain name can be brought down by
   one request of the form the client sends. *)
Theorem C126_crash_refuted guess usort tsort excl_of w n i : in_order w -> In (n, i) (infras w) -> plain n ->
  (N.of_nat (List.length (in_elements i)) < 2 ^ 32)%N ->
  handle guess usort tsort excl_of w (address (Element n (N.of_nat (List.length (in_elements i))))) = UB /\
  handle guess usort tsort excl_of w (address (Station n (2 ^ 32))) = Throw.
Proof.
  intros O I P L. pose proof (infra_known w n i O I) as K. split.
  - destruct (asked_about guess usort tsort excl_of w (Element n (N.of_nat (List.length (in_elements i)))) H_element
      [A_text n; A_number (N.of_nat (List.length (in_elements i)))]) as (ps & -> & F); [repeat constructor; exact (proj1 P) || exact (proj2 P)|split; reflexivity|discriminate|].
    inversion F as [|? ? ? ? E F1]; subst. inversion F1 as [|? ? ? ? E1 F2]; subst. inversion F2; subst. cbn in E. subst. cbn.
    rewrite (C91_element_refuted (wb_server w) n i _ _ K E1 L); [reflexivity|unfold within; lia].
  - destruct (asked_about guess usort tsort excl_of w (Station n (2 ^ 32)) H_station
      [A_text n; A_number (2 ^ 32)]) as (ps & -> & F); [repeat constructor; exact (proj1 P) || exact (proj2 P)|split; reflexivity|discriminate|].
    inversion F as [|? ? ? ? E F1]; subst. inversion F1 as [|? ? ? ? E1 F2]; subst. inversion F2; subst. cbn in E. subst. cbn.
    destruct (C91_big_refuted (wb_server w) n i _ _ K E1 (N.le_refl _)) as (-> & _). reflexivity.
Qed.
Print Assumptions C126_crash_refuted.

(* ---- the right answers ---- *)
Ltac asking' guess usort tsort excl_of w a h args := let ps := fresh "ps" in let F := fresh "F" in let E := fresh "E" in
  destruct (asked_about guess usort tsort excl_of w a h args) as (ps & E & F); [repeat (apply Forall_cons; [assumption|]); apply Forall_nil|split; reflexivity|discriminate|];
  rewrite E; clear E;
  repeat match goal with H : Forall2 _ _ (_ :: _) |- _ => inversion H; subst; clear H end;
  match goal with H : Forall2 _ _ [] |- _ => inversion H; subst; clear H end;
  repeat match goal with H : spells _ (A_text _) |- _ => cbn [spells] in H; subst end;
  cbn [call param nth_error bind last_param last expect_params List.length Nat.eqb].

(* What the client asks about an infrastructure is answered with the truth about the thing it
   asked for, or with not found if there is no such thing. *)
Theorem C126_things guess usort tsort excl_of w n i v : in_order w -> In (n, i) (infras w) -> plain n -> (v < 2 ^ 32)%N ->
  let ask := fun a => handle guess usort tsort excl_of w (address a) in
  (within (in_stations i) v -> exists a, ask (Station n v) = Ok (R_station a) /\ station_facts i v a) /\
  (~ within (in_stations i) v -> ask (Station n v) = Ok R_not_found) /\
  (within (in_sroutes i) v -> exists a, ask (StationRoute n v) = Ok (R_station_route a) /\ sroute_facts i v a) /\
  (~ within (in_sroutes i) v -> ask (StationRoute n v) = Ok R_not_found) /\
  (within (in_iroutes i) v -> exists a, ask (InterlockingRoute n v) = Ok (R_interlocking_route a) /\ iroute_facts i v a) /\
  (~ within (in_iroutes i) v -> ask (InterlockingRoute n v) = Ok R_not_found) /\
  (within (in_elements i) v -> exists a, ask (Element n v) = Ok (R_element a) /\ element_facts i v a) /\
  (in_elements i <> [] -> exists b, ask (BoundingBox n) = Ok (R_box b) /\ smallest_box b (in_positions i)) /\
  (forall z x y, exists ps, ask (Tile n z x y) = Ok (R_tile ps) /\ Forall2 spells ps [A_text n; A_number z; A_number x; A_number y]).
Proof.
  intros O I P L ask. unfold ask. clear ask.
  destruct (C91_requests_partial (infras w) (wb_server w) (io_search w O) (io_names w O) n) as (_ & Kn).
  destruct (Kn i I (io_sound w O n i I)) as (R1 & R2 & R3 & R4 & _ & R6). clear Kn.
  split; [|split; [|split; [|split; [|split; [|split; [|split; [|split]]]]]]].
  - intros W. asking' guess usort tsort excl_of w (Station n v) H_station [A_text n; A_number v]. destruct (proj1 (R1 _ v ltac:(eassumption) L) W) as (a & -> & Fa). exists a. auto.
  - intros W. asking' guess usort tsort excl_of w (Station n v) H_station [A_text n; A_number v]. rewrite (proj2 (R1 _ v ltac:(eassumption) L) W). reflexivity.
  - intros W. asking' guess usort tsort excl_of w (StationRoute n v) H_station_route [A_text n; A_number v]. destruct (proj1 (R2 _ v ltac:(eassumption) L) W) as (a & -> & Fa). exists a. auto.
  - intros W. asking' guess usort tsort excl_of w (StationRoute n v) H_station_route [A_text n; A_number v]. rewrite (proj2 (R2 _ v ltac:(eassumption) L) W). reflexivity.
  - intros W. asking' guess usort tsort excl_of w (InterlockingRoute n v) H_interlocking_route [A_text n; A_number v]. destruct (proj1 (R3 _ v ltac:(eassumption) L) W) as (a & -> & Fa). exists a. auto.
  - intros W. asking' guess usort tsort excl_of w (InterlockingRoute n v) H_interlocking_route [A_text n; A_number v]. rewrite (proj2 (R3 _ v ltac:(eassumption) L) W). reflexivity.
  - intros W. asking' guess usort tsort excl_of w (Element n v) H_element [A_text n; A_number v]. destruct (proj1 (R4 _ v ltac:(eassumption) L) W) as (a & -> & Fa). exists a. auto.
  - intros W. asking' guess usort tsort excl_of w (BoundingBox n) H_bounding_box [A_text n]. destruct (R6 W) as (b & -> & Fb). exists b. auto.
  - intros z x y. asking' guess usort tsort excl_of w (Tile n z x y) H_tile [A_text n; A_number z; A_number x; A_number y]. unfold serve_tile.
    assert (E : existsb (StartModel.text_eqb n) (wb_tiles w) = true).
    { apply existsb_exists. exists n. split; [apply (io_tiles w O), (in_map fst _ _ I)|]. unfold StartModel.text_eqb. destruct (list_eq_dec ascii_dec n n); congruence. }
    rewrite E. cbn. eexists. split; [reflexivity|]. repeat (constructor; [first [reflexivity|assumption]|]). constructor.
Qed.
Print Assumptions C126_things.

(* The lists of infrastructures and stations, and exclusion sets (which the client does not ask
   for) by address. *)
Theorem C126_lists guess usort tsort excl_of w : in_order w ->
  (exists l, handle guess usort tsort excl_of w (address Infrastructures) = Ok (R_names l) /\ NoDup l /\
     forall n, In n l <-> exists i, In (n, i) (infras w)) /\
  (forall n i target, In (n, i) (infras w) -> asks_for H_stations [n] target ->
     exists l, handle guess usort tsort excl_of w target = Ok (R_stations l) /\
       forall v d, In (d, v) l <-> exists s, th (in_stations i) v s /\ st_ds100 s = d) /\
  (forall n i s v target, In (n, i) (infras w) -> asks_for H_exclusion_set [n; s] target ->
     KssDates.numeral s (Z.of_N v) -> (v < 2 ^ 32)%N -> within (in_exclusion_sets i) v ->
     exists a, handle guess usort tsort excl_of w target = Ok (R_exclusion_set a) /\ set_facts i v a).
Proof.
  intros O. split; [|split].
  - exists (map fst (infras w)). split; [|split; [exact (io_names w O)|]].
    + unfold handle. rewrite (route_served H_infrastructures [] (address Infrastructures)); [reflexivity|].
      exact (for_infrastructures [] (or_introl eq_refl)).
    + intros n. rewrite in_map_iff. split; [intros ((m & i) & <- & I); eauto|intros (i & I); exists (n, i); auto].
  - intros n i target I A. rewrite (handle_served w _ _ _ A). cbn [call param nth_error bind].
    destruct (C91_requests_partial (infras w) (wb_server w) (io_search w O) (io_names w O) n) as (_ & Kn).
    destruct (Kn i I (io_sound w O n i I)) as (_ & _ & _ & _ & (l & -> & X) & _). exists l. auto.
  - intros n i s v target I A Hv L W. rewrite (handle_served w _ _ _ A). cbn [call param nth_error bind].
    destruct (C91_requests_partial (infras w) (wb_server w) (io_search w O) (io_names w O) n) as (_ & Kn).
    destruct (Kn i I (io_sound w O n i I)) as (_ & _ & _ & R4 & _). destruct (proj2 (R4 s v Hv L) W) as (a & -> & X). exists a. auto.
Qed.
Print Assumptions C126_lists.

(* An infrastructure the server does not have is not found, whatever is asked about it; but the
   list of its timetables is fatal. *)
Definition about (n : text) (a : ask) : Prop :=
  match a with
  | Infrastructures => False
  | BoundingBox i | Stations i | Station i _ | StationRoute i _ | InterlockingRoute i _ | Element i _ | Search i _ | Timetables i | Timetable i _
  | Ordering i _ _ _ _ | Tile i _ _ _ => i = n
  end.
Theorem C126_unknown guess usort tsort excl_of w n a : in_order w -> ~ In n (map fst (infras w)) -> about n a ->
  Forall plain (names_of a) -> (forall i t f u ids, a = Ordering i t f u ids -> ~ In None ids) -> (forall i t f u ids z, a = Ordering i t f u ids -> In (Some z) ids -> (0 <= z)%Z) ->
  handle guess usort tsort excl_of w (address a) =
    match a with Stations _ => Ok R_static | Timetables _ => Throw | _ => Ok R_not_found end.
Proof.
  intros O U B P NN NZ. destruct (C91_requests_partial (infras w) (wb_server w) (io_search w O) (io_names w O) n) as (Un & _).
  assert (C : (exists i, a = Stations i) \/ exists h args, concerns a h args /\ forall i, a <> Stations i).
  { destruct a; try (left; eauto; fail); right; try (eexists; eexists; split; [split; reflexivity|discriminate]).
    exists H_ordering. assert (X : exists l, ids = map (fun n => Some (Z.of_N n)) l).
    { clear B P. specialize (NN _ _ _ _ _ eq_refl). assert (NZ' := fun z => NZ _ _ _ _ _ z eq_refl). clear NZ. induction ids as [|o ids IH]; [exists []; reflexivity|].
      destruct IH as (l & E); [intros K; apply NN; right; exact K|intros z K; apply NZ'; right; exact K|].
      destruct o as [z|]; [|destruct NN; left; reflexivity]. exists (Z.to_N z :: l). cbn. rewrite Z2N.id by (apply NZ'; left; reflexivity). rewrite <- E. reflexivity. }
    destruct X as (l & ->). eexists. split; [split; [reflexivity|exists l; split; reflexivity]|discriminate]. }
  destruct C as [(i & ->)|(h & args & C & NS)].
  { unfold handle. rewrite C124_lost_refuted; [reflexivity| |right; left; eauto].
    eapply Forall_impl; [|exact P]. intros m Pm. apply plain_noc; [exact Pm|]. intros K. vm_compute in K. repeat (destruct K as [K|K]; [discriminate|]). destruct K. }
  destruct (asked_about guess usort tsort excl_of w a h args P C NS) as (ps & E & F). rewrite E. clear E NN NZ.
  assert (LN : StartModel.lookup n (sv_infras (wb_server w)) = None) by (apply lookup_none; exact U).
  assert (LT : StartModel.lookup n (wb_contexts w) = None) by (apply lookup_none; rewrite contexts_names, (io_timetables w O); exact U).
  destruct a; cbn [about concerns] in B, C; try contradiction; subst; try (destruct (NS n eq_refl)); destruct C as (-> & C);
    try (destruct C as (l & -> & C)); subst args;
    repeat match goal with H : Forall2 _ _ (_ :: _) |- _ => inversion H; subst; clear H end;
    match goal with H : Forall2 _ _ [] |- _ => inversion H; subst; clear H end;
    repeat match goal with H : spells _ (A_text _) |- _ => cbn [spells] in H; subst end;
    cbn [call param nth_error bind last_param last expect_params List.length Nat.eqb].
  - destruct (Un U []) as (_ & _ & _ & _ & _ & _ & ->). reflexivity.
  - unfold serve_station, with_infra. rewrite LN. reflexivity.
  - unfold serve_station_route, with_infra. rewrite LN. reflexivity.
  - unfold serve_interlocking_route, with_infra. rewrite LN. reflexivity.
  - unfold serve_element, with_infra. rewrite LN. reflexivity.
  - unfold serve_search. rewrite LN. reflexivity.
  - unfold serve_timetable_names. rewrite LT. reflexivity.
  - unfold serve_timetable, get_timetable. rewrite LT. reflexivity.
  - unfold serve_ordering_graph, web_infra. rewrite LN. reflexivity.
  - unfold serve_tile. destruct (existsb _ _) eqn:X; [|reflexivity]. exfalso. apply existsb_exists in X as (m & I & X). apply (io_tiles w O) in I.
    unfold StartModel.text_eqb in X. destruct (list_eq_dec ascii_dec n m) as [->|]; [contradiction|discriminate].
Qed.
Print Assumptions C126_unknown.

(* ---- searching ---- *)
(* From a name to the thing: the user searches a plain name of three characters or more that only
   one thing has.  The answer has a result with this name that is this thing, and asking for the
   number of the result gives the truth about it.  Missing: names with other characters
   (C126_unsearchable_refuted), halts with only one identifier and shorter names (C90). *)
Theorem C126_found_partial guess usort tsort excl_of w n i k v t : in_order w -> guesses guess -> In (n, i) (infras w) -> plain n -> plain t ->
  (3 <= List.length t) -> (v < 2 ^ 32)%N -> named i k v t -> ~ (k = ELEMENT /\ one_sided i v) -> (forall k' v', named i k' v' t -> k' = k /\ v' = v) ->
  let ask := fun a => handle guess usort tsort excl_of w (address a) in
  exists rs r, ask (Search n t) = Ok (R_results rs) /\ In r rs /\ rs_name r = t /\ rs_kind r = k /\ rs_id r = v /\
    match k with
    | STATION => exists a, ask (Station n (rs_id r)) = Ok (R_station a) /\ station_facts i v a
    | ELEMENT => exists a, ask (Element n (rs_id r)) = Ok (R_element a) /\ element_facts i v a
    | STATION_ROUTE => exists a, ask (StationRoute n (rs_id r)) = Ok (R_station_route a) /\ sroute_facts i v a
    | INTERLOCKING_ROUTE => exists a, ask (InterlockingRoute n (rs_id r)) = Ok (R_interlocking_route a) /\ iroute_facts i v a
    end.
Proof.
  intros O G I P Pt L Lv Nm NO U ask. unfold ask. clear ask.
  destruct (C90_found_partial guess (infras w) G (io_names w O) (io_sound w O)) as (sv & E & F). assert (sv = wb_server w) by (pose proof (io_search w O); congruence). subst sv.
  destruct (F n i k v t I Nm NO) as (_ & S). destruct (S L) as (rs & r & E1 & E2 & E3 & E4). destruct (E4 U) as (E5 & E6). clear F S E4.
  exists rs, r. split; [|split; [exact E2|split; [exact E3|split; [exact E5|split; [exact E6|]]]]].
  - asking' guess usort tsort excl_of w (Search n t) H_search [A_text n; A_text t]. rewrite E1. reflexivity.
  - rewrite E6. destruct (C126_things guess usort tsort excl_of w n i v O I P Lv) as (T1 & _ & T2 & _ & T3 & _ & T4 & _).
    assert (X : forall Y (l : list Y) y, th l v y -> within l v).
    { intros Y l y Hy. unfold th in Hy. assert (N.to_nat v < List.length l) by (apply nth_error_Some; congruence). unfold within. lia. }
    destruct Nm; first [apply T1|apply T2|apply T3|apply T4]; try (eapply X; eassumption).
    unfold within. rewrite <- (so_full _ (io_sound w O n i I)). eapply X. eassumption.
Qed.
Print Assumptions C126_found_partial.
(* FINDING.  A name with a blank, an umlaut or a dot is never searched: the address is taken for
   the name of a file, in every server. *)
Theorem C126_unsearchable_refuted guess usort tsort excl_of w n t : plain n -> ~ plain t -> ~ In "/"%char t ->
  handle guess usort tsort excl_of w (address (Search n t)) = Ok R_static.
Proof.
  intros P NP NS. unfold handle. rewrite C124_lost_refuted; [reflexivity| |].
  - constructor; [|constructor; [exact NS|constructor]]. apply plain_noc; [exact P|]. intros K. vm_compute in K. repeat (destruct K as [K|K]; [discriminate|]). destruct K.
  - left. intros F. inversion F as [|? ? _ F1]; subst. inversion F1; subst. contradiction.
Qed.
Print Assumptions C126_unsearchable_refuted.

(* ---- timetables ---- *)
(* The client lists the timetables of an infrastructure and opens one: the list has each of them
   once, and one with a plain name opens with its interval. *)
Theorem C126_timetables_partial guess usort tsort excl_of w n i : in_order w -> In (n, i) (infras w) -> plain n ->
  let ask := fun a => handle guess usort tsort excl_of w (address a) in
  (exists l, ask (Timetables n) = Ok (R_timetables l) /\ NoDup l /\ forall t, In t l <-> exists iv trains, timetable_of w n t iv trains) /\
  (forall t iv trains, timetable_of w n t iv trains -> plain t -> ask (Timetable n t) = Ok (R_timetable (t, iv))) /\
  (forall t, (forall iv trains, ~ timetable_of w n t iv trains) -> plain t -> ask (Timetable n t) = Ok R_not_found).
Proof.
  intros O I P ask. unfold ask. clear ask. pose proof (contexts_unique w O) as U. split; [|split].
  - asking' guess usort tsort excl_of w (Timetables n) H_timetables [A_text n]. destruct (serve_timetable_names (wb_contexts w) n) as [[l| |]| | |] eqn:E.
    + exists l. split; [reflexivity|]. destruct (C124_timetables_partial _ _ _ U E) as (N & X). split; [exact N|]. intros t. rewrite X. split.
      * intros (iv & Of). apply contexts_offers in Of as (trains & Of). eauto.
      * intros (iv & trains & Of). exists iv. apply contexts_offers. eauto.
    + unfold serve_timetable_names in E. destruct (StartModel.lookup _ _); discriminate.
    + unfold serve_timetable_names in E. destruct (StartModel.lookup _ _); discriminate.
    + apply C124_timetables_refuted in E. rewrite contexts_names, (io_timetables w O) in E. destruct E. apply (in_map fst _ _ I).
    + unfold serve_timetable_names in E. destruct (StartModel.lookup _ _); discriminate.
    + unfold serve_timetable_names in E. destruct (StartModel.lookup _ _); discriminate.
  - intros t iv trains T Pt. asking' guess usort tsort excl_of w (Timetable n t) H_timetable [A_text n; A_text t].
    rewrite (proj2 (proj1 (C124_timetable _ n t U) iv)); [reflexivity|]. apply contexts_offers. eauto.
  - intros t T Pt. asking' guess usort tsort excl_of w (Timetable n t) H_timetable [A_text n; A_text t].
    rewrite (proj2 (proj2 (C124_timetable _ n t U))); [reflexivity|]. intros iv Of. apply contexts_offers in Of as (trains & Of). exact (T _ _ Of).
Qed.
Print Assumptions C126_timetables_partial.

(* ---- the ordering of trains ---- *)
(* The user types train numbers into the field and chooses a range of time.  The answer shows the
   ordering graph of exactly these trains in this range (under the conditions of C92). *)
Theorem C126_graph_partial guess usort tsort excl_of w n i t iv trains earlier texts ids a b :
  OrderingSpec.sorts usort -> sorts_trips tsort -> in_order w -> In (n, i) (infras w) -> timetable_of w n t iv trains -> plain n -> plain t ->
  (forall r, NoDup (ex_of (excl_of i) r)) -> timetable_ok trains -> apart (excl_of i) trains a b ids ->
  Forall2 says texts ids -> (texts = [] -> earlier = []) -> (a <= b)%N -> (b < 2 ^ 32)%N ->
  let typed := entered (earlier ++ match texts with [] => [] | _ => [commas texts] end) in
  exists ans trips, handle guess usort tsort excl_of w (address (Ordering n t a b typed)) = Ok (R_graph ans) /\
    shows_trips trains a b ids trips ans /\ shows_nodes trips ans /\ shows_edges (excl_of i) trips ans.
Proof.
  intros Us Ts O I Tt P Pt Ex Tk Ap F E La Lb typed.
  pose proof (PropsClientView.C119_request earlier texts ids a b F E La Lb) as Rq. fold typed in Rq.
  assert (X : typed = map (fun n => Some (Z.of_N n)) ids).
  { unfold typed. destruct texts as [|s l]; [rewrite E by reflexivity; inversion F; reflexivity|].
    unfold entered. rewrite fold_left_app. cbn [fold_left]. unfold enter at 1.
    rewrite (PropsClientView.C119_typed (s :: l) (map Z.of_N ids)); [apply map_map|discriminate|].
    clear - F. revert F. generalize (s :: l). intros k F. induction F as [|x y k ys (H & _) F IH]; cbn; constructor; assumption. }
  destruct (PropsOgServe.C92_graph_partial usort tsort (web_infra excl_of w) (web_timetable w) n t
    (num a) (num b) (ids_text typed) (excl_of i) trains a b ids Us Ts) as (ans & trips & K & S); try assumption.
  - unfold web_infra. rewrite (infra_known w n i O I). reflexivity.
  - apply web_timetable_In; [exact O|eauto].
  - exists ans, trips. split; [|exact S]. unfold handle.
    assert (A : route (address (Ordering n t a b typed)) = Some (H_ordering, [n; t; num a; num b; ids_text typed])).
    { apply route_served. pose proof (for_ordering n t (num a) (num b) (ids_text typed) P Pt (num_digits a) (num_digits b)) as A. 
      rewrite X in A at 1. specialize (A (ids_list ids)).
      replace (address (Ordering n t a b typed)) with (path [T "infrastructure"%string; n; T "timetable"%string; t; T "ordering?from="%string ++ num a ++ T "&to="%string ++ num b ++ T "&trainIds="%string ++ ids_text typed]); [exact A|].
      unfold address, path. rewrite app_nil_r. reflexivity. }
    rewrite A. cbn [call param nth_error bind expect_params List.length Nat.eqb]. rewrite K. reflexivity.
Qed.
Print Assumptions C126_graph_partial.
(* A question for the ordering of trains is turned down exactly for an infrastructure or timetable
   the server does not have, or parameters that say no range and trains. *)
Theorem C126_turned_down guess usort tsort excl_of w n t from to ids target : in_order w -> asks_for H_ordering [n; t; from; to; ids] target ->
  (handle guess usort tsort excl_of w target = Ok R_not_found <-> forall iv trains, ~ timetable_of w n t iv trains) /\
  (handle guess usort tsort excl_of w target = Ok R_bad <->
     (exists iv trains, timetable_of w n t iv trains) /\ ~ exists a b l, PropsOgServe.request from to ids a b l).
Proof.
  intros O A. rewrite (handle_served w _ _ _ A). cbn [call param nth_error bind expect_params List.length Nat.eqb].
  destruct (PropsOgServe.C92_turned_down usort tsort (web_infra excl_of w) (web_timetable w) n t from to ids) as (E1 & E2).
  assert (NT : web_timetable w n t = None <-> forall iv trains, ~ timetable_of w n t iv trains).
  { split.
    - intros H iv trains K. assert (X : web_timetable w n t = Some trains) by (apply web_timetable_In; eauto). congruence.
    - intros H. destruct (web_timetable w n t) as [trains|] eqn:E; [|reflexivity]. apply (web_timetable_In w n t trains O) in E as (iv & K). destruct (H _ _ K). }
  assert (NI : web_infra excl_of w n = None -> web_timetable w n t = None).
  { intros H. unfold web_infra in H. destruct (StartModel.lookup n (sv_infras (wb_server w))) eqn:L; [discriminate|]. apply lookup_none in L.
    unfold web_timetable. assert (X : StartModel.lookup n (wb_timetables w) = None) by (apply lookup_none; rewrite (io_timetables w O); exact L). rewrite X. reflexivity. }
  assert (SO : web_timetable w n t <> None <-> exists iv trains, timetable_of w n t iv trains).
  { split.
    - intros H. destruct (web_timetable w n t) as [trains|] eqn:E; [|congruence]. apply (web_timetable_In w n t trains O) in E as (iv & K). eauto.
    - intros (iv & trains & K) H. exact (proj1 NT H _ _ K). }
  set (ans := serve_ordering_graph usort tsort (web_infra excl_of w) (web_timetable w) n t from to ids) in *.
  assert (F1 : reply_of R_graph ans = Ok R_not_found <-> ans = Ok Not_found).
  { destruct ans as [[x| |]| | |]; cbn; split; congruence. }
  assert (F2 : reply_of R_graph ans = Ok R_bad <-> ans = Ok Bad_request).
  { destruct ans as [[x| |]| | |]; cbn; split; congruence. }
  rewrite F1, F2, E1, E2, <- NT, <- SO. tauto.
Qed.
Print Assumptions C126_turned_down.


(* ---- a started server is in good order ---- *)
Section Started.
  Import StartModel.
  Context {IS TS OSM DB X : Type}.
  Notation proc := (StartModel.proc IS TS infra X OSM DB).
  Lemma then_runs {A B} (p : proc A) (q : A -> proc B) v k r b : andThen _ _ _ _ _ _ p q v k = (r, Runs b) ->
    exists v' k' a, p v k = ((v', k'), Runs a) /\ q a v' k' = (r, Runs b).
  Proof. unfold andThen. destruct (p v k) as [(v' & k') [a| | |]]; try discriminate. eauto 6. Qed.
  Lemma each_runs {A S} (f : S -> A -> proc S) (J : list A -> S -> Prop) l : forall d s v k r s',
    (forall d s a v k r s', J d s -> f s a v k = (r, Runs s') -> J (d ++ [a]) s') ->
    J d s -> each _ _ _ _ _ _ f s l v k = (r, Runs s') -> J (d ++ l) s'.
  Proof.
    induction l as [|a l IH]; intros d s v k r s' F Js E; cbn [each] in E.
    - unfold ret in E. injection E as _ <-. rewrite app_nil_r. exact Js.
    - apply then_runs in E as (v' & k' & s1 & E1 & E2). replace (d ++ a :: l) with ((d ++ [a]) ++ l) by (rewrite <- app_assoc; reflexivity).
      eapply IH; [exact F| |exact E2]. eapply F; eassumption.
  Qed.
  Lemma ret_runs {A} (a b : A) v k r : ret IS TS infra X OSM DB a v k = (r, Runs b) -> a = b.
  Proof. unfold ret. congruence. Qed.
  Lemma emplace_names {C} (l : list (text * C)) n c m : In m (map fst (emplace_ l n c)) <-> In m (map fst l) \/ m = n.
  Proof.
    unfold emplace_. destruct (lookup n l) as [d|] eqn:E.
    - split; [auto|]. intros [H| ->]; [exact H|]. apply StartProofs.lookup_In in E. apply (in_map fst) in E. exact E.
    - rewrite map_app, in_app_iff. cbn. intuition.
  Qed.
End Started.

(* What the server's start makes of its directories (C86: after any history of complete starts and
   replaced sources) is in good order, if every infrastructure read from sources is. *)
Theorem C126_started IS TS OSM DB (load_infra : IS -> res infra) (load_timetable : TS -> infra -> res (option ((N * N) * list ttrain)))
  (export_osm : infra -> res OSM) (import_tiles : OSM -> res DB) order s w t now steps w' left sv :
  (forall l, Permutation.Permutation l (order l)) -> (forall x i, load_infra x = Ok i -> sound i) ->
  StartSpec.past load_infra load_timetable export_osm import_tiles order w t -> (t < now)%N ->
  StartModel.start load_infra load_timetable export_osm import_tiles order s now w steps = ((w', left), StartModel.Runs sv) ->
  exists search, get_search_module (StartModel.sv_infras sv) = Ok search /\
    let web := mk_web search (StartModel.sv_timetables sv) (map fst (StartModel.sv_tiles sv)) in
    in_order web /\ infras web = StartModel.sv_infras sv.
Proof.
  intros P So H L E.
  destruct (PropsStart.C86_infrastructures_partial _ _ _ _ _ _ _ _ _ _ order s w t now steps w' left sv P H L E) as (C1 & _).
  unfold StartModel.start in E. apply then_runs in E as (v1 & k1 & is & E1 & E). apply then_runs in E as (v2 & k2 & tl & E2 & E).
  apply then_runs in E as (v3 & k3 & tts & E3 & E). apply ret_runs in E. subst sv. cbn [StartModel.sv_infras StartModel.sv_timetables StartModel.sv_tiles] in *.
  assert (N1 : NoDup (map fst is)).
  { unfold StartModel.get_infrastructure_module in E1. apply then_runs in E1 as (v0 & k0 & u & _ & E1).
    apply (each_runs _ (fun _ l => NoDup (map fst l)) _ []) in E1; [exact E1| |constructor].
    intros d l it v k r l' Nl F. destruct it as [n x|n]; cbn [StartModel.infra_item] in F.
    - apply then_runs in F as (? & ? & i & _ & F). apply then_runs in F as (? & ? & u' & _ & F). apply ret_runs in F. subst. apply StartProofs.emplace_NoDup, Nl.
    - apply then_runs in F as (? & ? & i & _ & F). apply then_runs in F as (? & ? & u' & _ & F). apply ret_runs in F. subst. apply StartProofs.emplace_NoDup, Nl. }
  assert (So' : forall n i, In (n, i) is -> sound i).
  { intros n i I. assert (G : StartModel.get_infra {| StartModel.sv_infras := is; StartModel.sv_tiles := tl; StartModel.sv_timetables := tts |} n = Some i)
      by (unfold StartModel.get_infra; apply StartProofs.In_lookup; assumption).
    apply C1 in G as (x & tx & _ & G). exact (So _ _ G). }
  destruct (module_ok is N1 So') as (search & S1 & S2 & _). exists search. split; [exact S1|]. cbn zeta.
  assert (On : forall n, In n (map fst (order is)) <-> In n (map fst is)).
  { intros n. split; apply Permutation.Permutation_in; [apply Permutation.Permutation_sym|]; apply Permutation.Permutation_map, P. }
  assert (T3 : NoDup (map fst tts) /\ (forall n, In n (map fst tts) <-> In n (map fst (order is))) /\ forall n l, In (n, l) tts -> NoDup (map fst l)).
  { unfold StartModel.get_timetable_module in E3. apply then_runs in E3 as (v0 & k0 & u & _ & E3).
    apply (each_runs _ (fun d l => NoDup (map fst l) /\ (forall n, In n (map fst l) <-> In n (map fst d)) /\ forall n c, In (n, c) l -> NoDup (map fst c)) _ []) in E3;
      [exact E3| |split; [constructor|split; [reflexivity|intros n c []]]].
    intros d l i v k r l' (A & B & C) F. apply then_runs in F as (? & ? & ctx & F1 & F). apply ret_runs in F. subst l'.
    split; [apply StartProofs.emplace_NoDup, A|]. split.
    - intros n. rewrite emplace_names, B, map_app, in_app_iff. cbn. intuition.
    - intros n c I. unfold StartModel.emplace_ in I. destruct (StartModel.lookup (fst i) l); [exact (C n c I)|]. apply in_app_iff in I as [I|[[= <- <-]|[]]]; [exact (C n c I)|].
      apply (each_runs _ (fun _ l => NoDup (map fst l)) _ []) in F1; [exact F1| |constructor].
      intros d0 l0 it v4 k4 r4 l4 N4 F4. unfold StartModel.timetable_item in F4. apply then_runs in F4 as (? & ? & o & _ & F4). destruct o as [y|].
      + apply then_runs in F4 as (? & ? & u' & _ & F4). apply ret_runs in F4. subst. apply StartProofs.emplace_NoDup, N4.
      + apply ret_runs in F4. subst. exact N4. }
  assert (T2 : forall n, In n (map fst tl) <-> In n (map fst (order is))).
  { unfold StartModel.get_tile_module in E2.
    refine (each_runs _ (fun d l => forall n, In n (map fst l) <-> In n (map fst d)) _ [] [] _ _ _ _ _ _ E2); [|reflexivity].
    intros d l i v k r l' A F n. unfold StartModel.tile_item in F. apply then_runs in F as (? & ? & o & _ & F). apply then_runs in F as (? & ? & o' & _ & F).
    destruct (StartModel.lookup (fst i) l); [discriminate|]. apply ret_runs in F. subst l'. rewrite !map_app, !in_app_iff, A. reflexivity. }
  destruct T3 as (T3 & T4 & T5).
  split; [|unfold infras; cbn; exact S2]. constructor; unfold infras; cbn [wb_server wb_timetables wb_tiles]; rewrite ?S2; try assumption.
  - intros n. rewrite T4. apply On.
  - intros n. rewrite T2. apply On.
Qed.
Print Assumptions C126_started.

(* ---- examples ---- *)
Definition ex_web : web := mk_web
  (match get_search_module one_server with Ok sv => sv | _ => mk_server [] [] end)
  [(tx "net", [(tx "day-1", ((1640995200, 1641081600)%N, PropsOgServe.ex_trains))])] [tx "net"].
Definition ex_handle (a : ask) : res reply := handle equal_texts PropsOrdering.isort PropsOgServe.sort_trips (fun _ => PropsOgServe.ex_x) ex_web (address a).
Lemma one {A} (x : A) : NoDup [x]. Proof. constructor; [intros []|constructor]. Qed.
Example C126_sat_order : in_order ex_web.
Proof.
  constructor.
  - reflexivity.
  - apply one.
  - intros n i [[= <- <-]|[]]. exact small_sound.
  - apply one.
  - reflexivity.
  - intros n tts [[= <- <-]|[]]. apply one.
  - reflexivity.
Qed.
Lemma chk s : s <> [] /\ forallb is_name s = true -> plain s. Proof. apply plain_run. Qed.
Example C126_sat_plain : plain (tx "net") /\ plain (tx "day-1") /\ plain (tx "Frankfurt") /\ ~ plain (tx "Bad Homburg").
Proof.
  split; [apply chk; split; [discriminate|reflexivity]|]. split; [apply chk; split; [discriminate|reflexivity]|]. split; [apply chk; split; [discriminate|reflexivity]|].
  intros H. apply plain_run in H as (_ & H). discriminate.
Qed.
Example C126_sat_found : exists b, ex_handle (Search (tx "net") (tx "Frankfurt")) = Ok (R_results [mk_result STATION (tx "Frankfurt") b 0 []]) /\
  exists a, ex_handle (Station (tx "net") 0) = Ok (R_station a).
Proof. eexists. split; [reflexivity|]. eexists. reflexivity. Qed.
Example C126_sat_fatal : ex_handle (Element (tx "net") 3) = UB /\ ex_handle (Timetables (tx "map")) = Throw /\
  ex_handle (Search (tx "net") (tx "Bad Homburg")) = Ok R_static /\ ex_handle (Station (tx "map") 0) = Ok R_not_found /\
  ex_handle (Timetables (tx "net")) = Ok (R_timetables [tx "day-1"]).
Proof. repeat split. Qed.
Example C126_sat_graph : exists ans trips,
  handle equal_texts PropsOrdering.isort PropsOgServe.sort_trips (fun _ => PropsOgServe.ex_x) ex_web
    (address (Ordering (tx "net") (tx "day-1") 1640995200 1641081600 (entered []))) = Ok (R_graph ans) /\
  shows_trips PropsOgServe.ex_trains 1640995200 1641081600 [] trips ans /\ shows_nodes trips ans /\ shows_edges PropsOgServe.ex_x trips ans.
Proof.
  apply (C126_graph_partial equal_texts PropsOrdering.isort PropsOgServe.sort_trips (fun _ => PropsOgServe.ex_x) ex_web (tx "net") small (tx "day-1")
    (1640995200, 1641081600)%N PropsOgServe.ex_trains [] [] []).
  - exact PropsOrdering.isort_sorts.
  - exact PropsOgServe.sort_trips_ok.
  - exact C126_sat_order.
  - left. reflexivity.
  - eexists. split; [left; reflexivity|left; reflexivity].
  - apply C126_sat_plain.
  - apply C126_sat_plain.
  - exact PropsOrdering.ex_C22_i2e.
  - exact PropsOgServe.ex_tk.
  - exact PropsOgServe.ex_apart.
  - constructor.
  - reflexivity.
  - vm_compute. discriminate.
  - reflexivity.
Qed.
(* the sources of the small infrastructure and of its timetable in two directories; the first start *)
Definition ex_files : StartModel.world unit unit infra ((N * N) * list ttrain) unit unit :=
  StartModel.mk_world [(tx "net", StartModel.Directory tt 5%N)] [(tx "day-1", StartModel.Directory tt 5%N)] [] [] [] [].
Definition ex_load_timetable (_ : unit) (_ : infra) : res (option ((N * N) * list ttrain)) :=
  Ok (Some ((1640995200, 1641081600)%N, PropsOgServe.ex_trains)).
Example C126_sat_started :
  (forall (x : unit) i, Ok small = Ok i -> sound i) /\
  StartSpec.past (fun _ => Ok small) ex_load_timetable (fun _ => Ok tt) (fun _ => Ok tt) (fun l => l) ex_files 5 /\
  exists r sv, StartModel.start (fun _ => Ok small) ex_load_timetable (fun _ => Ok tt) (fun _ => Ok tt) (fun l => l) (StartModel.mk_settings false true) 6 ex_files 100
    = (r, StartModel.Runs sv) /\ StartModel.sv_timetables sv = wb_timetables ex_web.
Proof.
  split; [intros _ i [= <-]; exact small_sound|]. split.
  - apply StartSpec.at_first.
    + split; [|split].
      * apply one.
      * apply one.
      * intros n x t [[= <- <- <-]|[]]. lia.
    + repeat split.
  - eexists. eexists. split; reflexivity.
Qed.
