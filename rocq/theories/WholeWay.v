(* Station routes as the interlocking reads them *)
From Coq Require Import List Bool NArith ZArith QArith String Sorted Arith Lia.
From Verif Require Import Base TextModel InfraModel InfraSpec StationModel StationSpec StationPath StationProofs StationNet StationWay
  WholeModel WholeSpec WholeProofs.
From Verif Require RouteModel RouteSpec RouteWay PropsLine LineModel.
Import ListNotations.
Local Open Scope nat_scope.

Lemma at_key_in {A} k (v : A) m : NoDup (map fst m) -> (LineModel.at_key k m = Ok v <-> In (k, v) m).
Proof.
  induction m as [|[k' v'] m IH]; intros ND; cbn [LineModel.at_key]; [split; [discriminate|intros []]|].
  cbn in ND. inversion ND as [|? ? N1 N2]; subst. destruct (Z.eqb_spec k' k) as [->|N].
  - split; [intros [= ->]; left; reflexivity|intros [[= ->]|H]; [reflexivity|]].
    exfalso. apply N1. apply in_map_iff. exists (k, v). auto.
  - rewrite (IH N2). split; [intros H; right; exact H|intros [[= -> _]|H]; [congruence|exact H]].
Qed.

(* the last mark is the last visit *)
Lemma last_mark nodes P ms : marks nodes P ms ->
  match rev ms with
  | [] => forall n, In n nodes -> ~ P n
  | i :: _ => last_visit nodes P (Some i) /\ exists n, nth_error nodes i = Some n /\ P n
  end.
Proof.
  intros [S M]. destruct (rev ms) as [|i rest] eqn:E.
  - assert (ms = []) by (rewrite <- (rev_involutive ms), E; reflexivity). subst ms.
    intros n N Pn. apply In_nth_error in N. destruct N as [k K]. apply (M k). eauto.
  - assert (ms = rev rest ++ [i]) by (rewrite <- (rev_involutive ms), E; reflexivity). subst ms.
    assert (X : exists n, nth_error nodes i = Some n /\ P n) by (apply M; apply in_or_app; right; left; reflexivity).
    split; [|exact X]. split; [exact X|]. intros k n L N Pn.
    assert (K : In k (rev rest ++ [i])) by (apply M; eauto).
    clear - S L K. induction (rev rest) as [|a q IH]; [destruct K as [K|[]]; lia|].
    inversion S as [|? ? S' F]; subst. destruct K as [->|K]; [|exact (IH S' K)].
    rewrite Forall_forall in F. pose proof (F i (in_or_app q [i] i (or_intror (or_introl eq_refl)))). lia.
Qed.
Lemma last_visit_fun nodes P i j : last_visit nodes P (Some i) -> last_visit nodes P (Some j) -> i = j.
Proof.
  intros [(n & N & Pn) H] [(m & M & Pm) K]. destruct (Nat.lt_trichotomy i j) as [L|[L|L]]; [|exact L|].
  - exfalso. exact (H j m L M Pm).
  - exfalso. exact (K i n L N Pn).
Qed.

Section BRIDGE.
  Variables (l : list (xstation * list xroute)) (files : list (list LineModel.xml_line))
    (inf : infrastructure) (lines : list (Z * LineModel.line)) (srs : list RouteModel.sroute).
  Hypothesis IM : import_routes l = Ok inf.
  Hypothesis PL : LineModel.parse_lines files = Ok lines.
  Hypothesis MS : RouteModel.mapM (to_sroute lines (inf_graph inf)) (inf_routes inf) = Ok srs.
  Notation srg := (inf_successors inf).

  Lemma main_iff s i : In i (RouteSpec.mains srs s) <-> signal_at l inf (s, i).
  Proof.
    split.
    - intros M. destruct (RouteSpec.sr_of srs s) as [sr|] eqn:E; [|unfold RouteSpec.mains in M; rewrite E in M; destruct M].
      destruct (route_at _ _ _ _ IM MS s sr E) as (st & x & r & X & R & T & _ & C).
      rewrite (main_at _ _ _ _ s sr st x r E T C) in M. apply (proj2 (co_main _ _ _ _ _ _ C)) in M.
      destruct M as (n & N1 & N2 & N3). exists st, x, n. split; [exact X|]. split; [exists r; auto|]. auto.
    - intros (st & x & n & X & (r & R & N1) & N2 & N3). cbn [fst snd] in *.
      destruct (sroute_at _ _ _ MS s r R) as (sr & E & T).
      destruct (route_at _ _ _ _ IM MS s sr E) as (st' & x' & r' & X' & R' & T' & _ & C).
      assert (st' = st /\ x' = x /\ r' = r) as (-> & -> & ->) by (repeat split; congruence).
      rewrite (main_at _ _ _ _ s sr st x r E T C). apply (proj2 (co_main _ _ _ _ _ _ C)). exists n. auto.
  Qed.

  Lemma lines_nodup : NoDup (map fst lines).
  Proof. exact (proj1 (PropsLine.C62_lines files lines PL)). Qed.

  Lemma etcs_ok k r st x : nth_error (inf_routes inf) k = Some r ->
    contents_as_described l (inf_graph inf) (inf_links inf) st x r ->
    forall b, requires_etcs lines (inf_graph inf) r = Ok b -> (b = true <-> needs_etcs files inf k).
  Proof.
    intros R C b H. pose proof (last_mark _ _ _ (co_etcs_starts _ _ _ _ _ _ C)) as LM.
    unfold requires_etcs in H. destruct (rev (p_etcs_starts (ro_path r))) as [|i rest].
    - injection H as <-. split; [discriminate|].
      intros (e & sg & (r' & i & n & _ & _ & _ & R' & ((n' & N' & T) & _) & _) & _).
      assert (r' = r) by congruence. subst r'. exfalso. exact (LM n' (nth_error_In _ _ N') T).
    - destruct LM as (V & n & N & T). unfold RouteModel.at_ in H. rewrite N in H. cbn [bind] in H.
      destruct T as (e & Ee & Te). unfold get_e in H. unfold elem_at in Ee. rewrite Ee in H. cbn [bind] in H.
      destruct (e_kind e); try discriminate. destruct (e_line e S0) as [nr|] eqn:El; [|discriminate].
      apply bind_Ok in H. destruct H as (ln & K & H). apply bind_Ok in H. destruct H as (sb & Hb & H). injection H as <-.
      unfold LineModel.has_signalling in Hb. apply bind_Ok in Hb. destruct Hb as (x0 & Hs & Hb). injection Hb as <-.
      apply (at_key_in _ _ _ lines_nodup) in K.
      assert (ES : etcs_start files inf k e x0).
      { exists r, i, n, lines, nr, ln. auto 12. }
      split.
      + intros B. exists e, x0. split; [exact ES|]. destruct (LineModel.sg_signalling x0); [discriminate|reflexivity].
      + intros (e' & sg' & (r' & i' & n' & lines' & nr' & ln' & R' & V' & N' & E' & P' & L' & I' & G') & SG).
        assert (r' = r) by congruence. subst r'. assert (lines' = lines) by congruence. subst lines'.
        assert (i' = i) by exact (last_visit_fun _ _ _ _ V' V). subst i'. assert (n' = n) by congruence. subst n'.
        unfold elem_at in E'. assert (e' = e) by congruence. subst e'. assert (nr' = nr) by congruence. subst nr'.
        apply (at_key_in _ _ _ lines_nodup) in I'. apply (at_key_in _ _ _ lines_nodup) in K.
        assert (ln' = ln) by congruence. subst ln'. assert (sg' = x0) by congruence. subst sg'. rewrite SG. reflexivity.
  Qed.
  Lemma etcs_iff k : RouteSpec.etcs srs k <-> needs_etcs files inf k.
  Proof.
    split.
    - intros (sr & E & B). destruct (route_at _ _ _ _ IM MS k sr E) as (st & x & r & X & R & T & _ & C).
      destruct (to_sroute_fields _ _ _ _ T) as (_ & _ & _ & _ & _ & _ & Q). rewrite B in Q.
      exact (proj1 (etcs_ok k r st x R C true Q) eq_refl).
    - intros NE. pose proof NE as NE'. destruct NE as (e & sg & (r & i & n & _ & _ & _ & R & _) & _).
      destruct (sroute_at _ _ _ MS k r R) as (sr & E & T).
      destruct (route_at _ _ _ _ IM MS k sr E) as (st & x & r' & X & R' & _ & _ & C). assert (r' = r) by congruence. subst r'.
      destruct (to_sroute_fields _ _ _ _ T) as (_ & _ & _ & _ & _ & _ & Q).
      exists sr. split; [exact E|]. exact (proj2 (etcs_ok k r st x R C _ Q) NE').
  Qed.

  Lemma sr_len_at s r : nth_error (inf_routes inf) s = Some r -> RouteSpec.sr_len srs s = List.length (ro_nodes r).
  Proof. exact (len_at _ _ _ MS s r). Qed.
  Lemma route_ex s : s < List.length srs -> exists r, nth_error (inf_routes inf) s = Some r.
  Proof. rewrite (srs_len _ _ _ MS). intros H. destruct (nth_error (inf_routes inf) s) eqn:E; [eauto|apply nth_error_None in E; lia]. Qed.
  Lemma entry_iff c : RouteWay.entry srs srg c <-> entry_of_network inf c.
  Proof.
    pose proof (r_graph _ _ _ _ IM MS) as GO. unfold RouteWay.entry, entry_of_network, RouteSpec.pred_of. split.
    - intros (A & B & C). split; [|exact C]. destruct (nth_error (RouteModel.g_pred srg) (fst c)) eqn:E.
      + rewrite (nth_error_nth _ _ [] E) in B. congruence.
      + apply nth_error_None in E. rewrite (RouteSpec.go_pred _ _ GO) in E. lia.
    - intros (A & B). split; [|split; [exact (nth_error_nth _ _ [] A)|exact B]].
      rewrite <- (RouteSpec.go_pred _ _ GO). apply nth_error_Some. congruence.
  Qed.
  Lemma exit_iff c : RouteWay.exit srs srg c <-> exit_of_network inf c.
  Proof.
    pose proof (r_graph _ _ _ _ IM MS) as GO. unfold RouteWay.exit, exit_of_network, RouteSpec.succ_of. split.
    - intros (A & B & C). split.
      + destruct (nth_error (RouteModel.g_succ srg) (fst c)) eqn:E.
        * rewrite (nth_error_nth _ _ [] E) in B. congruence.
        * apply nth_error_None in E. rewrite (RouteSpec.go_succ _ _ GO) in E. lia.
      + destruct (route_ex _ A) as [r R]. exists r. split; [exact R|]. rewrite <- (sr_len_at _ _ R). exact C.
    - intros (A & r & R & B). split; [|split; [exact (nth_error_nth _ _ [] A)|rewrite (sr_len_at _ _ R); exact B]].
      rewrite (srs_len _ _ _ MS). apply nth_error_Some. congruence.
  Qed.
  Lemma next_iff c d : fst c < List.length srs -> (RouteWay.next_cell srs srg c d <-> next_cell inf c d).
  Proof.
    pose proof (r_graph _ _ _ _ IM MS) as GO. intros L. destruct (route_ex _ L) as [r R].
    unfold RouteWay.next_cell, next_cell. rewrite (sr_len_at _ _ R). split.
    - intros H. exists r. split; [exact R|]. destruct H as [H|(A & B & C)]; [left; exact H|right].
      split; [exact A|]. split; [exact C|]. unfold RouteSpec.succ_of in B.
      destruct (nth_error (RouteModel.g_succ srg) (fst c)) as [row|] eqn:E.
      + exists row. rewrite (nth_error_nth _ _ [] E) in B. auto.
      + rewrite nth_overflow in B by (apply nth_error_None; exact E). destruct B.
    - intros (r' & R' & H). assert (r' = r) by congruence. subst r'. destruct H as [H|(A & B & row & E & C)]; [left; exact H|right].
      split; [exact A|]. split; [|exact B]. unfold RouteSpec.succ_of. rewrite (nth_error_nth _ _ [] E). exact C.
  Qed.
  Lemma next_valid c d : RouteWay.next_cell srs srg c d -> fst c < List.length srs -> fst d < List.length srs.
  Proof.
    pose proof (r_graph _ _ _ _ IM MS) as GO.
    intros [(-> & _)|(_ & A & _)] L; [exact L|]. exact (RouteSpec.go_range _ _ GO _ _ A).
  Qed.
  Lemma sig_iff c : RouteWay.sig srs c <-> signal_at l inf c.
  Proof. destruct c as [s i]. apply main_iff. Qed.
  Lemma sig_valid c : signal_at l inf c -> fst c < List.length srs.
  Proof. intros (st & x & n & _ & (r & R & _) & _). rewrite (srs_len _ _ _ MS). apply nth_error_Some. congruence. Qed.
  Lemma entry_valid c : entry_of_network inf c -> fst c < List.length srs.
  Proof. intros H. apply entry_iff in H. exact (proj1 H). Qed.

  Lemma follows_valid cs c : nth_error cs 0 = Some c -> fst c < List.length srs ->
    follows inf cs -> forall k d, nth_error cs k = Some d -> fst d < List.length srs.
  Proof.
    intros H0 V F. induction k as [|k IH]; intros d D; [congruence|].
    destruct (nth_error cs k) as [c'|] eqn:E.
    - apply (next_valid c' d); [|exact (IH _ eq_refl)]. apply next_iff; [exact (IH _ eq_refl)|]. exact (F k c' d E D).
    - apply nth_error_None in E. assert (S k < List.length cs) by (apply nth_error_Some; congruence). lia.
  Qed.
  Lemma follows_valid' cs c : nth_error cs 0 = Some c -> fst c < List.length srs ->
    RouteWay.follows srs srg cs -> forall k d, nth_error cs k = Some d -> fst d < List.length srs.
  Proof.
    intros H0 V F. induction k as [|k IH]; intros d D; [congruence|].
    destruct (nth_error cs k) as [c'|] eqn:E.
    - apply (next_valid c' d); [|exact (IH _ eq_refl)]. exact (F k c' d E D).
    - apply nth_error_None in E. assert (S k < List.length cs) by (apply nth_error_Some; congruence). lia.
  Qed.

  Lemma way_iff cs : RouteWay.way srs srg cs <-> way_between_signals l files inf cs.
  Proof.
    split.
    - intros [F (c & C & S1) (d & D & S2) N So On Et].
      assert (V : fst c < List.length srs).
      { destruct S1 as [S1|S1]; [apply sig_iff in S1; exact (sig_valid _ S1)|exact (proj1 S1)]. }
      constructor.
      + intros k a b A B. apply next_iff; [exact (follows_valid' cs c C V F k a A)|exact (F k a b A B)].
      + exists c. rewrite <- sig_iff, <- entry_iff. auto.
      + exists d. rewrite <- sig_iff, <- exit_iff. auto.
      + intros k a A1 A2 A. rewrite <- sig_iff. exact (N k a A1 A2 A).
      + intros L a A. rewrite <- entry_iff, <- exit_iff. exact (On L a A).
      + destruct So as [So|(a & A & So)]; [left; exact So|right; exists a; rewrite <- sig_iff; auto].
      + intros G a A. rewrite <- etcs_iff. exact (Et G a A).
    - intros [F (c & C & S1) (d & D & S2) N On So Et].
      assert (V : fst c < List.length srs).
      { destruct S1 as [S1|S1]; [exact (sig_valid _ S1)|exact (entry_valid _ S1)]. }
      constructor.
      + intros k a b A B. apply next_iff; [exact (follows_valid cs c C V F k a A)|exact (F k a b A B)].
      + exists c. rewrite sig_iff, entry_iff. auto.
      + exists d. rewrite sig_iff, exit_iff. auto.
      + intros k a A1 A2 A. rewrite sig_iff. exact (N k a A1 A2 A).
      + destruct So as [So|(a & A & So)]; [left; exact So|right; exists a; rewrite sig_iff; auto].
      + intros L a A. rewrite entry_iff, exit_iff. exact (On L a A).
      + intros G a A. rewrite etcs_iff. exact (Et G a A).
  Qed.
End BRIDGE.
