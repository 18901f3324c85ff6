(* Proofs about the model in TransformModel.v *)
From Verif Require Import Base AlgoModel AlgoProofs RouteModel RouteProofs RouteSpec RouteIter RouteIndex TransformModel.
From Coq Require Import ZifyBool ZifyNat ZifyN.

(* ---- vocabulary ---- *)
(* r2 starts at the node where r1 ends *)
Definition meets (srs : list sroute) (r1 r2 : iroute) : Prop := exists n, ends_at srs r1 n /\ starts_at srs r2 n.
Fixpoint consecutive (R : iroute -> iroute -> Prop) (rs : list iroute) : Prop :=
  match rs with
  | a :: (b :: _) as t => R a b /\ consecutive R t
  | _ => True
  end.
(* the route runs along the sequence q from position o on, as long as both last *)
Definition runs_along (q : list nat) (o : nat) (r : iroute) : Prop :=
  forall j s1 s2, nth_error (ir_srs r) j = Some s1 -> nth_error q (o + j) = Some s2 -> s1 = s2.
(* the path rs runs along q from position o on until q is exhausted; each route
   starts on the station route on which the one before it ended *)
Fixpoint runs_through (q : list nat) (o : nat) (rs : list iroute) : Prop :=
  match rs with
  | [] => False
  | r :: t => runs_along q o r /\ (length q <= o + length (ir_srs r) \/ runs_through q (o + length (ir_srs r) - 1) t)
  end.

Lemma bind_inv {A B} (m : res A) (k : A -> res B) b : bind m k = Ok b -> exists a, m = Ok a /\ k a = Ok b.
Proof. destruct m; cbn; try discriminate. intros E. now exists a. Qed.
Ltac inv_bind H :=
  let a := fresh "a" in let E := fresh "E" in apply bind_inv in H; destruct H as [a [E H]].

Lemma set_intersection_in (l1 : list N) : forall l2 x,
  In x (set_intersection (fun y => y) (fun y => y) l1 l2) -> In x l1 /\ In x l2.
Proof.
  induction l1 as [|a l1 IH]; intros l2 x; [destruct l2; intros []|].
  induction l2 as [|b l2 IH2]; [intros []|].
  cbn [set_intersection].
  destruct (N.ltb_spec a b).
  - intros I. apply IH in I as [I1 I2]. split; [now right|exact I2].
  - destruct (N.ltb_spec b a).
    + intros I. apply IH2 in I as [I1 I2]. split; [exact I1|now right].
    + assert (a = b) by lia. subst b. intros [<-|I]; [split; now left|].
      apply IH in I as [I1 I2]. split; now right.
Qed.

Section PROOFS.
  Variable srs : list sroute.
  Variable checkpoint : nat -> option nat.
  Variable irs : list iroute.
  Variables part starting_at halting_at : list (list N).
  Variable freight : bool.
  Notation transform_loop := (transform_loop srs checkpoint irs part starting_at halting_at freight).
  Notation get_candidates := (get_candidates srs checkpoint part starting_at halting_at freight).
  Notation sequence_points := (sequence_points srs checkpoint freight).
  Notation transform := (transform_to_interlocking srs checkpoint irs part starting_at halting_at freight).
  Notation node_idx := (node_idx srs checkpoint freight).

  Hypothesis IDS : map ir_id irs = map N.of_nat (seq 0 (length irs)).
  Hypothesis WF : Forall (proper srs) irs.
  Hypothesis PART : lists_exactly part irs (fun r k => In (N.to_nat k) (ir_srs r)).
  Hypothesis START : lists_exactly starting_at irs (starts_at srs).

  Lemma id_position k r : nth_error irs k = Some r -> ir_id r = N.of_nat k.
  Proof.
    intros E. assert (H := f_equal (fun l => nth_error l k) IDS). cbn in H.
    rewrite nth_error_map, E in H. cbn in H.
    assert (L : k < length irs) by (apply nth_error_Some; congruence).
    rewrite nth_error_map in H.
    rewrite (nth_error_nth' (seq 0 (length irs)) 0) in H by now rewrite seq_length.
    rewrite seq_nth in H by assumption. cbn in H. congruence.
  Qed.

  Lemma in_of_id r k r' : In r irs -> ir_id r = N.of_nat k -> nth_error irs k = Some r' -> r' = r.
  Proof.
    intros I E E'. apply In_nth_error in I as [j Ej].
    assert (J := id_position _ _ Ej). assert (j = k) by lia. congruence.
  Qed.

  Lemma at_nth {A} (l : list A) i x : at_ l i = Ok x -> nth_error l i = Some x.
  Proof. unfold at_. destruct (nth_error l i); congruence. Qed.

  Lemma at64_nth {A} (l : list A) i x : at64 l i = Ok x -> nth_error l (N.to_nat i) = Some x.
  Proof. unfold at64. destruct (N.ltb i _); [apply at_nth|discriminate]. Qed.

  Lemma longest_loop_in ps : forall cands best cur best' cur',
    longest_loop irs cands ps best cur = Ok (best', cur') -> forall x, In x best' -> In x best \/ In x cands.
  Proof.
    induction cands as [|c cands IH]; intros best cur best' cur' E x I; cbn [longest_loop] in E.
    - injection E as <- <-. now left.
    - inv_bind E. eapply IH in E; [|exact I].
      destruct E as [E|E]; [|right; now right].
      destruct (Nat.ltb cur (prefix_length (ir_srs a) ps)) eqn:L;
        destruct (Nat.leb _ _); try (apply in_app_iff in E as [E|[<-|[]]]); try contradiction;
          try (now left); right; now left.
  Qed.

  (* the chosen route realises the returned prefix length *)
  Lemma longest_loop_len ps : forall cands best cur best' cur',
    (forall x, In x best -> exists r, nth_error irs (N.to_nat x) = Some r /\ prefix_length (ir_srs r) ps = cur) ->
    longest_loop irs cands ps best cur = Ok (best', cur') ->
    forall x, In x best' -> exists r, nth_error irs (N.to_nat x) = Some r /\ prefix_length (ir_srs r) ps = cur'.
  Proof.
    induction cands as [|c cands IH]; intros best cur best' cur' B E x I; cbn [longest_loop] in E.
    - injection E as <- <-. auto.
    - inv_bind E. apply at_nth in E0. eapply IH; [|exact E|exact I].
      intros y Iy.
      destruct (Nat.ltb_spec cur (prefix_length (ir_srs a) ps)) as [L|L].
      + rewrite Nat.leb_refl in Iy. destruct Iy as [<-|[]]. eauto.
      + destruct (Nat.leb_spec cur (prefix_length (ir_srs a) ps)) as [L2|L2].
        * apply in_app_iff in Iy as [Iy|[<-|[]]]; [auto|]. exists a. split; [assumption|lia].
        * auto.
  Qed.

  Lemma intersect_in a b l x : intersect a b = Ok l -> In x l -> In x a /\ In x b.
  Proof.
    unfold intersect, get_overlap. intros E I. inv_bind E. inv_bind E. injection E as <-.
    now apply set_intersection_in.
  Qed.

  Lemma candidates_in ss c ln cands x : get_candidates ss c ln = Ok cands -> In x cands ->
    exists sp row, nth_error (ss_points ss) (N.to_nat (cv_off c)) = Some sp /\
      nth_error part (sp_sr sp) = Some row /\ In x row /\
      (forall n, ln = Some n -> exists st, nth_error starting_at (N.to_nat n) = Some st /\ In x st).
  Proof.
    unfold TransformModel.get_candidates. intros E I.
    inv_bind E. apply at64_nth in E0. inv_bind E. apply at_nth in E1. rename a0 into row, a into sp.
    inv_bind E. rename a into cands1.
    assert (I1 : In x cands1).
    { destruct (Nat.eqb (length cands1) 1); [injection E as <-; exact I|].
      destruct (negb (sp_halt sp)); [injection E as <-; exact I|].
      inv_bind E. destruct a as [i|]; [|discriminate].
      destruct (N.leb _ _); [|injection E as <-; exact I].
      inv_bind E. inv_bind E. inv_bind E. eapply intersect_in in E as [E _]; eauto. }
    exists sp, row. split; [exact E0|]. split; [exact E1|].
    destruct ln as [n|].
    - inv_bind E2. apply at_nth in E3. destruct (intersect_in _ _ _ _ E2 I1) as [J1 J2].
      split; [exact J1|]. intros n' [= <-]. exists a. auto.
    - injection E2 as <-. split; [exact I1|discriminate].
  Qed.

  Lemma sequence_points_in ir ss : forall n i l, sequence_points ir ss i n = Ok l ->
    forall p, In p l -> In p (ss_points ss) /\
      exists k, node_idx p = Ok (Some k) /\ ir_contains ir (sp_sr p) k = true.
  Proof.
    induction n as [|n IH]; intros i l E p I; cbn [TransformModel.sequence_points] in E.
    - injection E as <-. destruct I.
    - inv_bind E. inv_bind E. inv_bind E. injection E as <-.
      apply at64_nth in E0.
      destruct a0 as [k|]; [|eauto].
      destruct (ir_contains ir (sp_sr a) k) eqn:C; [|eauto].
      destruct I as [<-|I]; [|eauto]. split; [eapply nth_error_In; eauto|]. eauto.
  Qed.

  Definition on_route (r : iroute) (p : seqpoint) : bool :=
    match node_idx p with Ok (Some k) => ir_contains r (sp_sr p) k | _ => false end.
  (* the points of a contiguous piece of the sequence that lie on the route *)
  Definition piece_of (ss : stopseq) (r : iroute) (l : list seqpoint) : Prop :=
    exists o n, l = filter (on_route r) (firstn n (skipn o (ss_points ss))).

  Lemma sequence_points_filter ir ss (LEN : (N.of_nat (length (ss_points ss)) < 2 ^ 63)%N) :
    forall n i l, sequence_points ir ss i n = Ok l ->
      l = filter (on_route ir) (firstn n (skipn (N.to_nat i) (ss_points ss))).
  Proof.
    induction n as [|n IH]; intros i l E; cbn [TransformModel.sequence_points] in E.
    - injection E as <-. reflexivity.
    - apply bind_inv in E as [sp [E0 E]]. apply bind_inv in E as [idx [E1 E]]. apply bind_inv in E as [t [E2 E]].
      injection E as <-. apply at64_nth in E0.
      assert (L : N.to_nat i < length (ss_points ss)) by (apply nth_error_Some; congruence).
      apply IH in E2. unfold add64, M64 in E2. rewrite N.mod_small in E2 by lia.
      replace (N.to_nat (i + 1)) with (S (N.to_nat i)) in E2 by lia.
      assert (SK : skipn (N.to_nat i) (ss_points ss) = sp :: skipn (S (N.to_nat i)) (ss_points ss)).
      { clear - E0. revert E0. generalize (N.to_nat i) as k. induction (ss_points ss) as [|x l IH]; intros [|k] E; cbn in E;
          try discriminate.
        - injection E as <-. reflexivity.
        - cbn [skipn]. rewrite (IH k E). reflexivity. }
      rewrite SK. cbn [firstn filter]. unfold on_route at 1. rewrite E1, <- E2. destruct idx; reflexivity.
  Qed.

  (* what one chosen route satisfies *)
  Lemma chosen ss c ln cands best len b ir :
    get_candidates ss c ln = Ok cands -> longest irs cands ss (cv_off c) = Ok (best, len) -> In b best ->
    nth_error irs (N.to_nat b) = Some ir ->
    exists sp, nth_error (ss_points ss) (N.to_nat (cv_off c)) = Some sp /\ In (sp_sr sp) (ir_srs ir) /\
      (forall n, ln = Some n -> starts_at srs ir n) /\
      prefix_length (ir_srs ir) (skipn (N.to_nat (cv_off c)) (ss_points ss)) = len.
  Proof.
    intros C L I E.
    assert (I2 : In b cands).
    { unfold longest in L. eapply longest_loop_in in L; [|exact I]. destruct L as [[]|L]; exact L. }
    destruct (candidates_in _ _ _ _ _ C I2) as [sp [row [S1 [S2 [S3 S4]]]]].
    exists sp. split; [exact S1|].
    split; [|split].
    - destruct (PART _ _ S2) as [_ P]. apply P in S3 as [r [Ir [Er Pr]]].
      rewrite Nat2N.id in Pr.
      assert (ir = r) by (eapply in_of_id; eauto; lia). now subst r.
    - intros n N1. destruct (S4 n N1) as [st [T1 T2]].
      destruct (START _ _ T1) as [_ P]. apply P in T2 as [r [Ir [Er Pr]]].
      rewrite N2Nat.id in Pr.
      assert (ir = r) by (eapply in_of_id; eauto; lia). now subst r.
    - unfold longest in L. eapply longest_loop_len in L; [|intros x []|exact I].
      destruct L as [r [R1 R2]]. congruence.
  Qed.

  Lemma last_node_ends r n : proper srs r -> last_node srs r = Ok n -> ends_at srs r n.
  Proof.
    intros P E. destruct P as [W [C [LS LE]]].
    destruct (last_node_ok srs r W C LE) as [b [Eb Cb]]. rewrite E in Eb. injection Eb as <-. exact Cb.
  Qed.

  Lemma prefix_all q : forall l ps, map sp_sr ps = q ->
    (forall j s1 s2, nth_error l j = Some s1 -> nth_error q j = Some s2 -> s1 = s2) ->
    prefix_length l ps = Nat.min (length l) (length q).
  Proof.
    induction q as [|a q IH]; intros l ps M H; destruct ps as [|p ps]; try discriminate.
    - destruct l; cbn; lia.
    - cbn in M. injection M as Ma Mq. destruct l as [|s l]; [reflexivity|].
      cbn [prefix_length]. assert (s = a) by (apply (H 0); reflexivity). subst.
      rewrite Nat.eqb_refl. cbn [length]. rewrite (IH l ps); [reflexivity|reflexivity|].
      intros j s1 s2 A B. exact (H (Datatypes.S j) s1 s2 A B).
  Qed.

  Lemma skipn_nth {A} (l : list A) : forall o j, nth_error (skipn o l) j = nth_error l (o + j).
  Proof.
    induction l as [|a l IH]; intros [|o] j; cbn; try reflexivity; try (now destruct j); auto.
  Qed.

  Lemma prefix_along ss o r : runs_along (map sp_sr (ss_points ss)) o r ->
    prefix_length (ir_srs r) (skipn o (ss_points ss)) = Nat.min (length (ir_srs r)) (length (ss_points ss) - o).
  Proof.
    intros A.
    rewrite (prefix_all (skipn o (map sp_sr (ss_points ss)))).
    - now rewrite skipn_length, map_length.
    - now rewrite skipn_map.
    - intros j s1 s2 B C. rewrite skipn_nth in C. eauto.
  Qed.

  Definition on_one_of (rs : list iroute) (ss : stopseq) (p : seqpoint) : Prop :=
    In p (ss_points ss) /\ exists r k, In r rs /\ node_idx p = Ok (Some k) /\ ir_contains r (sp_sr p) k = true.

  (* the route ends on the last node of the station route s *)
  Definition ends_with (r : iroute) (s : nat) : Prop :=
    exists sr n, sr_of srs s = Some sr /\ ends_at srs r n /\ nth_error (rev (sr_nodes sr)) 0 = Some n.

  Lemma proper_len r : proper srs r -> 0 < length (ir_srs r).
  Proof.
    intros [W _]. destruct W as [? W ?]. destruct (ir_srs r); cbn in *; [congruence|lia].
  Qed.

  Lemma loop_ok ss : forall fuel c cur path pts path' pts',
    In cur irs ->
    transform_loop fuel ss c cur path pts = Ok (inr (path', pts')) ->
    exists rs more, path' = path ++ map ir_id rs /\ pts' = pts ++ more /\
      ((N.of_nat (length (ss_points ss)) < 2 ^ 63)%N ->
         exists pieces, Forall2 (piece_of ss) rs pieces /\ more = concat pieces) /\
      Forall (fun r => In r irs /\ exists s, In s (map sp_sr (ss_points ss)) /\ In s (ir_srs r)) rs /\
      consecutive (meets srs) (cur :: rs) /\
      (forall p, In p more -> on_one_of rs ss p) /\
      (forall o, let q := map sp_sr (ss_points ss) in
         (N.of_nat (length q) < 2 ^ 63)%N ->
         (forall r, In r rs -> (N.of_nat (length (ir_srs r)) < 2 ^ 63)%N) ->
         consecutive (fun a b => hd 0 (ir_srs b) = last (ir_srs a) 0) (cur :: rs) ->
         (forall r i s, In r rs -> S i < length q -> nth_error q i = Some s -> ~ ends_with r s) ->
         (forall r o, In r rs -> nth_error q o = Some (hd 0 (ir_srs r)) -> runs_along q o r) ->
         runs_along q o cur -> o + length (ir_srs cur) <= length q ->
         cv_off c = N.of_nat (o + length (ir_srs cur) - 1) ->
         length q <= o + length (ir_srs cur) \/ runs_through q (o + length (ir_srs cur) - 1) rs).
  Proof.
    induction fuel as [|fuel IH]; intros c cur path pts path' pts' IC E; cbn [TransformModel.transform_loop] in E;
      [discriminate|].
    assert (PC : proper srs cur) by (rewrite Forall_forall in WF; auto).
    assert (LC := proper_len _ PC).
    apply bind_inv in E as [dn [E0 E]]. destruct dn.
    { injection E as <- <-. exists [], []. rewrite !app_nil_r.
      split; [reflexivity|]. split; [reflexivity|].
      split; [intros _; exists []; split; [constructor|reflexivity]|].
      split; [constructor|]. split; [exact I|].
      split; [intros p []|].
      intros o q Q1 _ _ _ _ _ LE CO. left.
      unfold covers in E0.
      destruct (N.ltb_spec (cv_off c) (N.of_nat (length (ss_points ss) - 1))) as [L|L]; [discriminate|].
      subst q. rewrite map_length in *. lia. }
    apply bind_inv in E as [ln [E1 E]]. apply bind_inv in E as [cands [E2 E]].
    apply bind_inv in E as [[best len] [E3 E]].
    destruct best as [|b [|b2 best]]; try discriminate.
    apply bind_inv in E as [ir [E4 E]]. apply at_nth in E4.
    assert (II : In ir irs) by (eapply nth_error_In; eauto).
    assert (PI : proper srs ir) by (rewrite Forall_forall in WF; auto).
    destruct (chosen ss c (Some ln) cands [b] len b ir E2 E3 (or_introl eq_refl) E4)
      as [sp [S1 [S2 [S3 S4]]]].
    assert (M : meets srs cur ir).
    { exists ln. split; [apply last_node_ends; assumption|]. now apply S3. }
    apply bind_inv in E as [mo [E5 E]].
    assert (ON : forall p, In p mo -> on_one_of [ir] ss p).
    { intros p Ip. destruct (sequence_points_in _ _ _ _ _ E5 p Ip) as [A [k [B C]]].
      split; [exact A|]. exists ir, k. split; [now left|]. auto. }
    assert (PC' : (N.of_nat (length (ss_points ss)) < 2 ^ 63)%N -> piece_of ss ir mo).
    { intros LL. exists (N.to_nat (cv_off c)), len. now apply sequence_points_filter. }
    assert (PS : exists s, In s (map sp_sr (ss_points ss)) /\ In s (ir_srs ir)).
    { exists (sp_sr sp). split; [|exact S2]. apply in_map. eapply nth_error_In; eauto. }
    destruct (N.ltb_spec (N.of_nat (length (ss_points ss))) (add64 (cv_off c) (N.of_nat (length (ir_srs ir))))) as [L|L].
    - injection E as <- <-. exists [ir], mo.
      split; [reflexivity|]. split; [reflexivity|].
      split; [intros LL; exists [mo]; split; [constructor; [auto|constructor]|cbn; now rewrite app_nil_r]|].
      split; [constructor; [auto|constructor]|].
      split; [cbn; auto|]. split; [exact ON|].
      intros o q Q1 Q2 HS HE HA RA LE CO. right.
      destruct HS as [HS _].
      assert (N1 : nth_error q (o + length (ir_srs cur) - 1) = Some (sp_sr sp)).
      { subst q. rewrite nth_error_map. replace (o + length (ir_srs cur) - 1) with (N.to_nat (cv_off c)) by lia.
        now rewrite S1. }
      assert (N2 : last (ir_srs cur) 0 = sp_sr sp).
      { apply (RA (length (ir_srs cur) - 1)); [|now rewrite <- N1; f_equal; lia].
        destruct (exists_last (l := ir_srs cur)) as [l' [z Z]]; [destruct (ir_srs cur); cbn in LC; [lia|discriminate]|].
        rewrite Z, last_last, app_length. cbn [length]. rewrite nth_error_app2 by lia.
        replace (length l' + 1 - 1 - length l') with 0 by lia. reflexivity. }
      assert (RI : runs_along q (o + length (ir_srs cur) - 1) ir).
      { apply HA; [now left|]. now rewrite N1, HS, N2. }
      cbn [runs_through]. split; [exact RI|]. left.
      assert (Q2' := Q2 ir (or_introl eq_refl)).
      unfold add64, M64 in L. subst q. rewrite map_length in *.
      rewrite N.mod_small in L by lia. lia.
    - apply bind_inv in E as [sp' [E6 E]]. apply at64_nth in E6. rewrite S1 in E6. injection E6 as <-.
      apply bind_inv in E as [lsr [E7 E]]. apply at_nth in E7.
      apply bind_inv in E as [ln' [E8 E]]. apply bind_inv in E as [back [E9 E]].
      apply IH in E; [|exact II].
      destruct E as [rs [more [P1 [P2 [P7 [P3 [P4 [P5 P6]]]]]]]].
      exists (ir :: rs), (mo ++ more).
      split; [rewrite P1, <- app_assoc; reflexivity|].
      split; [rewrite P2, <- app_assoc; reflexivity|].
      split; [intros LL; destruct (P7 LL) as [pieces [Q1 ->]]; exists (mo :: pieces);
              split; [constructor; auto|reflexivity]|].
      split; [constructor; [auto|exact P3]|].
      split; [split; [exact M|exact P4]|].
      split.
      { intros p Ip. apply in_app_iff in Ip as [Ip|Ip].
        - destruct (ON p Ip) as [A [r [k [[<-|[]] B]]]]. split; [exact A|]. exists ir, k. split; [now left|exact B].
        - destruct (P5 p Ip) as [A [r [k [B C]]]]. split; [exact A|]. exists r, k. split; [now right|exact C]. }
      intros o q Q1 Q2 HS HE HA RA LE CO. right.
      destruct HS as [HS HS'].
      assert (N1 : nth_error q (o + length (ir_srs cur) - 1) = Some (sp_sr sp)).
      { subst q. rewrite nth_error_map. replace (o + length (ir_srs cur) - 1) with (N.to_nat (cv_off c)) by lia.
        now rewrite S1. }
      assert (N2 : last (ir_srs cur) 0 = sp_sr sp).
      { apply (RA (length (ir_srs cur) - 1)); [|now rewrite <- N1; f_equal; lia].
        destruct (exists_last (l := ir_srs cur)) as [l' [z Z]]; [destruct (ir_srs cur); cbn in LC; [lia|discriminate]|].
        rewrite Z, last_last, app_length. cbn [length]. rewrite nth_error_app2 by lia.
        replace (length l' + 1 - 1 - length l') with 0 by lia. reflexivity. }
      assert (RI : runs_along q (o + length (ir_srs cur) - 1) ir).
      { apply HA; [now left|]. now rewrite N1, HS, N2. }
      cbn [runs_through]. split; [exact RI|].
      assert (Q2' := Q2 ir (or_introl eq_refl)).
      assert (LI := proper_len _ PI).
      assert (PL := prefix_along ss _ _ RI).
      replace (o + length (ir_srs cur) - 1) with (N.to_nat (cv_off c)) in PL by lia.
      rewrite S4 in PL.
      assert (LL : o + length (ir_srs cur) - 1 + length (ir_srs ir) <= length q).
      { unfold add64, M64 in L. subst q. rewrite map_length in *.
        rewrite N.mod_small in L by lia. lia. }
      assert (PL2 : len = length (ir_srs ir)).
      { subst q. rewrite map_length in *. lia. }
      destruct (Nat.le_gt_cases (length q) (o + length (ir_srs cur) - 1 + length (ir_srs ir))) as [LE2|GT];
        [now left|].
      apply P6; try assumption.
      + intros r Ir. apply Q2. now right.
      + intros r i s Ir. apply HE. now right.
      + intros r o' Ir. apply HA. now right.
      + cbn [cv_off].
        destruct (N.eqb_spec ln' back) as [EQ|NE].
        { exfalso. apply (HE ir (o + length (ir_srs cur) - 1) (sp_sr sp)); [now left|lia|exact N1|].
          exists lsr, ln'. split; [exact E7|]. split; [apply last_node_ends; assumption|].
            destruct (rev (sr_nodes lsr)); [discriminate|]. injection E9 as ->. cbn. congruence. }
        unfold add64, sub64, M64. rewrite PL2, CO.
        subst q. rewrite map_length in *.
        rewrite (N.mod_small 1) by lia.
        replace (N.of_nat (length (ir_srs ir)) + (18446744073709551616 - 1))%N
          with (N.of_nat (length (ir_srs ir)) - 1 + 1 * 18446744073709551616)%N by lia.
        rewrite N.mod_add by lia.
        rewrite (N.mod_small (N.of_nat (length (ir_srs ir)) - 1)) by lia.
        rewrite N.mod_small by lia. lia.
  Qed.

  Lemma transform_ok fuel ss path pts :
    transform fuel ss = Ok (inr (path, pts)) ->
    exists r0 rs, path = map ir_id (r0 :: rs) /\
      Forall (fun r => In r irs /\ exists s, In s (map sp_sr (ss_points ss)) /\ In s (ir_srs r)) (r0 :: rs) /\
      consecutive (meets srs) (r0 :: rs) /\
      (exists p, nth_error (ss_points ss) 0 = Some p /\ In (sp_sr p) (ir_srs r0) /\
         (ss_break_in ss = true ->
            exists sr n, sr_of srs (sp_sr p) = Some sr /\ sr_node sr 0 = Ok n /\ starts_at srs r0 n)) /\
      (forall p, In p pts -> on_one_of (r0 :: rs) ss p) /\
      ((N.of_nat (length (ss_points ss)) < 2 ^ 63)%N ->
         exists pieces, Forall2 (piece_of ss) (r0 :: rs) pieces /\ pts = concat pieces) /\
      length pts = length (filter measurable (ss_points ss)) /\
      (let q := map sp_sr (ss_points ss) in
         (N.of_nat (length q) < 2 ^ 63)%N ->
         (forall r, In r (r0 :: rs) -> (N.of_nat (length (ir_srs r)) < 2 ^ 63)%N) ->
         consecutive (fun a b => hd 0 (ir_srs b) = last (ir_srs a) 0) (r0 :: rs) ->
         (forall r i s, In r (r0 :: rs) -> S i < length q -> nth_error q i = Some s -> ~ ends_with r s) ->
         (forall r o, In r (r0 :: rs) -> nth_error q o = Some (hd 0 (ir_srs r)) -> runs_along q o r) ->
         nth_error q 0 = Some (hd 0 (ir_srs r0)) ->
         runs_through q 0 (r0 :: rs)).
  Proof.
    unfold transform_to_interlocking. intros E.
    apply bind_inv in E as [f [E1 E]]. destruct f as [e|[b c]]; [discriminate|].
    apply bind_inv in E as [ir [E2 E]]. apply at_nth in E2.
    apply bind_inv in E as [mo [E3 E]]. apply bind_inv in E as [r [E4 E]].
    destruct r as [e|[path1 pts1]]; [discriminate|].
    apply bind_inv in E as [[] [E5 E]]. injection E as -> ->.
    unfold get_first_ir in E1. destruct (ss_points ss) as [|p ps] eqn:EP; [discriminate|].
    apply bind_inv in E1 as [fsr [F1 E1]]. apply at_nth in F1. apply bind_inv in E1 as [fn [F2 E1]].
    apply bind_inv in E1 as [cands [F3 E1]]. apply bind_inv in E1 as [[best len] [F4 E1]].
    destruct best as [|b' [|b2 best]]; try discriminate.
    apply bind_inv in E1 as [ir' [F5 E1]]. apply at_nth in F5. injection E1 as -> <-.
    rewrite E2 in F5. injection F5 as <-.
    assert (II : In ir irs) by (eapply nth_error_In; eauto).
    assert (PI : proper srs ir) by (rewrite Forall_forall in WF; auto).
    assert (LI := proper_len _ PI).
    destruct (chosen ss (mkcover 0 0) fn cands [b] len b ir F3 F4 (or_introl eq_refl) E2)
      as [sp [S1 [S2 [S3 S4]]]].
    cbn [cv_off] in S1, S4. change (N.to_nat 0) with 0 in S1, S4.
    rewrite EP in S1. cbn in S1. injection S1 as <-.
    apply loop_ok in E4; [|exact II].
    destruct E4 as [rs [more [P1 [P2 [P7 [P3 [P4 [P5 P6]]]]]]]].
    rewrite EP in *.
    exists ir, rs.
    split; [rewrite P1; cbn; f_equal; rewrite (id_position _ _ E2); lia|].
    split; [constructor; [split; [exact II|]; exists (sp_sr p); split; [now left|exact S2]|exact P3]|].
    split; [exact P4|].
    split.
    { exists p. split; [reflexivity|]. split; [exact S2|]. intros BI. rewrite BI in F2.
      apply bind_inv in F2 as [n [F2 F6]]. injection F6 as <-. exists fsr, n. split; [exact F1|]. split; [exact F2|].
      now apply S3. }
    split.
    { intros x Ix. rewrite P2 in Ix. apply in_app_iff in Ix as [Ix|Ix].
      - destruct (sequence_points_in _ _ _ _ _ E3 x Ix) as [A [k [B C]]].
        split; [exact A|]. exists ir, k. split; [now left|]. auto.
      - destruct (P5 x Ix) as [A [r [k [B C]]]]. split; [exact A|]. exists r, k. split; [now right|exact C]. }
    split.
    { intros LL. destruct (P7 LL) as [pieces [Q1 ->]]. exists (mo :: pieces). split; [|exact P2].
      constructor; [|exact Q1]. apply sequence_points_filter in E3; [|rewrite EP; exact LL].
      exists 0. eexists. exact E3. }
    split.
    { unfold sassert in E5. destruct (Nat.eqb_spec (length (filter measurable (p :: ps))) (length pts)); [lia|discriminate]. }
    cbv zeta. cbv zeta in P6. set (q := map sp_sr (p :: ps)) in *. intros Q1 Q2 HS HE HA H0.
    assert (RI : runs_along q 0 ir) by (apply HA; [now left|exact H0]).
    cbn [runs_through]. split; [exact RI|].
    destruct (Nat.le_gt_cases (length q) (0 + length (ir_srs ir))) as [LE|GT]; [left; exact LE|].
    assert (PL := prefix_along ss 0 ir). rewrite EP in PL. specialize (PL RI). cbn [skipn] in PL, S4.
    rewrite S4 in PL.
    assert (LQ : length q = length (p :: ps)) by (subst q; apply map_length).
    apply P6; try assumption.
    - intros r Ir. apply Q2. now right.
    - intros r i s Ir. apply HE. now right.
    - intros r o' Ir. apply HA. now right.
    - apply Nat.lt_le_incl. exact GT.
    - cbn [cv_off]. clear - PL LQ GT LI. clearbody q. destruct (Nat.eqb_spec len 0); lia.
  Qed.
End PROOFS.
