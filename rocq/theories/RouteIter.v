(* Iteration over interlocking routes. *)
From Coq Require Import Sorted Permutation ZifyBool ZifyNat.
From Verif Require Import Base AlgoModel AlgoProofs Par RouteModel RouteProofs RouteSpec.

Definition pairs (s a n : nat) : list cell := map (fun i => (s, i)) (seq a n).

Lemma pairs_length s a n : length (pairs s a n) = n.
Proof. unfold pairs. rewrite map_length, seq_length. reflexivity. Qed.
Lemma in_pairs s a n c : In c (pairs s a n) <-> fst c = s /\ a <= snd c < a + n.
Proof.
  unfold pairs. rewrite in_map_iff. split.
  - intros [i [<- I]]. apply in_seq in I. split; [reflexivity|exact I].
  - intros [E L]. exists (snd c). destruct c as [x y]. cbn in *. split; [congruence|]. apply in_seq. exact L.
Qed.
Lemma pairs_app s a n m : pairs s a (n + m) = pairs s a n ++ pairs s (a + n) m.
Proof. unfold pairs. rewrite seq_app, map_app. reflexivity. Qed.
Lemma pairs_skipn s a n k : k <= n -> skipn k (pairs s a n) = pairs s (a + k) (n - k).
Proof.
  intros L. replace n with (k + (n - k)) at 1 by lia. rewrite pairs_app.
  rewrite skipn_app, pairs_length, Nat.sub_diag. cbn [skipn].
  rewrite skipn_all2 by (rewrite pairs_length; lia). reflexivity.
Qed.
Lemma pairs_firstn s a n k : k <= n -> firstn k (pairs s a n) = pairs s a k.
Proof.
  intros L. replace n with (k + (n - k)) by lia. rewrite pairs_app.
  rewrite firstn_app, pairs_length, Nat.sub_diag. cbn [firstn].
  rewrite firstn_all2 by (rewrite pairs_length; lia). apply app_nil_r.
Qed.

Section ITER.
  Variable srs : list sroute.
  Hypothesis OS : omitted_sorted srs.

  Definition vis (l : list rnode) (cs : list cell) : Prop := Forall2 (shows srs) l cs.

  Lemma entries_vis s r : sr_of srs s = Some r -> forall l i,
    entries l i (node_ok r) -> entries l i (omitted_ok r) -> vis l (pairs s i (length l)).
  Proof.
    intros E. unfold vis, pairs. induction l as [|x l IH]; intros i P Q; [constructor|].
    apply entries_cons in P as [P0 P]. apply entries_cons in Q as [Q0 Q].
    cbn [length seq map]. constructor; [|apply IH; assumption].
    unfold shows, cell_node, cell_omitted. cbn [fst snd]. split.
    - exists r. split; [exact E|exact P0].
    - destruct Q0 as [Q1 Q2]. split.
      + intros I. exists r. split; [exact E|exact (Q1 I)].
      + intros [r' [E' I]]. apply Q2. congruence.
  Qed.

  Lemma from_to_vis s r from to : sr_of srs s = Some r -> indexable r ->
    from <= to <= sr_len srs s ->
    exists l, sr_from_to r from to = Ok l /\ vis l (pairs s from (to - from)).
  Proof.
    intros E F L. unfold sr_len in L. rewrite E in L.
    destruct (sr_from_to_ok r from to F L) as [l [El [Ll [P [Q _]]]]].
    exists l. split; [exact El|]. rewrite <- Ll. apply (entries_vis s r E l from P). apply Q.
    exact (OS s r E).
  Qed.

  Lemma size_len s r : sr_of srs s = Some r -> indexable r -> sr_size r = Ok (sr_len srs s).
  Proof. intros E F. rewrite (sr_size_ok r F). unfold sr_len. rewrite E. reflexivity. Qed.

  Definition valid_srs (l : list nat) : Prop :=
    forall s, In s l -> exists sr, sr_of srs s = Some sr /\ indexable sr.

  Lemma iterate_whole_vis l : valid_srs l ->
    exists out, iterate_whole srs l = Ok out /\ vis out (cells_of srs l).
  Proof.
    induction l as [|s l IH]; intros V.
    - exists []. split; [reflexivity|constructor].
    - destruct (V s (or_introl eq_refl)) as [r [E F]].
      destruct IH as [o2 [E2 V2]]; [intros t I; apply V; right; exact I|].
      destruct (from_to_vis s r 0 (sr_len srs s) E F) as [o1 [E1 V1]]; [lia|].
      exists (o1 ++ o2). split.
      + cbn [iterate_whole]. unfold at_. unfold sr_of in E. rewrite E. cbn [bind].
        unfold sr_iterate. rewrite (size_len s r E F). cbn [bind]. rewrite E1. cbn [bind].
        rewrite E2. reflexivity.
      + unfold cells_of. cbn [map concat]. apply Forall2_app; [|exact V2].
        replace (sr_len srs s) with (sr_len srs s - 0) by lia. exact V1.
  Qed.

  (* ---- cells of an interlocking route ---- *)
  Lemma cells_of_app l1 l2 : cells_of srs (l1 ++ l2) = cells_of srs l1 ++ cells_of srs l2.
  Proof. unfold cells_of. rewrite map_app, concat_app. reflexivity. Qed.
  Lemma cells_of_one s : cells_of srs [s] = pairs s 0 (sr_len srs s).
  Proof. unfold cells_of. cbn. apply app_nil_r. Qed.

  Lemma ir_cells_single id a b s : a <= b -> b <= sr_len srs s ->
    ir_cells srs (mkir id a b [s]) = pairs s a (b - a).
  Proof.
    intros L1 L2. unfold ir_cells. cbn [ir_srs ir_start ir_end last].
    rewrite cells_of_one, pairs_length.
    replace (sr_len srs s - (sr_len srs s - b)) with b by lia.
    rewrite pairs_firstn by lia. rewrite pairs_skipn by lia. reflexivity.
  Qed.

  Lemma ir_cells_multi id a b s mid t : a <= sr_len srs s -> b <= sr_len srs t ->
    ir_cells srs (mkir id a b (s :: mid ++ [t])) =
      pairs s a (sr_len srs s - a) ++ cells_of srs mid ++ pairs t 0 b.
  Proof.
    intros L1 L2. unfold ir_cells. cbn [ir_srs ir_start ir_end].
    assert (EL : last (s :: mid ++ [t]) 0 = t).
    { change (s :: mid ++ [t]) with ((s :: mid) ++ [t]). apply last_last. }
    rewrite EL.
    change (s :: mid ++ [t]) with ([s] ++ mid ++ [t]). rewrite !cells_of_app, !cells_of_one.
    rewrite !app_length, !pairs_length.
    set (n := sr_len srs s) in *. set (m := sr_len srs t) in *. set (c := cells_of srs mid).
    replace (n + (length c + m) - (m - b)) with (n + (length c + b)) by lia.
    rewrite !firstn_app, !pairs_length.
    rewrite (firstn_all2 (pairs s 0 n)) by (rewrite pairs_length; lia).
    replace (n + (length c + b) - n) with (length c + b) by lia.
    rewrite (firstn_all2 c) by lia.
    replace (length c + b - length c) with b by lia.
    rewrite pairs_firstn by lia.
    rewrite skipn_app, pairs_length. replace (a - n) with 0 by lia. cbn [skipn].
    rewrite pairs_skipn by lia. reflexivity.
  Qed.

  (* every list is empty, a singleton, or has distinct first and last positions *)
  Lemma ends_split (l : list nat) : l <> [] ->
    (exists s, l = [s]) \/ (exists s mid t, l = s :: mid ++ [t]).
  Proof.
    intros N. destruct l as [|s l]; [congruence|]. destruct l as [|x l] using rev_ind.
    - left. exists s. reflexivity.
    - right. exists s, l, x. reflexivity.
  Qed.

  Lemma detail_ok id a0 b0 (pre mid post : list nat) s t a b :
    valid_srs (s :: mid ++ [t]) -> a <= sr_len srs s -> b <= sr_len srs t -> s <> t ->
    exists l, ir_detail srs (mkir id a0 b0 (pre ++ s :: mid ++ t :: post))
                (length pre) a (length pre + S (length mid)) b = Ok l /\
      vis l (pairs s a (sr_len srs s - a) ++ cells_of srs mid ++ pairs t 0 b).
  Proof.
    intros V L1 L2 NE. unfold ir_detail. cbn [ir_srs].
    assert (LEN : length (pre ++ s :: mid ++ t :: post) =
                  length pre + S (length mid + S (length post))).
    { rewrite app_length. cbn [length]. rewrite app_length. reflexivity. }
    rewrite LEN. rewrite !sassert_true by lia. cbn [bind].
    assert (Es : nth_error (pre ++ s :: mid ++ t :: post) (length pre) = Some s).
    { rewrite nth_error_app2 by lia. rewrite Nat.sub_diag. reflexivity. }
    assert (Et : nth_error (pre ++ s :: mid ++ t :: post) (length pre + S (length mid)) = Some t).
    { rewrite nth_error_app2 by lia. replace (length pre + S (length mid) - length pre) with (S (length mid)) by lia.
      cbn [nth_error]. rewrite nth_error_app2 by lia. rewrite Nat.sub_diag. reflexivity. }
    apply at_some in Es, Et. rewrite Es, Et. cbn [bind].
    rewrite sassert_true by (destruct (Nat.eqb_spec s t); [contradiction|reflexivity]). cbn [bind].
    destruct (V s (or_introl eq_refl)) as [rs [Ers Frs]].
    destruct (V t) as [rt [Ert Frt]]; [right; apply in_or_app; right; left; reflexivity|].
    unfold sr_from, sr_to. pose proof Ers as Ers'. pose proof Ert as Ert'.
    unfold sr_of in Ers', Ert'. apply at_some in Ers', Ert'. rewrite Ers', Ert'. cbn [bind].
    rewrite (size_len s rs Ers Frs). cbn [bind].
    destruct (from_to_vis s rs a (sr_len srs s) Ers Frs) as [la [Ela Va]]; [lia|].
    rewrite Ela. cbn [bind].
    assert (MID : firstn (length pre + S (length mid) - S (length pre))
                    (skipn (S (length pre)) (pre ++ s :: mid ++ t :: post)) = mid).
    { replace (pre ++ s :: mid ++ t :: post) with ((pre ++ [s]) ++ mid ++ t :: post)
        by (rewrite <- app_assoc; reflexivity).
      rewrite skipn_app. rewrite skipn_all2 by (rewrite app_length; cbn; lia).
      rewrite app_length. cbn [length app]. replace (S (length pre) - (length pre + 1)) with 0 by lia.
      cbn [skipn]. replace (length pre + S (length mid) - S (length pre)) with (length mid) by lia.
      rewrite firstn_app, Nat.sub_diag. cbn [firstn]. rewrite firstn_all. apply app_nil_r. }
    rewrite MID.
    destruct (iterate_whole_vis mid) as [lm [Elm Vm]].
    { intros u I. apply V. right. apply in_or_app. left. exact I. }
    rewrite Elm. cbn [bind].
    destruct (from_to_vis t rt 0 b Ert Frt) as [lb [Elb Vb]]; [lia|].
    rewrite Elb. cbn [bind]. rewrite Nat.sub_0_r in Vb.
    eexists. split; [reflexivity|]. apply Forall2_app; [exact Va|]. apply Forall2_app; assumption.
  Qed.

  Lemma wf_multi id a b s mid t : wf_ir srs (mkir id a b (s :: mid ++ [t])) ->
    valid_srs (s :: mid ++ [t]) /\ a <= sr_len srs s /\ b <= sr_len srs t.
  Proof.
    intros [_ V L1 L2 _]. cbn [ir_srs ir_start ir_end hd] in *. split; [exact V|]. split; [exact L1|].
    change (s :: mid ++ [t]) with ((s :: mid) ++ [t]) in L2. rewrite last_last in L2. exact L2.
  Qed.

  Lemma match_multi {A} (s : nat) mid t (one : nat -> A) (more : A) :
    match s :: mid ++ [t] with [x] => one x | _ => more end = more.
  Proof. destruct mid; reflexivity. Qed.

  Lemma ir_iterate_vis r : wf_ir srs r ->
    (length (ir_srs r) <> 1 -> hd 0 (ir_srs r) <> last (ir_srs r) 0) ->
    exists l, ir_iterate srs r = Ok l /\ vis l (ir_cells srs r).
  Proof.
    intros W HN. destruct r as [id a b l]. destruct (ends_split l (wf_nonempty _ _ W)) as [[s ->]|[s [mid [t ->]]]].
    - destruct W as [_ V L1 L2 L3]. cbn [ir_srs ir_start ir_end hd last length] in *.
      rewrite ir_cells_single by (try apply L3; auto). unfold ir_iterate, first_sr. cbn [ir_srs ir_start ir_end].
      destruct (V s (or_introl eq_refl)) as [r [E F]].
      pose proof E as E'. unfold sr_of in E'. apply at_some in E'. rewrite E'. cbn [bind].
      apply (from_to_vis s r a b E F). split; [apply L3; reflexivity|exact L2].
    - destruct (wf_multi _ _ _ _ _ _ W) as [V [L1 L2]].
      rewrite ir_cells_multi by assumption. unfold ir_iterate. cbn [ir_srs].
      assert (NE : s <> t).
      { cbn [ir_srs] in HN. change (s :: mid ++ [t]) with ((s :: mid) ++ [t]) in HN.
        rewrite last_last in HN. apply HN. rewrite app_length. cbn. lia. }
      destruct (detail_ok id a b [] mid [] s t a b V L1 L2 NE) as [out [Eo Vo]].
      exists out. split; [|exact Vo]. rewrite <- Eo. cbn [app length Nat.add ir_start ir_end].
      rewrite app_length. cbn [length]. replace (S (length mid + 1) - 1) with (S (length mid)) by lia.
      destruct mid; reflexivity.
  Qed.

  (* a route through a loop: first and last station route are the same *)
  Lemma ir_iterate_loop id a b s mid : ir_iterate srs (mkir id a b (s :: mid ++ [s])) = Throw.
  Proof.
    unfold ir_iterate. cbn [ir_srs].
    assert (H : ir_detail srs (mkir id a b (s :: mid ++ [s])) 0 a
                  (length (s :: mid ++ [s]) - 1) b = Throw).
    { unfold ir_detail. cbn [ir_srs]. assert (LEN : length (s :: mid ++ [s]) = S (S (length mid))).
      { cbn. rewrite app_length. cbn. lia. }
      rewrite LEN. rewrite !sassert_true by lia. cbn [bind at_ nth_error].
      assert (Et : nth_error (s :: mid ++ [s]) (S (S (length mid)) - 1) = Some s).
      { replace (S (S (length mid)) - 1) with (S (length mid)) by lia. cbn [nth_error].
        rewrite nth_error_app2 by lia. rewrite Nat.sub_diag. reflexivity. }
      apply at_some in Et. rewrite Et. cbn [bind]. rewrite Nat.eqb_refl. reflexivity. }
    destruct mid; exact H.
  Qed.

  (* ---- from and to ---- *)
  Lemma find_first (p : nat) l1 l2 : ~ In p l1 -> find_if (Nat.eqb p) (l1 ++ p :: l2) = length l1.
  Proof.
    induction l1 as [|x l1 IH]; intros N; cbn [app find_if length].
    - rewrite Nat.eqb_refl. reflexivity.
    - destruct (Nat.eqb_spec p x) as [E|E]; [exfalso; apply N; left; congruence|].
      f_equal. apply IH. intros I. apply N. right. exact I.
  Qed.

  Lemma multi_from_to id a0 b0 x y rest fs f ts t :
    let l := x :: y :: rest in
    ir_from_to srs (mkir id a0 b0 l) fs f ts t =
      let fi := find_if (Nat.eqb fs) l in
      let ti := find_if (Nat.eqb ts) l in
      sassert (Nat.ltb fi (length l)) ;;
      sassert (Nat.ltb ti (length l)) ;;
      sassert (Nat.leb fi ti) ;;
      if Nat.eqb fs ts then do s <- at_ srs fs; sr_from_to s f t
      else ir_detail srs (mkir id a0 b0 l) fi f ti t.
  Proof. reflexivity. Qed.

  Lemma long_list (l : list nat) : 1 < length l -> exists x y rest, l = x :: y :: rest.
  Proof. destruct l as [|x [|y rest]]; cbn; try lia. eauto. Qed.

  (* from_to inside one station route of a longer route *)
  Lemma from_to_same id a0 b0 pre s post f t :
    1 < length (pre ++ s :: post) -> ~ In s pre -> valid_srs [s] -> f <= t <= sr_len srs s ->
    exists l, ir_from_to srs (mkir id a0 b0 (pre ++ s :: post)) s f s t = Ok l /\
      vis l (pairs s f (t - f)).
  Proof.
    intros LL NI V L. destruct (long_list _ LL) as [x [y [rest E]]]. rewrite E.
    rewrite multi_from_to. cbv zeta. rewrite <- E. rewrite find_first by exact NI.
    rewrite !sassert_true by (rewrite ?app_length; cbn [length]; lia). cbn [bind].
    rewrite Nat.eqb_refl. destruct (V s (or_introl eq_refl)) as [r [Er Fr]].
    pose proof Er as Er'. unfold sr_of in Er'. apply at_some in Er'. rewrite Er'. cbn [bind].
    apply from_to_vis; assumption.
  Qed.

  (* from_to between two station routes *)
  Lemma from_to_two id a0 b0 pre s mid t post f e :
    NoDup (pre ++ s :: mid ++ t :: post) -> valid_srs (s :: mid ++ [t]) ->
    f <= sr_len srs s -> e <= sr_len srs t ->
    exists l, ir_from_to srs (mkir id a0 b0 (pre ++ s :: mid ++ t :: post)) s f t e = Ok l /\
      vis l (pairs s f (sr_len srs s - f) ++ cells_of srs mid ++ pairs t 0 e).
  Proof.
    intros ND V L1 L2.
    assert (LEN : length (pre ++ s :: mid ++ t :: post) =
                  length pre + S (length mid + S (length post))).
    { rewrite app_length. cbn [length]. rewrite app_length. reflexivity. }
    destruct (long_list (pre ++ s :: mid ++ t :: post)) as [x [y [rest E]]]; [rewrite LEN; lia|].
    rewrite E. rewrite multi_from_to. cbv zeta. rewrite <- E.
    assert (N1 : ~ In s pre /\ s <> t).
    { apply NoDup_remove in ND as [_ NI]. split; [intros I; apply NI; apply in_or_app; left; exact I|].
      intros ->. apply NI. apply in_or_app. right. apply in_or_app. right. left. reflexivity. }
    destruct N1 as [N1 NE].
    assert (N2 : ~ In t (pre ++ s :: mid)).
    { replace (pre ++ s :: mid ++ t :: post) with ((pre ++ s :: mid) ++ t :: post) in ND
        by (rewrite <- app_assoc; reflexivity).
      apply NoDup_remove in ND as [_ NI]. intros I. apply NI. apply in_or_app. left. exact I. }
    assert (F1 : find_if (Nat.eqb s) (pre ++ s :: mid ++ t :: post) = length pre) by (apply find_first; exact N1).
    assert (F2 : find_if (Nat.eqb t) (pre ++ s :: mid ++ t :: post) = length pre + S (length mid)).
    { replace (pre ++ s :: mid ++ t :: post) with ((pre ++ s :: mid) ++ t :: post)
        by (rewrite <- app_assoc; reflexivity).
      rewrite find_first by exact N2. rewrite app_length. reflexivity. }
    rewrite F1, F2, LEN. rewrite !sassert_true by lia. cbn [bind].
    destruct (Nat.eqb_spec s t); [contradiction|].
    apply detail_ok; assumption.
  Qed.

  (* position (s, i) splits the route into to(s,i) and from(s,i) *)
  Lemma to_from_cells r s i : wf_ir srs r -> NoDup (ir_srs r) -> In s (ir_srs r) ->
    i <= sr_len srs s ->
    (s = hd 0 (ir_srs r) -> ir_start r <= i) ->
    (s = last (ir_srs r) 0 -> i <= ir_end r) ->
    exists cs1 cs2 l1 l2, ir_cells srs r = cs1 ++ cs2 /\
      (forall c, In c cs1 -> fst c = s -> snd c < i) /\ (forall c, In c cs2 -> fst c = s -> i <= snd c) /\
      ir_to srs r s i = Ok l1 /\ vis l1 cs1 /\ ir_from srs r s i = Ok l2 /\ vis l2 cs2.
  Proof.
    intros W ND I Li Hf Hl. destruct r as [id a b l].
    destruct (ends_split l (wf_nonempty _ _ W)) as [[x ->]|[x [mid [y ->]]]].
    - (* one station route *)
      destruct I as [->|[]]. pose proof W as [_ V L1 L2 L3].
      cbn [ir_srs ir_start ir_end hd last length] in *. specialize (Hf eq_refl). specialize (Hl eq_refl).
      destruct (V s (or_introl eq_refl)) as [r [E F]]. pose proof E as E'. unfold sr_of in E'. apply at_some in E'.
      destruct (from_to_vis s r a i E F) as [l1 [E1 V1]]; [lia|].
      destruct (from_to_vis s r i b E F) as [l2 [E2 V2]]; [lia|].
      exists (pairs s a (i - a)), (pairs s i (b - i)), l1, l2.
      split; [rewrite ir_cells_single by lia; replace (b - a) with ((i - a) + (b - i)) by lia;
              rewrite pairs_app; f_equal; f_equal; lia|].
      split; [intros c Ic _; apply in_pairs in Ic; lia|].
      split; [intros c Ic _; apply in_pairs in Ic; lia|].
      split; [unfold ir_to, ir_from_to, first_sr; cbn [ir_srs ir_start bind]; rewrite Nat.eqb_refl;
              cbn [sassert bind]; rewrite E'; exact E1|].
      split; [exact V1|]. split; [|exact V2].
      unfold ir_from, last_sr_id, ir_from_to, first_sr. cbn [ir_srs rev app bind ir_end].
      rewrite Nat.eqb_refl. cbn [sassert bind]. rewrite E'. exact E2.
    - destruct (wf_multi _ _ _ _ _ _ W) as [V [L1 L2]]. cbn [ir_srs ir_start ir_end] in *.
      assert (EL : last (x :: mid ++ [y]) 0 = y).
      { change (x :: mid ++ [y]) with ((x :: mid) ++ [y]). apply last_last. }
      cbn [hd] in Hf. rewrite EL in Hl. rewrite ir_cells_multi by assumption.
      assert (LID : last_sr_id (mkir id a b (x :: mid ++ [y])) = Ok y).
      { unfold last_sr_id. cbn [ir_srs]. change (x :: mid ++ [y]) with ((x :: mid) ++ [y]).
        rewrite rev_app_distr. reflexivity. }
      assert (TO : ir_to srs (mkir id a b (x :: mid ++ [y])) s i =
                   ir_from_to srs (mkir id a b (x :: mid ++ [y])) x a s i) by reflexivity.
      assert (FR : ir_from srs (mkir id a b (x :: mid ++ [y])) s i =
                   ir_from_to srs (mkir id a b (x :: mid ++ [y])) s i y b).
      { unfold ir_from. rewrite LID. reflexivity. }
      rewrite TO, FR. clear TO FR LID EL W.
      assert (NX : ~ In x (mid ++ [y])) by (inversion ND; assumption).
      assert (NY : ~ In y (x :: mid)).
      { change (x :: mid ++ [y]) with ((x :: mid) ++ [y]) in ND. apply NoDup_remove in ND as [_ NI].
        rewrite app_nil_r in NI. exact NI. }
      assert (XY : x <> y) by (intros ->; apply NX; apply in_or_app; right; left; reflexivity).
      assert (LEN : 1 < length (x :: mid ++ [y])) by (cbn; rewrite app_length; cbn; lia).
      destruct I as [->|I]; [|apply in_app_or in I as [I|[<-|[]]]].
      + (* the first one *)
        specialize (Hf eq_refl).
        destruct (from_to_same id a b [] s (mid ++ [y]) a i LEN (fun H => H)) as [l1 [E1 V1]];
          [intros u [<-|[]]; apply V; left; reflexivity|lia|].
        destruct (from_to_two id a b [] s mid y [] i b ND V Li L2) as [l2 [E2 V2]].
        exists (pairs s a (i - a)), (pairs s i (sr_len srs s - i) ++ cells_of srs mid ++ pairs y 0 b), l1, l2.
        split; [rewrite (app_assoc (pairs s a (i - a))); f_equal; replace (sr_len srs s - a) with ((i - a) + (sr_len srs s - i)) by lia;
                rewrite pairs_app; f_equal; f_equal; lia|].
        split; [intros c Ic _; apply in_pairs in Ic; lia|].
        split; [|split; [exact E1|split; [exact V1|split; [exact E2|exact V2]]]].
        intros c Ic Ec. apply in_app_or in Ic as [Ic|Ic]; [apply in_pairs in Ic; lia|].
        exfalso. apply in_app_or in Ic as [Ic|Ic].
        * unfold cells_of in Ic. apply in_concat in Ic as [z [Iz Ic]]. apply in_map_iff in Iz as [u [<- Iu]].
          apply in_pairs in Ic. apply NX. apply in_or_app. left. destruct Ic. congruence.
        * apply in_pairs in Ic. destruct Ic. congruence.
      + (* one in the middle *)
        apply in_split in I as [m1 [m2 ->]].
        assert (NS : s <> x /\ s <> y /\ ~ In s m1 /\ ~ In s m2).
        { split; [intros ->; apply NX; apply in_or_app; left; apply in_or_app; right; left; reflexivity|].
          split; [intros ->; apply NY; right; apply in_or_app; right; left; reflexivity|].
          inversion ND as [|? ? _ ND']; subst. rewrite <- app_assoc in ND'. cbn [app] in ND'.
          apply NoDup_remove in ND' as [_ NI].
          split; intros J; apply NI; apply in_or_app; [left; exact J|right; apply in_or_app; left; exact J]. }
        destruct NS as [NSx [NSy [NS1 NS2]]].
        assert (V1' : valid_srs (x :: m1 ++ [s])).
        { intros u [<-|J]; [apply V; left; reflexivity|]. apply V. right. apply in_app_or in J as [J|[<-|[]]].
          - apply in_or_app. left. apply in_or_app. left. exact J.
          - apply in_or_app. left. apply in_or_app. right. left. reflexivity. }
        assert (V2' : valid_srs (s :: m2 ++ [y])).
        { intros u J. apply V. right. rewrite <- app_assoc. cbn [app]. apply in_or_app. right. exact J. }
        assert (EQ : x :: (m1 ++ s :: m2) ++ [y] = x :: m1 ++ s :: m2 ++ [y]) by (rewrite <- app_assoc; reflexivity).
        rewrite EQ in ND |- *.
        destruct (from_to_two id a b [] x m1 s (m2 ++ [y]) a i ND V1' L1 Li) as [l1 [E1 W1]].
        destruct (from_to_two id a b (x :: m1) s m2 y [] i b ND V2' Li L2) as [l2 [E2 W2]].
        exists (pairs x a (sr_len srs x - a) ++ cells_of srs m1 ++ pairs s 0 i),
               (pairs s i (sr_len srs s - i) ++ cells_of srs m2 ++ pairs y 0 b), l1, l2.
        split.
        { change (m1 ++ s :: m2) with (m1 ++ [s] ++ m2). rewrite !cells_of_app, cells_of_one.
          replace (sr_len srs s) with (i + (sr_len srs s - i)) at 1 by lia. rewrite pairs_app.
          rewrite <- !app_assoc. reflexivity. }
        assert (OUT : forall m c, ~ In s m -> In c (cells_of srs m) -> fst c <> s).
        { intros m c Nm Ic. unfold cells_of in Ic. apply in_concat in Ic as [z [Iz Ic]].
          apply in_map_iff in Iz as [u [<- Iu]]. apply in_pairs in Ic as [Ic _]. congruence. }
        split; [|split; [|split; [exact E1|split; [exact W1|split; [exact E2|exact W2]]]]].
        * intros c Ic Ec. apply in_app_or in Ic as [Ic|Ic]; [apply in_pairs in Ic; destruct Ic; congruence|].
          apply in_app_or in Ic as [Ic|Ic]; [exfalso; exact (OUT m1 c NS1 Ic Ec)|apply in_pairs in Ic; lia].
        * intros c Ic Ec. apply in_app_or in Ic as [Ic|Ic]; [apply in_pairs in Ic; lia|].
          apply in_app_or in Ic as [Ic|Ic]; [exfalso; exact (OUT m2 c NS2 Ic Ec)|].
          apply in_pairs in Ic. destruct Ic. congruence.
      + (* the last one *)
        specialize (Hl eq_refl).
        destruct (from_to_two id a b [] x mid y [] a i ND V L1 Li) as [l1 [E1 V1]].
        destruct (from_to_same id a b (x :: mid) y [] i b LEN NY) as [l2 [E2 V2]];
          [intros u [<-|[]]; apply V; right; apply in_or_app; right; left; reflexivity|lia|].
        exists (pairs x a (sr_len srs x - a) ++ cells_of srs mid ++ pairs y 0 i), (pairs y i (b - i)), l1, l2.
        split; [rewrite <- !app_assoc; do 2 f_equal; replace b with (i + (b - i)) at 1 by lia;
                rewrite pairs_app; f_equal|].
        split; [|split; [intros c Ic _; apply in_pairs in Ic; lia|
                         split; [exact E1|split; [exact V1|split; [exact E2|exact V2]]]]].
        intros c Ic Ec. apply in_app_or in Ic as [Ic|Ic]; [apply in_pairs in Ic; destruct Ic; congruence|].
        apply in_app_or in Ic as [Ic|Ic]; [|apply in_pairs in Ic; lia].
        exfalso. unfold cells_of in Ic. apply in_concat in Ic as [z [Iz Ic]].
        apply in_map_iff in Iz as [u [<- Iu]]. apply in_pairs in Ic as [Ic _]. apply NY. right. congruence.
  Qed.

  (* ---- contains ---- *)
  Lemma in_cells_of l c : In c (cells_of srs l) <-> In (fst c) l /\ snd c < sr_len srs (fst c).
  Proof.
    unfold cells_of. rewrite in_concat. split.
    - intros [z [Iz Ic]]. apply in_map_iff in Iz as [u [<- Iu]].
      apply in_pairs in Ic as [E L]. rewrite E. split; [exact Iu|lia].
    - intros [I L]. exists (pairs (fst c) 0 (sr_len srs (fst c))). split.
      + apply in_map_iff. exists (fst c). split; [reflexivity|exact I].
      + apply in_pairs. split; [reflexivity|lia].
  Qed.

  Lemma ir_contains_ok r s i : wf_ir srs r -> i < sr_len srs s ->
    (ir_contains r s i = true <-> In (s, i) (ir_cells srs r)).
  Proof.
    intros W Li. destruct r as [id a b l].
    destruct (ends_split l (wf_nonempty _ _ W)) as [[x ->]|[x [mid [y ->]]]].
    - pose proof W as [_ V L1 L2 L3]. cbn [ir_srs ir_start ir_end hd last length] in *.
      rewrite ir_cells_single by (try apply L3; auto). rewrite in_pairs. cbn [fst snd].
      unfold ir_contains. cbn [ir_srs ir_start ir_end]. specialize (L3 eq_refl).
      destruct (Nat.eqb_spec x s); split; intros; lia.
    - destruct (wf_multi _ _ _ _ _ _ W) as [V [L1 L2]].
      rewrite ir_cells_multi by assumption. rewrite !in_app_iff, !in_pairs, in_cells_of. cbn [fst snd].
      assert (EQ : ir_contains (mkir id a b (x :: mid ++ [y])) s i =
        if Nat.eqb x s && Nat.leb a i then true
        else if Nat.eqb (last (mid ++ [y]) 0) s && Nat.ltb i b then true
        else existsb (Nat.eqb s) (removelast (mid ++ [y]))).
      { unfold ir_contains. cbn [ir_srs ir_start ir_end]. destruct mid; reflexivity. }
      rewrite EQ, last_last, removelast_last. clear EQ.
      destruct (Nat.eqb_spec x s) as [E1|E1]; cbn [andb].
      + subst x. destruct (Nat.leb_spec a i) as [La|La]; [split; [intros _; left; lia|reflexivity]|].
        destruct (Nat.eqb_spec y s) as [E2|E2]; cbn [andb].
        * subst y. destruct (Nat.ltb_spec i b) as [Lb|Lb]; [split; [intros _; right; right; lia|reflexivity]|].
          rewrite existsb_exists. split.
          -- intros [u [Iu Eu]]. apply Nat.eqb_eq in Eu. subst u. right. left. tauto.
          -- intros [H|[H|H]]; [lia| |lia]. exists s. rewrite Nat.eqb_refl. tauto.
        * rewrite existsb_exists. split.
          -- intros [u [Iu Eu]]. apply Nat.eqb_eq in Eu. subst u. right. left. tauto.
          -- intros [H|[H|[H _]]]; [lia| |congruence]. exists s. rewrite Nat.eqb_refl. tauto.
      + destruct (Nat.eqb_spec y s) as [E2|E2]; cbn [andb].
        * subst y. destruct (Nat.ltb_spec i b) as [Lb|Lb]; [split; [intros _; right; right; lia|reflexivity]|].
          rewrite existsb_exists. split.
          -- intros [u [Iu Eu]]. apply Nat.eqb_eq in Eu. subst u. right. left. tauto.
          -- intros [[H _]|[H|H]]; [congruence| |lia]. exists s. rewrite Nat.eqb_refl. tauto.
        * rewrite existsb_exists. split.
          -- intros [u [Iu Eu]]. apply Nat.eqb_eq in Eu. subst u. right. left. tauto.
          -- intros [[H _]|[H|[H _]]]; [congruence| |congruence]. exists s. rewrite Nat.eqb_refl. tauto.
  Qed.

  (* ---- size ---- *)
  Local Open Scope Z_scope.
  Lemma w16_small z : 0 <= z < 65536 -> w16 z = z.
  Proof. intros H. unfold w16. apply Z.mod_small. exact H. Qed.

  Lemma sum_sizes_ok l : valid_srs l -> forall acc,
    exists z, sum_sizes srs l (w16 acc) = Ok (w16 z) /\ z = acc + Z.of_nat (length (cells_of srs l)).
  Proof.
    induction l as [|s l IH]; intros V acc.
    - exists acc. split; [reflexivity|]. cbn. lia.
    - destruct (V s (or_introl eq_refl)) as [r [E F]]. cbn [sum_sizes].
      pose proof E as E'. unfold sr_of in E'. apply at_some in E'. rewrite E'. cbn [bind].
      rewrite (size_len s r E F). cbn [bind].
      assert (M : w16 (w16 acc + Z.of_nat (sr_len srs s)) = w16 (acc + Z.of_nat (sr_len srs s))).
      { unfold w16. apply Zplus_mod_idemp_l. }
      rewrite M. destruct (IH (fun t I => V t (or_intror I)) (acc + Z.of_nat (sr_len srs s))) as [z [Ez Hz]].
      exists z. split; [exact Ez|]. rewrite Hz. change (s :: l) with ([s] ++ l).
      rewrite cells_of_app, app_length, cells_of_one, pairs_length. lia.
  Qed.

  Lemma ir_size_ok r : wf_ir srs r -> ir_size srs r = Ok (w16 (Z.of_nat (length (ir_cells srs r)))).
  Proof.
    intros W. destruct r as [id a b l].
    destruct (ends_split l (wf_nonempty _ _ W)) as [[x ->]|[x [mid [y ->]]]].
    - pose proof W as [_ V L1 L2 L3]. cbn [ir_srs ir_start ir_end hd last length] in *.
      rewrite ir_cells_single by (try apply L3; auto). rewrite pairs_length. unfold ir_size. cbn [ir_srs ir_start ir_end].
      do 2 f_equal. specialize (L3 eq_refl). lia.
    - destruct (wf_multi _ _ _ _ _ _ W) as [V [L1 L2]].
      rewrite ir_cells_multi by assumption. rewrite !app_length, !pairs_length.
      destruct (sum_sizes_ok _ V 0) as [z [Ez Hz]].
      destruct (V y) as [r [E F]]; [right; apply in_or_app; right; left; reflexivity|].
      assert (G : (do sum <- sum_sizes srs (x :: mid ++ [y]) 0; do l <- last_sr srs (mkir id a b (x :: mid ++ [y]));
                   do n <- sr_size l; Ok (w16 (sum - Z.of_nat a - (Z.of_nat n - Z.of_nat b)))) =
                  Ok (w16 (Z.of_nat (sr_len srs x - a + (length (cells_of srs mid) + b))))).
      { change 0 with (w16 0). rewrite Ez. cbn [bind]. unfold last_sr, last_sr_id. cbn [ir_srs].
        change (x :: mid ++ [y]) with ((x :: mid) ++ [y]). rewrite rev_app_distr. cbn [rev app bind].
        pose proof E as E'. unfold sr_of in E'. apply at_some in E'. rewrite E'. cbn [bind].
        rewrite (size_len y r E F). cbn [bind]. f_equal.
        change (x :: mid ++ [y]) with ([x] ++ mid ++ [y]) in Hz.
        rewrite !cells_of_app, !app_length, !cells_of_one, !pairs_length in Hz.
        unfold w16. replace (z mod 65536 - Z.of_nat a - (Z.of_nat (sr_len srs y) - Z.of_nat b))
          with (z mod 65536 + - (Z.of_nat a + (Z.of_nat (sr_len srs y) - Z.of_nat b))) by lia.
        rewrite Zplus_mod_idemp_l. f_equal. lia. }
      unfold ir_size. cbn [ir_srs ir_start ir_end]. destruct mid; exact G.
  Qed.
  Local Close Scope Z_scope.

  (* ---- sub paths ---- *)
  Definition sub_cells (sp : nat * nat * nat) : list cell :=
    let '(s, f, t) := sp in pairs s f (t - f).

  Lemma whole_sub_paths_ok l : valid_srs l ->
    exists sps, whole_sub_paths srs l = Ok sps /\ concat (map sub_cells sps) = cells_of srs l /\
      (forall s f t, In (s, f, t) sps -> In s l /\ t <= sr_len srs s).
  Proof.
    induction l as [|s l IH]; intros V.
    - exists []. split; [reflexivity|]. split; [reflexivity|intros ? ? ? []].
    - destruct (V s (or_introl eq_refl)) as [r [E F]].
      destruct (IH (fun t I => V t (or_intror I))) as [sps [Es [Cs Is]]].
      exists ((s, 0, sr_len srs s) :: sps). cbn [whole_sub_paths].
      pose proof E as E'. unfold sr_of in E'. apply at_some in E'. rewrite E'. cbn [bind].
      rewrite (size_len s r E F). cbn [bind]. rewrite Es. split; [reflexivity|]. split.
      + cbn [map concat]. rewrite Cs. unfold cells_of, sub_cells at 1. cbn [map concat].
        rewrite Nat.sub_0_r. reflexivity.
      + intros u f t [Eq|I]; [injection Eq as <- <- <-; split; [left; reflexivity|lia]|].
        destruct (Is u f t I) as [J L]. split; [right; exact J|exact L].
  Qed.

  Lemma sub_paths_ok r : wf_ir srs r ->
    exists sps, sub_paths srs r = Ok sps /\ concat (map sub_cells sps) = ir_cells srs r /\
      (forall s f t, In (s, f, t) sps -> In s (ir_srs r) /\ t <= sr_len srs s).
  Proof.
    intros W. destruct r as [id a b l].
    destruct (ends_split l (wf_nonempty _ _ W)) as [[x ->]|[x [mid [y ->]]]].
    - pose proof W as [_ V L1 L2 L3]. cbn [ir_srs ir_start ir_end hd last length] in *.
      destruct (V x (or_introl eq_refl)) as [r [E F]].
      pose proof E as E'. unfold sr_of in E'. apply at_some in E'.
      unfold sub_paths. cbn [ir_srs ir_start ir_end]. rewrite E'. cbn [bind].
      eexists. split; [reflexivity|]. split.
      + cbn [map concat sub_cells]. rewrite app_nil_r. rewrite ir_cells_single by (try apply L3; auto). reflexivity.
      + intros s f t [Eq|[]]. injection Eq as <- <- <-. split; [left; reflexivity|exact L2].
    - destruct (wf_multi _ _ _ _ _ _ W) as [V [L1 L2]].
      destruct (V x (or_introl eq_refl)) as [rx [Ex Fx]].
      destruct (V y) as [ry [Ey Fy]]; [right; apply in_or_app; right; left; reflexivity|].
      destruct (whole_sub_paths_ok mid) as [sps [Es [Cs Is]]].
      { intros u I. apply V. right. apply in_or_app. left. exact I. }
      exists ((x, a, sr_len srs x) :: sps ++ [(y, 0, b)]).
      assert (EQ : sub_paths srs (mkir id a b (x :: mid ++ [y])) =
        (do fr <- at_ srs x; do n <- sr_size fr;
         do m <- whole_sub_paths srs (removelast (mid ++ [y]));
         do _ <- at_ srs (last (mid ++ [y]) 0);
         Ok ((x, a, n) :: m ++ [(last (mid ++ [y]) 0, 0, b)]))).
      { unfold sub_paths. cbn [ir_srs ir_start ir_end]. destruct mid; reflexivity. }
      rewrite EQ, last_last, removelast_last. clear EQ.
      pose proof Ex as Ex'. unfold sr_of in Ex'. apply at_some in Ex'. rewrite Ex'. cbn [bind].
      rewrite (size_len x rx Ex Fx). cbn [bind]. rewrite Es. cbn [bind].
      pose proof Ey as Ey'. unfold sr_of in Ey'. apply at_some in Ey'. rewrite Ey'. cbn [bind].
      split; [reflexivity|]. split.
      + cbn [map concat]. rewrite map_app, concat_app, Cs. cbn [map concat sub_cells].
        rewrite app_nil_r, Nat.sub_0_r. rewrite ir_cells_multi by assumption. reflexivity.
      + intros s f t [Eq|I]; [injection Eq as <- <- <-; split; [left; reflexivity|lia]|].
        apply in_app_or in I as [I|[Eq|[]]].
        * destruct (Is s f t I) as [J L]. split; [right; apply in_or_app; left; exact J|exact L].
        * injection Eq as <- <- <-. split; [right; apply in_or_app; right; left; reflexivity|exact L2].
  Qed.

  (* ---- first and last node ---- *)
  Lemma first_node_ok r : wf_ir srs r -> ir_cells srs r <> [] ->
    ir_start r < sr_len srs (hd 0 (ir_srs r)) ->
    exists n, first_node srs r = Ok n /\ cell_node srs (hd (0, 0) (ir_cells srs r)) n.
  Proof.
    intros W NE LS. destruct r as [id a b l].
    destruct (ends_split l (wf_nonempty _ _ W)) as [[x ->]|[x [mid [y ->]]]].
    - pose proof W as [_ V L1 L2 L3]. cbn [ir_srs ir_start ir_end hd last length] in *. specialize (L3 eq_refl).
      rewrite ir_cells_single in NE |- * by lia.
      destruct (V x (or_introl eq_refl)) as [r [E F]].
      unfold sr_len in LS, L2. rewrite E in LS, L2. destruct (at_lt (sr_nodes r) a LS) as [n [En Ea]].
      exists n. split.
      + unfold first_node, first_sr. cbn [ir_srs ir_start]. pose proof E as E'. unfold sr_of in E'.
        apply at_some in E'. rewrite E'. cbn [bind]. exact Ea.
      + assert (H : hd (0, 0) (pairs x a (b - a)) = (x, a)).
        { destruct (b - a) as [|k] eqn:Eb; [exfalso; apply NE; reflexivity|reflexivity]. }
        rewrite H. exists r. split; [exact E|exact En].
    - destruct (wf_multi _ _ _ _ _ _ W) as [V [L1 L2]]. cbn [ir_srs ir_start hd] in LS.
      rewrite ir_cells_multi by assumption.
      destruct (V x (or_introl eq_refl)) as [r [E F]].
      assert (LS' := LS). unfold sr_len in LS'. rewrite E in LS'. destruct (at_lt (sr_nodes r) a LS') as [n [En Ea]].
      exists n. split.
      + unfold first_node, first_sr. cbn [ir_srs ir_start]. pose proof E as E'. unfold sr_of in E'.
        apply at_some in E'. rewrite E'. cbn [bind]. exact Ea.
      + destruct (sr_len srs x - a) as [|k] eqn:Eb; [lia|]. exists r. split; [exact E|exact En].
  Qed.

  Lemma last_node_ok r : wf_ir srs r -> ir_cells srs r <> [] -> 0 < ir_end r ->
    exists n, last_node srs r = Ok n /\ cell_node srs (last (ir_cells srs r) (0, 0)) n.
  Proof.
    intros W NE LE. destruct r as [id a b l].
    assert (LP : forall s k m, last (pairs s k (S m)) (0, 0) = (s, k + m)).
    { intros s k m. replace (S m) with (m + 1) by lia. rewrite pairs_app. cbn [pairs seq map].
      rewrite last_last. reflexivity. }
    destruct (ends_split l (wf_nonempty _ _ W)) as [[x ->]|[x [mid [y ->]]]].
    - pose proof W as [_ V L1 L2 L3]. cbn [ir_srs ir_start ir_end hd last length] in *. specialize (L3 eq_refl).
      rewrite ir_cells_single in NE |- * by lia.
      destruct (V x (or_introl eq_refl)) as [r [E F]].
      unfold sr_len in L2. rewrite E in L2. destruct (at_lt (sr_nodes r) (b - 1)) as [n [En Ea]]; [lia|].
      exists n. split.
      + unfold last_node, last_sr, last_sr_id. cbn [ir_srs ir_end rev app bind]. pose proof E as E'. unfold sr_of in E'.
        apply at_some in E'. rewrite E'. cbn [bind]. destruct b as [|b]; [lia|]. cbn [Nat.sub] in Ea.
        rewrite Nat.sub_0_r in Ea. exact Ea.
      + destruct (b - a) as [|k] eqn:Eb; [exfalso; apply NE; reflexivity|]. rewrite LP.
        replace (a + k) with (b - 1) by lia. exists r. split; [exact E|exact En].
    - destruct (wf_multi _ _ _ _ _ _ W) as [V [L1 L2]]. cbn [ir_end] in LE.
      rewrite ir_cells_multi by assumption.
      destruct (V y) as [r [E F]]; [right; apply in_or_app; right; left; reflexivity|].
      assert (L2' := L2). unfold sr_len in L2'. rewrite E in L2'.
      destruct (at_lt (sr_nodes r) (b - 1)) as [n [En Ea]]; [lia|].
      exists n. split.
      + unfold last_node, last_sr, last_sr_id. cbn [ir_srs ir_end].
        change (x :: mid ++ [y]) with ((x :: mid) ++ [y]). rewrite rev_app_distr. cbn [rev app bind].
        pose proof E as E'. unfold sr_of in E'. apply at_some in E'. rewrite E'. cbn [bind].
        destruct b as [|b]; [lia|]. cbn [Nat.sub] in Ea. rewrite Nat.sub_0_r in Ea. exact Ea.
      + destruct b as [|b]; [lia|]. rewrite app_assoc.
        replace (S b) with (b + 1) by lia. rewrite pairs_app. cbn [pairs seq map]. rewrite !app_assoc, last_last.
        exists r. split; [exact E|]. cbn [snd]. cbn [Nat.sub] in En. rewrite Nat.sub_0_r in En. exact En.
  Qed.
End ITER.
