From Coq Require Import String List ZArith QArith Bool Permutation Sorted Lia Lqa.
From Verif Require Import Base GenOsmModel GenFindModel GenFindSpec GenOsmProofs GenFindProofs.
Import ListNotations.
Local Open Scope list_scope.
Local Open Scope nat_scope.

(* ---- straight lines ---- *)
Lemma straight_tail a l : straight (a :: l) -> straight l.
Proof. intros H pre x y z post ->. apply (H (a :: pre) x y z post eq_refl). Qed.
Lemma straight_rev l : straight l -> straight (rev l).
Proof.
  intros H pre a b c post E. apply (f_equal (@rev string)) in E. rewrite rev_involutive, rev_app_distr in E. cbn [rev] in E.
  rewrite <- !app_assoc in E. cbn [app] in E. intros ->. exact (H _ _ _ _ _ E eq_refl).
Qed.
Lemma straight_glue x n r : straight (x :: n :: r) -> forall l, straight (l ++ [x; n]) -> straight (l ++ x :: n :: r).
Proof.
  intros Hr. induction l as [|a l IH]; intros H; [exact Hr|]. cbn [app] in *. pose proof (IH (straight_tail _ _ H)) as Hs.
  destruct l as [|b [|c l]]; cbn [app] in *.
  - apply straight_cons; [exact Hs|]. intros c l' E. injection E as <- _. apply (H [] a x n [] eq_refl).
  - apply straight_cons; [exact Hs|]. intros c l' E. injection E as <- _. apply (H [] a b x [n] eq_refl).
  - apply straight_cons; [exact Hs|]. intros c' l' E. injection E as <- _. apply (H [] a b c (l ++ [x; n]) eq_refl).
Qed.
Lemma straight_join l1 x n y l2 : straight (l1 ++ [x; n]) -> straight (l2 ++ [y; n]) -> x <> y ->
  straight ((l1 ++ [x]) ++ n :: rev (l2 ++ [y])).
Proof.
  intros H1 H2 Hxy. rewrite rev_app_distr. cbn [rev app]. rewrite <- app_assoc. cbn [app]. apply straight_glue; [|exact H1].
  apply straight_cons.
  - apply straight_rev in H2. rewrite rev_app_distr in H2. exact H2.
  - intros c l' E. injection E as <- _. exact Hxy.
Qed.
Lemma straight_front l1 l2 : straight (l1 ++ l2) -> straight l1.
Proof. intros H pre a b c post ->. apply (H pre a b c (post ++ l2)). now rewrite <- app_assoc. Qed.

Lemma ways_through_unique o id j k : ways_through o id j -> ways_through o id k -> j = k.
Proof.
  intros (p & Np & <- & Hp) (q & Nq & <- & Hq). apply Nat.le_antisymm; apply NoDup_incl_length; try assumption; intros i Hi.
  - apply Hq, Hp, Hi.
  - apply Hp, Hq, Hi.
Qed.
Lemma ways_through_length o id k : ways_through o id k <-> k = List.length (find_ways_by_node_id o id).
Proof.
  split; [intros H; eapply ways_through_unique; [exact H|apply ways_through_filter]|]. intros ->. apply ways_through_filter.
Qed.
Lemma filter_one {A} (f : A -> bool) l a : filter f l = [a] -> In a l /\ f a = true.
Proof. intros H. apply filter_In. rewrite H. now left. Qed.
Lemma index_from_ok nds id : forall k i, index_from k nds id = Some i -> k <= i /\ nth_error nds (i - k) = Some id.
Proof.
  induction nds as [|x nds IH]; intros k i H; cbn [index_from] in H; [discriminate|].
  destruct (String.eqb_spec x id) as [->|E].
  - injection H as <-. split; [lia|]. now rewrite Nat.sub_diag.
  - apply IH in H. destruct H as [H1 H2]. split; [lia|]. replace (i - k) with (S (i - S k)) by lia. exact H2.
Qed.
Lemma index_from_in nds id : forall k, In id nds -> exists i, index_from k nds id = Some i.
Proof.
  induction nds as [|x nds IH]; intros k H; [destruct H|]. cbn [index_from]. destruct (String.eqb_spec x id) as [->|E]; [eauto|].
  destruct H as [H|H]; [contradiction|]. apply IH, H.
Qed.

Section Ends.
  Variable hav : node -> node -> Q.
  Variable o : osm.
  Variable dist : Q.
  Hypothesis Hsim : simple_ways o.

  Lemma go_direction_first fuel nds index up start w e d : separate_ways o ->
    on_way o nds -> nth_error nds index = Some start -> (at_edge nds up index = true -> ways_through o start 1) ->
    go_direction hav fuel o nds index dist up = Ok w -> result_of w = Some (e, d) ->
    exists l, run hav o dist start l e d /\ straight (l ++ [start]) /\
      (l = [] /\ ((dist <= 0)%Q \/ at_edge nds up index = true) \/ exists l' nx i, l = l' ++ [nx] /\ next_ref nds up index = Ok (nx, i)).
  Proof.
    intros Hsep Hw Hs Hed H He.
    assert (Hout : forall visited behind, outcome_at hav o dist w (visited ++ [start]) behind ->
      (visited = [] /\ w = Reached start 0%Q \/ visited = [] /\ w = Stopped start 0%Q false \/ exists nx i, visited = [nx] /\ next_ref nds up index = Ok (nx, i)) ->
      (visited = [] -> w = Reached start 0%Q /\ (dist <= 0)%Q \/ w = Stopped start 0%Q false /\ ways_through o start 1 /\ at_edge nds up index = true) ->
      exists l, run hav o dist start l e d /\ straight (l ++ [start]) /\
      (l = [] /\ ((dist <= 0)%Q \/ at_edge nds up index = true) \/ exists l' nx i, l = l' ++ [nx] /\ next_ref nds up index = Ok (nx, i))).
    { intros visited behind Ho Hv Hv0. destruct visited as [|nx0 visited].
      - exists []. assert (Ee : e = start /\ d = 0%Q).
        { destruct (Hv0 eq_refl) as [[-> _]|[-> _]]; cbn in He; injection He as <- <-; auto. }
        destruct Ee as [-> ->]. split; [|split; [cbn [app]; intros pre a b c post E; apply (f_equal (@List.length string)) in E; rewrite app_length in E; cbn in E; lia|left; split; [reflexivity|destruct (Hv0 eq_refl) as [[_ Hd]|(_ & _ & Hd)]; auto]]].
        repeat split; cbn [app]; [constructor|]. destruct (Hv0 eq_refl) as [[_ Hd]|(_ & Hd & _)]; [left; exact Hd|right; exists 1; split; [lia|exact Hd]].
      - destruct Hv as [[Hv _]|[[Hv _]|(nx & i & Hv & Hn)]]; try discriminate. injection Hv as -> ->.
        destruct w as [id d0|id d0 j|]; cbn in He; [| |discriminate]; injection He as <- <-; cbn [outcome_at app] in Ho.
        + destruct Ho as (l & Ht & (l' & ->) & Hh & Hst & Hd). exists (l' ++ [nx]). unfold run. rewrite <- app_assoc. cbn [app].
          repeat split; [exact Ht|exact Hh|left; exact Hd|eapply straight_front, (Hst Hsim Hsep)|]. right. exists l', nx, i. auto.
        + destruct Ho as (l & Ht & (l' & ->) & Hh & Hst & Hd & Hj). exists (l' ++ [nx]). unfold run. rewrite <- app_assoc. cbn [app].
          repeat split; [exact Ht|exact Hh| |eapply straight_front, (Hst Hsim Hsep)|].
          * right. destruct j; [destruct Hj as (k & Hk & Hj); exists k; split; [lia|exact Hj]|exists 1; split; [lia|exact Hj]].
          * right. exists l', nx, i. auto. }
    unfold go_direction in H. apply bind_Ok in H. destruct H as (s & Hs' & H). apply at_ok in Hs'.
    rewrite Hs in Hs'. injection Hs' as <-. apply bind_Ok in H. destruct H as (old & Hold & H).
    destruct (get_node_by_id o start) as [running|] eqn:Eg.
    2:{ destruct (Qle_bool dist 0); [discriminate|]. destruct (_ || _); [discriminate|].
        apply bind_Ok in H. destruct H as ([ref i] & _ & H). destruct (get_node_by_id o ref); [discriminate|]. injection H as <-. discriminate. }
    pose proof (get_node_id _ _ _ Eg) as Eid. subst start. apply get_node_of in Eg.
    destruct fuel as [|fuel]; [discriminate|]. cbn [go_loop] in H. destruct (Qle_bool dist 0) eqn:Ed.
    { apply (Hout [] []).
      - injection H as <-. exists [n_id running]. repeat split; [constructor|exists []; reflexivity| |apply Qle_bool_iff, Ed].
        intros _ _. cbn [app]. apply straight_two. cbn. lia.
      - left. split; [reflexivity|]. now injection H as <-.
      - intros _. left. injection H as <-. split; [reflexivity|apply Qle_bool_iff, Ed]. }
    apply Qle_bool_false in Ed.
    change ((up && Nat.eqb index 0) || (negb up && Nat.eqb (S index) (List.length nds))) with (at_edge nds up index) in H.
    destruct (at_edge nds up index) eqn:Eedge.
    - assert (Est : find_next_way o up index (n_id running) old = Ok (inr EndReached)).
      { unfold find_next_way, get_both_correct_ways. specialize (Hed eq_refl). apply ways_through_length in Hed.
        destruct (find_ways_by_node_id o (n_id running)) as [|? [|]]; try discriminate. reflexivity. }
      rewrite Est in H. cbn [bind] in H. injection H as <-. apply (Hout [] []).
      + exists [n_id running]. repeat split; [constructor|exists []; reflexivity| |exact Ed|exact (Hed eq_refl)].
        intros _ _. cbn [app]. apply straight_two. cbn. lia.
      + right. left. auto.
      + intros _. right. split; [reflexivity|]. split; [exact (Hed eq_refl)|reflexivity].
    - cbn [bind] in H. apply bind_Ok in H. destruct H as ([nx i] & Hnx & H).
      destruct (get_node_by_id o nx) as [next|] eqn:Egn; [|injection H as <-; discriminate].
      pose proof (next_neighbour _ _ _ _ _ _ Hs Hnx) as Hnb. destruct (next_ref_ok _ _ _ _ _ Hnx) as [Hat Hi].
      pose proof (get_node_id _ _ _ Egn) as Eid. subst nx. apply get_node_of in Egn.
      assert (Ht' : trail hav o dist [n_id next; n_id running] (0 + hav running next)).
      { apply trail_step; [constructor|exact Ed| |exact Eg|exact Egn]. destruct Hw as (w0 & Hin & <-). exists w0. auto. }
      apply (Hout [n_id next] []); [|right; right; eauto|discriminate]. cbn [app].
      destruct (Qeq_bool (0 + hav running next) dist) eqn:Ee.
      + injection H as <-. apply Qeq_bool_iff in Ee. exists [n_id next; n_id running].
        repeat split; [exact Ht'|exists []; reflexivity| |rewrite Ee; apply Qle_refl].
        intros _ _. cbn [app]. apply straight_two. cbn. lia.
      + eapply go_loop_walk; [exact Hw|exact Hat|exact Egn|exact Ht'| | |exact H].
        * intros _ _. cbn [app]. split; [|eauto]. destruct up; cbn [behind_at]; [now rewrite Hi|exists index; auto].
        * intros _ _. cbn [app]. apply straight_two. cbn. lia.
  Qed.

  Lemma both_ok u d ui ud di dd : both u d = Ok (Some (ui, ud, di, dd)) ->
    exists wu wd, u = Ok wu /\ d = Ok wd /\ result_of wu = Some (ui, ud) /\ result_of wd = Some (di, dd).
  Proof.
    unfold both. intros H. apply bind_Ok in H. destruct H as (wu & Hu & H). destruct (result_of wu) as [[a b]|] eqn:E1; [|discriminate].
    apply bind_Ok in H. destruct H as (wd & Hd & H). destruct (result_of wd) as [[c e]|] eqn:E2; [|discriminate].
    injection H as <- <- <- <-. exists wu, wd. auto.
  Qed.

  (* the shapes of the ways at an anchor *)
  Lemma one_way id w : find_ways_by_node_id o id = [w] -> on_way o (w_nd w) /\ NoDup (w_nd w) /\ 2 <= List.length (w_nd w) /\
    exists i, node_index_in_way (w_nd w) id = Some i /\ nth_error (w_nd w) i = Some id.
  Proof.
    intros H. apply filter_one in H. destruct H as [Hin H]. apply existsb_in in H. destruct (Hsim w Hin) as [Hnd Hl].
    repeat split; [exists w; auto|exact Hnd|exact Hl|]. destruct (index_from_in (w_nd w) id 0 H) as [i Hi]. exists i. split; [exact Hi|].
    apply index_from_ok in Hi. rewrite Nat.sub_0_r in Hi. apply Hi.
  Qed.
  Lemma two_ways id wf ws : find_ways_by_node_id o id = [wf; ws] ->
    exists i j, i <> j /\ nth_error (o_ways o) i = Some wf /\ nth_error (o_ways o) j = Some ws /\ In id (w_nd wf) /\ In id (w_nd ws) /\
      (forall k x, nth_error (o_ways o) k = Some x -> In id (w_nd x) -> k = i \/ k = j).
  Proof.
    intros H. apply filter_two in H. destruct H as (i & j & Hij & H1 & H2 & H3 & H4 & H5). apply existsb_in in H3, H4.
    exists i, j. repeat split; try assumption; [lia|]. intros k x Hk Hx. eapply H5; [exact Hk|]. apply existsb_in, Hx.
  Qed.
  Lemma last_app (l : list string) x : nth_error (l ++ [x]) (List.length (l ++ [x]) - 1) = Some x.
  Proof. rewrite app_length, nth_error_app2; cbn [List.length]; [|lia]. now replace (List.length l + 1 - 1 - List.length l) with 0 by lia. Qed.
  Lemma last_split (l : list string) x : nth_error l (List.length l - 1) = Some x -> exists l', l = l' ++ [x].
  Proof.
    intros H. destruct l as [|a l _] using rev_ind; [discriminate|]. rewrite last_app in H. injection H as ->. eauto.
  Qed.
  Lemma last_refs (nds : list string) : nds <> [] -> exists a b, first_ref nds = Ok a /\ last_ref nds = Ok b.
  Proof.
    intros H. assert (0 < List.length nds) by (destruct nds; [congruence|cbn; lia]).
    destruct (nth_some nds 0 ltac:(lia)) as [a Ha]. destruct (nth_some nds (List.length nds - 1) ltac:(lia)) as [b Hb].
    exists a, b. split; [apply first_ref_ok, Ha|apply last_ref_ok, Hb].
  Qed.

  (* the two directions at a node with two ways *)
  Lemma pair_ends fuel id wu wd i j ui ud di dd : separate_ways o -> i <> j ->
    nth_error (o_ways o) i = Some wu -> nth_error (o_ways o) j = Some wd ->
    nth_error (w_nd wu) (List.length (w_nd wu) - 1) = Some id -> nth_error (w_nd wd) 0 = Some id ->
    both (go_direction hav fuel o (w_nd wu) (List.length (w_nd wu) - 1) dist true) (go_direction hav fuel o (w_nd wd) 0 dist false) = Ok (Some (ui, ud, di, dd)) ->
    both_ends hav o dist id ui ud di dd.
  Proof.
    intros Hsep Hij Hi Hj Hu Hd H. apply both_ok in H. destruct H as (w1 & w2 & H1 & H2 & E1 & E2).
    destruct (Hsim wu (nth_error_In _ _ Hi)) as [_ Lu]. destruct (Hsim wd (nth_error_In _ _ Hj)) as [_ Ld].
    apply go_direction_first with (start := id) (e := ui) (d := ud) in H1; try assumption.
    2:{ exists wu. split; [eapply nth_error_In, Hi|reflexivity]. }
    2:{ unfold at_edge. cbn [negb andb orb]. destruct (List.length (w_nd wu) - 1) eqn:E; [lia|]. cbn. discriminate. }
    apply go_direction_first with (start := id) (e := di) (d := dd) in H2; try assumption.
    2:{ exists wd. split; [eapply nth_error_In, Hj|reflexivity]. }
    2:{ unfold at_edge. cbn [negb andb orb]. intros E. apply Nat.eqb_eq in E. lia. }
    destruct H1 as (l1 & R1 & S1 & F1). destruct H2 as (l2 & R2 & S2 & F2). exists l1, l2. split; [exact R1|]. split; [exact R2|].
    destruct F1 as [[-> _]|(l1' & x & i1 & -> & N1)].
    - cbn [app]. apply straight_rev in S2. rewrite rev_app_distr in S2. exact S2.
    - destruct F2 as [[-> _]|(l2' & y & i2 & -> & N2)]; [exact S1|]. rewrite <- app_assoc in S1, S2. apply straight_join; try assumption.
      intros ->. apply (Hsep i j wu wd id y Hij Hi Hj).
      + eapply next_neighbour; eassumption.
      + eapply next_neighbour; eassumption.
  Qed.

  Lemma find_nodes_ends fuel n ui ud di dd : separate_ways o ->
    find_nodes hav fuel o n dist = Ok (Some (ui, ud, di, dd)) -> both_ends hav o dist (n_id n) ui ud di dd.
  Proof.
    intros Hsep H. unfold find_nodes in H. destruct (find_ways_by_node_id o (n_id n)) as [|wf [|ws [|? ?]]] eqn:Ef; cbn [map] in H; try discriminate.
    - pose proof Ef as Ef1. apply one_way in Ef1. destruct Ef1 as (Hw & Hnd & Hl & i & Hi & Hn). rewrite Hi in H.
      assert (Hone : ways_through o (n_id n) 1) by (apply ways_through_length; now rewrite Ef).
      apply both_ok in H. destruct H as (w1 & w2 & H1 & H2 & E1 & E2).
      apply go_direction_first with (start := n_id n) (e := ui) (d := ud) in H1; try assumption; [|intros _; exact Hone].
      apply go_direction_first with (start := n_id n) (e := di) (d := dd) in H2; try assumption; [|intros _; exact Hone].
      destruct H1 as (l1 & R1 & S1 & F1). destruct H2 as (l2 & R2 & S2 & F2). exists l1, l2. split; [exact R1|]. split; [exact R2|].
      destruct F1 as [[-> _]|(l1' & x & i1 & -> & N1)].
      + cbn [app]. apply straight_rev in S2. rewrite rev_app_distr in S2. exact S2.
      + destruct F2 as [[-> _]|(l2' & y & i2 & -> & N2)]; [exact S1|]. rewrite <- app_assoc in S1, S2. apply straight_join; try assumption.
        intros ->. apply next_ref_ok in N1, N2. destruct N1 as [N1 I1]. destruct N2 as [N2 I2]. rewrite NoDup_nth_error in Hnd.
        assert (E : i1 = i2) by (apply Hnd; [apply nth_error_Some; congruence|congruence]). lia.
    - pose proof Ef as Ef1. apply two_ways in Ef1. destruct Ef1 as (i & j & Hij & Hi & Hj & Ini & Inj & _).
      apply bind_Ok in H; destruct H as (f0 & Hf0 & H). apply bind_Ok in H; destruct H as (fl & Hfl & H).
      apply bind_Ok in H; destruct H as (s0 & Hs0 & H). apply bind_Ok in H; destruct H as (sl & Hsl & H).
      apply first_ref_ok in Hf0, Hs0. apply last_ref_ok in Hfl, Hsl.
      destruct (String.eqb f0 (n_id n) && String.eqb sl (n_id n)) eqn:C1.
      + apply andb_true_iff in C1. destruct C1 as [C1 C2]. apply String.eqb_eq in C1, C2. subst f0 sl.
        eapply (pair_ends fuel (n_id n) ws wf j i); try eassumption. lia.
      + destruct (String.eqb s0 (n_id n) && String.eqb fl (n_id n)) eqn:C2; [|discriminate].
        apply andb_true_iff in C2. destruct C2 as [C2 C3]. apply String.eqb_eq in C2, C3. subst s0 fl.
        eapply (pair_ends fuel (n_id n) wf ws i j); try eassumption.
  Qed.

  (* ---- who can be an anchor ---- *)
  Hypothesis Hcom : complete o.
  Hypothesis Hmeet : meet_at_ends o.
  Lemma both_fine fuel nu iu nd id su sd : on_way o nu -> nth_error nu iu = Some su -> on_way o nd -> nth_error nd id = Some sd ->
    match both (go_direction hav fuel o nu iu dist true) (go_direction hav fuel o nd id dist false) with
    | Ok (Some _) => True | Fuel => True | _ => False end.
  Proof.
    intros Hu Su Hd Sd. pose proof (go_direction_fine hav o dist fuel nu iu true su Hsim Hcom Hu Su) as F1.
    pose proof (go_direction_fine hav o dist fuel nd id false sd Hsim Hcom Hd Sd) as F2. unfold both.
    destruct (go_direction hav fuel o nu iu dist true) as [w1| | |]; cbn [bind fine] in *; try tauto.
    destruct w1; cbn [result_of fine] in *; try tauto; (destruct (go_direction hav fuel o nd id dist false) as [w2| | |]; cbn [bind fine] in *; try tauto;
      destruct w2; cbn [result_of fine] in *; tauto).
  Qed.
  Lemma find_nodes_usable fuel n :
    match find_nodes hav fuel o n dist with
    | Ok None => ~ usable o (n_id n)
    | Ok (Some _) => usable o (n_id n)
    | Fuel => usable o (n_id n)
    | _ => False
    end.
  Proof.
    unfold find_nodes. destruct (find_ways_by_node_id o (n_id n)) as [|wf [|ws [|? ?]]] eqn:Ef; cbn [map].
    - intros [H|[H _]]; apply ways_through_length in H; rewrite Ef in H; discriminate.
    - assert (Hone : usable o (n_id n)) by (left; apply ways_through_length; now rewrite Ef).
      apply one_way in Ef. destruct Ef as (Hw & Hnd & Hl & i & Hi & Hn). rewrite Hi.
      pose proof (both_fine fuel (w_nd wf) i (w_nd wf) i (n_id n) (n_id n) Hw Hn Hw Hn) as F.
      destruct (both _ _) as [[?|]| | |]; tauto.
    - assert (Htwo : ways_through o (n_id n) 2) by (apply ways_through_length; now rewrite Ef).
      apply two_ways in Ef. destruct Ef as (i & j & Hij & Hi & Hj & Ini & Inj & Honly).
      destruct (last_refs (w_nd wf)) as (f0 & fl & Hf0 & Hfl); [intros E; rewrite E in Ini; destruct Ini|].
      destruct (last_refs (w_nd ws)) as (s0 & sl & Hs0 & Hsl); [intros E; rewrite E in Inj; destruct Inj|].
      rewrite Hf0, Hfl, Hs0, Hsl. cbn [bind]. apply first_ref_ok in Hf0, Hs0. apply last_ref_ok in Hfl, Hsl.
      assert (Wf : on_way o (w_nd wf)) by (exists wf; split; [eapply nth_error_In, Hi|reflexivity]).
      assert (Ws : on_way o (w_nd ws)) by (exists ws; split; [eapply nth_error_In, Hj|reflexivity]).
      assert (Hstart : forall nds x, nth_error nds 0 = Some x -> exists l : list string, nds = x :: l).
      { intros [|y l] x E; [discriminate|]. injection E as ->. eauto. }
      destruct (String.eqb f0 (n_id n) && String.eqb sl (n_id n)) eqn:C1.
      + apply andb_true_iff in C1. destruct C1 as [C1 C2]. apply String.eqb_eq in C1, C2. subst f0 sl.
        assert (U : usable o (n_id n)).
        { right. split; [exact Htwo|]. destruct (last_split _ _ Hsl) as [l1 E1]. destruct (Hstart _ _ Hf0) as [l2 E2].
          exists j, i, ws, wf, l1, l2. repeat split; try assumption. lia. }
        pose proof (both_fine fuel _ _ _ _ _ _ Ws Hsl Wf Hf0) as F. destruct (both _ _) as [[?|]| | |]; tauto.
      + destruct (String.eqb s0 (n_id n) && String.eqb fl (n_id n)) eqn:C2.
        * apply andb_true_iff in C2. destruct C2 as [C2 C3]. apply String.eqb_eq in C2, C3. subst s0 fl.
          assert (U : usable o (n_id n)).
          { right. split; [exact Htwo|]. destruct (last_split _ _ Hfl) as [l1 E1]. destruct (Hstart _ _ Hs0) as [l2 E2].
            exists i, j, wf, ws, l1, l2. repeat split; assumption. }
          pose proof (both_fine fuel _ _ _ _ _ _ Wf Hfl Ws Hs0) as F. destruct (both _ _) as [[?|]| | |]; tauto.
        * intros [H|(_ & i' & j' & wi & wj & l1 & l2 & Hne & Hi' & Hj' & E1 & E2)].
          { pose proof (ways_through_unique _ _ _ _ H Htwo). discriminate. }
          assert (Hl1 : nth_error (w_nd wi) (List.length (w_nd wi) - 1) = Some (n_id n)) by (rewrite E1; apply last_app).
          assert (Hl2 : nth_error (w_nd wj) 0 = Some (n_id n)) by (rewrite E2; reflexivity).
          destruct (Honly i' wi Hi' (nth_error_In _ _ Hl1)) as [->| ->]; destruct (Honly j' wj Hj' (nth_error_In _ _ Hl2)) as [->| ->]; try congruence.
          -- rewrite Hi in Hi'. injection Hi' as <-. rewrite Hj in Hj'. injection Hj' as <-. rewrite Hfl in Hl1. injection Hl1 as ->. rewrite Hs0 in Hl2. injection Hl2 as ->.
             rewrite !String.eqb_refl in C2. discriminate.
          -- rewrite Hj in Hi'. injection Hi' as <-. rewrite Hi in Hj'. injection Hj' as <-. rewrite Hsl in Hl1. injection Hl1 as ->. rewrite Hf0 in Hl2. injection Hl2 as ->.
             rewrite !String.eqb_refl in C1. discriminate.
    - intros [H|[H _]]; apply ways_through_length in H; rewrite Ef in H; discriminate.
  Qed.
End Ends.

(* ---- the node both searches agree on ---- *)
Lemma Qabs_off a b : (Qabs_ (a - b) == off a b)%Q.
Proof.
  unfold Qabs_, off. destruct (Qlt_le_dec a b) as [H|H].
  - replace (Qle_bool 0 (a - b)) with false; [ring|]. symmetry. destruct (Qle_bool 0 (a - b)) eqn:E; [|reflexivity].
    apply Qle_bool_iff in E. lra.
  - replace (Qle_bool 0 (a - b)) with true; [ring|]. symmetry. apply Qle_bool_iff. lra.
Qed.
Lemma insert_pair_in x l p : In p (insert_pair x l) <-> p = x \/ In p l.
Proof.
  induction l as [|y l IH]; cbn [insert_pair]; [cbn; intuition congruence|].
  destruct (Qle_bool _ _); cbn [In]; [intuition congruence|]. rewrite IH. intuition congruence.
Qed.
Definition head_min (l : list pair_) : Prop := match l with [] => True | p :: _ => Forall (fun q => (p_dist p <= p_dist q)%Q) l end.
Lemma insert_pair_min x l : head_min l -> head_min (insert_pair x l).
Proof.
  destruct l as [|y l]; cbn [insert_pair head_min]; intros H.
  - repeat constructor. apply Qle_refl.
  - destruct (Qle_bool (p_dist x) (p_dist y)) eqn:E; cbn [head_min].
    + apply Qle_bool_iff in E. constructor; [apply Qle_refl|]. eapply Forall_impl; [|exact H]. cbn beta. intros q Hq. lra.
    + apply Qle_bool_false in E. apply Forall_forall. intros q [<-|Hq]; [apply Qle_refl|]. apply insert_pair_in in Hq. destruct Hq as [->|Hq]; [lra|].
      rewrite Forall_forall in H. apply H. now right.
Qed.
Lemma sort_pairs_min l : head_min (sort_pairs l).
Proof. induction l as [|x l IH]; [exact I|]. cbn [sort_pairs fold_right]. apply insert_pair_min, IH. Qed.
Lemma sort_pairs_in l p : In p (sort_pairs l) <-> In p l.
Proof.
  induction l as [|x l IH]; [reflexivity|]. cbn [sort_pairs fold_right]. rewrite insert_pair_in. fold (sort_pairs l). rewrite IH. cbn [In]. intuition congruence.
Qed.
Lemma node_of_unique o id a b : node_of o id a -> node_of o id b -> a = b.
Proof. intros Ha Hb. apply get_node_of in Ha, Hb. congruence. Qed.

Lemma closest_match_some hav o u1 u2 w1 w2 du1 du2 dw1 dw2 dist1 dist2 n1 n2 n3 n4 :
  node_of o u1 n1 -> node_of o u2 n2 -> node_of o w1 n3 -> node_of o w2 n4 ->
  (forall e d d', In (e, d) [(u1, du1); (w1, dw1)] -> In (e, d') [(u2, du2); (w2, dw2)] -> False) ->
  exists m, find_closest_match hav o u1 u2 w1 w2 (Qabs_ (du1 - dist1)) (Qabs_ (du2 - dist2)) (Qabs_ (dw1 - dist1)) (Qabs_ (dw2 - dist2)) = Some m /\
    chosen hav o dist1 dist2 (u1, du1) (w1, dw1) (u2, du2) (w2, dw2) m.
Proof.
  intros G1 G2 G3 G4 Hno. unfold find_closest_match.
  pose proof G1 as G1'. pose proof G2 as G2'. pose proof G3 as G3'. pose proof G4 as G4'. apply get_node_of in G1', G2', G3', G4'.
  rewrite G1', G2', G3', G4'. set (ps := [_; _; _; _]).
  pose proof (sort_pairs_min ps) as Hmin. destruct (sort_pairs ps) as [|p rest] eqn:Es.
  { exfalso. assert (In (mkpair n1 n2 (hav n1 n2) (Qabs_ (du1 - dist1)) (Qabs_ (du2 - dist2))) (sort_pairs ps)) by (apply sort_pairs_in; now left). rewrite Es in H. destruct H. }
  assert (Hp : In p ps) by (apply sort_pairs_in; rewrite Es; now left).
  assert (Hall : forall q, In q ps -> (p_dist p <= p_dist q)%Q).
  { intros q Hq. apply sort_pairs_in in Hq. rewrite Es in Hq. cbn [head_min] in Hmin. rewrite Forall_forall in Hmin. apply Hmin, Hq. }
  assert (Hpairs : forall x dx nx y dy ny, In (x, dx) [(u1, du1); (w1, dw1)] -> In (y, dy) [(u2, du2); (w2, dw2)] -> node_of o x nx -> node_of o y ny ->
    (p_dist p <= hav nx ny)%Q).
  { intros x dx nx y dy ny Hx Hy Nx Ny. cbn [In] in Hx, Hy.
    destruct Hx as [Hx|[Hx|[]]], Hy as [Hy|[Hy|[]]]; injection Hx as <- <-; injection Hy as <- <-;
      rewrite ?(node_of_unique _ _ _ _ Nx G1), ?(node_of_unique _ _ _ _ Nx G3), ?(node_of_unique _ _ _ _ Ny G2), ?(node_of_unique _ _ _ _ Ny G4).
    - apply (Hall (mkpair n1 n2 (hav n1 n2) (Qabs_ (du1 - dist1)) (Qabs_ (du2 - dist2)))). now left.
    - apply (Hall (mkpair n1 n3 (hav n1 n4) (Qabs_ (du1 - dist1)) (Qabs_ (dw2 - dist2)))). now right; left.
    - apply (Hall (mkpair n3 n2 (hav n3 n2) (Qabs_ (dw1 - dist1)) (Qabs_ (du2 - dist2)))). now right; right; left.
    - apply (Hall (mkpair n3 n4 (hav n3 n4) (Qabs_ (dw1 - dist1)) (Qabs_ (dw2 - dist2)))). now right; right; right; left. }
  unfold ps in Hp. cbn [In] in Hp.
  destruct Hp as [<-|[<-|[<-|[<-|[]]]]]; cbn [rem1 rem2 p1 p2 p_dist] in *;
    destruct (Qle_bool _ _) eqn:Ec; (eexists; split; [reflexivity|]);
    (apply Qle_bool_iff in Ec || apply Qle_bool_false in Ec); rewrite !Qabs_off in Ec;
    try (right; left; split; [exact Hno|];
         first [ exists u1, du1, n1, u2, du2, n2; repeat split; try assumption; try (cbn; tauto); (left; split; [exact Ec|reflexivity]) || (right; split; [exact Ec|reflexivity])
               | exists u1, du1, n1, w2, dw2, n4; repeat split; try assumption; try (cbn; tauto); (left; split; [exact Ec|reflexivity]) || (right; split; [exact Ec|reflexivity])
               | exists w1, dw1, n3, u2, du2, n2; repeat split; try assumption; try (cbn; tauto); (left; split; [exact Ec|reflexivity]) || (right; split; [exact Ec|reflexivity])
               | exists w1, dw1, n3, w2, dw2, n4; repeat split; try assumption; try (cbn; tauto); (left; split; [exact Ec|reflexivity]) || (right; split; [exact Ec|reflexivity]) ]; fail).
  right. right. cbn [fst snd]. repeat split; try assumption. exists n1, n4. auto.
Qed.

Section New.
  Variable hav : node -> node -> Q.
  Variable o : osm.
  Hypothesis Hsim : simple_ways o.
  Hypothesis Hsep : separate_ways o.
  Hypothesis Hcom : complete o.
  Hypothesis Hmeet : meet_at_ends o.

  Lemma usable_on id : usable o id -> exists w, In w (o_ways o) /\ In id (w_nd w).
  Proof.
    intros [H|[H _]]; destruct H as (pl & _ & Hl & Hp); (destruct pl as [|i pl]; [discriminate|]);
      (destruct (proj1 (Hp i) (or_introl eq_refl)) as (w & Hw & Hin); exists w; split; [eapply nth_error_In, Hw|exact Hin]).
  Qed.
  Lemma next_in_in nds a b : next_in nds a b -> In a nds /\ In b nds.
  Proof. intros (pre & post & [-> | ->]); split; apply in_or_app; right; cbn; tauto. Qed.
  Lemma run_node dist id l e d : usable o id -> run hav o dist id l e d -> exists n, node_of o e n.
  Proof.
    intros Hu (Ht & Hh & _). destruct l as [|x l]; cbn [app] in *.
    - injection Hh as <-. destruct (usable_on _ Hu) as (w & Hw & Hin). eapply Hcom; eassumption.
    - injection Hh as <-. inversion Ht as [a Ha|a b na nb l0 d0 H1 H2 H3 H4 H5 Ha]; [destruct l; discriminate|]. eauto.
  Qed.

  Lemma find_new_node_spec fuel n1 n2 d1 d2 :
    match find_new_node hav fuel o n1 n2 d1 d2 with
    | Ok (Found m) => (d1 == 0)%Q /\ m = n1 \/
        ~ (d1 == 0)%Q /\ usable o (n_id n1) /\ usable o (n_id n2) /\
        exists u1 du1 w1 dw1 u2 du2 w2 dw2,
          both_ends hav o d1 (n_id n1) u1 du1 w1 dw1 /\ both_ends hav o d2 (n_id n2) u2 du2 w2 dw2 /\
          chosen hav o d1 d2 (u1, du1) (w1, dw1) (u2, du2) (w2, dw2) m
    | Ok (Insufficient id) => ~ (d1 == 0)%Q /\
        (id = n_id n1 /\ ~ usable o (n_id n1) \/ id = n_id n2 /\ usable o (n_id n1) /\ ~ usable o (n_id n2))
    | Fuel => ~ (d1 == 0)%Q
    | _ => False
    end.
  Proof.
    unfold find_new_node. destruct (Qeq_bool d1 0) eqn:E0; [left; split; [apply Qeq_bool_iff, E0|reflexivity]|].
    assert (N0 : ~ (d1 == 0)%Q) by (intros H; apply Qeq_bool_iff in H; congruence).
    pose proof (find_nodes_usable hav o d1 Hsim Hcom Hmeet fuel n1) as U1. pose proof (find_nodes_usable hav o d2 Hsim Hcom Hmeet fuel n2) as U2.
    destruct (find_nodes hav fuel o n1 d1) as [r1| | |] eqn:F1; cbn [bind]; try contradiction; [|exact N0].
    destruct (find_nodes hav fuel o n2 d2) as [r2| | |] eqn:F2; cbn [bind]; try contradiction; [|exact N0].
    destruct r1 as [[[[u1 du1] w1] dw1]|]; [|split; [exact N0|left; auto]].
    destruct r2 as [[[[u2 du2] w2] dw2]|]; [|split; [exact N0|right; auto]].
    apply find_nodes_ends in F1; [|assumption|assumption]. apply find_nodes_ends in F2; [|assumption|assumption].
    assert (N : (exists n, node_of o u1 n) /\ (exists n, node_of o w1 n) /\ (exists n, node_of o u2 n) /\ (exists n, node_of o w2 n)).
    { destruct F1 as (l1 & l2 & R1 & R2 & _). destruct F2 as (l3 & l4 & R3 & R4 & _).
      repeat split; [exact (run_node _ _ _ _ _ U1 R1)|exact (run_node _ _ _ _ _ U1 R2)|exact (run_node _ _ _ _ _ U2 R3)|exact (run_node _ _ _ _ _ U2 R4)]. }
    destruct N as ([nu1 N1] & [nw1 N2] & [nu2 N3] & [nw2 N4]).
    assert (Hf : forall m, chosen hav o d1 d2 (u1, du1) (w1, dw1) (u2, du2) (w2, dw2) m ->
      (d1 == 0)%Q /\ m = n1 \/ ~ (d1 == 0)%Q /\ usable o (n_id n1) /\ usable o (n_id n2) /\
        exists u1 du1 w1 dw1 u2 du2 w2 dw2,
          both_ends hav o d1 (n_id n1) u1 du1 w1 dw1 /\ both_ends hav o d2 (n_id n2) u2 du2 w2 dw2 /\
          chosen hav o d1 d2 (u1, du1) (w1, dw1) (u2, du2) (w2, dw2) m).
    { intros m Hm. right. repeat split; try assumption. exists u1, du1, w1, dw1, u2, du2, w2, dw2. auto. }
    destruct (String.eqb u1 u2 || String.eqb u1 w2) eqn:C1.
    - pose proof N1 as N1'. apply get_node_of in N1'. rewrite N1'. apply Hf. left. exists u1, du1.
      apply orb_true_iff in C1. destruct C1 as [C|C]; apply String.eqb_eq in C; subst u1; [exists du2|exists dw2]; repeat split; try (cbn; tauto); assumption.
    - destruct (String.eqb w1 u2 || String.eqb w1 w2) eqn:C2.
      + pose proof N2 as N2'. apply get_node_of in N2'. rewrite N2'. apply Hf. left. exists w1, dw1.
        apply orb_true_iff in C2. destruct C2 as [C|C]; apply String.eqb_eq in C; subst w1; [exists du2|exists dw2]; repeat split; try (cbn; tauto); assumption.
      + apply orb_false_iff in C1. destruct C1 as [C1 C1']. apply orb_false_iff in C2. destruct C2 as [C2 C2'].
        apply String.eqb_neq in C1, C1', C2, C2'.
        destruct (closest_match_some hav o u1 u2 w1 w2 du1 du2 dw1 dw2 d1 d2 nu1 nu2 nw1 nw2 N1 N3 N2 N4) as (m & -> & Hm).
        * intros e d d' H1 H2. cbn [In] in H1, H2. destruct H1 as [H1|[H1|[]]], H2 as [H2|[H2|[]]]; injection H1 as <- <-; injection H2 as H2 _; congruence.
        * apply Hf, Hm.
  Qed.

  (* ---- the best node ---- *)
  Variable km : Q.

  Lemma anchor_node_ok a : snd a <> [] -> exists n, anchor_is a n /\ anchor_node km a = Ok (n, Qabs_ (fst a - km)).
  Proof. unfold anchor_node, anchor_is. destruct (snd a) as [|n l]; [congruence|]. intros _. exists n. eauto. Qed.
  Lemma anchor_is_fun a n m : anchor_is a n -> anchor_is a m -> n = m.
  Proof. intros [l H] [l' H']. congruence. Qed.

  Lemma try_anchors_spec fuel : forall rest P U b1 b2 n1 n2 err,
    Permutation P (b1 :: b2 :: U) -> Forall (bad o) U -> Forall (far km) (P ++ rest) -> Forall (fun a => snd a <> []) (P ++ rest) ->
    anchor_is b1 n1 -> anchor_is b2 n2 ->
    find_new_node hav fuel o n1 n2 (Qabs_ (fst b1 - km)) (Qabs_ (fst b2 - km)) = Ok err ->
    match try_anchors hav fuel o km (n1, Qabs_ (fst b1 - km)) (n2, Qabs_ (fst b2 - km)) rest err with
    | Ok (Some m) => exists P' rest' U' c1 c2, P ++ rest = P' ++ rest' /\ Permutation P' (c1 :: c2 :: U') /\ Forall (bad o) U' /\
        good o c1 /\ good o c2 /\ from_pair hav o km c1 c2 m
    | Ok None => exists c U', Permutation (P ++ rest) (c :: U') /\ Forall (bad o) U'
    | Fuel => True
    | _ => False
    end.
  Proof.
    induction rest as [|a rest IH]; intros P U b1 b2 n1 n2 err HP HU Hfar Hne H1 H2 Herr.
    - pose proof (find_new_node_spec fuel n1 n2 (Qabs_ (fst b1 - km)) (Qabs_ (fst b2 - km))) as S. rewrite Herr in S.
      assert (F1 : far km b1). { rewrite Forall_forall in Hfar. apply Hfar. rewrite app_nil_r. eapply Permutation_in; [symmetry; exact HP|now left]. }
      destruct err as [m|id| |]; cbn [try_anchors]; try contradiction.
      + destruct S as [[E _]|(_ & U1 & U2 & Hm)]; [exfalso; apply F1; rewrite <- Qabs_off; exact E|].
        exists P, [], U, b1, b2. repeat split; try assumption; [exists n1; auto|exists n2; auto|].
        exists n1, n2. split; [exact H1|]. split; [exact H2|]. exists (Qabs_ (fst b1 - km)), (Qabs_ (fst b2 - km)). split; [apply Qabs_off|]. split; [apply Qabs_off|]. exact Hm.
      + rewrite app_nil_r. destruct S as (_ & [[_ Hb]|(_ & _ & Hb)]).
        * exists b2, (b1 :: U). split; [rewrite HP; apply perm_swap|]. constructor; [|exact HU]. intros n Hn. now rewrite (anchor_is_fun _ _ _ Hn H1).
        * exists b1, (b2 :: U). split; [exact HP|]. constructor; [|exact HU]. intros n Hn. now rewrite (anchor_is_fun _ _ _ Hn H2).
    - pose proof (find_new_node_spec fuel n1 n2 (Qabs_ (fst b1 - km)) (Qabs_ (fst b2 - km))) as S. rewrite Herr in S.
      assert (F1 : far km b1). { rewrite Forall_forall in Hfar. apply Hfar. apply in_or_app. left. eapply Permutation_in; [symmetry; exact HP|now left]. }
      destruct err as [m|id| |]; try contradiction.
      + cbn [try_anchors]. destruct S as [[E _]|(_ & U1 & U2 & Hm)]; [exfalso; apply F1; rewrite <- Qabs_off; exact E|].
        exists P, (a :: rest), U, b1, b2. repeat split; try assumption; [exists n1; auto|exists n2; auto|].
        exists n1, n2. split; [exact H1|]. split; [exact H2|]. exists (Qabs_ (fst b1 - km)), (Qabs_ (fst b2 - km)). split; [apply Qabs_off|]. split; [apply Qabs_off|]. exact Hm.
      + cbn [try_anchors fst snd]. assert (Ha : snd a <> []). { rewrite Forall_forall in Hne. apply Hne. apply in_or_app. right. now left. }
        destruct (anchor_node_ok a Ha) as (n & Hn & En). rewrite En. cbn [bind fst snd].
        assert (Eapp : P ++ a :: rest = (P ++ [a]) ++ rest) by (rewrite <- app_assoc; reflexivity). rewrite Eapp in *.
        assert (Step : forall c1 c2 m1 m2 V, anchor_is c1 m1 -> anchor_is c2 m2 -> Permutation (P ++ [a]) (c1 :: c2 :: V) -> Forall (bad o) V ->
          match (do r <- find_new_node hav fuel o m1 m2 (Qabs_ (fst c1 - km)) (Qabs_ (fst c2 - km));
                 try_anchors hav fuel o km (m1, Qabs_ (fst c1 - km)) (m2, Qabs_ (fst c2 - km)) rest r) with
          | Ok (Some m) => exists P' rest' U' c1 c2, (P ++ [a]) ++ rest = P' ++ rest' /\ Permutation P' (c1 :: c2 :: U') /\ Forall (bad o) U' /\
              good o c1 /\ good o c2 /\ from_pair hav o km c1 c2 m
          | Ok None => exists c U', Permutation ((P ++ [a]) ++ rest) (c :: U') /\ Forall (bad o) U'
          | Fuel => True
          | _ => False end).
        { intros c1 c2 m1 m2 V G1 G2 HV HbV. pose proof (find_new_node_spec fuel m1 m2 (Qabs_ (fst c1 - km)) (Qabs_ (fst c2 - km))) as S'.
          destruct (find_new_node hav fuel o m1 m2 (Qabs_ (fst c1 - km)) (Qabs_ (fst c2 - km))) as [r| | |] eqn:Er; cbn [bind]; try contradiction; [|exact I].
          exact (IH (P ++ [a]) V c1 c2 m1 m2 r HV HbV Hfar Hne G1 G2 Er). }
        destruct S as (_ & [[-> Hb]|(-> & Hg & Hb)]).
        * rewrite String.eqb_refl. apply (Step a b2 n n2 (b1 :: U)); try assumption.
          -- rewrite HP. change (a :: b2 :: b1 :: U) with ([a] ++ b2 :: b1 :: U). rewrite (Permutation_app_comm _ [a]). apply Permutation_app_head, perm_swap.
          -- constructor; [|exact HU]. intros x Hx. now rewrite (anchor_is_fun _ _ _ Hx H1).
        * destruct (String.eqb_spec (n_id n2) (n_id n1)) as [E|E]; [rewrite E in Hb; contradiction|].
          apply (Step b1 a n1 n (b2 :: U)); try assumption.
          -- rewrite HP. change ((b1 :: b2 :: U) ++ [a]) with (b1 :: (b2 :: U) ++ [a]). apply perm_skip. rewrite Permutation_app_comm. reflexivity.
          -- constructor; [|exact HU]. intros x Hx. now rewrite (anchor_is_fun _ _ _ Hx H2).
  Qed.

  (* ---- the anchors in order ---- *)
  Lemma Qabs_sym a b : (Qabs_ (a - b) == Qabs_ (b - a))%Q.
  Proof.
    rewrite !Qabs_off. unfold off. destruct (Qlt_le_dec a b), (Qlt_le_dec b a); lra.
  Qed.
  Lemma insert_anchor_perm x l : Permutation (insert_anchor km x l) (x :: l).
  Proof.
    induction l as [|y l IH]; cbn [insert_anchor]; [reflexivity|]. destruct (Qle_bool _ _); [reflexivity|]. rewrite IH. apply perm_swap.
  Qed.
  Lemma insert_anchor_sorted x l : StronglySorted (nearer km) l -> StronglySorted (nearer km) (insert_anchor km x l).
  Proof.
    assert (Hn : forall a b, Qle_bool (Qabs_ (km - fst a)) (Qabs_ (km - fst b)) = true <-> nearer km a b).
    { intros a b. unfold nearer. rewrite Qle_bool_iff, (Qabs_sym km (fst a)), (Qabs_sym km (fst b)), !Qabs_off. reflexivity. }
    induction l as [|y l IH]; intros H; cbn [insert_anchor]; [repeat constructor|]. inversion H as [|? ? Hl Hf]; subst.
    destruct (Qle_bool _ _) eqn:E.
    - apply Hn in E. constructor; [exact H|]. constructor; [exact E|]. eapply Forall_impl; [|exact Hf]. intros z Hz. unfold nearer in *. eapply Qle_trans; eassumption.
    - constructor; [apply IH, Hl|]. apply Forall_forall. intros z Hz. apply (Permutation_in _ (insert_anchor_perm x l)) in Hz. destruct Hz as [<-|Hz].
      + apply Hn. apply Qle_bool_iff. apply Qle_bool_false in E. apply Qlt_le_weak, E.
      + rewrite Forall_forall in Hf. apply Hf, Hz.
  Qed.
  Lemma sort_anchors_ok order : Permutation order (sort_anchors order km) /\ StronglySorted (nearer km) (sort_anchors order km).
  Proof.
    induction order as [|x l [IH1 IH2]]; cbn [sort_anchors fold_right]; [split; [reflexivity|constructor]|]. fold (sort_anchors l km). split.
    - rewrite insert_anchor_perm. apply perm_skip, IH1.
    - apply insert_anchor_sorted, IH2.
  Qed.
  Lemma pick_two {A} (P : list A) c1 c2 U : Permutation P (c1 :: c2 :: U) ->
    exists pre mid post a b, P = pre ++ a :: mid ++ b :: post /\ (a = c1 /\ b = c2 \/ a = c2 /\ b = c1) /\ Permutation (pre ++ mid ++ post) U.
  Proof.
    intros H. assert (H1 : In c1 P) by (eapply Permutation_in; [symmetry; exact H|now left]). apply in_split in H1. destruct H1 as (l1 & l2 & ->).
    apply Permutation_sym, Permutation_cons_app_inv, Permutation_sym in H.
    assert (H2 : In c2 (l1 ++ l2)) by (eapply Permutation_in; [symmetry; exact H|now left]). apply in_app_or in H2. destruct H2 as [H2|H2]; apply in_split in H2; destruct H2 as (l3 & l4 & ->).
    - exists l3, l4, l2, c2, c1. rewrite <- !app_assoc in *. cbn [app] in *. repeat split; [auto|].
      apply Permutation_sym, Permutation_cons_app_inv, Permutation_sym in H. exact H.
    - exists l1, l3, l4, c1, c2. repeat split; [auto|]. rewrite app_assoc in H.
      apply Permutation_sym, Permutation_cons_app_inv, Permutation_sym in H. now rewrite <- app_assoc in H.
  Qed.

  Lemma off_nonneg a b : (0 <= off a b)%Q.
  Proof. unfold off. destruct (Qlt_le_dec a b); lra. Qed.
  Lemma far_all a s : StronglySorted (nearer km) (a :: s) -> far km a -> Forall (far km) (a :: s).
  Proof.
    intros H F. inversion H as [|? ? Hs Hf]; subst. constructor; [exact F|]. eapply Forall_impl; [|exact Hf]. intros z Hz E. unfold nearer in Hz.
    apply F. pose proof (off_nonneg (fst a) km). rewrite E in Hz. apply Qle_antisym; assumption.
  Qed.
  Lemma find_best_spec fuel order : Forall (fun a => snd a <> []) order -> 2 <= List.length order ->
    match find_best_osm_node hav fuel o order km with
    | Ok (Some m) => exists s, Permutation order s /\ StronglySorted (nearer km) s /\
        ((exists a s', s = a :: s' /\ (fst a == km)%Q /\ anchor_is a m) \/
         exists pre mid post a b, s = pre ++ a :: mid ++ b :: post /\ Forall (bad o) pre /\ Forall (bad o) mid /\ good o a /\ good o b /\
           (from_pair hav o km a b m \/ from_pair hav o km b a m))
    | Ok None => exists c U, Permutation order (c :: U) /\ Forall (bad o) U
    | Fuel => True
    | _ => False
    end.
  Proof.
    intros Hne Hlen. unfold find_best_osm_node. destruct (sort_anchors_ok order) as [Hp Hs].
    pose proof (Permutation_length Hp) as Hl. assert (Hne' : Forall (fun a => snd a <> []) (sort_anchors order km)) by (rewrite <- Hp; exact Hne).
    destruct (sort_anchors order km) as [|b1 [|b2 rest]]; cbn [List.length] in Hl; try lia.
    inversion Hne' as [|? ? Ne1 Ht]; subst. inversion Ht as [|? ? Ne2 _]; subst.
    destruct (anchor_node_ok b1 Ne1) as (n1 & A1 & ->). destruct (anchor_node_ok b2 Ne2) as (n2 & A2 & ->). cbn [bind fst snd].
    destruct (Qeq_bool (Qabs_ (fst b1 - km)) 0) eqn:E0.
    - unfold find_new_node. rewrite E0. cbn [bind]. assert (Et : forall a1 a2, try_anchors hav fuel o km a1 a2 rest (Found n1) = Ok (Some n1)) by (destruct rest; reflexivity).
      rewrite Et. exists (b1 :: b2 :: rest). split; [exact Hp|]. split; [exact Hs|]. left. exists b1, (b2 :: rest). repeat split; [|exact A1].
      apply Qeq_bool_iff in E0. rewrite Qabs_off in E0. unfold off in E0. destruct (Qlt_le_dec (fst b1) km); lra.
    - assert (Hfar : Forall (far km) (b1 :: b2 :: rest)).
      { apply far_all; [exact Hs|]. intros E. rewrite <- Qabs_off in E. apply Qeq_bool_iff in E. congruence. }
      pose proof (find_new_node_spec fuel n1 n2 (Qabs_ (fst b1 - km)) (Qabs_ (fst b2 - km))) as S.
      destruct (find_new_node hav fuel o n1 n2 (Qabs_ (fst b1 - km)) (Qabs_ (fst b2 - km))) as [r| | |] eqn:Er; cbn [bind]; try contradiction; [|exact I].
      pose proof (try_anchors_spec fuel rest [b1; b2] [] b1 b2 n1 n2 r (Permutation_refl _) (Forall_nil _) Hfar Hne' A1 A2 Er) as T.
      destruct (try_anchors hav fuel o km (n1, Qabs_ (fst b1 - km)) (n2, Qabs_ (fst b2 - km)) rest r) as [[m|]| | |]; try exact T.
      + destruct T as (P & rest' & U & c1 & c2 & EP & HP & HU & G1 & G2 & HF). exists (b1 :: b2 :: rest). split; [exact Hp|]. split; [exact Hs|]. right.
        destruct (pick_two _ _ _ _ HP) as (pre & mid & post & a & b & -> & Hab & HPU). exists pre, mid, (post ++ rest'), a, b.
        assert (HB : Forall (bad o) (pre ++ mid ++ post)) by (rewrite HPU; exact HU). apply Forall_app in HB. destruct HB as [HB1 HB2]. apply Forall_app in HB2. destruct HB2 as [HB2 _].
        split; [cbn [app] in EP; rewrite EP, <- !app_assoc; cbn [app]; now rewrite <- app_assoc|]. split; [exact HB1|]. split; [exact HB2|].
        destruct Hab as [[-> ->]|[-> ->]]; repeat split; auto.
      + destruct T as (c & U & HcU & HU). exists c, U. split; [|exact HU]. rewrite Hp. exact HcU.
  Qed.

  (* ---- the search ends ---- *)
  Lemma first_last_no_fuel nds : first_ref nds <> Fuel /\ last_ref nds <> Fuel.
  Proof. unfold first_ref, last_ref, at_. split; [destruct (nth_error nds 0); discriminate|]. destruct (_ <? _); [discriminate|]. destruct (nth_error nds _); discriminate. Qed.
  Lemma both_no_fuel u d : u <> Fuel -> d <> Fuel -> both u d <> Fuel.
  Proof.
    intros Hu Hd. unfold both. destruct u as [w| | |]; cbn [bind]; try congruence. destruct (result_of w) as [[? ?]|]; [|discriminate].
    destruct d as [v| | |]; cbn [bind]; try congruence. destruct (result_of v) as [[? ?]|]; discriminate.
  Qed.
  Variable delta : Q.
  Hypothesis Hdelta : forall a b na nb, neighbours o a b -> node_of o a na -> node_of o b nb -> (delta <= hav na nb)%Q.
  Lemma find_nodes_ends_search k n dist : (dist <= inject_Z (Z.of_nat k) * delta)%Q -> find_nodes hav (S k) o n dist <> Fuel.
  Proof.
    intros Hd. unfold find_nodes. destruct (find_ways_by_node_id o (n_id n)) as [|wf [|ws [|? ?]]] eqn:Ef; cbn [map]; try discriminate.
    - apply one_way in Ef; [|exact Hsim]. destruct Ef as (Hw & _ & _ & i & Hi & Hn). rewrite Hi.
      apply both_no_fuel; eapply go_direction_ends; eassumption.
    - apply two_ways in Ef. destruct Ef as (i & j & _ & Hi & Hj & Ini & Inj & _).
      destruct (last_refs (w_nd wf)) as (f0 & fl & Hf0 & Hfl); [intros E; rewrite E in Ini; destruct Ini|].
      destruct (last_refs (w_nd ws)) as (s0 & sl & Hs0 & Hsl); [intros E; rewrite E in Inj; destruct Inj|].
      rewrite Hf0, Hfl, Hs0, Hsl. cbn [bind]. apply first_ref_ok in Hf0, Hs0. apply last_ref_ok in Hfl, Hsl.
      assert (Wf : on_way o (w_nd wf)) by (exists wf; split; [eapply nth_error_In, Hi|reflexivity]).
      assert (Ws : on_way o (w_nd ws)) by (exists ws; split; [eapply nth_error_In, Hj|reflexivity]).
      destruct (_ && _); [apply both_no_fuel; eapply go_direction_ends; eassumption|].
      destruct (_ && _); [apply both_no_fuel; eapply go_direction_ends; eassumption|discriminate].
  Qed.
  Lemma find_new_node_ends k n1 n2 d1 d2 : (d1 <= inject_Z (Z.of_nat k) * delta)%Q -> (d2 <= inject_Z (Z.of_nat k) * delta)%Q ->
    find_new_node hav (S k) o n1 n2 d1 d2 <> Fuel.
  Proof.
    intros H1 H2. apply (find_nodes_ends_search k n1) in H1. apply (find_nodes_ends_search k n2) in H2. unfold find_new_node. destruct (Qeq_bool d1 0); [discriminate|].
    destruct (find_nodes hav (S k) o n1 d1) as [r1| | |]; cbn [bind]; try congruence. destruct (find_nodes hav (S k) o n2 d2) as [r2| | |]; cbn [bind]; try congruence.
    destruct r1 as [[[[? ?] ?] ?]|]; [|discriminate]. destruct r2 as [[[[? ?] ?] ?]|]; [|discriminate].
    repeat match goal with |- context [if ?c then _ else _] => destruct c end; discriminate.
  Qed.
  Lemma anchor_node_far a x : anchor_node km a = Ok x -> (snd x == off (fst a) km)%Q.
  Proof. unfold anchor_node. destruct (snd a); [discriminate|]. intros H. injection H as <-. apply Qabs_off. Qed.
  Lemma anchor_node_no_fuel a : anchor_node km a <> Fuel.
  Proof. unfold anchor_node. destruct (snd a); discriminate. Qed.
  Lemma try_anchors_ends k : forall rest a1 a2 err, Forall (fun a => (off (fst a) km <= inject_Z (Z.of_nat k) * delta)%Q) rest ->
    (snd a1 <= inject_Z (Z.of_nat k) * delta)%Q -> (snd a2 <= inject_Z (Z.of_nat k) * delta)%Q ->
    try_anchors hav (S k) o km a1 a2 rest err <> Fuel.
  Proof.
    induction rest as [|a rest IH]; intros a1 a2 err HF H1 H2; [destruct err; discriminate|]. inversion HF as [|? ? Ha HF']; subst.
    assert (Hgo : forall c1 c2, (snd c1 <= inject_Z (Z.of_nat k) * delta)%Q -> (snd c2 <= inject_Z (Z.of_nat k) * delta)%Q ->
      (do r <- find_new_node hav (S k) o (fst c1) (fst c2) (snd c1) (snd c2); try_anchors hav (S k) o km c1 c2 rest r) <> Fuel).
    { intros c1 c2 C1 C2. pose proof (find_new_node_ends k (fst c1) (fst c2) (snd c1) (snd c2) C1 C2) as N.
      destruct (find_new_node hav (S k) o (fst c1) (fst c2) (snd c1) (snd c2)) as [r| | |]; cbn [bind]; try congruence. apply IH; assumption. }
    destruct err as [m|id| |]; cbn [try_anchors]; try discriminate;
      (destruct (anchor_node km a) as [x| | |] eqn:Ex; cbn [bind]; try discriminate; [|exfalso; eapply anchor_node_no_fuel, Ex]);
      (apply anchor_node_far in Ex; rewrite <- Ex in Ha).
    - destruct (String.eqb id (n_id (fst a1))); apply Hgo; assumption.
    - apply Hgo; assumption.
  Qed.
  Lemma find_best_ends k order : Forall (fun a => (off (fst a) km <= inject_Z (Z.of_nat k) * delta)%Q) order ->
    find_best_osm_node hav (S k) o order km <> Fuel.
  Proof.
    intros HF. unfold find_best_osm_node. destruct (sort_anchors_ok order) as [Hp _]. rewrite Hp in HF.
    destruct (sort_anchors order km) as [|b1 [|b2 rest]]; try discriminate. inversion HF as [|? ? H1 HF1]; subst. inversion HF1 as [|? ? H2 HF2]; subst.
    destruct (anchor_node km b1) as [a1| | |] eqn:E1; cbn [bind]; try discriminate; [|exfalso; eapply anchor_node_no_fuel, E1].
    destruct (anchor_node km b2) as [a2| | |] eqn:E2; cbn [bind]; try discriminate; [|exfalso; eapply anchor_node_no_fuel, E2].
    apply anchor_node_far in E1, E2. rewrite <- E1 in H1. rewrite <- E2 in H2. pose proof (find_new_node_ends k (fst a1) (fst a2) (snd a1) (snd a2) H1 H2) as N.
    destruct (find_new_node hav (S k) o (fst a1) (fst a2) (snd a1) (snd a2)) as [r| | |]; cbn [bind]; try congruence. apply try_anchors_ends; assumption.
  Qed.
End New.
