From Coq Require Import String List QArith ZArith NArith Bool Lia Permutation.
From Verif Require Import Base GenOsmModel GenOsmSpec GenOsmProofs GenFindModel GenFindSpec GenMapModel GenMapSpec GenMapProofs GenMapProofs2 GenMapProofs3.
Import ListNotations.
Local Open Scope list_scope.
Local Open Scope nat_scope.

(* ---- identifying switches ---- *)
Lemma tag_value_first n k v : v <> ""%string -> (tag_value n k = v <-> first_tag k v (n_tags n)).
Proof.
  intros Hv. unfold tag_value, find_tag_on_node. rewrite first_tag_find. destruct (find_tag (n_tags n) k) as [w|].
  - split; [intros ->; reflexivity|]. intros E. inversion E. reflexivity.
  - split; [intros E; congruence|discriminate].
Qed.
Lemma switch_matches_iff name n : name <> ""%string -> (switch_matches name n = true <-> switch_node name n).
Proof.
  intros Hn. unfold switch_matches, switch_node. rewrite <- !tag_value_first by (try exact Hn; discriminate).
  destruct (n_tags n) as [|t l] eqn:E.
  - split; [discriminate|]. intros [H _]. unfold tag_value, find_tag_on_node in H. rewrite E in H. discriminate.
  - rewrite andb_true_iff, orb_true_iff, !String.eqb_eq. reflexivity.
Qed.
Lemma new_switch_no_match name s c n : switch_matches name (snd (create_named_simple_node c n "simple_switch" s)) = false.
Proof. reflexivity. Qed.
Lemma anchored_app o o' m km n : (exists extra, o_nodes o' = o_nodes o ++ extra) -> anchored o m km n -> anchored o' m km n.
Proof.
  intros (extra & E) (k & l & i & H1 & H2 & H3 & H4). exists k, l, i. rewrite E, nth_error_app1; [auto|]. apply nth_error_Some. congruence.
Qed.
Lemma anchored_add o m km i k n : anchored o m k n -> anchored o (anchor_add m km i) k n.
Proof.
  intros (k0 & l & j & H1 & H2 & H3 & H4). destruct (anchor_add_old m km i _ _ _ H1 H3) as (l' & A & B). exists k0, l', j. auto.
Qed.
Lemma anchored_add_new o m km i n : nth_error (o_nodes o) i = Some n -> anchored o (anchor_add m km i) km n.
Proof. intros H. destruct (anchor_add_new m km i) as (k & l & A & B & C). exists k, l, i. auto. Qed.
Lemma anchored_add_inv o m km i k n : anchored o (anchor_add m km i) k n -> anchored o m k n \/ (k == km)%Q /\ nth_error (o_nodes o) i = Some n.
Proof.
  intros (k1 & l1 & j & A1 & A2 & A3 & A4). apply anchor_add_in in A1.
  destruct A1 as [[A1 _]|[[A1 [[-> _]|(l0 & A5 & ->)]]|A1]].
  - left. exists k1, l1, j. auto.
  - right. destruct A3 as [<-|[]]. split; [rewrite <- A2; exact A1|exact A4].
  - apply in_app_or in A3. destruct A3 as [A3|[<-|[]]]; [left; exists k1, l0, j; auto|right; split; [rewrite <- A2; exact A1|exact A4]].
  - left. exists k1, l1, j. auto.
Qed.
Lemma positions_first {A} (p : A -> bool) l : match positions p 0 l with
  | [] => forall x, In x l -> p x = false
  | i :: _ => exists x, nth_error l i = Some x /\ p x = true end.
Proof.
  pose proof (positions_spec p l 0) as H. destruct (positions p 0 l) as [|i r].
  - intros x Hx. destruct (p x) eqn:E; [|reflexivity]. exfalso. apply In_nth_error in Hx. destruct Hx as (j & Hj).
    apply (H j). exists x. rewrite Nat.sub_0_r. split; [lia|auto].
  - destruct (proj1 (H i) (or_introl eq_refl)) as (x & _ & Hx & Hp). rewrite Nat.sub_0_r in Hx. eauto.
Qed.

(* a node put in keeps what lies beside what *)
Lemma insert_beside o new ref : put_beside o (insert_new_node o new ref) new ref.
Proof.
  split; [reflexivity|]. cbn [insert_new_node o_ways]. induction (o_ways o) as [|w ws IH]; cbn [map]; constructor; [|exact IH]. cbn [w_tags w_id w_nd].
  split; [reflexivity|]. split; [reflexivity|]. apply insert_ref_beside.
Qed.
Lemma same_ways_insert o new ref a b : a <> n_id new -> b <> n_id new -> same_ways o a b -> same_ways (insert_new_node o new ref) a b.
Proof.
  intros Ha Hb H w1 Hw1. destruct (insert_beside o new ref) as [_ HF]. destruct (Forall2_in_right _ _ _ _ HF Hw1) as (w & Hw & _ & _ & Hbs).
  pose proof (beside_grown _ _ _ _ Hbs) as G. rewrite (grown_in _ _ _ _ G) by (intros [E|[]]; congruence). rewrite (grown_in _ _ _ _ G) by (intros [E|[]]; congruence).
  apply H, Hw.
Qed.
Lemma same_ways_new o new ref : fresh_in o new -> same_ways (insert_new_node o new ref) (n_id new) (n_id ref).
Proof.
  intros (_ & F) w1 Hw1. destruct (insert_beside o new ref) as [_ HF]. destruct (Forall2_in_right _ _ _ _ HF Hw1) as (w & Hw & _ & _ & Hbs).
  apply (beside_same _ _ _ _ Hbs), F, Hw.
Qed.

Definition no_match (o : osm) (s : elem) : Prop := forall n, In n (o_nodes o) -> switch_matches (e_name s) n = false.
Definition has_match (o : osm) (s : elem) : Prop := exists n, In n (o_nodes o) /\ switch_matches (e_name s) n = true.
Definition placed_sw (o : osm) (m : places_map) (s : elem) : Prop :=
  exists n new, anchored o m (e_km s) n /\ switch_matches (e_name s) n = true /\
    In new (o_nodes o) /\ n_tags new = element_tags "simple_switch" [name_tag s] /\ n_lat new = n_lat n /\ n_lon new = n_lon n /\
    same_ways o (n_id new) (n_id n).
Lemma switches_spec : forall l b st, unused (a_osm st) (a_id st) -> exists st', anchor_switches l b st = Ok st' /\ unused (a_osm st') (a_id st') /\
  (exists extra, o_nodes (a_osm st') = o_nodes (a_osm st) ++ extra /\ Forall (fun n => forall name, switch_matches name n = false) extra) /\
  (forall km n, anchored (a_osm st) (a_anchors st) km n -> anchored (a_osm st') (a_anchors st') km n) /\
  (forall km n, anchored (a_osm st') (a_anchors st') km n -> anchored (a_osm st) (a_anchors st) km n \/ (exists k ls i, In (k, ls) (a_anchors st) /\ In i ls /\ nth_error (o_nodes (a_osm st)) i = None) \/
     exists s, In s l /\ (km == e_km s)%Q /\ switch_matches (e_name s) n = true) /\
  (forall s, In s l -> has_match (a_osm st) s -> placed_sw (a_osm st') (a_anchors st') s) /\
  (forall s, placed_sw (a_osm st) (a_anchors st) s -> placed_sw (a_osm st') (a_anchors st') s) /\
  (forall pre s post, b = false -> l = pre ++ s :: post -> (forall s', In s' (pre ++ [s]) -> no_match (a_osm st) s') -> In s (a_missing st')) /\
  (forall e, In e (a_missing st) -> In e (a_missing st')) /\
  (forall e, In e (a_missing st') -> In e (a_missing st) \/ In e l /\ no_match (a_osm st) e).
Proof.
  induction l as [|s l IH]; intros b st Hu; cbn [anchor_switches].
  - exists st. split; [reflexivity|]. split; [exact Hu|]. split; [exists []; rewrite app_nil_r; auto|]. split; [auto|]. split; [auto|]. split; [intros s []|].
    split; [auto|]. split; [intros pre s post _ E; destruct pre; discriminate|]. auto.
  - pose proof (positions_first (switch_matches (e_name s)) (o_nodes (a_osm st))) as Hp.
    destruct (positions (switch_matches (e_name s)) 0 (o_nodes (a_osm st))) as [|i rest].
    + set (st1 := if b then st else mkas (a_osm st) (a_anchors st) (a_missing st ++ [s]) (a_conflicts st) (a_count st) (a_id st) (a_signals st)).
      assert (E1 : a_osm st1 = a_osm st) by (destruct b; reflexivity). assert (E2 : a_anchors st1 = a_anchors st) by (destruct b; reflexivity).
      assert (E3 : a_id st1 = a_id st) by (destruct b; reflexivity).
      assert (Hm : forall e, In e (a_missing st) -> In e (a_missing st1)) by (intros e He; unfold st1; destruct b; [exact He|]; cbn [a_missing]; apply in_or_app; left; exact He).
      destruct (IH b st1) as (st' & I0 & I1 & I2 & I3 & I4 & I5 & I6 & I7 & I8 & I9); [rewrite E1, E3; exact Hu|]. rewrite E1, E2 in *.
      exists st'. split; [exact I0|]. split; [exact I1|]. split; [exact I2|]. split; [exact I3|]. split.
      { intros km n A. destruct (I4 km n A) as [B|[B|(x & B & C)]]; [auto|auto|]. right. right. exists x. split; [right; exact B|exact C]. }
      split. { intros x [<-|Hx] Hh; [|apply I5; assumption]. destruct Hh as (n & Hn & Hs). rewrite (Hp n Hn) in Hs. discriminate. }
      split; [exact I6|]. split.
      { intros pre x post -> E Hall. destruct pre as [|y pre]; cbn in E; inversion E; subst.
        - apply I8. unfold st1. cbn [a_missing]. apply in_or_app. right. left. reflexivity.
        - apply (I7 pre x post eq_refl eq_refl). intros s' Hs'. apply Hall. right. exact Hs'. }
      split; [auto|]. intros e He. destruct (I9 e He) as [B|[B C]].
      * unfold st1 in B. destruct b; [auto|]. cbn [a_missing] in B. apply in_app_or in B. destruct B as [B|[<-|[]]]; [auto|]. right. split; [left; reflexivity|exact Hp].
      * right. split; [right; exact B|exact C].
    + destruct Hp as (n & Hn & Hs). rewrite Hn. cbn [create_named_simple_node create_simple_node].
      set (new := add_tag _ "id" (e_name s)).
      set (st1 := mkas _ _ _ _ _ _ _).
      assert (T : n_tags new = element_tags "simple_switch" [name_tag s]) by reflexivity.
      assert (Ei : n_id new = decimal (a_id st + 1)) by reflexivity.
      assert (HnotM : forall name, switch_matches name new = false) by (intros; reflexivity).
      assert (Lat : n_lat new = n_lat n) by reflexivity. assert (Lon : n_lon new = n_lon n) by reflexivity. clearbody new.
      pose proof (insert_beside (a_osm st) new n) as [Eno HF].
      assert (Hu1 : unused (a_osm st1) (a_id st1)) by exact (unused_step _ _ _ _ _ Hu Ei Eno HF).
      assert (Hfr : fresh_in (a_osm st) new).
      { split; intros x Hx; rewrite Ei; [apply (proj1 (Hu (a_id st + 1)%N ltac:(lia)))|apply (proj2 (Hu (a_id st + 1)%N ltac:(lia)))]; exact Hx. }
      assert (Enodes : o_nodes (a_osm st1) = o_nodes (a_osm st) ++ [new]) by reflexivity.
      destruct (IH true st1 Hu1) as (st' & I0 & I1 & (extra & Ee & Hex) & I3 & I4 & I5 & I6 & I7 & I8 & I9).
      assert (Hp1 : placed_sw (a_osm st1) (a_anchors st1) s).
      { exists n, new. split; [|split; [exact Hs|split; [|split; [exact T|split; [exact Lat|split; [exact Lon|]]]]]].
        - apply anchored_add_new. cbn [a_osm st1]. rewrite Eno, nth_error_app1; [exact Hn|]. apply nth_error_Some. congruence.
        - rewrite Enodes. apply in_or_app. right. left. reflexivity.
        - apply same_ways_new, Hfr. }
      assert (Hnone : forall x, no_match (a_osm st1) x <-> no_match (a_osm st) x).
      { intros x. unfold no_match. rewrite Enodes. split; intros H m Hm; [apply H, in_or_app; left; exact Hm|].
        apply in_app_or in Hm. destruct Hm as [Hm|[<-|[]]]; [apply H, Hm|apply HnotM]. }
      exists st'. split; [exact I0|]. split; [exact I1|]. split.
      { exists (new :: extra). rewrite Ee, Enodes, <- app_assoc. split; [reflexivity|]. constructor; [exact HnotM|exact Hex]. }
      split.
      { intros km m A. apply I3, anchored_add. refine (anchored_app _ _ _ _ _ _ A). exists [new]. exact Enodes. }
      split.
      { intros km m A. destruct (I4 km m A) as [B|[B|(x & B & C)]].
        - apply anchored_add_inv in B. rewrite Enodes in B. destruct B as [(k & ls & j & B1 & B2 & B3 & B4)|[B1 B2]].
          + rewrite Enodes in B4. destruct (nth_error (o_nodes (a_osm st)) j) eqn:Ej.
            * rewrite nth_error_app1 in B4 by (apply nth_error_Some; congruence). left. exists k, ls, j. split; [exact B1|]. split; [exact B2|]. split; [exact B3|congruence].
            * right. left. exists k, ls, j. auto.
          + right. right. exists s. split; [left; reflexivity|]. split; [exact B1|]. rewrite nth_error_app1 in B2 by (apply nth_error_Some; congruence). congruence.
        - right. left. destruct B as (k & ls & j & B1 & B2 & B3). rewrite Enodes in B3.
          assert (B4 : nth_error (o_nodes (a_osm st)) j = None) by (apply nth_error_None; apply nth_error_None in B3; rewrite app_length in B3; cbn in B3; lia).
          apply anchor_add_in in B1. destruct B1 as [[B1 _]|[[_ [[-> _]|(l0 & B5 & ->)]]|B1]]; [exists k, ls, j; auto| | |exists k, ls, j; auto].
          + destruct B2 as [<-|[]]. congruence.
          + apply in_app_or in B2. destruct B2 as [B2|[<-|[]]]; [exists k, l0, j; auto|congruence].
        - right. right. exists x. split; [right; exact B|exact C]. }
      split.
      { intros x [<-|Hx] Hh; [apply I6, Hp1|]. apply I5; [exact Hx|]. destruct Hh as (m & H1 & H2). exists m. split; [rewrite Enodes; apply in_or_app; left; exact H1|exact H2]. }
      split.
      { intros x (m & w & A1 & A2 & A3 & A4 & A5 & A6 & A7). apply I6. exists m, w.
        split; [apply anchored_add; refine (anchored_app _ _ _ _ _ _ A1); exists [new]; exact Enodes|]. split; [exact A2|].
        split; [rewrite Enodes; apply in_or_app; left; exact A3|]. split; [exact A4|]. split; [exact A5|]. split; [exact A6|].
        apply same_ways_insert; [apply (proj1 Hfr), A3| |exact A7].
        destruct A1 as (k & ls & j & _ & _ & _ & A1). apply (proj1 Hfr). eapply nth_error_In, A1. }
      split.
      { intros pre x post -> E Hall. destruct pre as [|y pre]; cbn in E; inversion E; subst.
        - exfalso. specialize (Hall x (or_introl eq_refl) n (nth_error_In _ _ Hn)). congruence.
        - exfalso. specialize (Hall y (or_introl eq_refl) n (nth_error_In _ _ Hn)). congruence. }
      split; [exact I8|]. intros e He. destruct (I9 e He) as [B|[B C]]; [left; exact B|]. right. split; [right; exact B|apply Hnone, C].
Qed.

(* the other ends of switches *)
Lemma partner_step s : forall nodes i st pre, o_nodes (a_osm st) = pre ++ nodes -> i = List.length pre ->
  let st' := anchor_partner s nodes i st in
  a_osm st' = a_osm st /\ a_missing st' = a_missing st /\ a_id st' = a_id st /\
  (forall km n, anchored (a_osm st) (a_anchors st) km n -> anchored (a_osm st') (a_anchors st') km n) /\
  (forall km n, anchored (a_osm st') (a_anchors st') km n -> anchored (a_osm st) (a_anchors st) km n \/ (km == e_km s)%Q /\ switch_matches (e_name s) n = true) /\
  ((exists n, In n nodes /\ switch_matches (e_name s) n = true) -> anchor_get (a_anchors st') (e_km s) <> []) /\
  (anchor_get (a_anchors st) (e_km s) <> [] -> a_anchors st' = a_anchors st).
Proof.
  induction nodes as [|n nodes IH]; intros i st pre E Ei; cbn [anchor_partner].
  - repeat split; auto. intros (n & [] & _).
  - set (st1 := if switch_matches (e_name s) n && match anchor_get (a_anchors st) (e_km s) with [] => true | _ => false end
         then mkas (a_osm st) (anchor_add (a_anchors st) (e_km s) i) (a_missing st) (a_conflicts st) (a_count st + 1) (a_id st) (a_signals st)
         else st).
    assert (E1 : a_osm st1 = a_osm st) by (unfold st1; destruct (_ && _); reflexivity).
    assert (E2 : a_missing st1 = a_missing st) by (unfold st1; destruct (_ && _); reflexivity).
    assert (E3 : a_id st1 = a_id st) by (unfold st1; destruct (_ && _); reflexivity).
    assert (Hn : nth_error (o_nodes (a_osm st)) i = Some n) by (rewrite E, Ei, nth_error_app2, Nat.sub_diag by lia; reflexivity).
    assert (Hget : forall m km j, anchor_get (anchor_add m km j) km <> []).
    { clear. intros m km j. induction m as [|[k l] m IH]; cbn [anchor_add anchor_get].
      - rewrite (proj2 (Qeq_bool_true _ _)) by reflexivity. discriminate.
      - destruct (Qeq_bool k km) eqn:Ek; cbn [anchor_get]; rewrite Ek; [destruct l; discriminate|exact IH]. }
    destruct (IH (S i) st1 (pre ++ [n])) as (I1 & I2 & I3 & I4 & I5 & I6 & I7); [rewrite E1, E, <- app_assoc; reflexivity|rewrite app_length; cbn; lia|].
    cbv zeta. rewrite I1, I2, I3. rewrite E1 in *. split; [reflexivity|]. split; [exact E2|]. split; [exact E3|]. split.
    { intros km m A. rewrite <- I1. apply I4. unfold st1. destruct (_ && _); [apply anchored_add; exact A|exact A]. }
    split.
    { intros km m A. rewrite <- I1 in A. destruct (I5 km m A) as [B|B]; [|auto]. unfold st1 in B. destruct (switch_matches (e_name s) n && _) eqn:Em; [|auto]. cbn [a_anchors] in B.
      apply anchored_add_inv in B. destruct B as [B|[B1 B2]]; [auto|]. right. split; [exact B1|]. apply andb_true_iff in Em. rewrite Hn in B2. inversion B2; subst. apply Em. }
    split.
    { intros (m & [<-|Hm] & Hs); [|apply I6; eauto]. unfold st1 in *. rewrite Hs in *. cbn [andb] in *.
      destruct (anchor_get (a_anchors st) (e_km s)) eqn:Eg.
      - rewrite I7 by (cbn [a_anchors]; apply Hget). cbn [a_anchors]. apply Hget.
      - rewrite I7 by (rewrite Eg; discriminate). rewrite Eg. discriminate. }
    intros Hg. assert (st1 = st).
    { unfold st1. destruct (anchor_get (a_anchors st) (e_km s)); [congruence|]. rewrite andb_false_r. reflexivity. }
    rewrite I7; [congruence|congruence].
Qed.
Lemma partners_spec : forall l st, let st' := fold_left (fun st s => anchor_partner s (o_nodes (a_osm st)) 0 st) l st in
  a_osm st' = a_osm st /\ a_missing st' = a_missing st /\ a_id st' = a_id st /\
  (forall km n, anchored (a_osm st) (a_anchors st) km n -> anchored (a_osm st') (a_anchors st') km n) /\
  (forall km n, anchored (a_osm st') (a_anchors st') km n -> anchored (a_osm st) (a_anchors st) km n \/ exists s, In s l /\ (km == e_km s)%Q /\ switch_matches (e_name s) n = true) /\
  (forall s, In s l -> has_match (a_osm st) s -> (forall i, In i (flat_map snd (a_anchors st)) -> nth_error (o_nodes (a_osm st)) i <> None) -> exists n, anchored (a_osm st') (a_anchors st') (e_km s) n).
Proof.
  induction l as [|s l IH]; intros st; cbn [fold_left]; cbv zeta.
  - repeat split; auto. intros s [].
  - destruct (partner_step s (o_nodes (a_osm st)) 0 st [] eq_refl eq_refl) as (P1 & P2 & P3 & P4 & P5 & P6 & P7).
    set (st1 := anchor_partner s (o_nodes (a_osm st)) 0 st) in *.
    destruct (IH st1) as (I1 & I2 & I3 & I4 & I5 & I6). cbv zeta in I1, I2, I3, I4, I5, I6.
    split; [congruence|]. split; [congruence|]. split; [congruence|]. split; [intros km n A; apply I4, P4, A|]. split.
    { intros km n A. destruct (I5 km n A) as [B|(x & B & C)]; [|right; exists x; split; [right; exact B|exact C]].
      destruct (P5 km n B) as [C|C]; [auto|]. right. exists s. split; [left; reflexivity|exact C]. }
    intros x Hx Hh Hval.
    assert (Hval1 : forall i, In i (flat_map snd (a_anchors st1)) -> nth_error (o_nodes (a_osm st1)) i <> None).
    { intros i Hi. rewrite P1. clear -Hi Hval. unfold st1 in Hi. clear st1.
      assert (G : forall nodes j st0 pre, o_nodes (a_osm st) = pre ++ nodes -> j = List.length pre -> (forall i, In i (flat_map snd (a_anchors st0)) -> nth_error (o_nodes (a_osm st)) i <> None) ->
         In i (flat_map snd (a_anchors (anchor_partner s nodes j st0))) -> nth_error (o_nodes (a_osm st)) i <> None).
      { induction nodes as [|n nodes IHn]; intros j st0 pre E Ej Hv H; cbn [anchor_partner] in H; [exact (Hv i H)|].
        refine (IHn (S j) _ (pre ++ [n]) _ _ _ H); [rewrite <- app_assoc; exact E|rewrite app_length; cbn; lia|].
        intros i0 Hi0. destruct (_ && _); [|exact (Hv i0 Hi0)]. cbn [a_anchors] in Hi0. apply (Permutation_in _ (anchor_add_flat _ _ _)) in Hi0.
        destruct Hi0 as [<-|Hi0]; [|exact (Hv i0 Hi0)]. rewrite E, Ej, nth_error_app2, Nat.sub_diag by lia. discriminate. }
      exact (G _ _ _ [] eq_refl eq_refl Hval Hi). }
    destruct Hx as [<-|Hx]; [|apply I6; [exact Hx| |exact Hval1]; rewrite P1; exact Hh].
    specialize (P6 Hh). destruct (anchor_get_in _ _ P6) as (k & Hk & Ek). destruct (anchor_get (a_anchors st1) (e_km s)) as [|i ls] eqn:Eg; [congruence|].
    assert (Hi : nth_error (o_nodes (a_osm st1)) i <> None) by (apply Hval1; eapply flat_in; [exact Hk|left; reflexivity]).
    destruct (nth_error (o_nodes (a_osm st1)) i) as [n|] eqn:En; [|congruence]. exists n. apply I4. exists k, (i :: ls), i. split; [exact Hk|]. split; [exact Ek|]. split; [left; reflexivity|exact En].
Qed.
Lemma placed_sw_iff o m s : e_name s <> ""%string -> placed_sw o m s <-> placed_switch o m s.
Proof.
  intros Hn. unfold placed_sw, placed_switch. split; intros (n & new & H1 & H2 & H3); exists n, new; (split; [exact H1|]); (split; [apply switch_matches_iff; assumption|exact H3]).
Qed.
Lemma placed_sw_more o m m' s : (forall km n, anchored o m km n -> anchored o m' km n) -> placed_sw o m s -> placed_sw o m' s.
Proof. intros H (n & new & H1 & H2). exists n, new. split; [apply H, H1|exact H2]. Qed.
