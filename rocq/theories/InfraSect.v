(* The sections of the network *)
From Coq Require Import List Bool NArith QArith Qabs Arith String Sorted Permutation Lia Lqa.
From Verif Require Import Base PhysModel TextModel InfraModel InfraOrder InfraSpec InfraHeap InfraScan InfraLay InfraLaid InfraPlace InfraAdd InfraInv InfraBorder InfraDrive InfraNet InfraSecSpec.
Import ListNotations.
Local Open Scope nat_scope.

(* ---- the comparator with meta elements ---- *)
Section META.
  Variable key : nat -> okey.
  Variable P : nat -> Prop.
  Hypothesis H1 : forall i j, P i -> P j -> tkey (key i) <> 999%Z -> tkey (key j) <> 999%Z -> spaced (k_km (key i)) (k_km (key j)).
  Hypothesis H2 : forall i, P i -> (tkey (key i) <= 999)%Z.
  Hypothesis H3 : forall a b i, P a -> P b -> P i -> tkey (key a) = 999%Z -> tkey (key b) = 999%Z -> a <> b -> i = a \/ i = b.
  Hypothesis H4 : forall i, k_id (key i) = N.of_nat i.

  Notation lt up i j := (order_impl up (key i) (key j)).

  Lemma lt_irr up i : lt up i i = false.
  Proof.
    unfold order_impl. assert (F : fuzzy_eq (k_km (key i)) (k_km (key i)) = true) by (apply fuzzy_iff; split; lra).
    rewrite F. cbn [negb]. rewrite Z.eqb_refl. cbn. apply N.ltb_irrefl.
  Qed.
  Lemma fuzzy_sym a b : fuzzy_eq a b = fuzzy_eq b a.
  Proof.
    destruct (fuzzy_eq a b) eqn:X, (fuzzy_eq b a) eqn:Y; auto; [apply fuzzy_iff in X|apply fuzzy_iff in Y];
      exfalso; [assert (fuzzy_eq b a = true) by (apply fuzzy_iff; tauto)|assert (fuzzy_eq a b = true) by (apply fuzzy_iff; tauto)]; congruence.
  Qed.
  Lemma lt_asym up i j : lt up i j = true -> lt up j i = false.
  Proof.
    unfold order_impl. fold (tkey (key i)). fold (tkey (key j)). rewrite (fuzzy_sym (k_km (key j))).
    destruct (fuzzy_eq (k_km (key i)) (k_km (key j))); cbn [negb].
    - rewrite (Z.eqb_sym (tkey (key j))). destruct (Z.eqb_spec (tkey (key i)) (tkey (key j))); cbn [negb].
      + rewrite N.ltb_lt. intros L. apply N.ltb_ge. lia.
      + rewrite Z.ltb_lt. intros L. apply Z.ltb_ge. lia.
    - destruct up; rewrite qlt_iff; intros L; apply qlt_false; lra.
  Qed.
  Lemma lt_tot up i j : i <> j -> lt up i j = true \/ lt up j i = true.
  Proof.
    intros Hne. unfold order_impl. fold (tkey (key i)). fold (tkey (key j)). rewrite (fuzzy_sym (k_km (key j))).
    destruct (fuzzy_eq (k_km (key i)) (k_km (key j))) eqn:F; cbn [negb].
    - rewrite (Z.eqb_sym (tkey (key j))). destruct (Z.eqb_spec (tkey (key i)) (tkey (key j))); cbn [negb].
      + rewrite !N.ltb_lt, !H4. lia.
      + rewrite !Z.ltb_lt. lia.
    - assert (N : ~ (k_km (key i) == k_km (key j))%Q).
      { intros X. assert (fuzzy_eq (k_km (key i)) (k_km (key j)) = true) by (apply fuzzy_iff; split; lra). congruence. }
      destruct up; rewrite !qlt_iff; destruct (Q_dec (k_km (key i)) (k_km (key j))) as [[X|X]|X]; auto; tauto.
  Qed.
  (* where a meta element stands *)
  Lemma lt_meta up i m : P i -> tkey (key i) <> 999%Z -> tkey (key m) = 999%Z ->
    (lt up i m = true <-> if up then (k_km (key i) < k_km (key m) + (1#100))%Q else (k_km (key m) < k_km (key i) + (1#100))%Q).
  Proof.
    intros Pi Ni Mm. unfold order_impl. fold (tkey (key i)). fold (tkey (key m)). pose proof (H2 i Pi).
    destruct (fuzzy_eq (k_km (key i)) (k_km (key m))) eqn:F; cbn [negb].
    - apply fuzzy_iff in F. destruct (Z.eqb_spec (tkey (key i)) (tkey (key m))); [congruence|]. cbn [negb].
      rewrite Z.ltb_lt. split; [intros _|lia]. destruct up; lra.
    - assert (N : ~ (k_km (key i) - k_km (key m) < 1#100 /\ k_km (key m) - k_km (key i) < 1#100)%Q).
      { intros X. apply fuzzy_iff in X. congruence. }
      destruct up; rewrite qlt_iff; split; intros L; try lra; destruct (Qlt_le_dec (k_km (key m) - k_km (key i)) (1#100)) as [X|X];
        destruct (Qlt_le_dec (k_km (key i) - k_km (key m)) (1#100)) as [Y|Y]; try lra; exfalso; apply N; lra.
  Qed.
  Lemma meta_lt up i m : P i -> tkey (key i) <> 999%Z -> tkey (key m) = 999%Z ->
    (lt up m i = true <-> if up then (k_km (key m) + (1#100) <= k_km (key i))%Q else (k_km (key i) + (1#100) <= k_km (key m))%Q).
  Proof.
    intros Pi Ni Mm. assert (Hne : i <> m) by (intros ->; congruence).
    pose proof (lt_meta up i m Pi Ni Mm) as L. pose proof (lt_tot up i m Hne) as T. pose proof (lt_asym up i m) as A.
    destruct (lt up i m) eqn:X.
    - rewrite A by auto. split; [discriminate|]. intros Y. apply proj1 in L. specialize (L eq_refl). destruct up; lra.
    - destruct T as [T|T]; [discriminate|]. split; auto. intros _.
      destruct up.
      + destruct (Qlt_le_dec (k_km (key i)) (k_km (key m) + (1#100))) as [Y|Y]; auto. apply L in Y. discriminate.
      + destruct (Qlt_le_dec (k_km (key m)) (k_km (key i) + (1#100))) as [Y|Y]; auto. apply L in Y. discriminate.
  Qed.
  Lemma lt_plain up i j : P i -> P j -> tkey (key i) <> 999%Z -> tkey (key j) <> 999%Z ->
    (lt up i j = true <-> klt up (key i) (key j)).
  Proof. intros. apply order_iff. auto. Qed.
  Lemma klt_km up a b : klt up a b -> if up then (k_km a <= k_km b)%Q else (k_km b <= k_km a)%Q.
  Proof. intros [H|[H _]]; destruct up; lra. Qed.

  Lemma lt_tra up a b c : P a -> P b -> P c -> lt up a b = true -> lt up b c = true -> lt up a c = true.
  Proof.
    intros Pa Pb Pc L1 L2.
    assert (N1 : a <> b) by (intros ->; rewrite lt_irr in L1; discriminate).
    assert (N2 : b <> c) by (intros ->; rewrite lt_irr in L2; discriminate).
    assert (N3 : a <> c) by (intros ->; rewrite (lt_asym _ _ _ L1) in L2; discriminate).
    destruct (Z.eq_dec (tkey (key a)) 999) as [Ma|Ma]; destruct (Z.eq_dec (tkey (key b)) 999) as [Mb|Mb];
      destruct (Z.eq_dec (tkey (key c)) 999) as [Mc|Mc].
    1: destruct (H3 a b c Pa Pb Pc Ma Mb N1); congruence.
    1: destruct (H3 a b c Pa Pb Pc Ma Mb N1); congruence.
    1: destruct (H3 a c b Pa Pc Pb Ma Mc N3); congruence.
    - rewrite meta_lt in L1 by auto. rewrite lt_plain in L2 by auto. apply klt_km in L2. rewrite meta_lt by auto.
      destruct up; lra.
    - destruct (H3 b c a Pb Pc Pa Mb Mc N2); congruence.
    - rewrite lt_meta in L1 by auto. rewrite meta_lt in L2 by auto. rewrite lt_plain by auto. left. destruct up; lra.
    - rewrite lt_plain in L1 by auto. apply klt_km in L1. rewrite lt_meta in * by auto. destruct up; lra.
    - rewrite lt_plain in * by auto. eapply klt_tra; eauto.
  Qed.
End META.

Lemma tkey_track t r : is_track_element t = true -> (get_type_order_key t r <= 999)%Z /\ (get_type_order_key t r = 999%Z <-> t = META).
Proof. destruct t, r; cbn; intros H; try discriminate; split; try lia; split; intros; try discriminate; auto. Qed.
Lemma undirected_key t r r' : is_directed_track_element t = false -> get_type_order_key t r = get_type_order_key t r'.
Proof. destruct t; cbn; intros H; try discriminate; reflexivity. Qed.
Lemma same_key_type a b r r' : is_track_element a = true -> is_track_element b = true ->
  get_type_order_key a r = get_type_order_key b r' -> is_directed_track_element a = is_directed_track_element b.
Proof.
  intros Ha Hb. pose proof (tkey_track a r Ha) as _.
  destruct a; try discriminate; destruct b; try discriminate; destruct r, r'; intros H; cbv in H; try discriminate H; reflexivity.
Qed.

Lemma sorted_nth {A} (R : A -> A -> Prop) l : (forall k1 k2 a b, k1 < k2 -> nth_error l k1 = Some a -> nth_error l k2 = Some b -> R a b) ->
  StronglySorted R l.
Proof.
  induction l as [|x l IH]; intros H; constructor.
  - apply IH. intros k1 k2 a b L X Y. apply (H (S k1) (S k2)); auto. lia.
  - apply Forall_forall. intros y Hy. apply In_nth_error in Hy. destruct Hy as [k K]. apply (H 0 (S k)); auto. lia.
Qed.
Lemma nth_sorted {A} (R : A -> A -> Prop) l : StronglySorted R l -> forall k1 k2 a b, k1 < k2 ->
  nth_error l k1 = Some a -> nth_error l k2 = Some b -> R a b.
Proof.
  induction 1 as [|x l S1 IH F]; intros k1 k2 a b L X Y; [destruct k1; discriminate|].
  destruct k2 as [|k2]; [lia|]. cbn in Y. destruct k1 as [|k1].
  - cbn in X. injection X as ->. rewrite Forall_forall in F. apply F. eapply nth_error_In; eauto.
  - apply (IH k1 k2); auto. lia.
Qed.

Section SECT.
  Variable l : list xstation.
  Hypothesis WD : well_drawn l.

  Lemma nodes_sorted s x d : section_at l s x ->
    StronglySorted (fun a b => klt d (node_key a) (node_key b)) (nodes_in (tracks x) d).
  Proof.
    intros Hx.
    assert (Sp : forall (t : list tnode), Permutation t (tracks x) -> 
         StronglySorted (fun a b => klt d (node_key a) (node_key b)) (sort_nodes d t)).
    { intros t Ht. apply sort_nodes_sorted.
      - intros a b Ha Hb. apply (wd_apart l WD s x); auto.
        + eapply Permutation_in in Ha; [|exact Ht]. apply filter_In in Ha. apply Ha.
        + eapply Permutation_in in Hb; [|exact Ht]. apply filter_In in Hb. apply Hb.
      - eapply Permutation_NoDup; [apply Permutation_map, Permutation_sym; exact Ht|].
        apply filter_NoDup_map. exact (wd_low_ids l WD s x Hx). }
    unfold nodes_in. apply sorted_filter. destruct d; apply Sp; auto. apply sort_perm.
  Qed.

  Variables (g : graph) (dev : place -> nat) (run : nat -> bool -> list nat).
  Hypothesis I : Inv l (length (plan l)) g dev run.
  Variables (s st : nat) (x : xsection).
  Hypothesis Hx : nth_error (plan l) s = Some (st, x).

  Let Hs : s < length (plan l).
  Proof. apply nth_error_Some. congruence. Qed.

  Definition key_of (i : nat) : okey :=
    match E g i with Some e => elem_key i e | None => mkkey 0 META false (N.of_nat i) end.
  Definition on (i : nat) : Prop := In i (run s true) \/ In i (run s false).

  Lemma on_case i : on i -> exists d e, E g i = Some e /\ In i (run s d) /\
    ((run s d = [i] /\ e_type e = META) \/
     exists k n, nth_error (nodes_in (tracks x) d) k = Some n /\ nth_error (run s d) k = Some i /\ made st s (xs_line x) n e /\
       In n (tracks x)).
  Proof.
    intros H. assert (Hd : exists d, In i (run s d)) by (destruct H; eauto). destruct Hd as [d Hd].
    pose proof Hd as Hi. apply In_nth_error in Hi. destruct Hi as [k K].
    pose proof (in_nodes _ _ _ _ _ I s st x d Hx Hs) as Nd.
    destruct (nodes_in (tracks x) d) as [|n0 ns] eqn:Ns.
    - destruct Nd as (m & e & R & He & Ty & _). rewrite R in Hd. destruct Hd as [<-|[]].
      exists d, e. split; auto. split; [rewrite R; left; auto|]. left. auto.
    - rewrite <- Ns in Nd.
      destruct (nth_error (nodes_in (tracks x) d) k) as [n|] eqn:N.
      2:{ apply nth_error_None in N. assert (k < length (run s d)) by (apply nth_error_Some; congruence). lia. }
      destruct (in_made _ _ _ _ _ I s st x d k n i Hx Hs N K) as (e & He & Hm & _).
      exists d, e. split; auto. split; auto. right. exists k, n. split; [congruence|]. split; auto. split; auto.
      apply nth_error_In in N. apply nodes_in_spec in N. apply N.
  Qed.
  Lemma made_key i n e : E g i = Some e -> made st s (xs_line x) n e -> In n (tracks x) ->
    (k_km (key_of i) = tn_km n) /\ tkey (key_of i) = tkey (node_key n) /\ k_id (key_of i) = N.of_nat i.
  Proof.
    intros He (M1 & M2 & M3 & M4 & _) Hn. unfold key_of. rewrite He. unfold elem_key, tkey, node_key. cbn [k_km k_type k_rising k_id].
    split; auto. split; auto. rewrite M1, M3. destruct (is_directed_track_element (tn_type n)) eqn:D; auto.
    apply undirected_key; auto.
  Qed.
  Lemma tracks_type n : In n (tracks x) -> is_track_element (tn_type n) = true.
  Proof. intros H. apply filter_In in H. apply H. Qed.
  Hypothesis NM : no_meta l.
  Lemma on_meta i : on i -> tkey (key_of i) = 999%Z -> exists d, run s d = [i].
  Proof.
    intros H M. destruct (on_case i H) as (d & e & He & Hd & [[R T]|(k & n & N & K & Hm & Hn)]); [eauto|].
    exfalso. destruct (made_key i n e He Hm Hn) as (_ & X & _). rewrite X in M.
    apply (tkey_track (tn_type n) (tn_rising n)) in M; [|apply tracks_type; auto].
    apply filter_In in Hn. destruct Hn as [Hn _]. exact (NM s x n (ex_intro _ st Hx) Hn M).
  Qed.
  Lemma on_H1 i j : on i -> on j -> tkey (key_of i) <> 999%Z -> tkey (key_of j) <> 999%Z ->
    spaced (k_km (key_of i)) (k_km (key_of j)).
  Proof.
    assert (F : forall i, on i -> tkey (key_of i) <> 999%Z -> exists n, In n (xs_track x) /\ k_km (key_of i) = tn_km n).
    { clear i j. intros i H M. destruct (on_case i H) as (d & e & He & Hd & [[R T]|(k & n & N & K & Hm & Hn)]).
      - exfalso. apply M. unfold key_of. rewrite He. unfold tkey, elem_key. cbn. rewrite T. reflexivity.
      - destruct (made_key i n e He Hm Hn) as (X & _). apply filter_In in Hn. exists n. split; auto. apply Hn. }
    intros Hi Hj Mi Mj. destruct (F i Hi Mi) as (n & Hn & ->). destruct (F j Hj Mj) as (m & Hm & ->).
    apply (wd_apart l WD s x n m); auto. exists st. exact Hx.
  Qed.
  Lemma on_H2 i : on i -> (tkey (key_of i) <= 999)%Z.
  Proof.
    intros H. destruct (on_case i H) as (d & e & He & Hd & [[R T]|(k & n & N & K & Hm & Hn)]).
    - unfold key_of. rewrite He. unfold tkey, elem_key. cbn. rewrite T. cbn. lia.
    - destruct (made_key i n e He Hm Hn) as (_ & -> & _). apply tkey_track. apply tracks_type; auto.
  Qed.
  Lemma on_H3 a b i : on a -> on b -> on i -> tkey (key_of a) = 999%Z -> tkey (key_of b) = 999%Z -> a <> b -> i = a \/ i = b.
  Proof.
    intros Ha Hb Hi Ma Mb Hne. destruct (on_meta a Ha Ma) as [d R]. destruct (on_meta b Hb Mb) as [d' R'].
    destruct d, d'; try congruence.
    - destruct Hi as [Hi|Hi]; rewrite ?R, ?R' in Hi; destruct Hi as [<-|[]]; auto.
    - destruct Hi as [Hi|Hi]; rewrite ?R, ?R' in Hi; destruct Hi as [<-|[]]; auto.
  Qed.
  Lemma on_H4 i : k_id (key_of i) = N.of_nat i.
  Proof. unfold key_of. destruct (E g i); reflexivity. Qed.

  Lemma sort_key up all : (forall i, In i all -> on i) ->
    sort_elems up g all = sort (fun i j => order_impl up (key_of i) (key_of j)) all.
  Proof.
    intros H. unfold sort_elems. apply sort_ext. intros a b Ha Hb. unfold key_of.
    destruct (on_case a (H a Ha)) as (_ & e & He & _). destruct (on_case b (H b Hb)) as (_ & e' & He' & _).
    unfold E in *. rewrite He, He'. reflexivity.
  Qed.

  (* the run is in the order of the elements *)
  Lemma run_ordered d : StronglySorted (fun i j => order_impl d (key_of i) (key_of j) = true) (run s d).
  Proof.
    apply sorted_nth. intros k1 k2 i1 i2 L K1 K2.
    assert (O : forall k i, nth_error (run s d) k = Some i -> on i).
    { intros k i K. apply nth_error_In in K. destruct d; [left|right]; auto. }
    pose proof (in_nodes _ _ _ _ _ I s st x d Hx Hs) as Nd.
    destruct (nodes_in (tracks x) d) as [|n0 ns] eqn:Ns.
    { destruct Nd as (m & e & R & _). rewrite R in *. destruct k2 as [|[|k2]]; try discriminate. lia. }
    rewrite <- Ns in Nd.
    assert (Ex : forall k i, nth_error (run s d) k = Some i -> exists n e, nth_error (nodes_in (tracks x) d) k = Some n /\
               E g i = Some e /\ made st s (xs_line x) n e /\ rp_find (g_rp g) (tn_id n) = Some i /\ In n (tracks x) /\ keep d n = true).
    { intros k i K. destruct (nth_error (nodes_in (tracks x) d) k) as [n|] eqn:N.
      2:{ apply nth_error_None in N. assert (k < length (run s d)) by (apply nth_error_Some; congruence). lia. }
      destruct (in_made _ _ _ _ _ I s st x d k n i Hx Hs N K) as (e & He & Hm & R).
      pose proof N as N'. apply nth_error_In in N'. apply nodes_in_spec in N'. exists n, e. tauto. }
    destruct (Ex k1 i1 K1) as (n1 & e1 & N1 & E1 & M1 & R1 & T1 & P1).
    destruct (Ex k2 i2 K2) as (n2 & e2 & N2 & E2 & M2 & R2 & T2 & P2).
    destruct (made_key i1 n1 e1 E1 M1 T1) as (A1 & B1 & C1). destruct (made_key i2 n2 e2 E2 M2 T2) as (A2 & B2 & C2).
    assert (NMk : forall i n, In n (tracks x) -> tkey (key_of i) = tkey (node_key n) -> tkey (key_of i) <> 999%Z).
    { intros i n Hn X Y. rewrite X in Y. apply (tkey_track (tn_type n) (tn_rising n)) in Y; [|apply tracks_type; auto].
      apply filter_In in Hn. destruct Hn as [Hn _]. exact (NM s x n (ex_intro _ st Hx) Hn Y). }
    apply (order_iff d). { apply on_H1; eauto. }
    pose proof (nth_sorted _ _ (nodes_sorted s x d (ex_intro _ st Hx)) k1 k2 n1 n2 L N1 N2) as S12.
    cbn beta in S12. unfold klt in *. rewrite A1, A2, B1, B2, C1, C2. cbn [node_key k_km k_id] in S12.
    destruct S12 as [X|[X [Y|[Y Z]]]]; [left; exact X|right; split; auto|]. right. split; auto. right. split; auto.
    assert (LT : i1 < i2); [|lia].
    destruct d eqn:Dd.
    - apply (in_mono _ _ _ _ _ I s true k1 k2 i1 i2 e2 Hs L K1 K2 E2). auto.
    - destruct (is_directed_track_element (tn_type n2)) eqn:D2.
      { apply (in_mono _ _ _ _ _ I s false k1 k2 i1 i2 e2 Hs L K1 K2 E2). left.
        apply kind_directed in D2. destruct M2 as (_ & M2 & _). congruence. }
      assert (D1 : is_directed_track_element (tn_type n1) = false).
      { rewrite (same_key_type (tn_type n1) (tn_type n2) (tn_rising n1) (tn_rising n2)); auto; apply tracks_type; auto. }
      (* both were made on the rising pass *)
      assert (Up : forall n i, In n (tracks x) -> is_directed_track_element (tn_type n) = false -> rp_find (g_rp g) (tn_id n) = Some i ->
                exists k, nth_error (nodes_in (tracks x) true) k = Some n /\ nth_error (run s true) k = Some i).
      { intros n i Hn D R. assert (Hin : In n (nodes_in (tracks x) true)).
        { apply nodes_in_spec. split; auto. unfold keep. rewrite D. reflexivity. }
        apply In_nth_error in Hin. destruct Hin as [k K]. exists k. split; auto.
        pose proof (in_nodes _ _ _ _ _ I s st x true Hx Hs) as Nt.
        destruct (nodes_in (tracks x) true) as [|m0 ms] eqn:Nst; [destruct k; discriminate|]. rewrite <- Nst in *.
        destruct (nth_error (run s true) k) as [j|] eqn:J.
        2:{ apply nth_error_None in J. assert (k < length (nodes_in (tracks x) true)) by (apply nth_error_Some; congruence). lia. }
        destruct (in_made _ _ _ _ _ I s st x true k n j Hx Hs K J) as (e & _ & _ & R'). congruence. }
      destruct (Up n1 i1 T1 D1 R1) as (j1 & Y1 & Z1). destruct (Up n2 i2 T2 D2 R2) as (j2 & Y2 & Z2).
      assert (Kt : klt true (node_key n1) (node_key n2)).
      { right. cbn [node_key k_km k_id]. split; auto. }
      assert (J12 : j1 < j2).
      { destruct (Nat.lt_trichotomy j1 j2) as [J|[J|J]]; auto; exfalso.
        - subst j2. assert (n1 = n2) by congruence. subst n2. exact (klt_irr _ _ Kt).
        - pose proof (nth_sorted _ _ (nodes_sorted s x true (ex_intro _ st Hx)) j2 j1 n2 n1 J Y2 Y1) as S21. cbn beta in S21.
          exact (klt_irr _ _ (klt_tra _ _ _ _ Kt S21)). }
      apply (in_mono _ _ _ _ _ I s true j1 j2 i1 i2 e2 Hs J12 Z1 Z2 E2). auto.
  Qed.

  Lemma only_run d all (r : list node) : NoDup all -> (forall j, In j all <-> on j) -> map fst r = run s d ->
    only r (sort_elems d g all) = run s d.
  Proof.
    intros ND Hin Hr. unfold only. rewrite Hr.
    set (R := fun i j => order_impl d (key_of i) (key_of j)).
    rewrite sort_key by (intros; apply Hin; auto). change (fun i j : nat => order_impl d (key_of i) (key_of j)) with R.
    assert (Tra : forall a b c, on a -> on b -> on c -> R a b = true -> R b c = true -> R a c = true).
    { intros a b c. apply (lt_tra key_of on on_H1 on_H2 on_H3 on_H4). }
    apply (sorted_unique R on).
    - intros a _. apply lt_irr.
    - exact Tra.
    - apply Forall_forall. intros i Hi. apply filter_In in Hi. destruct Hi as [Hi _]. apply Hin.
      eapply Permutation_in; [apply sort_perm|exact Hi].
    - apply NoDup_Permutation.
      + apply NoDup_filter. eapply Permutation_NoDup; [apply Permutation_sym, sort_perm|auto].
      + exact (in_nodup _ _ _ _ _ I s d Hs).
      + intros i. rewrite filter_In. split.
        * intros [_ H]. apply existsb_exists in H. destruct H as (j & H & X). apply Nat.eqb_eq in X. congruence.
        * intros H. split.
          -- eapply Permutation_in; [apply Permutation_sym, sort_perm|]. apply Hin. destruct d; [left|right]; auto.
          -- apply existsb_exists. exists i. split; auto. apply Nat.eqb_refl.
    - apply sorted_filter. apply (sort_sorted R on).
      + exact Tra.
      + intros a b _ _ Hne. apply (lt_tot key_of on_H4). exact Hne.
      + apply Forall_forall. intros i Hi. apply Hin; auto.
      + auto.
    - apply run_ordered.
  Qed.
End SECT.

Section ALL.
  Variable l : list xstation.
  Hypothesis WD : well_drawn l.
  Hypothesis NM : no_meta l.
  Variables (g0 g : graph) (dev : place -> nat) (run : nat -> bool -> list nat).
  Hypothesis I : Inv l (length (plan l)) g0 dev run.
  Hypothesis B : closed_borders l dev g0 g.

  Lemma runn_fst s d : map fst (runn g run s d) = run s d.
  Proof. unfold runn. rewrite map_map. cbn. apply map_id. Qed.
  Lemma dev_id p n : node_at l p n -> id_of g n (dev p).
  Proof.
    intros Hn. destruct (in_dev _ _ _ _ _ I p n Hn (place_lt l _ _ Hn)) as (e & _ & _ & _ & R & _).
    unfold id_of. rewrite (cb_rp _ _ _ _ B). exact R.
  Qed.
  Lemma sort_in up gg all i : In i (sort_elems up gg all) <-> In i all.
  Proof. unfold sort_elems. split; apply Permutation_in; [|apply Permutation_sym]; apply sort_perm. Qed.

  Lemma qabs_diff a b : (qabs' a b == Qabs (b - a))%Q.
  Proof.
    unfold qabs', qabs. destruct (qlt (a - b) 0) eqn:X; [apply qlt_iff in X|apply qlt_false in X].
    - rewrite Qabs_pos by lra. lra.
    - rewrite Qabs_neg by lra. lra.
  Qed.

  Lemma sections : sections_as_drawn l g (runn g run).
  Proof.
    destruct (cb_secs _ _ _ _ B) as (more & Sm & Sm1 & Sm2).
    assert (Len : length (g_secs g0) = length (plan l)) by apply (in_len _ _ _ _ _ I).
    split.
    - intros s x (st & Hx). assert (Hs : s < length (plan l)) by (apply nth_error_Some; congruence).
      destruct (in_secs _ _ _ _ _ I s st x Hx Hs) as (sc & all & X1 & X2 & X3 & X4 & X5 & X6 & X7).
      assert (Na := node_end l s st x false Hx). assert (Nb := node_end l s st x true Hx).
      exists sc, (dev (s, false)), (dev (s, true)), (sort_elems true g0 all), (sort_elems false g0 all).
      assert (Nab : dev (s, false) <> dev (s, true)).
      { intros X. apply (dev_same l g0 dev run I _ _ _ _ Na Nb) in X. revert X. apply (wd_ends l WD s x). exists st; auto. }
      assert (Nin : forall t up, ~ In (dev (s, t)) (sort_elems up g0 all)).
      { intros t up X. apply sort_in in X. apply X7 in X.
        assert (Nt := node_end l s st x t Hx).
        destruct X as [X|X]; exact (dev_not_run l g0 dev run I _ _ _ _ Nt Hs X). }
      assert (NDs : forall up, NoDup (sort_elems up g0 all)).
      { intros up. eapply Permutation_NoDup; [apply Permutation_sym, sort_perm|auto]. }
      assert (NDr : forall a b up, a <> b -> ~ In a (sort_elems up g0 all) -> ~ In b (sort_elems up g0 all) ->
                 NoDup (a :: sort_elems up g0 all ++ [b])).
      { intros a b up Hab Ha Hb. constructor.
        - rewrite in_app_iff. intros [X|[X|[]]]; auto.
        - apply NoDup_app_parts; auto. { constructor; [intros []|constructor]. } intros z Z1 [<-|[]]. auto. }
      split. { rewrite Sm, nth_error_app1; auto. lia. }
      split; [auto|]. split. { rewrite X4. apply qabs_diff. }
      split; [exact (dev_id _ _ Na)|]. split; [exact (dev_id _ _ Nb)|].
      split; [auto|]. split; [auto|].
      split. { rewrite X2. apply NDr; auto. } split. { rewrite X3. apply NDr; auto. }
      assert (Mem : forall up i, In i (sort_elems up g0 all) <-> exists d, In i (map fst (runn g run s d))).
      { intros up i. rewrite sort_in, X7. split.
        - intros [H|H]; [exists true|exists false]; rewrite runn_fst; auto.
        - intros [[|] H]; rewrite runn_fst in H; auto. }
      split; [apply Mem|]. split; [apply Mem|].
      rewrite !(runn_fst s). split; eapply (only_run l WD g0 dev run I s st x Hx NM); eauto; apply runn_fst.
    - intros p q n m ln Hn Hm Hq Sp Hl. destruct (Sm2 p q ln Hq Sp Hl) as (k & K1 & K2).
      exists (length (plan l) + k), (dev p), (dev q). split; [apply dev_id; auto|]. split; [apply dev_id; auto|].
      split; [lia|]. split. { rewrite Sm, nth_error_app2 by lia. rewrite Len. replace (length (plan l) + k - length (plan l)) with k by lia. auto. }
      intros k' sc Hk Lk Hin. rewrite Sm, nth_error_app2 in Hk by lia. rewrite Len in Hk.
      assert (k' - length (plan l) = k); [|lia]. apply (K2 _ sc); auto.
      destruct Hin as [Hin|Hin]; auto.
      (* the partner is in the same section *)
      pose proof Hk as Hk'. apply nth_error_In in Hk'. destruct (Sm1 sc Hk') as (p' & q' & ln' & P1 & P2 & P3 & P4 & ->).
      cbn [sc_rising In] in *. destruct (partners_names l WD g0 dev run I _ _ Hq) as (n1 & m1 & A1 & A2 & A3 & A4 & A5).
      destruct (partners_names l WD g0 dev run I _ _ P1) as (n2 & m2 & C1 & C2 & C3 & C4 & C5).
      destruct (partner_one l WD _ _ _ Hq Hq) as [_ Dq].
      destruct Hin as [X|[X|[]]].
      + exfalso. assert (p' = q) by (eapply (dev_whole l WD g0 dev run I p' q n2 m1); eauto; rewrite C3; auto). subst p'. congruence.
      + left. assert (q' = q) by (eapply (dev_whole l WD g0 dev run I q' q m2 m1); eauto; rewrite C4; auto). subst q'.
        f_equal. destruct (partner_one l WD _ _ _ (partners_sym l _ _ Hq) (partners_sym l _ _ P1)) as [Y _]. auto.
    - intros k sc Hk Lk. rewrite Sm, nth_error_app2 in Hk by lia. apply nth_error_In in Hk.
      destruct (Sm1 sc Hk) as (p & q & ln & P1 & P2 & P3 & P4 & ->).
      destruct (partners_names l WD g0 dev run I _ _ P1) as (n1 & m1 & A1 & A2 & A3 & A4 & A5).
      exists p, q, n1, m1, ln, (dev p), (dev q). repeat (split; [auto using dev_id|]). auto.
    - intros i e He. destruct (cb_agree _ _ _ _ B) as [O A]. split; [eapply O; eauto|]. intros k. apply A. auto.
  Qed.
End ALL.

Lemma network_sections l : well_drawn l -> no_meta l -> exists g ls run arrive,
  import l = Ok g /\ connect_nodes g = Ok ls /\ drives_as_drawn l g ls run arrive /\ sections_as_drawn l g run.
Proof.
  intros WD NM. destruct (parse_all l WD) as (g0 & dev & run & H1 & I).
  destruct (close_borders l WD g0 dev run I) as (g & H2 & B).
  destruct (connect_all g (all_connect l WD g0 g dev run I B)) as (ls & H3 & Ls).
  exists g, ls, (runn g run), (arrive g dev run). split.
  - unfold import. rewrite H1. exact H2.
  - split; [exact H3|]. split; [exact (drives l WD g0 g dev run I B ls Ls)|].
    exact (sections l WD NM g0 g dev run I B).
Qed.
