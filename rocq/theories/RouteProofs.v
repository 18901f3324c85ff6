(* Proofs about station routes and interlocking routes. *)
From Coq Require Import Sorted Permutation ZifyBool ZifyNat.
From Verif Require Import Base AlgoModel AlgoProofs Par RouteModel.

Lemma at_some {A} (l : list A) i a : at_ l i = Ok a <-> nth_error l i = Some a.
Proof. unfold at_. destruct (nth_error l i); split; congruence. Qed.

Lemma at_lt {A} (l : list A) i : i < length l -> exists a, nth_error l i = Some a /\ at_ l i = Ok a.
Proof.
  intros H. destruct (nth_error l i) as [a|] eqn:E; [|apply nth_error_None in E; lia].
  exists a. split; [reflexivity|]. apply at_some. exact E.
Qed.

(* ---- sr_from_to: nodes ---- *)
Lemma skipn_nth {A} (l : list A) i a : nth_error l i = Some a -> skipn i l = a :: skipn (S i) l.
Proof.
  revert i. induction l as [|x l IH]; intros [|i] E; try discriminate E.
  - injection E as ->. reflexivity.
  - cbn in E |- *. rewrite (IH i E). reflexivity.
Qed.

(* the list has the wanted length and entry k has property P at position i + k *)
Definition entries (l : list rnode) (i : nat) (P : nat -> rnode -> Prop) : Prop :=
  forall k x, nth_error l k = Some x -> P (i + k) x.

Lemma entries_cons x l i P : entries (x :: l) i P <-> P i x /\ entries l (S i) P.
Proof.
  unfold entries. split.
  - intros H. split.
    + specialize (H 0 x eq_refl). rewrite Nat.add_0_r in H. exact H.
    + intros k y E. specialize (H (S k) y E). replace (S i + k) with (i + S k) by lia. exact H.
  - intros [H0 H] [|k] y E.
    + injection E as <-. rewrite Nat.add_0_r. exact H0.
    + replace (i + S k) with (S i + k) by lia. exact (H k y E).
Qed.

Section SR.
  Variable r : sroute.

  Definition node_ok (j : nat) (x : rnode) : Prop := nth_error (sr_nodes r) j = Some (rn_node x).

  Lemma ft_loop_nodes k : forall i o s cur, i + k <= length (sr_nodes r) ->
    exists l, ft_loop r k i o s cur = Ok l /\ length l = k /\ entries l i node_ok.
  Proof.
    induction k as [|k IH]; intros i o s cur L.
    - exists []. split; [reflexivity|]. split; [reflexivity|]. intros [|k] x E; discriminate E.
    - cbn [ft_loop]. unfold sr_node. destruct (at_lt (sr_nodes r) i) as [n [En Ea]]; [lia|].
      rewrite Ea. cbn [bind].
      set (om := match nth_error (sr_omitted r) o with Some o0 => Nat.eqb o0 i | None => false end).
      set (ex := negb om && match nth_error (sr_spls r) s with Some s0 => N.eqb s0 n | None => false end).
      destruct (IH (S i) (if om then S o else o) (if ex then S s else s)
                   (if ex then Some s else cur)) as [l [El [Ll Pl]]]; [lia|].
      rewrite El. cbn [bind]. eexists. split; [reflexivity|]. split; [cbn; lia|].
      apply entries_cons. split; [exact En|exact Pl].
  Qed.

  (* the pointer into a strictly ascending list of positions *)
  Definition pos_from (i : nat) (l : list nat) : nat := find_if (fun o => Nat.leb i o) l.

  Lemma find_if_nth {A} (p : A -> bool) (l : list A) a :
    nth_error l (find_if p l) = Some a -> p a = true.
  Proof.
    induction l as [|x l IH]; cbn [find_if]; [discriminate|].
    destruct (p x) eqn:E; [intros H; injection H as <-; exact E|exact IH].
  Qed.
  Lemma find_if_before {A} (p : A -> bool) (l : list A) k a :
    k < find_if p l -> nth_error l k = Some a -> p a = false.
  Proof.
    revert k. induction l as [|x l IH]; cbn [find_if]; intros k H E; [lia|].
    destruct (p x) eqn:Ex; [lia|]. destruct k as [|k]; [injection E as <-; exact Ex|].
    apply (IH k); [lia|exact E].
  Qed.

  Lemma SS_nth {A} (R : A -> A -> Prop) l : StronglySorted R l -> forall a b x y, a < b ->
    nth_error l a = Some x -> nth_error l b = Some y -> R x y.
  Proof.
    induction 1 as [|c l S IH F]; intros a b x y L Ea Eb; [destruct a; discriminate Ea|].
    destruct b as [|b]; [lia|]. destruct a as [|a].
    - injection Ea as <-. rewrite Forall_forall in F. apply F. cbn in Eb. apply nth_error_In in Eb. exact Eb.
    - apply (IH a b); [lia|assumption..].
  Qed.

  (* step of the pointer: if the element at the pointer is i the pointer moves on,
     otherwise it stays *)
  Lemma pos_from_step l i : StronglySorted lt l ->
    pos_from (S i) l = (match nth_error l (pos_from i l) with
                        | Some o => if Nat.eqb o i then S (pos_from i l) else pos_from i l
                        | None => pos_from i l end).
  Proof.
    unfold pos_from. induction 1 as [|c l S IH F]; [reflexivity|]. cbn [find_if].
    destruct (Nat.leb_spec i c) as [L|L].
    - cbn [nth_error]. destruct (Nat.eqb_spec c i) as [E|N].
      + subst c. destruct (Nat.leb_spec (Datatypes.S i) i); [lia|]. f_equal.
        destruct l as [|d l]; [reflexivity|]. cbn [find_if]. inversion F; subst.
        destruct (Nat.leb_spec (Datatypes.S i) d); [reflexivity|lia].
      + destruct (Nat.leb_spec (Datatypes.S i) c); [reflexivity|lia].
    - destruct (Nat.leb_spec (Datatypes.S i) c); [lia|]. cbn [nth_error]. rewrite IH.
      destruct (nth_error l _) as [o|]; [destruct (Nat.eqb o i)|]; reflexivity.
  Qed.

  Lemma pos_from_hit l i : StronglySorted lt l ->
    (match nth_error l (pos_from i l) with Some o => Nat.eqb o i | None => false end) = true <-> In i l.
  Proof.
    unfold pos_from. intros S. split.
    - destruct (nth_error l _) as [o|] eqn:E; [|discriminate]. intros H. apply Nat.eqb_eq in H. subst o.
      apply nth_error_In in E. exact E.
    - induction S as [|c l S IH F]; intros I; [destruct I|]. cbn [find_if].
      destruct (Nat.leb_spec i c) as [L|L].
      + cbn [nth_error]. destruct I as [->|I]; [apply Nat.eqb_refl|].
        rewrite Forall_forall in F. specialize (F i I). lia.
      + cbn [nth_error]. apply IH. destruct I as [->|I]; [lia|exact I].
  Qed.

  Definition omitted_ok (j : nat) (x : rnode) : Prop := rn_omitted x = true <-> In j (sr_omitted r).

  Lemma ft_loop_omitted k : StronglySorted lt (sr_omitted r) -> forall i s cur l,
    ft_loop r k i (pos_from i (sr_omitted r)) s cur = Ok l -> entries l i omitted_ok.
  Proof.
    intros SO. induction k as [|k IH]; intros i s cur l E.
    - cbn in E. injection E as <-. intros [|j] x Ej; discriminate Ej.
    - cbn [ft_loop] in E. apply bind_Ok in E as [n [En E]].
      set (om := match nth_error (sr_omitted r) (pos_from i (sr_omitted r)) with
                 | Some o0 => Nat.eqb o0 i | None => false end) in *.
      set (ex := negb om && match nth_error (sr_spls r) s with Some s0 => N.eqb s0 n | None => false end) in *.
      apply bind_Ok in E as [l' [El E]]. injection E as <-. apply entries_cons. split.
      + unfold omitted_ok. cbn [rn_omitted]. apply pos_from_hit. exact SO.
      + assert (EQ : (if om then S (pos_from i (sr_omitted r)) else pos_from i (sr_omitted r)) =
                     pos_from (S i) (sr_omitted r)).
        { rewrite pos_from_step by exact SO. subst om.
          destruct (nth_error _ _) as [o|]; [destruct (Nat.eqb o i)|]; reflexivity. }
        rewrite EQ in El. exact (IH (S i) _ _ l' El).
  Qed.

  (* ---- extra speed limits ---- *)
  (* the extra speed limits sit at the ascending positions P, none of them omitted *)
  Definition spl_positions (P : list nat) : Prop :=
    NoDup (sr_nodes r) /\ StronglySorted lt P /\
    Forall2 (fun s p => nth_error (sr_nodes r) p = Some s) (sr_spls r) P /\
    Forall (fun p => ~ In p (sr_omitted r)) P.

  Lemma Forall2_nth {A B} (R : A -> B -> Prop) l l' : Forall2 R l l' -> forall k,
    (exists a b, nth_error l k = Some a /\ nth_error l' k = Some b /\ R a b) \/
    (nth_error l k = None /\ nth_error l' k = None).
  Proof.
    induction 1 as [|a b l l' H F IH]; intros k.
    - right. destruct k; split; reflexivity.
    - destruct k as [|k]; [left; exists a, b; auto|]. exact (IH k).
  Qed.

  Lemma spl_hit P i n k : spl_positions P -> nth_error (sr_nodes r) i = Some n ->
    (match nth_error (sr_spls r) k with Some s0 => N.eqb s0 n | None => false end) =
    (match nth_error P k with Some p => Nat.eqb p i | None => false end).
  Proof.
    intros [ND [_ [F _]]] En. destruct (Forall2_nth _ _ _ F k) as [[a [b [Ea [Eb R]]]]|[Ea Eb]];
      rewrite Ea, Eb; [|reflexivity].
    destruct (N.eqb_spec a n) as [E|N]; destruct (Nat.eqb_spec b i) as [E'|N']; try reflexivity.
    - subst a. exfalso. apply N'. rewrite NoDup_nth_error in ND. apply ND; [|congruence].
      apply nth_error_Some. congruence.
    - subst b. congruence.
  Qed.

  (* the latest extra speed limit at a position in [from, j] *)
  Definition latest (P : list nat) (from j : nat) (q : nat) : Prop :=
    exists p, nth_error P q = Some p /\ from <= p <= j /\
      forall p', In p' P -> from <= p' <= j -> p' <= p.
  Definition spl_ok (P : list nat) (from j : nat) (x : rnode) : Prop :=
    forall q, rn_spl x = Some q <-> latest P from j q.

  Lemma latest_step P from i : from <= i -> StronglySorted lt P -> forall q,
    latest P from i q <->
    (if (match nth_error P (pos_from i P) with Some p => Nat.eqb p i | None => false end)
     then q = pos_from i P else from < i /\ latest P from (i - 1) q).
  Proof.
    intros L S q. destruct (match nth_error P (pos_from i P) with Some p => Nat.eqb p i | None => false end) eqn:E.
    - destruct (nth_error P (pos_from i P)) as [p|] eqn:Ep; [|discriminate E].
      apply Nat.eqb_eq in E. subst p. split.
      + intros [p [Eq [B M]]]. specialize (M i (nth_error_In _ _ Ep) ltac:(lia)).
        assert (p = i) by lia. subst p.
        destruct (Nat.lt_trichotomy q (pos_from i P)) as [H|[H|H]]; [|exact H|].
        * pose proof (SS_nth _ _ S _ _ _ _ H Eq Ep). lia.
        * pose proof (SS_nth _ _ S _ _ _ _ H Ep Eq). lia.
      + intros ->. exists i. split; [exact Ep|]. split; [lia|]. intros p' _ B. lia.
    - assert (NI : ~ In i P). { intros I. apply pos_from_hit in I; [|exact S]. congruence. }
      split.
      + intros [p [Eq [B M]]]. assert (p <> i) by (intros ->; apply NI; apply nth_error_In in Eq; exact Eq).
        split; [lia|]. exists p. split; [exact Eq|]. split; [lia|]. intros p' I' B'. apply M; [exact I'|lia].
      + intros [Lt [p [Eq [B M]]]]. exists p. split; [exact Eq|]. split; [lia|].
        intros p' I' B'. apply M; [exact I'|]. assert (p' <> i) by congruence. lia.
  Qed.

  Lemma ft_loop_spl P from k : spl_positions P -> StronglySorted lt (sr_omitted r) ->
    forall i cur l, from <= i ->
    (forall q, cur = Some q <-> from < i /\ latest P from (i - 1) q) ->
    ft_loop r k i (pos_from i (sr_omitted r)) (pos_from i P) cur = Ok l ->
    entries l i (spl_ok P from).
  Proof.
    intros HP SO. pose proof HP as [ND [SP [_ FO]]].
    induction k as [|k IH]; intros i cur l L C E.
    - cbn in E. injection E as <-. intros [|j] x Ej; discriminate Ej.
    - cbn [ft_loop] in E. apply bind_Ok in E as [n [En E]]. apply at_some in En.
      rewrite (spl_hit P i n _ HP En) in E.
      set (om := match nth_error (sr_omitted r) (pos_from i (sr_omitted r)) with
                 | Some o0 => Nat.eqb o0 i | None => false end) in *.
      set (hit := match nth_error P (pos_from i P) with Some p => Nat.eqb p i | None => false end) in *.
      assert (HM : negb om && hit = hit).
      { destruct hit eqn:Eh; [|apply andb_false_r]. rewrite andb_true_r. apply negb_true_iff.
        destruct om eqn:Eo; [|reflexivity]. exfalso.
        assert (I1 : In i P) by (apply pos_from_hit; [exact SP|exact Eh]).
        assert (I2 : In i (sr_omitted r)) by (apply pos_from_hit; [exact SO|exact Eo]).
        rewrite Forall_forall in FO. exact (FO i I1 I2). }
      rewrite HM in E.
      apply bind_Ok in E as [l' [El E]]. injection E as <-.
      assert (C' : forall q, (if hit then Some (pos_from i P) else cur) = Some q <-> latest P from i q).
      { intros q. rewrite (latest_step P from i L SP q). fold hit. destruct hit.
        - split; congruence.
        - apply C. }
      apply entries_cons. split; [exact C'|].
      apply (IH (S i) (if hit then Some (pos_from i P) else cur) l'); [lia| |].
      + intros q. rewrite C'. replace (S i - 1) with i by lia. split; [intros H; split; [lia|exact H]|tauto].
      + rewrite <- El. f_equal.
        * rewrite pos_from_step by exact SO. subst om.
          destruct (nth_error (sr_omitted r) _) as [o|]; [destruct (Nat.eqb o i)|]; reflexivity.
        * rewrite pos_from_step by exact SP. subst hit.
          destruct (nth_error P _) as [o|]; [destruct (Nat.eqb o i)|]; reflexivity.
  Qed.

  Lemma ff_spl_ok P : spl_positions P -> forall k i, i + k <= length (sr_nodes r) ->
    ff_spl (sr_spls r) (firstn k (skipn i (sr_nodes r))) (pos_from i P) = pos_from (i + k) P.
  Proof.
    intros HP. pose proof HP as [ND [SP [F _]]].
    induction k as [|k IH]; intros i L; [rewrite Nat.add_0_r; reflexivity|].
    destruct (at_lt (sr_nodes r) i) as [n [En _]]; [lia|]. rewrite (skipn_nth _ _ _ En).
    cbn [firstn ff_spl].
    assert (H := spl_hit P i n (pos_from i P) HP En).
    destruct (Forall2_nth _ _ _ F (pos_from i P)) as [[a [b [Ea [Eb R]]]]|[Ea Eb]].
    - rewrite Ea in H |- *. rewrite Eb in H.
      replace (i + S k) with (S i + k) by lia. rewrite <- IH by lia. f_equal.
      rewrite pos_from_step by exact SP. rewrite Eb, H. reflexivity.
    - rewrite Ea. (* past the end *)
      assert (Ge : length P <= pos_from i P) by (apply nth_error_None; exact Eb).
      assert (Le : forall j (l : list nat), pos_from j l <= length l).
      { intros j l. unfold pos_from. induction l as [|x l IHl]; cbn; [lia|]. destruct (Nat.leb j x); lia. }
      assert (M : pos_from (i + S k) P = length P).
      { assert (A : pos_from i P = length P) by (pose proof (Le i P); lia).
        revert A. unfold pos_from. clear. induction P as [|x P IHP]; cbn; [reflexivity|].
        destruct (Nat.leb_spec i x); [lia|]. destruct (Nat.leb_spec (i + S k) x); lia. }
      pose proof (Le i P). lia.
  Qed.

  Lemma pos_from_0 l : pos_from 0 l = 0.
  Proof. destruct l; reflexivity. Qed.

  Lemma ff_indices_omit i : fst (fast_forward_indices r i) = pos_from i (sr_omitted r).
  Proof.
    unfold fast_forward_indices. destruct (Nat.eqb_spec i 0) as [E|N]; [|reflexivity].
    subst i. symmetry. apply pos_from_0.
  Qed.
  Lemma ff_indices_spl P i : spl_positions P -> i <= length (sr_nodes r) ->
    snd (fast_forward_indices r i) = pos_from i P.
  Proof.
    intros HP L. unfold fast_forward_indices. destruct (Nat.eqb_spec i 0) as [E|N].
    - subst i. symmetry. apply pos_from_0.
    - cbn [snd]. assert (H := ff_spl_ok P HP i 0 L). rewrite pos_from_0 in H. exact H.
  Qed.

  Definition fits : Prop := (N.of_nat (length (sr_nodes r)) < 65535)%N.
  Lemma sr_size_ok : fits -> sr_size r = Ok (length (sr_nodes r)).
  Proof. intros F. unfold sr_size. rewrite sassert_true; [reflexivity|]. apply N.ltb_lt. exact F. Qed.

  Lemma sr_from_to_ok from to : fits -> from <= to <= length (sr_nodes r) ->
    exists l, sr_from_to r from to = Ok l /\ length l = to - from /\ entries l from node_ok /\
      (StronglySorted lt (sr_omitted r) -> entries l from omitted_ok) /\
      (forall P, spl_positions P -> StronglySorted lt (sr_omitted r) -> entries l from (spl_ok P from)).
  Proof.
    intros F L. unfold sr_from_to. rewrite sassert_true by (apply Nat.leb_le; lia). cbn [bind].
    rewrite sr_size_ok by exact F. cbn [bind].
    destruct (Nat.leb_spec (length (sr_nodes r)) from) as [G|G].
    - exists []. split; [reflexivity|]. split; [cbn; lia|].
      assert (Z : forall P, entries [] from P) by (intros P [|k] x E; discriminate E).
      split; [apply Z|]. split; intros; apply Z.
    - destruct (fast_forward_indices r from) as [o s] eqn:E.
      assert (Eo : o = pos_from from (sr_omitted r)) by (rewrite <- ff_indices_omit, E; reflexivity).
      destruct (ft_loop_nodes (to - from) from o s None) as [l [El [Ll Pl]]]; [lia|].
      exists l. split; [exact El|]. split; [exact Ll|]. split; [exact Pl|]. rewrite Eo in El. split.
      + intros SO. exact (ft_loop_omitted _ SO _ _ _ _ El).
      + intros P HP SO. apply (ft_loop_spl P from (to - from) HP SO from None l); [lia| |].
        * intros q. split; [discriminate|lia].
        * rewrite <- El. f_equal. rewrite <- (ff_indices_spl P from HP) by lia. rewrite E. reflexivity.
  Qed.

  Lemma sr_from_to_unsorted_range from to : to < from -> sr_from_to r from to = Throw.
  Proof. intros L. unfold sr_from_to. destruct (Nat.leb_spec from to); [lia|]. reflexivity. Qed.
End SR.
