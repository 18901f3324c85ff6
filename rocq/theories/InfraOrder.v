(* The comparator used for sorting and the sorting itself *)
From Coq Require Import List Bool NArith QArith Lqa Sorted Permutation.
From Verif Require Import Base PhysModel TextModel InfraModel.
Import ListNotations.

Section SORTED.
  Context {A : Type} (lt : A -> A -> bool).
  (* lt is a strict total order on the elements of P *)
  Variable P : A -> Prop.
  Hypothesis irr : forall a, P a -> lt a a = false.
  Hypothesis tra : forall a b c, P a -> P b -> P c -> lt a b = true -> lt b c = true -> lt a c = true.
  Hypothesis tot : forall a b, P a -> P b -> a <> b -> lt a b = true \/ lt b a = true.

  Notation R := (fun a b => lt a b = true).

  Lemma insert_perm x l : Permutation (insert lt x l) (x :: l).
  Proof.
    induction l as [|y l IH]; cbn [insert]; auto.
    destruct (lt x y); auto.
    eapply perm_trans. { apply perm_skip, IH. } apply perm_swap.
  Qed.
  Lemma sort_perm l : Permutation (sort lt l) l.
  Proof.
    induction l as [|x l IH]; cbn [sort]; auto.
    eapply perm_trans. { apply insert_perm. } apply perm_skip, IH.
  Qed.
  Lemma insert_sorted x l : P x -> Forall P l -> ~ In x l ->
    StronglySorted R l -> StronglySorted R (insert lt x l).
  Proof.
    intros Hx. induction l as [|y l IH]; cbn [insert]; intros HP Hn HS.
    - constructor; constructor.
    - inversion HP as [|? ? Hy HP']; subst. inversion HS as [|? ? HS' HF]; subst.
      destruct (lt x y) eqn:E.
      + constructor; auto. constructor; auto.
        rewrite Forall_forall in *. intros z Hz. apply tra with y; auto.
      + constructor.
        * apply IH; auto. intros H; apply Hn; right; auto.
        * rewrite Forall_forall in *. intros z Hz.
          apply (Permutation_in z (insert_perm x l)) in Hz. destruct Hz as [<-|Hz]; auto.
          assert (Hne : x <> y) by (intros ->; apply Hn; left; auto).
          destruct (tot x y Hx Hy Hne) as [H|H]; congruence.
  Qed.
  Lemma sort_sorted l : Forall P l -> NoDup l -> StronglySorted R (sort lt l).
  Proof.
    induction l as [|x l IH]; cbn [sort]; intros HP HN; [constructor|].
    inversion HP; subst. inversion HN; subst.
    apply insert_sorted; auto.
    - rewrite Forall_forall in *. intros z Hz. apply H2. eapply Permutation_in; [apply sort_perm|auto].
    - intros H; apply H3. eapply Permutation_in; [apply sort_perm|auto].
  Qed.
  (* the result does not depend on the algorithm *)
  Lemma sorted_unique l1 : forall l2, Forall P l1 -> Permutation l1 l2 ->
    StronglySorted R l1 -> StronglySorted R l2 -> l1 = l2.
  Proof.
    induction l1 as [|x l1 IH]; intros l2 HP HPm S1 S2.
    - apply Permutation_nil in HPm. auto.
    - destruct l2 as [|y l2]. { apply Permutation_sym, Permutation_nil in HPm; discriminate. }
      inversion S1 as [|? ? S1' F1]; subst. inversion S2 as [|? ? S2' F2]; subst.
      inversion HP as [|? ? Px HP']; subst.
      assert (x = y) as ->.
      { assert (Hy : In y (x :: l1)) by (eapply Permutation_in; [apply Permutation_sym; eauto|left; auto]).
        assert (Hx : In x (y :: l2)) by (eapply Permutation_in; [eauto|left; auto]).
        destruct Hy as [|Hy]; auto. destruct Hx as [|Hx]; auto.
        rewrite Forall_forall in *. specialize (F1 y Hy). specialize (F2 x Hx). cbn in *.
        assert (Py : P y) by auto.
        pose proof (tra x y x Px Py Px F1 F2). rewrite irr in H; auto. discriminate. }
      f_equal. apply IH; auto. eapply Permutation_cons_inv; eauto.
  Qed.
End SORTED.

(* ---- the comparator ---- *)
Lemma qlt_iff a b : qlt a b = true <-> (a < b)%Q.
Proof.
  unfold qlt. rewrite negb_true_iff. split; intros H.
  - destruct (Qlt_le_dec a b) as [|L]; auto. apply Qle_bool_iff in L. congruence.
  - destruct (Qle_bool b a) eqn:E; auto. apply Qle_bool_iff in E. lra.
Qed.
Lemma qlt_false a b : qlt a b = false <-> (b <= a)%Q.
Proof.
  unfold qlt. rewrite negb_false_iff. apply Qle_bool_iff.
Qed.
Lemma fuzzy_iff a b : fuzzy_eq a b = true <-> (a - b < 1#100 /\ b - a < 1#100)%Q.
Proof.
  unfold fuzzy_eq, qabs, FP_PRECISION. rewrite qlt_iff.
  destruct (qlt (a - b) 0) eqn:E; [apply qlt_iff in E|apply qlt_false in E]; split; intros; try split; lra.
Qed.

(* equal or a centimetre apart *)
Definition spaced (x y : Q) : Prop := (x == y \/ x + (1#100) <= y \/ y + (1#100) <= x)%Q.

Lemma fuzzy_spaced x y : spaced x y -> fuzzy_eq x y = true <-> (x == y)%Q.
Proof. intros S. rewrite fuzzy_iff. destruct S as [S|[S|S]]; split; intros; try split; lra. Qed.
Lemma fuzzy_spaced_false x y : spaced x y -> fuzzy_eq x y = false <-> ~ (x == y)%Q.
Proof.
  intros S. pose proof (fuzzy_spaced x y S). destruct (fuzzy_eq x y); split; intros; try congruence.
  - exfalso; apply H0. apply H; auto.
  - intros E. apply H in E. discriminate.
Qed.

Definition tkey (k : okey) : Z := get_type_order_key (k_type k) (k_rising k).
(* what the comparator decides *)
Definition klt (up : bool) (a b : okey) : Prop :=
  (if up then k_km a < k_km b else k_km b < k_km a)%Q \/
  (k_km a == k_km b)%Q /\ ((tkey a < tkey b)%Z \/ tkey a = tkey b /\ (k_id a < k_id b)%N).

Lemma order_iff up a b : spaced (k_km a) (k_km b) -> order_impl up a b = true <-> klt up a b.
Proof.
  intros S. unfold order_impl, klt. fold (tkey a). fold (tkey b).
  destruct (fuzzy_eq (k_km a) (k_km b)) eqn:F; cbn [negb].
  - apply fuzzy_spaced in F; auto.
    destruct (Z.eqb_spec (tkey a) (tkey b)) as [E|E]; cbn [negb].
    + rewrite N.ltb_lt. split; intros H.
      * right. split; auto.
      * destruct H as [H|[_ [H|[_ H]]]]; auto; [|lia]. exfalso. destruct up; lra.
    + rewrite Z.ltb_lt. split; intros H.
      * right; split; auto.
      * destruct H as [H|[_ [H|[H _]]]]; auto; [|lia]. exfalso. destruct up; lra.
  - apply fuzzy_spaced_false in F; auto.
    destruct up; rewrite qlt_iff; split; intros H; auto; destruct H as [H|[H _]]; auto; exfalso; auto.
Qed.

Lemma klt_irr up a : ~ klt up a a.
Proof. intros [H|[_ [H|[_ H]]]]; try lia. destruct up; lra. Qed.
Lemma klt_tra up a b c : klt up a b -> klt up b c -> klt up a c.
Proof.
  unfold klt. intros [H|[H H']] [G|[G G']].
  - left. destruct up; lra.
  - left. destruct up; lra.
  - left. destruct up; lra.
  - right. split; [lra|]. destruct H' as [H'|[H' H'']], G' as [G'|[G' G'']]; try (left; lia). right; lia.
Qed.
Lemma klt_tot up a b : klt up a b \/ klt up b a \/
  ((k_km a == k_km b)%Q /\ tkey a = tkey b /\ k_id a = k_id b).
Proof.
  unfold klt. destruct (Q_dec (k_km a) (k_km b)) as [[H|H]|H].
  - destruct up; [left; left; lra|right; left; left; lra].
  - destruct up; [right; left; left; lra|left; left; lra].
  - destruct (Z.lt_trichotomy (tkey a) (tkey b)) as [T|[T|T]].
    + left; right; split; auto.
    + destruct (N.lt_trichotomy (k_id a) (k_id b)) as [U|[U|U]].
      * left; right; split; auto.
      * right; right; auto.
      * right; left; right; split; [lra|]. right; split; auto.
    + right; left; right; split; [lra|]. left; lia.
Qed.

Section NODES.
  Variable l : list tnode.
  Hypothesis sp : forall a b, In a l -> In b l -> spaced (tn_km a) (tn_km b).
  Hypothesis ids : NoDup (map (fun n => w32 (tn_id n)) l).

  Lemma in_dec_key a b : In a l -> In b l -> w32 (tn_id a) = w32 (tn_id b) -> a = b.
  Proof.
    clear sp. induction l as [|x r IH]; intros Ha Hb E; [destruct Ha|].
    inversion ids as [|? ? Hn Hd]; subst.
    destruct Ha as [<-|Ha], Hb as [<-|Hb]; auto.
    - exfalso. apply Hn. rewrite E. apply (in_map (fun n => w32 (tn_id n))); auto.
    - exfalso. apply Hn. rewrite <- E. apply (in_map (fun n => w32 (tn_id n))); auto.
  Qed.
  Lemma NoDup_nodes : NoDup l.
  Proof. eapply NoDup_map_inv; eauto. Qed.

  Lemma sort_nodes_perm up : Permutation (sort_nodes up l) l.
  Proof. apply sort_perm. Qed.
  Lemma sort_nodes_sorted up :
    StronglySorted (fun a b => klt up (node_key a) (node_key b)) (sort_nodes up l).
  Proof.
    assert (H : StronglySorted (fun a b => order_impl up (node_key a) (node_key b) = true) (sort_nodes up l)).
    { apply (sort_sorted _ (fun n => In n l)).
      - intros a b c Ha Hb Hc. rewrite !order_iff by (apply sp; auto). apply klt_tra.
      - intros a b Ha Hb Hne. rewrite !order_iff by (apply sp; auto).
        destruct (klt_tot up (node_key a) (node_key b)) as [H|[H|[_ [_ H]]]]; auto.
        exfalso. apply Hne. apply in_dec_key; auto.
      - apply Forall_forall; auto.
      - apply NoDup_nodes. }
    assert (G : forall n, In n (sort_nodes up l) -> In n l).
    { intros n Hn. eapply Permutation_in; [apply sort_nodes_perm|eauto]. }
    revert H G. generalize (sort_nodes up l) as r. induction r as [|x r IH]; intros H G; constructor.
    - inversion H; subst. apply IH; auto. intros; apply G; right; auto.
    - inversion H; subst. rewrite Forall_forall in *. intros y Hy. apply order_iff; auto.
      apply sp; apply G; [left|right]; auto.
  Qed.
End NODES.
