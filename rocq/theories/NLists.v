(* Facts about strictly ascending lists of N and index ranges. *)
From Coq Require Import Sorted.
From Verif Require Import Base ExclusionSetModel.
Local Open Scope N_scope.

Lemma nrange_In n i : In i (nrange n) <-> i < n.
Proof.
  unfold nrange. rewrite in_map_iff. split.
  - intros [x [Hx Hin]]. apply in_seq in Hin. lia.
  - intros H. exists (N.to_nat i). rewrite N2Nat.id. split; [reflexivity|].
    apply in_seq. lia.
Qed.

Lemma map_of_nat_seq_sorted len : forall st,
  StronglySorted N.lt (map N.of_nat (seq st len)).
Proof.
  induction len as [|len IH]; intros st; simpl; constructor; [apply IH|].
  apply Forall_forall. intros x Hx. apply in_map_iff in Hx.
  destruct Hx as [y [Hy Hin]]. apply in_seq in Hin. lia.
Qed.

Lemma nrange_sorted n : StronglySorted N.lt (nrange n).
Proof. apply map_of_nat_seq_sorted. Qed.

Lemma filter_sorted (f : N -> bool) l :
  StronglySorted N.lt l -> StronglySorted N.lt (filter f l).
Proof.
  induction 1 as [|a l Hs IH Hf]; simpl; [constructor|].
  destruct (f a); [|exact IH]. constructor; [exact IH|].
  apply Forall_forall. intros x Hx. apply filter_In in Hx.
  rewrite Forall_forall in Hf. apply Hf, Hx.
Qed.

Lemma sorted_ext l1 : forall l2,
  StronglySorted N.lt l1 -> StronglySorted N.lt l2 ->
  (forall x, In x l1 <-> In x l2) -> l1 = l2.
Proof.
  induction l1 as [|a l1 IH]; intros l2 H1 H2 Hin.
  - destruct l2 as [|b l2]; [reflexivity|]. exfalso. apply (Hin b). left; reflexivity.
  - destruct l2 as [|b l2]; [exfalso; apply (Hin a); left; reflexivity|].
    inversion H1 as [|? ? Hs1 Hf1]; subst. inversion H2 as [|? ? Hs2 Hf2]; subst.
    rewrite Forall_forall in Hf1, Hf2.
    assert (a = b) as ->.
    { assert (In a (b :: l2)) as Ha by (apply Hin; left; reflexivity).
      assert (In b (a :: l1)) as Hb by (apply Hin; left; reflexivity).
      destruct Ha as [Ha|Ha]; [congruence|]. destruct Hb as [Hb|Hb]; [congruence|].
      specialize (Hf1 _ Hb). specialize (Hf2 _ Ha). lia. }
    f_equal. apply IH; try assumption.
    intros x. specialize (Hin x). simpl in Hin. split; intros Hx.
    + assert (x <> b) by (specialize (Hf1 _ Hx); lia). intuition congruence.
    + assert (x <> b) by (specialize (Hf2 _ Hx); lia). intuition congruence.
Qed.

Lemma sorted_NoDup l : StronglySorted N.lt l -> NoDup l.
Proof.
  induction 1 as [|a l Hs IH Hf]; constructor; [|exact IH].
  intros Hin. rewrite Forall_forall in Hf. specialize (Hf _ Hin). lia.
Qed.

Lemma sorted_hd l m : StronglySorted N.lt l -> In m l -> (forall x, In x l -> m <= x) ->
  exists t, l = m :: t.
Proof.
  intros Hs Hin Hm. destruct l as [|a t]; [destruct Hin|]. exists t. f_equal.
  inversion Hs as [|? ? Hs' Hf]; subst. rewrite Forall_forall in Hf.
  destruct Hin as [->|Hin]; [reflexivity|]. specialize (Hf _ Hin).
  specialize (Hm a (or_introl eq_refl)). lia.
Qed.

Lemma sorted_last l m d : StronglySorted N.lt l -> In m l -> (forall x, In x l -> x <= m) ->
  List.last l d = m.
Proof.
  induction 1 as [|a l Hs IH Hf]; intros Hin Hm; [destruct Hin|].
  rewrite Forall_forall in Hf. destruct l as [|b l].
  - destruct Hin as [->|[]]. reflexivity.
  - change (List.last (a :: b :: l) d) with (List.last (b :: l) d).
    apply IH.
    + destruct Hin as [->|Hin]; [|exact Hin].
      specialize (Hf b (or_introl eq_refl)). specialize (Hm b (or_intror (or_introl eq_refl))). lia.
    + intros x Hx. apply Hm. right. exact Hx.
Qed.

Lemma map_add_sorted k l : StronglySorted N.lt l -> StronglySorted N.lt (map (N.add k) l).
Proof.
  induction 1 as [|a l Hs IH Hf]; simpl; constructor; [exact IH|].
  apply Forall_forall. intros x Hx. apply in_map_iff in Hx. destruct Hx as [y [<- Hy]].
  rewrite Forall_forall in Hf. specialize (Hf _ Hy). lia.
Qed.
