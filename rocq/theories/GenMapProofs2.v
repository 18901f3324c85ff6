From Coq Require Import String List QArith ZArith NArith Bool Lia Permutation.
From Verif Require Import Base GenOsmModel GenOsmSpec GenOsmProofs GenFindModel GenFindSpec GenFindProofs GenFindProofs2 GenMapModel GenMapSpec GenMapProofs.
Import ListNotations.
Local Open Scope list_scope.
Local Open Scope nat_scope.

(* ---- putting a node in keeps the network fit ---- *)
Lemma beside_split new ref l l' : beside new ref l l' -> (l' = l /\ ~ In ref l) \/ exists p q, l = p ++ q /\ l' = p ++ new :: q.
Proof.
  intros H. destruct H as [nds|pre post|pre].
  - left. auto.
  - right. exists (pre ++ [ref]), post. rewrite <- !app_assoc. auto.
  - right. exists pre, [ref]. auto.
Qed.
Lemma cut_next (x : string) : forall p pre a b post q, pre ++ a :: b :: post = p ++ x :: q -> a <> x -> b <> x ->
  exists pre' post', p ++ q = pre' ++ a :: b :: post'.
Proof.
  induction p as [|y p IH]; intros pre a b post q E Ha Hb.
  - destruct pre as [|z pre]; cbn in E; inversion E; subst; [contradiction|]. exists pre, post. reflexivity.
  - destruct pre as [|z pre]; cbn in E; inversion E; subst.
    + destruct p as [|y' p]; cbn in H1; inversion H1; subst; [contradiction|]. exists [], (p ++ q). reflexivity.
    + destruct (IH pre a b post q H1 Ha Hb) as (pre' & post' & E'). exists (y :: pre'), post'. cbn. rewrite E'. reflexivity.
Qed.
Lemma beside_next new ref l l' a b : beside new ref l l' -> a <> new -> b <> new -> next_in l' a b -> next_in l a b.
Proof.
  intros H Ha Hb (pre & post & Hn). destruct (beside_split _ _ _ _ H) as [[-> _]|(p & q & -> & ->)]; [exists pre, post; exact Hn|].
  destruct Hn as [E|E]; symmetry in E; apply cut_next in E; try assumption; destruct E as (pre' & post' & E); exists pre', post'; auto.
Qed.
Lemma Forall2_nth {A B} (R : A -> B -> Prop) l l' : Forall2 R l l' -> forall i b, nth_error l' i = Some b -> exists a, nth_error l i = Some a /\ R a b.
Proof.
  induction 1 as [|x y l l' H HF IH]; intros i b E; [destruct i; discriminate|]. destruct i as [|i]; cbn in *; [inversion E; subst; eauto|eauto].
Qed.
Lemma Forall2_nth_left {A B} (R : A -> B -> Prop) l l' : Forall2 R l l' -> forall i a, nth_error l i = Some a -> exists b, nth_error l' i = Some b /\ R a b.
Proof.
  induction 1 as [|x y l l' H HF IH]; intros i b E; [destruct i; discriminate|]. destruct i as [|i]; cbn in *; [inversion E; subst; eauto|eauto].
Qed.
Lemma node_of_app o o1 new id n : o_nodes o1 = o_nodes o ++ [new] -> node_of o id n -> node_of o1 id n.
Proof. intros E (pre & post & Eo & Hi & HF). exists pre, (post ++ [new]). rewrite E, Eo, <- app_assoc. auto. Qed.

Definition put_beside (o o1 : osm) (new ref : node) : Prop :=
  o_nodes o1 = o_nodes o ++ [new] /\
  Forall2 (fun w w1 => w_tags w1 = w_tags w /\ w_id w1 = w_id w /\ beside (n_id new) (n_id ref) (w_nd w) (w_nd w1)) (o_ways o) (o_ways o1).
Definition fresh_in (o : osm) (new : node) : Prop :=
  (forall n, In n (o_nodes o) -> n_id n <> n_id new) /\ forall w, In w (o_ways o) -> ~ In (n_id new) (w_nd w).

Lemma put_on_one o o1 new ref i j wi wj : put_beside o o1 new ref -> fresh_in o new -> on_one_way o (n_id ref) -> i <> j ->
  nth_error (o_ways o1) i = Some wi -> nth_error (o_ways o1) j = Some wj -> ~ (In (n_id new) (w_nd wi) /\ In (n_id new) (w_nd wj)).
Proof.
  intros (En & HF) (F1 & F2) Hone Hij Hi Hj (Ii & Ij).
  assert (G : forall k wk, nth_error (o_ways o1) k = Some wk -> In (n_id new) (w_nd wk) -> exists w, nth_error (o_ways o) k = Some w /\ In (n_id ref) (w_nd w)).
  { intros k wk Hk Ik. destruct (Forall2_nth _ _ _ HF k wk Hk) as (w & Hw & _ & _ & Hb). exists w. split; [exact Hw|].
    assert (Hnw : ~ In (n_id new) (w_nd w)) by (apply F2; eapply nth_error_In, Hw).
    inversion Hb as [nds Hr E1 E2|pre post Hp Hne E1 E2|pre Hp E1 E2].
    - exfalso. apply Hnw. congruence.
    - apply in_or_app. right. left. reflexivity.
    - apply in_or_app. right. left. reflexivity. }
  destruct (G i wi Hi Ii) as (vi & Hvi & Hri). destruct (G j wj Hj Ij) as (vj & Hvj & Hrj). exact (Hij (Hone i j vi vj Hvi Hvj Hri Hrj)).
Qed.

Lemma put_clean o o1 new ref : put_beside o o1 new ref -> fresh_in o new -> on_one_way o (n_id ref) ->
  simple_ways o /\ separate_ways o /\ complete o /\ meet_at_ends o -> simple_ways o1 /\ separate_ways o1 /\ complete o1 /\ meet_at_ends o1.
Proof.
  intros HB HFr Hone (C1 & C2 & C3 & C4). pose proof HB as (En & HF). pose proof HFr as (F1 & F2).
  assert (S1 : simple_ways o1).
  { intros w1 Hw1. destruct (Forall2_in_right _ _ _ _ HF Hw1) as (w & Hw & _ & _ & Hb). destruct (C1 w Hw) as [N L].
    split; [|pose proof (beside_longer _ _ _ _ Hb); lia]. destruct (beside_split _ _ _ _ Hb) as [[-> _]|(p & q & E & E1)]; [exact N|].
    rewrite E1. rewrite E in N. apply (Permutation_NoDup (Permutation_middle _ _ _)). constructor; [|exact N]. rewrite <- E. apply F2, Hw. }
  split; [exact S1|]. split; [|split].
  - intros i j wi wj a b Hij Hi Hj Hni Hnj.
    pose proof (put_on_one o o1 new ref i j wi wj HB HFr Hone Hij Hi Hj) as Hno.
    destruct (next_in_in _ _ _ Hni) as [Ia Ib]. destruct (next_in_in _ _ _ Hnj) as [Ja Jb].
    destruct (Forall2_nth _ _ _ HF i wi Hi) as (vi & Hvi & _ & _ & Hbi). destruct (Forall2_nth _ _ _ HF j wj Hj) as (vj & Hvj & _ & _ & Hbj).
    assert (a <> n_id new) by (intros ->; apply Hno; auto). assert (b <> n_id new) by (intros ->; apply Hno; auto).
    refine (C2 i j vi vj a b Hij Hvi Hvj _ _); eapply beside_next; eassumption.
  - intros w1 id Hw1 Hid. destruct (Forall2_in_right _ _ _ _ HF Hw1) as (w & Hw & _ & _ & Hb).
    destruct (string_dec id (n_id new)) as [->|Hne].
    + exists new. exists (o_nodes o), []. split; [exact En|]. split; [reflexivity|]. apply Forall_forall. exact F1.
    + assert (Hid' : In id (w_nd w)). { apply (grown_in _ _ _ _ (beside_grown _ _ _ _ Hb)) in Hid; [exact Hid|]. intros [E|[]]. congruence. }
      destruct (C3 w id Hw Hid') as [n Hn]. exists n. eapply node_of_app; eassumption.
  - intros i j wi wj id Hij Hi Hj Ii Ij.
    pose proof (put_on_one o o1 new ref i j wi wj HB HFr Hone Hij Hi Hj) as Hno.
    assert (Hne : id <> n_id new) by (intros ->; apply Hno; auto).
    destruct (Forall2_nth _ _ _ HF i wi Hi) as (vi & Hvi & _ & _ & Hbi). destruct (Forall2_nth _ _ _ HF j wj Hj) as (vj & Hvj & _ & _ & Hbj).
    assert (G : forall v w, beside (n_id new) (n_id ref) v w -> In id w -> In id v).
    { intros v w Hb H. apply (grown_in _ _ _ _ (beside_grown _ _ _ _ Hb)) in H; [exact H|]. intros [E|[]]. congruence. }
    destruct (C4 i j vi vj id Hij Hvi Hvj (G _ _ Hbi Ii) (G _ _ Hbj Ij)) as (l & El).
    destruct (C1 vi (nth_error_In _ _ Hvi)) as [_ Hlen]. destruct (beside_ends _ _ _ _ Hbi Hlen) as [E1 E2].
    destruct El as [El|El]; rewrite El in E1, E2.
    + cbn in E1. destruct (w_nd wi) as [|x l']; [discriminate|]. inversion E1; subst. exists l'. left. reflexivity.
    + rewrite rev_app_distr in E2. cbn in E2. destruct (rev (w_nd wi)) as [|x l'] eqn:Er; [discriminate|]. inversion E2; subst.
      exists (rev l'). right. rewrite <- (rev_involutive (w_nd wi)), Er. reflexivity.
Qed.

(* where a new node lies at the end it lies on the way *)
Lemma tried_clean hav fuel o c l out o' : tried hav fuel o c l out o' -> unused o c ->
  (forall order j a m, In (order, j) l -> In a order -> In m (snd a) -> In m (o_nodes o)) ->
  (forall n, In n (placed out) -> on_one_way o' (n_id n)) ->
  simple_ways o /\ separate_ways o /\ complete o /\ meet_at_ends o -> simple_ways o' /\ separate_ways o' /\ complete o' /\ meet_at_ends o'.
Proof.
  intros H. induction H as [o c|o c order j l out o' Hf H IH|o c order j l out o1 o' ref new Hf Et Ei Ela Elo En Er HF H IH]; intros Hu Ha Hone HC; [exact HC| |].
  - apply IH; [exact Hu| |exact Hone|exact HC]. intros order' j' a m Hin. apply (Ha order' j' a m (or_intror Hin)).
  - pose proof (unused_step _ _ _ _ _ Hu Ei En HF) as Hu1.
    assert (Ha1 : forall order' j' a m, In (order', j') l -> In a order' -> In m (snd a) -> In m (o_nodes o1)).
    { intros order' j' a m Hin H1 H2. rewrite En. apply in_or_app. left. apply (Ha order' j' a m); [right; exact Hin|exact H1|exact H2]. }
    cbn [placed flat_map snd app] in Hone. fold (placed out) in Hone.
    apply IH; [exact Hu1|exact Ha1|intros n Hn; apply Hone; right; exact Hn|]. clear IH.
    refine (put_clean o o1 new ref (conj En HF) _ _ HC).
    { split; [intros n Hn; rewrite Ei; apply (proj1 (Hu (c + 1)%N ltac:(lia))), Hn|intros w Hw; rewrite Ei; apply (proj2 (Hu (c + 1)%N ltac:(lia))), Hw]. }
    destruct (tried_result _ _ _ _ _ _ _ H Hu1 Ha1) as (_ & _ & I3 & I4 & _ & _).
    assert (G : forall i w, nth_error (o_ways o) i = Some w -> In (n_id ref) (w_nd w) -> exists w', nth_error (o_ways o') i = Some w' /\ In (n_id new) (w_nd w')).
    { intros i w Hw Hr. destruct (Forall2_nth_left _ _ _ HF i w Hw) as (w1 & Hw1 & _ & _ & Hb).
      destruct (Forall2_nth_left _ _ _ I4 i w1 Hw1) as (w' & Hw' & _ & _ & Hg & _). exists w'. split; [exact Hw'|].
      apply (grown_in _ _ _ _ Hg).
      - rewrite I3. intros Hi. apply in_map_iff in Hi. destruct Hi as (k & E & Hk). apply in_seq in Hk. rewrite Ei in E. apply decimal_inj in E. lia.
      - apply (beside_same _ _ _ _ Hb); [rewrite Ei; apply (proj2 (Hu (c + 1)%N ltac:(lia))); eapply nth_error_In, Hw|].
        inversion Hb as [nds Hr' E1 E2|pre post Hp Hne E1 E2|pre Hp E1 E2]; [exfalso; apply Hr'; exact Hr| |]; apply in_or_app; right; cbn; auto. }
    intros i1 i2 w1 w2 H1 H2 R1 R2. destruct (G _ _ H1 R1) as (v1 & V1 & N1). destruct (G _ _ H2 R2) as (v2 & V2 & N2).
    exact (Hone new (or_introl eq_refl) i1 i2 v1 v2 V1 V2 N1 N2).
Qed.
