(* Breadth first search takes the nodes in the order of their distance. *)
From Verif Require Import Base GraphModel GraphProofs.
From Coq Require Import Permutation Sorting.Sorted.

(* a walk of exactly k edges *)
Inductive walkn (nbrs : nat -> list nat) : nat -> nat -> nat -> Prop :=
| walkn_0 a : walkn nbrs 0 a a
| walkn_S k a b c : edge nbrs a b -> walkn nbrs k b c -> walkn nbrs (S k) a c.

Lemma walkn_snoc nbrs k a b c : walkn nbrs k a b -> edge nbrs b c -> walkn nbrs (S k) a c.
Proof.
  induction 1 as [a|k a b x E W IH]; intros H.
  - eapply walkn_S; [exact H|constructor].
  - eapply walkn_S; [exact E|]. apply IH, H.
Qed.

Lemma walkn_snoc_inv nbrs k a c : walkn nbrs (S k) a c -> exists b, walkn nbrs k a b /\ edge nbrs b c.
Proof.
  revert a. induction k as [|k IH]; intros a W; inversion W as [|k' a' b c' E V]; subst.
  - inversion V; subst. exists a. split; [constructor|exact E].
  - destruct (IH b V) as [y [V' E']]. exists y. split; [|exact E']. eapply walkn_S; eassumption.
Qed.

Lemma walk_walkn nbrs a b : walk nbrs a b <-> exists k, walkn nbrs (S k) a b.
Proof.
  split.
  - induction 1 as [a b E|a b c E W [k IH]].
    + exists 0. eapply walkn_S; [exact E|constructor].
    + exists (S k). eapply walkn_S; eassumption.
  - intros [k W]. revert a W. induction k as [|k IH]; intros a W; inversion W as [|k' a' y c' E V]; subst.
    + inversion V; subst. apply walk_one, E.
    + eapply walk_step; [exact E|apply IH, V].
Qed.

Section Depth.
  Variable nbrs : nat -> list nat.
  Variable start size : nat.
  Hypothesis R : in_range nbrs size.
  Hypothesis Ls : start < size.

  (* the entries of the queue with their depth *)
  Definition entry : Type := (nat * nat * nat)%type.      (* node, found from, depth *)
  Definition e_cp (e : entry) : nat * nat := fst e.
  Definition e_n (e : entry) : nat := fst (fst e).
  Definition e_d (e : entry) : nat := snd e.

  Fixpoint dpops (fuel : nat) (q : list entry) (seen : list nat) : option (list entry) :=
    match q with
    | [] => Some []
    | e :: q =>
        match fuel with
        | O => None
        | S fuel =>
            match dpops fuel (q ++ map (fun x => (x, e_n e, S (e_d e))) (fresh (nbrs (e_n e)) seen))
                        (rev (fresh (nbrs (e_n e)) seen) ++ seen) with
            | Some l => Some (e :: l)
            | None => None
            end
        end
    end.

  Lemma dpops_pops fuel : forall q seen,
    pops true nbrs fuel (map e_cp q) seen = option_map (map e_cp) (dpops fuel q seen).
  Proof.
    induction fuel as [|fuel IH]; intros q seen; destruct q as [|[[c p] d] q]; try reflexivity.
    cbn [dpops map e_cp fst pops]. cbn [e_n e_d fst snd].
    set (f := fresh (nbrs c) seen).
    replace (pushes true (map e_cp q) (map (fun x => (x, c)) f))
      with (map e_cp (q ++ map (fun x => (x, c, S d)) f)).
    2:{ unfold pushes. rewrite map_app, map_map. reflexivity. }
    rewrite IH. destruct (dpops fuel _ _); reflexivity.
  Qed.

  (* the queue: depths k, then depths k+1 *)
  Record dinv (done q : list entry) : Prop := {
    di_layers : exists k q1 q2, q = q1 ++ q2 /\ (forall e, In e q1 -> e_d e = k) /\
                  (forall e, In e q2 -> e_d e = S k) /\ (forall e, In e done -> e_d e <= k);
    di_sorted : StronglySorted le (map e_d done);
    di_parent : forall c p d, In (c, p, d) (done ++ q) ->
                  edge nbrs p c /\ ((p = start /\ d = 1) \/ exists p' d', In (p, p', d') done /\ d = S d') }.

  Definition covers (l : list entry) (x d : nat) : Prop := exists p d', In (x, p, d') l /\ d' <= d.

  Lemma dinv_step done e q f : dinv done (e :: q) -> (forall x, In x f -> edge nbrs (e_n e) x) ->
    dinv (done ++ [e]) (q ++ map (fun x => (x, e_n e, S (e_d e))) f).
  Proof.
    intros [[k [q1 [q2 [Eq [L1 [L2 L3]]]]]] S P] Hf.
    assert (K : exists k' q1' q2', e :: q = (e :: q1') ++ q2' /\ e_d e = k' /\
               (forall x, In x q1' -> e_d x = k') /\ (forall x, In x q2' -> e_d x = Datatypes.S k') /\
               (forall x, In x done -> e_d x <= k')).
    { destruct q1 as [|e1 q1].
      - destruct q2 as [|e2 q2]; [discriminate|]. cbn in Eq. injection Eq as -> ->.
        exists (Datatypes.S k), q2, []. rewrite app_nil_r. split; [reflexivity|].
        split; [apply L2; left; reflexivity|]. split; [intros x Hx; apply L2; right; exact Hx|].
        split; [intros x []|]. intros x Hx. specialize (L3 x Hx). lia.
      - cbn in Eq. injection Eq as -> ->. exists k, q1, q2. split; [reflexivity|].
        split; [apply L1; left; reflexivity|]. split; [intros x Hx; apply L1; right; exact Hx|].
        split; assumption. }
    clear k q1 q2 Eq L1 L2 L3. destruct K as [k [q1 [q2 [Eq [Ed [L1 [L2 L3]]]]]]].
    cbn in Eq. injection Eq as Eq. constructor.
    - exists k, q1, (q2 ++ map (fun x => (x, e_n e, Datatypes.S (e_d e))) f).
      split; [rewrite Eq, app_assoc; reflexivity|]. split; [exact L1|]. split.
      + intros x Hx. apply in_app_iff in Hx. destruct Hx as [Hx|Hx]; [apply L2, Hx|].
        apply in_map_iff in Hx. destruct Hx as [y [<- _]]. cbn. lia.
      + intros x Hx. apply in_app_iff in Hx. destruct Hx as [Hx|[<-|[]]]; [apply L3, Hx|lia].
    - rewrite map_app. cbn [map]. clear - S L3 Ed. induction done as [|a done IH]; cbn [map app].
      + constructor; constructor.
      + cbn [map] in S. inversion S as [|? ? S1 F1]; subst. constructor.
        * apply IH; [exact S1|]. intros x Hx. apply L3. right. exact Hx.
        * apply Forall_forall. intros y Hy. apply in_app_iff in Hy. destruct Hy as [Hy|[<-|[]]].
          -- rewrite Forall_forall in F1. apply F1, Hy.
          -- apply L3. left. reflexivity.
    - intros c p d H.
      assert (D : In (c, p, d) (done ++ e :: q) \/ In (c, p, d) (map (fun x => (x, e_n e, Datatypes.S (e_d e))) f)).
      { rewrite in_app_iff in H. rewrite in_app_iff in H. rewrite in_app_iff in H. rewrite in_app_iff. cbn [In] in *. tauto. }
      destruct D as [D|D].
      + destruct (P c p d D) as [X Y]. split; [exact X|]. destruct Y as [Y|[p' [d' [Y1 Y2]]]]; [left; exact Y|].
        right. exists p', d'. split; [apply in_or_app; left; exact Y1|exact Y2].
      + apply in_map_iff in D. destruct D as [x [Eqx Hx]]. injection Eqx as <- <- <-.
        split; [apply Hf, Hx|]. right. exists (snd (fst e)), (e_d e).
        split; [|reflexivity]. apply in_or_app. right. left. destruct e as [[? ?] ?]. reflexivity.
  Qed.

  (* every neighbour of a taken entry is in the lists, at most one deeper *)
  Definition cinv (done q : list entry) : Prop :=
    forall c p d x, In (c, p, d) ((start, start, 0) :: done) -> edge nbrs c x -> covers (done ++ q) x (S d).

  Lemma dpops_ok fuel : forall done q seen l,
    dinv done q -> cinv done q ->
    (forall x, In x seen <-> In x (map e_n (done ++ q))) ->
    dpops fuel q seen = Some l ->
    dinv (done ++ l) [] /\ cinv (done ++ l) [].
  Proof.
    induction fuel as [|fuel IH]; intros done q seen l D C Sn E; destruct q as [|e q]; cbn [dpops] in E;
      try discriminate.
    - injection E as <-. rewrite app_nil_r. split; assumption.
    - injection E as <-. rewrite app_nil_r. split; assumption.
    - set (f := fresh (nbrs (e_n e)) seen) in *.
      destruct (dpops fuel _ _) as [l'|] eqn:E'; [|discriminate]. injection E as <-.
      assert (D2 : dinv (done ++ [e]) (q ++ map (fun x => (x, e_n e, S (e_d e))) f)).
      { apply dinv_step; [exact D|]. intros x Hx. apply fresh_In in Hx. apply Hx. }
      assert (Hin : forall y, In y (done ++ e :: q) -> In y ((done ++ [e]) ++ q ++ map (fun x => (x, e_n e, S (e_d e))) f)).
      { intros y Hy. rewrite !in_app_iff in *. cbn [In] in *. tauto. }
      assert (Hd : forall y, In y (done ++ e :: q) -> e_d y <= S (e_d e)).
      { destruct D as [[k [q1 [q2 [Eq [L1 [L2 L3]]]]]] _ _]. intros y Hy.
        apply in_app_iff in Hy. rewrite Eq in Hy.
        assert (e_d e = k \/ e_d e = S k).
        { assert (In e (q1 ++ q2)) as He by (rewrite <- Eq; left; reflexivity).
          apply in_app_iff in He. destruct He as [He|He]; [left; apply L1, He|right; apply L2, He]. }
        destruct Hy as [Hy|Hy]; [specialize (L3 y Hy); lia|].
        apply in_app_iff in Hy. destruct Hy as [Hy|Hy]; [rewrite (L1 y Hy); lia|rewrite (L2 y Hy); lia]. }
      assert (C2 : cinv (done ++ [e]) (q ++ map (fun x => (x, e_n e, S (e_d e))) f)).
      { intros c p d x Hc Hx.
        assert (Old : In (c, p, d) ((start, start, 0) :: done) \/ (c, p, d) = e).
        { destruct Hc as [Hc|Hc]; [left; left; exact Hc|]. apply in_app_iff in Hc.
          destruct Hc as [Hc|[Hc|[]]]; [left; right; exact Hc|right; symmetry; exact Hc]. }
        destruct Old as [Old|Old].
        - destruct (C c p d x Old Hx) as [p' [d' [H1 H2]]]. exists p', d'. split; [apply Hin, H1|exact H2].
        - destruct (in_dec Nat.eq_dec x seen) as [I|I].
          + apply Sn in I. apply in_map_iff in I. destruct I as [[[x' p'] d'] [Ex I]]. cbn in Ex. subst x'.
            exists p', d'. split; [apply Hin, I|]. specialize (Hd _ I). subst e. cbn in *. lia.
          + exists (e_n e), (S (e_d e)). split; [|subst e; cbn; lia].
            apply in_or_app. right. apply in_or_app. right. apply in_map_iff. exists x.
            split; [reflexivity|]. apply fresh_In. split; [subst e; exact Hx|exact I]. }
      assert (Sn2 : forall x, In x (rev f ++ seen) <->
        In x (map e_n ((done ++ [e]) ++ q ++ map (fun x => (x, e_n e, S (e_d e))) f))).
      { intros x. rewrite in_app_iff, <- in_rev. rewrite Sn. rewrite !map_app, !in_app_iff, map_map.
        cbn [map In]. fold e_n. replace (map (fun x0 : nat => e_n (x0, e_n e, S (e_d e))) f) with f.
        * tauto.
        * symmetry. apply map_id. }
      destruct (IH _ _ _ _ D2 C2 Sn2 E') as [A B].
      rewrite <- app_assoc in A, B. split; assumption.
  Qed.

  (* the nodes bfs takes, with their depths *)
  Lemma bfs_ok fuel : S size <= fuel ->
    exists l, pops true nbrs fuel [(start, start)] [] = Some ((start, start) :: map e_cp l) /\
      NoDup (map e_n l) /\
      StronglySorted le (map e_d l) /\
      (forall c p d, In (c, p, d) l -> edge nbrs p c /\
          ((p = start /\ d = 1) \/ exists p' d', In (p, p', d') l /\ d = S d')) /\
      (forall k x, walkn nbrs (S k) start x -> exists p d, In (x, p, d) l /\ d <= S k) /\
      (forall c p d, In (c, p, d) l -> walkn nbrs d start c).
  Proof.
    intros F. destruct (pops_ok true nbrs start size R Ls fuel F) as [rest [E [N [K Ed]]]].
    assert (E2 := E). destruct fuel as [|fuel]; [lia|]. cbn [pops] in E2.
    set (f := fresh (nbrs start) []) in *.
    set (q0 := map (fun x => (x, start, 1)) f : list entry).
    replace (pushes true [] (map (fun x => (x, start)) f)) with (map e_cp q0) in E2.
    2:{ unfold q0, pushes. rewrite map_map. reflexivity. }
    rewrite dpops_pops in E2. destruct (dpops fuel q0 (rev f ++ [])) as [l|] eqn:El; [|discriminate].
    cbn [option_map] in E2. injection E2 as E2.
    assert (D0 : dinv [] q0).
    { constructor.
      - exists 1, q0, []. rewrite app_nil_r. split; [reflexivity|]. split; [|split; [intros ? []|intros ? []]].
        intros e He. apply in_map_iff in He. destruct He as [x [<- _]]. reflexivity.
      - constructor.
      - cbn [app]. intros c p d H. apply in_map_iff in H. destruct H as [x [Ex Hx]]. injection Ex as <- <- <-.
        apply fresh_In in Hx. split; [apply Hx|left; split; reflexivity]. }
    assert (C0 : cinv [] q0).
    { intros c p d x [H|[]] Hx. injection H as <- <- <-. exists start, 1. split; [|lia]. cbn [app].
      apply in_map_iff. exists x. split; [reflexivity|]. apply fresh_In. split; [exact Hx|intros []]. }
    assert (S0 : forall x, In x (rev f ++ []) <-> In x (map e_n ([] ++ q0))).
    { intros x. rewrite app_nil_r, <- in_rev. cbn [app]. unfold q0. rewrite map_map. cbn [e_n fst].
      rewrite map_id. reflexivity. }
    destruct (dpops_ok fuel [] q0 (rev f ++ []) l D0 C0 S0 El) as [D C].
    cbn [app] in D, C. destruct D as [_ Ss P]. rewrite app_nil_r in P.
    unfold cinv in C. rewrite app_nil_r in C.
    exists l. subst rest. split; [exact E|]. split; [|split; [exact Ss|split; [exact P|split]]].
    - rewrite map_map in N. exact N.
    - induction k as [|k IH]; intros x W.
      + inversion W as [|k' a b c Eab V]; subst. inversion V; subst.
        destruct (C start start 0 x) as [p [d [H1 H2]]]; [left; reflexivity|exact Eab|].
        exists p, d. split; assumption.
      + apply walkn_snoc_inv in W. destruct W as [y [V Ey]]. destruct (IH y V) as [p [d [H1 H2]]].
        destruct (C y p d x) as [p' [d' [H3 H4]]]; [right; exact H1|exact Ey|].
        exists p', d'. split; [exact H3|lia].
    - intros c p d. revert c p. induction d as [|d IH]; intros c p H.
      + destruct (P c p 0 H) as [_ [[_ X]|[p' [d' [_ X]]]]]; discriminate.
      + destruct (P c p (S d) H) as [X [[-> Y]|[p' [d' [Y1 Y2]]]]].
        * injection Y as ->. eapply walkn_S; [exact X|constructor].
        * injection Y2 as <-. eapply walkn_snoc; [apply (IH p p'), Y1|exact X].
  Qed.
End Depth.
