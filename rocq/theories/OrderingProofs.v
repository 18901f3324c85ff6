(* Proofs about the algorithms on a given ordering graph: reachability,
   exclusion paths, shortest cycle, transitive reduction. *)
From Verif Require Import Base GraphModel GraphProofs GraphBfs OrderingModel.
From Coq Require Import Permutation Sorting.Sorted.

Lemma upd_eq {A} (f : nat -> A) i v : upd f i v i = v.
Proof. unfold upd. rewrite Nat.eqb_refl. reflexivity. Qed.
Lemma upd_ne {A} (f : nat -> A) i v j : j <> i -> upd f i v j = f j.
Proof. intros H. unfold upd. destruct (Nat.eqb_spec j i); [contradiction|reflexivity]. Qed.

(* ---- reachability ---- *)

Section Reach.
  Variable nbrs : nat -> list nat.
  Variable start : nat.

  (* run with a node callback and without an edge callback *)
  Lemma run_nodes {St} (wn : St -> nat -> nat -> St * bool) l : forall s,
    run wn no_edge (trace nbrs start l) s =
    run wn no_edge (map (fun cp => NodeEv (fst cp) (snd cp))
                        (filter (fun cp => negb (Nat.eqb (fst cp) start)) l)) s.
  Proof.
    assert (E : forall c ns evs s, run wn no_edge (map (EdgeEv c) ns ++ evs) s = run wn no_edge evs s).
    { induction ns as [|n ns IH]; intros evs s; [reflexivity|]. cbn [map app run]. unfold no_edge at 1. apply IH. }
    induction l as [|[c p] l IH]; intros s; [reflexivity|].
    change (trace nbrs start ((c, p) :: l)) with (visit nbrs start c p ++ trace nbrs start l).
    unfold visit. rewrite <- app_assoc. cbn [filter fst]. destruct (Nat.eqb c start); cbn [negb app].
    - rewrite E. apply IH.
    - cbn [map fst snd run]. destruct (wn s c p) as [s' stop]. destruct stop; [reflexivity|]. rewrite E. apply IH.
  Qed.
End Reach.

Lemma run_mark l : forall r,
  let r' := snd (run (fun (r : nat -> bool) to _ => (upd r to true, false)) no_edge
                  (map (fun cp : nat * nat => NodeEv (fst cp) (snd cp)) l) r) in
  forall x, r' x = true <-> r x = true \/ In x (map fst l).
Proof.
  induction l as [|[c p] l IH]; intros r r' x; subst r'; cbn [map run fst snd].
  - cbn. tauto.
  - rewrite IH. cbn [In map fst]. unfold upd. destruct (Nat.eqb_spec x c) as [->|Ne]; [tauto|].
    split; [tauto|]. intros [H|[H|H]]; [tauto|congruence|tauto].
Qed.

Lemma run_search t l :
  snd (run (fun (r : bool) to _ => if Nat.eqb to t then (true, true) else (r, false)) no_edge
        (map (fun cp : nat * nat => NodeEv (fst cp) (snd cp)) l) false) = true <-> In t (map fst l).
Proof.
  induction l as [|[c p] l IH]; cbn [map run fst snd In].
  - split; [discriminate|intros []].
  - destruct (Nat.eqb_spec c t) as [->|Ne].
    + cbn. tauto.
    + rewrite IH. split; [tauto|]. intros [H|H]; [congruence|exact H].
Qed.

Lemma in_fst_filter s (l : list (nat * nat)) x :
  In x (map fst (filter (fun cp => negb (Nat.eqb (fst cp) s)) l)) <-> x <> s /\ In x (map fst l).
Proof.
  rewrite !in_map_iff. split.
  - intros [e [<- H]]. apply filter_In in H. destruct H as [H1 H2]. apply negb_true_iff, Nat.eqb_neq in H2.
    split; [exact H2|]. exists e. auto.
  - intros [Ne [e [<- H]]]. exists e. split; [reflexivity|]. apply filter_In. split; [exact H|].
    apply negb_true_iff, Nat.eqb_neq, Ne.
Qed.

Lemma reachable_ok og s : in_range (og_out og) (og_size og) -> s < og_size og ->
  exists r, get_reachable_nodes og s = Ok r /\
    forall x, r x = true <-> x = s \/ walk (og_out og) s x.
Proof.
  intros R L. destruct (pops_ok true _ _ _ R L (FUEL og)) as [rest [E [_ [K _]]]]; [unfold FUEL; lia|].
  eexists. split.
  - unfold get_reachable_nodes, bfs, graph_traversal. rewrite (trav_run _ _ _ _ _ _ _ _ _ _ E). reflexivity.
  - intros x. rewrite run_nodes. rewrite run_mark. rewrite in_fst_filter. cbn [map fst In]. rewrite K.
    unfold upd. destruct (Nat.eqb_spec x s) as [->|Ne]; [tauto|].
    split; [intros [H|[_ [H|H]]]; [discriminate|congruence|tauto]|]. intros [H|H]; [congruence|tauto].
Qed.

Lemma path_exists_ok og s t : in_range (og_out og) (og_size og) -> s < og_size og ->
  exists b, path_exists og s t = Ok b /\ (b = true <-> t <> s /\ walk (og_out og) s t).
Proof.
  intros R L. destruct (pops_ok true _ _ _ R L (FUEL og)) as [rest [E [_ [K _]]]]; [unfold FUEL; lia|].
  eexists. split.
  - unfold path_exists, bfs, graph_traversal. rewrite (trav_run _ _ _ _ _ _ _ _ _ _ E). reflexivity.
  - rewrite run_nodes. rewrite run_search. rewrite in_fst_filter. cbn [map fst In]. rewrite K.
    split; [intros [Ne [H|H]]; [congruence|tauto]|]. tauto.
Qed.

(* walks are decidable *)
Lemma walk_dec nbrs n a b : in_range nbrs n -> a < n -> {walk nbrs a b} + {~ walk nbrs a b}.
Proof.
  intros R L.
  destruct (pops true nbrs (S n) [(a, a)] []) as [[|e l]|] eqn:E.
  - exfalso. destruct (pops_ok true nbrs a n R L (S n)) as [rest [E' _]]; [lia|]. congruence.
  - destruct (in_dec Nat.eq_dec b (map fst l)) as [I|I]; [left|right];
      destruct (pops_ok true nbrs a n R L (S n)) as [rest [E' [_ [K _]]]]; try lia;
      rewrite E' in E; injection E as <- <-; rewrite <- K; exact I.
  - exfalso. destruct (pops_ok true nbrs a n R L (S n)) as [rest [E' _]]; [lia|]. congruence.
Qed.

(* ---- exclusion paths ---- *)

Lemma marks_fold l : forall (t : nat -> bool) x,
  fold_left (fun t x => upd t x true) l t x = true <-> t x = true \/ In x l.
Proof.
  induction l as [|y l IH]; intros t x; cbn [fold_left In]; [tauto|].
  rewrite IH. unfold upd. destruct (Nat.eqb_spec x y) as [->|Ne]; [tauto|].
  split; [tauto|]. intros [H|[H|H]]; [tauto|congruence|tauto].
Qed.

Lemma get_exclusions_ok i2e es ir x :
  get_exclusions i2e es ir x = true <-> exists s, In s (i2e ir) /\ In x (es s).
Proof.
  unfold get_exclusions.
  assert (G : forall l (t : nat -> bool),
    fold_left (fun t s => fold_left (fun t x => upd t x true) (es s) t) l t x = true <->
    t x = true \/ exists s, In s l /\ In x (es s)).
  { induction l as [|s l IH]; intros t; cbn [fold_left In].
    - split; [tauto|]. intros [H|[s [[] _]]]. exact H.
    - rewrite IH, marks_fold. split.
      + intros [[H|H]|[s' [H1 H2]]]; [tauto|right; exists s; tauto|right; exists s'; tauto].
      + intros [H|[s' [[->|H1] H2]]]; [tauto|tauto|right; exists s'; tauto]. }
  rewrite G. split; [intros [H|H]; [discriminate|exact H]|tauto].
Qed.

Lemma all_of_ok (p : nat -> res bool) (P : nat -> Prop) l :
  (forall x, In x l -> exists b, p x = Ok b /\ (b = true <-> P x)) ->
  exists b, all_of p l = Ok b /\ (b = true <-> forall x, In x l -> P x).
Proof.
  induction l as [|x l IH]; intros H; cbn [all_of].
  - exists true. split; [reflexivity|]. split; [intros _ y []|reflexivity].
  - destruct (H x (or_introl eq_refl)) as [b [E B]]. rewrite E. cbn [bind]. destruct b.
    + destruct IH as [b' [E' B']]; [intros y Hy; apply H; right; exact Hy|].
      exists b'. split; [exact E'|]. rewrite B'. split.
      * intros Q y [<-|Hy]; [apply B; reflexivity|apply Q, Hy].
      * intros Q y Hy. apply Q. right. exact Hy.
    + exists false. split; [reflexivity|]. split; [discriminate|]. intros Q.
      apply B. apply Q. left. reflexivity.
Qed.

Lemma has_exclusion_paths_ok og i2e es :
  in_range (og_out og) (og_size og) ->
  exists b, has_exclusion_paths og i2e es = Ok b /\
    (b = true <-> forall x y, x < og_size og -> y < og_size og -> x <> y ->
       (exists s, In s (i2e (og_ir og x)) /\ In (og_ir og y) (es s)) ->
       walk (og_out og) x y \/ walk (og_out og) y x).
Proof.
  intros R. unfold has_exclusion_paths.
  destruct (all_of_ok (has_exclusion_paths_from og i2e es)
    (fun x => forall y, y < og_size og -> x <> y ->
       (exists s, In s (i2e (og_ir og x)) /\ In (og_ir og y) (es s)) ->
       walk (og_out og) x y \/ walk (og_out og) y x) (seq 0 (og_size og))) as [b [E B]].
  - intros x Hx. apply in_seq in Hx. unfold has_exclusion_paths_from.
    destruct (reachable_ok og x R) as [r [Er Kr]]; [lia|]. rewrite Er. cbn [bind].
    destruct (all_of_ok (fun target =>
      if Nat.eqb x target then Ok true
      else if get_exclusions i2e es (og_ir og x) (og_ir og target)
      then bind (if r target then Ok true else path_exists og target x)
                (fun ts => Ok (r target || ts))
      else Ok true) (fun y => x <> y ->
       (exists s, In s (i2e (og_ir og x)) /\ In (og_ir og y) (es s)) ->
       walk (og_out og) x y \/ walk (og_out og) y x) (seq 0 (og_size og))) as [b [E B]].
    + intros y Hy. apply in_seq in Hy. destruct (Nat.eqb_spec x y) as [<-|Ne].
      { exists true. split; [reflexivity|]. tauto. }
      destruct (get_exclusions i2e es (og_ir og x) (og_ir og y)) eqn:Ge.
      2:{ exists true. split; [reflexivity|]. split; [|reflexivity]. intros _ _ H.
          apply get_exclusions_ok in H. congruence. }
      apply get_exclusions_ok in Ge. specialize (Kr y). destruct (r y).
      * cbn [bind orb]. exists true. split; [reflexivity|]. split; [|reflexivity]. intros _ _ _. left.
        destruct (proj1 Kr eq_refl) as [->|H]; [congruence|exact H].
      * destruct (path_exists_ok og y x R) as [b [Eb Kb]]; [lia|]. rewrite Eb. cbn [bind orb].
        exists b. split; [reflexivity|]. rewrite Kb. split.
        -- intros [_ W] _ _. right. exact W.
        -- intros H. split; [exact Ne|]. destruct (H Ne Ge) as [W|W]; [|exact W].
           exfalso. assert (false = true) by (apply Kr; right; exact W). discriminate.
    + exists b. split; [exact E|]. rewrite B. split.
      * intros Q y Hy. apply Q. apply in_seq. lia.
      * intros Q y Hy. apply in_seq in Hy. apply Q. lia.
  - exists b. split; [exact E|]. rewrite B. split.
    + intros Q x y Hx Hy. apply Q; [|exact Hy]. apply in_seq. lia.
    + intros Q x Hx y Hy. apply in_seq in Hx. apply Q; [lia|exact Hy].
Qed.

(* ---- shortest cycle ---- *)

(* consecutive edges a -> l_1 -> l_2 ... *)
Fixpoint chain (nbrs : nat -> list nat) (a : nat) (l : list nat) : Prop :=
  match l with
  | [] => True
  | b :: l => edge nbrs a b /\ chain nbrs b l
  end.

Lemma chain_app nbrs l1 : forall a l2, chain nbrs a (l1 ++ l2) <-> chain nbrs a l1 /\ chain nbrs (last l1 a) l2.
Proof.
  induction l1 as [|b l1 IH]; intros a l2; cbn [app chain]; [cbn; tauto|].
  rewrite IH. assert (last (b :: l1) a = last l1 b) as ->.
  { clear. revert b. induction l1 as [|c l1 IH]; intros b; [reflexivity|].
    change (last (b :: c :: l1) a) with (last (c :: l1) a). rewrite IH. clear.
    destruct l1 as [|d l1]; [reflexivity|]. change (last (c :: d :: l1) b) with (last (d :: l1) b).
    revert d. induction l1 as [|e l1 IH]; intros d; [reflexivity|]. apply (IH e). }
  tauto.
Qed.

Lemma chain_walkn nbrs l : forall a, chain nbrs a l -> walkn nbrs (length l) a (last l a).
Proof.
  induction l as [|b l IH]; intros a; cbn [chain length].
  - intros _. constructor.
  - intros [E C]. eapply walkn_S; [exact E|]. specialize (IH b C).
    replace (last (b :: l) a) with (last l b); [exact IH|].
    clear. revert b. induction l as [|c l IH]; intros b; [reflexivity|].
    change (last (b :: c :: l) a) with (last (c :: l) a). rewrite <- IH. clear.
    destruct l as [|d l]; [reflexivity|]. change (last (c :: d :: l) b) with (last (d :: l) b).
    change (last (d :: l) b = last (d :: l) c).
    revert d. induction l as [|e l IH]; intros d; [reflexivity|]. apply (IH e).
Qed.

Definition is_cycle (nbrs : nat -> list nat) (c : list nat) : Prop :=
  c <> [] /\ chain nbrs (last c 0) c.

Section Cyc.
  Variable og : ograph.
  Variable start : nat.
  Hypothesis R : in_range (og_out og) (og_size og).
  Hypothesis Ls : start < og_size og.
  Notation nbrs := (og_out og).

  (* the state after processing the entries of done *)
  Definition st_ok (done : list entry) (s : cyc_state) : Prop :=
    (forall x d, fst s x = Some d <-> (x = start /\ d = 0) \/ exists p, In (x, p, d) done) /\
    (forall x p, snd s x = Some p <-> exists d, In (x, p, d) done).

  Lemma run_edges_no c ns : forall evs s, ~ In start ns ->
    run cyc_node (cyc_edge start) (map (EdgeEv c) ns ++ evs) s = run cyc_node (cyc_edge start) evs s.
  Proof.
    induction ns as [|n ns IH]; intros evs s H; [reflexivity|]. cbn [map app run].
    unfold cyc_edge at 1. destruct (Nat.eqb_spec n start) as [->|Ne]; [exfalso; apply H; left; reflexivity|].
    apply IH. intros X. apply H. right. exact X.
  Qed.

  Lemma run_edges_yes c ns : forall evs s, In start ns ->
    run cyc_node (cyc_edge start) (map (EdgeEv c) ns ++ evs) s = (true, (fst s, upd (snd s) start (Some c))).
  Proof.
    induction ns as [|n ns IH]; intros evs s H; [destruct H|]. cbn [map app run].
    unfold cyc_edge at 1. destruct (Nat.eqb_spec n start) as [->|Ne]; [reflexivity|].
    apply IH. destruct H as [H|H]; [congruence|exact H].
  Qed.

  Section L.
    Variable l : list entry.
    Hypothesis Nd : NoDup (map e_n l).
    Hypothesis So : StronglySorted le (map e_d l).
    Hypothesis Pa : forall c p d, In (c, p, d) l -> edge nbrs p c /\
          ((p = start /\ d = 1) \/ exists p' d', In (p, p', d') l /\ d = S d').
    Hypothesis Start_no : ~ edge nbrs start start.

    Lemma sorted_split l1 e l2 : l = l1 ++ e :: l2 ->
      (forall x, In x l1 -> e_d x <= e_d e) /\ (forall x, In x l2 -> e_d e <= e_d x).
    Proof.
      intros E. rewrite E in So. clear - So. induction l1 as [|a l1 IH]; cbn [app map] in So.
      - split; [intros x []|]. intros x Hx. inversion So as [|? ? S1 F]; subst. rewrite Forall_forall in F.
        apply F. apply in_map. exact Hx.
      - inversion So as [|? ? S1 F]; subst. rewrite Forall_forall in F. destruct (IH S1) as [A B].
        split; [|exact B]. intros x [<-|Hx]; [|apply A, Hx]. apply F. apply in_map. apply in_or_app. right. left. reflexivity.
    Qed.

    Lemma not_start l1 e l2 : l = l1 ++ e :: l2 -> (forall x, In x l1 -> ~ edge nbrs (e_n x) start) -> e_n e <> start.
    Proof.
      intros E H Es. destruct e as [[c p] d]. cbn in Es. subst c.
      destruct (Pa start p d) as [X [[-> _]|[p' [d' [Y Z]]]]].
      - rewrite E. apply in_or_app. right. left. reflexivity.
      - contradiction.
      - rewrite E in Y. apply in_app_iff in Y. destruct (sorted_split l1 _ l2 E) as [_ A].
        destruct Y as [Y|[Y|Y]].
        + exact (H _ Y X).
        + injection Y as Y1 Y2 Y3. lia.
        + specialize (A _ Y). cbn in A. lia.
    Qed.

    Lemma scan l2 : forall l1 s, l = l1 ++ l2 -> st_ok l1 s -> (forall x, In x l1 -> ~ edge nbrs (e_n x) start) ->
      let r := run cyc_node (cyc_edge start) (trace nbrs start (map e_cp l2)) s in
      ((forall x, In x l -> ~ edge nbrs (e_n x) start) /\ st_ok l (snd r)) \/
      (exists l1' e l2' s', l = l1' ++ e :: l2' /\ (forall x, In x l1' -> ~ edge nbrs (e_n x) start) /\
         edge nbrs (e_n e) start /\ st_ok (l1' ++ [e]) s' /\
         snd r = (fst s', upd (snd s') start (Some (e_n e)))).
    Proof.
      induction l2 as [|e l2 IH]; intros l1 s E Hs Hn r; subst r.
      - rewrite app_nil_r in E. subst l1. left. split; assumption.
      - assert (Ne := not_start l1 e l2 E Hn).
        change (trace nbrs start (map e_cp (e :: l2))) with
          (visit nbrs start (fst (e_cp e)) (snd (e_cp e)) ++ trace nbrs start (map e_cp l2)).
        destruct e as [[c p] d]. cbn [e_n e_cp fst snd] in *. unfold visit.
        destruct (Nat.eqb_spec c start) as [|_]; [contradiction|]. cbn [app run].
        assert (Fresh : forall q d', ~ In (c, q, d') l1).
        { intros q d' X. rewrite E, map_app in Nd. cbn [map e_n fst] in Nd. apply NoDup_remove_2 in Nd.
          apply Nd. apply in_or_app. left. apply in_map_iff. exists (c, q, d'). split; [reflexivity|exact X]. }
        assert (Dc : fst s c = None).
        { destruct (fst s c) as [d'|] eqn:Ed; [|reflexivity]. exfalso. apply Hs in Ed.
          destruct Ed as [[X _]|[q X]]; [contradiction|exact (Fresh _ _ X)]. }
        assert (Dp : option_map S (fst s p) = Some d).
        { destruct (Pa c p d) as [_ [[-> ->]|[p' [d' [Y Z]]]]].
          - rewrite E. apply in_or_app. right. left. reflexivity.
          - rewrite (proj2 (proj1 Hs start 0)); [reflexivity|]. left. auto.
          - rewrite (proj2 (proj1 Hs p d')); [cbn; congruence|]. right. exists p'.
            rewrite E in Y. apply in_app_iff in Y. destruct (sorted_split l1 _ l2 E) as [_ A].
            destruct Y as [Y|[Y|Y]]; [exact Y|injection Y as Y1 Y2 Y3; lia|]. specialize (A _ Y). cbn in A. lia. }
        set (s1 := (upd (fst s) c (Some d), upd (snd s) c (Some p)) : cyc_state).
        assert (Ec : cyc_node s c p = (s1, false)) by (unfold cyc_node; rewrite Dc, Dp; reflexivity).
        rewrite Ec. cbn beta iota.
        assert (Hs1 : st_ok (l1 ++ [(c, p, d)]) s1).
        { split.
          - intros x dx. cbn [s1 fst]. unfold upd. destruct (Nat.eqb_spec x c) as [->|Nx].
            + split.
              * intros [= <-]. right. exists p. apply in_or_app. right. left. reflexivity.
              * intros [[X _]|[q X]]; [contradiction|]. apply in_app_iff in X.
                destruct X as [X|[X|[]]]; [exfalso; exact (Fresh _ _ X)|]. injection X as _ ->. reflexivity.
            + rewrite (proj1 Hs). split; (intros [X|[q X]]; [left; exact X|right; exists q]).
              * apply in_or_app. left. exact X.
              * apply in_app_iff in X. destruct X as [X|[X|[]]]; [exact X|congruence].
          - intros x px. cbn [s1 snd]. unfold upd. destruct (Nat.eqb_spec x c) as [->|Nx].
            + split.
              * intros [= <-]. exists d. apply in_or_app. right. left. reflexivity.
              * intros [q X]. apply in_app_iff in X.
                destruct X as [X|[X|[]]]; [exfalso; exact (Fresh _ _ X)|]. injection X as -> _. reflexivity.
            + rewrite (proj2 Hs). split; intros [q X]; exists q.
              * apply in_or_app. left. exact X.
              * apply in_app_iff in X. destruct X as [X|[X|[]]]; [exact X|congruence]. }
        destruct (in_dec Nat.eq_dec start (nbrs c)) as [I|I].
        + right. exists l1, (c, p, d), l2, s1. rewrite run_edges_yes by exact I.
          split; [exact E|]. split; [exact Hn|]. split; [exact I|]. split; [exact Hs1|reflexivity].
        + rewrite run_edges_no by exact I. apply (IH (l1 ++ [(c, p, d)])).
          * rewrite <- app_assoc. exact E.
          * exact Hs1.
          * intros x Hx. apply in_app_iff in Hx. destruct Hx as [Hx|[<-|[]]]; [apply Hn, Hx|exact I].
    Qed.

    (* the predecessor chain of an entry *)
    Lemma walk_back_ok done prev :
      (forall c p d, In (c, p, d) done -> c <> start /\ edge nbrs p c /\
          ((p = start /\ d = 1) \/ exists p' d', In (p, p', d') done /\ d = S d')) ->
      (forall x p d, In (x, p, d) done -> prev x = Some p) ->
      forall d fuel c p acc, In (c, p, d) done -> d <= fuel ->
      exists w, walk_back fuel prev start c acc = Ok (acc ++ w) /\ length w = d /\
        chain nbrs start (rev w) /\ hd start w = c /\ d > 0.
    Proof.
      intros P Pv. induction d as [|d IH]; intros fuel c p acc H F; destruct (P c p _ H) as [Nc [Ed Y]].
      - destruct Y as [[_ Y]|[? [? [_ Y]]]]; discriminate.
      - destruct fuel as [|fuel]; [lia|]. cbn [walk_back].
        destruct (Nat.eqb_spec c start) as [|_]; [contradiction|]. rewrite (Pv _ _ _ H).
        destruct Y as [[-> Yd]|[p' [d' [Y Yd]]]].
        + injection Yd as ->. exists [c]. destruct fuel; cbn [walk_back]; rewrite Nat.eqb_refl; cbn; repeat split; auto.
        + injection Yd as <-. destruct (IH fuel p p' (acc ++ [c]) Y ltac:(lia)) as [w [E [Lw [Ch [Hd Pos]]]]].
          exists (c :: w). rewrite E, <- app_assoc. cbn [app length hd rev]. split; [reflexivity|].
          split; [lia|]. split; [|split; [reflexivity|lia]]. apply chain_app. split; [exact Ch|].
          destruct w as [|b w]; [cbn in Lw; lia|]. cbn [hd] in Hd. subst b. cbn [rev]. rewrite last_last.
          cbn [chain]. split; [exact Ed|exact I].
    Qed.
  End L.

  Lemma depth_bound (l : list entry) : NoDup (map e_n l) -> (forall e, In e l -> e_n e < og_size og) ->
    (forall c p d, In (c, p, d) l -> (p = start /\ d = 1) \/ exists p' d', In (p, p', d') l /\ d = S d') ->
    forall e, In e l -> e_d e <= og_size og.
  Proof.
    intros Nd Rg Pa [[c p] d] H. cbn [e_d snd].
    assert (A : forall k, 1 <= k <= d -> In k (map e_d l)).
    { revert c p H. induction d as [|d IH]; intros c p H k Hk; [lia|].
      destruct (Nat.eq_dec k (S d)) as [->|Nk]; [apply in_map_iff; exists (c, p, S d); auto|].
      destruct (Pa c p _ H) as [[_ X]|[p' [d' [Y Z]]]]; [lia|]. injection Z as <-. apply (IH p p' Y). lia. }
    assert (length (seq 1 d) <= length (map e_d l)).
    { apply NoDup_incl_length; [apply seq_NoDup|]. intros k Hk. apply in_seq in Hk. apply A. lia. }
    rewrite seq_length, map_length in H0.
    assert (length (map e_n l) <= length (seq 0 (og_size og))).
    { apply NoDup_incl_length; [exact Nd|]. intros x Hx. apply in_map_iff in Hx. destruct Hx as [e [<- He]].
      apply in_seq. specialize (Rg e He). lia. }
    rewrite seq_length, map_length in H1. lia.
  Qed.

  Lemma shortest_ok :
    exists r, get_shortest_cycle_from_node og start = Ok r /\
      match r with
      | None => ~ walk nbrs start start
      | Some c => is_cycle nbrs c /\ last c 0 = start /\
                  forall k, walkn nbrs (S k) start start -> length c <= S k
      end.
  Proof.
    destruct (bfs_ok nbrs start (og_size og) R Ls (FUEL og)) as [l [E [Nd [So [Pa [Cov Wk]]]]]]; [unfold FUEL; lia|].
    unfold get_shortest_cycle_from_node, bfs, graph_traversal. rewrite (trav_run _ _ _ _ _ _ _ _ _ _ E).
    change (trace nbrs start ((start, start) :: map e_cp l)) with
      (visit nbrs start start start ++ trace nbrs start (map e_cp l)).
    unfold visit. rewrite Nat.eqb_refl. cbn [app bind].
    set (s0 := (upd (fun _ : nat => @None nat) start (Some 0), fun _ : nat => @None nat) : cyc_state).
    destruct (in_dec Nat.eq_dec start (nbrs start)) as [I|I].
    { rewrite run_edges_yes by exact I. cbn [snd fst]. rewrite upd_eq. unfold FUEL. cbn [walk_back].
      rewrite Nat.eqb_refl. cbn [bind rev app]. eexists. split; [reflexivity|]. cbn [last length].
      split; [|split; [reflexivity|intros; lia]]. split; [discriminate|]. cbn. split; [exact I|exact Logic.I]. }
    rewrite run_edges_no by exact I.
    assert (H0 : st_ok [] s0).
    { split.
      - intros x d. cbn [s0 fst]. unfold upd. destruct (Nat.eqb_spec x start) as [->|Nx].
        + split; [intros [= <-]; left; auto|]. intros [[_ ->]|[p []]]. reflexivity.
        + split; [discriminate|]. intros [[X _]|[p []]]. contradiction.
      - intros x p. cbn. split; [discriminate|intros [d []]]. }
    assert (Rg : forall e, In e l -> e_n e < og_size og).
    { intros [[c p] d] H. cbn. destruct (Pa _ _ _ H) as [Ed _]. specialize (Wk _ _ _ H).
      destruct d; [destruct (Pa _ _ _ H) as [_ [[_ X]|[? [? [_ X]]]]]; discriminate|].
      eapply walk_range; [exact R|exact Ls|]. apply walk_walkn. exists d. exact Wk. }
    destruct (scan l Nd So Pa I l [] s0 eq_refl H0 ltac:(intros x [])) as [[No Hs]|[l1 [e [l2 [s' [El [No [Ye [Hs Hr]]]]]]]]].
    - set (r := run _ _ _ _) in *. destruct (snd (snd r) start) as [p|] eqn:Ep.
      { exfalso. apply (proj2 Hs) in Ep. destruct Ep as [d X]. destruct (Pa _ _ _ X) as [Ed [[-> _]|[p' [d' [Y _]]]]].
        - exact (I Ed).
        - exact (No _ Y Ed). }
      eexists. split; [reflexivity|]. cbn. intros W. apply walk_walkn in W. destruct W as [k W].
      apply walkn_snoc_inv in W. destruct W as [y [W Ed]]. destruct k as [|k].
      + inversion W; subst. exact (I Ed).
      + destruct (Cov k y W) as [p [d [X _]]]. exact (No _ X Ed).
    - rewrite Hr. cbn [snd fst]. rewrite upd_eq.
      assert (P' : forall c p d, In (c, p, d) (l1 ++ [e]) -> c <> start /\ edge nbrs p c /\
          ((p = start /\ d = 1) \/ exists p' d', In (p, p', d') (l1 ++ [e]) /\ d = S d')).
      { intros c p d H. assert (HL : In (c, p, d) l).
        { rewrite El. apply in_app_iff in H. apply in_or_app. destruct H as [H|[Ee|[]]]; [left; exact H|right; left; exact Ee]. }
        destruct (sorted_split l So l1 e l2 El) as [A B].
        split; [|].
        - apply in_app_iff in H. destruct H as [H|[Ee|[]]].
          + apply in_split in H. destruct H as [u [v ->]].
            apply (not_start l So Pa I u (c, p, d) (v ++ e :: l2)).
            * rewrite El, <- app_assoc. reflexivity.
            * intros x Hx. apply No. apply in_or_app. left. exact Hx.
          + subst e. exact (not_start l So Pa I l1 _ l2 El No).
        - destruct (Pa _ _ _ HL) as [Ed [Y|[p' [d' [Y Z]]]]]; split; try exact Ed; [left; exact Y|].
          right. exists p', d'. split; [|exact Z]. rewrite El in Y. apply in_app_iff in Y. apply in_or_app.
          destruct Y as [Y|[Y|Y]]; [left; exact Y|right; left; exact Y|]. specialize (B _ Y).
          assert (d <= e_d e). { apply in_app_iff in H. destruct H as [H|[Ee|[]]]; [apply (A _ H)|subst e; cbn; lia]. }
          cbn in B. lia. }
      assert (Pv : forall x p d, In (x, p, d) (l1 ++ [e]) -> upd (snd s') start (Some (e_n e)) x = Some p).
      { intros x p d H. destruct (P' _ _ _ H) as [Nx _]. rewrite upd_ne by exact Nx. apply (proj2 Hs). exists d. exact H. }
      destruct e as [[ce pe] de]. cbn [e_n fst] in *.
      assert (He : In (ce, pe, de) l) by (rewrite El; apply in_or_app; right; left; reflexivity).
      destruct (walk_back_ok (l1 ++ [(ce, pe, de)]) _ P' Pv de (FUEL og) ce pe [start]) as [w [Ew [Lw [Ch [Hd Pos]]]]].
      { apply in_or_app. right. left. reflexivity. }
      { unfold FUEL. assert (Q := depth_bound l Nd Rg (fun c p d H => proj2 (Pa c p d H)) _ He). cbn in Q. lia. }
      rewrite Ew. cbn [bind app rev]. eexists. split; [reflexivity|]. cbn beta iota delta [rev]. fold (rev w). rewrite last_last, app_length, rev_length, Lw.
      split; [|split; [reflexivity|]].
      + split; [destruct (rev w); discriminate|]. rewrite last_last. apply chain_app. split; [exact Ch|].
        destruct w as [|b w]; [cbn in Lw; lia|]. cbn [hd] in Hd. subst b. cbn [rev]. rewrite last_last.
        cbn [chain]. split; [exact Ye|exact Logic.I].
      + intros k W. cbn [length]. apply walkn_snoc_inv in W. destruct W as [y [W Ed]]. destruct k as [|k].
        { inversion W; subst. exfalso. exact (I Ed). }
        destruct (Cov k y W) as [p [d [X Ld]]]. rewrite El in X. apply in_app_iff in X.
        destruct (sorted_split l So l1 _ l2 El) as [_ B].
        destruct X as [X|[X|X]].
        * exfalso. exact (No _ X Ed).
        * injection X as _ _ ->. lia.
        * specialize (B _ X). cbn in B. lia.
  Qed.
End Cyc.

Lemma min_by_size_in best cs : In (min_by_size best cs) (best :: cs).
Proof.
  revert best. induction cs as [|c cs IH]; intros best; [left; reflexivity|]. cbn [min_by_size].
  destruct (IH (if Nat.ltb (length c) (length best) then c else best)) as [H|H].
  - rewrite <- H. destruct (Nat.ltb _ _); [right; left; reflexivity|left; reflexivity].
  - right. right. exact H.
Qed.

Lemma min_by_size_le cs : forall best c, In c (best :: cs) -> length (min_by_size best cs) <= length c.
Proof.
  induction cs as [|c cs IH]; intros best x H; cbn [min_by_size].
  - destruct H as [<-|[]]. lia.
  - set (b := if Nat.ltb (length c) (length best) then c else best).
    assert (B : length b <= length c /\ length b <= length best).
    { subst b. destruct (Nat.ltb_spec (length c) (length best)); lia. }
    assert (length (min_by_size b cs) <= length b) by (apply IH; left; reflexivity).
    destruct H as [<-|[<-|H]]; [lia|lia|]. apply IH. right. exact H.
Qed.

Lemma cycles_of_ok og : in_range (og_out og) (og_size og) -> forall ss, (forall s, In s ss -> s < og_size og) ->
  exists cs, cycles_of og ss = Ok cs /\
    (forall c, In c cs -> is_cycle (og_out og) c /\ last c 0 < og_size og) /\
    (forall s k, In s ss -> walkn (og_out og) (S k) s s -> exists c, In c cs /\ length c <= S k).
Proof.
  intros R. induction ss as [|s ss IH]; intros L; cbn [cycles_of].
  - exists []. split; [reflexivity|]. split; [intros c []|intros s k []].
  - destruct (shortest_ok og s R (L s (or_introl eq_refl))) as [r [E K]]. rewrite E. cbn [bind].
    destruct IH as [cs [E' [A B]]]; [intros x Hx; apply L; right; exact Hx|]. rewrite E'. cbn [bind].
    eexists. split; [reflexivity|]. destruct r as [c|].
    + destruct K as [K1 [K2 K3]]. split.
      * intros c' [<-|Hc]; [split; [exact K1|]; rewrite K2; apply L; left; reflexivity|apply A, Hc].
      * intros x k [<-|Hx] W; [exists c; split; [left; reflexivity|apply K3, W]|].
        destruct (B x k Hx W) as [c' [H1 H2]]. exists c'. split; [right; exact H1|exact H2].
    + split; [exact A|]. intros x k [<-|Hx] W; [|apply (B x k Hx W)].
      exfalso. apply K. apply walk_walkn. exists k. exact W.
Qed.

(* ---- acyclic finite graphs ---- *)

Definition acyclic (nbrs : nat -> list nat) (n : nat) : Prop := forall x, x < n -> ~ walk nbrs x x.

Lemma walkn_bound nbrs n : in_range nbrs n -> acyclic nbrs n ->
  forall k a b, a < n -> walkn nbrs k a b -> k < n.
Proof.
  intros R A k a b L W.
  assert (H : exists l, length l = S k /\ NoDup l /\ forall x, In x l -> x < n /\ (x = a \/ walk nbrs a x)).
  { revert L. induction W as [a|k a b c E W IH]; intros L.
    - exists [a]. split; [reflexivity|]. split; [constructor; [intros []|constructor]|].
      intros x [<-|[]]. auto.
    - assert (Lb := R _ _ L E). destruct (IH Lb) as [l [Ll [Nl Hl]]]. exists (a :: l).
      split; [cbn; lia|]. split.
      + constructor; [|exact Nl]. intros X. destruct (Hl a X) as [_ [->|V]].
        * apply (A b Lb). apply walk_one, E.
        * apply (A a L). eapply walk_step; eassumption.
      + intros x [<-|X]; [auto|]. destruct (Hl x X) as [Lx [->|V]].
        * split; [exact Lx|right; apply walk_one, E].
        * split; [exact Lx|right; eapply walk_step; eassumption]. }
  destruct H as [l [Ll [Nl Hl]]].
  assert (length l <= length (seq 0 n)).
  { apply NoDup_incl_length; [exact Nl|]. intros x Hx. apply in_seq. destruct (Hl x Hx). lia. }
  rewrite seq_length in H. lia.
Qed.

Lemma dec_exists_between nbrs n a b : in_range nbrs n -> a < n ->
  (exists y, walk nbrs a y /\ walk nbrs y b) \/ ~ exists y, walk nbrs a y /\ walk nbrs y b.
Proof.
  intros R L.
  assert (D : forall m, m <= n -> (exists y, y < m /\ walk nbrs a y /\ walk nbrs y b) \/
                                   ~ exists y, y < m /\ walk nbrs a y /\ walk nbrs y b).
  { induction m as [|m IH]; intros Hm; [right; intros [y [H _]]; lia|].
    destruct IH as [[y [H1 H2]]|H]; [lia|left; exists y; split; [lia|exact H2]|].
    destruct (walk_dec nbrs n a m R L) as [W1|W1].
    - destruct (walk_dec nbrs n m b R ltac:(lia)) as [W2|W2]; [left; exists m; auto|].
      right. intros [y [H1 [H2 H3]]]. destruct (Nat.eq_dec y m) as [->|]; [contradiction|].
      apply H. exists y. split; [lia|auto].
    - right. intros [y [H1 [H2 H3]]]. destruct (Nat.eq_dec y m) as [->|]; [contradiction|].
      apply H. exists y. split; [lia|auto]. }
  destruct (D n (le_n n)) as [[y [_ H]]|H]; [left; exists y; exact H|].
  right. intros [y [H1 H2]]. apply H. exists y. split; [eapply walk_range; eassumption|auto].
Qed.

(* removing the edges that a longer walk implies keeps all connections *)
Lemma reduction_walk nbrs nbrs' n : in_range nbrs n -> acyclic nbrs n ->
  (forall a b, a < n -> edge nbrs a b -> ~ (exists y, walk nbrs a y /\ walk nbrs y b) -> edge nbrs' a b) ->
  forall a b, a < n -> walk nbrs a b -> walk nbrs' a b.
Proof.
  intros R A K.
  assert (P : forall k a b, a < n -> walk nbrs a b -> (forall j, walkn nbrs j a b -> j <= k) -> walk nbrs' a b).
  { induction k as [k IH] using (well_founded_induction Wf_nat.lt_wf). intros a b L W B.
    destruct (dec_exists_between nbrs n a b R L) as [[y [W1 W2]]|No].
    - assert (Ly := walk_range _ _ _ _ R L W1).
      assert (C : forall u v w i j, walkn nbrs i u v -> walkn nbrs j v w -> walkn nbrs (i + j) u w).
      { clear. intros u v w i j H. revert w j. induction H as [u|i u x v E V IH]; intros w j H; [exact H|].
        cbn. eapply walkn_S; [exact E|apply IH, H]. }
      assert (B' := B). apply walk_walkn in W1 as V1. apply walk_walkn in W2 as V2.
      destruct V1 as [k1 V1]. destruct V2 as [k2 V2].
      assert (k > 0). { specialize (B _ (C _ _ _ _ _ V1 V2)). lia. }
      eapply walk_trans.
      + apply (IH (k - 1)); [lia|exact L|exact W1|]. intros j Hj. specialize (B _ (C _ _ _ _ _ Hj V2)). lia.
      + apply (IH (k - 1)); [lia|exact Ly|exact W2|]. intros j Hj. specialize (B _ (C _ _ _ _ _ V1 Hj)). lia.
    - apply walk_one. apply K; [exact L| |exact No].
      inversion W as [? ? E|? c ? E V]; subst; [exact E|]. exfalso. apply No. exists c. split; [apply walk_one, E|exact V]. }
  intros a b L W. apply (P n a b L W). intros j H. apply Nat.lt_le_incl. eapply walkn_bound; eassumption.
Qed.

(* ---- remove_transitive_edges ---- *)

Definition ev_pair (e : event) : nat * nat :=   (* from, to *)
  match e with NodeEv to from => (from, to) | EdgeEv from to => (from, to) end.

Definition relax (d : nat -> nat) (p : nat * nat) : nat -> nat :=
  upd d (snd p) (Nat.max (d (snd p)) (d (fst p) + 1)).

Lemma run_relax evs : forall d,
  run depth_node depth_edge evs d = (false, fold_left relax (map ev_pair evs) d).
Proof.
  induction evs as [|e evs IH]; intros d; [reflexivity|].
  destruct e; cbn [run depth_node depth_edge map ev_pair fold_left]; apply IH.
Qed.

Lemma relax_mono ps : forall d x, d x <= fold_left relax ps d x.
Proof.
  induction ps as [|p ps IH]; intros d x; cbn [fold_left]; [lia|].
  etransitivity; [|apply IH]. unfold relax, upd. destruct (Nat.eqb_spec x (snd p)) as [Ex|Nx]; [rewrite Ex|]; lia.
Qed.

Lemma relax_hit ps1 a b ps2 d :
  fold_left relax ps1 d a + 1 <= fold_left relax (ps1 ++ (a, b) :: ps2) d b.
Proof.
  rewrite fold_left_app. cbn [fold_left]. etransitivity; [|apply relax_mono].
  unfold relax. cbn [fst snd]. rewrite upd_eq. lia.
Qed.

Section Trans.
  Variable og : ograph.
  Notation nbrs := (og_out og).
  Hypothesis R : in_range nbrs (og_size og).

  Lemma transitive_from_ok s : s < og_size og -> ~ walk nbrs s s ->
    exists l, transitive_edges_from og s = Ok l /\
      forall a b, In (a, b) l <-> a = s /\ edge nbrs s b /\ exists y, walk nbrs s y /\ walk nbrs y b.
  Proof.
    intros L A. unfold transitive_edges_from.
    destruct (pops_ok false nbrs s _ R L (FUEL og)) as [rest [E [_ [K Ed]]]]; [unfold FUEL; lia|].
    unfold dfs, graph_traversal. rewrite (trav_run _ _ _ _ _ _ _ _ _ _ E), run_relax. cbn [snd bind].
    eexists. split; [reflexivity|].
    set (ps := map ev_pair (trace nbrs s ((s, s) :: rest))). set (d := fold_left relax ps (fun _ => 0)).
    assert (Ev : forall u v, In (u, v) ps -> edge nbrs u v /\ (u = s \/ walk nbrs s u)).
    { intros u v H. unfold ps in H. apply in_map_iff in H. destruct H as [e [He H]].
      unfold trace in H. apply in_flat_map in H. destruct H as [[c p] [H1 H2]]. cbn [fst snd] in H2.
      unfold visit in H2. apply in_app_iff in H2. destruct H2 as [H2|H2].
      - destruct (Nat.eqb_spec c s) as [->|Nc]; [destruct H2|]. destruct H2 as [<-|[]]. cbn in He. injection He as <- <-.
        destruct H1 as [H1|H1]; [congruence|]. destruct (Ed _ _ H1) as [X Y]. split; [exact X|].
        destruct Y as [Y|Y]; [left; exact Y|right; apply K, Y].
      - apply in_map_iff in H2. destruct H2 as [x [<- Hx]]. cbn in He. injection He as <- <-. split; [exact Hx|].
        destruct H1 as [H1|H1]; [left; congruence|right]. apply K. apply in_map_iff. exists (c, p). auto. }
    assert (G : forall b, 1 < d b <-> exists y, walk nbrs s y /\ edge nbrs y b).
    { intros b. split.
      - assert (Inv : forall qs, (forall u v, In (u, v) qs -> edge nbrs u v /\ (u = s \/ walk nbrs s u)) ->
          forall f, f s = 0 -> (forall x, 1 < f x -> exists y, walk nbrs s y /\ edge nbrs y x) ->
          forall x, 1 < fold_left relax qs f x -> exists y, walk nbrs s y /\ edge nbrs y x).
        { induction qs as [|[u v] qs IH]; intros Hq f F0 F1 x Hx; cbn [fold_left] in Hx; [apply F1, Hx|].
          destruct (Hq u v (or_introl eq_refl)) as [Euv Cu].
          apply (IH (fun u v H => Hq u v (or_intror H)) (relax f (u, v))); [| |exact Hx].
          - unfold relax. cbn [fst snd]. rewrite upd_ne; [exact F0|]. intros ->. apply A.
            destruct Cu as [->|W]; [apply walk_one, Euv|eapply walk_snoc; eassumption].
          - intros z Hz. unfold relax in Hz. cbn [fst snd] in Hz. unfold upd in Hz.
            destruct (Nat.eqb_spec z v) as [Ez|]; [subst z|apply F1, Hz].
            destruct Cu as [->|W]; [|exists u; split; assumption]. apply F1. rewrite F0 in Hz. lia. }
        apply (Inv ps Ev); [reflexivity|]. intros x Hx. lia.
      - intros [y [W Ey]].
        assert (Hy : In y (map fst rest)) by (apply K, W). apply in_map_iff in Hy. destruct Hy as [[y' p] [Hy1 Hy2]].
        cbn in Hy1. subst y'. apply in_split in Hy2. destruct Hy2 as [r1 [r2 Hr]].
        assert (Ny : y <> s) by (intros ->; contradiction).
        apply in_split in Ey. destruct Ey as [n1 [n2 En]].
        assert (Sp : exists pre mid post, ps = pre ++ (p, y) :: mid ++ (y, b) :: post).
        { exists (map ev_pair (trace nbrs s ((s, s) :: r1))), (map ev_pair (map (EdgeEv y) n1)),
            (map ev_pair (map (EdgeEv y) n2 ++ trace nbrs s r2)).
          unfold ps. rewrite Hr. change ((s, s) :: r1 ++ (y, p) :: r2) with (((s, s) :: r1) ++ (y, p) :: r2).
          unfold trace at 1. rewrite flat_map_app. fold (trace nbrs s ((s, s) :: r1)).
          rewrite map_app. f_equal.
          change (flat_map (fun cp => visit nbrs s (fst cp) (snd cp)) ((y, p) :: r2))
            with (visit nbrs s y p ++ trace nbrs s r2).
          unfold visit. destruct (Nat.eqb_spec y s) as [|_]; [contradiction|].
          cbn [app map ev_pair]. f_equal. rewrite En, map_app, !map_app. cbn [map ev_pair app].
          rewrite <- app_assoc. reflexivity. }
        destruct Sp as [pre [mid [post Sp]]]. unfold d. rewrite Sp.
        change (pre ++ (p, y) :: mid ++ (y, b) :: post) with (pre ++ ((p, y) :: mid) ++ (y, b) :: post).
        rewrite app_assoc. assert (X := relax_hit (pre ++ (p, y) :: mid) y b post (fun _ => 0)).
        assert (Y := relax_hit pre p y mid (fun _ => 0)). lia. }
    intros a b. rewrite in_map_iff. split.
    - intros [t [Et H]]. injection Et as <- <-. apply filter_In in H. destruct H as [H1 H2].
      apply Nat.ltb_lt, G in H2. split; [reflexivity|]. split; [exact H1|].
      destruct H2 as [y [W Ey]]. exists y. split; [exact W|apply walk_one, Ey].
    - intros [-> [H1 [y [W1 W2]]]]. exists b. split; [reflexivity|]. apply filter_In. split; [exact H1|].
      apply Nat.ltb_lt, G. apply walk_walkn in W2. destruct W2 as [k W2]. apply walkn_snoc_inv in W2.
      destruct W2 as [z [W2 Ez]]. exists z. split; [|exact Ez]. destruct k as [|k].
      + inversion W2; subst. exact W1.
      + eapply walk_trans; [exact W1|]. apply walk_walkn. exists k. exact W2.
  Qed.

  Lemma transitive_ok ss : (forall s, In s ss -> s < og_size og /\ ~ walk nbrs s s) ->
    exists l, transitive_edges og ss = Ok l /\
      forall a b, In (a, b) l <-> In a ss /\ edge nbrs a b /\ exists y, walk nbrs a y /\ walk nbrs y b.
  Proof.
    induction ss as [|s ss IH]; intros H; cbn [transitive_edges].
    - exists []. split; [reflexivity|]. intros a b. cbn. tauto.
    - destruct (H s (or_introl eq_refl)) as [L A].
      destruct (transitive_from_ok s L A) as [l1 [E1 K1]]. rewrite E1. cbn [bind].
      destruct IH as [l2 [E2 K2]]; [intros x Hx; apply H; right; exact Hx|]. rewrite E2. cbn [bind].
      eexists. split; [reflexivity|]. intros a b. rewrite in_app_iff, K1, K2. cbn [In].
      split; [intros [[-> X]|[X Y]]; auto|]. intros [[<-|X] Y]; [left|right]; auto.
  Qed.
End Trans.

Lemma erase_In l x y : In y (erase l x) <-> In y l /\ y <> x.
Proof. unfold erase. rewrite filter_In, negb_true_iff, Nat.eqb_neq. reflexivity. Qed.

Lemma erase_edges_ok es : forall og,
  let og' := fold_left erase_edge es og in
  og_size og' = og_size og /\ og_ir og' = og_ir og /\ og_train og' = og_train og /\ og_trips og' = og_trips og /\
  (forall a b, In b (og_out og' a) <-> In b (og_out og a) /\ ~ In (a, b) es) /\
  (forall a b, In a (og_in og' b) <-> In a (og_in og b) /\ ~ In (a, b) es).
Proof.
  induction es as [|[u v] es IH]; intros og og'; subst og'; cbn [fold_left].
  - repeat split; try tauto.
  - destruct (IH (erase_edge og (u, v))) as [H1 [H2 [H3 [H4 [H5 H6]]]]]. rewrite H1, H2, H3, H4.
    cbn [erase_edge og_size og_ir og_train og_trips].
    assert (Pr : forall a b : nat, (u, v) = (a, b) <-> a = u /\ b = v).
    { intros a b. split; [intros [= -> ->]; auto|intros [-> ->]; reflexivity]. }
    split; [reflexivity|]. split; [reflexivity|]. split; [reflexivity|]. split; [reflexivity|]. split.
    + intros a b. rewrite H5. cbn [erase_edge og_out fst snd In]. rewrite Pr. unfold upd.
      destruct (Nat.eqb_spec a u) as [Ea|Na]; [rewrite erase_In; subst a|]; tauto.
    + intros a b. rewrite H6. cbn [erase_edge og_in fst snd In]. rewrite Pr. unfold upd.
      destruct (Nat.eqb_spec b v) as [Ea|Na]; [rewrite erase_In; subst b|]; tauto.
Qed.

(* the edge a -> b is implied by a longer walk *)
Definition implied (nbrs : nat -> list nat) (a b : nat) : Prop := exists y, walk nbrs a y /\ walk nbrs y b.

Lemma remove_transitive_ok og : in_range (og_out og) (og_size og) -> acyclic (og_out og) (og_size og) ->
  exists og', remove_transitive_edges og = Ok og' /\
    og_size og' = og_size og /\ og_ir og' = og_ir og /\ og_train og' = og_train og /\ og_trips og' = og_trips og /\
    (forall a b, a < og_size og ->
       (edge (og_out og') a b <-> edge (og_out og) a b /\ ~ implied (og_out og) a b)) /\
    (forall a b, a < og_size og ->
       (edge (og_in og') b a <-> edge (og_in og) b a /\ ~ (edge (og_out og) a b /\ implied (og_out og) a b))) /\
    (forall a b, a < og_size og -> (walk (og_out og') a b <-> walk (og_out og) a b)).
Proof.
  intros R A. unfold remove_transitive_edges.
  destruct (transitive_ok og R (seq 0 (og_size og))) as [l [E K]].
  { intros s Hs. apply in_seq in Hs. split; [lia|]. apply A. lia. }
  rewrite E. cbn [bind]. eexists. split; [reflexivity|].
  destruct (erase_edges_ok l og) as [H1 [H2 [H3 [H4 [H5 H6]]]]].
  split; [exact H1|]. split; [exact H2|]. split; [exact H3|]. split; [exact H4|].
  assert (Ko : forall a b, a < og_size og ->
       (edge (og_out (fold_left erase_edge l og)) a b <-> edge (og_out og) a b /\ ~ implied (og_out og) a b)).
  { intros a b L. unfold edge. rewrite H5, K, in_seq. unfold implied, edge. split; intros [X Y]; (split; [exact X|]).
    - intros Z. apply Y. split; [lia|]. split; [exact X|exact Z].
    - intros [_ [_ Z]]. apply Y, Z. }
  split; [exact Ko|]. split.
  { intros a b L. unfold edge at 1 2. rewrite H6, K, in_seq. unfold implied. split; intros [X Y]; (split; [exact X|]).
    - intros [Z1 Z2]. apply Y. split; [lia|]. split; [exact Z1|exact Z2].
    - intros [_ [Z1 Z2]]. apply Y. split; assumption. }
  intros a b L. split.
  - intros W. induction W as [a b X|a b c X W IH]; apply (Ko _ _ L) in X; destruct X as [X _].
    + apply walk_one, X.
    + eapply walk_step; [exact X|]. apply IH. exact (R _ _ L X).
  - apply (reduction_walk _ _ _ R A); [|exact L]. intros x y Lx Ex Nx. apply (Ko x y Lx). split; assumption.
Qed.
