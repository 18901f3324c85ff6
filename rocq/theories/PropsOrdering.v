(* C19 - C25, C52: ordering graphs.

   Reading guide: `walk (og_out og) a b` is a path of at least one edge
   (GraphProofs.v); `chain nbrs a l`: edges a -> l_1 -> l_2 ...; `is_cycle c`:
   the non-empty list c is a closed walk; `acyclic nbrs n`: no node below n lies
   on a closed walk (OrderingProofs.v).  `all_uses flt ts` is the list of route
   usages of the timetable (OrderingSpec.v); node i of the ordering graph stands
   for the i-th usage. *)
From Verif Require Import Base GraphModel GraphProofs GraphBfs OrderingModel OrderingProofs OrderingSpec OrderingBuild.
From Coq Require Import Permutation Sorting.Sorted.

Definition graph_ok (og : ograph) : Prop := in_range (og_out og) (og_size og).

(* graphs for the examples *)
Definition from_table (l : list (list nat)) (ir : list nat) : ograph :=
  mkog (length l) (fun i => nth i ir 0) (fun _ => 0)
       (fun i => filter (fun j => existsb (Nat.eqb i) (nth j l [])) (seq 0 (length l)))
       (fun i => nth i l []) [].

(* ---- C19 ---- *)

Theorem C19_reachable_nodes :
  forall og s, graph_ok og -> s < og_size og ->
    exists r, get_reachable_nodes og s = Ok r /\
      forall x, r x = true <-> x = s \/ walk (og_out og) s x.
Proof. exact reachable_ok. Qed.
Print Assumptions C19_reachable_nodes.

Theorem C19_path_exists :
  forall og s t, graph_ok og -> s < og_size og -> s <> t ->
    exists b, path_exists og s t = Ok b /\ (b = true <-> walk (og_out og) s t).
Proof.
  intros og s t R L N. destruct (path_exists_ok og s t R L) as [b [E K]]. exists b. split; [exact E|]. rewrite K.
  split; [tauto|]. intros W. split; [congruence|exact W].
Qed.
Print Assumptions C19_path_exists.

(* a node is never reported as reachable from itself, even on a cycle *)
Theorem C19_path_exists_self :
  forall og s, graph_ok og -> s < og_size og -> path_exists og s s = Ok false.
Proof.
  intros og s R L. destruct (path_exists_ok og s s R L) as [b [E K]]. rewrite E. destruct b; [|reflexivity].
  destruct (proj1 K eq_refl) as [H _]. congruence.
Qed.
Print Assumptions C19_path_exists_self.

Definition ex_og : ograph := from_table [[1; 2]; [3]; [3]; [4]; [1]; [0]] [0; 1; 0; 2; 1; 2].
Example ex_C19 : path_exists ex_og 0 4 = Ok true /\ path_exists ex_og 4 0 = Ok false.
Proof. split; vm_compute; reflexivity. Qed.
Lemma from_table_ok l ir : forallb (forallb (fun x => Nat.ltb x (length l))) l = true -> graph_ok (from_table l ir).
Proof.
  intros H a b La E. rewrite forallb_forall in H. specialize (H (nth a l []) (nth_In l [] La)).
  rewrite forallb_forall in H. apply Nat.ltb_lt, H, E.
Qed.
Example ex_C19_hyp : graph_ok ex_og.
Proof. apply from_table_ok. reflexivity. Qed.

(* ---- C25 ---- *)

(* The checker is exact when the two exclusion tables agree (C34). *)
Theorem C25_has_exclusion_paths :
  forall og i2e es, graph_ok og ->
    (forall ir s, In s (i2e ir) <-> In ir (es s)) ->
    exists b, has_exclusion_paths og i2e es = Ok b /\
      (b = true <->
       forall x y s, x < og_size og -> y < og_size og -> x <> y ->
         In (og_ir og x) (es s) -> In (og_ir og y) (es s) ->
         walk (og_out og) x y \/ walk (og_out og) y x).
Proof.
  intros og i2e es R Inv. destruct (has_exclusion_paths_ok og i2e es R) as [b [E K]]. exists b. split; [exact E|].
  rewrite K. split.
  - intros H x y s Lx Ly N Hx Hy. apply H; auto. exists s. split; [apply Inv, Hx|exact Hy].
  - intros H x y Lx Ly N [s [Hx Hy]]. apply (H x y s); auto. apply Inv, Hx.
Qed.
Print Assumptions C25_has_exclusion_paths.

(* routes 0 and 1 exclude each other; so do 1 and 2 *)
Definition ex_es (s : nat) : list nat := match s with 0 => [0; 1] | 1 => [1; 2] | _ => [] end.
Definition ex_i2e (r : nat) : list nat := match r with 0 => [0] | 1 => [0; 1] | 2 => [1] | _ => [] end.
Example ex_C25_hyp : forall ir s, In s (ex_i2e ir) <-> In ir (ex_es s).
Proof.
  intros [|[|[|ir]]] [|[|s]]; cbn; split; intros H; repeat (destruct H as [H|H]); try discriminate H; try contradiction; auto.
Qed.
Example ex_C25_true : has_exclusion_paths (from_table [[1]; [2]; []] [0; 1; 2]) ex_i2e ex_es = Ok true.
Proof. vm_compute. reflexivity. Qed.
Example ex_C25_false : has_exclusion_paths (from_table [[2]; [2]; []] [0; 1; 2]) ex_i2e ex_es = Ok false.
Proof. vm_compute. reflexivity. Qed.

(* ---- C20 ---- *)

Theorem C20_get_cycle :
  forall og, graph_ok og ->
    exists r, get_cycle og = Ok r /\
      match r with
      | None => acyclic (og_out og) (og_size og)
      | Some c =>
          is_cycle (og_out og) c /\ (forall x, In x c -> x < og_size og) /\
          forall c', is_cycle (og_out og) c' -> (forall x, In x c' -> x < og_size og) -> length c <= length c'
      end.
Proof.
  intros og R. unfold get_cycle, get_cycles.
  destruct (cycles_of_ok og R (seq 0 (og_size og))) as [cs [E [A B]]].
  { intros s Hs. apply in_seq in Hs. lia. }
  rewrite E. cbn [bind]. destruct cs as [|c cs].
  - exists None. split; [reflexivity|]. intros x L W. apply walk_walkn in W. destruct W as [k W].
    destruct (B x k) as [c [[] _]]; [apply in_seq; lia|exact W].
  - eexists. split; [reflexivity|]. assert (I := min_by_size_in c cs). destruct (A _ I) as [A1 A2].
    split; [exact A1|]. split.
    + destruct A1 as [_ Ch]. revert Ch A2. generalize (last (min_by_size c cs) 0). generalize (min_by_size c cs).
      clear - R. intros l. induction l as [|b l IH]; intros a Ch La x H; [destruct H|].
      cbn [chain] in Ch. destruct Ch as [Ed Ch]. assert (Lb := R _ _ La Ed). destruct H as [<-|H]; [exact Lb|exact (IH b Ch Lb x H)].
    + intros c' [Ne Ch] L'. apply chain_walkn in Ch.
      assert (Ll : last (c') (last c' 0) = last c' 0).
      { clear - Ne. induction c' as [|a c' IH]; [congruence|]. destruct c' as [|b c']; [reflexivity|].
        change (last (b :: c') (last (b :: c') 0) = last (b :: c') 0). apply IH. discriminate. }
      rewrite Ll in Ch. assert (In (last c' 0) c').
      { clear - Ne. induction c' as [|a c' IH]; [congruence|]. destruct c' as [|b c']; [left; reflexivity|].
        right. apply IH. discriminate. }
      destruct c' as [|a c']; [congruence|]. cbn [length] in *.
      destruct (B (last (a :: c') 0) (length c')) as [d [Hd Hl]]; [apply in_seq; specialize (L' _ H); lia|exact Ch|].
      etransitivity; [apply min_by_size_le, Hd|exact Hl].
Qed.
Print Assumptions C20_get_cycle.

(* every cycle of get_cycles ends at its start node and is a shortest one through it *)
Theorem C20_shortest_cycle_from_node :
  forall og s, graph_ok og -> s < og_size og ->
    exists r, get_shortest_cycle_from_node og s = Ok r /\
      match r with
      | None => ~ walk (og_out og) s s
      | Some c => is_cycle (og_out og) c /\ last c 0 = s /\
                  forall c', is_cycle (og_out og) c' -> last c' 0 = s -> length c <= length c'
      end.
Proof.
  intros og s R L. destruct (shortest_ok og s R L) as [r [E K]]. exists r. split; [exact E|].
  destruct r as [c|]; [|exact K]. destruct K as [K1 [K2 K3]]. split; [exact K1|]. split; [exact K2|].
  intros c' [Ne Ch] Hl. destruct c' as [|a c']; [congruence|]. apply chain_walkn in Ch.
  assert (Ll : last (a :: c') (last (a :: c') 0) = last (a :: c') 0).
  { clear. generalize (last (a :: c') 0) at 1. revert a. induction c' as [|b c' IH]; intros a n; [reflexivity|]. apply (IH b n). }
  rewrite Ll, Hl in Ch. apply (K3 (length c')). exact Ch.
Qed.
Print Assumptions C20_shortest_cycle_from_node.

Example ex_C20 : get_cycle ex_og = Ok (Some [3; 4; 1]).
Proof. vm_compute. reflexivity. Qed.
Example ex_C20_none : get_cycle (from_table [[1; 2]; [3]; [3]; []] []) = Ok None.
Proof. vm_compute. reflexivity. Qed.

(* ---- C21 ---- *)

Definition mirrored (og : ograph) : Prop :=
  forall a b, a < og_size og -> b < og_size og -> (In b (og_out og a) <-> In a (og_in og b)).

Theorem C21_transitive_reduction_partial :
  forall og, graph_ok og -> acyclic (og_out og) (og_size og) ->
    exists og', remove_transitive_edges og = Ok og' /\
      og_size og' = og_size og /\ og_ir og' = og_ir og /\ og_train og' = og_train og /\
      (* the same connections *)
      (forall a b, a < og_size og -> (walk (og_out og') a b <-> walk (og_out og) a b)) /\
      (* only edges of the old graph, and none that a longer path implies *)
      (forall a b, a < og_size og -> edge (og_out og') a b -> edge (og_out og) a b) /\
      (forall a b y, a < og_size og -> edge (og_out og') a b -> walk (og_out og') a y -> ~ walk (og_out og') y b) /\
      (mirrored og -> mirrored og').
Proof.
  intros og R A. destruct (remove_transitive_ok og R A) as [og' [E [H1 [H2 [H3 [_ [H5 [H6 H7]]]]]]]].
  exists og'. split; [exact E|]. split; [exact H1|]. split; [exact H2|]. split; [exact H3|]. split; [exact H7|].
  split; [intros a b L He; apply (H5 a b L), He|]. split.
  - intros a b y L He W1 W2. apply (H5 a b L) in He. destruct He as [He Ni]. apply Ni.
    apply (H7 a y L) in W1. exists y. split; [exact W1|]. apply H7; [|exact W2]. eapply walk_range; eassumption.
  - intros M a b La Lb. rewrite H1 in La, Lb. assert (X := H5 a b La). assert (Y := H6 a b La). unfold edge in X, Y.
    rewrite X, Y. specialize (M a b La Lb). tauto.
Qed.
Print Assumptions C21_transitive_reduction_partial.

Example ex_C21 : exists og', remove_transitive_edges (from_table [[1; 2; 3]; [3]; [3]; []] []) = Ok og' /\
  map (og_out og') [0; 1; 2; 3] = [[1; 2]; [3]; [3]; []] /\ map (og_in og') [0; 1; 2; 3] = [[]; [0]; [0]; [1; 2]].
Proof. eexists. split; [vm_compute; reflexivity|]. split; vm_compute; reflexivity. Qed.
Example ex_C21_hyp : acyclic (og_out (from_table [[1; 2; 3]; [3]; [3]; []] [])) 4.
Proof.
  destruct (C20_get_cycle (from_table [[1; 2; 3]; [3]; [3]; []] [])) as [r [E H]].
  { apply from_table_ok. reflexivity. }
  vm_compute in E. injection E as <-. exact H.
Qed.

(* On a cycle connections are lost: both edges of a two-node cycle are removed. *)
Theorem C21_cycle_refuted :
  exists og og', graph_ok og /\ remove_transitive_edges og = Ok og' /\
    walk (og_out og) 0 1 /\ ~ walk (og_out og') 0 1.
Proof.
  exists (from_table [[1]; [0]] []). eexists. split; [apply from_table_ok; reflexivity|]. split; [vm_compute; reflexivity|].
  split; [apply walk_one; left; reflexivity|]. intros W. inversion W as [? ? H|? ? ? H]; destruct H.
Qed.
Print Assumptions C21_cycle_refuted.

(* ---- the constructed graph ---- *)

(* start times increase along each trip, and conflicting usages never start at
   the same time *)
Definition tie_free (i2e : nat -> list nat) (E : nat) (us : list route_use) : Prop :=
  (forall i u u', nth_error us i = Some u -> nth_error us (S i) = Some u' -> u_last u = false ->
     (u_start u < u_start u')%N) /\
  (forall i j u v, nth_error us i = Some u -> nth_error us j = Some v -> i <> j ->
     conflict i2e E (u_ir u) (u_ir v) -> u_start u <> u_start v).

(* start times never decrease along a trip *)
Definition monotone (us : list route_use) : Prop :=
  forall i u u', nth_error us i = Some u -> nth_error us (S i) = Some u' -> u_last u = false ->
    (u_start u <= u_start u')%N.

(* one node per usage *)
Definition nodes_match (og : ograph) (us : list route_use) : Prop :=
  og_size og = length us /\
  forall i u, nth_error us i = Some u -> og_ir og i = u_ir u /\ og_train og i = u_train u.

(* no route lists an exclusion set twice *)
Definition i2e_ok (i2e : nat -> list nat) : Prop := forall ir, NoDup (i2e ir).

Lemma sorted_pairs {A} (P : A -> A -> Prop) l :
  (forall l1 x l2 y l3, l = l1 ++ x :: l2 ++ y :: l3 -> P x y) -> StronglySorted P l.
Proof.
  induction l as [|a l IH]; intros H; constructor.
  - apply IH. intros l1 x l2 y l3 E. apply (H (a :: l1) x l2 y l3). rewrite E. reflexivity.
  - apply Forall_forall. intros y Hy. apply in_split in Hy. destruct Hy as [l2 [l3 ->]]. apply (H [] a l2 y l3). reflexivity.
Qed.

Definition rk1 (a b : usage) : Prop := (fst a < fst b)%N.
Definition rk2 (a b : usage) : Prop := (fst a < fst b)%N \/ (fst a = fst b /\ snd a < snd b).

Section Built.
  Variable sorter : list usage -> list usage.
  Variable i2e : nat -> list nat.
  Variable E : nat.
  Variables (flt : list nat) (ts : list otrain).
  Hypothesis Sorts : sorts sorter.
  Hypothesis I2e : i2e_ok i2e.
  Hypothesis Wf : well_formed flt ts.
  Notation us := (all_uses flt ts).
  Notation ord := (ordering_of i2e (imap 0 us)).

  Let Nd : forall u, In u us -> NoDup (i2e (u_ir u)) := fun u _ => I2e (u_ir u).

  Lemma rk1_sorted es : es < E -> tie_free i2e E us -> StronglySorted rk1 (sorter (ord es)).
  Proof.
    intros He [_ T]. apply sorted_pairs. intros l1 [tx x] l2 [ty y] l3 Eq.
    destruct (Sorts (ord es)) as [_ S]. assert (Le := sorted_pair _ _ _ _ _ _ _ S Eq). cbn in Le.
    assert (A : In (tx, x) (sorter (ord es))) by (rewrite Eq; apply in_or_app; right; left; reflexivity).
    assert (B : In (ty, y) (sorter (ord es))).
    { rewrite Eq. apply in_or_app. right. right. apply in_or_app. right. left. reflexivity. }
    assert (N : x <> y).
    { assert (D := sord_NoDup sorter i2e us Sorts Nd es). rewrite Eq, map_app in D. cbn [map snd] in D.
      apply NoDup_remove_2 in D. intros ->. apply D. apply in_or_app. right. rewrite map_app. apply in_or_app. right. left. reflexivity. }
    apply (sord_In sorter i2e us Sorts), ord_In in A. apply (sord_In sorter i2e us Sorts), ord_In in B.
    destruct A as [u [Hu [-> Eu]]]. destruct B as [v [Hv [-> Ev]]]. unfold rk1. cbn.
    assert (u_start u <> u_start v) by (apply (T x y u v Hu Hv N); exists es; auto). lia.
  Qed.

  Lemma rk2_sorted es : stable sorter -> StronglySorted rk2 (sorter (ord es)).
  Proof.
    intros St. apply sorted_pairs. intros l1 [tx x] l2 [ty y] l3 Eq.
    destruct (Sorts (ord es)) as [_ S]. assert (Le := sorted_pair _ _ _ _ _ _ _ S Eq). cbn in Le.
    unfold rk2. cbn. destruct (N.eq_dec tx ty) as [->|Ne]; [right|left; lia]. split; [reflexivity|].
    assert (F := St (ord es) ty). rewrite Eq in F. rewrite filter_app in F. cbn [filter fst] in F. rewrite N.eqb_refl in F.
    rewrite filter_app in F. cbn [filter fst] in F. rewrite N.eqb_refl in F.
    assert (Si : StronglySorted lt (map snd (filter (fun u => N.eqb (fst u) ty) (ord es)))).
    { assert (Q := ord_ids i2e us Nd es). clear - Q. induction (ord es) as [|a l IH]; cbn [filter map]; [constructor|].
      cbn [map] in Q. inversion Q as [|? ? Q1 Q2]; subst. destruct (N.eqb (fst a) ty); [|apply IH, Q1].
      cbn [map]. constructor; [apply IH, Q1|]. rewrite Forall_forall in *. intros z Hz. apply Q2.
      apply in_map_iff in Hz. destruct Hz as [b [<- Hb]]. apply filter_In in Hb. apply in_map, Hb. }
    rewrite <- F in Si. rewrite map_app in Si. cbn [map snd] in Si. rewrite map_app in Si. cbn [map snd] in Si.
    eapply (sorted_pair lt); [exact Si|reflexivity].
  Qed.

  Lemma generated (P : otrain -> Prop) : (forall t, In t ts -> selected flt t = true -> P t) ->
    exists m, gen_trains flt ts ([], []) = Ok (imap 0 us, m) /\ index_ok P us m /\
      (forall t a, In t ts -> selected flt t = true -> ot_arrivals t <> [] -> In a (ot_anchors t) -> has_key m (ot_id t, a)).
  Proof.
    intros HP. destruct (gen_trains_ok flt P ts [] [] Wf HP) as [m [A [B [_ D]]]]; [intros e []|].
    exists m. split; [exact A|]. split; [exact B|exact D].
  Qed.

  Section Rk.
    Variable rk : usage -> usage -> Prop.
    Hypothesis rk_irrefl : forall a, ~ rk a a.
    Hypothesis rk_trans : forall a b c, rk a b -> rk b c -> rk a c.
    Hypothesis rk_sorted : forall es, es < E -> StronglySorted rk (sorter (ord es)).
    Hypothesis rk_trip : forall i u u', nth_error us i = Some u -> nth_error us (S i) = Some u' ->
      u_last u = false -> rk (u_start u, i) (u_start u', S i).

    Lemma build_ok : exists og, make_ordering_graph sorter i2e E flt ts = Ok og /\
      nodes_match og us /\ mirrored og /\ graph_ok og /\ acyclic (og_out og) (og_size og) /\
      (forall i j u v, nth_error us i = Some u -> nth_error us j = Some v -> i <> j ->
         conflict i2e E (u_ir u) (u_ir v) ->
         (walk (og_out og) i j /\ rk (u_start u, i) (u_start v, j)) \/
         (walk (og_out og) j i /\ rk (u_start v, j) (u_start u, i))) /\
      (forall i u, nth_error us i = Some u -> u_last u = false -> walk (og_out og) i (S i)) /\
      (forall i j, i < length us -> walk (og_out og) i j -> rk (start_of us i, i) (start_of us j, j)).
    Proof.
      destruct (generated (fun _ => True)) as [m [Eg _]]; [auto|]. unfold make_ordering_graph. rewrite Eg. cbn [bind].
      assert (Lk := linked_all flt ts Wf).
      assert (R := range_og sorter i2e E us Sorts Lk m).
      assert (A := acyclic_og sorter i2e E us Sorts Lk rk rk_irrefl rk_trans rk_sorted rk_trip m).
      set (og0 := with_edges sorter i2e E (imap 0 us, m)) in *.
      assert (Sz : og_size og0 = length us) by (cbn; apply imap_length).
      destruct (remove_transitive_ok og0 R A) as [og [Er [H1 [H2 [H3 [H4 [H5 [H6 H7]]]]]]]].
      exists og. split; [exact Er|].
      assert (Lt : forall i u, nth_error us i = Some u -> i < og_size og0).
      { intros i u H. rewrite Sz. apply nth_error_Some. congruence. }
      split; [|split; [|split; [|split; [|split; [|split]]]]].
      - split; [congruence|]. intros i u Hu. rewrite H2, H3. unfold og0. cbn [with_edges og_ir og_train fst].
        rewrite !field_ns, Hu. split; reflexivity.
      - intros a b La Lb. rewrite H1 in La, Lb. assert (X := H5 a b La). assert (Y := H6 a b La). unfold edge in X, Y.
        rewrite X, Y. assert (M := mirror sorter i2e E us Lk m a b). fold og0 in M. unfold edge in M. tauto.
      - intros a b La He. rewrite H1 in *. apply (H5 a b La) in He. exact (R a b La (proj1 He)).
      - intros x Lx W. rewrite H1 in Lx. apply (H7 x x Lx) in W. exact (A x Lx W).
      - intros i j u v Hi Hj N C.
        destruct (conflict_walk sorter i2e E us Sorts rk rk_sorted m i j u v Hi Hj N C) as [[W K]|[W K]]; [left|right];
          (split; [|exact K]); apply H7; eauto.
      - intros i u Hi Hl. apply H7; [eauto|]. exact (trip_walk sorter i2e E us m i u Hi Hl).
      - intros i j Li W. rewrite <- Sz in Li. apply (H7 i j Li) in W.
        exact (walk_rk sorter i2e E us Sorts Lk rk rk_trans rk_sorted rk_trip m i j W).
    Qed.
  End Rk.
End Built.

(* C22 for every sorting function, when usage times are tie-free: conflicting
   usages are connected, the earlier one comes first. *)
Theorem C22_conflicts_ordered_partial :
  forall sorter i2e E flt ts,
    sorts sorter -> i2e_ok i2e -> well_formed flt ts -> tie_free i2e E (all_uses flt ts) ->
    exists og, make_ordering_graph sorter i2e E flt ts = Ok og /\
      nodes_match og (all_uses flt ts) /\ mirrored og /\
      (forall i j u v,
         nth_error (all_uses flt ts) i = Some u -> nth_error (all_uses flt ts) j = Some v -> i <> j ->
         conflict i2e E (u_ir u) (u_ir v) ->
         ((u_start u < u_start v)%N /\ walk (og_out og) i j) \/
         ((u_start v < u_start u)%N /\ walk (og_out og) j i)) /\
      (forall i u, nth_error (all_uses flt ts) i = Some u -> u_last u = false -> walk (og_out og) i (S i)).
Proof.
  intros sorter i2e E flt ts S I W T.
  destruct (build_ok sorter i2e E flt ts S W rk1) as [og [H1 [H2 [H3 [_ [_ [H4 [H5 _]]]]]]]].
  - intros a. unfold rk1. lia.
  - unfold rk1. intros a b c. lia.
  - intros es He. apply (rk1_sorted sorter i2e E flt ts S I es He T).
  - intros i u u' Hu Hu' Hl. unfold rk1. cbn. apply (proj1 T i u u' Hu Hu' Hl).
  - exists og. split; [exact H1|]. split; [exact H2|]. split; [exact H3|]. split; [|exact H5].
    intros i j u v Hi Hj N C. destruct (H4 i j u v Hi Hj N C) as [[A B]|[A B]]; [left|right]; split; assumption.
Qed.
Print Assumptions C22_conflicts_ordered_partial.

(* C22 without tie-freeness, for stable sorting functions: ties are broken by
   the node id. *)
Theorem C22_conflicts_ordered_stable_partial :
  forall sorter i2e E flt ts,
    sorts sorter -> stable sorter -> i2e_ok i2e -> well_formed flt ts -> monotone (all_uses flt ts) ->
    exists og, make_ordering_graph sorter i2e E flt ts = Ok og /\
      nodes_match og (all_uses flt ts) /\ mirrored og /\
      (forall i j u v,
         nth_error (all_uses flt ts) i = Some u -> nth_error (all_uses flt ts) j = Some v -> i < j ->
         conflict i2e E (u_ir u) (u_ir v) ->
         ((u_start u <= u_start v)%N /\ walk (og_out og) i j) \/
         ((u_start v < u_start u)%N /\ walk (og_out og) j i)) /\
      (forall i u, nth_error (all_uses flt ts) i = Some u -> u_last u = false -> walk (og_out og) i (S i)).
Proof.
  intros sorter i2e E flt ts S St I W M.
  destruct (build_ok sorter i2e E flt ts S W rk2) as [og [H1 [H2 [H3 [_ [_ [H4 [H5 _]]]]]]]].
  - intros a. unfold rk2. lia.
  - unfold rk2. intros a b c. lia.
  - intros es He. apply (rk2_sorted sorter i2e flt ts S I es St).
  - intros i u u' Hu Hu' Hl. unfold rk2. cbn. assert (Q := M i u u' Hu Hu' Hl). lia.
  - exists og. split; [exact H1|]. split; [exact H2|]. split; [exact H3|]. split; [|exact H5].
    intros i j u v Hi Hj N C. destruct (H4 i j u v Hi Hj) as [[A B]|[A B]]; [lia|exact C|left|right]; (split; [|exact A]); unfold rk2 in B; cbn in B; lia.
Qed.
Print Assumptions C22_conflicts_ordered_stable_partial.

Theorem C23_acyclic_tie_free :
  forall sorter i2e E flt ts,
    sorts sorter -> i2e_ok i2e -> well_formed flt ts -> tie_free i2e E (all_uses flt ts) ->
    exists og, make_ordering_graph sorter i2e E flt ts = Ok og /\ graph_ok og /\
      acyclic (og_out og) (og_size og).
Proof.
  intros sorter i2e E flt ts S I W T.
  destruct (build_ok sorter i2e E flt ts S W rk1) as [og [H1 [_ [_ [H2 [H3 _]]]]]].
  - intros a. unfold rk1. lia.
  - unfold rk1. intros a b c. lia.
  - intros es He. apply (rk1_sorted sorter i2e E flt ts S I es He T).
  - intros i u u' Hu Hu' Hl. unfold rk1. cbn. apply (proj1 T i u u' Hu Hu' Hl).
  - exists og. auto.
Qed.
Print Assumptions C23_acyclic_tie_free.

Theorem C23_acyclic_stable :
  forall sorter i2e E flt ts,
    sorts sorter -> stable sorter -> i2e_ok i2e -> well_formed flt ts -> monotone (all_uses flt ts) ->
    exists og, make_ordering_graph sorter i2e E flt ts = Ok og /\ graph_ok og /\
      acyclic (og_out og) (og_size og).
Proof.
  intros sorter i2e E flt ts S St I W M.
  destruct (build_ok sorter i2e E flt ts S W rk2) as [og [H1 [_ [_ [H2 [H3 _]]]]]].
  - intros a. unfold rk2. lia.
  - unfold rk2. intros a b c. lia.
  - intros es He. apply (rk2_sorted sorter i2e flt ts S I es St).
  - intros i u u' Hu Hu' Hl. unfold rk2. cbn. assert (Q := M i u u' Hu Hu' Hl). lia.
  - exists og. auto.
Qed.
Print Assumptions C23_acyclic_stable.

(* ---- insertion sort, the sorting function of the examples ---- *)

Fixpoint ins (x : usage) (l : list usage) : list usage :=
  match l with
  | [] => [x]
  | y :: l' => if N.leb (fst x) (fst y) then x :: l else y :: ins x l'
  end.
Definition isort (l : list usage) : list usage := fold_right ins [] l.

Lemma ins_perm x l : Permutation (x :: l) (ins x l).
Proof.
  induction l as [|y l IH]; cbn [ins]; [reflexivity|]. destruct (N.leb _ _); [reflexivity|].
  rewrite perm_swap. apply perm_skip, IH.
Qed.
Lemma ins_sorted x l : StronglySorted (fun a b : usage => (fst a <= fst b)%N) l ->
  StronglySorted (fun a b : usage => (fst a <= fst b)%N) (ins x l).
Proof.
  induction 1 as [|y l S IH F]; cbn [ins]; [constructor; constructor|].
  destruct (N.leb_spec (fst x) (fst y)) as [H|H].
  - constructor; [constructor; assumption|]. constructor; [exact H|]. rewrite Forall_forall in *. intros z Hz. specialize (F z Hz). lia.
  - constructor; [exact IH|]. rewrite Forall_forall in *. intros z Hz. apply (Permutation_in _ (Permutation_sym (ins_perm x l))) in Hz.
    destruct Hz as [<-|Hz]; [lia|apply F, Hz].
Qed.
Lemma isort_sorts : sorts isort.
Proof.
  intros l. induction l as [|x l [P S]]; cbn [isort fold_right]; [split; constructor|]. split.
  - rewrite <- ins_perm. apply perm_skip, P.
  - apply ins_sorted, S.
Qed.
Lemma isort_stable : stable isort.
Proof.
  intros l t. induction l as [|x l IH]; [reflexivity|]. cbn [isort fold_right filter]. fold (isort l).
  rewrite <- IH. destruct (isort_sorts l) as [_ S]. clear IH. induction S as [|y m S IH F]; [reflexivity|].
  cbn [ins]. destruct (N.leb_spec (fst x) (fst y)) as [H|H]; [reflexivity|]. cbn [filter]. rewrite IH.
  destruct (N.eqb_spec (fst x) t) as [Ex|Ex], (N.eqb_spec (fst y) t) as [Ey|Ey]; try reflexivity. lia.
Qed.

(* two trains with a common exclusion set on their first and second routes *)
Definition ex_i2e2 (r : nat) : list nat := match r with 0 => [0] | 1 => [1] | 2 => [1] | 3 => [0] | _ => [] end.
Definition ex_ts : list otrain :=
  [mkotrain 0 [0; 1; 4] 10%N [1000; 5000]%N [60; 120]%N; mkotrain 1 [2; 3; 5] 5%N [1000]%N [70; 100]%N].
Example ex_C22_uses : map (fun u => (u_train u, u_ir u, u_start u)) (all_uses [] ex_ts) =
  [(0, 0, 1010%N); (0, 1, 1060%N); (0, 4, 1120%N); (0, 0, 5010%N); (0, 1, 5060%N); (0, 4, 5120%N);
   (1, 2, 1005%N); (1, 3, 1070%N); (1, 5, 1100%N)].
Proof. vm_compute. reflexivity. Qed.
Example ex_C22_graph : exists og, make_ordering_graph isort ex_i2e2 2 [] ex_ts = Ok og /\
  map (og_out og) (seq 0 9) = [[1; 7]; [2; 4]; []; [4]; [5]; []; [1; 7]; [3; 8]; []].
Proof. eexists. split; [vm_compute; reflexivity|]. vm_compute. reflexivity. Qed.
Example ex_C22_wf : well_formed [] ex_ts.
Proof. intros t [<-|[<-|[]]] _ _; reflexivity. Qed.
Example ex_C22_i2e : i2e_ok ex_i2e2.
Proof. intros [|[|[|[|r]]]]; cbn; repeat constructor; intros []. Qed.
Example ex_C22_tie_free : tie_free ex_i2e2 2 (all_uses [] ex_ts).
Proof.
  split.
  - intros i u u'. do 9 (destruct i as [|i]; [cbn; intros [= <-] [= <-] H; (discriminate H || reflexivity)|]).
    destruct i; cbn; intros H; discriminate H.
  - intros i j u v.
    do 9 (destruct i as [|i]; [do 9 (destruct j as [|j]; [cbn; intros [= <-] [= <-] H1 [es [H2 [H3 H4]]]; cbn in H3, H4;
        repeat (destruct H3 as [H3|H3]); try contradiction; repeat (destruct H4 as [H4|H4]); try contradiction; try congruence; discriminate|]);
        destruct j; cbn; intros _ H; discriminate H|]).
    destruct i; cbn; intros H; discriminate H.
Qed.

(* With equal start times a sorting function that is not stable - std::sort is
   not - can order two usages differently in two exclusion sets: the graph then
   has a cycle, the reduction deletes its edges, and conflicting usages end up
   unordered. *)
Definition tie_sorter (l : list usage) : list usage :=
  if Nat.eqb (length l) 2 then isort l else isort (rev l).
Lemma tie_sorter_sorts : sorts tie_sorter.
Proof.
  intros l. unfold tie_sorter. destruct (Nat.eqb _ _); [apply isort_sorts|]. destruct (isort_sorts (rev l)) as [P S].
  split; [|exact S]. rewrite <- P. apply Permutation_rev.
Qed.
Definition tie_i2e (r : nat) : list nat := match r with 0 => [0; 1] | 2 => [0; 1] | 4 => [1] | _ => [] end.
Definition tie_ts : list otrain :=
  [mkotrain 0 [0; 1] 10%N [0]%N [30]%N; mkotrain 1 [2; 3] 10%N [0]%N [30]%N; mkotrain 2 [4; 5] 20%N [0]%N [30]%N].

Theorem C22_ties_refuted :
  exists sorter i2e E ts og u v,
    sorts sorter /\ i2e_ok i2e /\ well_formed [] ts /\ monotone (all_uses [] ts) /\
    make_ordering_graph sorter i2e E [] ts = Ok og /\
    nth_error (all_uses [] ts) 0 = Some u /\ nth_error (all_uses [] ts) 2 = Some v /\
    conflict i2e E (u_ir u) (u_ir v) /\
    ~ walk (og_out og) 0 2 /\ ~ walk (og_out og) 2 0 /\
    (* even the order of the routes of one train is lost *)
    u_last u = false /\ ~ walk (og_out og) 0 1.
Proof.
  exists tie_sorter, tie_i2e, 2, tie_ts. do 3 eexists.
  split; [exact tie_sorter_sorts|].
  split; [intros [|[|[|[|[|r]]]]]; cbn; repeat constructor; cbn; intuition discriminate|].
  split; [intros t [<-|[<-|[<-|[]]]] _ _; reflexivity|].
  split.
  { intros i u u'. do 6 (destruct i as [|i]; [cbn; intros [= <-] [= <-] H; (discriminate H || (cbn; lia))|]).
    destruct i; cbn; intros H; discriminate H. }
  split; [vm_compute; reflexivity|]. split; [reflexivity|]. split; [reflexivity|].
  split; [exists 0; cbn; auto|].
  set (og := mkog _ _ _ _ _ _).
  assert (R : graph_ok og).
  { intros a b La. unfold og in *. cbn in La. unfold edge. do 6 (destruct a as [|a]; [vm_compute; intuition lia|]). lia. }
  assert (N : forall s t, s < 6 -> s <> t -> path_exists og s t = Ok false -> ~ walk (og_out og) s t).
  { intros s t Ls Ne H W. destruct (C19_path_exists og s t R Ls Ne) as [b [Eb Kb]]. rewrite Eb in H. injection H as ->.
    destruct Kb as [_ Kb]. specialize (Kb W). discriminate. }
  split; [apply N; [lia|discriminate|vm_compute; reflexivity]|].
  split; [apply N; [lia|discriminate|vm_compute; reflexivity]|].
  split; [reflexivity|]. apply N; [lia|discriminate|vm_compute; reflexivity].
Qed.
Print Assumptions C22_ties_refuted.

(* ---- C24 ---- *)

(* usages i and j belong to the same trip: the same first node *)
Definition same_trip (us : list route_use) (i j : nat) : Prop :=
  exists u v, nth_error us i = Some u /\ nth_error us j = Some v /\ i - u_pos u = j - u_pos v /\
    u_pos u <= i /\ u_pos v <= j.

Lemma erase_edges_sorted es : forall og a, StronglySorted lt (og_out og a) ->
  StronglySorted lt (og_out (fold_left erase_edge es og) a).
Proof.
  induction es as [|e es IH]; intros og a S; [exact S|]. cbn [fold_left]. apply IH. cbn [erase_edge og_out]. unfold upd.
  destruct (Nat.eqb_spec a (fst e)) as [->|]; [|exact S]. unfold erase. clear IH.
  induction S as [|x l S IH F]; cbn [filter]; [constructor|]. destruct (negb _); [|exact IH]. constructor; [exact IH|].
  rewrite Forall_forall in *. intros z Hz. apply filter_In in Hz. apply F, Hz.
Qed.

Lemma remove_transitive_sorted og og' a : remove_transitive_edges og = Ok og' ->
  StronglySorted lt (og_out og a) -> StronglySorted lt (og_out og' a).
Proof.
  unfold remove_transitive_edges. intros E S. apply bind_Ok in E. destruct E as [es [_ E]]. injection E as <-.
  apply erase_edges_sorted, S.
Qed.

(* times increase strictly inside a trip *)
Lemma trip_increase us : linked us ->
  (forall i u u', nth_error us i = Some u -> nth_error us (S i) = Some u' -> u_last u = false -> (u_start u < u_start u')%N) ->
  forall k i u v w, nth_error us i = Some u -> nth_error us (i + S k) = Some v -> u_pos v = u_pos u + S k ->
    nth_error us (S i) = Some w -> (u_start u < u_start w <= u_start v)%N.
Proof.
  intros [_ K2] T. induction k as [|k IH]; intros i u v w Hu Hv Hp Hw.
  - replace (i + 1) with (S i) in Hv by lia. destruct (K2 _ _ Hv) as [j [u' [Ej [Hj [Hl _]]]]]; [lia|].
    injection Ej as <-. rewrite Hu in Hj. injection Hj as <-. rewrite Hv in Hw. injection Hw as <-.
    assert (Q := T i u v Hu Hv Hl). lia.
  - destruct (K2 _ _ Hv) as [j [u' [Ej [Hj [Hl Hq]]]]]; [lia|]. assert (j = i + S k) by lia. subst j.
    assert (Q := IH i u u' w Hu Hj ltac:(lia) Hw).
    assert (P := T (i + S k) u' v Hj ltac:(replace (S (i + S k)) with (i + S (S k)) by lia; exact Hv) Hl). lia.
Qed.

(* next() is right unless a usage of another trip excludes the node's route, is later than the node,
   and has a smaller number than the node or comes before its successor on the trip *)
Theorem C24_next_partial :
  forall sorter i2e E flt ts,
    sorts sorter -> i2e_ok i2e -> well_formed flt ts -> tie_free i2e E (all_uses flt ts) ->
    exists og, make_ordering_graph sorter i2e E flt ts = Ok og /\
      forall i u, nth_error (all_uses flt ts) i = Some u -> u_last u = false ->
        (forall j v, nth_error (all_uses flt ts) j = Some v -> conflict i2e E (u_ir u) (u_ir v) ->
           (u_start u < u_start v)%N -> same_trip (all_uses flt ts) i j \/
             (i < j /\ forall u', nth_error (all_uses flt ts) (S i) = Some u' -> (u_start u' <= u_start v)%N)) ->
        next og i = Ok (S i).
Proof.
  intros sorter i2e E flt ts S I W T.
  destruct (generated flt ts W (fun _ => True)) as [m [Eg _]]; [auto|].
  assert (Lk := linked_all flt ts W). set (us := all_uses flt ts) in *.
  assert (Rs : forall es, es < E -> StronglySorted rk1 (sorter (ordering_of i2e (imap 0 us) es))).
  { intros es He. apply (rk1_sorted sorter i2e E flt ts S I es He T). }
  assert (Rt : forall i u u', nth_error us i = Some u -> nth_error us (Datatypes.S i) = Some u' -> u_last u = false ->
            rk1 (u_start u, i) (u_start u', Datatypes.S i)).
  { intros i u u' Hu Hu' Hl. unfold rk1. cbn. apply (proj1 T i u u' Hu Hu' Hl). }
  assert (Irr : forall a, ~ rk1 a a) by (intros a; unfold rk1; lia).
  assert (Tr : forall a b c, rk1 a b -> rk1 b c -> rk1 a c) by (intros a b c; unfold rk1; lia).
  assert (R := range_og sorter i2e E us S Lk m).
  assert (A := acyclic_og sorter i2e E us S Lk rk1 Irr Tr Rs Rt m).
  assert (Wr := walk_rk sorter i2e E us S Lk rk1 Tr Rs Rt m).
  assert (Eo := edge_og sorter i2e E us m).
  set (og0 := with_edges sorter i2e E (imap 0 us, m)) in *.
  assert (Sz : og_size og0 = length us) by (cbn; apply imap_length).
  destruct (remove_transitive_ok og0 R A) as [og [Er [H1 [H2 [H3 [H4 [H5 [H6 H7]]]]]]]].
  exists og. split; [unfold make_ordering_graph; rewrite Eg; exact Er|].
  intros i u Hu Hl Only.
  assert (Li : i < og_size og0) by (rewrite Sz; apply nth_error_Some; congruence).
  destruct (proj1 Lk i u Hu Hl) as [u' [Hu' [Hp [Htr _]]]].
  (* every edge out of i leads to a later node of the trip *)
  assert (Later : forall z, edge (og_out og0) i z -> Datatypes.S i <= z /\ (start_of us (Datatypes.S i) <= start_of us z)%N).
  { intros z Hz. apply Eo in Hz. destruct Hz as [[x [_ [_ ->]]]|Hz]; [split; [lia|lia]|].
    assert (Rz := edge_rk sorter i2e E us S Lk rk1 Rs Rt m i z (proj2 (Eo i z) (or_intror Hz))).
    apply order_edges_In in Hz. destruct Hz as [es [ta [tb [l1 [l2 [He Hz]]]]]].
    assert (Pa : In (ta, i) (sorter (ordering_of i2e (imap 0 us) es))) by (rewrite Hz; apply in_or_app; right; left; reflexivity).
    assert (Pb : In (tb, z) (sorter (ordering_of i2e (imap 0 us) es))) by (rewrite Hz; apply in_or_app; right; right; left; reflexivity).
    apply (sord_In sorter i2e us S), ord_In in Pa. apply (sord_In sorter i2e us S), ord_In in Pb.
    destruct Pa as [x [Hx [_ Ex]]]. destruct Pb as [v [Hv [_ Ev]]]. rewrite Hu in Hx. injection Hx as <-.
    unfold rk1, start_of in Rz. rewrite Hu, Hv in Rz. cbn in Rz.
    destruct (Only z v Hv) as [[x [y [Hx [Hy [Eq [B1 B2]]]]]]|[B1 B2]]; [exists es; auto|exact Rz| |].
    2:{ split; [lia|]. unfold start_of. rewrite Hu', Hv. exact (B2 u' Hu'). }
    rewrite Hu in Hx. injection Hx as <-. rewrite Hv in Hy. injection Hy as <-.
    destruct (Nat.lt_trichotomy i z) as [Lz|[Ez|Lz]].
    - assert (Q := trip_increase us Lk (proj1 T) (z - i - 1) i u v u' Hu).
      replace (i + Datatypes.S (z - i - 1)) with z in Q by lia. specialize (Q Hv ltac:(lia) Hu').
      split; [lia|]. unfold start_of. rewrite Hu', Hv. lia.
    - subst z. rewrite Hu in Hv. injection Hv as <-. lia.
    - exfalso.
      destruct (nth_error us (Datatypes.S z)) as [w|] eqn:Hw.
      2:{ apply nth_error_None in Hw. assert (i < length us) by (apply nth_error_Some; congruence). lia. }
      assert (Q := trip_increase us Lk (proj1 T) (i - z - 1) z v u w Hv).
      replace (z + Datatypes.S (i - z - 1)) with i in Q by lia. specialize (Q Hu ltac:(lia) Hw). lia. }
  assert (In1 : In (Datatypes.S i) (og_out og i)).
  { apply (H5 i (Datatypes.S i) Li). split; [apply Eo; left; exists u; auto|].
    intros [y [W1 W2]].
    assert (Z : exists z, edge (og_out og0) i z /\ walk (og_out og0) z (Datatypes.S i)).
    { inversion W1 as [? ? He|? c ? He V]; subst; [exists y; auto|exists c; split; [exact He|]]. eapply walk_trans; eassumption. }
    destruct Z as [z [He V]]. destruct (Later z He) as [_ Ls]. assert (Q := Wr _ _ V). unfold rk1 in Q. cbn in Q. lia. }
  assert (Ss : StronglySorted lt (og_out og i)).
  { apply (remove_transitive_sorted og0 og i Er). apply erase_duplicates_sorted. }
  assert (Al : forall z, In z (og_out og i) -> Datatypes.S i <= z).
  { intros z Hz. apply (Later z). apply (H5 i z Li), Hz. }
  unfold next. destruct (og_out og i) as [|h t]; [destruct In1|].
  assert (h = Datatypes.S i).
  { assert (Q := Al h (or_introl eq_refl)). destruct In1 as [->|In1]; [reflexivity|].
    inversion Ss as [|? ? _ F]; subst. rewrite Forall_forall in F. specialize (F _ In1). lia. }
  subst h. rewrite sassert_true; [reflexivity|]. apply Nat.eqb_eq. rewrite H3. unfold og0. cbn [with_edges og_train fst].
  rewrite !field_ns, Hu, Hu'. cbn. exact Htr.
Qed.
Print Assumptions C24_next_partial.

(* the trip of train 0 on the second day *)
Example ex_C24 : exists og, make_ordering_graph isort ex_i2e2 2 [] ex_ts = Ok og /\ next og 3 = Ok 4 /\ next og 4 = Ok 5.
Proof. eexists. split; [vm_compute; reflexivity|]. split; vm_compute; reflexivity. Qed.
Example ex_C24_hyp : forall j v, nth_error (all_uses [] ex_ts) j = Some v -> conflict ex_i2e2 2 0 (u_ir v) ->
  (5010 < u_start v)%N -> same_trip (all_uses [] ex_ts) 3 j \/
    (3 < j /\ forall u', nth_error (all_uses [] ex_ts) 4 = Some u' -> (u_start u' <= u_start v)%N).
Proof.
  intros j v. do 9 (destruct j as [|j]; [cbn; intros [= <-] [es [_ [H3 H4]]] H; cbn in *; try lia; intuition congruence|]).
  destruct j; cbn; intros H; discriminate H.
Qed.

(* ... and the end of a trip with no later conflicting usage has none *)
Theorem C24_end_refused :
  forall sorter i2e E flt ts,
    sorts sorter -> i2e_ok i2e -> well_formed flt ts -> tie_free i2e E (all_uses flt ts) ->
    exists og, make_ordering_graph sorter i2e E flt ts = Ok og /\
      forall i u, nth_error (all_uses flt ts) i = Some u -> u_last u = true ->
        (forall j v, nth_error (all_uses flt ts) j = Some v -> conflict i2e E (u_ir u) (u_ir v) ->
           ~ (u_start u < u_start v)%N) ->
        next og i = Throw.
Proof.
  intros sorter i2e E flt ts S I W T.
  destruct (generated flt ts W (fun _ => True)) as [m [Eg _]]; [auto|].
  assert (Lk := linked_all flt ts W). set (us := all_uses flt ts) in *.
  assert (Rs : forall es, es < E -> StronglySorted rk1 (sorter (ordering_of i2e (imap 0 us) es))).
  { intros es He. apply (rk1_sorted sorter i2e E flt ts S I es He T). }
  assert (Rt : forall i u u', nth_error us i = Some u -> nth_error us (Datatypes.S i) = Some u' -> u_last u = false ->
            rk1 (u_start u, i) (u_start u', Datatypes.S i)).
  { intros i u u' Hu Hu' Hl. unfold rk1. cbn. apply (proj1 T i u u' Hu Hu' Hl). }
  assert (Irr : forall a, ~ rk1 a a) by (intros a; unfold rk1; lia).
  assert (Tr : forall a b c, rk1 a b -> rk1 b c -> rk1 a c) by (intros a b c; unfold rk1; lia).
  assert (R := range_og sorter i2e E us S Lk m).
  assert (A := acyclic_og sorter i2e E us S Lk rk1 Irr Tr Rs Rt m).
  assert (Wr := walk_rk sorter i2e E us S Lk rk1 Tr Rs Rt m).
  assert (Eo := edge_og sorter i2e E us m).
  set (og0 := with_edges sorter i2e E (imap 0 us, m)) in *.
  assert (Sz : og_size og0 = length us) by (cbn; apply imap_length).
  destruct (remove_transitive_ok og0 R A) as [og [Er [H1 [H2 [H3 [H4 [H5 [H6 H7]]]]]]]].
  exists og. split; [unfold make_ordering_graph; rewrite Eg; exact Er|].
  intros i u Hu Hl Only.
  assert (Li : i < og_size og0) by (rewrite Sz; apply nth_error_Some; congruence).
  unfold next. destruct (og_out og i) as [|z t] eqn:O; [reflexivity|]. exfalso.
  assert (Hz : edge (og_out og0) i z) by (apply (H5 i z Li); unfold edge; rewrite O; left; reflexivity).
  assert (Rz := edge_rk sorter i2e E us S Lk rk1 Rs Rt m i z Hz).
  apply Eo in Hz. destruct Hz as [[x [Hx [Lx _]]]|Hz]; [congruence|].
  apply order_edges_In in Hz. destruct Hz as [es [ta [tb [l1 [l2 [He Hz]]]]]].
  assert (Pa : In (ta, i) (sorter (ordering_of i2e (imap 0 us) es))) by (rewrite Hz; apply in_or_app; right; left; reflexivity).
  assert (Pb : In (tb, z) (sorter (ordering_of i2e (imap 0 us) es))) by (rewrite Hz; apply in_or_app; right; right; left; reflexivity).
  apply (sord_In sorter i2e us S), ord_In in Pa. apply (sord_In sorter i2e us S), ord_In in Pb.
  destruct Pa as [x [Hx [_ Ex]]]. destruct Pb as [v [Hv [_ Ev]]]. rewrite Hu in Hx. injection Hx as <-.
  unfold rk1, start_of in Rz. rewrite Hu, Hv in Rz. cbn in Rz. apply (Only z v Hv); [exists es; auto|exact Rz].
Qed.
Print Assumptions C24_end_refused.
Example ex_C24_end : exists u, nth_error (all_uses [] ex_ts) 5 = Some u /\ u_last u = true /\
  forall j v, nth_error (all_uses [] ex_ts) j = Some v -> conflict ex_i2e2 2 (u_ir u) (u_ir v) -> ~ (u_start u < u_start v)%N.
Proof.
  eexists. split; [vm_compute; reflexivity|]. split; [reflexivity|].
  intros j v. do 9 (destruct j as [|j]; [cbn; intros [= <-] [es [_ [H3 H4]]] H; cbn in *; try lia; intuition congruence|]).
  destruct j; cbn; intros H; discriminate H.
Qed.

(* In general next() is wrong: with a later conflicting usage of another train
   whose node id is smaller, the assertion "next node not same train" fails. *)
Definition next_i2e (r : nat) : list nat := match r with 0 => [0] | 2 => [0] | _ => [] end.
Definition next_ts : list otrain :=
  [mkotrain 0 [0; 1] 20%N [0]%N [30]%N; mkotrain 1 [2; 3] 10%N [0]%N [40]%N].
Theorem C24_next_refuted :
  exists i2e E ts og u,
    i2e_ok i2e /\ well_formed [] ts /\ tie_free i2e E (all_uses [] ts) /\
    make_ordering_graph isort i2e E [] ts = Ok og /\
    nth_error (all_uses [] ts) 2 = Some u /\ u_last u = false /\ next og 2 = Throw.
Proof.
  exists next_i2e, 1, next_ts. do 2 eexists.
  split; [intros [|[|[|r]]]; cbn; repeat constructor; cbn; intuition discriminate|].
  split; [intros t [<-|[<-|[]]] _ _; reflexivity|].
  split.
  { split.
    - intros i u u'. do 4 (destruct i as [|i]; [cbn; intros [= <-] [= <-] H; (discriminate H || (cbn; lia))|]).
      destruct i; cbn; intros H; discriminate H.
    - intros i j u v.
      do 4 (destruct i as [|i]; [do 4 (destruct j as [|j]; [cbn; intros [= <-] [= <-] H1 [es [H2 [H3 H4]]]; cbn in H3, H4;
        repeat (destruct H3 as [H3|H3]); try contradiction; repeat (destruct H4 as [H4|H4]); try contradiction; try congruence; discriminate|]);
        destruct j; cbn; intros _ H; discriminate H|]).
      destruct i; cbn; intros H; discriminate H. }
  split; [vm_compute; reflexivity|]. split; [reflexivity|]. split; [reflexivity|]. vm_compute. reflexivity.
Qed.
Print Assumptions C24_next_refuted.
(* ... and so it is, whatever the numbers, if another train goes in between: the short cut to the
   following node of the trip is removed. *)
Definition between_i2e (r : nat) : list nat := match r with 0 => [0] | 1 => [1] | 2 => [0; 1] | _ => [] end.
Definition between_ts : list otrain :=
  [mkotrain 0 [0; 1] 10%N [0]%N [40]%N; mkotrain 1 [2; 3] 20%N [0]%N [50]%N].
Theorem C24_between_refuted :
  exists i2e E ts og u u',
    i2e_ok i2e /\ well_formed [] ts /\ tie_free i2e E (all_uses [] ts) /\
    make_ordering_graph isort i2e E [] ts = Ok og /\
    nth_error (all_uses [] ts) 0 = Some u /\ u_last u = false /\ nth_error (all_uses [] ts) 1 = Some u' /\
    (forall j v, nth_error (all_uses [] ts) j = Some v -> conflict i2e E (u_ir u) (u_ir v) -> (u_start u < u_start v)%N ->
       0 < j /\ (u_start v < u_start u')%N) /\
    next og 0 = Throw.
Proof.
  exists between_i2e, 2, between_ts. do 3 eexists.
  split; [intros [|[|[|r]]]; cbn; repeat constructor; cbn; intuition discriminate|].
  split; [intros t [<-|[<-|[]]] _ _; reflexivity|].
  split.
  { split.
    - intros i u u'. do 4 (destruct i as [|i]; [cbn; intros [= <-] [= <-] H; (discriminate H || (cbn; lia))|]).
      destruct i; cbn; intros H; discriminate H.
    - intros i j u v.
      do 4 (destruct i as [|i]; [do 4 (destruct j as [|j]; [cbn; intros [= <-] [= <-] H1 [es [H2 [H3 H4]]]; cbn in H3, H4;
        repeat (destruct H3 as [H3|H3]); try contradiction; repeat (destruct H4 as [H4|H4]); try contradiction; try congruence; discriminate|]);
        destruct j; cbn; intros _ H; discriminate H|]).
      destruct i; cbn; intros H; discriminate H. }
  split; [vm_compute; reflexivity|]. split; [reflexivity|]. split; [reflexivity|]. split; [reflexivity|]. split; [|vm_compute; reflexivity].
  intros j v. do 4 (destruct j as [|j]; [cbn; intros [= <-] [es [_ [H3 H4]]] H; cbn in *; try lia; intuition congruence|]).
  destruct j; cbn; intros H; discriminate H.
Qed.
Print Assumptions C24_between_refuted.
(* A train that is under way for more than a day can even be given the node of its next day's trip:
   the code only checks that the train is the same. *)
Definition long_ts : list otrain := [mkotrain 0 [0; 1] 10%N [0; 86400]%N [90000]%N].
Theorem C24_wrong_trip_refuted :
  exists i2e E ts og u,
    i2e_ok i2e /\ well_formed [] ts /\ tie_free i2e E (all_uses [] ts) /\
    make_ordering_graph isort i2e E [] ts = Ok og /\
    nth_error (all_uses [] ts) 0 = Some u /\ u_last u = false /\ next og 0 = Ok 2 /\ ~ same_trip (all_uses [] ts) 0 2.
Proof.
  exists (fun _ => [0]), 1, long_ts. do 2 eexists.
  split; [intros r; repeat constructor; cbn; intuition discriminate|].
  split; [intros t [<-|[]] _ _; reflexivity|].
  split.
  { split.
    - intros i u u'. do 4 (destruct i as [|i]; [cbn; intros [= <-] [= <-] H; (discriminate H || (cbn; lia))|]).
      destruct i; cbn; intros H; discriminate H.
    - intros i j u v.
      do 4 (destruct i as [|i]; [do 4 (destruct j as [|j]; [cbn; intros [= <-] [= <-] H1 _; (congruence || discriminate)|]);
        destruct j; cbn; intros _ H; discriminate H|]).
      destruct i; cbn; intros H; discriminate H. }
  split; [vm_compute; reflexivity|]. split; [reflexivity|]. split; [reflexivity|]. split; [vm_compute; reflexivity|].
  intros (u & v & Hu & Hv & E & A & B). cbn in Hu, Hv. injection Hu as <-. injection Hv as <-. cbn in E. discriminate E.
Qed.
Print Assumptions C24_wrong_trip_refuted.

(* ---- C52 ---- *)

(* trip_nodes returns the nodes of exactly that trip, in path order *)
Theorem C52_trip_nodes :
  forall sorter i2e E flt ts,
    sorts sorter -> i2e_ok i2e -> well_formed flt ts -> tie_free i2e E (all_uses flt ts) ->
    NoDup (map ot_id ts) ->
    exists og, make_ordering_graph sorter i2e E flt ts = Ok og /\
      (forall t a, In t ts -> selected flt t = true -> ot_arrivals t <> [] -> In a (ot_anchors t) ->
         exists ids, trip_nodes og (ot_id t, a) = Ok ids /\
           map (nth_error (all_uses flt ts)) ids = map Some (trip_uses t a)) /\
      (forall id a, (forall t, In t ts -> selected flt t = true -> ot_arrivals t <> [] ->
                       ot_id t = id -> ~ In a (ot_anchors t)) ->
         trip_nodes og (id, a) = Throw).
Proof.
  intros sorter i2e E flt ts S I W T D.
  destruct (generated flt ts W (fun t => In t ts /\ selected flt t = true)) as [m [Eg [Ix Hk]]]; [auto|].
  assert (Lk := linked_all flt ts W). set (us := all_uses flt ts) in *.
  assert (Rs : forall es, es < E -> StronglySorted rk1 (sorter (ordering_of i2e (imap 0 us) es))).
  { intros es He. apply (rk1_sorted sorter i2e E flt ts S I es He T). }
  assert (Rt : forall i u u', nth_error us i = Some u -> nth_error us (Datatypes.S i) = Some u' -> u_last u = false ->
            rk1 (u_start u, i) (u_start u', Datatypes.S i)).
  { intros i u u' Hu Hu' Hl. unfold rk1. cbn. apply (proj1 T i u u' Hu Hu' Hl). }
  assert (Irr : forall a, ~ rk1 a a) by (intros a; unfold rk1; lia).
  assert (Tr : forall a b c, rk1 a b -> rk1 b c -> rk1 a c) by (intros a b c; unfold rk1; lia).
  assert (R := range_og sorter i2e E us S Lk m).
  assert (A := acyclic_og sorter i2e E us S Lk rk1 Irr Tr Rs Rt m).
  set (og0 := with_edges sorter i2e E (imap 0 us, m)) in *.
  destruct (remove_transitive_ok og0 R A) as [og [Er [H1 [H2 [H3 [H4 _]]]]]].
  exists og. split; [unfold make_ordering_graph; rewrite Eg; exact Er|]. split.
  - intros t a Ht Hs Hn Ha. unfold trip_nodes. rewrite H4. cbn [og0 with_edges og_trips snd].
    destruct (find (fun e => trip_eqb (fst e) (ot_id t, a)) m) as [[k [x y]]|] eqn:Ef.
    2:{ exfalso. destruct (Hk t a Ht Hs Hn Ha) as [v Hv]. apply (find_none _ _ Ef) in Hv. cbn in Hv.
        rewrite (proj2 (trip_eqb_eq _ _) eq_refl) in Hv. discriminate. }
    exists (seq x (y - x)). split; [reflexivity|]. apply find_some in Ef. destruct Ef as [Hin Heq].
    cbn [fst] in Heq. apply trip_eqb_eq in Heq. subst k.
    destruct (Ix _ Hin) as [t' [[Ht' _] [Hid [_ [_ [_ Hm]]]]]]. cbn [fst snd] in *. rewrite Hm.
    assert (t' = t) as ->; [|reflexivity].
    clear - D Ht Ht' Hid. induction ts as [|b l IH]; [destruct Ht|]. cbn [map] in D. inversion D as [|? ? D1 D2]; subst.
    destruct Ht as [->|Ht], Ht' as [->|Ht']; [reflexivity| | |apply IH; assumption].
    + exfalso. apply D1. rewrite Hid. apply in_map, Ht'.
    + exfalso. apply D1. rewrite <- Hid. apply in_map, Ht.
  - intros id a No. unfold trip_nodes. rewrite H4. cbn [og0 with_edges og_trips snd].
    destruct (find (fun e => trip_eqb (fst e) (id, a)) m) as [[k [x y]]|] eqn:Ef; [|reflexivity]. exfalso.
    apply find_some in Ef. destruct Ef as [Hin Heq]. cbn [fst] in Heq. apply trip_eqb_eq in Heq. subst k.
    destruct (Ix _ Hin) as [t' [[Ht' Hs'] [Hid [Ha [Hn _]]]]]. cbn [fst snd] in *. exact (No t' Ht' Hs' Hn (eq_sym Hid) Ha).
Qed.
Print Assumptions C52_trip_nodes.

Example ex_C52 : exists og, make_ordering_graph isort ex_i2e2 2 [] ex_ts = Ok og /\
  trip_nodes og (0, 5000%N) = Ok [3; 4; 5] /\ trip_nodes og (1, 1000%N) = Ok [6; 7; 8] /\ trip_nodes og (1, 5000%N) = Throw.
Proof. eexists. split; [vm_compute; reflexivity|]. repeat split; vm_compute; reflexivity. Qed.
Example ex_C52_hyp : NoDup (map ot_id ex_ts).
Proof. repeat constructor; cbn; intuition discriminate. Qed.
