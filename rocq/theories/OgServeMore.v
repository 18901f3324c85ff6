(* Proofs about the ordering graph request, part 2: the graph and the answer. *)
From Coq Require Import Permutation Sorting.Sorted.
From Verif Require Import Base BitfieldModel TrainModel GraphModel GraphProofs
  OrderingModel OrderingSpec OrderingBuild OrderingProofs PropsOrdering OgServeModel OgServeSpec OgServeProofs.
From Verif Require ServeModel.
Open Scope nat_scope.

(* ---- the graph ---- *)
Lemma graph_full sorter i2e E flt ts m :
  sorts sorter -> i2e_ok i2e -> well_formed flt ts -> tie_free i2e E (all_uses flt ts) ->
  gen_trains flt ts ([], []) = Ok (imap 0 (all_uses flt ts), m) ->
  exists og, make_ordering_graph sorter i2e E flt ts = Ok og /\ og_trips og = m /\ nodes_match og (all_uses flt ts) /\ graph_ok og /\
    (forall i j u v, nth_error (all_uses flt ts) i = Some u -> nth_error (all_uses flt ts) j = Some v -> i <> j ->
       conflict i2e E (u_ir u) (u_ir v) ->
       ((u_start u < u_start v)%N /\ walk (og_out og) i j) \/ ((u_start v < u_start u)%N /\ walk (og_out og) j i)) /\
    (forall i u, nth_error (all_uses flt ts) i = Some u -> u_last u = false -> walk (og_out og) i (S i)) /\
    (forall i j, i < List.length (all_uses flt ts) -> walk (og_out og) i j -> (start_of (all_uses flt ts) i < start_of (all_uses flt ts) j)%N) /\
    (forall i j, i < List.length (all_uses flt ts) -> edge (og_out og) i j ->
       ((exists u, nth_error (all_uses flt ts) i = Some u /\ u_last u = false /\ j = S i) \/
        (exists u v, nth_error (all_uses flt ts) i = Some u /\ nth_error (all_uses flt ts) j = Some v /\ conflict i2e E (u_ir u) (u_ir v))) /\
       ~ exists y, walk (og_out og) i y /\ walk (og_out og) y j).
Proof.
  intros S I W T Eg. assert (Lk := linked_all flt ts W). set (us := all_uses flt ts) in *.
  assert (Rs : forall es, es < E -> StronglySorted rk1 (sorter (ordering_of i2e (imap 0 us) es))).
  { intros es He. apply (rk1_sorted sorter i2e E flt ts S I es He T). }
  assert (Rt : forall i u u', nth_error us i = Some u -> nth_error us (Datatypes.S i) = Some u' -> u_last u = false ->
            rk1 (u_start u, i) (u_start u', Datatypes.S i)).
  { intros i u u' Hu Hu' Hl. unfold rk1. cbn. apply (proj1 T i u u' Hu Hu' Hl). }
  assert (Irr : forall a, ~ rk1 a a) by (intros a; unfold rk1; lia).
  assert (Tr : forall a b c, rk1 a b -> rk1 b c -> rk1 a c) by (intros a b c; unfold rk1; lia).
  assert (R := range_og sorter i2e E us S Lk m).
  assert (A := acyclic_og sorter i2e E us S Lk rk1 Irr Tr Rs Rt m).
  assert (Wr := walk_rk sorter i2e E us S Lk rk1 Tr Rs Rt m).
  assert (Eo := edge_og sorter i2e E us m).
  assert (Cw := conflict_walk sorter i2e E us S rk1 Rs m).
  assert (Tw := trip_walk sorter i2e E us m).
  assert (Trips : og_trips (with_edges sorter i2e E (imap 0 us, m)) = m) by reflexivity.
  assert (Nm : forall i u, nth_error us i = Some u -> og_ir (with_edges sorter i2e E (imap 0 us, m)) i = u_ir u /\ og_train (with_edges sorter i2e E (imap 0 us, m)) i = u_train u).
  { intros i u Hu. cbn [with_edges og_ir og_train fst]. rewrite !field_ns, Hu. split; reflexivity. }
  set (og0 := with_edges sorter i2e E (imap 0 us, m)) in *.
  assert (Sz : og_size og0 = List.length us) by (cbn; apply imap_length).
  destruct (remove_transitive_ok og0 R A) as (og & Er & H1 & H2 & H3 & H4 & H5 & H6 & H7).
  assert (Lt : forall i u, nth_error us i = Some u -> i < og_size og0).
  { intros i u H. rewrite Sz. apply nth_error_Some. congruence. }
  assert (Ro : graph_ok og). { intros a b La He. rewrite H1 in *. apply (H5 a b La) in He. exact (R a b La (proj1 He)). }
  exists og. split; [unfold make_ordering_graph; rewrite Eg; exact Er|]. split; [rewrite H4; exact Trips|].
  split; [|split; [|split; [|split; [|split]]]].
  - split; [congruence|]. intros i u Hu. rewrite H2, H3. exact (Nm i u Hu).
  - exact Ro.
  - intros i j u v Hi Hj N C. destruct (Cw i j u v Hi Hj N C) as [[V K]|[V K]]; [left|right];
      (split; [exact K|]); apply H7; eauto.
  - intros i u Hi Hl. apply H7; [eauto|]. exact (Tw i u Hi Hl).
  - intros i j Li V. rewrite <- Sz in Li. apply (H7 i j Li) in V. assert (Q := Wr i j V). exact Q.
  - intros i j Li He. rewrite <- Sz in Li. apply (H5 i j Li) in He as [He Ni]. split.
    + apply Eo in He. destruct He as [He|He]; [left; exact He|right].
      apply order_edges_In in He. destruct He as (es & ta & tb & l1 & l2 & Hes & Hz).
      assert (Pa : In (ta, i) (sorter (ordering_of i2e (imap 0 us) es))) by (rewrite Hz; apply in_or_app; right; left; reflexivity).
      assert (Pb : In (tb, j) (sorter (ordering_of i2e (imap 0 us) es))) by (rewrite Hz; apply in_or_app; right; right; left; reflexivity).
      apply (sord_In sorter i2e us S), ord_In in Pa. apply (sord_In sorter i2e us S), ord_In in Pb.
      destruct Pa as (u & Hu & _ & Eu). destruct Pb as (v & Hv & _ & Ev). exists u, v. split; [exact Hu|]. split; [exact Hv|]. exists es. auto.
    + intros (y & V1 & V2). apply Ni. exists y. assert (Ly : y < og_size og0). { rewrite <- H1 in Li |- *. exact (walk_range _ _ _ _ Ro Li V1). }
      split; apply H7; assumption.
Qed.

(* ---- the answer ---- *)
Definition mk_node (og : ograph) (first rel n : nat) : jnode := mk_jnode n (og_train og n) (n - first) rel (og_ir og n).
Fixpoint blocks (og : ograph) (rel : nat) (l : list tentry) : list jnode :=
  match l with
  | [] => []
  | e :: l => map (mk_node og (fst (snd e)) rel) (span (snd e)) ++ blocks og (S rel) l
  end.
Definition width (e : tentry) : nat := snd (snd e) - fst (snd e).
Lemma trips_json_ok og l : (forall e n, In e l -> In n (span (snd e)) -> n < og_size og) -> forall rel a, exists a',
  trips_json og rel l a = Ok a' /\ ja_total a' = ja_total a + List.length l /\
  ja_max a' = fold_left Nat.max (map width l) (ja_max a) /\ ja_nodes a' = ja_nodes a ++ blocks og rel l /\
  ja_edges a' = ja_edges a ++ flat_map (edges_json og) (flat_map (fun e => span (snd e)) l).
Proof.
  induction l as [|e l IH]; intros H rel a; cbn [trips_json].
  - exists a. cbn. rewrite !app_nil_r, Nat.add_0_r. auto.
  - rewrite (mapM_map _ (mk_node og (fst (snd e)) rel)).
    2:{ intros n Hn. unfold node_json. rewrite (proj2 (Nat.ltb_lt _ _) (H e n (or_introl eq_refl) Hn)). reflexivity. }
    cbn [bind]. destruct (IH (fun x n Hx => H x n (or_intror Hx)) (S rel)
      (mk_janswer (S (ja_total a)) (Nat.max (ja_max a) (snd (snd e) - fst (snd e)))
         (ja_nodes a ++ map (mk_node og (fst (snd e)) rel) (seq (fst (snd e)) (snd (snd e) - fst (snd e))))
         (ja_edges a ++ flat_map (edges_json og) (seq (fst (snd e)) (snd (snd e) - fst (snd e)))))) as (a' & E & A & B & C & D).
    exists a'. split; [exact E|]. cbn [ja_total ja_max ja_nodes ja_edges] in *. split; [cbn [List.length]; lia|].
    split; [exact B|]. split; [rewrite C; cbn [blocks]; rewrite app_assoc; reflexivity|].
    rewrite D. cbn [flat_map]. rewrite flat_map_app, app_assoc. reflexivity.
Qed.
Lemma blocks_in og l : forall rel n, In n (blocks og rel l) <->
  exists r e k, nth_error l r = Some e /\ In k (span (snd e)) /\ n = mk_node og (fst (snd e)) (rel + r) k.
Proof.
  induction l as [|e l IH]; intros rel n; cbn [blocks].
  - split; [intros []|]. intros ([|r] & e & k & H & _); discriminate.
  - rewrite in_app_iff, in_map_iff, IH. split.
    + intros [(k & <- & Hk)|(r & x & k & Hr & Hk & ->)].
      * exists 0, e, k. rewrite Nat.add_0_r. auto.
      * exists (S r), x, k. split; [exact Hr|]. split; [exact Hk|]. f_equal. lia.
    + intros ([|r] & x & k & Hr & Hk & ->).
      * injection Hr as <-. left. exists k. rewrite Nat.add_0_r. auto.
      * right. exists r, x, k. split; [exact Hr|]. split; [exact Hk|]. f_equal. lia.
Qed.
Lemma blocks_keys og l : forall rel, map jn_key (blocks og rel l) = flat_map (fun e => span (snd e)) l.
Proof.
  induction l as [|e l IH]; intros rel; cbn [blocks flat_map map]; [reflexivity|].
  rewrite map_app, IH, map_map. f_equal. cbn. apply map_id.
Qed.
Lemma fold_max l : forall a, a <= fold_left Nat.max l a /\ (forall x, In x l -> x <= fold_left Nat.max l a) /\
  (fold_left Nat.max l a = a \/ In (fold_left Nat.max l a) l).
Proof.
  induction l as [|x l IH]; intros a; cbn [fold_left]; [split; [lia|split; [intros y []|left; reflexivity]]|].
  destruct (IH (Nat.max a x)) as (A & B & C). split; [lia|]. split.
  - intros y [<-|Hy]; [lia|exact (B y Hy)].
  - destruct C as [C|C]; [|right; right; exact C]. destruct (Nat.max_spec a x) as [[_ M]|[_ M]]; rewrite M in *; [right; left; congruence|left; exact C].
Qed.

Lemma leads_walk og : graph_ok og -> forall es, (forall x y, In (x, y) es <-> x < og_size og /\ In y (og_out og x)) ->
  forall x y, leads es x y <-> x < og_size og /\ walk (og_out og) x y.
Proof.
  intros R es H x y. split.
  - induction 1 as [x y I|x y z I _ [_ IH]]; apply H in I as [L I]; (split; [exact L|]); [apply walk_one; exact I|].
    eapply walk_step; [exact I|exact IH].
  - intros [L W]. induction W as [a b E|a b c E W IH]; [apply lead_edge, H; auto|].
    eapply lead_more; [apply H; split; [exact L|exact E]|]. apply IH. exact (R a b L E).
Qed.

(* ---- lists ---- *)
Lemma NoDup_flat {A B} (f : A -> list B) l : NoDup l -> (forall x, In x l -> NoDup (f x)) ->
  (forall x y b, In x l -> In y l -> In b (f x) -> In b (f y) -> x = y) -> NoDup (flat_map f l).
Proof.
  induction l as [|a l IH]; intros N F D; [constructor|]. cbn [flat_map]. inversion_clear N as [|? ? Na Nl].
  assert (Nr : NoDup (flat_map f l)).
  { apply IH; [exact Nl|intros x Hx; apply F; right; exact Hx|intros x y b Hx Hy; apply D; right; assumption]. }
  assert (Fa := F a (or_introl eq_refl)).
  assert (Dj : forall b, In b (f a) -> ~ In b (flat_map f l)).
  { intros b Hb I. apply in_flat_map in I as (y & Hy & I). assert (a = y) by (eapply D; [left; reflexivity|right; exact Hy|exact Hb|exact I]). congruence. }
  clear -Nr Fa Dj. induction (f a) as [|b r IHr]; [exact Nr|]. cbn [app]. inversion_clear Fa as [|? ? Nb Nn]. constructor.
  - rewrite in_app_iff. intros [I|I]; [contradiction|]. exact (Dj b (or_introl eq_refl) I).
  - apply IHr; [exact Nn|]. intros c Hc. apply Dj. right. exact Hc.
Qed.
Lemma sorted_map {A B} (R : B -> B -> Prop) (f : A -> B) l : StronglySorted R (map f l) -> StronglySorted (fun x y => R (f x) (f y)) l.
Proof.
  induction l as [|a l IH]; intros H; constructor; inversion_clear H as [|? ? S F]; [exact (IH S)|].
  rewrite Forall_map in F. exact F.
Qed.
Lemma map_sorted {A B} (R : B -> B -> Prop) (f : A -> B) l : StronglySorted (fun x y => R (f x) (f y)) l -> StronglySorted R (map f l).
Proof. induction 1 as [|a l S IH F]; cbn [map]; constructor; [exact IH|]. apply Forall_map. exact F. Qed.
Lemma NoDup_nth_map {A B} (f : A -> B) l x y : NoDup (map f l) -> In x l -> In y l -> f x = f y -> x = y.
Proof.
  induction l as [|a l IH]; intros N Hx Hy E; [destruct Hx|]. cbn in N. inversion_clear N as [|? ? Na Nl].
  destruct Hx as [->|Hx], Hy as [->|Hy]; auto.
  - exfalso. apply Na. rewrite E. apply in_map, Hy.
  - exfalso. apply Na. rewrite <- E. apply in_map, Hx.
Qed.
Lemma lt_sorted_NoDup l : StronglySorted N.lt l -> NoDup l.
Proof. induction 1 as [|a l S IH F]; constructor; [|exact IH]. intros I. rewrite Forall_forall in F. specialize (F a I). lia. Qed.
Lemma uses_fun t a p ir s ir' s' : uses t a p ir s -> uses t a p ir' s' -> ir = ir' /\ s = s'.
Proof. intros [A (x & B & C)] [A' (x' & B' & C')]. rewrite A in A'. rewrite B in B'. injection A' as ->. injection B' as ->. split; congruence. Qed.

(* ---- the request ---- *)
Section Whole.
  Variable usort : list usage -> list usage.
  Variable tsort : list (N * tentry) -> list (N * tentry).
  Variable x : exclusion.
  Variable trains : list ttrain.
  Variables from to : N.
  Variable ids : list N.
  Hypothesis Us : sorts usort.
  Hypothesis Ts : sorts_trips tsort.
  Hypothesis Ex : i2e_ok (ex_of x).
  Hypothesis Ok_ : timetable_ok trains.
  Hypothesis Iv : (from <= to < 2 ^ 32)%N.
  Hypothesis Ap : apart x trains from to ids.

  Let f : filter_ := (mkint from to, ids).
  Definition wanted (t : ttrain) : bool := match ids with [] => true | _ => existsb (N.eqb (tr_id (tt_train t))) ids end.
  Definition anchors (t : ttrain) : list N :=
    if wanted t then match departures (tt_train t) (mkint from to) with Ok l => l | _ => [] end else [].
  Definition conv (t : ttrain) : otrain :=
    mkotrain (N.to_nat (tr_id (tt_train t))) (tt_path t) (tr_first_departure (tt_train t)) (anchors t) (tt_arrivals t).
  Let flt := map N.to_nat ids.
  Let Cp : forall t, ot_path (conv t) = tt_path t := fun t => eq_refl.
  Let Ca : forall t, ot_arrivals (conv t) = tt_arrivals t := fun t => eq_refl.

  Lemma tk t : In t trains -> PropsBitfield.good_train (tt_train t) /\ PropsBitfield.in_epoch (tt_train t) /\
    List.length (tt_path t) = S (List.length (tt_arrivals t)) /\ nth_error trains (N.to_nat (tr_id (tt_train t))) = Some t.
  Proof.
    intros I. apply In_nth_error in I as [k Hk]. destruct (Ok_ k t Hk) as (E & G & W & L). rewrite E, Nat2N.id. auto.
  Qed.
  Lemma chosen_iff t : wanted t = true <-> chosen ids t.
  Proof.
    clear Ap. unfold wanted, chosen. destruct ids as [|i l]; [split; auto|]. rewrite existsb_exists. split.
    - intros (y & I & E). apply N.eqb_eq in E. subst y. right. exact I.
    - intros [E|I]; [discriminate|]. exists (tr_id (tt_train t)). split; [exact I|apply N.eqb_refl].
  Qed.
  Lemma selected_wanted t : selected flt (conv t) = wanted t.
  Proof.
    clear Ap. assert (H : forall q, existsb (Nat.eqb (ot_id (conv t))) (map N.to_nat q) = existsb (N.eqb (tr_id (tt_train t))) q).
    2:{ unfold selected, wanted, flt. destruct ids as [|i l]; [reflexivity|]. exact (H (i :: l)). }
    induction q as [|y q IH]; [reflexivity|]. cbn [map existsb]. rewrite IH. f_equal. cbn [ot_id conv].
    destruct (N.eqb_spec (tr_id (tt_train t)) y) as [->|Ne]; [apply Nat.eqb_refl|]. apply Nat.eqb_neq. intros E. apply Ne. apply N2Nat.inj, E.
  Qed.
  Lemma deps t : In t trains -> exists l, departures (tt_train t) (mkint from to) = Ok l /\ NoDup l /\
    forall a, In a l <-> exists d : Z, a = Z.to_N (d * 86400) /\ bf_at (tr_days (tt_train t)) d = Ok true /\
      (Z.of_N from <= d * 86400 + Z.of_N (tr_last_arrival (tt_train t)))%Z /\
      (d * 86400 + Z.of_N (tr_first_departure (tt_train t)) <= Z.of_N to)%Z /\ (Z.of_N from / 86400 <= d)%Z.
  Proof.
    intros I. destruct (tk t I) as (G & W & _).
    destruct (PropsBitfield.C14_departures_partial (tt_train t) (mkint from to) G W Iv) as (l & E & S & H).
    exists l. split; [exact E|]. split; [apply lt_sorted_NoDup, S|]. intros a. rewrite H.
    unfold PropsBitfield.runs, PropsBitfield.trip_overlaps, PropsBitfield.day. cbn [iv_start iv_end].
    split; intros (d & A & B & C); exists d; tauto.
  Qed.
  Lemma otrain_conv t : In t trains -> otrain_of f t = Ok (conv t).
  Proof.
    intros I. destruct (deps t I) as (l & E & _). unfold otrain_of, conv, anchors, f. cbn [fst snd]. fold (wanted t).
    destruct (wanted t); [rewrite E|]; reflexivity.
  Qed.
  Lemma anchors_nodup t : In t trains -> NoDup (anchors t).
  Proof. intros I. destruct (deps t I) as (l & E & N & _). unfold anchors. rewrite E. destruct (wanted t); [exact N|constructor]. Qed.

  Let T := all_trips conv flt trains.
  Let us := all_uses flt (map conv trains).
  Let tg := tagged len 0 T.
  Lemma trips_asked t a : In (t, a) T <-> asked trains from to ids t a.
  Proof.
    clear Ap Ex. unfold T. rewrite in_all_trips, selected_wanted. unfold asked. rewrite <- chosen_iff. cbn [ot_anchors conv]. unfold anchors.
    split.
    - intros (I & W & N & A). rewrite W in A. destruct (deps t I) as (l & E & _ & H). rewrite E in A. apply H in A. tauto.
    - intros (I & W & N & A). rewrite W. destruct (deps t I) as (l & E & _ & H). rewrite E. apply H in A. tauto.
  Qed.
  Lemma trains_nodup : NoDup trains.
  Proof.
    apply NoDup_nth_error. intros i j Li E. destruct (nth_error trains i) as [t|] eqn:Hi; [|apply nth_error_None in Hi; lia].
    symmetry in E. destruct (Ok_ _ _ Hi) as (A & _). destruct (Ok_ _ _ E) as (B & _). rewrite A in B. lia.
  Qed.
  Lemma ids_nodup : NoDup (map (fun t => ot_id (conv t)) trains).
  Proof.
    apply NoDup_nth_error. intros i j Li E. rewrite map_length in Li. rewrite !nth_error_map in E.
    destruct (nth_error trains i) as [t|] eqn:Hi; [|apply nth_error_None in Hi; lia].
    destruct (nth_error trains j) as [t'|] eqn:Hj; [|discriminate]. cbn in E. injection E as E.
    destruct (Ok_ _ _ Hi) as (A & _). destruct (Ok_ _ _ Hj) as (B & _). rewrite A, B in E. lia.
  Qed.
  Lemma T_nodup : NoDup T.
  Proof.
    unfold T, all_trips. apply NoDup_flat.
    - apply NoDup_filter, trains_nodup.
    - intros t I. apply filter_In in I as [I _]. unfold train_trips. destruct (tt_arrivals t) as [|y0 r0]; [constructor|].
      cbn [ot_anchors conv]. assert (N := anchors_nodup t I). induction N as [|a l Na N IH]; cbn; constructor; [|exact IH].
      rewrite in_map_iff. intros (b & [= ->] & Hb). contradiction.
    - intros t t' [u a] _ _ I I'. apply in_train_trips in I as (-> & _). apply in_train_trips in I' as (-> & _). reflexivity.
  Qed.
  Lemma T_len y : In y T -> List.length (trip_uses_of conv y) = len y.
  Proof.
    destruct y as [t a]. intros I. apply trips_asked in I as (I & _ & N & _). destruct (tk t I) as (_ & _ & L & _).
    unfold trip_uses_of, len. cbn [fst snd]. rewrite trip_uses_length; auto.
  Qed.
  Lemma us_T : us = flat_map (trip_uses_of conv) T.
  Proof. unfold us, T. apply uses_of_trips. exact Ca. Qed.
  Lemma us_len : List.length us = list_sum (map len T).
  Proof.
    rewrite us_T. assert (H : forall y, In y T -> List.length (trip_uses_of conv y) = len y) by exact T_len.
    revert H. generalize T as q. induction q as [|y q IH]; intros H; [reflexivity|]. cbn [flat_map map list_sum fold_right].
    rewrite app_length, (H y (or_introl eq_refl)). change (fold_right Nat.add 0 (map len q)) with (list_sum (map len q)).
    rewrite <- IH; [reflexivity|]. intros z Hz. apply H. right. exact Hz.
  Qed.
  Lemma wf : well_formed flt (map conv trains).
  Proof. intros t I _ _. apply in_map_iff in I as (u & <- & I). destruct (tk u I) as (_ & _ & L & _). exact L. Qed.

  (* the usage of a trip at a place *)
  Lemma tg_at t a v p : In ((t, a), v) tg -> p < List.length (tt_path t) -> exists u,
    nth_error us (fst v + p) = Some u /\ u_train u = N.to_nat (tr_id (tt_train t)) /\ uses t a p (u_ir u) (u_start u) /\
    u_last u = Nat.eqb (S p) (List.length (tt_path t)).
  Proof.
    intros I Lp. destruct (tagged_in len (trip_uses_of conv) T T_len 0 _ _ I) as (IT & _ & _ & N). specialize (N p Lp).
    rewrite <- us_T, Nat.sub_0_r in N. rewrite N. assert (L := T_len _ IT). unfold len in L. cbn [fst] in L.
    destruct (nth_error (trip_uses_of conv (t, a)) p) as [u|] eqn:E; [|apply nth_error_None in E; lia].
    exists u. split; [reflexivity|]. unfold trip_uses_of, trip_uses in E. cbn [fst snd] in E.
    destruct (ot_arrivals (conv t)) as [|y r] eqn:Ea; [destruct p; discriminate|].
    rewrite <- Ea in E. apply uses_from_nth in E as (A & _ & _ & B & C & D). split; [exact A|]. split; [|exact D]. split; [exact B|exact C].
  Qed.
  Lemma tg_v t a v : In ((t, a), v) tg -> snd v = fst v + List.length (tt_path t) /\ In (t, a) T.
  Proof. intros I. destruct (tagged_in len (trip_uses_of conv) T T_len 0 _ _ I) as (IT & _ & E & _). auto. Qed.
  Lemma tg_spans : flat_map (fun e => span (snd e)) tg = seq 0 (List.length us).
  Proof. unfold tg. rewrite tagged_span, us_len. reflexivity. Qed.
  Lemma tg_find i : i < List.length us -> exists t a v p, In ((t, a), v) tg /\ p < List.length (tt_path t) /\ i = fst v + p.
  Proof.
    intros L. assert (I : In i (flat_map (fun e => span (snd e)) tg)) by (rewrite tg_spans; apply in_seq; lia).
    apply in_flat_map in I as ([[t a] v] & I & S). destruct (tg_v _ _ _ I) as (E & _). unfold span in S. cbn [snd] in S. apply in_seq in S.
    exists t, a, v, (i - fst v). split; [exact I|]. lia.
  Qed.
  Lemma tg_fun y v v' : In (y, v) tg -> In (y, v') tg -> v = v'.
  Proof.
    intros A B. assert (N : NoDup (map fst tg)) by (unfold tg; rewrite tagged_fst; exact T_nodup).
    assert (E := NoDup_nth_map fst tg _ _ N A B eq_refl). congruence.
  Qed.
  Lemma ties : tie_free (ex_of x) (ex_count x) us.
  Proof.
    destruct Ap as [A1 A2]. split.
    - intros i u u' Hu Hu' Hl. assert (Li : i < List.length us) by (apply nth_error_Some; congruence).
      destruct (tg_find i Li) as (t & a & v & p & I & Lp & ->). destruct (tg_at t a v p I Lp) as (w & Ew & _ & Uw & Wl).
      rewrite Hu in Ew. injection Ew as <-. rewrite Hl in Wl. symmetry in Wl. apply Nat.eqb_neq in Wl.
      destruct (tg_at t a v (S p) I ltac:(lia)) as (w' & Ew' & _ & Uw' & _). replace (fst v + S p) with (S (fst v + p)) in Ew' by lia.
      rewrite Hu' in Ew'. injection Ew' as <-. destruct (tg_v _ _ _ I) as [_ IT]. apply trips_asked in IT. eapply A1; eassumption.
    - intros i j u w Hu Hw Nij C. assert (Li : i < List.length us) by (apply nth_error_Some; congruence).
      assert (Lj : j < List.length us) by (apply nth_error_Some; congruence).
      destruct (tg_find i Li) as (t & a & v & p & I & Lp & ->). destruct (tg_at t a v p I Lp) as (u1 & E1 & _ & U1 & _).
      destruct (tg_find j Lj) as (t' & a' & v' & p' & I' & Lp' & ->). destruct (tg_at t' a' v' p' I' Lp') as (u2 & E2 & _ & U2 & _).
      rewrite Hu in E1. rewrite Hw in E2. injection E1 as <-. injection E2 as <-.
      destruct (tg_v _ _ _ I) as [_ IT]. destruct (tg_v _ _ _ I') as [_ IT']. apply trips_asked in IT, IT'.
      refine (A2 t a p _ _ t' a' p' _ _ IT IT' U1 U2 _ C). intros E. injection E as -> -> ->. rewrite (tg_fun _ _ _ I I') in Nij. congruence.
  Qed.

  Definition dep (y : ttrain * N) : N := add32 (snd y) (tr_first_departure (tt_train (fst y))).
  Definition keyed (e : (ttrain * N) * (nat * nat)) : N * tentry := (dep (fst e), entry conv e).

  Theorem request_shows : exists og ans trips, request_graph usort x trains f = Ok og /\
    serialize_ordering_graph tsort og trains = Ok ans /\
    shows_trips trains from to ids trips ans /\ shows_nodes trips ans /\ shows_edges x trips ans.
  Proof.
    destruct (gen_trains_index conv Cp Ca flt trains (fun t I => proj1 (proj2 (proj2 (tk t I)))) ids_nodup anchors_nodup [] [] (fun t a _ v H => H))
      as (ns & Eg & _). cbn [app List.length] in Eg. fold T tg in Eg.
    destruct (generated flt (map conv trains) wf (fun _ => True)) as (m0 & Eg0 & _); [auto|].
    assert (Q := eq_trans (eq_sym Eg) Eg0). injection Q as -> _. clear Eg0 m0.
    destruct (graph_full usort (ex_of x) (ex_count x) flt (map conv trains) _ Us Ex wf ties Eg)
      as (og & Em & Et & [Sz Nm] & R & G1 & G2 & G3 & G4).
    fold us in Sz, Nm, G1, G2, G3, G4.
    assert (Er : request_graph usort x trains f = Ok og).
    { unfold request_graph. rewrite (mapM_map _ conv) by exact otrain_conv. exact Em. }
    assert (Ed : mapM (departure trains) (og_trips og) = Ok (map keyed tg)).
    { rewrite Et. rewrite (mapM_map _ (fun e : tentry => match nth_error trains (fst (fst e)) with
          | Some t => (add32 (snd (fst e)) (tr_first_departure (tt_train t)), e) | None => (0%N, e) end)).
      - f_equal. rewrite map_map. apply map_ext_in. intros [[t a] v] I. destruct (tg_v _ _ _ I) as [_ IT]. apply trips_asked in IT as (It & _).
        destruct (tk t It) as (_ & _ & _ & K). unfold entry, keyed. cbn [fst snd ot_id conv]. rewrite K. reflexivity.
      - intros e I. apply in_map_iff in I as ([[t a] v] & <- & I). destruct (tg_v _ _ _ I) as [_ IT]. apply trips_asked in IT as (It & _).
        destruct (tk t It) as (_ & _ & _ & K). unfold departure, entry. cbn [fst snd ot_id conv]. rewrite K. reflexivity. }
    destruct (Ts (map keyed tg)) as [P So]. apply Permutation_sym, Permutation_map_inv in P as (tg' & Ek & P). rewrite Ek in So.
    set (l := map (entry conv) tg').
    assert (El : map snd (tsort (map keyed tg)) = l) by (rewrite Ek, map_map; reflexivity).
    assert (Sp : flat_map (fun e : tentry => span (snd e)) l = flat_map (fun e => span (snd e)) tg').
    { unfold l. clear. induction tg' as [|e q IH]; [reflexivity|]. cbn [map flat_map]. rewrite IH. reflexivity. }
    assert (Ps : Permutation (seq 0 (List.length us)) (flat_map (fun e : tentry => span (snd e)) l)).
    { rewrite Sp, <- tg_spans. apply Permutation_flat_map, P. }
    destruct (trips_json_ok og l) with (rel := 0) (a := mk_janswer 0 0 [] []) as (ans & Ea & Tot & Mx & Nd & Eds).
    { intros e n Ie In_. assert (Q : In n (flat_map (fun e : tentry => span (snd e)) l)) by (apply in_flat_map; eauto).
      apply (Permutation_in _ (Permutation_sym Ps)), in_seq in Q. lia. }
    cbn [ja_total ja_max ja_nodes ja_edges app plus] in Tot, Mx, Nd, Eds.
    set (trips := map fst tg').
    exists og, ans, trips. split; [exact Er|]. split; [unfold serialize_ordering_graph; rewrite Ed; cbn [bind]; rewrite El; exact Ea|].
    assert (PT : Permutation T trips). { unfold trips. rewrite <- (tagged_fst len T 0). apply Permutation_map, P. }
    assert (NT : NoDup trips) by (eapply Permutation_NoDup; [exact PT|exact T_nodup]).
    assert (It : forall t a, In (t, a) trips <-> asked trains from to ids t a).
    { intros t a. rewrite <- trips_asked. split; apply Permutation_in; [apply Permutation_sym|]; exact PT. }
    assert (Itg : forall r t a, nth_error trips r = Some (t, a) -> exists v, nth_error tg' r = Some ((t, a), v) /\ In ((t, a), v) tg).
    { intros r t a H. unfold trips in H. rewrite nth_error_map in H. destruct (nth_error tg' r) as [[y v]|] eqn:E; [|discriminate].
      cbn in H. injection H as ->. exists v. split; [reflexivity|]. apply nth_error_In in E. apply (Permutation_in _ (Permutation_sym P)), E. }
    (* what a node is *)
    assert (Node : forall n, In n (ja_nodes ans) -> exists t a v u, nth_error trips (jn_rel n) = Some (t, a) /\ In ((t, a), v) tg /\
      jn_offset n < List.length (tt_path t) /\ jn_key n = fst v + jn_offset n /\ nth_error us (jn_key n) = Some u /\
      jn_train n = N.to_nat (tr_id (tt_train t)) /\ jn_route n = u_ir u /\ uses t a (jn_offset n) (jn_route n) (u_start u) /\
      u_last u = Nat.eqb (S (jn_offset n)) (List.length (tt_path t))).
    { intros n I. rewrite Nd in I. apply blocks_in in I as (r & e & k & Hr & Hk & ->). unfold l in Hr. rewrite nth_error_map in Hr.
      destruct (nth_error tg' r) as [[[t a] v]|] eqn:Hv; [|discriminate]. cbn in Hr. injection Hr as <-. unfold entry in Hk. cbn [fst snd] in Hk.
      assert (I : In ((t, a), v) tg) by (apply (Permutation_in _ (Permutation_sym P)); eapply nth_error_In; exact Hv).
      destruct (tg_v _ _ _ I) as [Ev _]. unfold span in Hk. apply in_seq in Hk.
      destruct (tg_at t a v (k - fst v) I ltac:(lia)) as (u & Eu & A & B & C). replace (fst v + (k - fst v)) with k in Eu by lia.
      destruct (Nm k u Eu) as [N1 N2]. exists t, a, v, u. unfold mk_node, entry. cbn [jn_rel jn_offset jn_key jn_train jn_route fst snd].
      split; [unfold trips; cbn [plus]; rewrite nth_error_map, Hv; reflexivity|]. split; [exact I|]. split; [lia|]. split; [lia|]. split; [exact Eu|].
      split; [congruence|]. split; [exact N1|]. split; [rewrite N1; exact B|exact C]. }
    assert (Keys : map jn_key (ja_nodes ans) = flat_map (fun e : tentry => span (snd e)) l) by (rewrite Nd; apply blocks_keys).
    assert (Nk : NoDup (map jn_key (ja_nodes ans))) by (rewrite Keys; eapply Permutation_NoDup; [exact Ps|apply seq_NoDup]).
    assert (Kf : forall k, k < List.length us -> exists n, In n (ja_nodes ans) /\ jn_key n = k).
    { intros k Lk. assert (Q : In k (map jn_key (ja_nodes ans))) by (rewrite Keys; apply (Permutation_in _ Ps), in_seq; lia).
      apply in_map_iff in Q as (n & E & I). eauto. }
    assert (Kl : forall n, In n (ja_nodes ans) -> jn_key n < List.length us).
    { intros n I. destruct (Node n I) as (t & a & v & u & _ & _ & _ & _ & E & _). apply nth_error_Some. congruence. }
    assert (St : forall n s, In n (ja_nodes ans) -> starts trips n s -> s = start_of us (jn_key n)).
    { intros n s I (t' & a' & H' & _ & U'). destruct (Node n I) as (t & a & v & u & H & _ & _ & _ & E & _ & _ & U & _).
      rewrite H in H'. injection H' as <- <-. destruct (uses_fun _ _ _ _ _ _ _ U U') as [_ <-]. unfold start_of. rewrite E. reflexivity. }
    assert (Same : forall m n, In m (ja_nodes ans) -> In n (ja_nodes ans) -> jn_rel m = jn_rel n -> forall t a v t' a' v',
      nth_error trips (jn_rel m) = Some (t, a) -> In ((t, a), v) tg -> nth_error trips (jn_rel n) = Some (t', a') -> In ((t', a'), v') tg ->
      t = t' /\ a = a' /\ v = v').
    { intros m n _ _ E t a v t' a' v' H I H' I'. rewrite E, H' in H. injection H as -> ->. split; [reflexivity|]. split; [reflexivity|]. eapply tg_fun; eassumption. }
    (* edges *)
    assert (Ee : forall k j, In (k, j) (ja_edges ans) <-> k < og_size og /\ In j (og_out og k)).
    { intros k j. rewrite Eds, in_flat_map. unfold edges_json. split.
      - intros (k' & Ik & Ij). apply in_map_iff in Ij as (j' & [= -> ->] & Ij). split; [|exact Ij].
        apply (Permutation_in _ (Permutation_sym Ps)), in_seq in Ik. lia.
      - intros [Lk Ij]. exists k. split; [apply (Permutation_in _ Ps), in_seq; lia|]. apply in_map, Ij. }
    assert (Lw := leads_walk og R (ja_edges ans) Ee).
    split; [|split].
    - split; [exact NT|]. split; [exact It|]. split.
      { unfold trips. apply map_sorted. apply sorted_map in So. exact So. }
      split; [rewrite Tot; unfold l, trips; rewrite !map_length; reflexivity|].
      assert (Mw : map width l = map (fun y => List.length (tt_path (fst y))) trips).
      { unfold l, trips. rewrite !map_map. apply map_ext_in. intros [[t a] v] I.
        assert (I' := Permutation_in _ (Permutation_sym P) I). destruct (tg_v _ _ _ I') as [Ev _]. unfold width, entry. cbn [fst snd]. lia. }
      rewrite Mw in Mx. destruct (fold_max (map (fun y : ttrain * N => List.length (tt_path (fst y))) trips) 0) as (_ & B & C). rewrite <- Mx in B, C.
      split; [intros t a I; apply B, in_map_iff; exists (t, a); auto|].
      destruct trips as [|y q] eqn:Eq; [left; split; [reflexivity|rewrite Mx; reflexivity]|right].
      destruct C as [C|C].
      + destruct y as [t a]. exists t, a. split; [left; reflexivity|]. assert (Q := B (List.length (tt_path t)) (or_introl eq_refl)). lia.
      + apply in_map_iff in C as ([t a] & E & I). exists t, a. auto.
    - split; [|split; [|split]].
      + intros n I. destruct (Node n I) as (t & a & v & u & H & _ & _ & _ & _ & A & _ & U & _). exists (u_start u), t, a. auto.
      + intros r t a p H Lp. destruct (Itg r t a H) as (v & Hv & I). destruct (tg_v _ _ _ I) as [Ev _].
        exists (mk_node og (fst v) r (fst v + p)). split; [|cbn; split; [reflexivity|lia]].
        rewrite Nd. apply blocks_in. exists r, (entry conv ((t, a), v)), (fst v + p).
        split; [unfold l; rewrite nth_error_map, Hv; reflexivity|]. split; [|reflexivity]. unfold span, entry. cbn [snd]. apply in_seq. lia.
      + exact Nk.
      + intros m n Im In_ E1 E2. destruct (Node m Im) as (t & a & v & u & H & I & _ & K & _).
        destruct (Node n In_) as (t' & a' & v' & u' & H' & I' & _ & K' & _).
        destruct (Same m n Im In_ E1 _ _ _ _ _ _ H I H' I') as (_ & _ & <-). apply (NoDup_nth_map jn_key _ m n Nk Im In_). lia.
    - split; [|split; [|split; [|split]]].
      + intros k j I. apply Ee in I as [Lk Ij]. assert (Lj := R k j Lk Ij). rewrite Sz in Lk, Lj.
        destruct (Kf k Lk) as (m & Im & <-). destruct (Kf j Lj) as (n & In_ & <-). exists m, n. do 4 (split; [auto|]).
        destruct (Node m Im) as (t & a & v & u & H & I & Lp & K & Eu & _ & Ru & _ & La).
        destruct (Node n In_) as (t' & a' & v' & u' & H' & I' & Lp' & K' & Eu' & _ & Ru' & _).
        destruct (G4 _ _ Lk Ij) as [[(w & Ew & Wl & Es)|(w & w' & Ew & Ew' & C)] _].
        * left. rewrite Eu in Ew. injection Ew as <-. rewrite Wl in La. symmetry in La. apply Nat.eqb_neq in La.
          destruct (Itg _ _ _ H) as (v2 & Hv2 & I2). assert (v2 = v) by (eapply tg_fun; eassumption). subst v2.
          assert (Q : In (mk_node og (fst v) (jn_rel m) (fst v + S (jn_offset m))) (ja_nodes ans)).
          { destruct (tg_v _ _ _ I) as [Ev _]. rewrite Nd. apply blocks_in. exists (jn_rel m), (entry conv ((t, a), v)), (fst v + S (jn_offset m)).
            split; [unfold l; rewrite nth_error_map, Hv2; reflexivity|]. split; [|reflexivity]. unfold span, entry. cbn [snd]. apply in_seq. lia. }
          assert (En : n = mk_node og (fst v) (jn_rel m) (fst v + S (jn_offset m))).
          { apply (NoDup_nth_map jn_key _ _ _ Nk In_ Q). cbn [mk_node jn_key]. lia. }
          rewrite En. split; cbn [mk_node jn_rel jn_offset]; [reflexivity|lia].
        * right. rewrite Eu in Ew. rewrite Eu' in Ew'. injection Ew as <-. injection Ew' as <-. rewrite Ru, Ru'. exact C.
      + intros m n Im In_ [E1 E2]. destruct (Node m Im) as (t & a & v & u & H & I & Lp & K & Eu & _ & _ & _ & La).
        destruct (Node n In_) as (t' & a' & v' & u' & H' & I' & Lp' & K' & _).
        destruct (Same m n Im In_ E1 _ _ _ _ _ _ H I H' I') as (<- & <- & <-). apply Lw. split; [rewrite Sz; apply Kl, Im|].
        replace (jn_key n) with (S (jn_key m)) by lia. apply (G2 _ u Eu). rewrite La. apply Nat.eqb_neq. lia.
      + intros m n s s' Im In_ Ne C S S'. apply (St m s Im) in S. apply (St n s' In_) in S'.
        destruct (Node m Im) as (t & a & v & u & _ & _ & _ & _ & Eu & _ & Ru & _).
        destruct (Node n In_) as (t' & a' & v' & u' & _ & _ & _ & _ & Eu' & _ & Ru' & _).
        unfold start_of in S, S'. rewrite Eu in S. rewrite Eu' in S'. subst s s'.
        assert (Nk' : jn_key m <> jn_key n). { intros E. apply Ne. exact (NoDup_nth_map jn_key _ m n Nk Im In_ E). }
        rewrite Ru, Ru' in C. destruct (G1 _ _ u u' Eu Eu' Nk' C) as [[A B]|[A B]]; [left|right]; (split; [exact A|]); apply Lw; rewrite Sz; auto.
      + intros m n s s' Im In_ V S S'. apply (St m s Im) in S. apply (St n s' In_) in S'. subst s s'. apply Lw in V as [L V].
        apply G3; [apply Kl, Im|exact V].
      + intros k j I (y & V1 & V2). apply Ee in I as [Lk Ij]. apply Lw in V1 as [_ V1]. apply Lw in V2 as [_ V2]. rewrite Sz in Lk.
        apply (proj2 (G4 k j Lk Ij)). eauto.
  Qed.
End Whole.
