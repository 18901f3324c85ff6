(* Proofs about the places of the stations. *)
From Coq Require Import Ascii String Permutation Sorting.Sorted.
From Coq Require Import QArith Qabs Lqa.
From Verif Require Import Base TextModel KssDates PhysModel KssModel StockModel StockSpec StockText
  GraphModel GraphProofs GraphBfs LayoutModel LayoutSpec LayoutProofs.
Local Open Scope Q_scope.

Lemma valid_iff g : valid g = true <-> located g.
Proof.
  unfold valid, located. rewrite andb_true_iff, !Qle_bool_iff, !Qabs_Qle_condition. split; intros [A B]; split; assumption.
Qed.
Lemma no_gps_invalid : valid no_gps = false.
Proof. reflexivity. Qed.
Lemma given_iff coords s g : given coords s g <-> at_gps coords s = g /\ valid g = true.
Proof.
  unfold given, at_gps. rewrite <- valid_iff. split.
  - intros [E V]. split; [|exact V]. apply nth_error_nth, E.
  - intros [E V]. split; [|exact V]. destruct (Nat.lt_ge_cases s (List.length coords)) as [L|L].
    + rewrite <- E. apply nth_error_nth'. exact L.
    + rewrite nth_overflow in E by exact L. subst g. discriminate V.
Qed.
Lemma some_given coords s : (exists g, given coords s g) <-> valid (at_gps coords s) = true.
Proof.
  split.
  - intros (g & H). apply given_iff in H. destruct H as [-> V]. exact V.
  - intros V. exists (at_gps coords s). apply given_iff. split; [reflexivity|exact V].
Qed.
Lemma given_det coords s g h : given coords s g -> given coords s h -> g = h.
Proof. intros [A _] [B _]. congruence. Qed.

Section Neighbours.
  Variable addr : nat -> nat.
  Variable borders : nat -> list nat.

  Lemma insert_In s l t : In t (insert addr s l) <-> t = s \/ In t l.
  Proof.
    induction l as [|u l IH]; cbn [insert].
    - cbn. intuition.
    - destruct (Nat.leb (addr s) (addr u)); cbn [In]; [intuition|]. rewrite IH. intuition.
  Qed.
  Lemma sorted_In l t : In t (fold_right (insert addr) [] l) <-> In t l.
  Proof.
    induction l as [|s l IH]; cbn [fold_right]; [reflexivity|]. rewrite insert_In, IH. cbn [In]. intuition.
  Qed.
  Lemma unique_In l t : In t (unique l) <-> In t l.
  Proof.
    induction l as [|s l IH]; [reflexivity|]. destruct l as [|u l]; [reflexivity|].
    change (unique (s :: u :: l)) with (if Nat.eqb s u then unique (u :: l) else s :: unique (u :: l)).
    destruct (Nat.eqb_spec s u) as [->|].
    - rewrite IH. cbn [In]. intuition.
    - cbn [In] in *. rewrite IH. intuition.
  Qed.
  Lemma neighbours_In s t : In t (neighbours addr borders s) <-> In t (borders s).
  Proof. unfold neighbours. rewrite unique_In, sorted_In. reflexivity. Qed.

  Variable coords : list gps.
  Let n := List.length coords.
  Hypothesis R : forall s t, (s < n)%nat -> In t (borders s) -> (t < n)%nat.
  Notation nbrs := (next addr borders coords).

  Lemma next_edge a b : edge nbrs a b <-> valid (at_gps coords a) = false /\ In b (borders a).
  Proof.
    unfold edge, next. destruct (valid (at_gps coords a)); [cbn; intuition discriminate|].
    rewrite neighbours_In. intuition.
  Qed.
  Lemma next_in_range : in_range nbrs n.
  Proof. intros a b L E. apply next_edge in E. destruct E as [_ E]. exact (R a b L E). Qed.

  Lemma way_walkn k : forall s t, valid (at_gps coords s) = false -> (way borders coords (S k) s t <-> walkn nbrs (S k) s t).
  Proof.
    induction k as [|k IH]; intros s t V.
    - split; intros H.
      + inversion H as [s' t' I|k' s' t' u I X Y]; subst.
        * eapply walkn_S; [apply next_edge; split; eassumption|constructor].
        * inversion Y.
      + inversion H as [|k' a b c E W]; subst. inversion W; subst. apply next_edge in E. apply way_one, E.
    - split; intros H.
      + inversion H as [|k' s' u t' I X Y]; subst. rewrite some_given, not_true_iff_false in X.
        eapply walkn_S; [apply next_edge; split; eassumption|]. apply IH; assumption.
      + inversion H as [|k' a u c E W]; subst. apply next_edge in E. destruct E as [_ E].
        assert (X : valid (at_gps coords u) = false).
        { inversion W as [|k' a' b c' E' W']; subst. apply next_edge in E'. apply E'. }
        apply way_on with u; [exact E| |apply IH; assumption]. rewrite some_given, not_true_iff_false. exact X.
  Qed.
  Lemma way_pos k s t : way borders coords k s t -> exists j, k = S j.
  Proof. inversion 1; eauto. Qed.

  (* what the callback collects *)
  Definition hit (start : nat) (e : entry) : list (nat * nat) :=
    if Nat.eqb (e_n e) start then [] else if valid (at_gps coords (e_n e)) then [(e_n e, e_d e)] else [].

  Lemma run_edges start c l st : run (handle_node coords start) no_edge (map (EdgeEv c) l) st = (false, st).
  Proof. induction l as [|x l IH]; [reflexivity|]. cbn [map run no_edge]. exact IH. Qed.

  Lemma run_trace start post : forall pre found dists,
    (forall c p d, In (c, p, d) (pre ++ post) ->
       (p = start /\ d = 1%nat) \/ (p <> start /\ exists p' d', In (p, p', d') (pre ++ post) /\ d = S d')) ->
    StronglySorted le (map e_d (pre ++ post)) ->
    (forall c p d, In (c, p, d) pre -> c <> start -> dists c = d) -> dists start = 0%nat ->
    NoDup (map e_n (pre ++ post)) ->
    fst (snd (run (handle_node coords start) no_edge (trace nbrs start (map e_cp post)) (found, dists))) =
      (found ++ flat_map (hit start) post)%list.
  Proof.
    induction post as [|e post IH]; intros pre found dists P S D D0 N.
    - cbn [map trace flat_map run snd fst]. rewrite app_nil_r. reflexivity.
    - destruct e as [[c p] d]. cbn [map trace flat_map e_cp fst snd]. unfold visit at 1.
      fold (trace nbrs start (map e_cp post)). rewrite <- app_assoc, run_app. unfold hit at 1. cbn [e_n e_d fst snd].
      replace (pre ++ (c, p, d) :: post)%list with ((pre ++ [(c, p, d)]) ++ post)%list in P, S, N
        by (rewrite <- app_assoc; reflexivity).
      destruct (Nat.eqb_spec c start) as [->|Nc].
      + cbn [run]. rewrite run_app, run_edges.
        rewrite (IH (pre ++ [(start, p, d)])%list found dists P S); [reflexivity| |exact D0|exact N].
        intros c' p' d' I Nc'. apply in_app_iff in I. destruct I as [I|[I|[]]]; [exact (D _ _ _ I Nc')|congruence].
      + assert (Dp : (dists p + 1)%nat = d).
        { destruct (P c p d) as [[-> ->]|(Np & p' & d' & I & ->)].
          - apply in_or_app. left. apply in_or_app. right. left. reflexivity.
          - rewrite D0. reflexivity.
          - rewrite <- app_assoc in I. apply in_app_iff in I. destruct I as [I|I].
            + rewrite (D _ _ _ I Np). lia.
            + exfalso. rewrite <- app_assoc in S. rewrite map_app in S. cbn [app map e_d snd] in S.
              assert (X : StronglySorted le (Datatypes.S d' :: map e_d post)).
              { clear - S. induction pre as [|a pre IH]; [exact S|]. cbn [map app] in S. inversion S. apply IH. assumption. }
              inversion X as [|? ? _ F]; subst. cbn [app] in I. destruct I as [I|I]; [injection I as _ _ I; lia|].
              rewrite Forall_forall in F. specialize (F d'). assert (In d' (map e_d post)).
              { apply in_map_iff. exists (p, p', d'). split; [reflexivity|exact I]. }
              specialize (F H). lia. }
        cbn [run handle_node]. assert (Ec : Nat.eqb c start = false) by (apply Nat.eqb_neq, Nc). rewrite Ec, Dp.
        rewrite run_app, run_edges.
        rewrite (IH (pre ++ [(c, p, d)])%list _ _ P S).
        * destruct (valid (at_gps coords c)); [rewrite <- app_assoc|]; reflexivity.
        * intros c' p' d' I Nc'. cbn beta. destruct (Nat.eqb_spec c' c) as [->|Ne].
          -- apply in_app_iff in I. destruct I as [I|[I|[]]]; [|congruence]. exfalso.
             rewrite map_app, map_app in N. cbn [map e_n fst] in N. apply NoDup_app_inv in N. destruct N as (N & _).
             apply NoDup_remove_2 in N. rewrite app_nil_r in N. apply N. apply in_map_iff. exists (c, p', d'). auto.
          -- apply in_app_iff in I. destruct I as [I|[I|[]]]; [exact (D _ _ _ I Nc')|congruence].
        * cbn beta. destruct (Nat.eqb_spec start c); [congruence|exact D0].
        * exact N.
  Qed.

  Lemma near_list s : (s < n)%nat -> valid (at_gps coords s) = false ->
    exists found, get_neighbours_with_coords addr borders coords s = Ok found /\
      NoDup (map fst found) /\
      forall t k, In (t, k) found <-> near borders coords s t k.
  Proof.
    intros L V. assert (F : (S n <= S n)%nat) by lia.
    destruct (bfs_ok nbrs s n next_in_range L (S n) F) as (l & E & N & Ss & P & Wl & Lw).
    assert (Ed : forall c p d p' d', In (c, p, d) l -> In (c, p', d') l -> d = d').
    { clear - N. induction l as [|[[c0 p0] d0] l IH]; intros c p d p' d' A B; [destruct A|].
      cbn [map e_n fst] in N. apply NoDup_cons_iff in N. destruct N as [Ni N].
      assert (X : forall c p d, In (c, p, d) l -> In c (map e_n l)).
      { intros a b x I. apply in_map_iff. exists (a, b, x). split; [reflexivity|exact I]. }
      destruct A as [A|A], B as [B|B].
      - congruence.
      - injection A as <- <- <-. exfalso. apply Ni, (X _ _ _ B).
      - injection B as <- <- <-. exfalso. apply Ni, (X _ _ _ A).
      - exact (IH N _ _ _ _ _ A B). }
    assert (Min : forall c p d k, In (c, p, d) l -> walkn nbrs (S k) s c -> (d <= S k)%nat).
    { intros c p d k I W. destruct (Wl k c W) as (p' & d' & I' & Le). rewrite (Ed _ _ _ _ _ I I'). exact Le. }
    exists (flat_map (hit s) l). split; [|split].
    - unfold get_neighbours_with_coords, bfs, graph_traversal. fold n.
      rewrite (trav_run _ _ _ _ _ _ _ _ _ _ E). cbn [bind].
      cbn [trace flat_map fst snd]. fold (trace nbrs s (map e_cp l)). unfold visit at 1. rewrite Nat.eqb_refl.
      cbn [app]. rewrite run_app, run_edges.
      rewrite (run_trace s l [] [] (fun _ => 0%nat)); [reflexivity| |exact Ss| |reflexivity|exact N].
      + intros c p d I. cbn [app] in *. destruct (P c p d I) as (Ec & [X|(p' & d' & I' & ->)]); [left; exact X|].
        destruct (Nat.eq_dec p s) as [->|Np]; [|right; split; [exact Np|exists p', d'; auto]].
        left. split; [reflexivity|]. assert (W : walkn nbrs 1 s c) by (eapply walkn_S; [exact Ec|constructor]).
        pose proof (Min _ _ _ _ I W) as Le. assert (W2 := Lw _ _ _ I).
        assert (d' = 0%nat) as -> by lia. destruct (P s p' 0%nat I') as (_ & [[_ X]|(u & v & _ & X)]); discriminate X.
      + intros c p d [].
    - clear - N. induction l as [|[[c p] d] l IH]; [constructor|]. cbn [map e_n fst] in N. apply NoDup_cons_iff in N.
      destruct N as [Ni N]. cbn [flat_map]. rewrite map_app. unfold hit at 1. cbn [e_n e_d fst snd].
      destruct (Nat.eqb c s); [exact (IH N)|]. destruct (valid (at_gps coords c)); [|exact (IH N)].
      cbn [map app fst]. constructor; [|exact (IH N)]. intros X. apply Ni. clear - X.
      apply in_map_iff in X. destruct X as ([t k] & Et & X). cbn in Et. subst t. apply in_flat_map in X.
      destruct X as (e & I & X). unfold hit in X. destruct (Nat.eqb (e_n e) s); [destruct X|].
      destruct (valid (at_gps coords (e_n e))); [|destruct X]. destruct X as [X|[]]. injection X as X _.
      apply in_map_iff. exists e. auto.
    - intros t k. rewrite in_flat_map. split.
      + intros ([[c p] d] & I & X). unfold hit in X. cbn [e_n e_d fst snd] in X.
        destruct (Nat.eqb_spec c s) as [|Nc]; [destruct X|]. destruct (valid (at_gps coords c)) eqn:Vc; [|destruct X].
        destruct X as [X|[]]. injection X as -> ->. pose proof (Lw _ _ _ I) as W.
        destruct k as [|k]; [inversion W; congruence|].
        split; [exact Nc|]. split; [apply some_given, Vc|]. split; [apply way_walkn; assumption|].
        intros j Wj. destruct (way_pos _ _ _ Wj) as (j' & ->). apply way_walkn in Wj; [|exact V]. exact (Min _ _ _ _ I Wj).
      + intros (Nc & Gt & W & M). apply some_given in Gt. destruct (way_pos _ _ _ W) as (j & ->).
        apply way_walkn in W; [|exact V]. destruct (Wl j t W) as (p & d & I & Le).
        exists (t, p, d). split; [exact I|]. unfold hit. cbn [e_n e_d fst snd].
        destruct (Nat.eqb_spec t s); [congruence|]. rewrite Gt. left. f_equal. pose proof (Lw _ _ _ I) as W2.
        destruct d as [|d]; [inversion W2; congruence|]. apply way_walkn in W2; [|exact V]. specialize (M _ W2). lia.
  Qed.

  (* ---- the list with the places ---- *)
  Definition with_place (found : list (nat * nat)) : list (nat * gps * nat) :=
    map (fun td => (fst td, at_gps coords (fst td), snd td)) found.
  Lemma with_place_surroundings s found :
    NoDup (map fst found) -> (forall t k, In (t, k) found <-> near borders coords s t k) ->
    surroundings borders coords s (with_place found).
  Proof.
    intros N H. unfold with_place. split; [|split].
    - rewrite map_map. cbn [fst]. exact N.
    - intros t g k I. apply in_map_iff in I. destruct I as ([t' k'] & E & I). cbn [fst snd] in E. injection E as <- <- <-.
      apply H in I. destruct I as (_ & I & _). apply given_iff. split; [reflexivity|]. apply some_given, I.
    - intros t k. rewrite <- H. split.
      + intros I. exists (at_gps coords t). apply in_map_iff. exists (t, k). split; [reflexivity|exact I].
      + intros (g & I). apply in_map_iff in I. destruct I as ([t' k'] & E & I). cbn [fst snd] in E. injection E as <- _ <-. exact I.
  Qed.
  Lemma surroundings_perm s l l' :
    surroundings borders coords s l -> surroundings borders coords s l' -> Permutation l l'.
  Proof.
    intros (N & G & H) (N' & G' & H'). apply NoDup_Permutation.
    - eapply NoDup_map_inv, N.
    - eapply NoDup_map_inv, N'.
    - intros [[t g] k]. split; intros I.
      + assert (X : near borders coords s t k) by (apply H; eauto). apply H' in X. destruct X as (g' & X).
        rewrite (given_det _ _ _ _ (G _ _ _ I) (G' _ _ _ X)). exact X.
      + assert (X : near borders coords s t k) by (apply H'; eauto). apply H in X. destruct X as (g' & X).
        rewrite (given_det _ _ _ _ (G' _ _ _ I) (G _ _ _ X)). exact X.
  Qed.

  Lemma sum_perm l l' : Permutation l l' -> sum l == sum l'.
  Proof.
    induction 1 as [|x l l' P IH|x y l|l1 l2 l3 P1 IH1 P2 IH2]; cbn [sum fold_right].
    - reflexivity.
    - fold (sum l) (sum l'). rewrite IH. reflexivity.
    - ring.
    - rewrite IH1. exact IH2.
  Qed.
  Lemma farthest_perm l l' : Permutation l l' -> farthest l = farthest l'.
  Proof.
    induction 1 as [|x l l' P IH|x y l|l1 l2 l3 P1 IH1 P2 IH2]; cbn [farthest fold_right]; try reflexivity.
    - fold (farthest l) (farthest l'). rewrite IH. reflexivity.
    - fold (farthest l). lia.
    - congruence.
  Qed.
  Lemma mean_perm s l l' g : Permutation l l' -> mean borders s l g -> mean borders s l' g.
  Proof.
    intros P (A & B & C). pose proof (farthest_perm _ _ P) as F.
    assert (W : forall x, weight_of borders s l' x = weight_of borders s l x).
    { intros x. unfold weight_of. rewrite F. reflexivity. }
    assert (X : forall f : Q -> nat * gps * nat -> Q,
      sum (map (fun x => f (weight_of borders s l' x) x) l') == sum (map (fun x => f (weight_of borders s l x) x) l)).
    { intros f. transitivity (sum (map (fun x => f (weight_of borders s l x) x) l')).
      - erewrite map_ext; [reflexivity|]. intros x. cbn beta. rewrite W. reflexivity.
      - apply sum_perm, Permutation_map, Permutation_sym, P. }
    unfold mean. cbv zeta. split; [|split].
    - rewrite (X (fun w x => w * lon_ (snd (fst x)))). change (map (weight_of borders s l') l') with (map (fun x => (fun (w : Q) (_ : nat * gps * nat) => w) (weight_of borders s l' x) x) l').
      rewrite (X (fun w _ => w)). exact A.
    - rewrite (X (fun w x => w * lat_ (snd (fst x)))). change (map (weight_of borders s l') l') with (map (fun x => (fun (w : Q) (_ : nat * gps * nat) => w) (weight_of borders s l' x) x) l').
      rewrite (X (fun w _ => w)). exact B.
    - change (map (weight_of borders s l') l') with (map (fun x => (fun (w : Q) (_ : nat * gps * nat) => w) (weight_of borders s l' x) x) l').
      rewrite (X (fun w _ => w)). exact C.
  Qed.

  (* ---- one station ---- *)
  Lemma farthest_found found : fold_right Nat.max 0%nat (map snd found) = farthest (with_place found).
  Proof. induction found as [|x l IH]; [reflexivity|]. cbn. f_equal. exact IH. Qed.
  Lemma farthest_le l x : In x l -> (snd x <= farthest l)%nat.
  Proof. induction l as [|y l IH]; intros I; [destruct I|]. cbn [farthest fold_right]. fold (farthest l). destruct I as [->|I]; [lia|]. specialize (IH I). lia. Qed.

  Lemma ofn_weight s found td : In td found ->
    ofn (weight borders s (fold_right Nat.max 0 (map snd found) + 1)%nat td) ==
    weight_of borders s (with_place found) (fst td, at_gps coords (fst td), snd td).
  Proof.
    intros I. unfold weight, weight_of, ofn. cbn [fst snd]. rewrite farthest_found.
    assert (L : (snd td <= farthest (with_place found))%nat).
    { apply (farthest_le _ (fst td, at_gps coords (fst td), snd td)). apply in_map_iff. exists td. split; [reflexivity|exact I]. }
    set (F := farthest (with_place found)) in *.
    assert (W : inject_Z (Z.of_nat (F + 1 - snd td)) == inject_Z (Z.of_nat F) + 1 - inject_Z (Z.of_nat (snd td))).
    { rewrite Nat2Z.inj_sub by lia. rewrite Nat2Z.inj_add. unfold Z.sub.
      rewrite inject_Z_plus, inject_Z_plus, inject_Z_opp. reflexivity. }
    destruct (_ && _); [|exact W]. rewrite Nat2Z.inj_mul, inject_Z_mult, W. change (inject_Z (Z.of_nat 2)) with 2. ring.
  Qed.

  Lemma weight_ge_1 s l x : In x l -> 1 <= weight_of borders s l x.
  Proof.
    intros I. pose proof (farthest_le _ _ I) as L. unfold weight_of.
    assert (X : inject_Z (Z.of_nat (snd x)) <= inject_Z (Z.of_nat (farthest l))).
    { rewrite <- Zle_Qle. lia. }
    destruct (_ && _); lra.
  Qed.
  Lemma sum_ge_length (f : nat * gps * nat -> Q) l : (forall x, In x l -> 1 <= f x) -> ofn (List.length l) <= sum (map f l).
  Proof.
    unfold ofn. induction l as [|x l IH]; intros H; [apply Qle_refl|].
    cbn [List.length map sum fold_right]. rewrite Nat2Z.inj_succ. unfold Z.succ. rewrite inject_Z_plus. fold (sum (map f l)).
    assert (A := H x (or_introl eq_refl)). assert (B := IH (fun y I => H y (or_intror I))).
    change (inject_Z 1) with 1. lra.
  Qed.

  Lemma fold_sums (w lo la : nat * nat -> Q) l : forall a b c,
    let r := fold_left (fun acc nd => let '(lon, lat, total) := acc in
               (lon + lo nd * w nd, lat + la nd * w nd, total + w nd)) l (a, b, c) in
    fst (fst r) == a + sum (map (fun x => w x * lo x) l) /\
    snd (fst r) == b + sum (map (fun x => w x * la x) l) /\
    snd r == c + sum (map w l).
  Proof.
    induction l as [|x l IH]; intros a b c; cbn [fold_left map sum fold_right].
    - cbn [fst snd]. split; [ring|]. split; ring.
    - cbv zeta in IH. destruct (IH (a + lo x * w x) (b + la x * w x) (c + w x)) as (A & B & C). cbv zeta.
      fold (sum (map (fun x => w x * lo x) l)) (sum (map (fun x => w x * la x) l)) (sum (map w l)).
      rewrite A, B, C. split; [ring|]. split; ring.
  Qed.
  Lemma sum_ext {A} (f g : A -> Q) l : (forall x, In x l -> f x == g x) -> sum (map f l) == sum (map g l).
  Proof.
    induction l as [|x l IH]; intros H; [reflexivity|]. cbn [map sum fold_right]. fold (sum (map f l)) (sum (map g l)).
    rewrite (H x (or_introl eq_refl)), (IH (fun y I => H y (or_intror I))). reflexivity.
  Qed.

  Lemma interpolate_one_spec s : (s < n)%nat -> valid (at_gps coords s) = false ->
    exists found, get_neighbours_with_coords addr borders coords s = Ok found /\
      surroundings borders coords s (with_place found) /\
      exists g, interpolate_one addr borders coords s = Ok g /\
        ((List.length found < 2)%nat -> g = no_gps) /\
        ((2 <= List.length found)%nat -> mean borders s (with_place found) g).
  Proof.
    intros L V. destruct (near_list s L V) as (found & E & N & H).
    exists found. split; [exact E|]. split; [apply with_place_surroundings; assumption|].
    unfold interpolate_one. rewrite E. cbn [bind]. destruct (Nat.ltb_spec (List.length found) 2) as [Lt|Ge].
    - exists no_gps. split; [reflexivity|]. split; [reflexivity|lia].
    - cbv zeta. set (M := (fold_right Nat.max 0 (map snd found) + 1)%nat).
      pose proof (fold_sums (fun nd => ofn (weight borders s M nd)) (fun nd => lon_ (at_gps coords (fst nd)))
        (fun nd => lat_ (at_gps coords (fst nd))) found 0 0 0) as X. cbv zeta in X.
      match goal with |- context [fold_left ?f found (0, 0, 0)] => set (r := fold_left f found (0, 0, 0)) in * end.
      change (fold_left _ found (0, 0, 0)) with r in X. destruct r as [[a b] c]. cbn [fst snd] in X.
      destruct X as (Xa & Xb & Xc).
      exists (mk_gps (a / c) (b / c)). split; [reflexivity|]. split; [lia|]. intros _.
      assert (W : sum (map (weight_of borders s (with_place found)) (with_place found)) == c).
      { rewrite Xc. unfold with_place at 2. rewrite map_map.
        rewrite (sum_ext _ (fun nd => ofn (weight borders s M nd))); [ring|].
        intros td I. symmetry. apply ofn_weight, I. }
      assert (P : ofn 2 <= c).
      { rewrite <- W. eapply Qle_trans; [|apply sum_ge_length; intros x I; apply weight_ge_1, I].
        unfold with_place. rewrite map_length. unfold ofn. rewrite <- Zle_Qle. lia. }
      change (ofn 2) with 2 in P.
      unfold mean. cbv zeta. rewrite W. cbn [lon_ lat_]. split; [|split; [|lra]].
      + transitivity a; [field; lra|]. rewrite Xa. unfold with_place at 2. rewrite map_map. cbn [fst snd].
        rewrite (sum_ext _ (fun x => weight_of borders s (with_place found) (fst x, at_gps coords (fst x), snd x) * lon_ (at_gps coords (fst x)))); [ring|].
        intros td I. pose proof (ofn_weight s found td I) as OW. fold M in OW. rewrite OW. reflexivity.
      + transitivity b; [field; lra|]. rewrite Xb. unfold with_place at 2. rewrite map_map. cbn [fst snd].
        rewrite (sum_ext _ (fun x => weight_of borders s (with_place found) (fst x, at_gps coords (fst x), snd x) * lat_ (at_gps coords (fst x)))); [ring|].
        intros td I. pose proof (ofn_weight s found td I) as OW. fold M in OW. rewrite OW. reflexivity.
  Qed.

  (* a mean lies between the values *)
  Lemma sum_between (w v : nat * gps * nat -> Q) l lo hi :
    (forall x, In x l -> 0 <= w x) -> (forall x, In x l -> lo <= v x <= hi) ->
    lo * sum (map w l) <= sum (map (fun x => w x * v x) l) <= hi * sum (map w l).
  Proof.
    induction l as [|x l IH]; intros Hw Hv; cbn [map sum fold_right].
    - split; ring_simplify; apply Qle_refl.
    - fold (sum (map w l)) (sum (map (fun x => w x * v x) l)).
      destruct (IH (fun y I => Hw y (or_intror I)) (fun y I => Hv y (or_intror I))) as [A B].
      assert (C := Hw x (or_introl eq_refl)). destruct (Hv x (or_introl eq_refl)) as [D E].
      set (S := sum (map w l)) in *. set (T := sum (map (fun x => w x * v x) l)) in *.
      split; nra.
  Qed.
  Lemma mean_between s l g : mean borders s l g ->
    (forall lo hi, (forall t h k, In (t, h, k) l -> lo <= lon_ h <= hi) -> lo <= lon_ g <= hi) /\
    (forall lo hi, (forall t h k, In (t, h, k) l -> lo <= lat_ h <= hi) -> lo <= lat_ g <= hi).
  Proof.
    intros (A & B & C). set (W := sum (map (weight_of borders s l) l)) in *.
    assert (P : 0 < W).
    { assert (0 <= W); [|lra]. unfold W. eapply Qle_trans; [|apply sum_ge_length; intros x I; apply weight_ge_1, I].
      unfold ofn. change 0 with (inject_Z 0). rewrite <- Zle_Qle. lia. }
    assert (Hw : forall x, In x l -> 0 <= weight_of borders s l x).
    { intros x I. pose proof (weight_ge_1 s l x I). lra. }
    split; intros lo hi H.
    - destruct (sum_between (weight_of borders s l) (fun x => lon_ (snd (fst x))) l lo hi Hw) as [D E].
      { intros [[t h] k] I. exact (H t h k I). }
      fold W in D, E. rewrite <- A in D, E. split; nra.
    - destruct (sum_between (weight_of borders s l) (fun x => lat_ (snd (fst x))) l lo hi Hw) as [D E].
      { intros [[t h] k] I. exact (H t h k I). }
      fold W in D, E. rewrite <- B in D, E. split; nra.
  Qed.

  Lemma mean_valid s l g : surroundings borders coords s l -> mean borders s l g -> valid g = true.
  Proof.
    intros (_ & G & _) M. apply valid_iff. destruct (mean_between _ _ _ M) as [A B].
    split; [apply A|apply B]; intros t h k I; destruct (G _ _ _ I) as [_ X]; apply X.
  Qed.

  (* ---- the rounds ---- *)
  (* what the first round leaves at station s *)
  Definition first_of (s : nat) (c : gps) : res gps := if valid c then Ok c else interpolate_one addr borders coords s.

  Lemma round_spec cur : forall i work,
    (forall j c, nth_error cur j = Some c -> exists g, first_of (i + j) c = Ok g) ->
    exists cur' work', round addr borders coords i cur work = Ok (cur', work') /\
      List.length cur' = List.length cur /\
      (forall j c, nth_error cur j = Some c -> exists g, nth_error cur' j = Some g /\ first_of (i + j) c = Ok g) /\
      ((forall j c, nth_error cur j = Some c -> valid c = false -> interpolate_one addr borders coords (i + j) = Ok no_gps) ->
        work = false -> work' = false).
  Proof.
    induction cur as [|c cur IH]; intros i work H; cbn [round].
    - exists [], work. split; [reflexivity|]. split; [reflexivity|]. split; [intros [|j] c E; discriminate|auto].
    - assert (H' : forall j c, nth_error cur j = Some c -> exists g, first_of (S i + j) c = Ok g).
      { intros j c' E. replace (S i + j)%nat with (i + S j)%nat by lia. apply H. exact E. }
      destruct (H 0%nat c eq_refl) as (g & Hg). rewrite Nat.add_0_r in Hg. unfold first_of in Hg.
      destruct (valid c) eqn:V.
      + destruct (IH (S i) work H') as (cur' & w' & E & L & A & B). rewrite E. cbn [bind].
        exists (c :: cur'), w'. split; [reflexivity|]. split; [cbn; congruence|]. split.
        * intros [|j] c' Ej; cbn [nth_error] in *.
          -- injection Ej as <-. exists c. split; [reflexivity|]. unfold first_of. rewrite V. reflexivity.
          -- replace (i + S j)%nat with (S i + j)%nat by lia. apply A, Ej.
        * intros X. apply B. intros j c' Ej. replace (S i + j)%nat with (i + S j)%nat by lia. apply X. exact Ej.
      + rewrite Hg. cbn [bind]. destruct (IH (S i) (valid g) H') as (cur' & w' & E & L & A & B). rewrite E. cbn [bind].
        exists (g :: cur'), w'. split; [reflexivity|]. split; [cbn; congruence|]. split.
        * intros [|j] c' Ej; cbn [nth_error] in *.
          -- injection Ej as <-. exists g. split; [reflexivity|]. unfold first_of. rewrite V, Nat.add_0_r. exact Hg.
          -- replace (i + S j)%nat with (S i + j)%nat by lia. apply A, Ej.
        * intros X _. apply B.
          -- intros j c' Ej. replace (S i + j)%nat with (i + S j)%nat by lia. apply X. exact Ej.
          -- specialize (X 0%nat c eq_refl V). rewrite Nat.add_0_r in X. rewrite Hg in X. injection X as ->. reflexivity.
  Qed.

  Lemma rounds_spec : exists cur, rounds addr borders 3 coords coords = Ok cur /\ List.length cur = n /\
    forall s g, nth_error cur s = Some g -> first_of s (at_gps coords s) = Ok g.
  Proof.
    assert (At : forall s c, nth_error coords s = Some c -> at_gps coords s = c).
    { intros s c E. unfold at_gps. apply nth_error_nth, E. }
    assert (T : forall s c, nth_error coords s = Some c -> exists g, first_of s c = Ok g).
    { intros s c E. unfold first_of. destruct (valid c) eqn:V; [eauto|]. rewrite <- (At s c E) in V.
      destruct (interpolate_one_spec s) as (f & _ & _ & g & G & _); [apply nth_error_Some; congruence|exact V|]. eauto. }
    destruct (round_spec coords 0 false T) as (c1 & w1 & E1 & L1 & A1 & _).
    assert (Len : forall s, (s < n)%nat -> exists c g, nth_error coords s = Some c /\ nth_error c1 s = Some g /\ first_of s c = Ok g).
    { intros s L. destruct (nth_error coords s) as [c|] eqn:E; [|apply nth_error_None in E; unfold n in L; lia].
      destruct (A1 s c E) as (g & G1 & G2). exists c, g. auto. }
    assert (T1 : forall s c, nth_error c1 s = Some c -> exists c0, nth_error coords s = Some c0 /\ first_of s c0 = Ok c).
    { intros s c E. assert (L : (s < n)%nat) by (unfold n; rewrite <- L1; apply nth_error_Some; congruence).
      destruct (Len s L) as (c0 & g & X & Y & Z). rewrite E in Y. injection Y as <-. eauto. }
    assert (Again : forall s c, nth_error c1 s = Some c -> valid c = false ->
      interpolate_one addr borders coords s = Ok no_gps /\ c = no_gps).
    { intros s c E V. destruct (T1 s c E) as (c0 & X & Y). unfold first_of in Y. destruct (valid c0) eqn:V0; [congruence|].
      rewrite <- (At s c0 X) in V0. destruct (interpolate_one_spec s) as (f & _ & Su & g & G & G1 & G2);
        [apply nth_error_Some; congruence|exact V0|]. rewrite G in Y. injection Y as ->.
      destruct (Nat.lt_ge_cases (List.length f) 2) as [L|L].
      - rewrite (G1 L) in *. auto.
      - rewrite (mean_valid _ _ _ Su (G2 L)) in V. discriminate. }
    assert (T2 : forall s c, nth_error c1 s = Some c -> exists g, first_of s c = Ok g).
    { intros s c E. unfold first_of. destruct (valid c) eqn:V; [eauto|]. destruct (Again s c E V) as [X _]. eauto. }
    destruct (round_spec c1 0 false T2) as (c2 & w2 & E2 & L2 & A2 & B2).
    assert (W2 : w2 = false) by (apply B2; [intros s c E V; apply (Again s c E V)|reflexivity]).
    assert (C12 : c2 = c1).
    { apply nth_ext with (d := no_gps) (d' := no_gps); [exact L2|]. intros s Ls.
      destruct (nth_error c1 s) as [c|] eqn:E; [|apply nth_error_None in E; lia].
      destruct (A2 s c E) as (g & G1 & G2). rewrite (nth_error_nth _ _ _ G1), (nth_error_nth _ _ _ E).
      unfold first_of in G2. cbn [Nat.add] in G2. destruct (valid c) eqn:V; [congruence|]. destruct (Again s c E V). congruence. }
    exists c1. split; [|split; [exact L1|]].
    - cbn [rounds]. rewrite E1. cbn [bind]. destruct w1; [|reflexivity]. rewrite E2. cbn [bind]. rewrite W2, C12. reflexivity.
    - intros s g E. destruct (T1 s g E) as (c0 & X & Y). rewrite (At s c0 X). exact Y.
  Qed.

  Lemma leftovers_spec cur : forall i,
    (forall j c, nth_error cur j = Some c -> valid c = false -> exists f, get_neighbours_with_coords addr borders coords (i + j) = Ok f) ->
    exists r, leftovers addr borders coords i cur = Ok r /\ List.length r = List.length cur /\
    forall j c, nth_error cur j = Some c -> exists g, nth_error r j = Some g /\
      (valid c = true -> g = c) /\
      (valid c = false -> forall f, get_neighbours_with_coords addr borders coords (i + j) = Ok f ->
         g = match f with
             | [] => mk_gps 8 47
             | [(t, k)] => mk_gps (lon_ (at_gps coords t) - ofn k * (1 # 10)) (lat_ (at_gps coords t))
             | _ => c
             end).
  Proof.
    induction cur as [|c cur IH]; intros i H; cbn [leftovers].
    - exists []. split; [reflexivity|]. split; [reflexivity|]. intros [|j] c E; discriminate.
    - destruct (IH (S i)) as (r & E & L & A).
      { intros j c' Ej. replace (S i + j)%nat with (i + S j)%nat by lia. apply H. exact Ej. }
      assert (X : forall g0, exists r', (do cur <- leftovers addr borders coords (S i) cur; Ok (g0 :: cur)) = Ok r' /\ r' = g0 :: r).
      { intros g0. rewrite E. cbn [bind]. eauto. }
      destruct (valid c) eqn:V.
      + cbn [bind]. destruct (X c) as (r' & -> & ->). exists (c :: r). split; [reflexivity|]. split; [cbn; congruence|].
        intros [|j] c' Ej; cbn [nth_error] in *.
        * injection Ej as <-. exists c. split; [reflexivity|]. split; [reflexivity|congruence].
        * replace (i + S j)%nat with (S i + j)%nat by lia. apply A, Ej.
      + destruct (H 0%nat c eq_refl V) as (f & Hf). rewrite Nat.add_0_r in Hf. rewrite Hf. cbn [bind].
        set (g0 := match f with [] => mk_gps 8 47 | [(t, k)] => mk_gps (lon_ (at_gps coords t) - ofn k * (1 # 10)) (lat_ (at_gps coords t)) | _ => c end).
        destruct (X g0) as (r' & Er & ->). exists (g0 :: r). split; [|split; [cbn; congruence|]].
        * rewrite <- Er. unfold g0. destruct f as [|[t k] [|y f]]; reflexivity.
        * intros [|j] c' Ej; cbn [nth_error] in *.
          -- injection Ej as <-. exists g0. split; [reflexivity|]. split; [congruence|]. intros _ f' Hf'.
             rewrite Nat.add_0_r in Hf'. rewrite Hf in Hf'. injection Hf' as <-. reflexivity.
          -- replace (i + S j)%nat with (S i + j)%nat by lia. apply A, Ej.
  Qed.

  Lemma interpolate_spec : exists result,
    interpolate_coordinates addr borders n coords = Ok result /\ List.length result = n /\
    forall s, (s < n)%nat -> exists g, nth_error result s = Some g /\
      (forall g0, given coords s g0 -> g = g0) /\
      (~ (exists g0, given coords s g0) -> exists l, surroundings borders coords s l /\
         match l with
         | [] => g = mk_gps 8 47
         | [(t, h, k)] => g = mk_gps (lon_ h - ofn k * (1 # 10)) (lat_ h)
         | _ => mean borders s l g
         end).
  Proof.
    destruct rounds_spec as (cur & E & L & A).
    destruct (leftovers_spec cur 0) as (r & Er & Lr & Ar).
    { intros s c Es V. cbn [Nat.add]. assert (Ls : (s < n)%nat) by (rewrite <- L; apply nth_error_Some; congruence).
      pose proof (A s c Es) as F. unfold first_of in F. destruct (valid (at_gps coords s)) eqn:Vs; [congruence|].
      destruct (interpolate_one_spec s Ls Vs) as (f & Hf & _). eauto. }
    exists r. split; [unfold interpolate_coordinates; fold n; rewrite Nat.eqb_refl, E; exact Er|].
    split; [congruence|]. intros s Ls.
    destruct (nth_error cur s) as [c|] eqn:Es; [|apply nth_error_None in Es; lia].
    destruct (Ar s c Es) as (g & Hg & G1 & G2). exists g. split; [exact Hg|].
    pose proof (A s c Es) as F. unfold first_of in F. split.
    - intros g0 H0. apply given_iff in H0. destruct H0 as [H0 V0]. rewrite H0, V0 in F. injection F as <-. apply G1, V0.
    - intros No. rewrite some_given, not_true_iff_false in No. rewrite No in F.
      destruct (interpolate_one_spec s Ls No) as (f & Hf & Su & g' & Hg' & I1 & I2). rewrite F in Hg'. injection Hg' as <-.
      exists (with_place f). split; [exact Su|]. cbn [Nat.add] in G2.
      destruct (Nat.lt_ge_cases (List.length f) 2) as [Lt|Ge].
      + rewrite (I1 Lt) in *. specialize (G2 no_gps_invalid f Hf). destruct f as [|[t k] [|y f]]; cbn [with_place map fst snd].
        * exact G2.
        * exact G2.
        * cbn in Lt. lia.
      + specialize (I2 Ge). pose proof (mean_valid _ _ _ Su I2) as V. rewrite (G1 V).
        destruct f as [|[t k] [|y f]]; cbn in Ge; [lia|lia|]. exact I2.
  Qed.
End Neighbours.
