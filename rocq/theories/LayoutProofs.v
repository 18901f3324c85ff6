(* Proofs about the layout of the elements. *)
From Coq Require Import Ascii String Permutation.
From Coq Require Import QArith Qabs Lqa.
From Verif Require Import Base TextModel KssDates PhysModel KssModel StockModel StockSpec StockText LayoutModel LayoutSpec.
Local Open Scope Q_scope.

(* ---- vectors ---- *)
Lemma at_Ok {A} (l : list A) i a : at_ l i = Ok a <-> nth_error l i = Some a.
Proof. unfold at_. destruct (nth_error l i); split; intros H; try discriminate; injection H as <-; reflexivity. Qed.
Lemma set_nth_nth {A} (l : list A) : forall i j a, (i < List.length l)%nat ->
  nth_error (set_nth l i a) j = if Nat.eqb j i then Some a else nth_error l j.
Proof.
  induction l as [|b l IH]; intros i j a L; cbn [List.length] in L; [lia|]. destruct i as [|i]; cbn [set_nth].
  - destruct j as [|j]; reflexivity.
  - destruct j as [|j]; [reflexivity|]. cbn [nth_error Nat.eqb]. apply IH. lia.
Qed.
Lemma set_nth_length {A} (l : list A) : forall i a, List.length (set_nth l i a) = List.length l.
Proof. induction l as [|b l IH]; intros [|i] a; cbn; auto. Qed.
Lemma put_Ok {A} (l : list A) i a l' : put l i a = Ok l' ->
  List.length l' = List.length l /\ (i < List.length l)%nat /\
  forall j, nth_error l' j = if Nat.eqb j i then Some a else nth_error l j.
Proof.
  unfold put. destruct (Nat.ltb_spec i (List.length l)) as [L|L]; [|discriminate]. intros E. injection E as <-.
  split; [apply set_nth_length|]. split; [exact L|]. intros j. apply set_nth_nth, L.
Qed.
Lemma put_ok {A} (l : list A) i a : (i < List.length l)%nat -> exists l', put l i a = Ok l'.
Proof. unfold put. intros L. destruct (Nat.ltb_spec i (List.length l)); [eauto|lia]. Qed.

Lemma NoDup_app_inv {A} (l1 l2 : list A) : NoDup (l1 ++ l2) ->
  NoDup l1 /\ NoDup l2 /\ forall e, In e l1 -> ~ In e l2.
Proof.
  induction l1 as [|a l1 IH]; cbn [app]; intros N.
  - split; [constructor|]. split; [exact N|]. intros e [].
  - apply NoDup_cons_iff in N. destruct N as (Ni & N). destruct (IH N) as (A1 & A2 & A3). rewrite in_app_iff in Ni.
    split; [constructor; [tauto|exact A1]|]. split; [exact A2|]. intros e [<-|He]; [tauto|apply A3, He].
Qed.

(* ---- comparisons ---- *)
Lemma Qlt_b_true a b : Qlt_b a b = true <-> a < b.
Proof.
  unfold Qlt_b. rewrite negb_true_iff. rewrite <- not_true_iff_false, Qle_bool_iff. split; intros H.
  - apply Qnot_le_lt, H.
  - apply Qlt_not_le, H.
Qed.
Lemma Qlt_b_false a b : Qlt_b a b = false <-> b <= a.
Proof.
  unfold Qlt_b. rewrite negb_false_iff. apply Qle_bool_iff.
Qed.
Lemma Qmin_spec a b : Qmin_ a b <= a /\ Qmin_ a b <= b /\ (Qmin_ a b = a \/ Qmin_ a b = b).
Proof.
  unfold Qmin_. destruct (Qlt_b b a) eqn:E; [apply Qlt_b_true in E|apply Qlt_b_false in E].
  - split; [apply Qlt_le_weak, E|]. split; [apply Qle_refl|right; reflexivity].
  - split; [apply Qle_refl|]. split; [exact E|left; reflexivity].
Qed.

(* ---- ids ---- *)
Lemma digit_not_space c : is_digit c = true -> is_space c = false.
Proof.
  destruct c as [[] [] [] [] [] [] [] []]; vm_compute; intros H; try discriminate; reflexivity.
Qed.
Lemma stoul_numeral t i : numeral t (Z.of_N i) -> (i < 2 ^ 64)%N -> stoul t = Ok i.
Proof.
  intros N L. destruct (numeral_digits _ _ N) as (Ne & F & V). destruct t as [|c t]; [congruence|].
  unfold stoul. assert (D : is_digit c = true) by (inversion F; assumption).
  assert (Sk : skip_space (c :: t) = c :: t) by (cbn [skip_space]; rewrite (digit_not_space c D); reflexivity).
  rewrite Sk. assert (Em : Ascii.eqb c "-" = false).
  { destruct (Ascii.eqb_spec c "-") as [->|]; [discriminate D|reflexivity]. }
  assert (Ep : Ascii.eqb c "+" = false).
  { destruct (Ascii.eqb_spec c "+") as [->|]; [discriminate D|reflexivity]. }
  rewrite Em, Ep. pose proof (take_digits_all (c :: t) [] F I) as T. rewrite app_nil_r in T. rewrite T.
  cbv zeta. rewrite V, N2Z.id. change M64 with (2 ^ 64)%N. destruct (N.ltb_spec i (2 ^ 64)); [reflexivity|lia].
Qed.
Lemma numeral_inj t u v : numeral t u -> numeral t v -> u = v.
Proof.
  intros A B. destruct (numeral_digits _ _ A) as (_ & _ & <-). destruct (numeral_digits _ _ B) as (_ & _ & <-). reflexivity.
Qed.

Section Layout.
  Variable element_of : N -> option nat.
  Variable is_track : nat -> bool.

  (* ---- the nodes of the plan ---- *)
  Lemma place_node_spec l n l' :
    (rp_point n = false -> rp_coord n <> None -> exists i, numeral (rp_id n) (Z.of_N i) /\ (i < 2 ^ 64)%N) ->
    place_node element_of l n = Ok l' ->
    List.length l' = List.length l /\
    forall e, (~ places element_of n e /\ nth_error l' e = nth_error l e) \/
              (places element_of n e /\ exists p, coordinates n p /\ nth_error l' e = Some p).
  Proof.
    intros NL H. unfold place_node in H. unfold places.
    destruct (rp_point n) eqn:P.
    { injection H as <-. split; [reflexivity|]. intros e. left. split; [intros (X & _); discriminate|reflexivity]. }
    destruct (rp_coord n) as [[xt yt]|] eqn:C.
    2:{ injection H as <-. split; [reflexivity|]. intros e. left. split; [intros (_ & X & _); congruence|reflexivity]. }
    destruct NL as (i & N & L); [reflexivity|discriminate|].
    rewrite (stoul_numeral _ _ N L) in H. cbn [bind] in H. destruct (element_of i) as [e0|] eqn:E; [|discriminate].
    apply bind_Ok in H. destruct H as (p & Hp & H). apply put_Ok in H. destruct H as (Hl & _ & H).
    split; [exact Hl|]. intros e. rewrite (H e). destruct (Nat.eqb_spec e e0) as [->|Ne].
    - right. split.
      + split; [reflexivity|]. split; [discriminate|]. exists i. split; assumption.
      + exists p. split; [|reflexivity]. unfold parse_coordinates in Hp. cbn [fst snd] in Hp.
        apply bind_Ok in Hp. destruct Hp as (x & Hx & Hp). apply bind_Ok in Hp. destruct Hp as (y & Hy & Hp).
        injection Hp as <-. exists xt, yt. split; [exact C|].
        cbn [x_ y_]. split; apply parse_fp_iff; [exists x|exists y]; split; auto with *; reflexivity.
    - left. split; [|reflexivity]. intros (_ & _ & j & Hj & Ej).
      pose proof (numeral_inj _ _ _ N Hj) as X. apply N2Z.inj in X. congruence.
  Qed.

  Lemma place_nodes_spec nodes : forall l l',
    numbered_nodes nodes -> for_each (place_node element_of) l nodes = Ok l' ->
    List.length l' = List.length l /\
    forall e, ((forall m, In m nodes -> ~ places element_of m e) /\ nth_error l' e = nth_error l e) \/
              (exists before n after p, nodes = (before ++ n :: after)%list /\ places element_of n e /\
                 coordinates n p /\ (forall m, In m after -> ~ places element_of m e) /\
                 nth_error l' e = Some p).
  Proof.
    induction nodes as [|n nodes IH]; intros l l' N H; cbn [for_each] in H.
    - injection H as <-. split; [reflexivity|]. intros e. left. split; [intros m []|reflexivity].
    - apply bind_Ok in H. destruct H as (l1 & H1 & H). 
      destruct (place_node_spec _ _ _ (N n (or_introl eq_refl)) H1) as (L1 & P1).
      destruct (IH l1 l') as (L2 & P2); [intros m Hm; apply N; right; exact Hm|exact H|].
      split; [congruence|]. intros e. destruct (P2 e) as [(X & E)|(b & m & a & p & -> & X)].
      + destruct (P1 e) as [(Y & E1)|(Y & p & C & E1)].
        * left. split; [intros m [<-|Hm]; [exact Y|apply X, Hm]|]. rewrite E. exact E1.
        * right. exists [], n, nodes, p. split; [reflexivity|]. split; [exact Y|]. split; [exact C|].
          split; [exact X|]. rewrite E. exact E1.
      + right. exists (n :: b), m, a, p. split; [reflexivity|exact X].
  Qed.

  (* ---- spreading the elements on the track ---- *)
  Definition step_to (p : place) (up ltr : bool) (xt yt total : Q) (i : nat) : place :=
    mk_place (x_ p + (if ltr then xt * (inject_Z (Z.of_nat i) / (total + 1)) else - (xt * (inject_Z (Z.of_nat i) / (total + 1)))))
             (y_ p + (if up then - (yt * (inject_Z (Z.of_nat i) / (total + 1))) else yt * (inject_Z (Z.of_nat i) / (total + 1)))).

  Lemma spread_loop_spec first up ltr xt yt total es : forall idx l l' p,
    is_track first = false -> nth_error l first = Some p -> NoDup (filter is_track es) ->
    spread_loop is_track first up ltr xt yt total es idx l = Ok l' ->
    List.length l' = List.length l /\
    (forall e, ~ In e (filter is_track es) -> nth_error l' e = nth_error l e) /\
    (forall i e, nth_error (filter is_track es) i = Some e ->
       nth_error l' e = Some (step_to p up ltr xt yt total (idx + i))).
  Proof.
    induction es as [|e es IH]; intros idx l l' p T P N H; cbn [spread_loop filter] in *.
    - injection H as <-. split; [reflexivity|]. split; [reflexivity|]. intros [|i] e E; discriminate E.
    - destruct (is_track e) eqn:Te.
      + apply NoDup_cons_iff in N. destruct N as (Ni & N).
        apply bind_Ok in H. destruct H as (s & Hs & H). apply at_Ok in Hs. rewrite P in Hs. injection Hs as <-.
        cbv zeta in H. apply bind_Ok in H. destruct H as (l1 & H1 & H). apply put_Ok in H1. destruct H1 as (L1 & _ & H1).
        fold (step_to p up ltr xt yt total idx) in H1.
        assert (Nf : e <> first) by (intros ->; congruence).
        destruct (IH (S idx) l1 l' p T) as (A & B & C); [| exact N | exact H |].
        { rewrite H1. destruct (Nat.eqb_spec first e); [congruence|exact P]. }
        split; [congruence|]. split.
        * intros e' Hn. rewrite B; [|intros X; apply Hn; right; exact X]. rewrite H1.
          destruct (Nat.eqb_spec e' e) as [->|]; [exfalso; apply Hn; left; reflexivity|reflexivity].
        * intros [|i] e' E; cbn [nth_error] in E.
          -- injection E as <-. rewrite (B e Ni), H1, Nat.eqb_refl. rewrite Nat.add_0_r. reflexivity.
          -- rewrite (C i e' E). replace (S idx + i)%nat with (idx + S i)%nat by lia. reflexivity.
      + exact (IH idx l l' p T P N H).
  Qed.

  (* the step is a step on the way *)
  Lemma step_on_way p q n i :
    let s := step_to p (Qlt_b (y_ q) (y_ p)) (Qlt_b (x_ p) (x_ q)) (Qabs (x_ p - x_ q)) (Qabs (y_ p - y_ q))
               (inject_Z (Z.of_nat n)) i in
    x_ s == x_ (on_the_way p q i n) /\ y_ s == y_ (on_the_way p q i n).
  Proof.
    cbv zeta. unfold step_to, on_the_way. cbn [x_ y_].
    assert (E : inject_Z (Z.of_nat (S n)) == inject_Z (Z.of_nat n) + 1).
    { rewrite Nat2Z.inj_succ. unfold Z.succ. rewrite inject_Z_plus. reflexivity. }
    rewrite E. clear E. set (f := inject_Z (Z.of_nat i) / (inject_Z (Z.of_nat n) + 1)). split.
    - destruct (Qlt_b (x_ p) (x_ q)) eqn:L; [apply Qlt_b_true in L|apply Qlt_b_false in L].
      + rewrite Qabs_neg by lra. ring.
      + rewrite Qabs_pos by lra. ring.
    - destruct (Qlt_b (y_ q) (y_ p)) eqn:L; [apply Qlt_b_true in L|apply Qlt_b_false in L].
      + rewrite Qabs_pos by lra. ring.
      + rewrite Qabs_neg by lra. ring.
  Qed.

  Definition same_place (p q : place) : Prop := x_ p == x_ q /\ y_ p == y_ q.

  Lemma spread_section_spec l first rest l' :
    is_track first = false -> is_track (last (first :: rest) first) = false ->
    NoDup (filter is_track (first :: rest)) ->
    spread_section is_track l (first :: rest) = Ok l' ->
    exists p q, nth_error l first = Some p /\ nth_error l (last (first :: rest) first) = Some q /\
    List.length l' = List.length l /\
    (forall e, ~ In e (filter is_track (first :: rest)) -> nth_error l' e = nth_error l e) /\
    (forall i e, nth_error (filter is_track (first :: rest)) i = Some e ->
       exists r, nth_error l' e = Some r /\ same_place r (on_the_way p q i (List.length (first :: rest)))).
  Proof.
    intros T1 T2 N H. unfold spread_section in H. apply bind_Ok in H. destruct H as (p & Hp & H).
    apply bind_Ok in H. destruct H as (q & Hq & H). apply at_Ok in Hp, Hq.
    destruct (spread_loop_spec _ _ _ _ _ _ _ _ _ _ _ T1 Hp N H) as (A & B & C).
    exists p, q. split; [exact Hp|]. split; [exact Hq|]. split; [exact A|]. split; [exact B|].
    intros i e E. eexists. split; [exact (C i e E)|]. apply step_on_way.
  Qed.

  Lemma spread_spec sections : forall l l',
    sections_ok is_track sections -> (forall sec, In sec sections -> sec <> []) ->
    calculate_track_element_coords is_track l sections = Ok l' ->
    List.length l' = List.length l /\
    (forall e, ~ In e (flat_map (filter is_track) sections) -> nth_error l' e = nth_error l e) /\
    (forall first rest i e, In (first :: rest) sections -> nth_error (filter is_track (first :: rest)) i = Some e ->
       exists p q r, nth_error l first = Some p /\ nth_error l (last (first :: rest) first) = Some q /\
         nth_error l' e = Some r /\ same_place r (on_the_way p q i (List.length (first :: rest)))).
  Proof.
    unfold calculate_track_element_coords.
    induction sections as [|sec sections IH]; intros l l' S Ne H; cbn [for_each] in H.
    - injection H as <-. split; [reflexivity|]. split; [reflexivity|]. intros first rest i e [].
    - apply bind_Ok in H. destruct H as (l1 & H1 & H). destruct S as (S1 & S2).
      cbn [flat_map] in S2. destruct sec as [|first rest]; [exfalso; exact (Ne [] (or_introl eq_refl) eq_refl)|].
      destruct (NoDup_app_inv _ _ S2) as (NA & NB & ND).
      destruct (S1 first rest (or_introl eq_refl)) as (T1 & T2).
      destruct (spread_section_spec _ _ _ _ T1 T2 NA H1) as (p & q & Hp & Hq & A & B & C).
      destruct (IH l1 l') as (A' & B' & C'); [split; [intros f r Hf; apply S1; right; exact Hf|exact NB]|
        intros s Hs; apply Ne; right; exact Hs|exact H|].
      assert (Un : forall e, is_track e = false -> nth_error l1 e = nth_error l e).
      { intros e X. apply B. intros Y. apply filter_In in Y. destruct Y. congruence. }
      split; [congruence|]. split.
      + intros e Hn. cbn [flat_map] in Hn. rewrite B', B; [reflexivity| |]; intros X; apply Hn; apply in_or_app; tauto.
      + intros f r i e [Hf|Hf] E.
        * injection Hf as <- <-. destruct (C i e E) as (z & Hz & Sz). exists p, q, z. split; [exact Hp|]. split; [exact Hq|].
          split; [|exact Sz]. rewrite B'; [exact Hz|]. apply ND. eapply nth_error_In, E.
        * destruct (C' f r i e Hf E) as (p' & q' & z & Hp' & Hq' & Hz & Sz).
          destruct (S1 f r (or_intror Hf)) as (U1 & U2). rewrite (Un _ U1) in Hp'. rewrite (Un _ U2) in Hq'.
          exists p', q', z. auto.
  Qed.

  (* ---- moving the stations to the corner ---- *)
  Lemma min_loop_spec l es : forall m r, min_loop l es m = Ok r ->
    x_ r <= x_ m /\ y_ r <= y_ m /\
    (forall e, In e es -> exists p, nth_error l e = Some p /\ x_ r <= x_ p /\ y_ r <= y_ p) /\
    (x_ r = x_ m \/ exists e p, In e es /\ nth_error l e = Some p /\ x_ r = x_ p) /\
    (y_ r = y_ m \/ exists e p, In e es /\ nth_error l e = Some p /\ y_ r = y_ p).
  Proof.
    induction es as [|e es IH]; intros m r H; cbn [min_loop] in H.
    - injection H as <-. split; [apply Qle_refl|]. split; [apply Qle_refl|]. split; [intros e []|]. split; left; reflexivity.
    - apply bind_Ok in H. destruct H as (p & Hp & H). apply at_Ok in Hp. apply IH in H. cbn [x_ y_] in H.
      destruct H as (A & B & C & D & E). destruct (Qmin_spec (x_ m) (x_ p)) as (X1 & X2 & X3).
      destruct (Qmin_spec (y_ m) (y_ p)) as (Y1 & Y2 & Y3).
      split; [lra|]. split; [lra|]. split; [|split].
      + intros e' [<-|He]; [|apply C, He]. exists p. split; [exact Hp|]. split; lra.
      + destruct D as [D|(e' & p' & I' & D)]; [|right; exists e', p'; split; [right; exact I'|exact D]].
        rewrite D. destruct X3 as [->| ->]; [left; reflexivity|right]. exists e, p. split; [left; reflexivity|auto].
      + destruct E as [D'|(e' & p' & I' & D')]; [|right; exists e', p'; split; [right; exact I'|exact D']].
        rewrite D'. destruct Y3 as [->| ->]; [left; reflexivity|right]. exists e, p. split; [left; reflexivity|auto].
  Qed.

  Definition moved (m p : place) : place := mk_place (x_ p - x_ m) (y_ p - y_ m).
  Lemma sub_loop_spec m es : forall l l', NoDup es ->
    for_each (fun l e => do p <- at_ l e; put l e (moved m p)) l es = Ok l' ->
    List.length l' = List.length l /\
    (forall e, ~ In e es -> nth_error l' e = nth_error l e) /\
    (forall e, In e es -> exists p, nth_error l e = Some p /\ nth_error l' e = Some (moved m p)).
  Proof.
    induction es as [|e es IH]; intros l l' N H; cbn [for_each] in H.
    - injection H as <-. split; [reflexivity|]. split; [reflexivity|]. intros e [].
    - apply NoDup_cons_iff in N. destruct N as (Ni & N). apply bind_Ok in H. destruct H as (l1 & H1 & H).
      apply bind_Ok in H1. destruct H1 as (p & Hp & H1). apply at_Ok in Hp. apply put_Ok in H1. destruct H1 as (L1 & _ & H1).
      destruct (IH l1 l' N H) as (A & B & C). split; [congruence|]. split.
      + intros e' X. rewrite B by (intros Y; apply X; right; exact Y). rewrite H1.
        destruct (Nat.eqb_spec e' e) as [->|]; [exfalso; apply X; left; reflexivity|reflexivity].
      + intros e' [<-|He].
        * exists p. split; [exact Hp|]. rewrite (B e Ni), H1, Nat.eqb_refl. reflexivity.
        * destruct (C e' He) as (p' & Hp' & Hq). exists p'. split; [|exact Hq]. rewrite H1 in Hp'.
          destruct (Nat.eqb_spec e' e) as [->|]; [contradiction|exact Hp'].
  Qed.

  Lemma adjust_spec stations : forall l l', NoDup (concat stations) ->
    adjust_coordinates l stations = Ok l' ->
    List.length l' = List.length l /\
    (forall e, ~ In e (concat stations) -> nth_error l' e = nth_error l e) /\
    (forall st, In st stations -> exists m,
       x_ m <= MAX_DOUBLE /\ y_ m <= MAX_DOUBLE /\
       (forall e, In e st -> exists p, nth_error l e = Some p /\ nth_error l' e = Some (moved m p) /\ x_ m <= x_ p /\ y_ m <= y_ p) /\
       (x_ m = MAX_DOUBLE \/ exists e p, In e st /\ nth_error l e = Some p /\ x_ m = x_ p) /\
       (y_ m = MAX_DOUBLE \/ exists e p, In e st /\ nth_error l e = Some p /\ y_ m = y_ p)).
  Proof.
    unfold adjust_coordinates. induction stations as [|st stations IH]; intros l l' N H; cbn [for_each] in H.
    - injection H as <-. split; [reflexivity|]. split; [reflexivity|]. intros st [].
    - apply bind_Ok in H. destruct H as (l1 & H1 & H). cbn [concat] in N.
      destruct (NoDup_app_inv _ _ N) as (NA & NB & ND).
      unfold adjust_station in H1. apply bind_Ok in H1. destruct H1 as (m & Hm & H1). apply min_loop_spec in Hm.
      destruct Hm as (M1 & M2 & M3 & M4 & M5). cbn [unplaced x_ y_] in M1, M2, M4, M5.
      destruct (sub_loop_spec m st l l1 NA H1) as (A & B & C). destruct (IH l1 l' NB H) as (A' & B' & C').
      split; [congruence|]. split.
      + intros e X. cbn [concat] in X. rewrite B', B; [reflexivity| |]; intros Y; apply X; apply in_or_app; tauto.
      + intros s [<-|Hs].
        * exists m. split; [exact M1|]. split; [exact M2|]. split; [|split; assumption]. intros e He.
          destruct (C e He) as (p & Hp & Hq). exists p. split; [exact Hp|]. rewrite (B' e (ND e He)). split; [exact Hq|].
          destruct (M3 e He) as (p' & Hp' & X). rewrite Hp in Hp'. injection Hp' as <-. exact X.
        * destruct (C' s Hs) as (m' & U1 & U2 & U3 & U4 & U5).
          assert (Un : forall e, In e s -> nth_error l1 e = nth_error l e).
          { intros e He. apply B. intros X. apply (ND e X). apply in_concat. exists s. split; assumption. }
          exists m'. split; [exact U1|]. split; [exact U2|]. split; [|split].
          -- intros e He. destruct (U3 e He) as (p & Hp & X). rewrite (Un e He) in Hp. exists p. split; assumption.
          -- destruct U4 as [U4|(e & p & He & Hp & E)]; [left; exact U4|right]. rewrite (Un e He) in Hp. exists e, p. auto.
          -- destruct U5 as [U5|(e & p & He & Hp & E)]; [left; exact U5|right]. rewrite (Un e He) in Hp. exists e, p. auto.
  Qed.

  (* ---- all together ---- *)
  Variables (nodes : list rp_node) (sections stations : list (list nat)) (count : nat).
  Hypothesis Nn : numbered_nodes nodes.
  Hypothesis So : sections_ok is_track sections.
  Hypothesis Sn : NoDup (concat stations).

  Lemma coordinates_det n p q : coordinates n p -> coordinates n q -> same_place p q.
  Proof.
    intros (xt & yt & E & A & B) (xt' & yt' & E' & A' & B'). rewrite E in E'. injection E' as <- <-.
    split; eapply fp_text_det; eassumption.
  Qed.

  Lemma split_last {A} (P : A -> Prop) a : forall b1 (x1 : A) a1 b2 x2 a2,
    a = (b1 ++ x1 :: a1)%list -> a = (b2 ++ x2 :: a2)%list ->
    P x1 -> P x2 -> (forall m, In m a1 -> ~ P m) -> (forall m, In m a2 -> ~ P m) -> x1 = x2.
  Proof.
    induction a as [|y a IH]; intros b1 x1 a1 b2 x2 a2 E1 E2 P1 P2 N1 N2.
    - destruct b1; discriminate.
    - destruct b1 as [|z1 b1], b2 as [|z2 b2]; cbn [app] in E1, E2; injection E1 as E1a E1; injection E2 as E2a E2.
      + congruence.
      + exfalso. subst a1. apply (N1 x2); [rewrite E2; apply in_or_app; right; left; reflexivity|exact P2].
      + exfalso. subst a2. apply (N2 x1); [rewrite E1; apply in_or_app; right; left; reflexivity|exact P1].
      + exact (IH _ _ _ _ _ _ E1 E2 P1 P2 N1 N2).
  Qed.

  Lemma last_nonempty (l : layout) sec : forall l', In sec sections ->
    calculate_track_element_coords is_track l sections = Ok l' -> sec <> [].
  Proof.
    unfold calculate_track_element_coords. clear So. revert l. induction sections as [|s ss IH]; intros l l' I H; [destruct I|].
    cbn [for_each] in H. apply bind_Ok in H. destruct H as (l1 & H1 & H). destruct I as [<-|I].
    - intros ->. discriminate H1.
    - exact (IH l1 l' I H).
  Qed.

  Lemma get_layout_drawn l : get_layout element_of is_track nodes stations sections count = Ok l ->
    exists raw, adjust_coordinates raw stations = Ok l /\ List.length raw = count /\
      forall e p, (e < count)%nat -> drawn element_of is_track nodes sections e p ->
        exists q, nth_error raw e = Some q /\ same_place q p.
  Proof.
    intros H. unfold get_layout in H. apply bind_Ok in H. destruct H as (l1 & H1 & H).
    apply bind_Ok in H. destruct H as (l2 & H2 & H).
    destruct (place_nodes_spec _ _ _ Nn H1) as (L1 & P1).
    assert (Ne : forall sec, In sec sections -> sec <> []) by (intros sec Hs; eapply last_nonempty; eassumption).
    destruct (spread_spec _ _ _ So Ne H2) as (L2 & P2 & P3).
    rewrite repeat_length in L1. exists l2. split; [exact H|]. split; [congruence|].
    assert (X : forall e p, drawn element_of is_track nodes sections e p ->
      (is_track e = false -> forall q, nth_error l1 e = Some q -> same_place q p) /\
      ((e < count)%nat -> exists q, nth_error l2 e = Some q /\ same_place q p)).
    { intros e p D.
      assert (G : is_track e = false -> (forall q, nth_error l1 e = Some q -> same_place q p) ->
        ((e < count)%nat -> exists q, nth_error l2 e = Some q /\ same_place q p)).
      { intros T F L. rewrite (P2 e).
        - destruct (nth_error l1 e) as [q|] eqn:E; [exists q; split; [reflexivity|apply F; reflexivity]|].
          apply nth_error_None in E. lia.
        - intros X. apply in_flat_map in X. destruct X as (sec & _ & X). apply filter_In in X. destruct X. congruence. }
      induction D as [e before n after p E Pl C Na T|e No T|e first rest p q i I D1 IH1 D2 IH2 Hi].
      - assert (F : forall q, nth_error l1 e = Some q -> same_place q p).
        { intros q Hq. destruct (P1 e) as [(X & _)|(b & n' & a & p' & E' & Pl' & C' & Na' & Hp')].
          - exfalso. apply (X n); [rewrite E; apply in_or_app; right; left; reflexivity|exact Pl].
          - rewrite Hq in Hp'. injection Hp' as <-.
            assert (n = n') as <-.
            { apply (split_last (fun m => places element_of m e) nodes before n after b n' a); assumption. }
            eapply coordinates_det; eassumption. }
        split; [intros _; exact F|exact (G T F)].
      - assert (F : forall q, nth_error l1 e = Some q -> same_place q unplaced).
        { intros q Hq. destruct (P1 e) as [(_ & E)|(b & n' & a & p' & E' & Pl' & _)].
          - rewrite E in Hq. apply nth_error_In, repeat_spec in Hq. subst q. split; reflexivity.
          - exfalso. apply (No n'); [rewrite E'; apply in_or_app; right; left; reflexivity|exact Pl']. }
        split; [intros _; exact F|exact (G T F)].
      - assert (Te : is_track e = true).
        { apply nth_error_In in Hi. apply filter_In in Hi. apply Hi. }
        split; [intros X; congruence|]. intros _. clear G.
        destruct (P3 first rest i e I Hi) as (p' & q' & r & Hp' & Hq' & Hr & Sr).
        destruct (proj1 So first rest I) as (T1 & T2).
        assert (Sp : same_place p' p).
        { apply IH1; [|exact T1|exact Hp']. intros _ F L. rewrite (P2 first).
          - rewrite Hp'. exists p'. split; [reflexivity|apply F, Hp'].
          - intros X. apply in_flat_map in X. destruct X as (sec & _ & X). apply filter_In in X. destruct X. congruence. }
        assert (Sq : same_place q' q).
        { apply IH2; [|exact T2|exact Hq']. intros _ F L. rewrite (P2 (last (first :: rest) first)).
          - rewrite Hq'. exists q'. split; [reflexivity|apply F, Hq'].
          - intros X. apply in_flat_map in X. destruct X as (sec & _ & X). apply filter_In in X. destruct X. congruence. }
        exists r. split; [exact Hr|]. destruct Sr as (Sx & Sy), Sp as (Px & Py), Sq as (Qx & Qy).
        unfold on_the_way in *. cbn [x_ y_] in *. split; [rewrite Sx, Px, Qx|rewrite Sy, Py, Qy]; reflexivity. }
    intros e p L D. exact (proj2 (X e p D) L).
  Qed.

  Lemma adjusted_in_range l : get_layout element_of is_track nodes stations sections count = Ok l ->
    forall st e, In st stations -> In e st -> (e < count)%nat.
  Proof.
    intros H st e Hs He. unfold get_layout in H. apply bind_Ok in H. destruct H as (l1 & H1 & H).
    apply bind_Ok in H. destruct H as (l2 & H2 & H).
    destruct (place_nodes_spec _ _ _ Nn H1) as (L1 & _).
    assert (Ne : forall sec, In sec sections -> sec <> []) by (intros sec Hx; eapply last_nonempty; eassumption).
    destruct (spread_spec _ _ _ So Ne H2) as (L2 & _). rewrite repeat_length in L1.
    destruct (adjust_spec _ _ _ Sn H) as (_ & _ & A). destruct (A st Hs) as (m & _ & _ & A' & _).
    destruct (A' e He) as (p & Hp & _). assert (e < List.length l2)%nat; [|lia]. apply nth_error_Some. congruence.
  Qed.
End Layout.
