(* The interlocking routes generated from the station routes. *)
From Coq Require Import Sorted Permutation ZifyBool ZifyNat ZifyN.
From Verif Require Import Base AlgoModel AlgoProofs Par RouteModel RouteProofs RouteSpec RouteIter RouteIndex.

Lemma at_nth {A} (l : list A) i d : i < length l -> at_ l i = Ok (nth i l d).
Proof. intros L. apply at_some. apply nth_error_nth'. exact L. Qed.

Section GEN.
  Variable srs : list sroute.
  Variable g : srgraph.
  Hypothesis GO : graph_ok srs g.
  Hypothesis AI : all_indexable srs.

  Definition ends (s : nat) : Prop := mains srs s <> [] \/ succ_of g s = [].
  Definition starts (s : nat) : Prop := mains srs s <> [] \/ pred_of g s = [].
  Definition end_of (t : nat) : nat := match mains srs t with m :: _ => S m | [] => sr_len srs t end.

  Inductive run : nat -> list nat -> nat -> Prop :=
  | run_end s : ~ etcs srs s -> ends s -> run s [] s
  | run_step s u mid t : ~ etcs srs s -> ~ ends s -> In u (succ_of g s) -> run u mid t -> run s (s :: mid) t.

  Lemma sr_get s : s < length srs -> exists r, sr_of srs s = Some r /\ at_ srs s = Ok r /\
    mains srs s = sr_main r /\ (etcs srs s <-> sr_requires_etcs r = true) /\ sr_size r = Ok (sr_len srs s).
  Proof.
    intros L. destruct (at_lt srs s L) as [r [E Ea]]. exists r. split; [exact E|]. split; [exact Ea|].
    split; [unfold mains, sr_of; rewrite E; reflexivity|]. split.
    - unfold etcs. split; [intros [r' [E' H]]; unfold sr_of in E'; congruence|]. intros H. exists r. auto.
    - apply (size_len srs s r E). apply (AI s r E).
  Qed.
  Lemma succ_at s : s < length srs -> at_ (g_succ g) s = Ok (succ_of g s).
  Proof. intros L. apply at_nth. rewrite (go_succ _ _ GO). exact L. Qed.
  Lemma pred_at s : s < length srs -> at_ (g_pred g) s = Ok (pred_of g s).
  Proof. intros L. apply at_nth. rewrite (go_pred _ _ GO). exact L. Qed.

  Lemma nilb {A} (l : list A) : (match l with [] => true | _ => false end) = true <-> l = [].
  Proof. destruct l; split; congruence. Qed.

  Lemma can_end_ok s r : s < length srs -> mains srs s = sr_main r ->
    exists b, can_end r g s = Ok b /\ (b = true <-> ends s).
  Proof.
    intros L E. unfold can_end. rewrite (succ_at s L). cbn [bind]. eexists. split; [reflexivity|].
    unfold ends. rewrite E. destruct (sr_main r) as [|m ms]; destruct (succ_of g s) as [|q qs]; cbn; split; intros H; try reflexivity;
      try discriminate; try (destruct H as [H|H]; congruence); try (left; discriminate). right. reflexivity.
  Qed.
  Lemma can_start_ok s r : s < length srs -> mains srs s = sr_main r ->
    exists b, can_start r g s = Ok b /\ (b = true <-> starts s).
  Proof.
    intros L E. unfold can_start. rewrite (pred_at s L). cbn [bind]. eexists. split; [reflexivity|].
    unfold starts. rewrite E. destruct (sr_main r) as [|m ms]; destruct (pred_of g s) as [|q qs]; cbn; split; intros H; try reflexivity;
      try discriminate; try (destruct H as [H|H]; congruence); try (left; discriminate). right. reflexivity.
  Qed.

  Lemma fill_paths_spec fuel : forall start path s l, s < length srs ->
    fill_paths srs g fuel start path s = Ok l ->
    forall r, In r l <-> exists mid t, run s mid t /\ r = mkir 0 start (end_of t) (path ++ mid ++ [t]).
  Proof.
    induction fuel as [|fuel IH]; intros start path s l L E r; [discriminate E|]. cbn [fill_paths] in E.
    destruct (sr_get s L) as [sr [Es [Ea [Em [Ee Ez]]]]]. rewrite Ea in E. cbn [bind] in E.
    destruct (sr_requires_etcs sr) eqn:EE.
    - injection E as <-. split; [intros []|]. intros [mid [t [R _]]].
      assert (etcs srs s) by (apply Ee; reflexivity). inversion R; subst; contradiction.
    - assert (NE : ~ etcs srs s) by (intros H; apply Ee in H; discriminate H).
      destruct (can_end_ok s sr L Em) as [b [Eb Hb]]. rewrite Eb in E. cbn [bind] in E.
      destruct b.
      + assert (EN : ends s) by (apply Hb; reflexivity).
        assert (EL : l = [mkir 0 start (end_of s) (path ++ [s])]).
        { unfold end_of. rewrite Em. destruct (sr_main sr); [rewrite Ez in E; cbn [bind] in E|]; congruence. }
        subst l. split.
        * intros [<-|[]]. exists [], s. split; [constructor; assumption|reflexivity].
        * intros [mid [t [R ->]]]. inversion R; subst; [left; reflexivity|contradiction].
      + assert (EN : ~ ends s) by (intros H; apply Hb in H; discriminate H).
        rewrite (succ_at s L) in E. cbn [bind] in E. apply bind_Ok in E as [ls [Els E]]. injection E as <-.
        apply mapM_Forall2 in Els. rewrite in_concat. split.
        * intros [x [Ix Ir]]. destruct (Forall2_in_r _ _ _ Els x Ix) as [u [Iu Eu]].
          apply (IH start (path ++ [s]) u x (go_range _ _ GO s u Iu) Eu) in Ir.
          destruct Ir as [mid [t [R ->]]]. exists (s :: mid), t. split; [econstructor; eassumption|].
          rewrite <- app_assoc. reflexivity.
        * intros [mid [t [R ->]]]. inversion R as [|? u mid' ? N1 N2 Iu R']; subst; [contradiction|].
          destruct (Forall2_in_l _ _ _ Els u Iu) as [x [Ix Ex]]. exists x. split; [exact Ix|].
          apply (IH start (path ++ [s]) u x (go_range _ _ GO s u Iu) Ex). exists mid', t. split; [exact R'|].
          rewrite <- app_assoc. reflexivity.
  Qed.

  (* ---- fuel ---- *)
  Definition terminating (rank : nat -> nat) : Prop :=
    forall s t, In t (succ_of g s) -> mains srs s = [] -> ~ etcs srs s -> rank t < rank s.

  Lemma fill_paths_total rank : terminating rank -> forall fuel start path s, s < length srs -> rank s < fuel ->
    exists l, fill_paths srs g fuel start path s = Ok l.
  Proof.
    intros T. induction fuel as [|fuel IH]; intros start path s L R; [lia|]. cbn [fill_paths].
    destruct (sr_get s L) as [sr [Es [Ea [Em [Ee Ez]]]]]. rewrite Ea. cbn [bind].
    destruct (sr_requires_etcs sr) eqn:EE; [eexists; reflexivity|].
    assert (NE : ~ etcs srs s) by (intros H; apply Ee in H; discriminate H).
    destruct (can_end_ok s sr L Em) as [b [Eb Hb]]. rewrite Eb. cbn [bind]. destruct b.
    - destruct (sr_main sr); [rewrite Ez; cbn [bind]|]; eexists; reflexivity.
    - rewrite (succ_at s L). cbn [bind].
      assert (NM : mains srs s = []).
      { destruct (mains srs s) as [|m ms] eqn:EM; [reflexivity|]. exfalso.
        assert (false = true) by (apply Hb; left; rewrite EM; discriminate). discriminate. }
      destruct (mapM_ok (fill_paths srs g fuel start (path ++ [s])) (succ_of g s)) as [ls [Els _]].
      { intros u Iu. apply IH; [apply (go_range _ _ GO s u Iu)|]. specialize (T s u Iu NM NE). lia. }
      rewrite Els. eexists. reflexivity.
  Qed.

  Lemma cross_spec fuel s l : s < length srs -> starts s -> routes_from_sr srs g fuel s = Ok l ->
    forall r, In r l <-> exists u mid t, In u (succ_of g s) /\ run u mid t /\
      r = mkir 0 (last (mains srs s) 0) (end_of t) (s :: mid ++ [t]).
  Proof.
    intros L ST E r. unfold routes_from_sr in E. destruct (sr_get s L) as [sr [Es [Ea [Em _]]]].
    rewrite Ea in E. cbn [bind] in E. destruct (can_start_ok s sr L Em) as [b [Eb Hb]]. rewrite Eb in E.
    cbn [bind] in E. assert (b = true) by (apply Hb; exact ST). subst b. cbn [sassert bind] in E.
    rewrite (succ_at s L) in E. cbn [bind] in E. apply bind_Ok in E as [ls [Els E]]. injection E as <-.
    apply mapM_Forall2 in Els. rewrite in_concat, Em. split.
    - intros [x [Ix Ir]]. destruct (Forall2_in_r _ _ _ Els x Ix) as [u [Iu Eu]].
      apply (fill_paths_spec fuel _ _ u x (go_range _ _ GO s u Iu) Eu) in Ir.
      destruct Ir as [mid [t [R ->]]]. exists u, mid, t. auto.
    - intros [u [mid [t [Iu [R ->]]]]]. destruct (Forall2_in_l _ _ _ Els u Iu) as [x [Ix Ex]].
      exists x. split; [exact Ix|]. apply (fill_paths_spec fuel _ _ u x (go_range _ _ GO s u Iu) Ex).
      exists mid, t. auto.
  Qed.

  Lemma internal_spec s ms r : In r (internal_routes s ms) <->
    exists m1 x y m2, ms = m1 ++ x :: y :: m2 /\ r = mkir 0 x (S y) [s].
  Proof.
    induction ms as [|a ms IH]; [split; [intros []|intros [m1 [x [y [m2 [E _]]]]]; destruct m1; discriminate E]|].
    destruct ms as [|b ms].
    - split; [intros []|]. intros [[|z m1] [x [y [m2 [E _]]]]]; [discriminate E|].
      injection E as _ E. destruct m1; discriminate E.
    - change (internal_routes s (a :: b :: ms)) with (mkir 0 a (S b) [s] :: internal_routes s (b :: ms)).
      cbn [In]. rewrite IH. split.
      + intros [<-|[m1 [x [y [m2 [E ->]]]]]]; [exists [], a, b, ms; auto|].
        exists (a :: m1), x, y, m2. split; [rewrite E; reflexivity|reflexivity].
      + intros [[|z m1] [x [y [m2 [E ->]]]]].
        * injection E as -> -> ->. left. reflexivity.
        * injection E as -> E. right. exists m1, x, y, m2. auto.
  Qed.

  Definition of_sr (s : nat) (r : iroute) : Prop :=
    (starts s /\ ~ etcs srs s /\ exists u mid t, In u (succ_of g s) /\ run u mid t /\
       r = mkir 0 (last (mains srs s) 0) (end_of t) (s :: mid ++ [t])) \/
    (exists m1 x y m2, mains srs s = m1 ++ x :: y :: m2 /\ r = mkir 0 x (S y) [s]) \/
    (exists x m, pred_of g s = [] /\ mains srs s = x :: m /\ r = mkir 0 0 (S x) [s]) \/
    (succ_of g s = [] /\ mains srs s <> [] /\ r = mkir 0 (last (mains srs s) 0) (sr_len srs s) [s]).

  Lemma routes_of_sr_spec fuel s l : s < length srs -> routes_of_sr srs g fuel s = Ok l ->
    forall r, In r l <-> of_sr s r.
  Proof.
    intros L E r. unfold routes_of_sr in E. destruct (sr_get s L) as [sr [Es [Ea [Em [Ee Ez]]]]].
    rewrite Ea in E. cbn [bind] in E. destruct (can_start_ok s sr L Em) as [c [Ec Hc]]. rewrite Ec in E.
    cbn [bind] in E. apply bind_Ok in E as [a [E1 E]]. rewrite (pred_at s L), (succ_at s L) in E. cbn [bind] in E.
    apply bind_Ok in E as [trail [E2 E]]. injection E as <-. rewrite !in_app_iff. unfold of_sr.
    assert (A : In r a <-> (starts s /\ ~ etcs srs s /\ exists u mid t, In u (succ_of g s) /\ run u mid t /\
       r = mkir 0 (last (mains srs s) 0) (end_of t) (s :: mid ++ [t]))).
    { destruct c; cbn [andb] in E1.
      - assert (ST : starts s) by (apply Hc; reflexivity).
        destruct (sr_requires_etcs sr) eqn:EE; cbn [negb] in E1.
        + injection E1 as <-. split; [intros []|]. intros [_ [N _]]. exfalso. apply N. apply Ee. reflexivity.
        + assert (NE : ~ etcs srs s) by (intros H; apply Ee in H; discriminate H).
          rewrite (cross_spec fuel s a L ST E1 r). tauto.
      - injection E1 as <-. split; [intros []|]. intros [ST _]. apply Hc in ST. discriminate ST. }
    assert (B : In r (if Nat.ltb 1 (length (sr_main sr)) then internal_routes s (sr_main sr) else []) <->
                (exists m1 x y m2, mains srs s = m1 ++ x :: y :: m2 /\ r = mkir 0 x (S y) [s])).
    { rewrite <- Em. destruct (Nat.ltb_spec 1 (length (mains srs s))) as [L1|L1]; [apply internal_spec|].
      split; [intros []|]. intros [m1 [x [y [m2 [Eq _]]]]]. rewrite Eq, app_length in L1. cbn in L1. lia. }
    assert (C : In r (match sr_main sr, pred_of g s with m :: _, [] => [mkir 0 0 (S m) [s]] | _, _ => [] end) <->
                (exists x m, pred_of g s = [] /\ mains srs s = x :: m /\ r = mkir 0 0 (S x) [s])).
    { rewrite <- Em. destruct (mains srs s) as [|m ms]; [split; [intros []|intros [x [m [_ [Eq _]]]]; discriminate Eq]|].
      destruct (pred_of g s) as [|p ps]; [|split; [intros []|intros [x [m' [Eq _]]]; discriminate Eq]].
      split.
      - intros [<-|[]]. exists m, ms. auto.
      - intros [x [m' [_ [Eq ->]]]]. injection Eq as -> ->. left. reflexivity. }
    assert (D : In r trail <-> (succ_of g s = [] /\ mains srs s <> [] /\ r = mkir 0 (last (mains srs s) 0) (sr_len srs s) [s])).
    { rewrite <- Em in E2. destruct (mains srs s) as [|m ms].
      - injection E2 as <-. split; [intros []|]. intros [_ [N _]]. congruence.
      - destruct (succ_of g s) as [|q qs].
        + rewrite Ez in E2. cbn [bind] in E2. injection E2 as <-. split.
          * intros [<-|[]]. split; [reflexivity|]. split; [discriminate|reflexivity].
          * intros [_ [_ ->]]. left. reflexivity.
        + injection E2 as <-. split; [intros []|]. intros [N _]. discriminate N. }
    rewrite A, B, C, D. tauto.
  Qed.

  Lemma routes_of_sr_total rank fuel s : terminating rank -> (forall t, t < length srs -> rank t < fuel) ->
    s < length srs -> exists l, routes_of_sr srs g fuel s = Ok l.
  Proof.
    intros T R L. unfold routes_of_sr. destruct (sr_get s L) as [sr [Es [Ea [Em [Ee Ez]]]]].
    rewrite Ea. cbn [bind]. destruct (can_start_ok s sr L Em) as [c [Ec Hc]]. rewrite Ec. cbn [bind].
    assert (A : exists a, (if c && negb (sr_requires_etcs sr) then routes_from_sr srs g fuel s else Ok []) = Ok a).
    { destruct (c && negb (sr_requires_etcs sr)) eqn:EC; [|eexists; reflexivity].
      apply andb_true_iff in EC as [-> _]. unfold routes_from_sr. rewrite Ea. cbn [bind]. rewrite Ec.
      cbn [sassert bind]. rewrite (succ_at s L). cbn [bind].
      destruct (mapM_ok (fill_paths srs g fuel (last (sr_main sr) 0) [s]) (succ_of g s)) as [ls [Els _]].
      { intros u Iu. pose proof (go_range _ _ GO s u Iu) as Lu. apply (fill_paths_total rank T fuel _ _ u Lu (R u Lu)). }
      rewrite Els. eexists. reflexivity. }
    destruct A as [a Ea']. rewrite Ea'. cbn [bind]. rewrite (pred_at s L), (succ_at s L). cbn [bind].
    destruct (sr_main sr); [eexists; reflexivity|]. destruct (succ_of g s); [|eexists; reflexivity].
    rewrite Ez. cbn [bind]. eexists. reflexivity.
  Qed.

  (* ---- from runs to the specification ---- *)
  Lemma run_ends s mid t : run s mid t -> s < length srs -> ends t /\ ~ etcs srs t /\ t < length srs /\
    hd t mid = s /\ connected g (mid ++ [t]) /\
    (forall x, In x mid -> ~ etcs srs x /\ ~ ends x /\ x < length srs).
  Proof.
    induction 1 as [s NE EN|s u mid t NE EN Iu R IH]; intros L.
    - split; [exact EN|]. split; [exact NE|]. split; [exact L|]. split; [reflexivity|]. split; [exact I|intros x []].
    - destruct (IH (go_range _ _ GO s u Iu)) as [A [B [B' [C [D F]]]]]. split; [exact A|]. split; [exact B|].
      split; [exact B'|]. split; [reflexivity|]. split.
      + cbn [app]. destruct mid as [|v mid]; cbn in C |- *; subst; split; assumption.
      + intros x [<-|I]; [auto|apply F; exact I].
  Qed.

  Lemma run_make mid : forall s t, hd t mid = s -> connected g (mid ++ [t]) -> ends t -> ~ etcs srs t ->
    (forall x, In x mid -> ~ etcs srs x /\ ~ ends x) -> run s mid t.
  Proof.
    induction mid as [|a mid IH]; intros s t H C E NE F.
    - cbn in H. subst s. constructor; assumption.
    - cbn in H. subst a. destruct (F s (or_introl eq_refl)) as [F1 F2].
      destruct mid as [|b mid].
      + cbn in C. apply run_step with t; try tauto. constructor; assumption.
      + cbn [app connected] in C. destruct C as [C1 C2]. apply run_step with b; try assumption.
        apply IH; try assumption; [reflexivity|]. intros x I. apply F. right. exact I.
  Qed.

  Lemma ends_not x : ~ ends x <-> mains srs x = [] /\ succ_of g x <> [].
  Proof.
    unfold ends. split.
    - intros N. split; [destruct (mains srs x); [reflexivity|exfalso; apply N; left; discriminate]|].
      intros E. apply N. right. exact E.
    - intros [A B] [C|C]; contradiction.
  Qed.

  Lemma of_sr_crossing r : (exists s, s < length srs /\ starts s /\ ~ etcs srs s /\ exists u mid t, In u (succ_of g s) /\ run u mid t /\
       r = mkir 0 (last (mains srs s) 0) (end_of t) (s :: mid ++ [t])) <->
    ir_id r = 0%N /\ crossing_route srs g (ir_start r) (ir_end r) (ir_srs r).
  Proof.
    split.
    - intros [s [L [ST [NE [u [mid [t [Iu [R ->]]]]]]]]]. cbn [ir_id ir_start ir_end ir_srs]. split; [reflexivity|].
      destruct (run_ends u mid t R (go_range _ _ GO s u Iu)) as [A [B [B' [C [D F]]]]].
      exists s, mid, t. split; [reflexivity|]. split.
      { destruct mid as [|v mid]; cbn in C |- *; subst; split; assumption. }
      split. { intros x [<-|I]; [exact NE|]. apply in_app_or in I as [I|[<-|[]]]; [apply F; exact I|exact B]. }
      split; [exact ST|]. split. { intros x I. apply ends_not. apply F. exact I. }
      split; [exact A|]. split; [reflexivity|]. unfold end_of. destruct (mains srs t); reflexivity.
    - destruct r as [id a b l]. cbn [ir_id ir_start ir_end ir_srs].
      intros [-> [s [mid [t [-> [C [NE [ST [M [EN [-> ->]]]]]]]]]]].
      assert (U : exists u, hd t mid = u /\ In u (succ_of g s) /\ connected g (mid ++ [t])).
      { destruct mid as [|v mid]; cbn in C |- *; eexists; (split; [reflexivity|]); tauto. }
      destruct U as [u [Hu [Iu Cu]]].
      assert (L : s < length srs).
      { destruct (Nat.lt_ge_cases s (length srs)) as [L|L]; [exact L|]. exfalso.
        unfold succ_of in Iu. rewrite nth_overflow in Iu; [exact Iu|]. rewrite (go_succ _ _ GO). exact L. }
      exists s. split; [exact L|]. split; [exact ST|]. split; [apply NE; left; reflexivity|].
      exists u, mid, t. split; [exact Iu|]. split.
      + apply run_make; try assumption.
        * apply NE. right. apply in_or_app. right. left. reflexivity.
        * intros x I. split; [apply NE; right; apply in_or_app; left; exact I|]. apply ends_not. apply M. exact I.
      + unfold end_of. destruct (mains srs t); reflexivity.
  Qed.

  Lemma mains_lt s m : In m (mains srs s) -> s < length srs.
  Proof.
    unfold mains, sr_of. destruct (nth_error srs s) eqn:E; [|intros []]. intros _. apply nth_error_Some. congruence.
  Qed.

  Lemma of_sr_spec r : (exists s, s < length srs /\ of_sr s r) <->
    ir_id r = 0%N /\ signal_to_signal srs g (ir_start r) (ir_end r) (ir_srs r).
  Proof.
    unfold signal_to_signal, of_sr. split.
    - intros [s [L [A|[B|[C|D]]]]].
      + assert (X : ir_id r = 0%N /\ crossing_route srs g (ir_start r) (ir_end r) (ir_srs r)).
        { apply of_sr_crossing. exists s. tauto. }
        tauto.
      + destruct B as [m1 [x [y [m2 [E ->]]]]]. split; [reflexivity|]. right. left. exists s, m1, x, y, m2. auto.
      + destruct C as [x [m [P [E ->]]]]. split; [reflexivity|]. right. right. left. exists s, x, m. cbn. auto 6.
      + destruct D as [P [E ->]]. split; [reflexivity|]. right. right. right. exists s. cbn. auto 6.
    - intros [Z [A|[B|[C|D]]]].
      + assert (X := proj2 (of_sr_crossing r) (conj Z A)). destruct X as [s [L X]]. exists s. tauto.
      + destruct B as [s [m1 [x [y [m2 [El [E [Ea Eb]]]]]]]]. exists s. split.
        * apply (mains_lt s x). rewrite E. apply in_or_app. right. left. reflexivity.
        * right. left. exists m1, x, y, m2. split; [exact E|]. destruct r; cbn in *; congruence.
      + destruct C as [s [x [m [El [L [P [E [Ea Eb]]]]]]]]. exists s. split; [exact L|]. right. right. left.
        exists x, m. split; [exact P|]. split; [exact E|]. destruct r; cbn in *; congruence.
      + destruct D as [s [El [L [P [E [Ea Eb]]]]]]. exists s. split; [exact L|]. right. right. right.
        split; [exact P|]. split; [exact E|]. destruct r; cbn in *; congruence.
  Qed.

  (* ---- ids ---- *)
  Lemma set_ids_nth l k r : nth_error (set_ids l) k = Some r <->
    exists r0, nth_error l k = Some r0 /\ r = mkir (N.of_nat k) (ir_start r0) (ir_end r0) (ir_srs r0).
  Proof.
    unfold set_ids. rewrite nth_error_map.
    assert (H : forall (l : list iroute) a k, nth_error (combine (seq a (length l)) l) k =
      match nth_error l k with Some r0 => Some (a + k, r0) | None => None end).
    { induction l0 as [|x l0 IH]; intros a [|j]; cbn [length seq combine nth_error]; try reflexivity.
      - rewrite Nat.add_0_r. reflexivity.
      - rewrite IH. destruct (nth_error l0 j); [do 2 f_equal; lia|reflexivity]. }
    rewrite H. destruct (nth_error l k) as [r0|]; cbn [option_map fst snd].
    - split; [intros E; injection E as <-; exists r0; auto|]. intros [r1 [E ->]]. injection E as <-. reflexivity.
    - split; [discriminate|]. intros [r1 [E _]]. discriminate E.
  Qed.

  Lemma gen_spec fuel irs : get_interlocking_routes srs g fuel = Ok irs ->
    (forall k r, nth_error irs k = Some r -> ir_id r = N.of_nat k) /\
    (forall a b l, (exists id, In (mkir id a b l) irs) <-> signal_to_signal srs g a b l).
  Proof.
    intros E. unfold get_interlocking_routes in E. apply bind_Ok in E as [ls [Els E]]. injection E as <-.
    apply mapM_Forall2 in Els. split.
    - intros k r Er. apply set_ids_nth in Er as [r0 [_ ->]]. reflexivity.
    - assert (H0 : forall r, In r (concat ls) <-> exists s, s < length srs /\ of_sr s r).
      { intros r. rewrite in_concat. split.
        - intros [x [Ix Ir]]. destruct (Forall2_in_r _ _ _ Els x Ix) as [s [Is Es]]. apply in_seq in Is.
          exists s. split; [lia|]. apply (routes_of_sr_spec fuel s x); [lia|exact Es|exact Ir].
        - intros [s [L O]]. destruct (Forall2_in_l _ _ _ Els s) as [x [Ix Ex]]; [apply in_seq; lia|].
          exists x. split; [exact Ix|]. apply (routes_of_sr_spec fuel s x L Ex). exact O. }
      intros a b l. split.
      + intros [id I]. apply In_nth_error in I as [k Ek]. apply set_ids_nth in Ek as [r0 [E0 Er]].
        injection Er as -> -> -> ->. apply nth_error_In, H0, of_sr_spec in E0. apply E0.
      + intros S. assert (I : In (mkir 0 a b l) (concat ls)).
        { apply H0, of_sr_spec. split; [reflexivity|exact S]. }
        apply In_nth_error in I as [k Ek]. exists (N.of_nat k). apply nth_error_In with k. apply set_ids_nth.
        exists (mkir 0 a b l). auto.
  Qed.

  Lemma gen_total rank fuel : terminating rank -> (forall t, t < length srs -> rank t < fuel) ->
    exists irs, get_interlocking_routes srs g fuel = Ok irs.
  Proof.
    intros T R. unfold get_interlocking_routes.
    destruct (mapM_ok (routes_of_sr srs g fuel) (seq 0 (length srs))) as [ls [Els _]].
    { intros s I. apply in_seq in I. apply (routes_of_sr_total rank); [exact T|exact R|lia]. }
    rewrite Els. eexists. reflexivity.
  Qed.

  (* ---- shape of the generated routes ---- *)
  Hypothesis MR : forall s m, In m (mains srs s) -> m < sr_len srs s.
  Hypothesis MS : forall s, StronglySorted lt (mains srs s).
  Hypothesis NZ : forall s, s < length srs -> 0 < sr_len srs s.

  Lemma last_in (l : list nat) d : l <> [] -> In (last l d) l.
  Proof.
    induction l as [|a l IH]; [congruence|]. intros _. destruct l as [|b l]; [left; reflexivity|].
    right. apply IH. discriminate.
  Qed.
  Lemma last_max (l : list nat) : StronglySorted lt l -> forall x, In x l -> x <= last l 0.
  Proof.
    intros SO. destruct l as [|a l] using rev_ind; [intros x []|]. rewrite last_last. intros x I.
    apply in_app_or in I as [I|[->|[]]]; [|lia].
    apply in_split in I as [l1 [l2 ->]].
    assert (H : x < a).
    { apply (SS_nth lt _ SO (length l1) (length (l1 ++ x :: l2))).
      - rewrite app_length. cbn. lia.
      - rewrite <- app_assoc. rewrite nth_error_app2 by lia. rewrite Nat.sub_diag. reflexivity.
      - rewrite nth_error_app2 by lia. rewrite Nat.sub_diag. reflexivity. }
    lia.
  Qed.
  Lemma head_min a (l : list nat) : StronglySorted lt (a :: l) -> forall x, In x (a :: l) -> a <= x.
  Proof.
    intros SO x [<-|I]; [lia|]. inversion SO as [|? ? _ F]; subst. rewrite Forall_forall in F. specialize (F x I). lia.
  Qed.

  Lemma valid_of (l : list nat) : (forall s, In s l -> s < length srs) -> valid_srs srs l.
  Proof.
    intros H s I. destruct (at_lt srs s (H s I)) as [r [E _]]. exists r. split; [exact E|]. apply (AI s r E).
  Qed.

  Lemma last_main_lt s : s < length srs -> last (mains srs s) 0 < sr_len srs s.
  Proof.
    intros L. destruct (mains srs s) as [|m ms] eqn:E; [apply NZ; exact L|].
    rewrite <- E. apply MR. apply last_in. rewrite E. discriminate.
  Qed.

  Lemma crossing_valid a b l : crossing_route srs g a b l -> forall x, In x l -> x < length srs.
  Proof.
    intros [s [mid [t [-> [C _]]]]] x I.
    assert (G : forall l x, connected g l -> 1 < length l -> In x l -> x < length srs).
    { clear -GO. induction l as [|a l IH]; intros x C L I; [destruct I|].
      destruct l as [|b l]; [cbn in L; lia|]. cbn [connected] in C. destruct C as [C1 C2].
      destruct I as [<-|I].
      - destruct (Nat.lt_ge_cases a (length srs)) as [La|La]; [exact La|]. exfalso.
        unfold succ_of in C1. rewrite nth_overflow in C1; [exact C1|]. rewrite (go_succ _ _ GO). exact La.
      - destruct l as [|c l].
        + destruct I as [<-|[]]. apply (go_range _ _ GO a). exact C1.
        + apply IH; [exact C2|cbn; lia|exact I]. }
    apply (G _ x C); [cbn; rewrite app_length; cbn; lia|exact I].
  Qed.

  Lemma generated_proper id a b l : signal_to_signal srs g a b l -> proper srs (mkir id a b l).
  Proof.
    intros H. destruct H as [A|[B|[C|D]]].
    - pose proof (crossing_valid _ _ _ A) as V.
      destruct A as [s [mid [t [-> [C [NE [ST [M [EN [-> ->]]]]]]]]]].
      assert (Ls : s < length srs) by (apply V; left; reflexivity).
      assert (Lt : t < length srs) by (apply V; right; apply in_or_app; right; left; reflexivity).
      assert (EE : 0 < match mains srs t with m :: _ => S m | [] => sr_len srs t end <= sr_len srs t).
      { destruct (mains srs t) as [|m ms] eqn:E; [specialize (NZ t Lt); lia|].
        assert (m < sr_len srs t) by (apply MR; rewrite E; left; reflexivity). lia. }
      assert (EL : last (s :: mid ++ [t]) 0 = t).
      { change (s :: mid ++ [t]) with ((s :: mid) ++ [t]). apply last_last. }
      pose proof (last_main_lt s Ls) as LM.
      assert (W : wf_ir srs (mkir id (last (mains srs s) 0)
                 (match mains srs t with m :: _ => S m | [] => sr_len srs t end) (s :: mid ++ [t]))).
      { constructor; cbn [ir_srs ir_start ir_end hd].
        - discriminate.
        - apply valid_of. exact V.
        - lia.
        - rewrite EL. lia.
        - cbn. rewrite app_length. cbn. lia. }
      split; [exact W|]. split; [|split; [cbn [ir_start ir_srs hd]; exact LM|cbn [ir_end]; lia]].
      rewrite ir_cells_multi by lia. intros Eq. apply (f_equal (@length _)) in Eq.
      rewrite !app_length, !pairs_length in Eq. cbn [length] in Eq. lia.
    - destruct B as [s [m1 [x [y [m2 [-> [E [-> ->]]]]]]]].
      assert (Lx : x < y).
      { pose proof (MS s) as SO. rewrite E in SO. apply (SS_nth lt _ SO (length m1) (S (length m1))); [lia| |].
        - rewrite nth_error_app2 by lia. rewrite Nat.sub_diag. reflexivity.
        - rewrite nth_error_app2 by lia. replace (S (length m1) - length m1) with 1 by lia. reflexivity. }
      assert (Iy : In y (mains srs s)) by (rewrite E; apply in_or_app; right; right; left; reflexivity).
      pose proof (MR s y Iy) as Ly. pose proof (mains_lt s y Iy) as Ls.
      split; [|split; [rewrite ir_cells_single by lia; intros Eq; apply (f_equal (@length _)) in Eq;
                       rewrite pairs_length in Eq; cbn [length] in Eq; lia|split; cbn [ir_start ir_end ir_srs hd]; lia]].
      constructor; cbn [ir_srs ir_start ir_end hd last length]; try lia; [discriminate|].
      apply valid_of. intros z [<-|[]]. exact Ls.
    - destruct C as [s [x [m [-> [L [P [E [-> ->]]]]]]]].
      assert (Ix : In x (mains srs s)) by (rewrite E; left; reflexivity).
      pose proof (MR s x Ix) as Lx.
      split; [|split; [rewrite ir_cells_single by lia; intros Eq; apply (f_equal (@length _)) in Eq;
                       rewrite pairs_length in Eq; cbn [length] in Eq; lia|split; cbn [ir_start ir_end ir_srs hd]; lia]].
      constructor; cbn [ir_srs ir_start ir_end hd last length]; try lia; [discriminate|].
      apply valid_of. intros z [<-|[]]. exact L.
    - destruct D as [s [-> [L [P [E [-> ->]]]]]].
      pose proof (last_main_lt s L) as LM.
      split; [|split; [rewrite ir_cells_single by lia; intros Eq; apply (f_equal (@length _)) in Eq;
                       rewrite pairs_length in Eq; cbn [length] in Eq; lia|split; cbn [ir_start ir_end ir_srs hd]; lia]].
      constructor; cbn [ir_srs ir_start ir_end hd last length]; try lia; [discriminate|].
      apply valid_of. intros z [<-|[]]. exact L.
  Qed.

  (* ---- no signal strictly inside ---- *)
  Definition inside (cs : list cell) (c : cell) : Prop :=
    exists c1 l1 l2 c2, cs = (c1 :: l1) ++ c :: l2 ++ [c2].

  Lemma inside_mid x m y c : inside (x :: m ++ [y]) c -> In c m.
  Proof.
    intros [c1 [l1 [l2 [c2 E]]]]. cbn [app] in E. injection E as _ E.
    change (c :: l2 ++ [c2]) with ((c :: l2) ++ [c2]) in E. rewrite app_assoc in E.
    apply app_inj_tail in E as [-> _]. apply in_or_app. right. left. reflexivity.
  Qed.
  Lemma inside_short x c : ~ inside [x] c.
  Proof. intros [c1 [l1 [l2 [c2 E]]]]. injection E as _ E. destruct l1; [destruct l2|]; discriminate E. Qed.

  Lemma pairs_S s a n : pairs s a (S n) = (s, a) :: pairs s (S a) n.
  Proof. reflexivity. Qed.
  Lemma pairs_snoc s a n : pairs s a (S n) = pairs s a n ++ [(s, a + n)].
  Proof. replace (S n) with (n + 1) by lia. apply pairs_app. Qed.
  Lemma inside_pairs s a n c : inside (pairs s a n) c -> fst c = s /\ a < snd c < a + n - 1.
  Proof.
    destruct n as [|[|n]].
    - intros [c1 [l1 [l2 [c2 E]]]]. discriminate E.
    - intros I. destruct (inside_short _ _ I).
    - rewrite pairs_S, pairs_snoc. intros I. apply inside_mid in I. apply in_pairs in I. lia.
  Qed.

  Lemma no_signal_inside id a b l c : signal_to_signal srs g a b l ->
    inside (ir_cells srs (mkir id a b l)) c -> ~ In (snd c) (mains srs (fst c)).
  Proof.
    intros H IN IM. pose proof (generated_proper id a b l H) as [W _]. destruct H as [A|[B|[C|D]]].
    - pose proof (crossing_valid _ _ _ A) as V.
      destruct A as [s [mid [t [-> [C [NE [ST [M [EN [-> ->]]]]]]]]]].
      destruct (wf_multi _ _ _ _ _ _ _ W) as [_ [L1 L2]].
      rewrite ir_cells_multi in IN by assumption.
      assert (Ls : s < length srs) by (apply V; left; reflexivity).
      assert (Lt : t < length srs) by (apply V; right; apply in_or_app; right; left; reflexivity).
      pose proof (last_main_lt s Ls) as LM.
      destruct (sr_len srs s - last (mains srs s) 0) as [|n] eqn:En; [lia|].
      assert (EE : exists e, match mains srs t with m :: _ => S m | [] => sr_len srs t end = S e).
      { destruct (mains srs t) as [|m ms]; [|exists m; reflexivity].
        specialize (NZ t Lt). exists (sr_len srs t - 1). lia. }
      destruct EE as [e Ee]. rewrite Ee in IN. rewrite pairs_S, (pairs_snoc t 0 e) in IN.
      rewrite <- app_comm_cons in IN. rewrite !app_assoc in IN. apply inside_mid in IN.
      apply in_app_or in IN as [IN|IN]; [apply in_app_or in IN as [IN|IN]|].
      + apply in_pairs in IN as [Ef Lc]. rewrite Ef in IM. pose proof (last_max _ (MS s) _ IM). lia.
      + apply in_cells_of in IN as [Im _]. destruct (M _ Im) as [Em _]. rewrite Em in IM. destruct IM.
      + apply in_pairs in IN as [Ef Lc]. rewrite Ef in IM. pose proof (MS t) as MSt.
        destruct (mains srs t) as [|m ms] eqn:Em; [destruct IM|].
        pose proof (head_min _ _ MSt _ IM). lia.
    - destruct B as [s [m1 [x [y [m2 [-> [E [-> ->]]]]]]]].
      destruct W as [_ _ _ W2 W3]. cbn [ir_srs ir_start ir_end hd last length] in *.
      rewrite ir_cells_single in IN by (try apply W3; auto). apply inside_pairs in IN as [Ef Lc].
      rewrite Ef, E in IM. pose proof (MS s) as SO. rewrite E in SO.
      apply In_nth_error in IM as [k Ek].
      assert (Ex : nth_error (m1 ++ x :: y :: m2) (length m1) = Some x).
      { rewrite nth_error_app2 by lia. rewrite Nat.sub_diag. reflexivity. }
      assert (Ey : nth_error (m1 ++ x :: y :: m2) (S (length m1)) = Some y).
      { rewrite nth_error_app2 by lia. replace (S (length m1) - length m1) with 1 by lia. reflexivity. }
      destruct (Nat.lt_trichotomy k (length m1)) as [K|[K|K]].
      + pose proof (SS_nth lt _ SO _ _ _ _ K Ek Ex). lia.
      + subst k. assert (snd c = x) by congruence. lia.
      + destruct (Nat.eq_dec k (S (length m1))) as [K'|K'].
        * subst k. assert (snd c = y) by congruence. specialize (W3 eq_refl). lia.
        * assert (K2 : S (length m1) < k) by lia. pose proof (SS_nth lt _ SO _ _ _ _ K2 Ey Ek). lia.
    - destruct C as [s [x [m [-> [L [P [E [-> ->]]]]]]]].
      destruct W as [_ _ _ W2 W3]. cbn [ir_srs ir_start ir_end hd last length] in *.
      rewrite ir_cells_single in IN by (try apply W3; auto). apply inside_pairs in IN as [Ef Lc].
      rewrite Ef, E in IM. pose proof (MS s) as SO. rewrite E in SO. pose proof (head_min _ _ SO _ IM). lia.
    - destruct D as [s [-> [L [P [E [-> ->]]]]]].
      destruct W as [_ _ _ W2 W3]. cbn [ir_srs ir_start ir_end hd last length] in *.
      rewrite ir_cells_single in IN by (try apply W3; auto). apply inside_pairs in IN as [Ef Lc].
      rewrite Ef in IM. pose proof (last_max _ (MS s) _ IM). lia.
  Qed.
End GEN.
