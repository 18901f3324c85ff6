(* The tables of the interlocking system. *)
From Coq Require Import Sorted Permutation ZifyBool ZifyNat ZifyN.
From Verif Require Import Base AlgoModel AlgoProofs Par RouteModel RouteProofs RouteSpec RouteIter.

Definition hits (k : nat) (ps : list (N * N)) : list N :=
  map snd (filter (fun p => Nat.eqb (N.to_nat (fst p)) k) ps).

Lemma in_hits k ps v : In v (hits k ps) <-> In (N.of_nat k, v) ps.
Proof.
  unfold hits. rewrite in_map_iff. split.
  - intros [[a b] [<- I]]. apply filter_In in I as [I E]. cbn in *. apply Nat.eqb_eq in E.
    replace (N.of_nat k) with a by lia. exact I.
  - intros I. exists (N.of_nat k, v). split; [reflexivity|]. apply filter_In. split; [exact I|].
    cbn. apply Nat.eqb_eq. lia.
Qed.

Lemma hits_NoDup k ps : NoDup ps -> NoDup (hits k ps).
Proof.
  unfold hits. induction 1 as [|[a b] ps N ND IH]; cbn [filter map]; [constructor|].
  destruct (Nat.eqb_spec (N.to_nat (fst (a, b))) k) as [E|E]; [|exact IH].
  cbn [map snd fst] in *. constructor; [|exact IH]. intros I. apply N.
  apply (in_hits k ps b) in I. replace a with (N.of_nat k) by lia. exact I.
Qed.

Lemma fill_ok ps : forall t, Forall (fun p => N.to_nat (fst p) < length t) ps ->
  exists t', fill ps t = Ok t' /\ length t' = length t /\
    forall k row, nth_error t' k = Some row ->
      exists row0, nth_error t k = Some row0 /\ row = row0 ++ hits k ps.
Proof.
  induction ps as [|[a b] ps IH]; intros t F.
  - exists t. split; [reflexivity|]. split; [reflexivity|]. intros k row E. exists row.
    split; [exact E|]. cbn. symmetry. apply app_nil_r.
  - inversion F as [|? ? F0 F1]; subst. cbn [fst] in F0.
    destruct (at_lt t (N.to_nat a) F0) as [row [Er Ea]].
    destruct (IH (upd t (N.to_nat a) (row ++ [b]))) as [t' [Et [Lt Ht]]].
    { rewrite upd_length. exact F1. }
    exists t'. cbn [fill]. rewrite Ea. cbn [bind]. split; [exact Et|]. rewrite upd_length in Lt. split; [exact Lt|].
    intros k rw E. destruct (Ht k rw E) as [row0 [E0 ->]]. unfold hits at 2. cbn [filter fst].
    destruct (Nat.eqb_spec (N.to_nat a) k) as [Ek|Nk].
    + subst k. rewrite nth_error_upd_same in E0 by exact F0. injection E0 as <-.
      exists row. split; [exact Er|]. cbn [map snd]. rewrite <- app_assoc. reflexivity.
    + rewrite nth_error_upd_other in E0 by lia. exists row0. split; [exact E0|]. reflexivity.
Qed.

Lemma total_cons r t : total (r :: t) = length r + total t.
Proof.
  unfold total. cbn [fold_left]. assert (H : forall (l : list (list N)) a, fold_left (fun a r => a + length r) l a =
    a + fold_left (fun a r => a + length r) l 0).
  { induction l as [|x l IH]; intros a; cbn [fold_left]; [lia|]. rewrite IH, (IH (0 + length x)). lia. }
  rewrite H. lia.
Qed.
Lemma total_upd t : forall i row x, nth_error t i = Some row ->
  total (upd t i (row ++ [x])) = S (total t).
Proof.
  induction t as [|r t IH]; intros [|i] row x E; try discriminate E.
  - injection E as ->. cbn [upd]. rewrite !total_cons, app_length. cbn. lia.
  - cbn [upd]. rewrite !total_cons. cbn in E. rewrite (IH i row x E). lia.
Qed.
Lemma fill_total ps : forall t t', fill ps t = Ok t' -> total t' = total t + length ps.
Proof.
  induction ps as [|[a b] ps IH]; intros t t' E; cbn [fill] in E.
  - injection E as <-. cbn. lia.
  - apply bind_Ok in E as [row [Er E]]. apply at_some in Er. rewrite (IH _ _ E), (total_upd _ _ _ _ Er).
    cbn. lia.
Qed.
Lemma sort_length l : length (sort_by N.leb l) = length l.
Proof. apply Permutation_length, sort_by_perm. Qed.
Lemma total_sorted t : total (sort_rows t) = total t.
Proof.
  induction t as [|r t IH]; [reflexivity|]. cbn [sort_rows map]. rewrite !total_cons, sort_length.
  unfold sort_rows in IH. rewrite IH. reflexivity.
Qed.
Lemma total_empty n : total (repeat [] n) = 0.
Proof. induction n as [|n IH]; [reflexivity|]. cbn [repeat]. rewrite total_cons, IH. reflexivity. Qed.

Lemma nth_repeat_nil (n k : nat) (row : list N) : nth_error (repeat [] n) k = Some row -> row = [].
Proof. intros E. apply nth_error_In in E. apply repeat_spec in E. exact E. Qed.

Lemma asc_NoDup_sasc l : StronglySorted N.le l -> NoDup l -> StronglySorted N.lt l.
Proof.
  induction 1 as [|a l S IH F]; intros ND; constructor.
  - apply IH. inversion ND; assumption.
  - inversion ND as [|? ? NI _]; subst. rewrite Forall_forall in *. intros x I.
    specialize (F x I). assert (a <> x) by (intros ->; contradiction). lia.
Qed.

(* a table filled from pairs and sorted *)
Lemma table_ok n ps : Forall (fun p => N.to_nat (fst p) < n) ps ->
  exists t, fill ps (repeat [] n) = Ok t /\ length t = n /\ total t = length ps /\
    (forall k row, nth_error t k = Some row -> row = hits k ps).
Proof.
  intros F. destruct (fill_ok ps (repeat [] n)) as [t [Et [Lt Ht]]]; [rewrite repeat_length; exact F|].
  exists t. rewrite repeat_length in Lt. split; [exact Et|]. split; [exact Lt|]. split.
  - rewrite (fill_total _ _ _ Et), total_empty. reflexivity.
  - intros k row E. destruct (Ht k row E) as [row0 [E0 ->]]. rewrite (nth_repeat_nil _ _ _ E0). reflexivity.
Qed.

Definition rows_spec (t : list (list N)) (ps : list (N * N)) : Prop :=
  forall k row, nth_error t k = Some row -> StronglySorted N.le row /\
    (forall v, In v row <-> In (N.of_nat k, v) ps) /\ (NoDup ps -> StronglySorted N.lt row).

Lemma sort_rows_spec t ps : (forall k row, nth_error t k = Some row -> row = hits k ps) ->
  rows_spec (sort_rows t) ps.
Proof.
  intros H k row E. unfold sort_rows in E. rewrite nth_error_map in E.
  destruct (nth_error t k) as [r0|] eqn:E0; [|discriminate E]. injection E as <-. rewrite (H k r0 E0).
  pose proof (sort_N_asc (hits k ps)) as A. pose proof (sort_by_perm N.leb (hits k ps)) as P.
  split; [exact A|]. split.
  - intros v. rewrite <- in_hits. split; apply Permutation_in; [exact P|symmetry; exact P].
  - intros ND. apply asc_NoDup_sasc; [exact A|]. apply Permutation_NoDup with (hits k ps); [symmetry; exact P|].
    apply hits_NoDup. exact ND.
Qed.

Lemma unique_rows_spec t ps : (forall k row, nth_error t k = Some row -> row = hits k ps) ->
  forall k row, nth_error (map erase_duplicates t) k = Some row -> StronglySorted N.lt row /\
    (forall v, In v row <-> In (N.of_nat k, v) ps).
Proof.
  intros H k row E. rewrite nth_error_map in E.
  destruct (nth_error t k) as [r0|] eqn:E0; [|discriminate E]. injection E as <-. rewrite (H k r0 E0).
  unfold erase_duplicates. split.
  - apply unique_sasc. apply sort_N_asc.
  - intros v. destruct (unique_In (sort_by N.leb (hits k ps))) as [U _]. rewrite U. rewrite <- in_hits.
    split; apply Permutation_in; [|symmetry]; apply sort_by_perm.
Qed.

Lemma mapM_ok {A B} (f : A -> res B) (l : list A) : (forall a, In a l -> exists b, f a = Ok b) ->
  exists bs, mapM f l = Ok bs /\ Forall2 (fun a b => f a = Ok b) l bs.
Proof.
  induction l as [|a l IH]; intros H.
  - exists []. split; [reflexivity|constructor].
  - destruct (H a (or_introl eq_refl)) as [b Eb]. destruct IH as [bs [Es Fs]]; [intros x I; apply H; right; exact I|].
    exists (b :: bs). cbn [mapM]. rewrite Eb. cbn [bind]. rewrite Es. split; [reflexivity|].
    constructor; assumption.
Qed.
Lemma mapM_Forall2 {A B} (f : A -> res B) (l : list A) : forall bs, mapM f l = Ok bs ->
  Forall2 (fun a b => f a = Ok b) l bs.
Proof.
  induction l as [|a l IH]; intros bs E; cbn [mapM] in E.
  - injection E as <-. constructor.
  - apply bind_Ok in E as [b [Eb E]]. apply bind_Ok in E as [t [Et E]]. injection E as <-.
    constructor; [exact Eb|]. apply IH. exact Et.
Qed.
Lemma Forall2_in_l {A B} (R : A -> B -> Prop) l l' : Forall2 R l l' -> forall a, In a l ->
  exists b, In b l' /\ R a b.
Proof.
  induction 1 as [|a b l l' H F IH]; intros x I; [destruct I|destruct I as [<-|I]].
  - exists b. split; [left; reflexivity|exact H].
  - destruct (IH x I) as [y [J K]]. exists y. split; [right; exact J|exact K].
Qed.
Lemma Forall2_in_r {A B} (R : A -> B -> Prop) l l' : Forall2 R l l' -> forall b, In b l' ->
  exists a, In a l /\ R a b.
Proof.
  induction 1 as [|a b l l' H F IH]; intros x I; [destruct I|destruct I as [<-|I]].
  - exists a. split; [left; reflexivity|exact H].
  - destruct (IH x I) as [y [J K]]. exists y. split; [right; exact J|exact K].
Qed.
Lemma Forall2_len {A B} (R : A -> B -> Prop) l l' : Forall2 R l l' -> length l = length l'.
Proof. induction 1; cbn; congruence. Qed.

Section INDEX.
  Variable srs : list sroute.

  Lemma cell_node_fun c n m : cell_node srs c n -> cell_node srs c m -> n = m.
  Proof. intros [r [E1 E2]] [r' [E3 E4]]. congruence. Qed.

  (* one key per route *)
  Section ONE.
    Variable key : iroute -> res N.
    Variable P : iroute -> N -> Prop.
    Hypothesis P_fun : forall r n m, P r n -> P r m -> n = m.

    Lemma one_key_table node_count irs :
      (forall r, In r irs -> exists n, key r = Ok n /\ P r n /\ N.to_nat n < node_count) ->
      exists t,
        (do ks <- mapM (fun r => do n <- key r; Ok (n, ir_id r)) irs;
         do t <- fill ks (repeat [] node_count);
         let t := sort_rows t in
         sassert (Nat.eqb (total t) (length irs)) ;; Ok t) = Ok t /\
        length t = node_count /\ lists_exactly t irs P /\
        (NoDup (map ir_id irs) -> no_repetition t).
    Proof.
      intros H.
      assert (HK : forall r, In r irs -> exists p, (do n <- key r; Ok (n, ir_id r)) = Ok p).
      { intros r I. destruct (H r I) as [n [En _]]. rewrite En. eexists. reflexivity. }
      destruct (mapM_ok _ _ HK) as [ks [Ek Fk]].
      assert (FK : Forall2 (fun r p => In r irs /\ key r = Ok (fst p) /\ snd p = ir_id r /\ P r (fst p) /\ N.to_nat (fst p) < node_count) irs ks).
      { assert (G : forall l l', Forall2 (fun r p => (do n <- key r; Ok (n, ir_id r)) = Ok p) l l' ->
          (forall r, In r l -> In r irs) -> Forall2 (fun r p => In r irs /\ key r = Ok (fst p) /\ snd p = ir_id r /\ P r (fst p) /\ N.to_nat (fst p) < node_count) l l').
        { induction 1 as [|r p l l' E F IH]; intros HI; constructor.
          - apply bind_Ok in E as [n [En E]]. injection E as <-. cbn.
            destruct (H r (HI r (or_introl eq_refl))) as [n' [En' [Pn Ln]]].
            assert (n' = n) by congruence. subst n'. split; [apply HI; left; reflexivity|]. auto.
          - apply IH. intros x I. apply HI. right. exact I. }
        apply G; [exact Fk|auto]. }
      clear Fk HK. rewrite Ek. cbn [bind].
      destruct (table_ok node_count ks) as [t [Et [Lt [Tt Ht]]]].
      { apply Forall_forall. intros p I. destruct (Forall2_in_r _ _ _ FK p I) as [r [_ [_ [_ [_ [_ L]]]]]]. exact L. }
      rewrite Et. cbn [bind]. cbv zeta. rewrite total_sorted, Tt, <- (Forall2_len _ _ _ FK), Nat.eqb_refl.
      cbn [sassert bind]. exists (sort_rows t). split; [reflexivity|].
      split; [unfold sort_rows; rewrite map_length; exact Lt|].
      pose proof (sort_rows_spec t ks Ht) as RS. split.
      - intros k row E. destruct (RS k row E) as [S [I _]]. split; [exact S|]. intros id. rewrite I. split.
        + intros J. destruct (Forall2_in_r _ _ _ FK _ J) as [r [Ir [_ [_ [Ei [Pr _]]]]]]. cbn in *.
          exists r. split; [exact Ir|]. split; [congruence|exact Pr].
        + intros [r [Ir [Ei Pr]]]. destruct (Forall2_in_l _ _ _ FK r Ir) as [[a b] [Ip [_ [_ [Eb [Pa _]]]]]].
          cbn in *. rewrite (P_fun _ _ _ Pr Pa), <- Ei, <- Eb. exact Ip.
      - intros ND k row E. apply (RS k row E).
        assert (EM : map snd ks = map ir_id irs).
        { clear -FK. induction FK as [|r p l l' H F IH]; [reflexivity|]. cbn.
          destruct H as [_ [_ [Eb _]]]. rewrite Eb, IH. reflexivity. }
        rewrite <- EM in ND. revert ND. apply NoDup_map_inv.
    Qed.
  End ONE.

  Definition proper (r : iroute) : Prop :=
    wf_ir srs r /\ ir_cells srs r <> [] /\ ir_start r < sr_len srs (hd 0 (ir_srs r)) /\ 0 < ir_end r.
  Definition nodes_below (n : nat) : Prop :=
    forall s sr x, sr_of srs s = Some sr -> In x (sr_nodes sr) -> N.to_nat x < n.

  Lemma cell_below n c x : nodes_below n -> cell_node srs c x -> N.to_nat x < n.
  Proof. intros B [r [E En]]. apply (B (fst c) r x E). apply nth_error_In in En. exact En. Qed.

  Lemma starting_at_ok n irs : Forall proper irs -> nodes_below n ->
    exists t, get_starting_at srs n irs = Ok t /\ length t = n /\
      lists_exactly t irs (starts_at srs) /\ (NoDup (map ir_id irs) -> no_repetition t).
  Proof.
    intros F B. unfold get_starting_at. apply (one_key_table (first_node srs) (starts_at srs)).
    - intros r x y. apply cell_node_fun.
    - intros r I. rewrite Forall_forall in F. destruct (F r I) as [W [NE [L _]]].
      destruct (first_node_ok srs r W NE L) as [x [Ex Cx]]. exists x. split; [exact Ex|]. split; [exact Cx|].
      apply (cell_below n _ _ B Cx).
  Qed.
  Lemma ending_at_ok n irs : Forall proper irs -> nodes_below n ->
    exists t, get_ending_at srs n irs = Ok t /\ length t = n /\
      lists_exactly t irs (ends_at srs) /\ (NoDup (map ir_id irs) -> no_repetition t).
  Proof.
    intros F B. unfold get_ending_at. apply (one_key_table (last_node srs) (ends_at srs)).
    - intros r x y. apply cell_node_fun.
    - intros r I. rewrite Forall_forall in F. destruct (F r I) as [W [NE [_ L]]].
      destruct (last_node_ok srs r W NE L) as [x [Ex Cx]]. exists x. split; [exact Ex|]. split; [exact Cx|].
      apply (cell_below n _ _ B Cx).
  Qed.

  (* ---- station routes to interlocking routes ---- *)
  Definition part_pairs (irs : list iroute) : list (N * N) :=
    concat (map (fun r => map (fun s => (N.of_nat s, ir_id r)) (ir_srs r)) irs).
  Lemma in_part_pairs irs a b : In (a, b) (part_pairs irs) <->
    exists r s, In r irs /\ ir_id r = b /\ In s (ir_srs r) /\ a = N.of_nat s.
  Proof.
    unfold part_pairs. rewrite in_concat. split.
    - intros [l [Il I]]. apply in_map_iff in Il as [r [<- Ir]]. apply in_map_iff in I as [s [E Is]].
      injection E as <- <-. exists r, s. auto.
    - intros [r [s [Ir [<- [Is ->]]]]]. eexists. split; [apply in_map_iff; exists r; split; [reflexivity|exact Ir]|].
      apply in_map_iff. exists s. auto.
  Qed.
  Lemma part_pairs_NoDup irs : NoDup (map ir_id irs) -> (forall r, In r irs -> NoDup (ir_srs r)) ->
    NoDup (part_pairs irs).
  Proof.
    unfold part_pairs. induction irs as [|r irs IH]; intros ND H; [constructor|]. cbn [map concat].
    cbn [map] in ND. inversion ND as [|? ? NI ND']; subst.
    assert (X : forall (l1 l2 : list (N * N)), NoDup l1 -> NoDup l2 -> (forall x, In x l1 -> ~ In x l2) -> NoDup (l1 ++ l2)).
    { induction l1 as [|x l1 IHl]; intros l2 A B D; [exact B|]. inversion A as [|? ? A1 A2]; subst. cbn. constructor.
      - intros J. apply in_app_or in J as [J|J]; [contradiction|]. exact (D x (or_introl eq_refl) J).
      - apply IHl; [exact A2|exact B|]. intros y J. apply D. right. exact J. }
    apply X.
    - apply FinFun.Injective_map_NoDup; [|apply H; left; reflexivity]. intros a b E. injection E. lia.
    - apply IH; [exact ND'|]. intros x I. apply H. right. exact I.
    - intros [a b] I J. apply in_map_iff in I as [s [E _]]. injection E as <- <-.
      apply NI. apply (in_part_pairs irs) in J. destruct J as [r' [s' [Ir' [Ei _]]]].
      rewrite <- Ei. apply in_map. exact Ir'.
  Qed.

  Lemma participating_ok irs : (forall r, In r irs -> valid_srs srs (ir_srs r)) ->
    exists t, get_sr_to_participating_irs srs irs = Ok t /\ length t = length srs /\
      lists_exactly t irs (fun r k => In (N.to_nat k) (ir_srs r)) /\
      (NoDup (map ir_id irs) -> (forall r, In r irs -> NoDup (ir_srs r)) -> no_repetition t).
  Proof.
    intros V. unfold get_sr_to_participating_irs. fold (part_pairs irs).
    destruct (table_ok (length srs) (part_pairs irs)) as [t [Et [Lt [_ Ht]]]].
    { apply Forall_forall. intros [a b] I. apply in_part_pairs in I as [r [s [Ir [_ [Is ->]]]]].
      cbn. destruct (V r Ir s Is) as [sr [Es _]]. rewrite Nat2N.id. apply nth_error_Some. unfold sr_of in Es. congruence. }
    rewrite Et. cbn [bind]. exists (sort_rows t). split; [reflexivity|].
    split; [unfold sort_rows; rewrite map_length; exact Lt|].
    pose proof (sort_rows_spec t _ Ht) as RS. split.
    - intros k row E. destruct (RS k row E) as [S [I _]]. split; [exact S|]. intros id. rewrite I, in_part_pairs, Nat2N.id.
      split.
      + intros [r [s [Ir [Ei [Is Ek]]]]]. exists r. replace k with s by lia. auto.
      + intros [r [Ir [Ei Is]]]. exists r, k. auto.
    - intros N1 N2 k row E. apply (RS k row E). apply part_pairs_NoDup; assumption.
  Qed.

  (* ---- stations to interlocking routes ---- *)
  Lemma station_to_irs_ok n irs : (forall r, In r irs -> valid_srs srs (ir_srs r)) ->
    (forall s sr, sr_of srs s = Some sr -> N.to_nat (sr_station sr) < n) ->
    exists t, get_station_to_irs srs n irs = Ok t /\ length t = n /\
      lists_exactly t irs (through_station srs) /\ no_repetition t.
  Proof.
    intros V B. unfold get_station_to_irs.
    set (f := fun r : iroute => mapM (fun s : nat => do sr <- at_ srs s; Ok (sr_station sr, ir_id r)) (ir_srs r)).
    assert (HF : forall r, In r irs -> exists l, f r = Ok l).
    { intros r Ir. unfold f. destruct (mapM_ok (fun s => do sr <- at_ srs s; Ok (sr_station sr, ir_id r)) (ir_srs r)) as [l [El _]].
      - intros s Is. destruct (V r Ir s Is) as [sr [Es _]]. unfold sr_of in Es. apply at_some in Es.
        rewrite Es. eexists. reflexivity.
      - exists l. exact El. }
    destruct (mapM_ok f irs HF) as [ks [Ek Fk]]. rewrite Ek. cbn [bind].
    assert (IN : forall a b, In (a, b) (concat ks) <-> exists r, In r irs /\ ir_id r = b /\ through_station srs r a).
    { intros a b. rewrite in_concat. split.
      - intros [l [Il I]]. destruct (Forall2_in_r _ _ _ Fk l Il) as [r [Ir El]]. unfold f in El.
        apply mapM_Forall2 in El. destruct (Forall2_in_r _ _ _ El _ I) as [s [Is Es]].
        apply bind_Ok in Es as [sr [Esr E]]. injection E as <- <-. apply at_some in Esr.
        exists r. split; [exact Ir|]. split; [reflexivity|]. exists s, sr. auto.
      - intros [r [Ir [<- [s [sr [Is [Es <-]]]]]]]. destruct (Forall2_in_l _ _ _ Fk r Ir) as [l [Il El]].
        exists l. split; [exact Il|]. unfold f in El. apply mapM_Forall2 in El.
        destruct (Forall2_in_l _ _ _ El s Is) as [p [Ip Ep]]. unfold sr_of in Es. apply at_some in Es.
        rewrite Es in Ep. cbn [bind] in Ep. injection Ep as <-. exact Ip. }
    destruct (table_ok n (concat ks)) as [t [Et [Lt [_ Ht]]]].
    { apply Forall_forall. intros [a b] I. apply IN in I as [r [Ir [_ [s [sr [Is [Es <-]]]]]]]. cbn.
      apply (B s). exact Es. }
    rewrite Et. cbn [bind]. exists (map erase_duplicates t). split; [reflexivity|].
    split; [rewrite map_length; exact Lt|]. pose proof (unique_rows_spec t _ Ht) as RS. split.
    - intros k row E. destruct (RS k row E) as [S I]. split; [apply sasc_asc; exact S|].
      intros id. rewrite I. apply IN.
    - intros k row E. apply (RS k row E).
  Qed.

  (* ---- halts ---- *)
  Lemma halt_key_ok s from to h id sr : sr_of srs s = Some sr -> to <= sr_len srs s ->
    exists l, halt_key srs (s, from, to) h id = Ok l /\
      forall a b, In (a, b) l <-> b = id /\ exists i, h = Some i /\ from <= i < to /\ cell_node srs (s, i) a.
  Proof.
    intros E L. unfold halt_key. destruct h as [i|].
    - destruct (Nat.leb_spec from i) as [L1|L1]; [destruct (Nat.ltb_spec i to) as [L2|L2]|]; cbn [andb].
      + pose proof E as E'. unfold sr_of in E'. apply at_some in E'. rewrite E'. cbn [bind].
        unfold sr_len in L. rewrite E in L. destruct (at_lt (sr_nodes sr) i) as [x [Ex Ea]]; [lia|].
        unfold sr_node. rewrite Ea. cbn [bind]. eexists. split; [reflexivity|]. intros a b. split.
        * intros [Eq|[]]. injection Eq as <- <-. split; [reflexivity|]. exists i. split; [reflexivity|]. split; [lia|].
          exists sr. auto.
        * intros [-> [j [Ej [_ [r' [Er' En]]]]]]. injection Ej as <-. cbn [fst snd] in Er', En.
          assert (r' = sr) by congruence. subst r'. assert (x = a) by congruence. subst x. left. reflexivity.
      + eexists. split; [reflexivity|]. intros a b. split; [intros []|]. intros [_ [j [Ej [? _]]]]. injection Ej as <-. lia.
      + eexists. split; [reflexivity|]. intros a b. split; [intros []|]. intros [_ [j [Ej [? _]]]]. injection Ej as <-. lia.
    - eexists. split; [reflexivity|]. intros a b. split; [intros []|]. intros [_ [j [Ej _]]]. discriminate Ej.
  Qed.

  Lemma halt_keys_ok r : wf_ir srs r -> exists l, halt_keys srs r = Ok l /\
    forall a b, In (a, b) l <-> b = ir_id r /\ halts_at srs r a.
  Proof.
    intros W. destruct (sub_paths_ok srs r W) as [sps [Es [Cs Is]]].
    unfold halt_keys. rewrite Es. cbn [bind].
    set (f := fun sp : nat * nat * nat => do sr <- at_ srs (fst (fst sp));
               do a <- halt_key srs sp (sr_passenger_halt sr) (ir_id r);
               do b <- halt_key srs sp (sr_freight_halt sr) (ir_id r); Ok (a ++ b)).
    assert (HF : forall sp, In sp sps -> exists l, f sp = Ok l /\ forall a b, In (a, b) l <->
      b = ir_id r /\ exists c sr, In c (sub_cells sp) /\ sr_of srs (fst c) = Some sr /\ cell_node srs c a /\
        (sr_passenger_halt sr = Some (snd c) \/ sr_freight_halt sr = Some (snd c))).
    { intros [[s from] to] Isp. destruct (Is s from to Isp) as [I L].
      destruct (wf_srs _ _ W s I) as [sr [E _]]. unfold f. cbn [fst].
      pose proof E as E'. unfold sr_of in E'. apply at_some in E'. rewrite E'. cbn [bind].
      destruct (halt_key_ok s from to (sr_passenger_halt sr) (ir_id r) sr E L) as [l1 [E1 H1]].
      destruct (halt_key_ok s from to (sr_freight_halt sr) (ir_id r) sr E L) as [l2 [E2 H2]].
      rewrite E1. cbn [bind]. rewrite E2. cbn [bind]. eexists. split; [reflexivity|].
      intros a b. rewrite in_app_iff, H1, H2. split.
      - intros [[-> [i [Ei [Li Ci]]]]|[-> [i [Ei [Li Ci]]]]]; (split; [reflexivity|]);
          exists (s, i), sr; (split; [apply in_pairs; cbn; lia|]); (split; [exact E|]); (split; [exact Ci|]); cbn; auto.
      - intros [-> [c [sr' [Ic [Er' [Cc Hc]]]]]]. apply in_pairs in Ic as [Ef Lc]. destruct c as [s' i]. cbn [fst snd] in *.
        subst s'. assert (sr' = sr) by congruence. subst sr'.
        destruct Hc as [Hc|Hc]; [left|right]; (split; [reflexivity|]); exists i; (split; [exact Hc|]); (split; [lia|exact Cc]). }
    destruct (mapM_ok f sps) as [ls [Els Fls]]; [intros sp I; destruct (HF sp I) as [l [El _]]; exists l; exact El|].
    rewrite Els. cbn [bind]. eexists. split; [reflexivity|]. intros a b. unfold halts_at. rewrite <- Cs. split.
    - intros I. apply in_concat in I as [l [Il I]]. destruct (Forall2_in_r _ _ _ Fls l Il) as [sp [Isp Esp]].
      destruct (HF sp Isp) as [l' [El' H']]. assert (l' = l) by (cbv beta in *; congruence). subst l'.
      apply H' in I. destruct I as [Eb [c [sr [Ic R]]]]. split; [exact Eb|]. exists c, sr. split; [|exact R].
      apply in_concat. exists (sub_cells sp). split; [apply in_map; exact Isp|exact Ic].
    - intros [-> [c [sr [Ic R]]]]. apply in_concat in Ic as [x [Ix Ic]]. apply in_map_iff in Ix as [sp [<- Isp]].
      destruct (HF sp Isp) as [l [El H]]. apply in_concat. exists l.
      split; [destruct (Forall2_in_l _ _ _ Fls sp Isp) as [l' [Il' El']]; assert (l' = l) by (cbv beta in *; congruence); subst l'; exact Il'|].
      apply H. split; [reflexivity|]. exists c, sr. split; [exact Ic|exact R].
  Qed.

  Lemma halting_at_ok n irs : (forall r, In r irs -> wf_ir srs r) -> nodes_below n ->
    exists t, get_halting_at srs n irs = Ok t /\ length t = n /\ lists_exactly t irs (halts_at srs).
  Proof.
    intros W B. unfold get_halting_at.
    destruct (mapM_ok (halt_keys srs) irs) as [ks [Ek Fk]].
    { intros r I. destruct (halt_keys_ok r (W r I)) as [l [El _]]. exists l. exact El. }
    rewrite Ek. cbn [bind].
    assert (IN : forall a b, In (a, b) (concat ks) <-> exists r, In r irs /\ ir_id r = b /\ halts_at srs r a).
    { intros a b. rewrite in_concat. split.
      - intros [l [Il I]]. destruct (Forall2_in_r _ _ _ Fk l Il) as [r [Ir El]].
        destruct (halt_keys_ok r (W r Ir)) as [l' [El' H']]. assert (l' = l) by (cbv beta in *; congruence). subst l'.
        apply H' in I. destruct I as [Eb Hr]. exists r. auto.
      - intros [r [Ir [<- Hr]]]. destruct (Forall2_in_l _ _ _ Fk r Ir) as [l [Il El]].
        destruct (halt_keys_ok r (W r Ir)) as [l' [El' H']]. assert (l' = l) by (cbv beta in *; congruence). subst l'.
        exists l. split; [exact Il|]. apply H'. auto. }
    destruct (table_ok n (concat ks)) as [t [Et [Lt [_ Ht]]]].
    { apply Forall_forall. intros [a b] I. apply IN in I as [r [Ir [_ [c [sr [_ [_ [Cn _]]]]]]]]. cbn.
      exact (cell_below n c a B Cn). }
    rewrite Et. cbn [bind]. exists (sort_rows t). split; [reflexivity|].
    split; [unfold sort_rows; rewrite map_length; exact Lt|].
    pose proof (sort_rows_spec t _ Ht) as RS.
    intros k row E. destruct (RS k row E) as [S [I _]]. split; [exact S|]. intros id. rewrite I. apply IN.
  Qed.
End INDEX.

(* ---- predecessors ---- *)
Lemma add_preds_ok s succs : forall p, Forall (fun t => t < length p) succs ->
  exists p', add_preds s succs p = Ok p' /\ length p' = length p /\
    forall k row, nth_error p' k = Some row -> exists row0, nth_error p k = Some row0 /\
      row = row0 ++ repeat s (count_occ Nat.eq_dec succs k).
Proof.
  induction succs as [|t succs IH]; intros p F.
  - exists p. split; [reflexivity|]. split; [reflexivity|]. intros k row E. exists row. split; [exact E|].
    cbn. symmetry. apply app_nil_r.
  - inversion F as [|? ? F0 F1]; subst. destruct (at_lt p t F0) as [row [Er Ea]].
    destruct (IH (upd p t (row ++ [s]))) as [p' [Ep [Lp Hp]]]; [rewrite upd_length; exact F1|].
    exists p'. cbn [add_preds]. rewrite Ea. cbn [bind]. split; [exact Ep|]. rewrite upd_length in Lp. split; [exact Lp|].
    intros k rw E. destruct (Hp k rw E) as [row0 [E0 ->]]. cbn [count_occ].
    destruct (Nat.eq_dec t k) as [Ek|Nk].
    + subst k. rewrite nth_error_upd_same in E0 by exact F0. injection E0 as <-.
      exists row. split; [exact Er|]. cbn [repeat]. rewrite <- app_assoc. reflexivity.
    + rewrite nth_error_upd_other in E0 by lia. exists row0. split; [exact E0|]. reflexivity.
Qed.

Definition pred_row (succ : list (list nat)) (k : nat) (ss : list nat) : list nat :=
  concat (map (fun s => repeat s (count_occ Nat.eq_dec (nth s succ []) k)) ss).

Lemma preds_loop_ok succ ss : forall p,
  Forall (fun s => s < length succ /\ Forall (fun t => t < length p) (nth s succ [])) ss ->
  exists p', preds_loop ss succ p = Ok p' /\ length p' = length p /\
    forall k row, nth_error p' k = Some row -> exists row0, nth_error p k = Some row0 /\
      row = row0 ++ pred_row succ k ss.
Proof.
  induction ss as [|s ss IH]; intros p F.
  - exists p. split; [reflexivity|]. split; [reflexivity|]. intros k row E. exists row. split; [exact E|].
    cbn. symmetry. apply app_nil_r.
  - inversion F as [|? ? [F0 F0'] F1]; subst. destruct (at_lt succ s F0) as [row [Er Ea]].
    assert (EN : nth s succ [] = row) by (apply nth_error_nth; exact Er).
    destruct (add_preds_ok s row p) as [p1 [E1 [L1 H1]]]; [rewrite <- EN; exact F0'|].
    destruct (IH p1) as [p' [Ep [Lp Hp]]]; [rewrite L1; exact F1|].
    exists p'. cbn [preds_loop]. rewrite Ea. cbn [bind]. rewrite E1. cbn [bind]. split; [exact Ep|]. split; [congruence|].
    intros k rw E. destruct (Hp k rw E) as [row0 [E0 ->]]. destruct (H1 k row0 E0) as [row1 [E2 ->]].
    exists row1. split; [exact E2|]. unfold pred_row. cbn [map concat]. rewrite EN, <- app_assoc. reflexivity.
Qed.

Lemma predecessors_ok succ : (forall s t, In t (nth s succ []) -> t < length succ) ->
  exists p, predecessors succ = Ok p /\ length p = length succ /\
    forall k row, nth_error p k = Some row -> row = pred_row succ k (seq 0 (length succ)).
Proof.
  intros R. unfold predecessors. destruct (preds_loop_ok succ (seq 0 (length succ)) (repeat [] (length succ))) as [p [Ep [Lp Hp]]].
  { apply Forall_forall. intros s I. apply in_seq in I. rewrite repeat_length. split; [lia|].
    apply Forall_forall. intros t J. exact (R s t J). }
  exists p. rewrite repeat_length in Lp. split; [exact Ep|]. split; [exact Lp|]. intros k row E.
  destruct (Hp k row E) as [row0 [E0 ->]]. apply nth_error_In, repeat_spec in E0. subst row0. reflexivity.
Qed.

Lemma pred_row_count succ k ss s : NoDup ss ->
  count_occ Nat.eq_dec (pred_row succ k ss) s =
  if in_dec Nat.eq_dec s ss then count_occ Nat.eq_dec (nth s succ []) k else 0.
Proof.
  unfold pred_row. induction 1 as [|x ss NI ND IH]; [reflexivity|]. cbn [map concat].
  rewrite count_occ_app, IH.
  destruct (Nat.eq_dec x s) as [E|N].
  - subst x. rewrite count_occ_repeat_eq by reflexivity. destruct (in_dec Nat.eq_dec s ss); [contradiction|].
    destruct (in_dec Nat.eq_dec s (s :: ss)) as [_|N]; [lia|]. exfalso. apply N. left. reflexivity.
  - rewrite count_occ_repeat_neq by congruence.
    destruct (in_dec Nat.eq_dec s ss) as [I|I]; destruct (in_dec Nat.eq_dec s (x :: ss)) as [J|J]; try reflexivity.
    + exfalso. apply J. right. exact I.
    + exfalso. destruct J as [J|J]; contradiction.
Qed.

Lemma pred_row_sorted succ k : forall n a, StronglySorted le (pred_row succ k (seq a n)).
Proof.
  assert (X : forall l1 l2, StronglySorted le l1 -> StronglySorted le l2 ->
    (forall x y, In x l1 -> In y l2 -> x <= y) -> StronglySorted le (l1 ++ l2)).
  { induction l1 as [|x l1 IH]; intros l2 A B C; [exact B|]. inversion A as [|? ? A1 A2]; subst. cbn. constructor.
    - apply IH; [exact A1|exact B|]. intros y z I J. apply C; [right; exact I|exact J].
    - rewrite Forall_forall in *. intros y I. apply in_app_or in I as [I|I]; [apply A2; exact I|].
      apply C; [left; reflexivity|exact I]. }
  induction n as [|n IH]; intros a; [constructor|]. unfold pred_row. cbn [seq map concat]. apply X.
  - generalize (count_occ Nat.eq_dec (nth a succ []) k). induction n0 as [|m IHm]; cbn; constructor; [exact IHm|].
    apply Forall_forall. intros x I. apply repeat_spec in I. lia.
  - apply IH.
  - intros x y I J. apply repeat_spec in I. subst x. apply in_concat in J as [l [Il J]].
    apply in_map_iff in Il as [s [<- Is]]. apply in_seq in Is. apply repeat_spec in J. lia.
Qed.
