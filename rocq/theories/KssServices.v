(* Accumulating the services of a train. *)
From Verif Require Import Base BitfieldModel BitfieldProofs TrainModel PropsBitfield TextModel AlgoModel RouteModel
  TransformModel KssModel KssSpec KssDates.
From Coq Require Import Ascii ZifyBool ZifyNat ZifyN.
Open Scope Z_scope.

Lemma str_eqb_spec a b : str_eqb a b = true <-> a = b.
Proof. unfold str_eqb. destruct (list_eq_dec ascii_dec a b); split; congruence. Qed.
Lemma str_eqb_false a b : str_eqb a b = false <-> a <> b.
Proof. unfold str_eqb. destruct (list_eq_dec ascii_dec a b); split; congruence. Qed.

Lemma last_adds_snoc l s d : last_adds (l ++ [s]) d <-> adds s d \/ (last_adds l d /\ ~ removes s d).
Proof.
  split.
  - intros [l1 [x [l2 [E [A R]]]]]. destruct l2 as [|y l2] using rev_ind.
    + apply app_inj_tail in E as [-> ->]. now left.
    + clear IHl2. rewrite app_comm_cons, app_assoc in E. apply app_inj_tail in E as [-> ->]. right.
      split; [exists l1, x, l2; split; [reflexivity|]; split; [exact A|]|].
      * intros s' I. apply R, in_app_iff. now left.
      * apply R, in_app_iff. right. now left.
  - intros [A|[[l1 [x [l2 [-> [A R]]]]] NR]].
    + exists l, s, []. split; [reflexivity|]. split; [exact A|]. intros ? [].
    + exists l1, x, (l2 ++ [s]). split; [now rewrite <- app_assoc|]. split; [exact A|].
      intros s' I. apply in_app_iff in I as [I|[<-|[]]]; auto.
Qed.

Definition mentioned (l : list service) (d : Z) : Prop := exists s, In s l /\ mentions s d.
Definition fits (l : list service) : Prop := forall d e, mentioned l d -> mentioned l e -> d - e < 512.
Record inv (l : list service) (b : bf) (total : N) : Prop := mkinv {
  i_built : built b;
  i_first : mentioned l (bf_first b);
  i_last : mentioned l (bf_last b);
  i_span : forall d, mentioned l d -> bf_first b <= d <= bf_last b;
  i_mem : forall d, mem b d = true <-> last_adds l d;
  i_total : Z.of_N total = tally l mod 2 ^ 64 }.

Lemma tally_snoc l s : tally (l ++ [s]) = tally l + announced s.
Proof. unfold tally. induction l as [|x l IH]; cbn [app fold_right]; [lia|rewrite IH; lia]. Qed.
Lemma add64_mod a b : Z.of_N (add64 a b) = (Z.of_N a + Z.of_N b) mod 2 ^ 64.
Proof. unfold add64, M64. rewrite N2Z.inj_mod, N2Z.inj_add. reflexivity. Qed.
Lemma sub64_one a : Z.of_N (sub64 a 1) = (Z.of_N a - 1) mod 2 ^ 64.
Proof.
  unfold sub64, M64. rewrite N2Z.inj_mod, N2Z.inj_add.
  replace (Z.of_N (18446744073709551616 - 1 mod 18446744073709551616)) with (2 ^ 64 - 1) by reflexivity.
  change (Z.of_N 18446744073709551616) with (2 ^ 64).
  replace (Z.of_N a + (2 ^ 64 - 1)) with (Z.of_N a - 1 + 1 * 2 ^ 64) by lia. apply Z.mod_add. lia.
Qed.

Lemma mentioned_snoc l s d : mentioned (l ++ [s]) d <-> mentioned l d \/ mentions s d.
Proof.
  unfold mentioned. split.
  - intros [x [I M]]. apply in_app_iff in I as [I|[<-|[]]]; eauto.
  - intros [[x [I M]]|M]; [exists x|exists s]; (split; [apply in_app_iff|exact M]); cbn; auto.
Qed.
Lemma bf_okb_built b : built b -> bf_okb b = true.
Proof.
  intros B. destruct (built_ok b B) as [H1 H2 H3 H4 _]. unfold bf_okb, anchor_valid, ANCHOR_MAX. lia.
Qed.

(* the calendar of a single mask *)
Lemma mask_ok a b m lo hi : parse_date a = Ok lo -> parse_date b = Ok hi -> lo <= hi -> hi - lo < 512 ->
  Z.of_nat (length m) = hi - lo + 1 ->
  exists f, make_bitfield lo hi m = Ok f /\ built f /\ bf_first f = lo /\ bf_last f = hi /\
    forall d, mem f d = true <-> adds (Mask a b m) d.
Proof.
  intros A B L W ML. assert (BA := parse_date_bounds _ _ A). assert (BB := parse_date_bounds _ _ B).
  destruct (make_ok lo hi m) as [f [E [K [F [La M]]]]]; try lia.
  exists f. split; [exact E|]. split; [eapply built_make; [| |exact E]; unfold date_ok; lia|].
  split; [exact F|]. split; [exact La|]. intros d. rewrite M. cbn [adds]. rewrite andb_true_iff. split.
  - intros [H1 H2]. destruct (nth_error m (Z.to_nat (d - lo))) as [c|] eqn:N; [|discriminate].
    exists lo, c. split; [exact A|]. split; [lia|]. split; [exact N|]. intros ->. discriminate.
  - intros [lo' [c [A' [L' [N NE]]]]]. assert (lo' = lo) by congruence. subst lo'. split; [lia|].
    rewrite N. apply negb_true_iff. destruct (Ascii.eqb_spec c "0"%char); congruence.
Qed.

Lemma mask_step p acc t a b m : proper (Mask a b m) -> fits (p ++ [Mask a b m]) ->
  (p = [] /\ acc = bf_default /\ t = 0%N) \/ inv p acc t ->
  exists acc' t', parse_service (acc, t) (Mask a b m) = Ok (acc', t') /\ inv (p ++ [Mask a b m]) acc' t'.
Proof.
  intros [lo [hi [A [B [L ML]]]]] W P.
  assert (Mlo : mentions (Mask a b m) lo) by (cbn; auto).
  assert (Mhi : mentions (Mask a b m) hi) by (cbn; auto).
  assert (Monly : forall d, mentions (Mask a b m) d -> d = lo \/ d = hi).
  { intros d [H|H]; [left|right]; congruence. }
  assert (W0 : hi - lo < 512) by (apply W; apply mentioned_snoc; auto).
  destruct (mask_ok a b m lo hi A B L W0 ML) as [f [E [K [F [La M]]]]].
  cbn [parse_service]. rewrite A, B. cbn [bind]. replace (lo <=? hi) with true by lia. cbn [sassert bind].
  replace (Nat.eqb (length m) (Z.to_nat (hi - lo) + 1)) with true by lia. cbn [sassert bind]. rewrite E. cbn [bind].
  destruct P as [[-> [-> ->]]|P].
  - change (bf_okb bf_default) with false. cbv iota. eexists _, _. split; [reflexivity|]. constructor.
    + exact K.
    + exists (Mask a b m). rewrite F. split; [now left|exact Mlo].
    + exists (Mask a b m). rewrite La. split; [now left|exact Mhi].
    + intros d [s [[<-|[]] D]]. apply Monly in D. lia.
    + intros d. rewrite M. rewrite (last_adds_snoc [] (Mask a b m) d).
      assert (~ last_adds [] d) by (intros [[|? ?] [? [? [? ?]]]]; discriminate). tauto.
    + rewrite add64_mod. cbn [app]. unfold tally. cbn [fold_right announced]. f_equal. lia.
  - rewrite (bf_okb_built acc (i_built _ _ _ P)).
    assert (W1 : Z.max (bf_last acc) hi - Z.min (bf_first acc) lo < 512).
    { assert (X1 := W (bf_last acc) (bf_first acc)). assert (X2 := W (bf_last acc) lo).
      assert (X3 := W hi (bf_first acc)). rewrite !mentioned_snoc in *.
      assert (Y1 := i_first _ _ _ P). assert (Y2 := i_last _ _ _ P). intuition lia. }
    destruct (or_ok acc f (built_ok _ (i_built _ _ _ P)) (built_ok _ K)) as [c [EC [KC [FC [LC MC]]]]]; [rewrite F, La; exact W1|].
    rewrite EC. cbn [bind]. eexists _, _. split; [reflexivity|]. rewrite F in FC. rewrite La in LC.
    constructor.
    + eapply built_or; [exact (i_built _ _ _ P)|exact K|exact EC].
    + rewrite FC, mentioned_snoc. destruct (Z.min_spec (bf_first acc) lo) as [[_ ->]|[_ ->]];
        [left; exact (i_first _ _ _ P)|now right].
    + rewrite LC, mentioned_snoc. destruct (Z.max_spec (bf_last acc) hi) as [[_ ->]|[_ ->]];
        [now right|left; exact (i_last _ _ _ P)].
    + intros d D. apply mentioned_snoc in D as [D|D]; [apply (i_span _ _ _ P) in D; lia|apply Monly in D].
      assert (Y := i_span _ _ _ P). lia.
    + intros d. rewrite MC, orb_true_iff, (i_mem _ _ _ P d), M, last_adds_snoc. cbn [removes]. tauto.
    + rewrite add64_mod, tally_snoc, (i_total _ _ _ P), Zplus_mod_idemp_l. cbn [announced]. f_equal. lia.
Qed.

Lemma special_step p acc t ty x : proper (Special ty x) -> fits (p ++ [Special ty x]) -> inv p acc t ->
  exists acc' t', parse_service (acc, t) (Special ty x) = Ok (acc', t') /\ inv (p ++ [Special ty x]) acc' t'.
Proof.
  intros [d A] W P. cbn [parse_service]. rewrite (bf_okb_built acc (i_built _ _ _ P)). cbn [sassert bind].
  unfold parse_special. rewrite A. cbn [bind].
  assert (DB := parse_date_bounds _ _ A).
  assert (SET : forall v, (mentions (Special ty x) d) ->
     exists c, bf_set acc d v = Ok c /\ built c /\
       bf_first c = Z.min (bf_first acc) d /\ bf_last c = Z.max (bf_last acc) d /\
       mentioned (p ++ [Special ty x]) (bf_first c) /\ mentioned (p ++ [Special ty x]) (bf_last c) /\
       (forall e, mentioned (p ++ [Special ty x]) e -> bf_first c <= e <= bf_last c) /\
       forall e, mem c e = if d =? e then v else mem acc e).
  { intros v MD.
    assert (W1 : Z.max (bf_last acc) d - Z.min (bf_first acc) d < 512).
    { assert (X1 := W (bf_last acc) (bf_first acc)). assert (X2 := W (bf_last acc) d).
      assert (X3 := W d (bf_first acc)). assert (X4 := W d d). rewrite !mentioned_snoc in *.
      assert (Y1 := i_first _ _ _ P). assert (Y2 := i_last _ _ _ P). intuition lia. }
    destruct (set_ok acc d v (built_ok _ (i_built _ _ _ P))) as [c [EC [KC [FC [LC MC]]]]]; [lia|exact W1|].
    exists c. split; [exact EC|]. split; [eapply built_set; [exact (i_built _ _ _ P)| |exact EC]; unfold date_ok; lia|].
    split; [exact FC|]. split; [exact LC|].
    split; [rewrite FC, mentioned_snoc; destruct (Z.min_spec (bf_first acc) d) as [[_ ->]|[_ ->]];
        [left; exact (i_first _ _ _ P)|now right]|].
    split; [rewrite LC, mentioned_snoc; destruct (Z.max_spec (bf_last acc) d) as [[_ ->]|[_ ->]];
        [now right|left; exact (i_last _ _ _ P)]|].
    split; [|exact MC]. intros e D. apply mentioned_snoc in D as [D|D]; [apply (i_span _ _ _ P) in D; lia|].
    assert (e = d); [|lia]. destruct D as [[_ D]|[_ D]]; congruence. }
  assert (OA : forall e, adds (Special ty x) e -> e = d) by (intros e [_ D]; congruence).
  assert (OR : forall e, removes (Special ty x) e -> e = d) by (intros e [_ D]; congruence).
  destruct (str_eqb ty s_include) eqn:T1; [|destruct (str_eqb ty s_exclude) eqn:T2].
  - apply str_eqb_spec in T1. subst ty.
    assert (AD : adds (Special s_include x) d) by (split; [reflexivity|exact A]).
    assert (NR : forall e, ~ removes (Special s_include x) e) by (intros e [D _]; discriminate).
    destruct (SET true) as [c [EC [KC [FC [LC [C1 [C2 [C3 MC]]]]]]]]; [left; exact AD|]. rewrite EC. cbn [bind].
    eexists _, _. split; [reflexivity|]. constructor; auto.
    + intros e. rewrite MC, last_adds_snoc. destruct (Z.eqb_spec d e) as [->|NE].
      * tauto.
      * rewrite (i_mem _ _ _ P e). specialize (NR e). specialize (OA e). split; [tauto|]. intros [H|H]; [|tauto].
        apply OA in H. congruence.
    + rewrite add64_mod, tally_snoc, (i_total _ _ _ P), Zplus_mod_idemp_l. reflexivity.
  - apply str_eqb_spec in T2. subst ty.
    assert (AD : removes (Special s_exclude x) d) by (split; [reflexivity|exact A]).
    assert (NR : forall e, ~ adds (Special s_exclude x) e) by (intros e [D _]; discriminate).
    destruct (SET false) as [c [EC [KC [FC [LC [C1 [C2 [C3 MC]]]]]]]]; [right; exact AD|]. rewrite EC. cbn [bind].
    eexists _, _. split; [reflexivity|]. constructor; auto.
    + intros e. rewrite MC, last_adds_snoc. specialize (NR e). destruct (Z.eqb_spec d e) as [->|NE].
      * split; [discriminate|tauto].
      * rewrite (i_mem _ _ _ P e). specialize (OR e). split; [|tauto]. intros H. right. split; [exact H|].
        intros R. apply OR in R. congruence.
    + rewrite sub64_one, tally_snoc, (i_total _ _ _ P), Zminus_mod_idemp_l. reflexivity.
  - apply str_eqb_false in T1, T2.
    assert (NA : forall e, ~ adds (Special ty x) e) by (intros e [D _]; exact (T1 D)).
    assert (NR : forall e, ~ removes (Special ty x) e) by (intros e [D _]; exact (T2 D)).
    assert (MM : forall e, mentioned (p ++ [Special ty x]) e <-> mentioned p e).
    { intros e. rewrite mentioned_snoc. cbn [mentions]. specialize (NA e). specialize (NR e). tauto. }
    eexists _, _. split; [reflexivity|]. constructor.
    + exact (i_built _ _ _ P).
    + rewrite MM. exact (i_first _ _ _ P).
    + rewrite MM. exact (i_last _ _ _ P).
    + intros e E. apply MM in E. exact (i_span _ _ _ P e E).
    + intros e. rewrite last_adds_snoc, (i_mem _ _ _ P e). specialize (NA e). specialize (NR e). tauto.
    + rewrite tally_snoc, (i_total _ _ _ P). cbn [announced].
      destruct (list_eq_dec ascii_dec ty _) as [E|_]; [destruct (T1 E)|].
      destruct (list_eq_dec ascii_dec ty _) as [E|_]; [destruct (T2 E)|]. f_equal. lia.
Qed.

(* what a successful step needs *)
Lemma step_inv p acc t s st' : ((p = [] /\ acc = bf_default /\ t = 0%N) \/ (inv p acc t /\ fits p)) ->
  parse_service (acc, t) s = Ok st' ->
  proper s /\ fits (p ++ [s]) /\ (p = [] -> exists a b m, s = Mask a b m).
Proof.
  intros P E. destruct s as [a b m|ty x]; cbn [parse_service] in E.
  - apply bind_Ok in E as [lo [A E]]. apply bind_Ok in E as [hi [B E]]. apply bind_Ok in E as [u1 [L E]].
    apply PropsBitfield.sassert_inv in L. apply bind_Ok in E as [u2 [ML E]]. apply PropsBitfield.sassert_inv in ML.
    apply bind_Ok in E as [f [MK E]].
    assert (PR : proper (Mask a b m)) by (exists lo, hi; repeat split; auto; lia).
    destruct (make_inv _ _ _ _ MK) as [_ [W _]].
    assert (Monly : forall d, mentions (Mask a b m) d -> d = lo \/ d = hi).
    { intros d [H|H]; [left|right]; congruence. }
    split; [exact PR|]. split; [|intros _; eauto].
    destruct P as [[-> [-> ->]]|[P FP]].
    + intros d e [s [[<-|[]] D1]] [s' [[<-|[]] D2]]. apply Monly in D1, D2. lia.
    + rewrite (bf_okb_built acc (i_built _ _ _ P)) in E. apply bind_Ok in E as [c [OR _]].
      apply or_inv in OR. destruct (mask_ok a b m lo hi A B) as [f' [E' [K [F [La _]]]]]; try lia.
      assert (f' = f) by congruence. subst f'. rewrite F, La in OR.
      assert (S := i_span _ _ _ P). intros d e D1 D2. apply mentioned_snoc in D1, D2.
      assert (X : forall d, mentioned p d \/ mentions (Mask a b m) d ->
                 Z.min (bf_first acc) lo <= d <= Z.max (bf_last acc) hi).
      { intros z [Z1|Z1]; [apply S in Z1; lia|apply Monly in Z1; lia]. }
      apply X in D1, D2. lia.
  - apply bind_Ok in E as [u [O E]]. apply PropsBitfield.sassert_inv in O.
    destruct P as [[-> [-> ->]]|[P FP]]; [discriminate|].
    unfold parse_special in E. apply bind_Ok in E as [d [A E]].
    split; [exists d; exact A|]. split; [|intros ->; destruct (i_first _ _ _ P) as [? [[] _]]].
    assert (S := i_span _ _ _ P).
    destruct (str_eqb ty s_include) eqn:T1; [|destruct (str_eqb ty s_exclude) eqn:T2].
    + apply bind_Ok in E as [c [E _]].
      apply set_inv in E; [|exact (ok_le _ (built_ok _ (i_built _ _ _ P)))].
      assert (X : forall e, mentioned (p ++ [Special ty x]) e -> Z.min (bf_first acc) d <= e <= Z.max (bf_last acc) d).
      { intros e H. apply mentioned_snoc in H as [H|H]; [apply S in H; lia|].
        assert (e = d) by (destruct H as [[_ H]|[_ H]]; congruence). lia. }
      intros e1 e2 H1 H2. apply X in H1, H2. lia.
    + apply bind_Ok in E as [c [E _]].
      apply set_inv in E; [|exact (ok_le _ (built_ok _ (i_built _ _ _ P)))].
      assert (X : forall e, mentioned (p ++ [Special ty x]) e -> Z.min (bf_first acc) d <= e <= Z.max (bf_last acc) d).
      { intros e H. apply mentioned_snoc in H as [H|H]; [apply S in H; lia|].
        assert (e = d) by (destruct H as [[_ H]|[_ H]]; congruence). lia. }
      intros e1 e2 H1 H2. apply X in H1, H2. lia.
    + apply str_eqb_false in T1, T2. intros e1 e2 H1 H2. apply mentioned_snoc in H1, H2.
      assert (NM : forall e, ~ mentions (Special ty x) e) by (intros e [[D _]|[D _]]; [exact (T1 D)|exact (T2 D)]).
      destruct H1 as [H1|H1]; [|destruct (NM _ H1)]. destruct H2 as [H2|H2]; [|destruct (NM _ H2)]. now apply FP.
Qed.

Lemma fits_prefix p q : fits (p ++ q) -> fits p.
Proof.
  intros F d e [s [I M]] [s' [I' M']]. apply F; [exists s|exists s']; (split; [apply in_app_iff; auto|assumption]).
Qed.

Lemma loop_ok : forall l p acc t, (forall s, In s l -> proper s) -> fits (p ++ l) ->
  (p = [] /\ acc = bf_default /\ t = 0%N /\ (exists a b m l', l = Mask a b m :: l')) \/ inv p acc t ->
  exists b t', parse_services_loop l (acc, t) = Ok (b, t') /\ inv (p ++ l) b t'.
Proof.
  induction l as [|s l IH]; intros p acc t PR W P.
  - destruct P as [[_ [_ [_ [? [? [? [? E]]]]]]]|P]; [discriminate|]. exists acc, t. split; [reflexivity|].
    rewrite app_nil_r. exact P.
  - cbn [parse_services_loop]. replace (p ++ s :: l) with ((p ++ [s]) ++ l) in * by (rewrite <- app_assoc; reflexivity).
    assert (W1 := fits_prefix _ _ W).
    assert (exists b t', parse_service (acc, t) s = Ok (b, t') /\ inv (p ++ [s]) b t') as [b [t' [E I]]].
    { destruct P as [[-> [-> [-> [a [b [m [l' E]]]]]]]|P].
      - injection E as -> ->. apply mask_step; [apply PR; now left|exact W1|auto].
      - destruct s as [a b m|ty x]; [apply mask_step|apply special_step]; auto; apply PR; now left. }
    rewrite E. cbn [bind]. apply IH; auto. intros s' IN. apply PR. now right.
Qed.

Lemma loop_inv : forall l p acc t b t', ((p = [] /\ acc = bf_default /\ t = 0%N) \/ (inv p acc t /\ fits p)) ->
  parse_services_loop l (acc, t) = Ok (b, t') ->
  (forall s, In s l -> proper s) /\ (l <> [] -> fits (p ++ l)) /\ (p = [] -> l <> [] -> exists a b m l', l = Mask a b m :: l').
Proof.
  induction l as [|s l IH]; intros p acc t b t' P E.
  - split; [intros ? []|]. split; congruence.
  - cbn [parse_services_loop] in E. apply bind_Ok in E as [[acc' t1] [E1 E2]].
    destruct (step_inv p acc t s _ P E1) as [PR [W F]].
    assert (I : inv (p ++ [s]) acc' t1).
    { assert (exists b t', parse_service (acc, t) s = Ok (b, t') /\ inv (p ++ [s]) b t') as [b1 [t2 [E' I]]].
      { destruct P as [[-> [-> ->]]|[P FP]].
        - destruct F as [a0 [b0 [m0 ->]]]; [reflexivity|]. apply mask_step; auto.
        - destruct s as [a0 b0 m0|ty x]; [apply mask_step|apply special_step]; auto. }
      congruence. }
    destruct (IH (p ++ [s]) acc' t1 b t' (or_intror (conj I W)) E2) as [PR' [W' _]].
    split; [intros s' [<-|IN]; auto|]. split.
    + intros _. destruct l as [|s' l]; [exact W|]. rewrite <- app_assoc in W'. apply W'. discriminate.
    + intros E _. destruct (F E) as [a0 [b0 [m0 ->]]]. eauto 6.
Qed.

Lemma fits_acceptable l : (forall s s' d e, In s l -> In s' l -> mentions s d -> mentions s' e -> d - e < 512) <-> fits l.
Proof.
  unfold fits, mentioned. split.
  - intros H d e [s [I M]] [s' [I' M']]. exact (H s s' d e I I' M M').
  - intros H s s' d e I I' M M'. apply H; eauto.
Qed.

Lemma services_loop_acceptable l : acceptable l ->
  exists b t, parse_services_loop l (bf_default, 0%N) = Ok (b, t) /\ inv l b t.
Proof.
  intros [F [PR W]]. apply fits_acceptable in W. apply (loop_ok l [] bf_default 0%N PR W). left. auto.
Qed.
Lemma services_inv l b : parse_services l = Ok b -> acceptable l.
Proof.
  unfold parse_services. intros E. apply bind_Ok in E as [[b' t] [E1 E2]].
  destruct l as [|s l]; [injection E1 as <- <-; discriminate|].
  destruct (loop_inv (s :: l) [] bf_default 0%N b' t) as [PR [W F]]; auto.
  split; [|split]; [apply F; [reflexivity|discriminate]|exact PR|]. apply fits_acceptable, W. discriminate.
Qed.

Lemma count_days b ds : built b -> NoDup ds -> (forall d, In d ds <-> mem b d = true) -> bf_count b = N.of_nat (length ds).
Proof.
  intros B ND H. destruct (C12_count_first_last b B) as [l [_ [I [NDl [C _]]]]]. rewrite C. f_equal.
  apply Nat.le_antisymm; apply NoDup_incl_length; auto; intros d D.
  - apply H. apply at_true; [now apply built_ok|]. apply I. exact D.
  - apply I. apply at_true; [now apply built_ok|]. apply H. exact D.
Qed.

Lemma services_ok l ds : acceptable l -> NoDup ds -> (forall d, In d ds <-> last_adds l d) ->
  (tally l mod 2 ^ 64 = Z.of_nat (length ds) -> exists b, parse_services l = Ok b /\ built b /\ (forall d, runs b d <-> In d ds)) /\
  (tally l mod 2 ^ 64 <> Z.of_nat (length ds) -> parse_services l = Throw).
Proof.
  intros A ND H. destruct (services_loop_acceptable l A) as [b [t [E I]]].
  unfold parse_services. rewrite E. cbn [bind]. rewrite (bf_okb_built b (i_built _ _ _ I)). cbn [sassert bind].
  rewrite (count_days b ds (i_built _ _ _ I) ND) by (intros d; rewrite H, (i_mem _ _ _ I); reflexivity).
  assert (T := i_total _ _ _ I). split; intros Q.
  - replace (t =? N.of_nat (length ds))%N with true by lia. cbn [sassert bind]. exists b. split; [reflexivity|].
    split; [exact (i_built _ _ _ I)|]. intros d. unfold runs. rewrite at_true by (apply built_ok, (i_built _ _ _ I)).
    rewrite (i_mem _ _ _ I), H. reflexivity.
  - replace (t =? N.of_nat (length ds))%N with false by lia. reflexivity.
Qed.

Lemma services_days l b : parse_services l = Ok b -> built b /\ forall d, runs b d <-> last_adds l d.
Proof.
  intros E. destruct (services_loop_acceptable l (services_inv l b E)) as [b' [t [E' I]]].
  unfold parse_services in E. rewrite E' in E. cbn [bind] in E. apply bind_Ok in E as [? [_ E]].
  apply bind_Ok in E as [? [_ E]]. injection E as <-. split; [exact (i_built _ _ _ I)|]. intros d.
  unfold runs. rewrite at_true by (apply built_ok, (i_built _ _ _ I)). apply (i_mem _ _ _ I).
Qed.
