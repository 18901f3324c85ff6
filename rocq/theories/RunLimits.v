From Coq Require Import Lqa Qround.
From Verif Require Import Base PhysModel PhysSpec PhysProofs RunModel RunSpec RunProofs RunTimes RunIntervals RunTrain.

Definition nonneg (l : list interval) : Prop := Forall (fun iv => 0 <= iv_right iv) l.

Lemma limits_meet_snoc l iv : limits_meet l -> (forall k b, l = k ++ [b] -> iv_left iv = Some (iv_right b)) ->
  limits_meet (l ++ [iv]).
Proof.
  induction l as [|a l IH]; intros H L; [exact I|]. destruct l as [|b l].
  - cbn [app limits_meet]. split; [|exact I]. apply (L [] a). reflexivity.
  - cbn [app limits_meet] in *. split; [apply H|]. apply IH; [apply H|]. intros k c E. apply (L (a :: k) c). rewrite E. reflexivity.
Qed.
Lemma limits_meet_app_inv l k : limits_meet (l ++ k) -> limits_meet l /\ limits_meet k.
Proof.
  induction l as [|a l IH]; intros H; [split; [exact I|exact H]|].
  destruct l as [|b l].
  - split; [exact I|]. cbn [app] in H. destruct k; [exact I|apply H].
  - cbn [app limits_meet] in *. destruct H as (H1 & H2). destruct (IH H2) as (A & B). auto.
Qed.
(* joining: the last of l and the first of k *)
Lemma limits_meet_join l b k : limits_meet (l ++ [b]) -> limits_meet (b :: k) -> limits_meet (l ++ b :: k).
Proof.
  induction l as [|a l IH]; intros H K; [exact K|]. destruct l as [|c l]; cbn [app limits_meet] in *.
  - split; [apply H|exact K].
  - split; [apply H|]. apply IH; [apply H|exact K].
Qed.

(* ---- lowering limits ---- *)
Lemma adjust_pass_meet fuel tp l : forall prev l' b, adjust_pass fuel tp prev l = Ok (l', b) ->
  limits_meet (prev :: l) -> nonneg (prev :: l) ->
  limits_meet l' /\ nonneg l' /\ exists p r, l' = p :: r /\ iv_left p = iv_left prev.
Proof.
  induction l as [|iv l IH]; intros prev l' b; cbn [adjust_pass].
  - intros [= <- <-] H N. split; [exact H|]. split; [exact N|]. eauto.
  - intros H (M1 & M2) N. assert (N2 : nonneg (iv :: l)) by (inversion N; assumption).
    assert (Np : 0 <= iv_right prev) by (inversion N; assumption).
    assert (KEEP : forall r c, adjust_pass fuel tp iv l = Ok (r, c) ->
      limits_meet (prev :: r) /\ nonneg (prev :: r)).
    { intros r c Hr. destruct (IH iv r c Hr M2 N2) as (I1 & I2 & p & r' & -> & I3).
      split; [split; [congruence|exact I1]|]. constructor; assumption. }
    inv_bind H. inv_bind H. destruct (qle (qmin x x0) (iv_right iv) && negb (is_halt iv)).
    + inv_bind H. destruct x1 as [r c]. injection H as <- <-. destruct (KEEP r c B1). split; [assumption|]. split; [assumption|]. eauto.
    + inv_bind H. inv_bind H. destruct (qle (s_dist (back x2)) (iv_dist iv - iv_dist prev)).
      * inv_bind H. destruct x3 as [r c]. injection H as <- <-. destruct (KEEP r c B3). split; [assumption|]. split; [assumption|]. eauto.
      * inv_bind H. set (new := if qle x3 x1 then x1 else x3) in *. inv_bind H. inv_bind H. inv_bind H. destruct x6 as [r c].
        injection H as <- <-. apply sassert_ok in B5. qb.
        destruct (IH (set_left new iv) r c B6) as (I1 & I2 & p & r' & -> & I3).
        -- destruct l; [exact I|]. split; [apply M2|apply M2].
        -- inversion N2; subst. constructor; assumption.
        -- split; [split; [exact I3|exact I1]|]. split; [constructor; [cbn; lra|exact I2]|]. eexists. eexists. split; reflexivity.
Qed.
Lemma adjust_all_meet fuel bfuel tp : forall l l', adjust_all fuel bfuel tp l = Ok l' ->
  limits_meet l -> nonneg l -> limits_meet l' /\ nonneg l'.
Proof.
  assert (A : forall l r b, adjust_speed_limits bfuel tp l = Ok (r, b) -> limits_meet l -> nonneg l -> limits_meet r /\ nonneg r).
  { intros [|iv l] r b; cbn [adjust_speed_limits]; [intros [= <- <-]; auto|]. intros H M N.
    destruct (adjust_pass_meet _ _ _ _ _ _ H M N) as (A & B & _). auto. }
  induction fuel as [|fuel IH]; intros l l'; cbn [adjust_all]; intros H M N; inv_bind H; destruct x as [r b];
    destruct (A _ _ _ B M N) as (M' & N'); destruct b; try discriminate.
  - injection H as <-. auto.
  - eauto.
  - injection H as <-. auto.
Qed.

(* ---- limits valid from the last signal on ---- *)
Lemma spl_loop_meet new rep l : 0 <= new -> forall c, limits_meet l -> nonneg l ->
  (c = true -> True) ->
  limits_meet (fst (spl_loop new rep c l)) /\ nonneg (fst (spl_loop new rep c l)) /\
  (forall iv r, l = iv :: r -> exists p r', fst (spl_loop new rep c l) = p :: r' /\
     iv_left p = (if c then Some new else iv_left iv)) /\
  (snd (spl_loop new rep c l) <= length l)%nat /\
  (snd (spl_loop new rep c l) = length l -> forall k b, fst (spl_loop new rep c l) = k ++ [b] -> iv_right b = new) /\
  (snd (spl_loop new rep c l) <> length l -> forall k b k' b', l = k ++ [b] -> fst (spl_loop new rep c l) = k' ++ [b'] -> iv_right b' = iv_right b).
Proof.
  intros Hn. induction l as [|iv l IH]; intros c M N _; cbn [spl_loop].
  - cbn [fst snd length]. split; [exact I|]. split; [constructor|]. split; [discriminate|]. split; [lia|].
    split; [intros _ [|? ?]; discriminate|intros G; destruct (G eq_refl)].
  - cbv zeta. set (iv1 := if c then set_left new iv else iv).
    assert (R1 : iv_right iv1 = iv_right iv) by (unfold iv1; destruct c; reflexivity).
    assert (L1 : iv_left iv1 = if c then Some new else iv_left iv) by (unfold iv1; destruct c; reflexivity).
    assert (Nl : nonneg l) by (inversion N; assumption). assert (Ni : 0 <= iv_right iv) by (inversion N; assumption).
    assert (Ml : limits_meet l) by (destruct l; [exact I|apply M]).
    destruct (fuzzy_eq (iv_right iv1) rep).
    + destruct (IH true Ml Nl (fun _ => I)) as (I1 & I2 & I3 & I4 & I5 & I6).
      destruct (spl_loop new rep true l) as [l' n] eqn:El. cbn [fst snd] in *.
      assert (LEN : length l' = length l).
      { pose proof (spl_loop_shape new rep l true) as S. rewrite El in S. cbn [fst] in S. symmetry. exact (F2_length _ _ _ S). }
      split; [|split; [constructor; [exact Hn|exact I2]|split; [|split; [cbn [length]; lia|split]]]].
      * destruct l as [|a l]; [destruct l'; [exact I|discriminate]|].
        destruct (I3 a l eq_refl) as (p & r' & -> & Lp). split; [exact Lp|exact I1].
      * intros a r [= <- <-]. eexists. eexists. split; [reflexivity|]. exact L1.
      * cbn [length]. intros E k b Ek. destruct k as [|a k]; [injection Ek as <- _; reflexivity|].
        injection Ek as _ ->. apply (I5 ltac:(lia) k b). reflexivity.
      * cbn [length]. intros E k b k' b' Ek Ek'. destruct l as [|a l]; [destruct l'; [|discriminate]|].
        { exfalso. apply E. cbn [length] in *. lia. }
        destruct k as [|? k]; [discriminate|]. injection Ek as _ Ek.
        destruct k' as [|? k']; [injection Ek' as _ ->; discriminate|]. injection Ek' as _ Ek'.
        apply (I6 ltac:(lia) k b k' b'); assumption.
    + cbn [fst snd]. split; [|split; [constructor; [rewrite R1; exact Ni|exact Nl]|split; [|split; [cbn [length]; lia|split]]]].
      * destruct l; [exact I|]. split; [rewrite R1; apply M|apply M].
      * intros a r [= <- <-]. eexists. eexists. split; [reflexivity|]. exact L1.
      * cbn [length]. discriminate.
      * intros _ k b k' b' Ek Ek'. destruct k as [|? k].
        -- injection Ek as -> ->. destruct k' as [|? k']; [injection Ek' as <-; exact R1|]. destruct k'; discriminate.
        -- injection Ek as <- ->. destruct k' as [|? k']; [destruct k; discriminate|]. injection Ek' as _ Ek'.
           apply app_inj_tail in Ek'. destruct Ek' as (_ & ->). reflexivity.
Qed.

Lemma limits_meet_replace l iv r p r' : limits_meet (l ++ iv :: r) -> limits_meet (p :: r') ->
  iv_left p = iv_left iv -> limits_meet (l ++ p :: r').
Proof.
  induction l as [|a l IH]; intros H K E; [exact K|]. destruct l as [|c l]; cbn [app limits_meet] in *.
  - split; [rewrite E; apply H|exact K].
  - split; [apply H|]. apply IH; auto. apply H.
Qed.
Lemma insert_spl_meet new l k l' u : insert_last_signal_spl new l k = (l', u) -> 0 <= new ->
  (k < length l)%nat -> limits_meet l -> nonneg l ->
  limits_meet l' /\ nonneg l' /\
  (u = length l' -> forall x b, l' = x ++ [b] -> iv_right b = new) /\
  (u <> length l' -> forall x b x' b', l = x ++ [b] -> l' = x' ++ [b'] -> iv_right b' = iv_right b).
Proof.
  unfold insert_last_signal_spl. intros H Hn Hk M N.
  pose proof (firstn_skipn k l) as FS. pose proof (skipn_length k l) as SL.
  destruct (skipn k l) as [|iv r]; [cbn [length] in SL; lia|].
  assert (FL : length (firstn k l) = k) by (apply firstn_length_le; lia).
  rewrite <- FS in M, N. destruct (limits_meet_app_inv _ _ M) as (M1 & M2).
  apply Forall_app in N. destruct N as (N1 & N2).
  destruct (spl_loop_meet new (iv_right iv) (iv :: r) Hn false M2 N2 (fun _ => I)) as (I1 & I2 & I3 & I4 & I5 & I6).
  pose proof (spl_loop_shape new (iv_right iv) (iv :: r) false) as SH. apply F2_length in SH.
  destruct (spl_loop new (iv_right iv) false (iv :: r)) as [r' n]. cbn [fst snd] in *. injection H as <- <-.
  destruct (I3 iv r eq_refl) as (p & r2 & -> & Lp).
  assert (LT : forall (f : list interval) c q x b, f ++ c :: q = x ++ [b] -> exists y, c :: q = y ++ [b]).
  { intros f c q x b E. destruct (exists_last (l := c :: q)) as (y & z & Ey); [discriminate|]. exists y. rewrite Ey in *.
    rewrite app_assoc in E. apply app_inj_tail in E. destruct E as (_ & ->). reflexivity. }
  split; [exact (limits_meet_replace _ _ _ _ _ M I1 Lp)|]. split; [apply Forall_app; auto|].
  rewrite app_length, FL. split.
  - intros E x b Ex. apply LT in Ex. destruct Ex as (y & Ey). apply (I5 ltac:(lia) y b Ey).
  - intros E x b x' b' Ex Ex'. rewrite <- FS in Ex. apply LT in Ex, Ex'. destruct Ex as (y & Ey), Ex' as (y' & Ey').
    apply (I6 ltac:(lia) y b y' b' Ey Ey').
Qed.

Record lim_inv (P : list (tnode * Q)) (s : ilstate) : Prop := {
  lm_meet : limits_meet (il_list s);
  lm_nonneg : nonneg (il_list s);
  lm_cur : 0 <= il_cur s;
  lm_last : forall k b, il_list s = k ++ [b] ->
    iv_right b = il_cur s /\ il_prev s = Some (il_cur s) /\
    exists x, In x P /\ border (fst x) /\ snd x = iv_dist b;
  lm_ms : il_last_ms s = 0%nat \/ (il_last_ms s < length (il_list s))%nat }.

Lemma il_step_limits P s tn s' : lim_inv P s ->
  (forall q, tn_here tn = Some q \/ tn_last_signal tn = Some q -> 0 <= q) ->
  (forall x, In x P -> border (fst x) -> border tn -> 1#100 <= il_dist s + tn_step tn - snd x) ->
  il_step s tn = Ok s' ->
  il_dist s' = il_dist s + tn_step tn /\ lim_inv (P ++ [(tn, il_dist s + tn_step tn)]) s'.
Proof.
  intros I HQ HA. unfold il_step. set (d := il_dist s + tn_step tn) in *.
  cbn [il_list il_dist il_last_ms il_prev il_cur il_events].
  set (x := (tn, d)). set (P' := P ++ [x]).
  assert (INC : forall y, In y P -> In y P') by (intros y Hy; apply in_or_app; auto).
  assert (Ix : In x P') by (apply in_or_app; right; left; reflexivity).
  destruct (tn_omitted tn) eqn:Eo.
  { intros [= <-]. split; [reflexivity|]. destruct I as [I1 I2 I3 I4 I5]. constructor; cbn [il_list il_cur il_prev il_last_ms]; auto.
    intros k b E. destruct (I4 k b E) as (A & B & y & Y1 & Y2). eauto 8. }
  set (s1 := match tn_last_signal tn with Some q => _ | None => _ end).
  assert (A1 : lim_inv P s1 /\ il_dist s1 = d).
  { unfold s1. destruct (tn_last_signal tn) as [q|] eqn:Eq.
    2:{ split; [|reflexivity]. destruct I as [I1 I2 I3 I4 I5]. constructor; assumption. }
    assert (Hq : 0 <= q) by (apply HQ; right; reflexivity).
    destruct (insert_last_signal_spl q (il_list s) (il_last_ms s)) as [l u] eqn:Ei.
    destruct I as [I1 I2 I3 I4 I5].
    assert (C5 : il_list s = [] \/ (il_last_ms s < length (il_list s))%nat).
    { destruct (il_list s) as [|a l0]; [left; reflexivity|right]. destruct I5 as [-> |I5]; [cbn; lia|exact I5]. }
    destruct C5 as [C5|C5].
    - rewrite C5 in *. unfold insert_last_signal_spl in Ei. rewrite skipn_nil in Ei. injection Ei as <- <-.
      cbn [length Nat.eqb]. split; [|reflexivity]. constructor; cbn [il_list il_cur il_prev il_last_ms]; auto.
      intros k b E. destruct k; discriminate.
    - pose proof (insert_spl_shape _ _ _ _ _ Ei) as SH.
      destruct (insert_spl_meet _ _ _ _ _ Ei Hq C5 I1 I2) as (J1 & J2 & J3 & J4).
      assert (LN : length (il_list s) = length l) by exact (F2_length _ _ _ SH).
      assert (DI : forall k b, l = k ++ [b] -> exists k0 b0, il_list s = k0 ++ [b0] /\ iv_dist b0 = iv_dist b).
      { intros k b ->. apply Forall2_app_inv_r in SH. destruct SH as (k0 & t0 & S1 & S2 & S3).
        inversion S2 as [|b0 ? ? ? (T1 & _) T2]; subst. inversion T2; subst. eauto. }
      destruct (Nat.eqb_spec u (length l)) as [Eu|Eu]; (split; [|reflexivity]);
        constructor; cbn [il_list il_cur il_prev il_last_ms]; auto; try (right; lia).
      + intros k b E. split; [exact (J3 Eu k b E)|]. split; [reflexivity|].
        destruct (DI k b E) as (k0 & b0 & E0 & D0). destruct (I4 k0 b0 E0) as (_ & _ & y & Y1 & Y2 & Y3).
        exists y. repeat split; auto; [apply Y2|apply Y2|congruence].
      + intros k b E. destruct (DI k b E) as (k0 & b0 & E0 & D0). destruct (I4 k0 b0 E0) as (Q1 & Q2 & y & Y1 & Y2 & Y3).
        split; [rewrite (J4 Eu k0 b0 k b E0 E); exact Q1|]. split; [exact Q2|]. exists y. repeat split; auto; [apply Y2|apply Y2|congruence]. }
  clearbody s1. destruct A1 as (A1 & D1). clear I. destruct A1 as [I1 I2 I3 I4 I5].
  destruct ((match tn_kind tn with SIGNAL | HALTPOS => true | OTHER => false end) || match tn_here tn with Some _ => true | None => false end) eqn:Eb.
  - assert (BD : border tn).
    { split; [exact Eo|]. destruct (tn_kind tn); [left; discriminate|left; discriminate|].
      destruct (tn_here tn); [right; discriminate|discriminate]. }
    set (s2 := match tn_here tn with Some q => _ | None => s1 end).
    set (s3 := match tn_kind tn with SIGNAL => _ | HALTPOS => s2 | OTHER => s2 end).
    set (s4 := if tn_record tn then _ else s3).
    assert (A4 : il_list s4 = il_list s1 /\ il_dist s4 = d /\ 0 <= il_cur s4 /\
                 (il_list s1 <> [] -> il_prev s4 = Some (il_cur s1)) /\
                 (il_last_ms s4 <= length (il_list s1))%nat).
    { assert (PC : il_list s1 <> [] -> il_prev s1 = Some (il_cur s1)).
      { intros NE. destruct (exists_last NE) as (k & b & E). apply (I4 k b E). }
      unfold s4, s3, s2. destruct (tn_here tn) as [q|] eqn:Eh.
      - assert (Hq : 0 <= q) by (apply HQ; auto).
        destruct (tn_record tn), (tn_kind tn); cbn [il_list il_dist il_cur il_prev il_last_ms];
          repeat (split; [first [reflexivity|exact D1|exact Hq|intros _; reflexivity]|]); lia.
      - destruct (tn_record tn), (tn_kind tn); cbn [il_list il_dist il_cur il_prev il_last_ms];
          repeat (split; [first [reflexivity|exact D1|exact I3|exact PC]|]); lia. }
    clearbody s4. clear s3 s2. destruct A4 as (L4 & D4 & C4 & P4 & M4).
    intros H. unfold push_interval in H. inv_bind H. injection H as <-. cbn [il_dist]. split; [exact D4|].
    rewrite L4, D4 in B.
    assert (NEW : forall k b, k ++ [b] = il_list s1 ++ [mkiv d (il_prev s4) (il_cur s4) (tn_stop tn) (il_events s4)] ->
      b = mkiv d (il_prev s4) (il_cur s4) (tn_stop tn) (il_events s4)).
    { intros k b E. apply app_inj_tail in E. tauto. }
    assert (x0 = il_list s1 ++ [mkiv d (il_prev s4) (il_cur s4) (tn_stop tn) (il_events s4)] /\
            (il_list s1 = [] -> True)) as (E0 & _).
    { split; [|auto]. destruct (rev (il_list s1)) as [|b r] eqn:Er.
      - assert (N : il_list s1 = []) by (rewrite <- (rev_involutive (il_list s1)), Er; reflexivity).
        rewrite N. injection B as <-. reflexivity.
      - assert (Ls : il_list s1 = rev r ++ [b]) by (rewrite <- (rev_involutive (il_list s1)), Er; reflexivity).
        destruct (I4 _ _ Ls) as (_ & _ & y & Y1 & Y2 & Y3). specialize (HA y Y1 Y2 BD).
        assert (NN : fuzzy_eq (iv_dist b) d = false).
        { apply fuzzy_not_near. unfold near. intros G. rewrite Y3 in HA. lra. }
        rewrite NN in B. injection B as <-. reflexivity. }
    subst x0. constructor; cbn [il_list il_cur il_prev il_last_ms].
    + apply limits_meet_snoc; [exact I1|]. intros k b E. cbn [iv_left].
      rewrite P4 by (rewrite E; destruct k; discriminate). destruct (I4 k b E) as (-> & _). reflexivity.
    + apply Forall_app. split; [exact I2|]. constructor; [exact C4|constructor].
    + exact C4.
    + intros k b E. symmetry in E. apply NEW in E. subst b. cbn [iv_right iv_dist]. split; [reflexivity|]. split; [reflexivity|].
      exists x. auto.
    + right. rewrite app_length. cbn [length]. lia.
  - assert (Eh : tn_here tn = None) by (destruct (tn_here tn); [rewrite orb_true_r in Eb; discriminate|reflexivity]).
    assert (Ek : tn_kind tn = OTHER) by (destruct (tn_kind tn); [discriminate|discriminate|reflexivity]).
    rewrite Eh, Ek. intros [= <-].
    assert (G : forall ev, lim_inv P' (mkil (il_list s1) (il_dist s1) (il_last_ms s1) (il_prev s1) (il_cur s1) ev)).
    { intros ev. constructor; cbn [il_list il_cur il_prev il_last_ms]; auto.
      intros k b E. destruct (I4 k b E) as (A & B & y & Y1 & Y2). eauto 8. }
    destruct (tn_record tn); cbn [il_dist]; (split; [exact D1|]); [apply G|].
    specialize (G (il_events s1)). destruct s1. exact G.
Qed.

Lemma il_steps_limits ns : forall P s s', lim_inv P s ->
  (forall n q, In n ns -> tn_here n = Some q \/ tn_last_signal n = Some q -> 0 <= q) ->
  StronglySorted (fun x y => border (fst x) -> border (fst y) -> 1#100 <= snd y - snd x) (P ++ placed (il_dist s) ns) ->
  il_steps s ns = Ok s' -> lim_inv (P ++ placed (il_dist s) ns) s'.
Proof.
  induction ns as [|n ns IH]; intros P s s' I HQ HA; cbn [il_steps placed] in *.
  - intros [= <-]. rewrite app_nil_r. exact I.
  - intros H. inv_bind H.
    destruct (il_step_limits P s n x I) as (E & I1); auto.
    + intros q Hq. apply (HQ n q); [left; reflexivity|exact Hq].
    + intros y Hy B1 B2. apply StronglySorted_app_inv in HA. destruct HA as (_ & _ & HA).
      exact (HA y (n, il_dist s + tn_step n) Hy (or_introl eq_refl) B1 B2).
    + specialize (IH _ _ s' I1 (fun m q Hm => HQ m q (or_intror Hm))). rewrite E in IH.
      rewrite <- app_assoc in IH. cbn [app] in IH. apply IH; [exact HA|exact H].
Qed.

Lemma interval_list_limits fuel tp v ns il : get_interval_list fuel tp v ns = Ok il ->
  sane_limits v ns -> borders_apart ns -> limits_meet il /\ nonneg il.
Proof.
  unfold get_interval_list. intros H (Hv & HQ) HA. inv_bind H.
  assert (I0 : lim_inv [] (mkil [] 0 0 None v [])).
  { constructor; cbn [il_list il_cur il_prev il_last_ms]; [exact I|constructor|exact Hv|intros [|? ?]; discriminate|left; reflexivity]. }
  pose proof (il_steps_limits ns [] _ _ I0 HQ HA B) as I1. destruct I1 as [M N _ _ _].
  eapply adjust_all_meet; eauto.
Qed.

(* ---- the drive ---- *)
Lemma run_interval_phases fuel tp start prev iv c v ts c' v' ts' :
  run_interval fuel tp start prev iv (c, v, ts) = Ok (c', v', ts') ->
  exists p, get_runtime_phases fuel tp v prev iv = Ok p /\ v' = s_speed (exit_sample p) /\ v' <= iv_right iv.
Proof.
  unfold run_interval. intros H. inv_bind H. inv_bind H. rename x0 into p. inv_bind H. inv_bind H. cbv zeta in H.
  inv_bind H. inv_bind H. inv_bind H. destruct x4 as [dep clock2]. inv_bind H. inv_bind H.
  apply sassert_ok in B7. qb. injection H as <- <- <-. exists p. split; [exact B0|]. split; [|exact B7].
  unfold exit_sample, nonempty. destruct (ph_deaccels p), (ph_coasts p); reflexivity.
Qed.
Lemma run_intervals_drive fuel tp start l : forall prev c v ts c' v' ts',
  run_intervals fuel tp start prev l (c, v, ts) = Ok (c', v', ts') ->
  exists ps, drive fuel tp v prev l ps.
Proof.
  induction l as [|iv l IH]; intros prev c v ts c' v' ts'; cbn [run_intervals].
  - intros _. exists []. exact I.
  - intros H. inv_bind H. destruct x as [[c2 v2] t2]. destruct (run_interval_phases _ _ _ _ _ _ _ _ _ _ _ B) as (p & P1 & P2 & _).
    destruct (IH _ _ _ _ _ _ _ H) as (ps & D). exists (p :: ps). split; [exact P1|]. rewrite <- P2. exact D.
Qed.

(* ---- without limits from the last signal ---- *)
Definition mark (iv : interval) : Q * Q := (iv_dist iv, iv_right iv).
Record here_inv (s : ilstate) : Prop := {
  hi_meet : limits_meet (il_list s);
  hi_nonneg : nonneg (il_list s);
  hi_cur : 0 <= il_cur s;
  hi_last : forall k b, il_list s = k ++ [b] -> iv_right b = il_cur s /\ il_prev s = Some (il_cur s) }.
(* the stretches of the intervals l followed by the borders m *)
Definition joined (l : list interval) (m : list (Q * Q)) : list (Q * Q) :=
  match rev l with
  | [] => match m with [] => [] | (d, q) :: m => stretches d q m end
  | b :: r => map mark (rev r) ++ stretches (iv_dist b) (iv_right b) m
  end.
Lemma joined_nil l : joined l [] = map mark l.
Proof.
  unfold joined. destruct (rev l) as [|b r] eqn:E.
  - rewrite <- (rev_involutive l), E. reflexivity.
  - rewrite <- (rev_involutive l), E. cbn [rev stretches]. rewrite map_app. reflexivity.
Qed.
Lemma joined_snoc l b m : joined (l ++ [b]) m = map mark l ++ stretches (iv_dist b) (iv_right b) m.
Proof. unfold joined. rewrite rev_app_distr. cbn [rev app]. rewrite rev_involutive. reflexivity. Qed.
Lemma nearb_fuzzy x y : nearb x y = fuzzy_eq x y.
Proof.
  destruct (fuzzy_eq x y) eqn:E; unfold nearb.
  - apply fuzzy_near in E. destruct E as (A & B). apply andb_true_intro. split; apply negb_true_iff; apply not_true_iff_false; rewrite Qle_bool_iff; lra.
  - apply fuzzy_not_near in E. apply not_true_iff_false. intros G. apply E. apply andb_prop in G. destruct G as (A & B).
    apply negb_true_iff in A, B. unfold near. split; apply Qnot_le_lt; rewrite <- Qle_bool_iff; congruence.
Qed.

Lemma limits_meet_last k b b' : iv_left b' = iv_left b -> limits_meet (k ++ [b]) -> limits_meet (k ++ [b']).
Proof. intros E H. apply (limits_meet_replace k b [] b' []); [exact H|exact I|exact E]. Qed.

Lemma il_step_here s tn s' : here_inv s -> tn_last_signal tn = None ->
  (forall q, tn_here tn = Some q -> 0 <= q) -> il_step s tn = Ok s' ->
  here_inv s' /\ il_dist s' = il_dist s + tn_step tn /\
  il_cur s' = match tn_here tn with Some q => if tn_omitted tn then il_cur s else q | None => il_cur s end /\
  forall m, joined (il_list s') m =
    joined (il_list s) ((if is_border tn then [(il_dist s + tn_step tn, il_cur s')] else []) ++ m).
Proof.
  intros I HL HQ. unfold il_step. rewrite HL. set (d := il_dist s + tn_step tn) in *.
  cbn [il_list il_dist il_last_ms il_prev il_cur il_events]. unfold is_border.
  destruct (tn_omitted tn) eqn:Eo; cbn [negb andb].
  { intros [= <-]. cbn [il_list il_cur il_dist]. split; [destruct I; constructor; assumption|]. split; [reflexivity|].
    split; [destruct (tn_here tn); reflexivity|]. reflexivity. }
  set (cur := match tn_here tn with Some q => q | None => il_cur s end).
  set (s1 := mkil (il_list s) d (il_last_ms s) (il_prev s) (il_cur s) (il_events s)).
  set (s2 := match tn_here tn with Some q => _ | None => s1 end).
  set (s3 := match tn_kind tn with SIGNAL => _ | HALTPOS => s2 | OTHER => s2 end).
  set (s4 := if tn_record tn then _ else s3).
  assert (A4 : il_list s4 = il_list s /\ il_dist s4 = d /\ il_cur s4 = cur /\
    (il_list s <> [] -> il_prev s4 = Some (il_cur s))).
  { assert (PC : il_list s <> [] -> il_prev s = Some (il_cur s)).
    { intros NE. destruct (exists_last NE) as (k & b & E). apply (hi_last _ I k b E). }
    unfold s4, s3, s2, cur. destruct (tn_record tn), (tn_kind tn), (tn_here tn); repeat split; exact PC. }
  assert (C0 : 0 <= cur).
  { unfold cur. destruct (tn_here tn) as [q|] eqn:Eh; [apply HQ; reflexivity|apply I]. }
  assert (SAME : tn_here tn = None -> tn_kind tn = OTHER -> il_prev s4 = il_prev s).
  { intros Eh Ek. unfold s4, s3, s2. rewrite Eh, Ek. destruct (tn_record tn); reflexivity. }
  clearbody s4. clear s3 s2 s1. destruct A4 as (L4 & D4 & C4 & P4).
  assert (EB : (match tn_kind tn with SIGNAL | HALTPOS => true | OTHER => false end) || match tn_here tn with Some _ => true | None => false end
             = match tn_kind tn, tn_here tn with OTHER, None => false | _, _ => true end) by (destruct (tn_kind tn), (tn_here tn); reflexivity).
  rewrite EB. destruct (match tn_kind tn, tn_here tn with OTHER, None => false | _, _ => true end) eqn:Eb.
  - intros H. unfold push_interval in H. inv_bind H. injection H as <-. cbn [il_list il_cur il_dist].
    rewrite L4, D4, C4 in B. rewrite C4, D4.
    assert (G : limits_meet x /\ nonneg x /\ (forall k b, x = k ++ [b] -> iv_right b = cur) /\
                (forall m, joined x m = joined (il_list s) ((d, cur) :: m))).
    { destruct (rev (il_list s)) as [|b r] eqn:Er.
      - assert (N : il_list s = []) by (rewrite <- (rev_involutive (il_list s)), Er; reflexivity).
        rewrite N. injection B as <-. split; [exact Logic.I|]. split; [constructor; [exact C0|constructor]|].
        split; [|reflexivity]. intros [|? [|? ?]] b E; try discriminate. injection E as <-. reflexivity.
      - assert (Ls : il_list s = rev r ++ [b]) by (rewrite <- (rev_involutive (il_list s)), Er; reflexivity).
        destruct (hi_last _ I _ _ Ls) as (RB & _). pose proof (hi_meet _ I) as HM. pose proof (hi_nonneg _ I) as HN.
        rewrite Ls in HM, HN. apply Forall_app in HN. destruct HN as (HN & HNb).
        destruct (fuzzy_eq (iv_dist b) d) eqn:Ef.
        + inv_bind B. injection B as <-. unfold append in B0. inv_bind B0. injection B0 as <-. cbn [rev iv_left iv_right iv_stop iv_events iv_dist].
          split; [eapply limits_meet_last; [|exact HM]; reflexivity|]. split; [apply Forall_app; split; [exact HN|constructor; [exact C0|constructor]]|].
          split; [intros k c E; apply app_inj_tail in E; destruct E as (_ & <-); reflexivity|].
          intros m. rewrite Ls, !joined_snoc. cbn [iv_dist iv_right stretches]. rewrite nearb_fuzzy, Ef. reflexivity.
        + injection B as <-. rewrite Ls. split; [|split; [|split]].
          * apply limits_meet_snoc; [exact HM|]. intros k c E. apply app_inj_tail in E. destruct E as (_ & <-). cbn [iv_left].
            rewrite P4 by (rewrite Ls; destruct (rev r); discriminate). congruence.
          * apply Forall_app. split; [apply Forall_app; split; assumption|]. constructor; [exact C0|constructor].
          * intros k c E. apply app_inj_tail in E. destruct E as (_ & <-). reflexivity.
          * intros m. rewrite !joined_snoc. cbn [iv_dist iv_right stretches]. rewrite nearb_fuzzy, Ef, map_app, <- app_assoc. reflexivity. }
    destruct G as (G1 & G2 & G3 & G4). split; [constructor; cbn [il_list il_cur il_prev]; auto|].
    { intros k b E. split; [exact (G3 k b E)|reflexivity]. }
    split; [reflexivity|]. split; [reflexivity|]. intros m. rewrite G4. reflexivity.
  - assert (Eh : tn_here tn = None) by (destruct (tn_here tn); [destruct (tn_kind tn); discriminate|reflexivity]).
    assert (Ek : tn_kind tn = OTHER) by (destruct (tn_kind tn); [discriminate|discriminate|reflexivity]).
    intros [= <-]. specialize (SAME Eh Ek). unfold cur in *. rewrite Eh in *. rewrite L4, D4, C4.
    split; [|split; [reflexivity|split; [reflexivity|reflexivity]]].
    constructor; rewrite ?L4, ?C4, ?SAME; apply I.
Qed.
Lemma il_steps_here ns : forall s s', here_inv s ->
  (forall n q, In n ns -> tn_here n = Some q -> 0 <= q) -> (forall n, In n ns -> tn_last_signal n = None) ->
  il_steps s ns = Ok s' -> here_inv s' /\ map mark (il_list s') = joined (il_list s) (borders (il_dist s) (il_cur s) ns).
Proof.
  induction ns as [|n ns IH]; intros s s' I HQ HL; cbn [il_steps borders].
  - intros [= <-]. split; [exact I|]. rewrite joined_nil. reflexivity.
  - intros H. inv_bind H.
    destruct (il_step_here s n x I) as (I1 & D1 & C1 & J1); [apply HL; left; reflexivity|intros q Hq; apply (HQ n q); [left; reflexivity|exact Hq]|exact B|].
    destruct (IH x s' I1 (fun m q Hm => HQ m q (or_intror Hm)) (fun m Hm => HL m (or_intror Hm)) H) as (I2 & M2).
    split; [exact I2|]. rewrite M2, J1, D1, C1. reflexivity.
Qed.

(* adjusting only lowers limits *)
Definition lowered (a b : interval) : Prop := iv_dist b = iv_dist a /\ iv_right b <= iv_right a.
Lemma lowered_refl l : Forall2 lowered l l.
Proof. induction l; constructor; auto. split; [reflexivity|lra]. Qed.
Lemma lowered_trans a b c : Forall2 lowered a b -> Forall2 lowered b c -> Forall2 lowered a c.
Proof.
  intros H. revert c. induction H as [|x y a b (L1 & L2) F IH]; intros c Hc; inversion Hc as [|? z ? c' (L3 & L4) F']; subst; constructor; [|auto].
  split; [congruence|lra].
Qed.
Lemma adjust_pass_lowers fuel tp l : forall prev l' b, adjust_pass fuel tp prev l = Ok (l', b) ->
  limits_meet (prev :: l) -> Forall2 lowered (prev :: l) l'.
Proof.
  induction l as [|iv l IH]; intros prev l' b; cbn [adjust_pass].
  - intros [= <- <-] _. apply lowered_refl.
  - intros H (M1 & M2). assert (L0 : lowered prev prev) by (split; [reflexivity|lra]).
    inv_bind H. inv_bind H. destruct (qle (qmin x x0) (iv_right iv) && negb (is_halt iv)).
    + inv_bind H. destruct x1 as [r c]. injection H as <- <-. constructor; eauto.
    + inv_bind H. inv_bind H. destruct (qle (s_dist (back x2)) (iv_dist iv - iv_dist prev)).
      * inv_bind H. destruct x3 as [r c]. injection H as <- <-. constructor; eauto.
      * inv_bind H. set (new := if qle x3 x1 then x1 else x3) in *. inv_bind H. inv_bind H. inv_bind H. destruct x6 as [r c].
        injection H as <- <-. apply sassert_ok in B4. qb.
        destruct (qmin_spec x x0) as (Q1 & _ & _).
        assert (E : x = iv_right prev) by (unfold left_limit in B; rewrite M1 in B; congruence).
        constructor; [split; [reflexivity|cbn [iv_right set_right]; rewrite <- E; lra]|].
        apply IH in B6; [|destruct l; [exact I|split; [apply M2|apply M2]]].
        inversion B6 as [|? y ? r' (Y1 & Y2) F]; subst. constructor; [split; [exact Y1|exact Y2]|exact F].
Qed.
Lemma adjust_all_lowers fuel bfuel tp : forall l l', adjust_all fuel bfuel tp l = Ok l' ->
  limits_meet l -> nonneg l -> Forall2 lowered l l'.
Proof.
  assert (A : forall l r b, adjust_speed_limits bfuel tp l = Ok (r, b) -> limits_meet l -> nonneg l ->
    limits_meet r /\ nonneg r /\ Forall2 lowered l r).
  { intros [|iv l] r b; cbn [adjust_speed_limits]; [intros [= <- <-]; auto|]. intros H M N.
    destruct (adjust_pass_meet _ _ _ _ _ _ H M N) as (A & B & _).
    split; [exact A|]. split; [exact B|]. eapply adjust_pass_lowers; eauto. }
  induction fuel as [|fuel IH]; intros l l'; cbn [adjust_all]; intros H M N; inv_bind H; destruct x as [r b];
    destruct (A _ _ _ B M N) as (M' & N' & L'); destruct b; try discriminate.
  - injection H as <-. auto.
  - eapply lowered_trans; [exact L'|eauto].
  - injection H as <-. auto.
Qed.

Lemma interval_list_in_force fuel tp v ns il : get_interval_list fuel tp v ns = Ok il ->
  sane_limits v ns -> (forall n, In n ns -> tn_last_signal n = None) ->
  limits_meet il /\ nonneg il /\
  Forall2 (fun x iv => iv_dist iv = fst x /\ iv_right iv <= snd x) (in_force v ns) il.
Proof.
  unfold get_interval_list. intros H (Hv & HQ) HL. inv_bind H.
  assert (I0 : here_inv (mkil [] 0 0 None v [])).
  { constructor; cbn [il_list il_cur il_prev]; [exact I|constructor|exact Hv|intros [|? ?]; discriminate]. }
  destruct (il_steps_here ns _ _ I0 (fun n q Hn Hq => HQ n q Hn (or_introl Hq)) HL B) as ([M N _ _] & E).
  cbn [il_list il_dist il_cur] in E. unfold joined in E. cbn [rev] in E. fold (in_force v ns) in E.
  destruct (adjust_all_meet _ _ _ _ _ H M N) as (M' & N'). split; [exact M'|]. split; [exact N'|].
  apply adjust_all_lowers in H; [|exact M|exact N]. rewrite <- E. clear - H.
  induction H as [|a b l l' L F IH]; cbn [map]; constructor; auto.
Qed.

(* ---- speeds of the whole drive ---- *)
Lemma phases_exit fuel tp speed prev iv p : get_runtime_phases fuel tp speed prev iv = Ok p ->
  iv_dist prev < iv_dist iv ->
  exists target, target_speed tp iv = Ok target /\ s_speed (exit_sample p) <= target.
Proof.
  intros H L. destruct (phases_ok _ _ _ _ _ _ H L) as (_ & t & T1 & T2). exists t. split; [exact T1|].
  unfold end_speed, exit_sample, nonempty in *. destruct (ph_deaccels p), (ph_coasts p); exact T2.
Qed.
Lemma phases_within fuel tp speed prev iv p left m :
  get_runtime_phases fuel tp speed prev iv = Ok p -> iv_dist prev < iv_dist iv ->
  iv_left iv = Some left -> max_speed tp = Ok m -> speed <= left -> speed <= m ->
  within p left /\ within p m.
Proof.
  intros H L E M S1 S2.
  assert (El : left_limit iv = Ok left) by (unfold left_limit; rewrite E; reflexivity).
  destruct (phases_speed _ _ _ _ _ _ _ _ H L El M S1 S2) as (A & B & C).
  assert (G : forall s, inner (ph_accels p) s \/ In s (ph_coasts p) \/ In s (ph_deaccels p) \/ (s = ph_accel p /\ ph_accels p <> []) ->
    s_speed s <= left /\ s_speed s <= m).
  { intros s [Hs|[Hs|[Hs|(-> & Hs)]]]; auto; apply C; apply in_or_app; auto. }
  split; intros s Hs; apply G; exact Hs.
Qed.
Lemma drive_within fuel tp m : max_speed tp = Ok m -> forall il v prev ps, drive fuel tp v prev il ps ->
  ascending_ivs (prev :: il) -> limits_meet (prev :: il) -> nonneg (prev :: il) -> v <= iv_right prev -> v <= m ->
  Forall2 (fun a p => within p (iv_right a) /\ within p m) (removelast (prev :: il)) ps /\
  Forall2 (fun iv p => exists t, target_speed tp iv = Ok t /\ s_speed (exit_sample p) <= t) il ps.
Proof.
  intros Hm. induction il as [|iv il IH]; intros v prev [|p ps] D A M NN V1 V2; cbn [drive] in D; try tauto; [repeat constructor|].
  destruct D as (D1 & D2). cbn [ascending_ivs] in A. destruct A as (A1 & A2). destruct M as (M1 & M2).
  destruct (phases_within _ _ _ _ _ _ _ _ D1 A1 M1 Hm V1 V2) as (W1 & W2).
  destruct (phases_exit _ _ _ _ _ _ D1 A1) as (t & T1 & T2).
  assert (TT : t <= iv_right iv \/ is_halt iv = true /\ t <= 0).
  { unfold target_speed in T1. rewrite Hm in T1. cbn [bind] in T1. injection T1 as <-.
    destruct (is_halt iv); [right|left]; [split; [reflexivity|]|]; apply qmin_spec. }
  assert (TM : t <= m).
  { unfold target_speed in T1. rewrite Hm in T1. cbn [bind] in T1. injection T1 as <-. apply qmin_spec. }
  change (removelast (prev :: iv :: il)) with (prev :: removelast (iv :: il)).
  assert (R : s_speed (exit_sample p) <= iv_right iv).
  { destruct TT as [TT|(_ & TT)]; [lra|]. inversion NN as [|? ? _ N2]; subst. inversion N2; subst. lra. }
  destruct (IH _ _ _ D2 A2 M2) as (I1 & I2); [inversion NN; assumption|exact R|lra|].
  split; constructor; eauto.
Qed.

(* ---- times along the drive ---- *)
Lemma first_at_past off l d s : first_at off l d = Some s -> first_past l (d - off) s.
Proof.
  induction l as [|a l IH]; cbn [first_at]; [discriminate|].
  destruct (qle d (off + s_dist a)) eqn:E; qb.
  - intros [= <-]. exists O. split; [reflexivity|]. split; [lra|]. intros j r L. inversion L.
  - intros H. destruct (IH H) as (i & I1 & I2 & I3). exists (S i). split; [exact I1|]. split; [exact I2|].
    intros [|j] r L G; cbn [nth_error] in G; [injection G as <-; lra|]. apply (I3 j); [lia|exact G].
Qed.
Lemma first_past_comp l d d' s : d == d' -> first_past l d s -> first_past l d' s.
Proof.
  intros E (i & I1 & I2 & I3). exists i. split; [exact I1|]. split; [lra|]. intros j r L G. specialize (I3 j r L G). lra.
Qed.
Lemma event_time_passes p d t : get_event_time p d = Ok t -> passes p d t.
Proof.
  unfold get_event_time, passes. cbv zeta.
  assert (NE : forall l x, nonempty l && x = false -> l = [] \/ x = false) by (intros [|? ?] x; cbn; auto).
  destruct (nonempty (ph_accels p) && qle d (s_dist (ph_accel p))) eqn:E1.
  { apply andb_prop in E1. destruct E1 as (_ & E1). qb. intros H. left. split; [exact E1|].
    destruct (first_at 0 (ph_accels p) d) as [s|] eqn:F; [|discriminate]. injection H as <-.
    exists s. split; [|reflexivity]. apply first_at_past in F. eapply first_past_comp; [|exact F]. ring. }
  apply NE in E1. assert (A : ph_accels p = [] \/ s_dist (ph_accel p) < d) by (destruct E1 as [E1|E1]; [left; exact E1|right; qb; exact E1]).
  clear E1. right. destruct (nonempty (ph_coasts p) && qle d (s_dist (ph_accel p) + s_dist (ph_coast p))) eqn:E2.
  { apply andb_prop in E2. destruct E2 as (_ & E2). qb. left. split; [exact A|]. split; [exact E2|].
    destruct (first_at _ (ph_coasts p) d) as [s|] eqn:F; [|discriminate]. injection H as <-.
    exists s. split; [|reflexivity]. apply first_at_past in F. exact F. }
  apply NE in E2. assert (C : ph_coasts p = [] \/ s_dist (ph_accel p) + s_dist (ph_coast p) < d) by (destruct E2 as [E2|E2]; [left; exact E2|right; qb; exact E2]).
  clear E2. right. split; [exact A|]. split; [exact C|].
  destruct (nonempty (ph_deaccels p) && _) eqn:E3; [|discriminate].
  destruct (first_at _ (ph_deaccels p) d) as [s|] eqn:F; [|discriminate]. injection H as <-.
  exists s. split; [|reflexivity]. apply first_at_past in F. eapply first_past_comp; [|exact F]. ring.
Qed.
Lemma to_relative_seconds t n : si_to_relative_time t = Ok n -> n = seconds t.
Proof. unfold si_to_relative_time, seconds. destruct (_ && _); [|discriminate]. congruence. Qed.
Lemma seconds_comp x y : x == y -> seconds x = seconds y.
Proof. intros E. unfold seconds. rewrite E. reflexivity. Qed.
Lemma clocked_comp start il : forall c c' prev ps l, c == c' -> clocked start c prev il ps l -> clocked start c' prev il ps l.
Proof.
  induction il as [|iv il IH]; intros c c' prev [|p ps] l E; cbn [clocked]; try tauto.
  intros (arr & dep & here & rest & A1 & A2 & A3 & A4 & A5). exists arr, dep, here, rest.
  split; [exact A1|]. split; [rewrite A2; f_equal; apply seconds_comp; lra|]. split; [exact A3|].
  rewrite <- (seconds_comp _ _ E). split; [exact A4|]. eapply IH; [|exact A5]. lra.
Qed.
Lemma run_intervals_clocked fuel tp start l : forall prev c v ts c' v' ts',
  run_intervals fuel tp start prev l (c, v, ts) = Ok (c', v', ts') ->
  exists ps stamps, drive fuel tp v prev l ps /\ tss_times ts' = tss_times ts ++ stamps /\
    clocked start c prev l ps stamps.
Proof.
  induction l as [|iv l IH]; intros prev c v ts c' v' ts'; cbn [run_intervals].
  { intros [= <- <- <-]. exists [], []. rewrite app_nil_r. repeat split. }
  intros H. inv_bind H. destruct x as [[c2 v2] ts2]. rename B into R. unfold run_interval in R.
  inv_bind R. clear B x. inv_bind R. rename B into B1, x into x0. inv_bind R. rename B into B2, x into x1.
  inv_bind R. rename B into B3, x into x2. cbv zeta in R. inv_bind R. rename B into B4, x into x3.
  inv_bind R. rename B into B5, x into x4. inv_bind R. rename B into B6.
  destruct x as [dep clock2]. inv_bind R. rename B into B7, x into ts3. inv_bind R. injection R as <- <- <-.
  destruct (IH _ _ _ _ _ _ _ H) as (ps & rest & D & T & C).
  apply plus_time_ok in B3. destruct B3 as (-> & _). apply plus_time_ok in B5. destruct B5 as (-> & _).
  apply to_relative_seconds in B2. subst x1. apply to_relative_seconds in B4. subst x3.
  apply determine_events_ok in B7. destruct B7 as (here & T1 & F). clear B x.
  exists (x0 :: ps), (here ++ rest). split; [|split].
  - cbn [drive]. split; [exact B1|]. unfold exit_sample. destruct (ph_deaccels x0), (ph_coasts x0); exact D.
  - rewrite T, T1, <- app_assoc. reflexivity.
  - cbn [clocked]. exists (start + seconds (c + drive_time x0))%N, dep, here, rest.
    assert (LV : leaves (iv_stop iv) (start + seconds (c + drive_time x0)) dep /\
                 clock2 == c + drive_time x0 + inject_Z (Z.of_N (dep - (start + seconds (c + drive_time x0))))).
    { unfold drive_time. unfold leaves. destruct (iv_stop iv) as [st|].
      - inv_bind B6. apply plus_time_ok in B. destruct B as (-> & _). inv_bind B6. apply minus_time_ok in B.
        destruct B as (-> & _). injection B6 as <- <-. split; [reflexivity|]. reflexivity.
      - injection B6 as <- <-. split; [reflexivity|]. rewrite N.sub_diag. cbn. ring. }
    destruct LV as (LV & EC). split; [reflexivity|]. split; [reflexivity|]. split; [exact LV|]. split.
    + eapply Forall2_weaken; [|exact F]. intros e t (E & G). split; [exact E|].
      destruct G as [(G & G1 & G2)|(G & q & n & G1 & G2 & G3 & G4)]; (split; [intros X|intros X]); try contradiction.
      * auto.
      * split; [congruence|]. exists q. split; [apply event_time_passes; exact G1|].
        apply to_relative_seconds in G2. subst n. exact G3.
    + eapply clocked_comp; [exact EC|exact C].
Qed.
