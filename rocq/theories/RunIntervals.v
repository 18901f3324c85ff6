From Coq Require Import Lqa Qround.
From Verif Require Import Base PhysModel PhysSpec PhysProofs RunModel RunSpec RunProofs RunTimes.

(* limits may change, everything else stays *)
Definition same_shape (a b : interval) : Prop :=
  iv_dist a = iv_dist b /\ iv_stop a = iv_stop b /\ iv_events a = iv_events b.
Lemma same_shape_refl a : same_shape a a.
Proof. repeat split. Qed.
Lemma same_shape_trans a b c : same_shape a b -> same_shape b c -> same_shape a c.
Proof. unfold same_shape. intuition congruence. Qed.
Lemma shapes_refl l : Forall2 same_shape l l.
Proof. induction l; constructor; auto using same_shape_refl. Qed.
Lemma shapes_trans a b c : Forall2 same_shape a b -> Forall2 same_shape b c -> Forall2 same_shape a c.
Proof.
  intros H. revert c. induction H; intros c Hc; inversion Hc; subst; constructor; eauto using same_shape_trans.
Qed.

Lemma adjust_pass_shape fuel tp l : forall prev l' b, adjust_pass fuel tp prev l = Ok (l', b) ->
  Forall2 same_shape (prev :: l) l'.
Proof.
  induction l as [|iv l IH]; intros prev l' b; cbn [adjust_pass].
  - intros [= <- <-]. apply shapes_refl.
  - intros H. inv_bind H. inv_bind H. destruct (qle (qmin x x0) (iv_right iv) && negb (is_halt iv)).
    + inv_bind H. destruct x1 as [r c]. injection H as <- <-. constructor; [apply same_shape_refl|]. eauto.
    + inv_bind H. inv_bind H. destruct (qle (s_dist (back x2)) (iv_dist iv - iv_dist prev)).
      * inv_bind H. destruct x3 as [r c]. injection H as <- <-. constructor; [apply same_shape_refl|]. eauto.
      * inv_bind H. inv_bind H. inv_bind H. inv_bind H. destruct x6 as [r c]. injection H as <- <-.
        constructor; [repeat split|]. apply IH in B6. inversion B6; subst. constructor; [|assumption].
        eapply same_shape_trans; [|eassumption]. repeat split.
Qed.
Lemma adjust_all_shape fuel bfuel tp : forall l l', adjust_all fuel bfuel tp l = Ok l' -> Forall2 same_shape l l'.
Proof.
  assert (A : forall l r b, adjust_speed_limits bfuel tp l = Ok (r, b) -> Forall2 same_shape l r).
  { intros [|iv l] r b; cbn [adjust_speed_limits]; [intros [= <- <-]; constructor|apply adjust_pass_shape]. }
  induction fuel as [|fuel IH]; intros l l'; cbn [adjust_all]; intros H; inv_bind H; destruct x as [r b];
    apply A in B; destruct b; try discriminate.
  - injection H as <-. exact B.
  - apply IH in H. eapply shapes_trans; eauto.
  - injection H as <-. exact B.
Qed.

Lemma spl_loop_shape new rep l : forall c, Forall2 same_shape l (fst (spl_loop new rep c l)).
Proof.
  induction l as [|iv l IH]; intros c; cbn [spl_loop]; [constructor|].
  assert (E : same_shape iv (if c then set_left new iv else iv)) by (destruct c; repeat split).
  cbv zeta. destruct (fuzzy_eq (iv_right (if c then set_left new iv else iv)) rep).
  - specialize (IH true). destruct (spl_loop new rep true l) as [l' n]. cbn [fst] in *. constructor; [|exact IH].
    eapply same_shape_trans; [exact E|]. repeat split.
  - constructor; [exact E|apply shapes_refl].
Qed.
Lemma insert_spl_shape new l k l' u : insert_last_signal_spl new l k = (l', u) -> Forall2 same_shape l l'.
Proof.
  unfold insert_last_signal_spl. destruct (skipn k l) as [|iv r] eqn:E.
  - intros [= <- <-]. apply shapes_refl.
  - pose proof (spl_loop_shape new (iv_right iv) (iv :: r) false) as S.
    destruct (spl_loop new (iv_right iv) false (iv :: r)) as [r' n]. cbn [fst] in S. intros [= <- <-].
    rewrite <- (firstn_skipn k l) at 1. rewrite E. apply Forall2_app; [apply shapes_refl|exact S].
Qed.

(* ---- the loop of get_interval_list ---- *)
Definition to_event (x : tnode * Q) : event := mkevent (tn_elem (fst x)) (snd x).
Definition wanted (x : tnode * Q) : bool := tn_record (fst x) && negb (tn_omitted (fst x)).
(* an interval made of the nodes g; P: all nodes so far *)
Definition covers (P g : list (tnode * Q)) (iv : interval) : Prop :=
  iv_events iv = map to_event g /\
  (forall x, In x g -> snd x < iv_dist iv + (1#100)) /\
  (forall x st, In x g -> stops (fst x) st -> iv_stop iv = Some st /\ near (snd x) (iv_dist iv)) /\
  (forall st, iv_stop iv = Some st -> exists x, In x P /\ stops (fst x) st /\ near (snd x) (iv_dist iv)).

Fixpoint ascending_ivs (l : list interval) : Prop :=
  match l with
  | iv :: ((iv' :: _) as l') => iv_dist iv < iv_dist iv' /\ ascending_ivs l'
  | _ => True
  end.
Lemma ascending_ivs_shape l l' : Forall2 same_shape l l' -> ascending_ivs l -> ascending_ivs l'.
Proof.
  induction 1 as [|a b l l' S F IH]; auto. intros H. destruct F as [|c d l l' S' F]; [exact I|].
  cbn [ascending_ivs] in *. destruct S as (S & _), S' as (S' & _). split; [rewrite <- S, <- S'; tauto|]. apply IH. tauto.
Qed.
Lemma ascending_ivs_snoc l iv : ascending_ivs l ->
  (forall k b, l = k ++ [b] -> iv_dist b < iv_dist iv) -> ascending_ivs (l ++ [iv]).
Proof.
  induction l as [|a l IH]; intros H L; [exact I|]. destruct l as [|b l].
  - cbn [app ascending_ivs]. split; [|exact I]. apply (L [] a). reflexivity.
  - cbn [app ascending_ivs] in *. split; [tauto|]. apply IH; [tauto|]. intros k c E. apply (L (a :: k) c). rewrite E. reflexivity.
Qed.
Lemma ascending_ivs_last k b b' : iv_dist b = iv_dist b' -> ascending_ivs (k ++ [b]) -> ascending_ivs (k ++ [b']).
Proof.
  intros E. induction k as [|a k IH]; [auto|]. destruct k as [|c k]; cbn [app ascending_ivs] in *.
  - rewrite E. tauto.
  - intros (A & B). split; [exact A|]. apply IH. exact B.
Qed.

Record il_inv (P : list (tnode * Q)) (s : ilstate) (groups : list (list (tnode * Q))) (pend : list (tnode * Q)) : Prop := {
  in_rec : filter wanted P = concat groups ++ pend;
  in_list : Forall2 (covers P) groups (il_list s);
  in_asc : ascending_ivs (il_list s);
  in_last : forall k b, il_list s = k ++ [b] -> iv_dist b <= il_dist s;
  in_events : il_events s = map to_event pend;
  in_pend : forall x, In x pend -> snd x <= il_dist s /\ forall st, ~ stops (fst x) st }.

Lemma covers_more P Q g iv : (forall x, In x P -> In x Q) -> covers P g iv -> covers Q g iv.
Proof.
  intros H (A & B & C & D). repeat split; auto.
  - apply (C x st); auto.
  - apply (C x st); auto.
  - apply (C x st); auto.
  - intros st Hs. destruct (D st Hs) as (x & X1 & X2). exists x. auto.
Qed.
Lemma covers_shape P g a b : same_shape a b -> covers P g a -> covers P g b.
Proof. intros (E1 & E2 & E3) H. unfold covers in *. rewrite <- E1, <- E2, <- E3. exact H. Qed.
Lemma covers_shapes P gs l l' : Forall2 same_shape l l' -> Forall2 (covers P) gs l -> Forall2 (covers P) gs l'.
Proof.
  intros H. revert gs. induction H as [|a b l l' S F IH]; intros gs G; inversion G; subst; constructor.
  - eapply covers_shape; eauto.
  - auto.
Qed.

(* the first group stays first, only longer *)
Definition grows {A} (a b : list (list A)) : Prop :=
  forall g r, a = g :: r -> exists e r', b = (g ++ e) :: r'.
Lemma grows_refl {A} (a : list (list A)) : grows a a.
Proof. intros g r ->. exists [], r. rewrite app_nil_r. reflexivity. Qed.
Lemma grows_trans {A} (a b c : list (list A)) : grows a b -> grows b c -> grows a c.
Proof.
  intros H K g r E. destruct (H g r E) as (e & r' & E'). destruct (K _ _ E') as (e' & r2 & E2).
  exists (e ++ e'), r2. rewrite app_assoc. exact E2.
Qed.
Lemma grows_last {A} (a : list (list A)) g e : grows (a ++ [g]) (a ++ [g ++ e]).
Proof.
  intros h r E. destruct a as [|x a]; cbn [app] in *; injection E as -> <-; [eauto|].
  exists [], (a ++ [g ++ e]). rewrite app_nil_r. reflexivity.
Qed.
Lemma grows_new {A} (a : list (list A)) g : grows a (a ++ [g]).
Proof. intros h r ->. exists [], (r ++ [g]). rewrite app_nil_r. reflexivity. Qed.

Lemma il_step_inv P s groups pend tn s' : 0 <= tn_step tn ->
  il_inv P s groups pend -> il_step s tn = Ok s' ->
  il_dist s' = il_dist s + tn_step tn /\
  exists groups' pend', il_inv (P ++ [(tn, il_dist s + tn_step tn)]) s' groups' pend' /\
    (border tn -> pend' = []) /\ grows groups groups' /\ (length groups' <= S (length groups))%nat.
Proof.
  intros Hstep I. unfold il_step. set (d := il_dist s + tn_step tn). cbn [il_list il_dist il_last_ms il_prev il_cur il_events].
  set (x := (tn, d)). set (P' := P ++ [x]).
  assert (INC : forall y, In y P -> In y P') by (intros y Hy; apply in_or_app; auto).
  assert (Ix : In x P') by (apply in_or_app; right; left; reflexivity).
  destruct (tn_omitted tn) eqn:Eo.
  { intros [= <-]. cbn [il_dist]. split; [reflexivity|]. exists groups, pend. split.
    - constructor; cbn [il_list il_dist il_events].
      + unfold P'. rewrite filter_app. cbn [filter]. unfold wanted at 2. cbn [fst x]. rewrite Eo, andb_false_r, app_nil_r. apply I.
      + eapply Forall2_weaken; [|apply I]. intros g iv. apply covers_more. exact INC.
      + apply I.
      + intros k b E. pose proof (in_last _ _ _ _ I k b E). unfold d. lra.
      + apply I.
      + intros y Hy. destruct (in_pend _ _ _ _ I y Hy) as (A & B). split; [unfold d; lra|exact B].
    - split; [intros (B & _); congruence|]. split; [apply grows_refl|lia]. }
  (* the variables after the speed limits *)
  set (s1 := match tn_last_signal tn with Some q => _ | None => _ end).
  set (s2 := match tn_here tn with Some q => _ | None => s1 end).
  set (s3 := match tn_kind tn with SIGNAL => _ | HALTPOS => s2 | OTHER => s2 end).
  set (s4 := if tn_record tn then _ else s3).
  assert (A1 : Forall2 same_shape (il_list s) (il_list s1) /\ il_dist s1 = d /\ il_events s1 = il_events s).
  { unfold s1. destruct (tn_last_signal tn) as [q|]; [|split; [apply shapes_refl|split; reflexivity]].
    destruct (insert_last_signal_spl q (il_list s) (il_last_ms s)) as [l u] eqn:Ei.
    apply insert_spl_shape in Ei. destruct (Nat.eqb u (length l)); cbn [il_list il_dist il_events]; auto. }
  assert (A3 : Forall2 same_shape (il_list s) (il_list s3) /\ il_dist s3 = d /\ il_events s3 = il_events s).
  { unfold s3, s2. destruct (tn_kind tn), (tn_here tn); exact A1. }
  destruct A3 as (L3 & D3 & E3). clear A1.
  set (pend1 := pend ++ (if tn_record tn then [x] else [])).
  assert (A4 : il_list s4 = il_list s3 /\ il_dist s4 = d /\ il_events s4 = map to_event pend1).
  { unfold s4, pend1. destruct (tn_record tn); cbn [il_list il_dist il_events].
    - rewrite D3, E3, (in_events _ _ _ _ I), map_app. auto.
    - rewrite app_nil_r, E3, (in_events _ _ _ _ I). auto. }
  destruct A4 as (L4 & D4 & E4). clearbody s4. rewrite <- L4 in L3. clear L4 D3 E3. clearbody s3. clear s3. clearbody s2. clear s2. clearbody s1. clear s1.
  assert (F : filter wanted P' = concat groups ++ pend1).
  { unfold P', pend1. rewrite filter_app. cbn [filter]. unfold wanted at 2. cbn [fst x]. rewrite Eo, andb_true_r, (in_rec _ _ _ _ I), app_assoc.
    reflexivity. }
  assert (C4 : Forall2 (covers P') groups (il_list s4)).
  { eapply covers_shapes; [exact L3|]. eapply Forall2_weaken; [|apply I]. intros g iv. apply covers_more. exact INC. }
  assert (As4 : ascending_ivs (il_list s4)) by (eapply ascending_ivs_shape; [exact L3|apply I]).
  assert (La4 : forall k b, il_list s4 = k ++ [b] -> iv_dist b <= d).
  { intros k b E. rewrite E in L3. apply Forall2_app_inv_r in L3. destruct L3 as (k0 & b0 & S1 & S2 & S3).
    inversion S2 as [|b1 ? ? ? (T1 & _) T2]; subst. inversion T2; subst. rewrite <- T1.
    pose proof (in_last _ _ _ _ I k0 b1 S3). unfold d. lra. }
  assert (Pd : forall y, In y pend1 -> snd y <= d /\ (forall st, stops (fst y) st -> y = x)).
  { intros y Hy. apply in_app_or in Hy. destruct Hy as [Hy|Hy].
    - destruct (in_pend _ _ _ _ I y Hy) as (P1 & P2). split; [unfold d; lra|]. intros st Hs. destruct (P2 st Hs).
    - destruct (tn_record tn); [|destruct Hy]. destruct Hy as [<-|[]]. split; [cbn; lra|reflexivity]. }
  destruct ((match tn_kind tn with SIGNAL | HALTPOS => true | OTHER => false end) || match tn_here tn with Some _ => true | None => false end) eqn:Eb.
  - (* a border *)
    assert (BD : border tn).
    { split; [exact Eo|]. destruct (tn_kind tn); [left; discriminate|left; discriminate|].
      destruct (tn_here tn); [right; discriminate|discriminate]. }
    intros H. unfold push_interval in H. inv_bind H. injection H as <-. cbn [il_dist]. rewrite D4.
    split; [reflexivity|].
    assert (NEW : covers P' pend1 (mkiv d (il_prev s4) (il_cur s4) (tn_stop tn) (map to_event pend1))).
    { split; [reflexivity|]. cbn [iv_dist iv_stop]. split; [|split].
      - intros y Hy. destruct (Pd y Hy). lra.
      - intros y st Hy Hs. destruct (Pd y Hy) as (_ & Y). specialize (Y st Hs). subst y.
        destruct Hs as (_ & Hs). split; [exact Hs|]. cbn [snd x]. unfold near. lra.
      - intros st Hs. exists x. split; [exact Ix|]. split; [split; [exact BD|exact Hs]|]. cbn [snd x]. unfold near. lra. }
    rewrite D4, E4 in B.
    destruct (rev (il_list s4)) as [|b r] eqn:Er.
    + (* first *)
      injection B as <-. assert (N : il_list s4 = []) by (rewrite <- (rev_involutive (il_list s4)), Er; reflexivity).
      rewrite N in C4. inversion C4; subst groups. exists [pend1], []. split; [|split; [auto|split; [intros ? ?; discriminate|cbn; lia]]].
      constructor; cbn [il_list il_dist il_events]; auto.
      * cbn [concat app] in *. rewrite !app_nil_r. exact F.
      * exact Logic.I.
      * intros k b E. destruct k as [|? [|? ?]]; try discriminate. injection E as <-. cbn [iv_dist]. lra.
      * intros y [].
    + assert (Ls : il_list s4 = rev r ++ [b]) by (rewrite <- (rev_involutive (il_list s4)), Er; reflexivity).
      pose proof (La4 _ _ Ls) as Lb.
      destruct (fuzzy_eq (iv_dist b) d) eqn:Ef.
      * (* appended *)
        apply fuzzy_near in Ef. inv_bind B. injection B as <-. unfold append in B0. inv_bind B0. injection B0 as <-.
        apply sassert_ok in B. unfold is_halt in B. cbn [iv_stop iv_dist iv_left iv_right iv_events rev] in *.
        rewrite Ls in C4. apply Forall2_app_inv_r in C4. destruct C4 as (gs & g1 & G1 & G2 & ->).
        inversion G2 as [|g ? ? ? Cg Cn]; subst. inversion Cn; subst. clear G2 Cn.
        exists (gs ++ [g ++ pend1]), []. split; [|split; [auto|split; [apply grows_last|rewrite !app_length; cbn; lia]]].
        constructor; cbn [il_list il_dist il_events]; auto.
        -- rewrite F, !concat_app. cbn [concat]. rewrite !app_nil_r, !app_assoc. reflexivity.
        -- apply Forall2_app; [exact G1|]. constructor; [|constructor].
           destruct Cg as (C1 & C2 & C3 & C5). destruct NEW as (N1 & N2 & N3 & N4). cbn [iv_dist iv_stop] in *.
           split; [cbn [iv_events]; rewrite map_app, C1; reflexivity|]. cbn [iv_dist iv_stop].
           split; [|split].
           ++ intros y Hy. apply in_app_or in Hy. destruct Hy as [Hy|Hy]; [apply C2; exact Hy|].
              destruct (Pd y Hy) as (P1 & _). unfold near in Ef. lra.
           ++ intros y st Hy Hs. apply in_app_or in Hy. destruct Hy as [Hy|Hy].
              ** destruct (C3 y st Hy Hs) as (C6 & C7). split; [|exact C7].
                 rewrite C6 in B |- *. cbn [andb] in B. destruct (tn_stop tn); [discriminate|reflexivity].
              ** destruct (N3 y st Hy Hs) as (N6 & N7). rewrite N6. split; [reflexivity|].
                 destruct (Pd y Hy) as (_ & Y). specialize (Y st Hs). subst y. cbn [snd x]. unfold near in *. lra.
           ++ intros st Hs. destruct (tn_stop tn) as [st'|] eqn:Et.
              ** injection Hs as <-. exists x. split; [exact Ix|]. split; [split; [exact BD|exact Et]|]. cbn [snd x]. unfold near in *. lra.
              ** destruct (C5 st Hs) as (y & Y). exists y. exact Y.
        -- eapply ascending_ivs_last; [|rewrite <- Ls; exact As4]. reflexivity.
        -- intros k c E. apply app_inj_tail in E. destruct E as (_ & <-). cbn [iv_dist]. exact Lb.
        -- intros y [].
      * (* a new interval *)
        apply fuzzy_not_near in Ef. injection B as <-.
        exists (groups ++ [pend1]), []. split; [|split; [auto|split; [apply grows_new|rewrite !app_length; cbn; lia]]].
        constructor; cbn [il_list il_dist il_events]; auto.
        -- rewrite F, !concat_app. cbn [concat]. rewrite !app_nil_r. reflexivity.
        -- apply Forall2_app; [exact C4|]. constructor; [exact NEW|constructor].
        -- apply ascending_ivs_snoc; [exact As4|]. intros k c E. rewrite Ls in E. apply app_inj_tail in E.
           destruct E as (_ & <-). cbn [iv_dist]. apply Qnot_le_lt. intros G. apply Ef. unfold near. lra.
        -- intros k c E. apply app_inj_tail in E. destruct E as (_ & <-). cbn [iv_dist]. lra.
        -- intros y [].
  - intros [= <-]. split; [exact D4|]. exists groups, pend1. split.
    + constructor; auto.
      * intros k b E. rewrite D4. exact (La4 k b E).
      * intros y Hy. destruct (Pd y Hy) as (P1 & P2). rewrite D4. split; [exact P1|].
        intros st Hs. pose proof (P2 st Hs) as ->. destruct Hs as ((_ & [G|G]) & _); cbn [fst x] in G.
        -- destruct (tn_kind tn); cbn in Eb; congruence.
        -- destruct (tn_here tn); [|congruence]. rewrite orb_true_r in Eb. discriminate.
    + split; [|split; [apply grows_refl|lia]]. intros (_ & [G|G]).
      * destruct (tn_kind tn); cbn in Eb; congruence.
      * destruct (tn_here tn); [|congruence]. rewrite orb_true_r in Eb. discriminate.
Qed.

Lemma il_steps_inv ns : forall P s groups pend s', (forall n, In n ns -> 0 <= tn_step n) ->
  il_inv P s groups pend -> il_steps s ns = Ok s' ->
  exists groups' pend', il_inv (P ++ placed (il_dist s) ns) s' groups' pend' /\
    (ns = [] -> pend' = pend) /\
    (forall k n, ns = k ++ [n] -> border n -> pend' = []) /\ grows groups groups'.
Proof.
  induction ns as [|n ns IH]; intros P s groups pend s' Hn I; cbn [il_steps placed].
  - intros [= <-]. exists groups, pend. rewrite app_nil_r. split; [exact I|]. split; [reflexivity|].
    split; [intros [|? ?]; discriminate|apply grows_refl].
  - intros H. inv_bind H.
    destruct (il_step_inv P s groups pend n x) as (E & g1 & p1 & I1 & N1 & G1 & _); auto; [apply Hn; left; reflexivity|].
    destruct (IH _ _ _ _ s' (fun m Hm => Hn m (or_intror Hm)) I1 H) as (g2 & p2 & I2 & N0 & N2 & G2).
    exists g2, p2. rewrite <- app_assoc, E in I2. split; [exact I2|]. split; [discriminate|].
    split; [|eapply grows_trans; eauto].
    intros k m Ek Bm. destruct k as [|a k].
    + injection Ek as -> ->. rewrite N0 by reflexivity. apply N1. exact Bm.
    + injection Ek as -> ->. apply (N2 k m); auto.
Qed.
Lemma il_steps_first n ns s : (forall m, In m (n :: ns) -> 0 <= tn_step m) ->
  forall v, il_steps (mkil [] 0 0 None v []) (n :: ns) = Ok s -> border n -> tn_record n = true ->
  exists groups pend, il_inv (placed 0 (n :: ns)) s groups pend /\
    (forall k m, n :: ns = k ++ [m] -> border m -> pend = []) /\
    exists e r, groups = ((n, 0 + tn_step n) :: e) :: r.
Proof.
  intros Hn v H BD R. cbn [il_steps] in H. inv_bind H.
  assert (I0 : il_inv [] (mkil [] 0 0 None v []) [] []).
  { constructor; try reflexivity; [apply Forall2_nil|intros [|? ?]; discriminate|intros y []]. }
  destruct (il_step_inv [] _ [] [] n x (Hn n (or_introl eq_refl)) I0 B) as (E & g1 & p1 & I1 & N1 & _ & L1).
  specialize (N1 BD). subst p1. cbn [il_dist app] in I1, E.
  pose proof (in_rec _ _ _ _ I1) as F. cbn [filter] in F. unfold wanted in F. cbn [fst] in F.
  destruct BD as (O & BD). rewrite R, O in F. cbn [negb andb] in F. rewrite app_nil_r in F.
  assert (G : g1 = [[(n, 0 + tn_step n)]]).
  { destruct g1 as [|g [|? ?]]; [discriminate| |cbn in L1; lia]. cbn [concat] in F. rewrite app_nil_r in F. congruence. }
  destruct (il_steps_inv ns _ _ _ _ _ (fun m Hm => Hn m (or_intror Hm)) I1 H) as (g2 & p2 & I2 & N0 & N2 & G2).
  exists g2, p2. rewrite E in I2. split; [exact I2|]. split.
  - intros k m Ek Bm. destruct k as [|a k].
    + injection Ek as -> ->. rewrite N0 by reflexivity. reflexivity.
    + injection Ek as -> ->. apply (N2 k m); auto.
  - destruct (G2 _ _ G) as (e & r & G3). exists e, r. exact G3.
Qed.
