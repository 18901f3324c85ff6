From Coq Require Import Lqa Qround.
From Verif Require Import Base PhysModel PhysSpec PhysProofs RunModel RunSpec RunProofs RunTimes RunIntervals.

Lemma StronglySorted_app_inv {A} (R : A -> A -> Prop) l k : StronglySorted R (l ++ k) ->
  StronglySorted R l /\ StronglySorted R k /\ forall a b, In a l -> In b k -> R a b.
Proof.
  induction l as [|x l IH]; cbn [app]; intros H.
  - split; [constructor|]. split; [exact H|]. intros a b [].
  - apply StronglySorted_inv in H. destruct H as (H1 & H2). destruct (IH H1) as (A1 & A2 & A3).
    rewrite Forall_app in H2. destruct H2 as (H2 & H3). split; [constructor; auto|]. split; [exact A2|].
    intros a b [<-|Ha] Hb; [|auto]. rewrite Forall_forall in H3. auto.
Qed.
Lemma StronglySorted_app_intro {A} (R : A -> A -> Prop) l k : StronglySorted R l -> StronglySorted R k ->
  (forall a b, In a l -> In b k -> R a b) -> StronglySorted R (l ++ k).
Proof.
  induction l as [|x l IH]; cbn [app]; intros H K C; [exact K|].
  apply StronglySorted_inv in H. destruct H as (H1 & H2). constructor.
  - apply IH; auto. intros a b Ha Hb. apply C; [right|]; auto.
  - rewrite Forall_app. split; [exact H2|]. apply Forall_forall. intros b Hb. apply C; [left; reflexivity|exact Hb].
Qed.
Lemma StronglySorted_filter {A} (R : A -> A -> Prop) f l : StronglySorted R l -> StronglySorted R (filter f l).
Proof.
  induction 1 as [|a l S IH F]; cbn [filter]; [constructor|]. destruct (f a); [|exact IH].
  constructor; [exact IH|]. rewrite Forall_forall in *. intros x Hx. apply filter_In in Hx. apply F. tauto.
Qed.
Lemma StronglySorted_map {A B} (R : A -> A -> Prop) (S : B -> B -> Prop) (f : A -> B) l :
  (forall a b, R a b -> S (f a) (f b)) -> StronglySorted R l -> StronglySorted S (map f l).
Proof.
  intros H. induction 1 as [|a l S' IH F]; cbn [map]; constructor; [exact IH|].
  rewrite Forall_map. eapply Forall_impl; [|exact F]. intros b. apply H.
Qed.
Lemma StronglySorted_nth {A} (R : A -> A -> Prop) l : StronglySorted R l ->
  forall i j a b, (i < j)%nat -> nth_error l i = Some a -> nth_error l j = Some b -> R a b.
Proof.
  induction 1 as [|x l S IH F]; intros i j a b L Ha Hb; [destruct i; discriminate|].
  destruct j as [|j]; [lia|]. cbn [nth_error] in Hb. destruct i as [|i].
  - injection Ha as <-. rewrite Forall_forall in F. apply F. eapply nth_error_In; eauto.
  - cbn [nth_error] in Ha. eapply (IH i j); eauto. lia.
Qed.

Definition farther (x y : tnode * Q) : Prop := snd x <= snd y.
Lemma placed_sorted ns : forall d, (forall n, In n ns -> 0 <= tn_step n) ->
  StronglySorted farther (placed d ns) /\ Forall (fun x => d <= snd x) (placed d ns).
Proof.
  induction ns as [|n ns IH]; intros d H; cbn [placed]; [split; constructor|].
  destruct (IH (d + tn_step n)) as (A & B); [intros m Hm; apply H; right; exact Hm|].
  assert (0 <= tn_step n) by (apply H; left; reflexivity). split.
  - constructor; [exact A|]. eapply Forall_impl; [|exact B]. intros x Hx. exact Hx.
  - constructor; [cbn [snd]; lra|]. eapply Forall_impl; [|exact B]. intros x Hx. cbn beta in *. lra.
Qed.

Lemma F2_length {A B} (R : A -> B -> Prop) l k : Forall2 R l k -> length l = length k.
Proof. induction 1; cbn; congruence. Qed.

(* ---- the interval list of a train ---- *)
Lemma interval_list_ok fuel tp v ns il : get_interval_list fuel tp v ns = Ok il ->
  (forall n, In n ns -> 0 <= tn_step n) ->
  exists groups pend, recorded ns = concat groups ++ pend /\
    Forall2 (covers (placed 0 ns)) groups il /\ ascending_ivs il /\
    (forall x, In x pend -> forall st, ~ stops (fst x) st) /\
    (forall k n, ns = k ++ [n] -> border n -> pend = []) /\
    (forall n l, ns = n :: l -> border n -> tn_record n = true -> exists e r, groups = ((n, 0 + tn_step n) :: e) :: r).
Proof.
  unfold get_interval_list. intros H P. inv_bind H.
  assert (I0 : il_inv [] (mkil [] 0 0 None v []) [] []).
  { constructor; try reflexivity; [apply Forall2_nil|intros [|? ?]; discriminate|intros y []]. }
  assert (A : exists g p, il_inv (placed 0 ns) x g p /\
    (forall k n, ns = k ++ [n] -> border n -> p = []) /\
    (forall n l, ns = n :: l -> border n -> tn_record n = true -> exists e r, g = ((n, 0 + tn_step n) :: e) :: r)).
  { assert (Gen : exists g p, il_inv (placed 0 ns) x g p /\ (forall k n, ns = k ++ [n] -> border n -> p = [])).
    { destruct (il_steps_inv ns [] _ _ _ _ P I0 B) as (g & p & I & _ & N & _). exists g, p. auto. }
    destruct ns as [|n ns].
    { destruct Gen as (g & p & I & N). exists g, p. split; [exact I|]. split; [exact N|]. discriminate. }
    destruct (tn_record n && negb (tn_omitted n) && ((match tn_kind n with SIGNAL | HALTPOS => true | OTHER => false end) || match tn_here n with Some _ => true | None => false end)) eqn:Eb.
    - apply andb_prop in Eb. destruct Eb as (Eb & E3). apply andb_prop in Eb. destruct Eb as (E1 & E2). apply negb_true_iff in E2.
      assert (BD : border n).
      { split; [exact E2|]. destruct (tn_kind n); [left; discriminate|left; discriminate|]. destruct (tn_here n); [right; discriminate|discriminate]. }
      destruct (il_steps_first n ns x P v B BD E1) as (g & p & I & N & F). exists g, p.
      split; [exact I|]. split; [exact N|]. intros m l [= <- <-] _ _. exact F.
    - destruct Gen as (g & p & I & N). exists g, p. split; [exact I|]. split; [exact N|].
      intros m l [= <- <-] (O & BD) R. exfalso. rewrite R, O in Eb. cbn [negb andb] in Eb.
      destruct BD as [BD|BD]; [destruct (tn_kind n); try discriminate; congruence|].
      destruct (tn_here n); [rewrite orb_true_r in Eb; discriminate|congruence]. }
  destruct A as (g & p & I & N & F).
  apply adjust_all_shape in H. exists g, p. split; [apply I|]. split; [eapply covers_shapes; [exact H|apply I]|].
  split; [eapply ascending_ivs_shape; [exact H|apply I]|]. split; [|split; [exact N|exact F]].
  intros y Hy. apply (in_pend _ _ _ _ I y Hy).
Qed.

Lemma covers_fit P g iv : StronglySorted farther g -> covers P g iv -> events_fit iv.
Proof.
  intros S (C1 & C2 & _). split.
  - rewrite C1. eapply StronglySorted_map; [|exact S]. intros a b Hab. exact Hab.
  - intros e He. rewrite C1 in He. apply in_map_iff in He. destruct He as (x & <- & Hx). exact (C2 x Hx).
Qed.
Lemma groups_fit P : forall groups first il, Forall2 (covers P) groups il -> StronglySorted farther (concat groups) ->
  ascending_ivs (first :: il) -> intervals_fit first il.
Proof.
  intros groups first il H. revert first. induction H as [|g iv gs il C F IH]; intros first S A; [exact I|].
  cbn [concat] in S. apply StronglySorted_app_inv in S. destruct S as (S1 & S2 & _).
  cbn [intervals_fit]. split; [apply A|]. split; [exact (covers_fit P g iv S1 C)|]. apply IH; [exact S2|]. apply A.
Qed.

(* one node and its timestamp *)
Definition node_time (P : list (tnode * Q)) (x : tnode * Q) (t : timestamp) : Prop :=
  ts_elem t = tn_elem (fst x) /\ (ts_arrival t <= ts_departure t)%N /\
  (forall st, stops (fst x) st -> leaves (Some st) (ts_arrival t) (ts_departure t)) /\
  (ts_departure t <> ts_arrival t ->
    exists y st, In y P /\ stops (fst y) st /\ snd x - snd y < 2#100 /\ snd y - snd x < 2#100 /\
      leaves (Some st) (ts_arrival t) (ts_departure t)).
(* two timestamps of which the first one is listed first *)
Definition in_turn (a b : (tnode * Q) * timestamp) : Prop :=
  not_before (snd a) (snd b) /\
  ((ts_departure (snd a) <= ts_arrival (snd b))%N \/
   (ts_arrival (snd a) = ts_arrival (snd b) /\ ts_departure (snd a) = ts_departure (snd b) /\
    snd (fst b) - snd (fst a) < 2#100)).

Lemma Forall2_combine {A B} (R : A -> B -> Prop) l k : Forall2 R l k -> forall a b, In (a, b) (combine l k) -> R a b.
Proof.
  induction 1 as [|x y l k H F IH]; cbn [combine]; intros a b; [intros []|]. intros [[= <- <-]|G]; auto.
Qed.
Lemma combine_app {A B} (l l' : list A) (k k' : list B) : length l = length k ->
  combine (l ++ l') (k ++ k') = combine l k ++ combine l' k'.
Proof.
  revert k. induction l as [|a l IH]; intros [|b k] H; try discriminate; cbn [app combine]; [reflexivity|].
  rewrite IH; auto.
Qed.

Lemma near_dec x y : near x y \/ ~ near x y.
Proof. destruct (fuzzy_eq x y) eqn:E; [left; apply fuzzy_near|right; apply fuzzy_not_near]; exact E. Qed.

Lemma group_times P g iv d arr dep here : covers P g iv -> StronglySorted farther g ->
  (d <= arr)%N -> leaves (iv_stop iv) arr dep ->
  Forall2 (stamped iv d arr dep) (iv_events iv) here -> StronglySorted not_before here ->
  Forall2 (node_time P) g here /\ StronglySorted in_turn (combine g here) /\
  Forall (fun t => (d <= ts_arrival t)%N /\ (ts_departure t <= dep)%N) here.
Proof.
  intros (C1 & C2 & C3 & C4) S Hd LV F NB. rewrite C1 in F. clear C1.
  assert (AD : (arr <= dep)%N).
  { unfold leaves in LV. destruct (iv_stop iv); lia. }
  assert (C2' : forall x, In x g -> snd x < iv_dist iv + (1#100)) by exact C2.
  revert here F NB S C2 C3. clear C2'. induction g as [|x g IH]; intros here F NB S C2 C3.
  { inversion F; subst. repeat constructor. }
  cbn [map] in F. inversion F as [|? t ? h St F']; subst. clear F.
  apply StronglySorted_inv in S. destruct S as (S1 & S2). apply StronglySorted_inv in NB. destruct NB as (NB1 & NB2).
  destruct (IH h F' NB1 S1) as (I1 & I2 & I3); [intros y Hy; apply C2; right; exact Hy|intros y st Hy; apply C3; right; exact Hy|].
  destruct St as (E & St1 & St2). cbn [to_event ev_elem ev_dist] in E, St1, St2.
  assert (Ix : In x (x :: g)) by (left; reflexivity).
  split; [|split].
  - constructor; [|exact I1]. split; [exact E|].
    destruct (near_dec (snd x) (iv_dist iv)) as [N|N].
    + destruct (St1 N) as (-> & ->). split; [exact AD|]. split.
      * intros st Hs. destruct (C3 x st Ix Hs) as (Q1 & _). rewrite Q1 in LV. exact LV.
      * intros G. destruct (iv_stop iv) as [st|] eqn:Es; [|congruence].
        destruct (C4 st eq_refl) as (y & Y1 & Y2 & Y3). exists y, st. unfold near in *. repeat split; auto; try lra; apply Y2.
    + destruct (St2 N) as (E1 & E2). split; [lia|]. split; [|congruence].
      intros st Hs. destruct (C3 x st Ix Hs) as (_ & G). contradiction.
  - cbn [combine]. constructor; [exact I2|]. apply Forall_forall. intros (y, u) Hy.
    pose proof (in_combine_l _ _ _ _ Hy) as Y1. pose proof (in_combine_r _ _ _ _ Hy) as Y2.
    rewrite Forall_forall in NB2, S2. specialize (NB2 u Y2). specialize (S2 y Y1). unfold farther in S2.
    split; [exact NB2|]. cbn [fst snd].
    destruct (near_dec (snd x) (iv_dist iv)) as [N|N].
    + right. destruct (St1 N) as (-> & ->).
      pose proof (C2 y (or_intror Y1)) as C2y.
      assert (Ny : near (snd y) (iv_dist iv)) by (unfold near in *; lra).
      assert (Su : stamped iv d arr dep (to_event y) u).
      { clear - F' Hy. revert h F' Hy. induction g as [|z g IHg]; intros h F' Hy; [destruct Hy|].
        cbn [map] in F'. inversion F'; subst. cbn [combine] in Hy. destruct Hy as [[= <- <-]|Hy]; [assumption|]. eauto. }
      destruct Su as (_ & Su & _). destruct (Su Ny) as (-> & ->). repeat split. unfold near in *. lra.
    + left. destruct (St2 N) as (E1 & _). rewrite E1. apply NB2.
  - constructor; [|exact I3]. destruct (near_dec (snd x) (iv_dist iv)) as [N|N].
    + destruct (St1 N) as (-> & ->). lia.
    + destruct (St2 N) as (E1 & E2). lia.
Qed.

Lemma timed_nodes P : forall groups il d l, Forall2 (covers P) groups il -> StronglySorted farther (concat groups) ->
  timed d il l ->
  Forall2 (node_time P) (concat groups) l /\ StronglySorted in_turn (combine (concat groups) l) /\
  Forall (fun t => (d <= ts_arrival t)%N) l.
Proof.
  intros groups il d l H. revert d l. induction H as [|g iv gs il C F IH]; intros d l S T; cbn [concat timed] in *.
  - subst l. repeat constructor.
  - destruct T as (arr & dep & here & rest & -> & T1 & T2 & T3 & T4 & T5).
    apply StronglySorted_app_inv in S. destruct S as (S1 & S2 & S3).
    destruct (group_times P g iv d arr dep here C S1 T1 T2 T3 T4) as (G1 & G2 & G3).
    destruct (IH dep rest S2 T5) as (R1 & R2 & R3).
    assert (AD : (arr <= dep)%N) by (unfold leaves in T2; destruct (iv_stop iv); lia).
    rewrite Forall_forall in G3, R3.
    split; [apply Forall2_app; auto|]. split.
    + rewrite combine_app by (exact (F2_length _ _ _ G1)). apply StronglySorted_app_intro; auto.
      intros (x, a) (y, b) Ha Hb. apply in_combine_r in Ha. apply in_combine_r in Hb.
      specialize (G3 a Ha). specialize (R3 b Hb).
      assert (ts_arrival b <= ts_departure b)%N.
      { clear - R1 Hb. revert Hb. induction R1 as [|p q u v N1 N2 I]; intros []; [subst; apply N1|auto]. }
      assert (ts_arrival a <= ts_departure a)%N.
      { clear - G1 Ha. revert Ha. induction G1 as [|p q u v N1 N2 I]; intros []; [subst; apply N1|auto]. }
      split; [split; cbn [snd]; lia|]. left. cbn [snd]. lia.
    + rewrite Forall_app, !Forall_forall. split; intros t Ht; [specialize (G3 t Ht)|specialize (R3 t Ht)]; lia.
Qed.

(* ---- the head of the interval list ---- *)
Lemma il_step_head s tn s' iv l : il_list s = iv :: l -> il_step s tn = Ok s' ->
  exists iv' l', il_list s' = iv' :: l' /\ iv_dist iv' = iv_dist iv.
Proof.
  intros E. unfold il_step. cbn [il_list il_dist il_last_ms il_prev il_cur il_events].
  destruct (tn_omitted tn); [intros [= <-]; cbn [il_list]; eauto|].
  set (s1 := match tn_last_signal tn with Some q => _ | None => _ end).
  assert (A1 : Forall2 same_shape (il_list s) (il_list s1)).
  { unfold s1. destruct (tn_last_signal tn) as [q|]; [|apply shapes_refl].
    destruct (insert_last_signal_spl q (il_list s) (il_last_ms s)) as [k u] eqn:Ei.
    apply insert_spl_shape in Ei. destruct (Nat.eqb u (length k)); exact Ei. }
  clearbody s1.
  set (s2 := match tn_here tn with Some q => _ | None => s1 end).
  set (s3 := match tn_kind tn with SIGNAL => _ | HALTPOS => s2 | OTHER => s2 end).
  set (s4 := if tn_record tn then _ else s3).
  assert (A4 : il_list s4 = il_list s1).
  { unfold s4, s3, s2. destruct (tn_record tn), (tn_kind tn), (tn_here tn); reflexivity. }
  clearbody s4. clear s3 s2. rewrite E in A1. destruct (il_list s1) as [|iv1 l1] eqn:E1; [inversion A1|]. inversion A1 as [|? ? ? ? S1 S2]; subst.
  destruct S1 as (S1 & _).
  destruct (_ || _).
  - intros H. unfold push_interval in H. inv_bind H. injection H as <-. cbn [il_list].
    rewrite A4 in B. destruct (rev (iv1 :: l1)) as [|b r] eqn:Er.
    + apply (f_equal (@length _)) in Er. rewrite rev_length in Er. discriminate.
    + destruct (fuzzy_eq (iv_dist b) (il_dist s4)).
      * inv_bind B. injection B as <-. unfold append in B0. inv_bind B0. injection B0 as <-.
        apply (f_equal (@rev _)) in Er. rewrite rev_involutive in Er. cbn [rev] in Er.
        cbn [rev]. destruct (rev r) as [|c k]; cbn [app] in *; injection Er as -> ->; eexists; eexists; split; try reflexivity; cbn [iv_dist]; auto.
      * injection B as <-. cbn [app]. eauto.
  - intros [= <-]. rewrite A4. eauto.
Qed.
Lemma il_steps_head ns : forall s s' iv l, il_list s = iv :: l -> il_steps s ns = Ok s' ->
  exists iv' l', il_list s' = iv' :: l' /\ iv_dist iv' = iv_dist iv.
Proof.
  induction ns as [|n ns IH]; intros s s' iv l E; cbn [il_steps].
  - intros [= <-]. eauto.
  - intros H. inv_bind H. destruct (il_step_head _ _ _ _ _ E B) as (iv1 & l1 & E1 & D1).
    destruct (IH _ _ _ _ E1 H) as (iv2 & l2 & E2 & D2). exists iv2, l2. split; [exact E2|]. congruence.
Qed.
Lemma interval_list_head fuel tp v n ns il : get_interval_list fuel tp v (n :: ns) = Ok il -> border n ->
  exists iv l, il = iv :: l /\ iv_dist iv = 0 + tn_step n.
Proof.
  unfold get_interval_list. intros H BD. inv_bind H. cbn [il_steps] in B. inv_bind B.
  assert (E : exists iv l, il_list x0 = iv :: l /\ iv_dist iv = 0 + tn_step n).
  { unfold il_step in B0. cbn [il_list il_dist il_last_ms il_prev il_cur il_events] in B0.
    destruct BD as (O & BD). rewrite O in B0.
    set (s1 := match tn_last_signal n with Some q => _ | None => _ end) in B0.
    assert (A1 : il_list s1 = [] /\ il_dist s1 = 0 + tn_step n).
    { unfold s1. destruct (tn_last_signal n); cbn; auto. }
    clearbody s1.
    set (s2 := match tn_here n with Some q => _ | None => s1 end) in B0.
    set (s3 := match tn_kind n with SIGNAL => _ | HALTPOS => s2 | OTHER => s2 end) in B0.
    set (s4 := if tn_record n then _ else s3) in B0.
    assert (A4 : il_list s4 = [] /\ il_dist s4 = 0 + tn_step n).
    { unfold s4, s3, s2. destruct (tn_record n), (tn_kind n), (tn_here n); exact A1. }
    clearbody s4. clear s3 s2 A1. destruct A4 as (A4 & A5).
    assert (Eb : (match tn_kind n with SIGNAL | HALTPOS => true | OTHER => false end) || match tn_here n with Some _ => true | None => false end = true).
    { destruct BD as [BD|BD]; [destruct (tn_kind n); try reflexivity; congruence|].
      destruct (tn_here n); [apply orb_true_r|congruence]. }
    rewrite Eb in B0. unfold push_interval in B0. inv_bind B0. injection B0 as <-.
    rewrite A4 in B1. cbn [rev] in B1. injection B1 as <-. cbn [il_list]. eexists. eexists. split; [reflexivity|]. exact A5. }
  destruct E as (iv & l & E & D). destruct (il_steps_head _ _ _ _ _ E B) as (iv1 & l1 & E1 & D1).
  apply adjust_all_shape in H. rewrite E1 in H. inversion H as [|? iv2 ? l2 (S & _) ?]; subst. exists iv2, l2.
  split; [reflexivity|]. congruence.
Qed.

(* ---- the whole calculation ---- *)
Lemma runtime_ok fuel tp start v ns ts : runtime_calculation fuel tp start v ns = Ok ts ->
  (forall n, In n ns -> 0 <= tn_step n) ->
  exists first later pend, recorded ns = first ++ later ++ pend /\
    tss_times ts = map (fun x => mkts start start (tn_elem (fst x))) first ++ skipn (length first) (tss_times ts) /\
    Forall2 (node_time (placed 0 ns)) later (skipn (length first) (tss_times ts)) /\
    StronglySorted in_turn (combine later (skipn (length first) (tss_times ts))) /\
    Forall (fun t => (start <= ts_arrival t)%N) (skipn (length first) (tss_times ts)) /\
    (forall k n, ns = k ++ [n] -> border n -> pend = []) /\
    (forall x, In x pend -> forall st, ~ stops (fst x) st) /\
    (forall n l, ns = n :: l -> border n -> forall x, In x first -> snd x < tn_step n + (1#100)) /\
    (forall n l, ns = n :: l -> border n -> tn_record n = true -> exists e, first = (n, 0 + tn_step n) :: e).
Proof.
  unfold runtime_calculation. intros H P. inv_bind H. rename x into il. inv_bind H. destruct x as [[c s] t].
  injection H as <-.
  destruct (interval_list_ok _ _ _ _ _ B P) as (groups & pend & R & F & A & NS & N & FI).
  destruct il as [|iv il].
  { unfold run_list in B0. inv_bind B0. discriminate. }
  inversion F as [|g ? gs ? C F']; subst groups. clear F.
  destruct (placed_sorted ns 0 P) as (SP & _).
  apply (StronglySorted_filter _ wanted) in SP. change (filter wanted (placed 0 ns)) with (recorded ns) in SP.
  rewrite R in SP. cbn [concat] in R, SP. rewrite <- app_assoc in SP.
  apply StronglySorted_app_inv in SP. destruct SP as (S1 & S2 & _).
  apply StronglySorted_app_inv in S2. destruct S2 as (S2 & _ & _).
  assert (FT : intervals_fit iv il) by (eapply groups_fit; eauto).
  destruct (run_list_ok _ _ _ _ _ _ _ _ B0 FT) as (rest & E & T).
  assert (Ev : map (fun e => mkts start start (ev_elem e)) (iv_events iv) = map (fun x => mkts start start (tn_elem (fst x))) g).
  { destruct C as (C & _). rewrite C, map_map. reflexivity. }
  rewrite Ev in E. exists g, (concat gs), pend. rewrite app_assoc. split; [exact R|].
  rewrite E. rewrite skipn_app, map_length, Nat.sub_diag, skipn_all2 by (rewrite map_length; lia). cbn [skipn app].
  split; [reflexivity|].
  destruct (timed_nodes (placed 0 ns) gs il start rest F' S2 T) as (Q1 & Q2 & Q3).
  split; [exact Q1|]. split; [exact Q2|]. split; [exact Q3|]. split; [exact N|]. split; [exact NS|].
  split; [|intros n l En BD R1; destruct (FI n l En BD R1) as (e & r & Eg); injection Eg as Eg _; eauto].
  intros n l -> BD x Hx. destruct (interval_list_head _ _ _ _ _ _ B BD) as (iv2 & l2 & EQ & D). injection EQ as <- <-.
  destruct C as (_ & C & _). specialize (C x Hx). rewrite D in C. lra.
Qed.


(* ---- speeds ---- *)
Lemma phases_speed fuel tp speed prev iv p left m :
  get_runtime_phases fuel tp speed prev iv = Ok p -> iv_dist prev < iv_dist iv ->
  left_limit iv = Ok left -> max_speed tp = Ok m -> speed <= left -> speed <= m ->
  (forall s, inner (ph_accels p) s -> s_speed s <= left /\ s_speed s <= m) /\
  (ph_accels p <> [] -> s_speed (ph_accel p) <= left /\ s_speed (ph_accel p) <= m) /\
  (forall s, In s (ph_coasts p ++ ph_deaccels p) -> s_speed s <= left /\ s_speed s <= m).
Proof.
  unfold get_runtime_phases. intros H HL Hl Hm Sl Sm. rewrite Hm, Hl in H. cbn [bind] in H.
  set (len := iv_dist iv - iv_dist prev) in *. assert (Hlen : 0 < len) by (unfold len; lra).
  destruct (qmin_spec left m) as (T1 & T2 & T3).
  assert (ST : speed <= qmin left m) by (destruct T3 as [-> | ->]; assumption).
  set (top := qmin left m) in *. clearbody top. cbv zeta in H.
  assert (W : forall v, v <= top -> v <= left /\ v <= m) by (intros v Hv; lra).
  inv_bind H. destruct x as [[accel accels] v1]. rename B into Hacc.
  assert (A : (forall s, inner accels s -> s_speed s <= top) /\ (forall s, In s (removelast accels) -> s_speed s <= top) /\
              (accels <> [] -> s_speed accel <= top) /\ v1 <= top).
  { destruct (qlt speed top) eqn:E; qb.
    - inv_bind Hacc. assert (L0 : 0 <= len) by lra.
      destruct (accelerate_ok fuel tp speed top len x B L0) as (m' & k & y & _ & _ & _ & _ & K & Y).
      assert (EX : exists y', x = k ++ [y'] /\ s_speed y' = s_speed y).
      { destruct Y as [(-> & _)|(z & _ & _ & _ & _ & _ & ->)]; [eauto|]. eexists. split; [reflexivity|]. destruct k; reflexivity. }
      destruct EX as (y' & -> & EY). clear Y.
      assert (RL : forall s, In s k -> s_speed s <= top) by (intros s Hs; destruct (K s Hs) as (_ & Q1 & _); lra).
      assert (BK : back (k ++ [y']) = y') by (unfold back; apply last_last).
      destruct (k ++ [y']) as [|c r] eqn:Ek; [destruct k; discriminate|]. injection Hacc as <- <- <-.
      assert (TB : s_speed (if qlt top (s_speed (back (c :: r))) then mksample (s_time (back (c :: r))) (s_dist (back (c :: r))) top else back (c :: r)) <= top).
      { destruct (qlt top (s_speed (back (c :: r)))) eqn:E2; qb; cbn [s_speed]; lra. }
      rewrite <- Ek. split; [|split; [rewrite removelast_last; exact RL|]].
      + intros s (i & Hi & Li). apply RL. rewrite app_length in Li. cbn [length] in Li.
        rewrite nth_error_app1 in Hi by lia. exact (nth_error_In _ _ Hi).
      + rewrite Ek. split; [intros _|]; exact TB.
    - injection Hacc as <- <- <-. split; [intros s (i & Hi & _); destruct i; discriminate|]. split; [intros s []|]. split; [congruence|exact ST]. }
  clear Hacc. destruct A as (A1 & A2 & A3 & A4).
  assert (BR : forall v vt ds, brake fuel tp v vt = Ok ds -> forall s, In s ds -> s_speed s <= v).
  { intros v vt ds Hb s Hs. destruct (brake_ok _ _ _ _ _ Hb) as (a & _ & Na & Lv & _ & L1 & HS & IN & BK & _).
    apply In_nth_error in Hs. destruct Hs as (i & Hi).
    assert (Li : (i < length ds)%nat) by (apply nth_error_Some; congruence).
    destruct (Nat.eq_dec (S i) (length ds)) as [Q|Q].
    - assert (Eb : nth_error ds (length ds - 1) = Some (back ds)) by (apply back_nth; intros ->; cbn in L1; lia).
      replace (length ds - 1)%nat with i in Eb by lia. rewrite Hi in Eb. injection Eb as ->. rewrite BK. lra.
    - destruct (IN s) as (I1 & _); [exists i; split; [exact Hi|lia]|]. rewrite I1.
      pose proof (HS i s Hi) as Ht. pose proof (half_nonneg i) as Hn. rewrite <- Ht in Hn. nra. }
  inv_bind H. rename x into target. rename B into Htgt.
  inv_bind H. destruct x as [deaccel deaccels]. rename B into Hde.
  assert (D : forall s, In s deaccels -> s_speed s <= top).
  { destruct (qlt target v1) eqn:E; qb.
    - inv_bind Hde. inv_bind Hde. inv_bind Hde. inv_bind Hde. injection Hde as <- <-.
      intros s Hs. pose proof (BR _ _ _ B s Hs). lra.
    - injection Hde as <- <-. intros s []. }
  clear Hde.
  inv_bind H. destruct x as [[[accel' deaccel'] deaccels'] v2]. rename B into Hadj.
  assert (AD : (accels <> [] -> s_speed accel' <= top) /\ (forall s, In s deaccels' -> s_speed s <= top) /\ v2 <= top).
  { destruct (qle len (s_dist accel + s_dist deaccel) && nonempty accels && nonempty deaccels) eqn:E.
    - inv_bind Hadj. destruct x as [a ds]. injection Hadj as <- <- <- <-.
      unfold adjust_accel_and_deaccel in B. apply adjust_loop_ok in B. destruct B as (B1 & B2).
      apply in_rev in B1. specialize (A2 a B1). split; [intros _; exact A2|]. split; [|exact A2].
      destruct B2 as [(-> & _)|(B2 & _)]; [intros s []|]. intros s Hs. pose proof (BR _ _ _ B2 s Hs). lra.
    - injection Hadj as <- <- <- <-. auto. }
  clear Hadj. destruct AD as (E1 & E2 & E3).
  inv_bind H. clear B x.
  inv_bind H. destruct x as [cst coasts]. rename B into Hco.
  assert (CO : forall s, In s coasts -> s_speed s <= top).
  { destruct (qlt 0 (len - s_dist accel' - s_dist deaccel')) eqn:E; qb.
    - inv_bind Hco. injection Hco as <- <-.
      destruct (coast_ok fuel v2 _ x B E) as (_ & _ & _ & _ & C4 & _). intros s Hs. rewrite (C4 s Hs). exact E3.
    - injection Hco as <- <-. intros s []. }
  inv_bind H. injection H as <-. cbn [ph_accel ph_accels ph_coast ph_coasts ph_deaccel ph_deaccels].
  split; [intros s Hs; apply W; auto|]. split; [intros G; apply W; auto|].
  intros s Hs. apply W. apply in_app_or in Hs. destruct Hs; auto.
Qed.
