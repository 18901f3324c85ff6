From Coq Require Import Ascii String List ZArith NArith Bool Sorted Permutation Lia.
From Verif Require Import Base GenOsmModel ExportSpec GenOsmSpec.
Import ListNotations.
Local Open Scope list_scope.

(* ---- Atoi ---- *)
Lemma digits_from_value ds : Forall is_digit ds -> forall acc,
  digits_from (Z.of_N acc) ds = Some (Z.of_N (fold_left (fun v c => 10 * v + (N_of_ascii c - 48))%N ds acc)).
Proof.
  induction 1 as [|c ds Hc H IH]; intros acc; [reflexivity|].
  cbn [digits_from fold_left]. unfold digit. unfold is_digit in Hc.
  replace ((48 <=? Z.of_N (N_of_ascii c)) && (Z.of_N (N_of_ascii c) <=? 57))%Z with true
    by (symmetry; apply andb_true_intro; split; apply Z.leb_le; lia).
  rewrite <- IH. f_equal. lia.
Qed.
Lemma clamp_id z : (- 2 ^ 63 <= z < 2 ^ 63)%Z -> clamp z = z.
Proof. unfold clamp. lia. Qed.
Lemma digit_not_sign c : is_digit c -> Ascii.eqb c "-" = false /\ Ascii.eqb c "+" = false.
Proof.
  intros H. split; apply Ascii.eqb_neq; intros ->; vm_compute in H; destruct H as [H1 H2]; now apply H1.
Qed.
Lemma number_atoi_err s z : number s z -> atoi_err s = (z, false).
Proof.
  intros (ds & Hne & Hd & Hs & Hr). unfold atoi_err.
  assert (Hv : digits_from 0 ds = Some (Z.of_N (digits_value ds))) by (apply (digits_from_value ds Hd 0)).
  destruct Hs as [[[-> | ->] ->]|[-> ->]].
  - destruct ds as [|c ds]; [congruence|]. inversion Hd as [|? ? Hc Hd']; subst.
    destruct (digit_not_sign c Hc) as [-> ->]. rewrite Hv, clamp_id by lia. now rewrite Z.eqb_refl.
  - change (Ascii.eqb "+" "-") with false. change (Ascii.eqb "+" "+") with true. cbv iota.
    destruct ds as [|c ds]; [congruence|]. rewrite Hv, clamp_id by lia. now rewrite Z.eqb_refl.
  - change (Ascii.eqb "-" "-") with true. cbv iota.
    destruct ds as [|c ds]; [congruence|]. rewrite Hv. cbn [option_map]. rewrite clamp_id by lia. now rewrite Z.eqb_refl.
Qed.
Lemma number_atoi s z : number s z -> atoi s = z.
Proof. intros H. unfold atoi. now rewrite (number_atoi_err s z H). Qed.
Lemma number_unique s a b : number s a -> number s b -> a = b.
Proof. intros Ha Hb. rewrite <- (number_atoi s a Ha). apply number_atoi, Hb. Qed.

Lemma digits_from_digits ds : forall acc z, digits_from acc ds = Some z -> Forall is_digit ds.
Proof.
  induction ds as [|c ds IH]; intros acc z H; [constructor|].
  cbn [digits_from] in H. unfold digit in H.
  destruct ((48 <=? Z.of_N (N_of_ascii c)) && (Z.of_N (N_of_ascii c) <=? 57))%Z eqn:E; [|discriminate].
  apply andb_prop in E. destruct E as [E1 E2]. apply Z.leb_le in E1. apply Z.leb_le in E2.
  constructor; [unfold is_digit; lia|]. eapply IH, H.
Qed.
Lemma digits_from_inv ds z : digits_from 0 ds = Some z -> Forall is_digit ds /\ z = Z.of_N (digits_value ds).
Proof.
  intros H. pose proof (digits_from_digits _ _ _ H) as Hd. split; [exact Hd|].
  pose proof (digits_from_value _ Hd 0) as Hv. change (Z.of_N 0) with 0%Z in Hv. rewrite H in Hv. now injection Hv.
Qed.
Lemma atoi_err_number s : snd (atoi_err s) = false -> number s (fst (atoi_err s)).
Proof.
  unfold atoi_err. destruct (list_ascii_of_string s) as [|c l] eqn:Es; [discriminate|].
  assert (Hcl : forall z, snd (clamp z, negb (Z.eqb z (clamp z))) = false -> clamp z = z /\ (- 2 ^ 63 <= z < 2 ^ 63)%Z).
  { intros z Hz. cbn [snd] in Hz. apply negb_false_iff, Z.eqb_eq in Hz. rewrite <- Hz. split; [reflexivity|].
    unfold clamp in Hz. lia. }
  destruct (Ascii.eqb c "-") eqn:Em; [apply Ascii.eqb_eq in Em; subst c|
    destruct (Ascii.eqb c "+") eqn:Ep; [apply Ascii.eqb_eq in Ep; subst c|]].
  - destruct l as [|d l]; [discriminate|]. destruct (digits_from 0 (d :: l)) as [z|] eqn:Ez; [|discriminate].
    cbn [option_map]. intros H. destruct (Hcl _ H) as [Hc Hr]. cbn [fst]. rewrite Hc.
    destruct (digits_from_inv _ _ Ez) as [Hd Hv].
    exists (d :: l). split; [discriminate|]. split; [exact Hd|]. split; [|exact Hr]. right. split; [exact Es|]. now rewrite Hv.
  - destruct l as [|d l]; [discriminate|]. destruct (digits_from 0 (d :: l)) as [z|] eqn:Ez; [|discriminate].
    intros H. destruct (Hcl _ H) as [Hc Hr]. cbn [fst]. rewrite Hc.
    destruct (digits_from_inv _ _ Ez) as [Hd Hv].
    exists (d :: l). split; [discriminate|]. split; [exact Hd|]. split; [|exact Hr]. left. split; [right; exact Es|]. now rewrite Hv.
  - destruct (digits_from 0 (c :: l)) as [z|] eqn:Ez; [|discriminate].
    intros H. destruct (Hcl _ H) as [Hc Hr]. cbn [fst]. rewrite Hc.
    destruct (digits_from_inv _ _ Ez) as [Hd Hv].
    exists (c :: l). split; [discriminate|]. split; [exact Hd|]. split; [|exact Hr]. left. split; [left; exact Es|]. now rewrite Hv.
Qed.

(* ---- sorting ---- *)
Section Sort.
  Context {T : Type}.
  Variable id : T -> string.
  Let key (x : T) : Z := atoi (id x).
  Definition leK (x y : T) : Prop := (key x <= key y)%Z.
  Definition ltK (x y : T) : Prop := (key x < key y)%Z.

  Lemma insert_perm x l : Permutation (insert_stable id x l) (x :: l).
  Proof.
    induction l as [|y l IH]; [reflexivity|]. cbn [insert_stable].
    destruct (atoi (id y) <? atoi (id x))%Z; [|reflexivity].
    rewrite IH. apply perm_swap.
  Qed.
  Lemma sort_perm l : Permutation (sort_stable id l) l.
  Proof.
    induction l as [|x l IH]; [reflexivity|]. unfold sort_stable. cbn [fold_right].
    rewrite insert_perm. constructor. exact IH.
  Qed.
  Lemma insert_sorted x l : StronglySorted leK l -> StronglySorted leK (insert_stable id x l).
  Proof.
    induction 1 as [|y l Hl IH Hy]; [repeat constructor|]. cbn [insert_stable].
    destruct (atoi (id y) <? atoi (id x))%Z eqn:E.
    - constructor; [exact IH|]. apply (Permutation_Forall (Permutation_sym (insert_perm x l))).
      constructor; [|exact Hy]. apply Z.ltb_lt in E. unfold leK, key. lia.
    - apply Z.ltb_ge in E. constructor; [constructor; assumption|]. constructor; [exact E|].
      eapply Forall_impl; [|exact Hy]. intros z Hz. unfold leK, key in *. lia.
  Qed.
  Lemma sort_sorted l : StronglySorted leK (sort_stable id l).
  Proof. induction l as [|x l IH]; [constructor|]. apply insert_sorted, IH. Qed.

  Let has (z : Z) (x : T) : bool := Z.eqb (key x) z.
  Lemma insert_filter x l z : filter (has z) (insert_stable id x l) = filter (has z) (x :: l).
  Proof.
    induction l as [|y l IH]; [reflexivity|]. cbn [insert_stable].
    destruct (atoi (id y) <? atoi (id x))%Z eqn:E; [|reflexivity].
    cbn [filter]. rewrite IH. cbn [filter]. apply Z.ltb_lt in E. unfold has, key.
    destruct (Z.eqb_spec (atoi (id x)) z) as [E1|E1], (Z.eqb_spec (atoi (id y)) z) as [E2|E2]; try reflexivity. lia.
  Qed.
  Lemma sort_filter l z : filter (has z) (sort_stable id l) = filter (has z) l.
  Proof.
    induction l as [|x l IH]; [reflexivity|]. change (sort_stable id (x :: l)) with (insert_stable id x (sort_stable id l)).
    rewrite insert_filter. cbn [filter]. now rewrite IH.
  Qed.

  (* ---- search ---- *)
  Lemma search_last fuel : forall z arr start stop s,
    nth_error arr stop = Some s -> (atoi s <= z)%Z -> start <= stop -> stop - start < fuel ->
    search fuel z arr start stop = Ok (Z.eqb z (atoi s)).
  Proof.
    induction fuel as [|fuel IH]; intros z arr start stop s Hs Hz Hle Hf; [lia|]. cbn [search]. rewrite Hs.
    destruct (Nat.eqb_spec stop start) as [E|E]; [reflexivity|].
    destruct (Z.eqb_spec z (atoi s)) as [E1|E1]; [reflexivity|].
    replace (atoi s <? z)%Z with true by (symmetry; apply Z.ltb_lt; lia).
    assert (Hp : (stop + start) / 2 < stop) by (apply Nat.div_lt_upper_bound; lia).
    assert (Hq : start <= (stop + start) / 2) by (apply Nat.div_le_lower_bound; lia).
    rewrite (IH z arr _ stop s Hs Hz); [|lia|lia]. destruct (Z.eqb_spec z (atoi s)); [contradiction|reflexivity].
  Qed.

  Fixpoint uniq (z : Z) (l : list T) : list T :=
    match l with
    | [] => []
    | x :: l => if Z.eqb (key x) z then uniq z l else x :: uniq (key x) l
    end.
  Lemma remove_from_ok l : forall out x, StronglySorted leK (x :: l) ->
    remove_from id (map id (out ++ [x]), out ++ [x]) l = Ok (out ++ x :: uniq (key x) l).
  Proof.
    induction l as [|y l IH]; intros out x Hs; cbn [remove_from uniq snd].
    - reflexivity.
    - inversion Hs as [|? ? Hs' Hx]; subst. inversion Hx as [|? ? Hxy Hx']; subst.
      unfold remove_step. cbn [fst snd].
      destruct (map id (out ++ [x])) as [|w ws] eqn:Em; [destruct out; discriminate|]. rewrite <- Em. cbn [fst snd].
      rewrite map_length, app_length. cbn [List.length].
      rewrite (search_last _ _ _ _ _ (id x)); [| | |lia|lia].
      2:{ rewrite map_app, nth_error_app2; rewrite map_length; [|lia].
          now replace (List.length out + 1 - 1 - List.length out) with 0 by lia. }
      2:{ exact Hxy. }
      cbn [bind]. unfold key at 1.
      destruct (Z.eqb_spec (atoi (id y)) (key x)) as [E|E].
      + replace (atoi (id y) =? atoi (id x))%Z with true by (symmetry; apply Z.eqb_eq; exact E). cbn [bind].
        apply IH. inversion Hs'; subst. constructor; assumption.
      + replace (atoi (id y) =? atoi (id x))%Z with false by (symmetry; apply Z.eqb_neq; exact E). cbn [bind].
        specialize (IH (out ++ [x]) y Hs'). rewrite map_app in IH. cbn [map] in IH.
        rewrite <- app_assoc in IH. cbn [app] in IH. rewrite <- app_assoc in IH |- *. cbn [app] in IH |- *.
        exact IH.
  Qed.
  Definition dedup (l : list T) : list T := match l with [] => [] | x :: l => x :: uniq (key x) l end.
  Lemma remove_duplicates_ok l : StronglySorted leK l -> remove_duplicates id l = Ok (dedup l).
  Proof.
    destruct l as [|x l]; intros Hs; [reflexivity|]. unfold remove_duplicates. cbn [remove_from].
    unfold remove_step. cbn [fst snd]. cbn [app List.length Nat.sub].
    rewrite (search_last 2 _ [id x] 0 0 (id x)); [|reflexivity|lia|lia|lia]. rewrite Z.eqb_refl. cbn [bind].
    exact (remove_from_ok l [] x Hs).
  Qed.

  Lemma uniq_in l : forall z y, In y (uniq z l) -> In y l.
  Proof.
    induction l as [|x l IH]; intros z y H; [exact H|]. cbn [uniq] in H.
    destruct (Z.eqb (key x) z); [right; eapply IH, H|]. destruct H as [H|H]; [left; exact H|right; eapply IH, H].
  Qed.
  Lemma uniq_first l : forall z x, StronglySorted leK l -> Forall (fun y => (z <= key y)%Z) l ->
    (In x (uniq z l) <-> key x <> z /\ hd_error (filter (has (key x)) l) = Some x).
  Proof.
    induction l as [|y l IH]; intros z x Hs Hz; cbn [uniq filter].
    - split; [intros []|intros [_ H]; discriminate H].
    - inversion Hs as [|? ? Hs' Hy]; subst. inversion Hz as [|? ? Hzy Hz']; subst.
      unfold has at 1. destruct (Z.eqb_spec (key y) z) as [E|E].
      + rewrite (IH z x Hs' Hz'). destruct (Z.eqb_spec (key y) (key x)) as [E1|E1]; [|tauto].
        split; intros [H _]; exfalso; congruence.
      + cbn [In]. rewrite (IH (key y) x Hs' Hy). destruct (Z.eqb_spec (key y) (key x)) as [E1|E1].
        * cbn [hd_error]. split.
          -- intros [->|[H _]]; [split; [congruence|reflexivity]|congruence].
          -- intros [_ H]. left. congruence.
        * split.
          -- intros [->|[_ H]]; [congruence|]. split; [|exact H]. intros E2.
             destruct (filter (has (key x)) l) as [|w ws] eqn:Ef; [discriminate|].
             assert (Hw : In w (filter (has (key x)) l)) by (rewrite Ef; left; reflexivity).
             apply filter_In in Hw. destruct Hw as [Hw1 Hw2]. apply Z.eqb_eq in Hw2.
             rewrite Forall_forall in Hy. specialize (Hy w Hw1). unfold leK in Hy. lia.
          -- intros [_ H]. right. split; [congruence|exact H].
  Qed.
  Lemma dedup_first l x : StronglySorted leK l ->
    (In x (dedup l) <-> hd_error (filter (has (key x)) l) = Some x).
  Proof.
    destruct l as [|y l]; intros Hs; cbn [dedup].
    - split; [intros []|intros H; discriminate H].
    - inversion Hs as [|? ? Hs' Hy]; subst. cbn [In filter]. rewrite (uniq_first l (key y) x Hs' Hy).
      unfold has at 2. destruct (Z.eqb_spec (key y) (key x)) as [E1|E1].
      + cbn [hd_error]. split; [intros [->|[H _]]; [reflexivity|congruence]|intros H; left; congruence].
      + split; [intros [->|[_ H]]; [congruence|exact H]|intros H; right; split; [congruence|exact H]].
  Qed.
  Lemma uniq_sorted l : forall z, StronglySorted leK l -> Forall (fun y => (z <= key y)%Z) l ->
    StronglySorted ltK (uniq z l) /\ Forall (fun y => (z < key y)%Z) (uniq z l).
  Proof.
    induction l as [|y l IH]; intros z Hs Hz; cbn [uniq]; [repeat constructor|].
    inversion Hs as [|? ? Hs' Hy]; subst. inversion Hz as [|? ? Hzy Hz']; subst.
    destruct (Z.eqb_spec (key y) z) as [E|E]; [apply IH; assumption|].
    destruct (IH (key y) Hs' Hy) as [H1 H2]. split; [constructor; assumption|].
    constructor; [lia|]. eapply Forall_impl; [|exact H2]. cbn. intros w Hw. lia.
  Qed.
  Lemma dedup_sorted l : StronglySorted leK l -> StronglySorted ltK (dedup l).
  Proof.
    destruct l as [|y l]; intros Hs; cbn [dedup]; [constructor|].
    inversion Hs as [|? ? Hs' Hy]; subst. destruct (uniq_sorted l (key y) Hs' Hy). constructor; assumption.
  Qed.

  Lemma hd_filter (p : T -> bool) l x : hd_error (filter p l) = Some x <->
    p x = true /\ exists pre post, l = pre ++ x :: post /\ Forall (fun y => p y = false) pre.
  Proof.
    induction l as [|y l IH]; cbn [filter].
    - split; [discriminate|]. intros (_ & pre & post & H & _). destruct pre; discriminate H.
    - destruct (p y) eqn:E.
      + cbn [hd_error]. split.
        * intros H. injection H as ->. split; [exact E|]. exists [], l. repeat constructor.
        * intros (_ & pre & post & H & Hp). destruct pre as [|w pre]; cbn [app] in H; [congruence|].
          injection H as -> ->. inversion Hp. congruence.
      + rewrite IH. split.
        * intros (H & pre & post & -> & Hp). split; [exact H|]. exists (y :: pre), post. split; [reflexivity|]. constructor; assumption.
        * intros (H & pre & post & Hl & Hp). destruct pre as [|w pre]; cbn [app] in Hl; [congruence|].
          injection Hl as -> ->. inversion Hp; subst. split; [exact H|]. exists pre, post. split; [reflexivity|assumption].
  Qed.

  Definition clean (l : list T) : list T := dedup (sort_stable id l).
  Lemma clean_ok l : remove_duplicates id (sort_stable id l) = Ok (clean l).
  Proof. apply remove_duplicates_ok, sort_sorted. Qed.
  Lemma clean_in l x : In x (clean l) <-> exists pre post, l = pre ++ x :: post /\ Forall (fun y => key y <> key x) pre.
  Proof.
    unfold clean. rewrite (dedup_first _ _ (sort_sorted l)), sort_filter, hd_filter.
    split.
    - intros (_ & pre & post & E & Hp). exists pre, post. split; [exact E|].
      eapply Forall_impl; [|exact Hp]. intros y Hy. now apply Z.eqb_neq.
    - intros (pre & post & E & Hp). split; [apply Z.eqb_refl|]. exists pre, post. split; [exact E|].
      eapply Forall_impl; [|exact Hp]. intros y Hy. now apply Z.eqb_neq.
  Qed.
  Lemma clean_sorted l : StronglySorted ltK (clean l).
  Proof. apply dedup_sorted, sort_sorted. Qed.
  Lemma clean_incl l x : In x (clean l) -> In x l.
  Proof. intros H. apply clean_in in H. destruct H as (pre & post & -> & _). apply in_elt. Qed.

  Lemma ssorted_impl (R S : T -> T -> Prop) l : (forall x y, In x l -> In y l -> R x y -> S x y) ->
    StronglySorted R l -> StronglySorted S l.
  Proof.
    induction l as [|x l IH]; intros H Hs; [constructor|]. inversion Hs as [|? ? Hs' Hx]; subst.
    constructor; [apply IH; [|exact Hs']; intros a b Ha Hb; apply H; now right|].
    apply Forall_forall. intros y Hy. rewrite Forall_forall in Hx. apply H; [now left|now right|apply Hx, Hy].
  Qed.
  Lemma clean_cleaned l : Forall (fun x => exists z, number (id x) z) l -> cleaned id l (clean l).
  Proof.
    intros Hn. rewrite Forall_forall in Hn. split.
    - eapply ssorted_impl; [|apply clean_sorted]. intros x y Hx Hy H.
      destruct (Hn x (clean_incl _ _ Hx)) as [a Ha], (Hn y (clean_incl _ _ Hy)) as [b Hb].
      exists a, b. split; [exact Ha|]. split; [exact Hb|].
      unfold ltK, key in H. now rewrite (number_atoi _ _ Ha), (number_atoi _ _ Hb) in H.
    - intros x. rewrite clean_in. split; intros (pre & post & E & Hp); exists pre, post; (split; [exact E|]);
        rewrite Forall_forall in *; intros y Hy; specialize (Hp y Hy).
      + intros (z & H1 & H2). apply Hp. unfold key. now rewrite (number_atoi _ _ H1), (number_atoi _ _ H2).
      + intros Hk. apply Hp.
        destruct (Hn y ltac:(rewrite E; apply in_or_app; now left)) as [a Ha].
        destruct (Hn x ltac:(rewrite E; apply in_elt)) as [b Hb].
        unfold key in Hk. rewrite (number_atoi _ _ Ha), (number_atoi _ _ Hb) in Hk. subst b. exists a. split; assumption.
  Qed.
  (* strictly sorted lists with the same elements are equal *)
  Lemma ssorted_ext l1 : forall l2, StronglySorted ltK l1 -> StronglySorted ltK l2 -> (forall x, In x l1 <-> In x l2) -> l1 = l2.
  Proof.
    induction l1 as [|x l1 IH]; intros [|y l2] H1 H2 H.
    - reflexivity.
    - destruct (proj2 (H y)); now left.
    - destruct (proj1 (H x)); now left.
    - inversion H1 as [|? ? H1' Hx]; subst. inversion H2 as [|? ? H2' Hy]; subst. rewrite Forall_forall in Hx, Hy.
      assert (x = y).
      { destruct (proj1 (H x) (or_introl eq_refl)) as [E|E]; [congruence|].
        destruct (proj2 (H y) (or_introl eq_refl)) as [E'|E']; [congruence|].
        specialize (Hx y E'). specialize (Hy x E). unfold ltK in *. lia. }
      subst y. f_equal. apply IH; [assumption|assumption|]. intros z. split; intros Hz.
      + destruct (proj1 (H z) (or_intror Hz)) as [E|E]; [|exact E]. subst z. specialize (Hx x Hz). unfold ltK in Hx. lia.
      + destruct (proj2 (H z) (or_intror Hz)) as [E|E]; [|exact E]. subst z. specialize (Hy x Hz). unfold ltK in Hy. lia.
  Qed.
  Lemma sorted_prefix pre x post : StronglySorted ltK (pre ++ x :: post) -> Forall (fun y => key y <> key x) pre.
  Proof.
    induction pre as [|y pre IH]; intros H; [constructor|]. cbn [app] in H. inversion H as [|? ? H' Hy]; subst.
    constructor; [|apply IH, H']. rewrite Forall_forall in Hy. specialize (Hy x ltac:(apply in_elt)). unfold ltK in Hy. lia.
  Qed.
  Lemma clean_fix l : StronglySorted ltK l -> clean l = l.
  Proof.
    intros Hs. apply ssorted_ext; [apply clean_sorted|exact Hs|]. intros x. rewrite clean_in. split.
    - intros (pre & post & -> & _). apply in_elt.
    - intros H. apply in_split in H. destruct H as (pre & post & ->). exists pre, post. split; [reflexivity|].
      eapply sorted_prefix, Hs.
  Qed.
  Lemma clean_nodup l : NoDup (map id (clean l)).
  Proof.
    generalize (clean_sorted l). generalize (clean l) as o. induction o as [|x o IH]; intros H; cbn [map]; [constructor|].
    inversion H as [|? ? H' Hx]; subst. constructor; [|apply IH, H'].
    intros Hin. apply in_map_iff in Hin. destruct Hin as (y & E & Hy). rewrite Forall_forall in Hx. specialize (Hx y Hy).
    unfold ltK, key in Hx. rewrite E in Hx. lia.
  Qed.
  Lemma dup_clean l x : In x l -> exists y, In y (clean l) /\ key y = key x.
  Proof.
    intros H. assert (Hf : In x (filter (has (key x)) l)) by (apply filter_In; split; [exact H|apply Z.eqb_refl]).
    destruct (filter (has (key x)) l) as [|y f] eqn:E; [destruct Hf|].
    assert (Hy : In y (filter (has (key x)) l)) by (rewrite E; now left).
    apply filter_In in Hy. destruct Hy as [_ Hy]. apply Z.eqb_eq in Hy. exists y. split; [|exact Hy].
    unfold clean. rewrite (dedup_first _ _ (sort_sorted l)), sort_filter, Hy, E. reflexivity.
  Qed.
End Sort.

Lemma sort_and_remove_ok o : sort_and_remove_duplicates o =
  Ok (mkosm (clean n_id (o_nodes o)) (clean w_id (o_ways o)) (clean r_id (o_rels o))).
Proof. unfold sort_and_remove_duplicates. rewrite !clean_ok. reflexivity. Qed.

(* ---- inserting a node ---- *)
Lemma index_from_spec nds id : forall i,
  match index_from i nds id with
  | None => ~ In id nds
  | Some k => exists pre post, nds = pre ++ id :: post /\ ~ In id pre /\ k = i + List.length pre
  end.
Proof.
  induction nds as [|x nds IH]; intros i; cbn [index_from]; [intros []|].
  destruct (String.eqb_spec x id) as [->|E].
  - exists [], nds. repeat split; [intros []|cbn; lia].
  - specialize (IH (S i)). destruct (index_from (S i) nds id) as [k|].
    + destruct IH as (pre & post & -> & Hp & ->). exists (x :: pre), post. repeat split; [|cbn; lia].
      intros [H|H]; [congruence|contradiction].
    + intros [H|H]; [congruence|contradiction].
Qed.
Lemma insert_ref_beside new ref nds : beside new ref nds (insert_ref new ref nds).
Proof.
  unfold insert_ref, node_index_in_way. pose proof (index_from_spec nds ref 0) as H.
  destruct (index_from 0 nds ref) as [k|]; [|constructor; exact H].
  destruct H as (pre & post & -> & Hp & ->). cbn [Nat.add]. rewrite app_length. cbn [List.length].
  destruct (Nat.eqb_spec (S (List.length pre)) (List.length pre + S (List.length post))) as [E|E].
  - destruct post as [|y post]; [|cbn in E; lia]. rewrite firstn_app, Nat.sub_diag, firstn_all. cbn [firstn app]. rewrite app_nil_r.
    constructor. exact Hp.
  - replace (firstn (S (List.length pre)) (pre ++ ref :: post)) with (pre ++ [ref]).
    2:{ change (ref :: post) with ([ref] ++ post). rewrite app_assoc, firstn_app, app_length. cbn [List.length].
        rewrite firstn_all2 by (rewrite app_length; cbn; lia). replace (S (List.length pre) - (List.length pre + 1)) with 0 by lia.
        cbn [firstn]. now rewrite app_nil_r. }
    replace (skipn (S (List.length pre)) (pre ++ ref :: post)) with post.
    2:{ change (ref :: post) with ([ref] ++ post). rewrite app_assoc, skipn_app, app_length. cbn [List.length].
        rewrite skipn_all2 by (rewrite app_length; cbn; lia). now replace (S (List.length pre) - (List.length pre + 1)) with 0 by lia. }
    rewrite <- app_assoc. cbn [app]. constructor; [exact Hp|]. intros ->. cbn in E. lia.
Qed.
Lemma beside_remove new ref nds nds' : ~ In new nds -> beside new ref nds nds' ->
  filter (fun x => negb (String.eqb x new)) nds' = nds.
Proof.
  assert (Hk : forall l, ~ In new l -> filter (fun x => negb (String.eqb x new)) l = l).
  { induction l as [|x l IH]; intros H; [reflexivity|]. cbn [filter]. destruct (String.eqb_spec x new) as [->|E].
    - destruct H. now left.
    - cbn [negb]. f_equal. apply IH. intros H'. apply H. now right. }
  intros Hn H. destruct H as [nds Hr|pre post Hr Hp|pre Hr].
  - apply Hk, Hn.
  - rewrite <- (Hk _ Hn). rewrite !filter_app. cbn [filter]. rewrite String.eqb_refl. reflexivity.
  - rewrite <- (Hk _ Hn). rewrite !filter_app. cbn [filter]. rewrite String.eqb_refl. reflexivity.
Qed.

(* ---- removing stops ---- *)
Fixpoint survivors (l : list node) : list node :=
  match l with
  | [] => []
  | x :: l' => if is_stop_node x then match l' with [] => [] | y :: l'' => y :: survivors l'' end else x :: survivors l'
  end.
Lemma remove_loop_tail lst : is_stop_node lst = false -> forall count i arr m,
  (forall j, i <= j -> j < i + count -> nth_error arr j = Some lst) -> remove_loop count i arr m = Ok (arr, m).
Proof.
  intros Hl. induction count as [|count IH]; intros i arr m H; [reflexivity|]. cbn [remove_loop].
  rewrite (H i) by lia. rewrite Hl. apply IH. intros j Hj1 Hj2. apply H; lia.
Qed.
Lemma nth_repeat_some {A} (x : A) k j : j < k -> nth_error (repeat x k) j = Some x.
Proof. revert j. induction k as [|k IH]; intros [|j] H; [lia|lia|reflexivity|]. cbn. apply IH. lia. Qed.
(* the array is: what is done, what is still to come, stale copies of the last *)
Lemma remove_loop_ok : forall n todo done stale lst, List.length todo <= n ->
  (todo = [] \/ exists t, todo = t ++ [lst]) -> is_stop_node lst = false ->
  exists arr m, remove_loop (List.length todo + stale) (List.length done) (done ++ todo ++ repeat lst stale)
     (List.length done + List.length todo) = Ok (arr, m) /\ firstn m arr = done ++ survivors todo.
Proof.
  induction n as [|n IH]; intros todo done stale lst Hn Hlast Hl.
  - destruct todo; [|cbn in Hn; lia]. eexists _, _. split.
    + cbn [List.length Nat.add app]. apply (remove_loop_tail lst Hl). intros j H1 H2.
      rewrite nth_error_app2 by lia. apply nth_repeat_some. lia.
    + rewrite Nat.add_0_r. cbn [app survivors]. rewrite firstn_app, firstn_all, Nat.sub_diag. cbn [firstn]. reflexivity.
  - destruct todo as [|x todo]; [apply (IH [] done stale lst); [cbn; lia|now left|exact Hl]|].
    cbn [List.length Nat.add remove_loop]. rewrite nth_error_app2, Nat.sub_diag by lia. cbn [app nth_error survivors].
    destruct (is_stop_node x) eqn:Ex.
    + replace (S (List.length done) <=? List.length done + S (List.length todo)) with true by (symmetry; apply Nat.leb_le; lia).
      destruct todo as [|y todo].
      { destruct Hlast as [H|[t H]]; [discriminate|]. destruct t as [|? t]; [|destruct t; discriminate]. injection H as ->. congruence. }
      replace (List.length done + S (List.length (y :: todo)) - 1) with (List.length done + S (List.length todo)) by (cbn; lia).
      assert (Harr : firstn (List.length done) (done ++ x :: (y :: todo) ++ repeat lst stale) ++
          skipn (S (List.length done)) (firstn (List.length done + S (List.length (y :: todo))) (done ++ x :: (y :: todo) ++ repeat lst stale)) ++
          skipn (List.length done + S (List.length todo)) (done ++ x :: (y :: todo) ++ repeat lst stale)
          = (done ++ [y]) ++ todo ++ repeat lst (S stale)).
      { rewrite firstn_app, Nat.sub_diag, firstn_all. cbn [firstn]. rewrite app_nil_r.
        rewrite firstn_app. rewrite firstn_all2 by lia.
        replace (List.length done + S (List.length (y :: todo)) - List.length done) with (S (List.length (y :: todo))) by lia.
        cbn [firstn]. rewrite firstn_app, firstn_all, Nat.sub_diag. cbn [firstn]. rewrite app_nil_r.
        rewrite skipn_app. rewrite skipn_all2 by lia. replace (S (List.length done) - List.length done) with 1 by lia. cbn [skipn app].
        rewrite skipn_app. rewrite skipn_all2 by lia.
        replace (List.length done + S (List.length todo) - List.length done) with (S (List.length todo)) by lia. cbn [skipn app].
        replace (skipn (List.length todo) (y :: todo ++ repeat lst stale)) with (lst :: repeat lst stale).
        { now rewrite <- app_assoc. }
        assert (Hyt : exists t, y :: todo = t ++ [lst]).
        { destruct Hlast as [H|[t H]]; [discriminate|]. destruct t as [|? t]; [discriminate|]. cbn [app] in H. injection H as _ H. eauto. }
        destruct Hyt as [t Ht].
        replace (y :: todo ++ repeat lst stale) with ((y :: todo) ++ repeat lst stale) by reflexivity. rewrite Ht.
        assert (Hlen : List.length todo = List.length t).
        { apply (f_equal (@List.length node)) in Ht. rewrite app_length in Ht. cbn in Ht. lia. }
        rewrite Hlen, <- app_assoc, skipn_app, skipn_all, Nat.sub_diag. reflexivity. }
      rewrite Harr.
      destruct (IH todo (done ++ [y]) (S stale) lst) as (arr & m & H1 & H2).
      * cbn in Hn. lia.
      * destruct todo as [|z todo]; [now left|]. right. destruct Hlast as [H|[t H]]; [discriminate|].
        destruct t as [|? [|? t]]; [discriminate|discriminate|]. cbn [app] in H. injection H as _ _ H. eauto.
      * exact Hl.
      * exists arr, m. split; [|now rewrite <- app_assoc in H2].
        rewrite app_length in H1. cbn [List.length] in H1 |- *. rewrite <- H1. f_equal; lia.
    + destruct (IH todo (done ++ [x]) stale lst) as (arr & m & H1 & H2).
      * cbn in Hn. lia.
      * destruct todo as [|z todo]; [now left|]. right. destruct Hlast as [H|[t H]]; [discriminate|].
        destruct t as [|? t]; [discriminate|]. cbn [app] in H. injection H as _ H. eauto.
      * exact Hl.
      * exists arr, m. split; [|now rewrite <- app_assoc in H2].
        rewrite app_length in H1. cbn [List.length] in H1. rewrite <- app_assoc in H1. cbn [app] in H1. rewrite <- H1. f_equal; lia.
Qed.
Lemma remove_stops_ok t lst : is_stop_node lst = false -> remove_stops (t ++ [lst]) = Ok (survivors (t ++ [lst])).
Proof.
  intros Hl. unfold remove_stops.
  destruct (remove_loop_ok _ (t ++ [lst]) [] 0 lst (le_n _)) as (arr & m & H1 & H2); [right; eauto|exact Hl|].
  cbn [List.length app repeat Nat.add] in H1. rewrite Nat.add_0_r, app_nil_r in H1. rewrite H1. cbn [bind]. now rewrite H2.
Qed.

Lemma remove_loop_none : forall l i arr m, (forall j, j < List.length l -> nth_error arr (i + j) = nth_error l j) ->
  Forall (fun x => is_stop_node x = false) l -> remove_loop (List.length l) i arr m = Ok (arr, m).
Proof.
  induction l as [|x l IH]; intros i arr m H Hf; [reflexivity|]. inversion Hf as [|? ? Hx Hf']; subst. cbn [List.length remove_loop].
  pose proof (H 0 ltac:(cbn; lia)) as H0. rewrite Nat.add_0_r in H0. rewrite H0. cbn [nth_error]. rewrite Hx. apply IH; [|exact Hf'].
  intros j Hj. replace (S i + j) with (i + S j) by lia. apply H. cbn. lia.
Qed.
Lemma shift_last (done : list node) x y todo lst stale : (exists t, y :: todo = t ++ [lst]) ->
  firstn (List.length done) (done ++ x :: (y :: todo) ++ repeat lst stale) ++
  skipn (S (List.length done)) (firstn (List.length done + S (List.length (y :: todo))) (done ++ x :: (y :: todo) ++ repeat lst stale)) ++
  skipn (List.length done + S (List.length todo)) (done ++ x :: (y :: todo) ++ repeat lst stale)
  = (done ++ [y]) ++ todo ++ repeat lst (S stale).
Proof.
  intros [t Ht]. rewrite firstn_app, Nat.sub_diag, firstn_all. cbn [firstn]. rewrite app_nil_r.
  rewrite firstn_app. rewrite firstn_all2 by lia.
  replace (List.length done + S (List.length (y :: todo)) - List.length done) with (S (List.length (y :: todo))) by lia.
  cbn [firstn]. rewrite firstn_app, firstn_all, Nat.sub_diag. cbn [firstn]. rewrite app_nil_r.
  rewrite skipn_app. rewrite skipn_all2 by lia. replace (S (List.length done) - List.length done) with 1 by lia. cbn [skipn app].
  rewrite skipn_app. rewrite skipn_all2 by lia.
  replace (List.length done + S (List.length todo) - List.length done) with (S (List.length todo)) by lia. cbn [skipn app].
  replace (skipn (List.length todo) (y :: todo ++ repeat lst stale)) with (lst :: repeat lst stale).
  { now rewrite <- app_assoc. }
  replace (y :: todo ++ repeat lst stale) with ((y :: todo) ++ repeat lst stale) by reflexivity. rewrite Ht.
  assert (Hlen : List.length todo = List.length t).
  { apply (f_equal (@List.length node)) in Ht. rewrite app_length in Ht. cbn in Ht. lia. }
  rewrite Hlen, <- app_assoc, skipn_app, skipn_all, Nat.sub_diag. reflexivity.
Qed.
Lemma last_tail {A} (x : A) l lst t : x :: l = t ++ [lst] -> l = [] /\ x = lst \/ exists t', l = t' ++ [lst].
Proof. destruct t as [|y t]; cbn [app]; intros H; injection H as E1 E2; [left; auto|right; eauto]. Qed.
(* once something was removed, a stop at the end is read again *)
Lemma remove_loop_panic : forall n todo done stale lst, List.length todo <= n ->
  (todo = [] \/ exists t, todo = t ++ [lst]) -> is_stop_node lst = true ->
  remove_loop (List.length todo + S stale) (List.length done) (done ++ todo ++ repeat lst (S stale))
     (List.length done + List.length todo) = Throw.
Proof.
  induction n as [|n IH]; intros todo done stale lst Hn Hlast Hl.
  - destruct todo; [|cbn in Hn; lia]. cbn [List.length Nat.add app remove_loop].
    rewrite nth_error_app2, Nat.sub_diag by lia. cbn [repeat nth_error]. rewrite Hl, Nat.add_0_r.
    replace (S (List.length done) <=? List.length done) with false by (symmetry; apply Nat.leb_gt; lia). reflexivity.
  - destruct todo as [|x todo]; [apply (IH [] done stale lst); [cbn; lia|now left|exact Hl]|].
    destruct Hlast as [H|[t H]]; [discriminate|]. apply last_tail in H.
    cbn [List.length Nat.add remove_loop]. rewrite nth_error_app2, Nat.sub_diag by lia. cbn [app nth_error].
    destruct (is_stop_node x) eqn:Ex.
    + replace (S (List.length done) <=? List.length done + S (List.length todo)) with true by (symmetry; apply Nat.leb_le; lia).
      destruct todo as [|y todo].
      * destruct H as [[_ ->]|[t' H]]; [|destruct t'; discriminate]. cbn [List.length app].
        replace (List.length done + 1 - 1) with (List.length done) by lia. cbn [Nat.add remove_loop].
        rewrite firstn_app, Nat.sub_diag, firstn_all. cbn [firstn]. rewrite app_nil_r.
        rewrite firstn_app. rewrite firstn_all2 by lia. replace (List.length done + 1 - List.length done) with 1 by lia. cbn [firstn].
        rewrite skipn_app. rewrite skipn_all2 by lia. replace (S (List.length done) - List.length done) with 1 by lia. cbn [skipn app].
        rewrite skipn_app, skipn_all, Nat.sub_diag. cbn [skipn app].
        rewrite nth_error_app2 by lia. replace (S (List.length done) - List.length done) with 1 by lia. cbn [repeat nth_error]. rewrite Hl.
        replace (S (S (List.length done)) <=? List.length done) with false by (symmetry; apply Nat.leb_gt; lia). reflexivity.
      * destruct H as [[H _]|[t' H]]; [discriminate|].
        replace (List.length done + S (List.length (y :: todo)) - 1) with (List.length done + S (List.length todo)) by (cbn; lia).
        rewrite (shift_last done x y todo lst (S stale)) by eauto.
        apply last_tail in H. rewrite <- (IH todo (done ++ [y]) (S stale) lst); [|cbn in Hn; lia| |exact Hl].
        -- rewrite app_length. cbn [List.length]. f_equal; lia.
        -- destruct H as [[-> _]|H]; [now left|now right].
    + rewrite <- (IH todo (done ++ [x]) stale lst); [|cbn in Hn; lia| |exact Hl].
      * rewrite app_length, <- app_assoc. cbn [List.length app]. f_equal; lia.
      * destruct H as [[-> _]|H]; [now left|now right].
Qed.
Lemma remove_loop_S count i arr m : remove_loop (S count) i arr m =
  match nth_error arr i with
  | None => Throw
  | Some n =>
      if is_stop_node n
      then if Nat.leb (S i) m
           then remove_loop count (S i) (firstn i arr ++ skipn (S i) (firstn m arr) ++ skipn (m - 1) arr) (m - 1)
           else Throw
      else remove_loop count (S i) arr m
  end.
Proof. reflexivity. Qed.
Lemma remove_loop_first : forall todo done lst, (exists t, todo = t ++ [lst]) -> is_stop_node lst = true ->
  existsb is_stop_node (removelast todo) = true ->
  remove_loop (List.length todo) (List.length done) (done ++ todo) (List.length done + List.length todo) = Throw.
Proof.
  induction todo as [|x todo IH]; intros done lst [t Ht] Hl Hex; [discriminate|].
  apply last_tail in Ht. destruct Ht as [[-> ->]|[t' Ht]]; [discriminate|].
  destruct todo as [|y todo]; [destruct t'; discriminate|].
  change (List.length (x :: y :: todo)) with (S (S (List.length todo))).
  rewrite remove_loop_S, nth_error_app2, Nat.sub_diag by lia. cbn [nth_error].
  destruct (is_stop_node x) eqn:Ex.
  - replace (S (List.length done) <=? List.length done + S (S (List.length todo))) with true by (symmetry; apply Nat.leb_le; lia).
    replace (List.length done + S (S (List.length todo)) - 1) with (List.length done + S (List.length todo)) by lia.
    pose proof (shift_last done x y todo lst 0 (ex_intro _ t' Ht)) as Hs. cbn [repeat List.length] in Hs. rewrite app_nil_r in Hs.
    cbn [app] in Hs. rewrite Hs. apply last_tail in Ht.
    assert (Hor : todo = [] \/ exists t, todo = t ++ [lst]) by (destruct Ht as [[-> _]|H]; [now left|now right]).
    pose proof (remove_loop_panic (List.length todo) todo (done ++ [y]) 0 lst (le_n _) Hor Hl) as HP.
    rewrite app_length in HP. cbn [List.length repeat] in HP.
    replace (List.length todo + 1) with (S (List.length todo)) in HP by lia.
    replace (List.length done + 1) with (S (List.length done)) in HP by lia.
    replace (S (List.length done) + List.length todo) with (List.length done + S (List.length todo)) in HP by lia. exact HP.
  - change (removelast (x :: y :: todo)) with (x :: removelast (y :: todo)) in Hex.
    cbn [existsb] in Hex. rewrite Ex in Hex. cbn [orb] in Hex.
    pose proof (IH (done ++ [x]) lst (ex_intro _ t' Ht) Hl Hex) as HP.
    rewrite app_length, <- app_assoc in HP. cbn [List.length] in HP. cbn [app] in HP.
    replace (List.length done + 1) with (S (List.length done)) in HP by lia.
    replace (S (List.length done) + S (List.length todo)) with (List.length done + S (S (List.length todo))) in HP by lia. exact HP.
Qed.
Lemma remove_stops_panic t lst : is_stop_node lst = true -> existsb is_stop_node t = true -> remove_stops (t ++ [lst]) = Throw.
Proof.
  intros Hl Ht. unfold remove_stops.
  pose proof (remove_loop_first (t ++ [lst]) [] lst (ex_intro _ t eq_refl) Hl) as H.
  rewrite removelast_last in H. specialize (H Ht). cbn [List.length app Nat.add] in H. now rewrite H.
Qed.
Lemma remove_stops_single t lst : is_stop_node lst = true -> existsb is_stop_node t = false -> remove_stops (t ++ [lst]) = Ok t.
Proof.
  intros Hl Ht. unfold remove_stops.
  assert (Hf : Forall (fun x => is_stop_node x = false) t).
  { apply Forall_forall. intros x Hx. destruct (is_stop_node x) eqn:E; [|reflexivity].
    exfalso. assert (existsb is_stop_node t = true) by (apply existsb_exists; eauto). congruence. }
  assert (H : forall t done : list node, Forall (fun x => is_stop_node x = false) t ->
    remove_loop (List.length (t ++ [lst])) (List.length done) (done ++ t ++ [lst]) (List.length done + List.length (t ++ [lst]))
    = Ok (done ++ t ++ [lst], List.length done + List.length t)).
  { clear t Hf Ht. intros t done Hf. revert done. induction Hf as [|x l Hx Hf IH]; intros done.
    - cbn [app List.length remove_loop]. rewrite nth_error_app2, Nat.sub_diag by lia. cbn [nth_error]. rewrite Hl.
      replace (S (List.length done) <=? List.length done + 1) with true by (symmetry; apply Nat.leb_le; lia).
      replace (List.length done + 1 - 1) with (List.length done) by lia.
      rewrite firstn_app, Nat.sub_diag, firstn_all. cbn [firstn]. rewrite app_nil_r.
      rewrite firstn_app. rewrite firstn_all2 by lia. replace (List.length done + 1 - List.length done) with 1 by lia. cbn [firstn].
      rewrite skipn_app. rewrite skipn_all2 by lia. replace (S (List.length done) - List.length done) with 1 by lia. cbn [skipn app].
      rewrite skipn_app, skipn_all, Nat.sub_diag. cbn [skipn app]. now rewrite Nat.add_0_r.
    - change (List.length ((x :: l) ++ [lst])) with (S (List.length (l ++ [lst]))).
      rewrite remove_loop_S, nth_error_app2, Nat.sub_diag by lia. cbn [app nth_error]. rewrite Hx.
      specialize (IH (done ++ [x])). rewrite (app_length done), <- !app_assoc in IH. cbn [List.length] in IH. cbn [app] in IH.
      replace (List.length done + 1) with (S (List.length done)) in IH by lia.
      replace (List.length done + S (List.length (l ++ [lst]))) with (S (List.length done) + List.length (l ++ [lst])) by lia.
      rewrite IH. cbn [List.length]. do 2 f_equal. lia. }
  specialize (H t [] Hf). cbn [List.length app Nat.add] in H. rewrite H. cbn [bind]. rewrite firstn_app, firstn_all, Nat.sub_diag. cbn [firstn].
  now rewrite app_nil_r.
Qed.
(* a node survives iff it is no stop or directly follows a removed one *)
Lemma survivors_isolated l : (forall pre x y post, l = pre ++ x :: y :: post -> is_stop_node x = true -> is_stop_node y = false) ->
  survivors l = filter (fun n => negb (is_stop_node n)) l.
Proof.
  remember (List.length l) as n eqn:En. assert (Hn : List.length l <= n) by lia. clear En. revert l Hn.
  induction n as [|n IH]; intros l Hn H; [destruct l; [reflexivity|cbn in Hn; lia]|].
  destruct l as [|x l]; [reflexivity|]. cbn [survivors filter].
  assert (Hc : forall k z, x :: l = z :: k -> True) by auto. clear Hc.
  destruct (is_stop_node x) eqn:Ex; cbn [negb].
  - destruct l as [|y l]; [reflexivity|]. cbn [filter]. rewrite (H [] x y l eq_refl Ex). cbn [negb]. f_equal.
    apply IH; [cbn in Hn; lia|]. intros pre a b post -> Ha. exact (H (x :: y :: pre) a b post eq_refl Ha).
  - f_equal. apply IH; [cbn in Hn; lia|]. intros pre a b post -> Ha. exact (H (x :: pre) a b post eq_refl Ha).
Qed.
Lemma first_tag_find key v tags : first_tag key v tags <-> find_tag tags key = Some v.
Proof.
  split.
  - induction 1 as [tags|k w tags Hk H IH]; cbn [find_tag]; [now rewrite String.eqb_refl|].
    destruct (String.eqb_spec k key); [contradiction|exact IH].
  - induction tags as [|[k w] tags IH]; cbn [find_tag]; [discriminate|].
    destruct (String.eqb_spec k key) as [->|E]; intros H; [injection H as ->; constructor|constructor; auto].
Qed.
Lemma is_stop_node_iff n : is_stop_node n = true <-> stop_tags (n_tags n).
Proof.
  unfold is_stop_node, stop_tags. rewrite !first_tag_find. unfold find_tag_on_node, is_stop.
  destruct (find_tag (n_tags n) "railway") as [v|]; [|split; [discriminate|intros [H|H]; discriminate]].
  rewrite orb_true_iff, !String.eqb_eq. split; (intros [H|H]; [left|right]; congruence).
Qed.

(* ---- the list of stations ---- *)
(* what one node of the file contributes *)
Definition curated_node (n : node) : list node :=
  match find_tag_on_node n "railway", find_tag_on_node n "name" with
  | Some railway, Some name =>
      [if is_stop railway then mknode (n_tags n ++ [("type"%string, "station"%string)]) (n_id n) (n_lat n) (n_lon n) else n]
  | _, _ => []
  end.
Lemma stations_of_nodes nodes : forall m out, snd (stations_of nodes m out) = out ++ flat_map curated_node nodes.
Proof.
  induction nodes as [|n nodes IH]; intros m out; cbn [stations_of flat_map]; [now rewrite app_nil_r|].
  unfold curated_node at 1. destruct (find_tag_on_node n "railway") as [r|]; [|apply IH].
  destruct (find_tag_on_node n "name") as [nm|]; [|apply IH].
  destruct (is_stop r); rewrite IH, <- app_assoc; reflexivity.
Qed.
Definition entry (n : node) : option (string * place) :=
  match find_tag_on_node n "railway", find_tag_on_node n "name" with
  | Some railway, Some name => if is_stop railway then Some (n_id n, mkplace name (n_lat n) (n_lon n)) else None
  | _, _ => None
  end.
Lemma stations_of_map nodes : forall m out,
  fst (stations_of nodes m out) =
  fold_left (fun m n => match entry n with Some (k, p) => put_place m k p | None => m end) nodes m.
Proof.
  induction nodes as [|n nodes IH]; intros m out; cbn [stations_of fold_left]; [reflexivity|].
  unfold entry at 2. destruct (find_tag_on_node n "railway") as [r|]; [|apply IH].
  destruct (find_tag_on_node n "name") as [nm|]; [|apply IH].
  destruct (is_stop r); apply IH.
Qed.
Lemma put_place_in m k p k' p' : In (k', p') (put_place m k p) <-> (k' = k /\ p' = p) \/ (k' <> k /\ In (k', p') m).
Proof.
  unfold put_place. rewrite in_app_iff, filter_In. cbn [fst In].
  destruct (String.eqb_spec k' k) as [->|E]; cbn [negb].
  - split; [intros [[_ H]|[H|[]]]; [discriminate|]; left; split; congruence|].
    intros [[_ ->]|[H _]]; [right; left; reflexivity|congruence].
  - split; [intros [[H _]|[H|[]]]; [right; auto|congruence]|]. intros [[H _]|[_ H]]; [congruence|left; auto].
Qed.
Lemma put_place_nodup m k p : NoDup (map fst m) -> NoDup (map fst (put_place m k p)).
Proof.
  intros H. unfold put_place. rewrite map_app. cbn [map fst]. apply Permutation_NoDup with (k :: map fst (filter (fun e => negb (String.eqb (fst e) k)) m)).
  - apply Permutation_cons_append.
  - constructor.
    + intros Hin. apply in_map_iff in Hin. destruct Hin as ([k' p'] & E & Hin). apply filter_In in Hin. cbn [fst] in *. subst k'.
      rewrite String.eqb_refl in Hin. destruct Hin as [_ Hin]. discriminate.
    + clear -H. induction m as [|[a b] m IH]; [constructor|]. cbn [map fst] in H. inversion H as [|? ? Ha Hm]; subst. cbn [filter fst].
      destruct (String.eqb a k); cbn [negb]; [apply IH, Hm|]. cbn [map fst]. constructor; [|apply IH, Hm].
      intros Hin. apply Ha. apply in_map_iff in Hin. destruct Hin as (x & E & Hin). apply filter_In in Hin. apply in_map_iff. exists x. tauto.
Qed.
Lemma fold_entries nodes : forall m k p,
  (In (k, p) (fold_left (fun m n => match entry n with Some (k, p) => put_place m k p | None => m end) nodes m) <->
   (exists pre n post, nodes = pre ++ n :: post /\ entry n = Some (k, p) /\ Forall (fun n' => forall q, entry n' <> Some (k, q)) post) \/
   (Forall (fun n' => forall q, entry n' <> Some (k, q)) nodes /\ In (k, p) m)).
Proof.
  induction nodes as [|n nodes IH]; intros m k p; cbn [fold_left].
  - split; [intros H; right; split; [constructor|exact H]|].
    intros [(pre & n & post & H & _)|[_ H]]; [destruct pre; discriminate|exact H].
  - rewrite IH. clear IH. split.
    + intros [(pre & x & post & -> & H1 & H2)|[Hf Hin]].
      * left. exists (n :: pre), x, post. auto.
      * destruct (entry n) as [[k1 p1]|] eqn:E.
        -- apply put_place_in in Hin. destruct Hin as [[-> ->]|[Hne Hin]].
           ++ left. exists [], n, nodes. auto.
           ++ right. split; [|exact Hin]. constructor; [intros q H; rewrite E in H; congruence|exact Hf].
        -- right. split; [|exact Hin]. constructor; [intros q H; rewrite E in H; congruence|exact Hf].
    + intros [(pre & x & post & Heq & H1 & H2)|[Hf Hin]].
      * destruct pre as [|y pre]; cbn [app] in Heq; injection Heq as -> ->.
        -- right. split; [exact H2|]. rewrite H1. apply put_place_in. left. auto.
        -- left. exists pre, x, post. auto.
      * inversion Hf as [|? ? Hn Hf']; subst. right. split; [exact Hf'|].
        destruct (entry n) as [[k1 p1]|] eqn:E; [|exact Hin]. apply put_place_in. right. split; [|exact Hin].
        intros ->. now apply (Hn p1).
Qed.
Lemma fold_nodup nodes : forall m, NoDup (map fst m) ->
  NoDup (map fst (fold_left (fun m n => match entry n with Some (k, p) => put_place m k p | None => m end) nodes m)).
Proof.
  induction nodes as [|n nodes IH]; intros m H; cbn [fold_left]; [exact H|]. apply IH.
  destruct (entry n) as [[k p]|]; [apply put_place_nodup, H|exact H].
Qed.
Lemma entry_iff n k p : entry n = Some (k, p) <->
  stop_tags (n_tags n) /\ k = n_id n /\ first_tag "name" (p_name p) (n_tags n) /\ p_lat p = n_lat n /\ p_lon p = n_lon n.
Proof.
  unfold entry, stop_tags. rewrite !first_tag_find. unfold find_tag_on_node, is_stop.
  destruct (find_tag (n_tags n) "railway") as [v|]; [|split; [discriminate|intros [[H|H] _]; discriminate]].
  destruct (find_tag (n_tags n) "name") as [nm|]; [|split; [discriminate|intros (_ & _ & H & _); discriminate]].
  destruct (String.eqb_spec v "station") as [->|E1]; cbn [orb].
  - split; [intros H; injection H as <- <-; repeat split; auto|]. intros (_ & -> & H & H1 & H2). destruct p. cbn in *. congruence.
  - destruct (String.eqb_spec v "halt") as [->|E2].
    + split; [intros H; injection H as <- <-; repeat split; auto|]. intros (_ & -> & H & H1 & H2). destruct p. cbn in *. congruence.
    + split; [discriminate|]. intros [[H|H] _]; congruence.
Qed.

(* ---- line numbers ---- *)
Lemma refs_in tags r : In r (refs_of_tags tags) -> In ("ref"%string, r) tags /\ String.length r = 4 /\ exists z, number r z.
Proof.
  induction tags as [|[k v] tags IH]; cbn [refs_of_tags]; [intros []|].
  destruct (String.eqb_spec k "ref") as [->|E]; cbn [andb].
  - destruct (Nat.eqb_spec (String.length v) 4) as [El|El]; cbn [andb].
    + destruct (snd (atoi_err v)) eqn:Ee; [intros []|]. intros [<-|H].
      * split; [now left|]. split; [exact El|]. eexists. apply atoi_err_number, Ee.
      * destruct (IH H) as (H1 & H2). split; [now right|exact H2].
    + intros H. destruct (IH H) as (H1 & H2). split; [now right|exact H2].
  - intros H. destruct (IH H) as (H1 & H2). split; [now right|exact H2].
Qed.
Lemma refs_complete tags r : (forall v, In ("ref"%string, v) tags -> String.length v = 4 -> exists z, number v z) ->
  In ("ref"%string, r) tags -> String.length r = 4 -> In r (refs_of_tags tags).
Proof.
  induction tags as [|[k v] tags IH]; intros Hn Hin Hl; [destruct Hin|]. cbn [refs_of_tags].
  assert (IH' : In ("ref"%string, r) tags -> In r (refs_of_tags tags)).
  { intros H. apply IH; [|exact H|exact Hl]. intros w Hw. apply Hn. now right. }
  destruct Hin as [Hin|Hin].
  - injection Hin as -> ->. rewrite String.eqb_refl, Hl. cbn [Nat.eqb andb].
    destruct (Hn r (or_introl eq_refl) Hl) as [z Hz]. rewrite (number_atoi_err r z Hz). now left.
  - destruct (String.eqb_spec k "ref") as [->|E]; cbn [andb]; [|apply IH', Hin].
    destruct (Nat.eqb_spec (String.length v) 4) as [El|El]; cbn [andb]; [|apply IH', Hin].
    destruct (Hn v (or_introl eq_refl) El) as [z Hz]. rewrite (number_atoi_err v z Hz). cbn [snd]. right. apply IH', Hin.
Qed.

(* ---- additional data ---- *)
Lemma substring_split name : forall n, n <= String.length name ->
  name = String.append (substring 0 n name) (substring n (String.length name - n) name) /\ String.length (substring 0 n name) = n.
Proof.
  induction name as [|c name IH]; intros n Hn; cbn [String.length] in Hn.
  - replace n with 0 by lia. split; reflexivity.
  - destruct n as [|n].
    + split; [|reflexivity]. rewrite Nat.sub_0_r. change (substring 0 0 (String c name)) with ""%string.
      cbn [String.append String.length substring]. f_equal.
      destruct (IH 0 ltac:(lia)) as [H _]. rewrite Nat.sub_0_r in H. destruct name; exact H.
    + destruct (IH n ltac:(lia)) as [H1 H2]. cbn [substring String.append String.length Nat.sub]. split; [now f_equal|now f_equal].
Qed.
Lemma length_append s t : String.length (String.append s t) = String.length s + String.length t.
Proof. induction s as [|c s IH]; cbn; [reflexivity|now rewrite IH]. Qed.
Lemma substring_append s t : substring 0 (String.length s) (String.append s t) = s.
Proof. induction s as [|c s IH]; cbn; [destruct t; reflexivity|now f_equal]. Qed.
Lemma xml_name_ok_iff name : xml_name_ok name = Ok true <-> exists rest, name = String.append ".xml" rest /\ String.length rest = 4.
Proof.
  unfold xml_name_ok. destruct (Nat.ltb_spec (String.length name) 4) as [H|H].
  - split; [discriminate|]. intros (rest & -> & Hl). rewrite length_append in H. cbn [String.length] in H. lia.
  - destruct (substring_split name (String.length name - 4) ltac:(lia)) as [H1 H2].
    destruct (String.eqb_spec (substring 0 (String.length name - 4) name) ".xml") as [E|E].
    + split; [intros _|reflexivity]. rewrite E in H1, H2. cbn [String.length] in H2.
      rewrite H1. eexists. split; [reflexivity|].
      apply (f_equal String.length) in H1. rewrite length_append in H1. cbn [String.length] in H1. lia.
    + split; [discriminate|]. intros (rest & En & Hl). exfalso. apply E. rewrite En, length_append, Hl.
      cbn [String.length Nat.add Nat.sub]. exact (substring_append ".xml" rest).
Qed.
Lemma insert_found modified order : forall l,
  fold_right (fun r acc => match get_node_by_id modified r, acc with Some n, Some l => Some (n :: l) | _, _ => None end) (Some []) order = Some l ->
  Forall2 (fun r n => get_node_by_id modified r = Some n) order l.
Proof.
  induction order as [|r order IH]; intros l H; cbn [fold_right] in H; [injection H as <-; constructor|].
  destruct (get_node_by_id modified r) as [n|] eqn:E; [|discriminate].
  destruct (fold_right _ _ order) as [l'|] eqn:E'; [|discriminate]. injection H as <-. constructor; [exact E|apply IH; reflexivity].
Qed.
Lemma get_node_in nodes id n : get_node nodes id = Some n -> In n nodes /\ n_id n = id.
Proof.
  induction nodes as [|x nodes IH]; cbn [get_node]; [discriminate|].
  destruct (String.eqb_spec (n_id x) id) as [E|E]; [intros H; injection H as ->; split; [now left|exact E]|].
  intros H. destruct (IH H). split; [now right|assumption].
Qed.
Lemma get_node_some nodes id n : In n nodes -> n_id n = id -> exists n', get_node nodes id = Some n'.
Proof.
  induction nodes as [|x nodes IH]; intros H E; [destruct H|]. cbn [get_node]. destruct H as [H|H].
  - subst x. rewrite E, String.eqb_refl. eauto.
  - destruct (String.eqb (n_id x) id); eauto.
Qed.
Lemma refs_to_copy_in modified additional mx r : In r (refs_to_copy modified additional mx) <->
  exists mw ow, In mw (o_ways modified) /\ In ow (o_ways additional) /\ w_id mw = w_id ow /\ In r (w_nd mw) /\ (atoi r <= mx)%Z.
Proof.
  unfold refs_to_copy. rewrite nodup_In, in_flat_map. split.
  - intros (mw & Hm & H). apply in_flat_map in H. destruct H as (ow & Ho & H).
    destruct (String.eqb_spec (w_id mw) (w_id ow)) as [E|E]; [|destruct H]. apply filter_In in H. destruct H as [H1 H2].
    apply Z.leb_le in H2. exists mw, ow. auto.
  - intros (mw & ow & Hm & Ho & E & Hr & Hz). exists mw. split; [exact Hm|]. apply in_flat_map. exists ow. split; [exact Ho|].
    rewrite E, String.eqb_refl. apply filter_In. split; [exact Hr|]. now apply Z.leb_le.
Qed.
