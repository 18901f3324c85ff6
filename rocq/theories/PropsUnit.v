(* C51: units of products, quotients and powers. *)
From Coq Require Import Lqa.
From Verif Require Import Base UnitModel.
Local Open Scope Z_scope.

(* ---- vocabulary ---- *)
(* how often a base unit is listed *)
Inductive occurs (t : tag) : list tag -> Z -> Prop :=
| occurs_nil : occurs t [] 0
| occurs_here l n : occurs t l n -> occurs t (t :: l) (n + 1)
| occurs_other u l n : u <> t -> occurs t l n -> occurs t (u :: l) n.
(* the exponent of a base unit in a type *)
Definition exponent (t : tag) (f : fraction) (e : Z) : Prop :=
  exists n d, occurs t (fr_n f) n /\ occurs t (fr_d f) d /\ e = n - d.
(* no base unit both above and below the line *)
Definition reduced (f : fraction) : Prop := forall t, ~ (In t (fr_n f) /\ In t (fr_d f)).
(* calculations with quantities *)
Inductive term : Type :=
| Leaf (f : fraction) | Times (a b : term) | Over (a b : term) | Power (n : nat) (a : term) | PowerOf (n : nat) (a : term).
Fixpoint calc (e : term) : fraction :=
  match e with
  | Leaf f => f
  | Times a b => mul (calc a) (calc b)
  | Over a b => div (calc a) (calc b)
  | Power n a => pow_member n (calc a)
  | PowerOf n a => pow_free n (calc a)          (* pow<n + 1> *)
  end.
Inductive leaf (f : fraction) : term -> Prop :=
| leaf_leaf : leaf f (Leaf f)
| leaf_times_l a b : leaf f a -> leaf f (Times a b) | leaf_times_r a b : leaf f b -> leaf f (Times a b)
| leaf_over_l a b : leaf f a -> leaf f (Over a b) | leaf_over_r a b : leaf f b -> leaf f (Over a b)
| leaf_power n a : leaf f a -> leaf f (Power n a) | leaf_power_of n a : leaf f a -> leaf f (PowerOf n a).
Inductive dimension (t : tag) : term -> Z -> Prop :=
| dim_leaf f e : exponent t f e -> dimension t (Leaf f) e
| dim_times a b x y : dimension t a x -> dimension t b y -> dimension t (Times a b) (x + y)
| dim_over a b x y : dimension t a x -> dimension t b y -> dimension t (Over a b) (x - y)
| dim_power n a x : dimension t a x -> dimension t (Power n a) (Z.of_nat n * x)
| dim_power_of n a x : dimension t a x -> dimension t (PowerOf n a) (Z.of_nat (n + 1) * x).
Inductive value : term -> Q -> Prop :=
| val_leaf f : value (Leaf f) (fr_val f)
| val_times a b x y : value a x -> value b y -> value (Times a b) (x * y)
| val_over a b x y : value a x -> value b y -> value (Over a b) (x / y)
| val_power n a x : value a x -> value (Power n a) (Qpower x (Z.of_nat n))
| val_power_of n a x : value a x -> value (PowerOf n a) (Qpower x (Z.of_nat (n + 1))).

(* ---- proofs ---- *)
Lemma tag_eqb_eq a b : tag_eqb a b = true <-> a = b.
Proof. destruct a, b; cbn; split; congruence. Qed.
Lemma tag_eqb_neq a b : tag_eqb a b = false <-> a <> b.
Proof. destruct a, b; cbn; split; congruence. Qed.
Lemma tag_eqb_refl a : tag_eqb a a = true. Proof. destruct a; reflexivity. Qed.
Lemma occurs_count t l n : occurs t l n <-> n = Z.of_nat (count t l).
Proof.
  split.
  - induction 1 as [|l n H IH|u l n N H IH]; cbn [count]; [reflexivity|rewrite tag_eqb_refl; lia|].
    replace (tag_eqb t u) with false by (symmetry; apply tag_eqb_neq; congruence). exact IH.
  - intros ->. induction l as [|u l IH]; cbn [count]; [constructor|]. destruct (tag_eqb t u) eqn:E.
    + apply tag_eqb_eq in E as <-. replace (Z.of_nat (1 + count t l)) with (Z.of_nat (count t l) + 1) by lia. constructor. exact IH.
    + apply tag_eqb_neq in E. constructor; [congruence|exact IH].
Qed.
Lemma count_in t l : In t l <-> (count t l <> 0)%nat.
Proof.
  induction l as [|u l IH]; cbn [count In]; [split; [intros []|lia]|]. destruct (tag_eqb t u) eqn:E.
  - apply tag_eqb_eq in E as <-. split; [lia|auto].
  - apply tag_eqb_neq in E. rewrite <- IH. intuition congruence.
Qed.
Definition dimz (t : tag) (f : fraction) : Z := Z.of_nat (count t (fr_n f)) - Z.of_nat (count t (fr_d f)).
Lemma exponent_dim t f e : exponent t f e <-> e = dimz t f.
Proof.
  unfold exponent, dimz. split.
  - intros (n & d & N & D & ->). apply occurs_count in N, D. lia.
  - intros ->. eexists. eexists. rewrite !occurs_count. split; [reflexivity|]. split; reflexivity.
Qed.
Lemma count_app t a b : count t (a ++ b) = (count t a + count t b)%nat.
Proof. induction a as [|u a IH]; cbn [app count]; [reflexivity|]. rewrite IH. lia. Qed.
Lemma count_times t n l : count t (concat_times n l) = (n * count t l)%nat.
Proof. induction n as [|n IH]; cbn [concat_times]; [reflexivity|]. unfold concat_t. rewrite count_app, IH. lia. Qed.
Lemma count_remove_once t u l : count t (remove_once u l) = (if tag_eqb t u then count t l - 1 else count t l)%nat.
Proof.
  induction l as [|h l IH]; cbn [remove_once count]; [destruct (tag_eqb t u); reflexivity|].
  destruct (tag_eqb u h) eqn:E.
  - apply tag_eqb_eq in E as <-. destruct (tag_eqb t u); lia.
  - cbn [count]. rewrite IH. apply tag_eqb_neq in E. destruct (tag_eqb t u) eqn:E2; [|reflexivity].
    apply tag_eqb_eq in E2 as ->. replace (tag_eqb u h) with false by (symmetry; apply tag_eqb_neq; exact E). reflexivity.
Qed.
Lemma count_remove_times t u n : forall l, count t (remove_times n u l) = (if tag_eqb t u then count t l - n else count t l)%nat.
Proof.
  induction n as [|n IH]; intros l; cbn [remove_times]; [destruct (tag_eqb t u); lia|]. rewrite IH, count_remove_once.
  destruct (tag_eqb t u); lia.
Qed.
Lemma min_v_ok a b : min_v a b = Nat.min a b.
Proof. unfold min_v. destruct (Nat.ltb_spec b a); lia. Qed.
Lemma count_simplify_n t u n d : count t (simplify_tag_n n d u) =
  (if tag_eqb t u then count t n - Nat.min (count t n) (count t d) else count t n)%nat.
Proof.
  unfold simplify_tag_n. destruct (negb (count u n =? 0)%nat && negb (count u d =? 0)%nat) eqn:E.
  - rewrite count_remove_times, min_v_ok. destruct (tag_eqb t u) eqn:E2; [|reflexivity]. apply tag_eqb_eq in E2 as ->. reflexivity.
  - destruct (tag_eqb t u) eqn:E2; [|reflexivity]. apply tag_eqb_eq in E2 as ->.
    destruct (Nat.eqb_spec (count u n) 0), (Nat.eqb_spec (count u d) 0); try discriminate; lia.
Qed.
Lemma count_simplify_d t u n d : count t (simplify_tag_d n d u) =
  (if tag_eqb t u then count t d - Nat.min (count t n) (count t d) else count t d)%nat.
Proof.
  unfold simplify_tag_d. destruct (negb (count u n =? 0)%nat && negb (count u d =? 0)%nat) eqn:E.
  - rewrite count_remove_times, min_v_ok. destruct (tag_eqb t u) eqn:E2; [|reflexivity]. apply tag_eqb_eq in E2 as ->. reflexivity.
  - destruct (tag_eqb t u) eqn:E2; [|reflexivity]. apply tag_eqb_eq in E2 as ->.
    destruct (Nat.eqb_spec (count u n) 0), (Nat.eqb_spec (count u d) 0); try discriminate; lia.
Qed.
Lemma simplified t n d :
  count t (simplify_n n d) = (count t n - Nat.min (count t n) (count t d))%nat /\
  count t (simplify_d n d) = (count t d - Nat.min (count t n) (count t d))%nat.
Proof. unfold simplify_n, simplify_d. rewrite !count_simplify_n, !count_simplify_d. destruct t; cbn [tag_eqb]; lia. Qed.
Lemma made_dim t n d v : dimz t (mkfr (simplify_n n d) (simplify_d n d) v) = Z.of_nat (count t n) - Z.of_nat (count t d).
Proof. unfold dimz. cbn [fr_n fr_d]. destruct (simplified t n d) as (-> & ->). lia. Qed.
Lemma made_reduced n d v : reduced (mkfr (simplify_n n d) (simplify_d n d) v).
Proof.
  intros t (H1 & H2). cbn [fr_n fr_d] in *. apply count_in in H1, H2. destruct (simplified t n d) as (E1 & E2). lia.
Qed.
Lemma mul_dim t f g : dimz t (mul f g) = dimz t f + dimz t g.
Proof. unfold mul. cbv zeta. rewrite made_dim. unfold concat_t, dimz. rewrite !count_app. lia. Qed.
Lemma div_dim t f g : dimz t (div f g) = dimz t f - dimz t g.
Proof. unfold div. cbv zeta. rewrite made_dim. unfold concat_t, dimz. rewrite !count_app. lia. Qed.
Lemma pow_dim t n f : dimz t (pow_member n f) = Z.of_nat n * dimz t f.
Proof. unfold pow_member. cbv zeta. rewrite made_dim. rewrite !count_times. unfold dimz. lia. Qed.
Lemma pow_free_dim t n f : dimz t (pow_free n f) = Z.of_nat (n + 1) * dimz t f.
Proof. induction n as [|n IH]; cbn [pow_free]; [lia|]. rewrite mul_dim, IH. lia. Qed.
Lemma reduced_same f g : reduced f -> reduced g -> (is_same_fraction f g = true <-> forall t, dimz t f = dimz t g).
Proof.
  intros RF RG. unfold is_same_fraction, is_same_type_list. rewrite !andb_true_iff, !Nat.eqb_eq. split.
  - intros ((((A1 & A2) & A3) & A4) & (((B1 & B2) & B3) & B4)). intros []; unfold dimz; lia.
  - intros H. assert (K : forall t, count t (fr_n f) = count t (fr_n g) /\ count t (fr_d f) = count t (fr_d g)).
    { intros t. specialize (H t). specialize (RF t). specialize (RG t). rewrite !count_in in RF, RG. unfold dimz in H. lia. }
    repeat split; apply K.
Qed.
Lemma calc_dim t e x : dimension t e x -> x = dimz t (calc e).
Proof.
  induction 1 as [f e H|a b x y A IA B IB|a b x y A IA B IB|n a x A IA|n a x A IA]; cbn [calc].
  - apply exponent_dim. exact H.
  - rewrite mul_dim. congruence.
  - rewrite div_dim. congruence.
  - rewrite pow_dim. congruence.
  - rewrite pow_free_dim. congruence.
Qed.
Lemma dim_exists t e : dimension t e (dimz t (calc e)).
Proof.
  induction e as [f|a IA b IB|a IA b IB|n a IA|n a IA]; cbn [calc].
  - constructor. apply exponent_dim. reflexivity.
  - rewrite mul_dim. constructor; assumption.
  - rewrite div_dim. constructor; assumption.
  - rewrite pow_dim. constructor. assumption.
  - rewrite pow_free_dim. constructor. assumption.
Qed.
Lemma calc_reduced e : (forall f, leaf f e -> reduced f) -> reduced (calc e).
Proof.
  induction e as [f|a IA b IB|a IA b IB|n a IA|n a IA]; cbn [calc]; intros H.
  - apply H. constructor.
  - apply made_reduced.
  - apply made_reduced.
  - apply made_reduced.
  - destruct n as [|n]; cbn [pow_free]; [apply IA; intros f HF; apply H; constructor; exact HF|apply made_reduced].
Qed.

(* ---- C51 ---- *)
(* The exponents of the type of a calculation are those of the calculation, the value
   is that of the calculation. *)
Theorem C51_dimension e t x : dimension t e x -> exponent t (calc e) x.
Proof. intros H. apply exponent_dim. apply calc_dim. exact H. Qed.
Print Assumptions C51_dimension.
Theorem C51_value e x : value e x -> (fr_val (calc e) == x)%Q.
Proof.
  induction 1 as [f|a b x y A IA B IB|a b x y A IA B IB|n a x A IA|n a x A IA]; cbn [calc].
  - reflexivity.
  - unfold mul. cbv zeta. cbn [fr_val]. rewrite IA, IB. reflexivity.
  - unfold div. cbv zeta. cbn [fr_val]. rewrite IA, IB. reflexivity.
  - unfold pow_member. cbv zeta. cbn [fr_val]. rewrite IA. reflexivity.
  - assert (P : forall n f, (fr_val (pow_free n f) == Qpower (fr_val f) (Z.of_nat (n + 1)))%Q).
    { clear. induction n as [|n IH]; intros f; cbn [pow_free]; [change (Z.of_nat (0 + 1)) with 1; cbn; reflexivity|].
      unfold mul. cbv zeta. cbn [fr_val]. rewrite IH. replace (Z.of_nat (S n + 1)) with (Z.pos (Pos.succ (Pos.of_succ_nat n))) by lia.
      replace (Z.of_nat (n + 1)) with (Z.pos (Pos.of_succ_nat n)) by lia. cbn [Qpower]. unfold Qpower_positive. 
      rewrite <- Pos.add_1_l. rewrite (pow_pos_add Q_Setoid Qmult_comp); [|intros; ring]. cbn [pow_pos]. reflexivity. }
    rewrite P, IA. reflexivity.
Qed.
Print Assumptions C51_value.
(* Units are compared the right way: the result of a calculation is accepted where
   that of another one is expected exactly if all exponents agree, whatever the order of
   the operations. *)
Theorem C51_assignable e e' : (forall f, leaf f e -> reduced f) -> (forall f, leaf f e' -> reduced f) ->
  (is_same_fraction (calc e) (calc e') = true <-> forall t x y, dimension t e x -> dimension t e' y -> x = y).
Proof.
  intros R R'. rewrite (reduced_same _ _ (calc_reduced e R) (calc_reduced e' R')). split.
  - intros H t x y D D'. apply calc_dim in D, D'. rewrite D, D'. apply H.
  - intros H t. apply (H t); apply dim_exists.
Qed.
Print Assumptions C51_assignable.
Theorem C51_unitless e : (forall f, leaf f e -> reduced f) ->
  (is_unitless (calc e) = true <-> forall t x, dimension t e x -> x = 0) /\
  (is_fraction (calc e) = true <-> exists t x, dimension t e x /\ x < 0).
Proof.
  intros R. pose proof (calc_reduced e R) as RC. split.
  - unfold is_unitless. split.
    + intros H t x D. apply calc_dim in D. subst x. unfold dimz. destruct (fr_n (calc e)), (fr_d (calc e)); try discriminate. reflexivity.
    + intros H. destruct (fr_n (calc e)) as [|t n] eqn:EN.
      * destruct (fr_d (calc e)) as [|t d] eqn:ED; [reflexivity|]. exfalso. pose proof (H t _ (dim_exists t e)) as D. unfold dimz in D.
        rewrite EN, ED in D. cbn [count] in D. rewrite tag_eqb_refl in D. lia.
      * exfalso. pose proof (H t _ (dim_exists t e)) as D. specialize (RC t). rewrite !count_in in RC. unfold dimz in D. rewrite EN in D, RC. cbn [count] in D, RC.
        rewrite tag_eqb_refl in D, RC. lia.
  - unfold is_fraction. split.
    + intros H. destruct (fr_d (calc e)) as [|t d] eqn:ED; [discriminate|]. exists t, (dimz t (calc e)). split; [apply dim_exists|].
      specialize (RC t). rewrite !count_in in RC. unfold dimz. rewrite ED in *. cbn [count] in *. rewrite tag_eqb_refl in *. lia.
    + intros (t & x & D & L). apply calc_dim in D. subst x. unfold dimz in L. destruct (fr_d (calc e)); [cbn [count] in L; lia|reflexivity].
Qed.
Print Assumptions C51_unitless.
Example C51_sat :
  (* kg * (m / s / s) * m  against  kg * ((m / s) to the 2) *)
  let e := Times (Times (Leaf (weight_kg 2)) (Over (Over (Leaf (length_m 3)) (Leaf (time_s 4))) (Leaf (time_s 5)))) (Leaf (length_m 6)) in
  let e' := Times (Leaf (weight_kg 1)) (Power 2 (Over (Leaf (length_m 1)) (Leaf (time_s 1)))) in
  (forall f, leaf f e -> reduced f) /\ is_same_fraction (calc e) (calc e') = true /\ is_same_fraction (calc e) force_t = false /\
  (fr_val (calc e) == 9#5)%Q.
Proof.
  cbv zeta. split; [|split; [reflexivity|split; reflexivity]]. intros f H.
  repeat match goal with H : leaf _ _ |- _ => inversion H; clear H; subst end; intros t (H1 & H2); cbn in *; tauto.
Qed.
(* FINDING.  A type written with the same unit above and below is not the type of its
   own simplification. *)
Theorem C51_unreduced_refuted : exists f g, (forall t, dimz t f = dimz t g) /\ is_same_fraction f g = false.
Proof. exists (mkfr [Meter] [Meter] 1), (unitless 1). split; [intros []; reflexivity|reflexivity]. Qed.
Print Assumptions C51_unreduced_refuted.
