(* Lemmas on the heap of elements and on single neighbour updates *)
From Coq Require Import List Bool NArith QArith Arith String Sorted Permutation.
From Verif Require Import Base PhysModel TextModel InfraModel InfraSpec.
Import ListNotations.
Local Open Scope nat_scope.

Definition E (g : graph) (i : nat) : option elem := nth_error (g_elems g) i.
Definition len (g : graph) : nat := length (g_elems g).

Lemma nth_upd {A} (l : list A) i f j :
  nth_error (upd l i f) j = if j =? i then option_map f (nth_error l j) else nth_error l j.
Proof.
  revert i j. induction l as [|x l IH]; intros i j.
  - destruct i, j; cbn; try reflexivity. destruct (j =? i); reflexivity.
  - destruct i, j; cbn; try reflexivity. rewrite IH. reflexivity.
Qed.
Lemma upd_length {A} (l : list A) i f : length (upd l i f) = length l.
Proof. revert i. induction l; intros [|i]; cbn; auto. Qed.

Lemma E_upd g i f j : E (upd_e g i f) j = if j =? i then option_map f (E g j) else E g j.
Proof. apply nth_upd. Qed.
Lemma E_upd_eq g i f e : E g i = Some e -> E (upd_e g i f) i = Some (f e).
Proof. intros H. rewrite E_upd, Nat.eqb_refl, H. reflexivity. Qed.
Lemma E_upd_ne g i f j : j <> i -> E (upd_e g i f) j = E g j.
Proof. intros H. rewrite E_upd. apply Nat.eqb_neq in H. rewrite H. reflexivity. Qed.
Lemma len_upd g i f : len (upd_e g i f) = len g.
Proof. apply upd_length. Qed.
Lemma E_lt g i e : E g i = Some e -> i < len g.
Proof. intros H. apply nth_error_Some. unfold E in H. congruence. Qed.
Lemma E_ge g i : len g <= i -> E g i = None.
Proof. apply nth_error_None. Qed.
Lemma E_ex g i : i < len g -> exists e, E g i = Some e.
Proof. intros H. apply nth_error_Some in H. unfold E. destruct (nth_error (g_elems g) i); eauto. congruence. Qed.
Lemma get_e_ok g i e : E g i = Some e -> get_e g i = Ok e.
Proof. unfold E, get_e. intros ->. reflexivity. Qed.

(* a new element *)
Definition fresh (st : nat) (t : etype) (k : kind) (rising : bool) : elem :=
  mkelem t k (fun s => match s with S0 => rising | _ => false end)
         (fun _ => None) (fun _ => 0%Q) false false (fun _ _ => None) st [].
Definition app_e (g : graph) (e : elem) (rp : N) : graph :=
  mkgraph (g_elems g ++ [e]) ((rp, len g) :: g_rp g) (g_secs g) (g_borders g).
Lemma create_ok g st t rp r k : kind_of t = Some k ->
  create_element g st t rp r = Ok (app_e g (fresh st t k r) rp, len g).
Proof. unfold create_element. intros ->. reflexivity. Qed.
Lemma E_app_new g e rp : E (app_e g e rp) (len g) = Some e.
Proof. unfold E, app_e, len; cbn. rewrite nth_error_app2, Nat.sub_diag; auto. Qed.
Lemma E_app_old g e rp j : j < len g -> E (app_e g e rp) j = E g j.
Proof. intros H. unfold E, app_e; cbn. apply nth_error_app1. exact H. Qed.
Lemma E_app_old' g e rp j x : E g j = Some x -> E (app_e g e rp) j = Some x.
Proof. intros H. rewrite E_app_old; auto. eapply E_lt; eauto. Qed.
Lemma len_app g e rp : len (app_e g e rp) = S (len g).
Proof. unfold len, app_e; cbn. rewrite app_length; cbn; lia. Qed.

(* everything of an element but its neighbours *)
Definition core (e : elem) :=
  (e_type e, e_kind e, e_rise e, e_line e, e_km e, e_arc_lr e, e_arc_rl e, e_station e, e_secs e).
Lemma core_set_nb s r v e : core (set_nb s r v e) = core e.
Proof. reflexivity. Qed.
Lemma core_sn nm v r e : core (set_neighbour_e nm v r e) = core e.
Proof.
  unfold set_neighbour_e. destruct (e_kind e); try reflexivity.
  - destruct nm as [[]|]; try reflexivity; destruct (e_rise e S0); reflexivity.
  - destruct nm as [[]|]; reflexivity.
  - destruct nm as [[]|]; reflexivity.
  - destruct (e_nb e S1 true), (e_nb e S0 true), (e_nb e S0 false), (e_nb e S1 false); reflexivity.
Qed.
Lemma core_replace a b e : core (replace_nb a b e) = core e.
Proof. reflexivity. Qed.
Lemma core_inv e e' : core e = core e' ->
  e_type e = e_type e' /\ e_kind e = e_kind e' /\ e_rise e = e_rise e' /\ e_line e = e_line e' /\
  e_km e = e_km e' /\ e_arc_lr e = e_arc_lr e' /\ e_arc_rl e = e_arc_rl e' /\
  e_station e = e_station e' /\ e_secs e = e_secs e'.
Proof. unfold core. intros H. inversion H. repeat split; reflexivity. Qed.

(* kinds *)
Definition is_tk (k : kind) : bool := match k with KTrack | KUndirected => true | _ => false end.
Lemma kind_track t k : kind_of t = Some k -> is_track_element t = is_tk k.
Proof. destruct t; cbv; intros H; inversion H; reflexivity. Qed.
Lemma kind_directed t : is_directed_track_element t = true -> kind_of t = Some KTrack.
Proof. destruct t; cbv; congruence. Qed.
Lemma kind_undirected t : is_undirected_track_element t = true -> kind_of t = Some KUndirected.
Proof. destruct t; cbv; congruence. Qed.
Lemma track_cases t : is_track_element t = true ->
  is_directed_track_element t = true \/ is_directed_track_element t = false /\ is_undirected_track_element t = true.
Proof. destruct t; cbv; intuition congruence. Qed.
Lemma dir_not_und t : is_directed_track_element t = true -> is_undirected_track_element t = false.
Proof. destruct t; cbv; congruence. Qed.
Lemma und_not_dir t : is_undirected_track_element t = true -> is_directed_track_element t = false.
Proof. destruct t; cbv; congruence. Qed.
Lemma stype_kind n : exists k, kind_of (stype n) = Some k /\ is_tk k = false.
Proof. destruct n; eexists; split; reflexivity. Qed.

(* ---- track elements: the neighbours in a direction ---- *)
Definition bk (d : bool) (e : elem) : option nat :=
  match e_kind e with
  | KTrack => e_nb e S0 false
  | _ => if d then e_nb e S1 true else e_nb e S0 false
  end.
Definition fw (d : bool) (e : elem) : option nat :=
  match e_kind e with
  | KTrack => e_nb e S0 true
  | _ => if d then e_nb e S0 true else e_nb e S1 false
  end.
Definition is_some {A} (o : option A) : Prop := o <> None.
(* before and after the first of the two updates of a direction *)
Definition ready (d : bool) (e : elem) : Prop :=
  bk d e = None /\ fw d e = None /\
  (e_kind e = KTrack \/
   e_kind e = KUndirected /\
   (if d then bk false e = None /\ fw false e = None
    else is_some (bk true e) /\ is_some (fw true e))).
Definition half (d : bool) (e : elem) : Prop :=
  is_some (bk d e) /\ fw d e = None /\
  (e_kind e = KTrack \/
   e_kind e = KUndirected /\
   (if d then bk false e = None /\ fw false e = None
    else is_some (bk true e) /\ is_some (fw true e))).
Definition same_dir (d : bool) (e e' : elem) : Prop := bk d e = bk d e' /\ fw d e = fw d e'.

Ltac kinds := unfold ready, half, bk, fw, same_dir, set_neighbour_e, is_some in *.

Lemma sn_bk d e nm v r : ready d e -> (e_kind e = KTrack -> r = false) ->
  let e' := set_neighbour_e nm v r e in
  half d e' /\ bk d e' = Some v /\ (e_kind e = KUndirected -> same_dir (negb d) e e').
Proof.
  intros (B & F & K) Hr. destruct K as [K|[K G]].
  - rewrite (Hr K). kinds. rewrite K in *. cbn. rewrite K. cbn. repeat split; auto; try congruence.
    all: intros X; congruence.
  - kinds. rewrite K in *. destruct d.
    + destruct G as [G1 G2]. rewrite B. cbn. rewrite K. cbn. repeat split; auto; try congruence.
      all: rewrite ?F, ?G1, ?G2; auto; try (right; auto).
    + destruct G as [G1 G2]. destruct (e_nb e S1 true) eqn:N1; [|exfalso; auto].
      destruct (e_nb e S0 true) eqn:N2; [|exfalso; auto].
      rewrite B. cbn. rewrite K. cbn. repeat split; auto; try congruence.
      all: rewrite ?N1, ?N2, ?F; try congruence; auto.
      all: try (right; split; auto; split; congruence).
      all: unfold bk, fw; cbn; rewrite K; cbn; congruence.
Qed.

Lemma sn_fw d e nm v : half d e ->
  let e' := set_neighbour_e nm v true e in
  bk d e' = bk d e /\ fw d e' = Some v /\ (e_kind e = KUndirected -> same_dir (negb d) e e').
Proof.
  intros (B & F & K). destruct K as [K|[K G]].
  - kinds. rewrite K in *. cbn. rewrite K. cbn. repeat split; auto; congruence.
  - kinds. rewrite K in *. destruct d.
    + destruct G as [G1 G2]. destruct (e_nb e S1 true) eqn:N1; [|exfalso; auto].
      rewrite F. cbn. rewrite K. cbn. rewrite ?N1. repeat split; auto.
      all: unfold bk, fw; cbn; rewrite K; cbn; congruence.
    + destruct G as [G1 G2]. destruct (e_nb e S1 true) eqn:N1; [|exfalso; auto].
      destruct (e_nb e S0 true) eqn:N2; [|exfalso; auto].
      destruct (e_nb e S0 false) eqn:N3; [|exfalso; auto].
      rewrite F. cbn. rewrite K. cbn. rewrite ?N3. repeat split; auto.
      all: unfold bk, fw; cbn; rewrite K; cbn; congruence.
Qed.

(* ---- section elements: the side a section end is attached to ---- *)
Definition side_of (n : sname) (at_end : bool) : side :=
  match part_of n with
  | Whole => match n with N_BORDER => if at_end then S1 else S0 | _ => S0 end
  | First | Toe | StartLeft => S0
  | Second | Stem | EndLeft => S1
  | Branch | StartRight => S2
  | EndRight => S3
  end.
Lemma side_eqb_eq a b : side_eqb a b = true <-> a = b.
Proof. destruct a, b; cbn; split; congruence. Qed.
Lemma side_eqb_refl a : side_eqb a a = true.
Proof. destruct a; reflexivity. Qed.
Lemma side_eqb_ne a b : a <> b -> side_eqb a b = false.
Proof. destruct a, b; cbn; congruence. Qed.

Lemma sn_section nm v r e at_end : kind_of (stype nm) = Some (e_kind e) ->
  (nm = N_BORDER -> e_rise e S0 = at_end) ->
  set_neighbour_e (Some nm) v r e = set_nb (side_of nm at_end) r (Some v) e.
Proof.
  intros K Hb. unfold set_neighbour_e. destruct nm; cbn in K; injection K as K; rewrite <- K; cbn; try reflexivity.
  rewrite Hb by reflexivity. destruct at_end; reflexivity.
Qed.
Lemma sk_section nm km ln e at_end : kind_of (stype nm) = Some (e_kind e) ->
  let e' := set_km_point_and_line nm km ln e in
  e_line e' (side_of nm at_end) = Some ln /\
  (nm <> N_BORDER -> forall s, s <> side_of nm at_end -> e_line e' s = e_line e s) /\
  (nm <> N_BORDER -> forall s, s <> side_of nm at_end -> e_km e' s = e_km e s) /\
  e_km e' (side_of nm at_end) = km /\
  e_type e' = e_type e /\ e_kind e' = e_kind e /\ e_rise e' = e_rise e /\ e_nb e' = e_nb e /\
  e_arc_lr e' = e_arc_lr e /\ e_arc_rl e' = e_arc_rl e /\ e_station e' = e_station e /\
  e_secs e' = e_secs e.
Proof.
  intros K. unfold set_km_point_and_line.
  destruct nm; cbn in K; injection K as K; rewrite <- K; cbn; destruct at_end; cbn;
    repeat split; auto; try congruence; intros _ s Hs; rewrite side_eqb_ne; auto.
Qed.
