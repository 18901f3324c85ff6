(* The statistics agree with the loaded network *)
From Coq Require Import List Bool NArith QArith Arith String Permutation Lia.
From Verif Require Import Base PhysModel TextModel InfraModel InfraOrder InfraSpec InfraHeap InfraScan InfraLay InfraLaid InfraPlace InfraAdd InfraInv InfraBorder InfraSecSpec StatModel StatSpec.
Import ListNotations.
Local Open Scope nat_scope.

(* ---- counting ---- *)
Lemma ty_eqb_iff a b : ty_eqb a b = true <-> a = b.
Proof. unfold ty_eqb. destruct (etype_dec a b); split; congruence. Qed.
Lemma ty_eqb_refl a : ty_eqb a a = true.
Proof. apply ty_eqb_iff. reflexivity. Qed.
Lemma ty_eqb_ne a b : a <> b -> ty_eqb a b = false.
Proof. unfold ty_eqb. destruct (etype_dec a b); congruence. Qed.
Notation occ := (count_occ type_dec).

Lemma rel_le {A B} (R : A -> B -> Prop) la : forall lb, NoDup la ->
  (forall a, In a la -> exists b, In b lb /\ R a b) ->
  (forall a a' b, In a la -> In a' la -> R a b -> R a' b -> a = a') ->
  length la <= length lb.
Proof.
  induction la as [|a la IH]; intros lb N T J; [cbn; lia|].
  destruct (T a) as (b & Hb & Rb); [left; auto|].
  apply in_split in Hb. destruct Hb as (l1 & l2 & ->).
  rewrite app_length. cbn [length]. rewrite <- plus_n_Sm, <- app_length. apply le_n_S. inversion N; subst. apply IH; auto.
  - intros a' Ha'. destruct (T a') as (b' & Hb' & Rb'); [right; auto|]. exists b'. split; auto.
    apply in_app_iff in Hb'. apply in_app_iff. destruct Hb' as [|[<-|]]; auto.
    exfalso. assert (a' = a) by (eapply J; eauto; [right|left]; auto). congruence.
  - intros; eapply J; eauto; right; auto.
Qed.
Lemma rel_eq {A B} (R : A -> B -> Prop) la lb : NoDup la -> NoDup lb ->
  (forall a, In a la -> exists b, In b lb /\ R a b) ->
  (forall b, In b lb -> exists a, In a la /\ R a b) ->
  (forall a a' b, In a la -> In a' la -> R a b -> R a' b -> a = a') ->
  (forall a b b', In b lb -> In b' lb -> R a b -> R a b' -> b = b') ->
  length la = length lb.
Proof.
  intros Na Nb H1 H2 H3 H4. apply Nat.le_antisymm.
  - apply (rel_le R); auto.
  - apply (rel_le (fun b a => R a b)); auto. intros b b' a X Y. apply H4; auto.
Qed.
Lemma filter_disjoint {A} (f h : A -> bool) l : (forall x, In x l -> f x = true -> h x = true -> False) ->
  length (filter (fun x => f x || h x) l) = length (filter f l) + length (filter h l).
Proof.
  induction l as [|x l IH]; intros H; [reflexivity|]. cbn [filter].
  assert (IH' := IH (fun y Hy => H y (or_intror Hy))). specialize (H x (or_introl eq_refl)).
  destruct (f x), (h x); cbn [orb length]; lia || (exfalso; auto).
Qed.
Lemma filter_len_ext {A} (f h : A -> bool) l : (forall x, In x l -> f x = h x) -> length (filter f l) = length (filter h l).
Proof. intros H. f_equal. apply filter_ext_in. auto. Qed.
Lemma occ_filter {A} (f : A -> etype) l t : occ (map f l) t = length (filter (fun x => ty_eqb (f x) t) l).
Proof.
  induction l as [|x l IH]; [reflexivity|]. cbn [map count_occ filter]. unfold ty_eqb at 1.
  destruct (type_dec (f x) t), (etype_dec (f x) t); try congruence; cbn [length]; congruence.
Qed.
Lemma occ_perm l l' t : Permutation l l' -> occ l t = occ l' t.
Proof. intros H. apply (Permutation_count_occ type_dec l l'); auto. Qed.

(* ---- what the statistics count ---- *)
Lemma set_number_other t f is t' : t' <> t -> is_number (set_number t f is) t' = is_number is t'.
Proof. intros H. cbn. rewrite (ty_eqb_ne _ _ H). reflexivity. Qed.
Lemma set_number_same t f is : is_number (set_number t f is) t = f (is_number is t).
Proof. cbn. rewrite ty_eqb_refl. reflexivity. Qed.

Lemma count_fold ts : forall is,
  let is' := fold_left (fun is t => if negb (ty_eqb t INVALID) then set_number t S is else is) ts is in
  (forall t, t <> INVALID -> is_number is' t = is_number is t + occ ts t) /\
  is_sections is' = is_sections is /\ is_stations is' = is_stations is.
Proof.
  induction ts as [|u ts IH]; intros is; cbn [fold_left count_occ].
  - repeat split; intros; lia.
  - destruct (IH (if negb (ty_eqb u INVALID) then set_number u S is else is)) as (H1 & H2 & H3).
    split; [|split].
    + intros t Ht. rewrite (H1 t Ht). destruct (type_dec u t) as [->|N].
      * rewrite (ty_eqb_ne _ _ Ht). cbn [negb]. rewrite set_number_same. lia.
      * destruct (negb (ty_eqb u INVALID)); [rewrite set_number_other by congruence|]; reflexivity.
    + rewrite H2. destruct (negb (ty_eqb u INVALID)); reflexivity.
    + rewrite H3. destruct (negb (ty_eqb u INVALID)); reflexivity.
Qed.
Lemma count_section x is :
  (forall t, t <> INVALID -> is_number (count_elements_in_section x is) t = is_number is t + occ (child_types x) t) /\
  is_sections (count_elements_in_section x is) = S (is_sections is) /\
  is_stations (count_elements_in_section x is) = is_stations is.
Proof. apply (count_fold (child_types x) (mkstats (is_number is) (S (is_sections is)) (is_stations is))). Qed.
Lemma count_sections xs : forall is,
  let is' := fold_left (fun is x => count_elements_in_section x is) xs is in
  (forall t, t <> INVALID -> is_number is' t = is_number is t + occ (concat (map child_types xs)) t) /\
  is_sections is' = is_sections is + length xs /\ is_stations is' = is_stations is.
Proof.
  induction xs as [|x xs IH]; intros is; cbn [fold_left map concat length].
  - repeat split; intros; cbn; lia.
  - destruct (IH (count_elements_in_section x is)) as (H1 & H2 & H3). destruct (count_section x is) as (G1 & G2 & G3).
    split; [|split].
    + intros t Ht. rewrite (H1 t Ht), (G1 t Ht), count_occ_app. lia.
    + rewrite H2, G2. lia.
    + congruence.
Qed.
Lemma count_stations l : forall is n,
  let is' := fold_left (fun is x => count_elements_in_station x is) l is in
  let ps := concat (map (fun p => map (fun x => (fst p, x)) (st_sections (snd p))) (combine (seq n (length l)) l)) in
  (forall t, t <> INVALID -> is_number is' t = is_number is t + occ (concat (map (fun p => child_types (snd p)) ps)) t) /\
  is_sections is' = is_sections is + length ps /\ is_stations is' = is_stations is + length l.
Proof.
  induction l as [|x l IH]; intros is n; cbn [fold_left length seq combine map concat fst snd].
  - repeat split; intros; cbn; lia.
  - destruct (IH (count_elements_in_station x is) (S n)) as (H1 & H2 & H3).
    destruct (count_sections (st_sections x) (mkstats (is_number is) (is_sections is) (S (is_stations is)))) as (G1 & G2 & G3).
    fold (count_elements_in_station x is) in G1, G2, G3. cbn [is_number is_sections is_stations] in G1, G2, G3.
    split; [|split].
    + intros t Ht. rewrite (H1 t Ht), (G1 t Ht), map_app, concat_app, count_occ_app, map_map.
      change (fun x0 : xsection => child_types (snd (n, x0))) with child_types. lia.
    + rewrite H2, G2, app_length, map_length. lia.
    + rewrite H3, G3. lia.
Qed.

Definition drawn_types (l : list xstation) : list etype := concat (map (fun p => child_types (snd p)) (plan l)).
Definition divisor (t : etype) : nat :=
  match t with KM_JUMP | LINE_SWITCH => 2 | SIMPLE_SWITCH => 3 | CROSS => 4 | _ => 1 end.
Lemma scale_all is : forall t, t <> INVALID ->
  is_number (fold_left (fun is t => scale t is) all_types is) t = is_number is t / divisor t.
Proof. intros t Ht. destruct t; try congruence; cbn [divisor]; rewrite ?Nat.div_1_r; reflexivity. Qed.
Lemma scale_keeps is : is_sections (fold_left (fun is t => scale t is) all_types is) = is_sections is /\
  is_stations (fold_left (fun is t => scale t is) all_types is) = is_stations is.
Proof. split; reflexivity. Qed.

Lemma stats_number l t : t <> INVALID -> is_number (get_infra_stats l) t = occ (drawn_types l) t / divisor t.
Proof.
  intros Ht. unfold get_infra_stats. rewrite scale_all by auto. cbn [is_number].
  destruct (count_stations l no_stats 0) as (H & _). rewrite (H t Ht). reflexivity.
Qed.
Lemma stats_sections l : is_sections (get_infra_stats l) = length (plan l) + occ (drawn_types l) BORDER / 2.
Proof.
  unfold get_infra_stats. rewrite (proj1 (scale_keeps _)). cbn [is_sections].
  destruct (count_stations l no_stats 0) as (H & H' & _). rewrite H', (H BORDER) by discriminate. reflexivity.
Qed.
Lemma stats_stations l : is_stations (get_infra_stats l) = length l.
Proof.
  unfold get_infra_stats. rewrite (proj2 (scale_keeps _)). cbn [is_stations].
  destruct (count_stations l no_stats 0) as (_ & _ & H). rewrite H. reflexivity.
Qed.

Lemma total_fold (f : etype -> nat) n ts : fold_left (fun n t => n + f t) ts n = n + fold_left (fun n t => n + f t) ts 0.
Proof. revert n. induction ts as [|t ts IH]; intros n; cbn [fold_left]; [lia|]. rewrite IH, (IH (0 + f t)). lia. Qed.
Lemma total_cons u ts tys : fold_left (fun n t => n + occ (u :: ts) t) tys 0 =
  occ tys u + fold_left (fun n t => n + occ ts t) tys 0.
Proof.
  induction tys as [|t tys IH]; [reflexivity|]. cbn [fold_left].
  rewrite (total_fold (occ (u :: ts)) (0 + _)), (total_fold (occ ts) (0 + _)), IH. cbn [count_occ].
  destruct (type_dec u t), (type_dec t u); try congruence; lia.
Qed.
Lemma total_occ ts : ~ In INVALID ts -> fold_left (fun n t => n + occ ts t) all_types 0 = length ts.
Proof.
  induction ts as [|u ts IH]; intros H; [reflexivity|].
  rewrite total_cons, (IH (fun X => H (or_intror X))). cbn [length].
  assert (Hu : u <> INVALID) by (intros ->; apply H; left; auto).
  destruct u; try congruence; reflexivity.
Qed.

(* ---- the nodes of a plan ---- *)
Definition drawn (l : list xstation) : list (place * snode) :=
  concat (map (fun q => [((fst q, false), xs_start (snd (snd q))); ((fst q, true), xs_end (snd (snd q)))])
              (combine (seq 0 (length (plan l))) (plan l))).
Definition track_nodes (l : list xstation) : list tnode := concat (map (fun p => xs_track (snd p)) (plan l)).

Lemma in_combine_seq {A} (l : list A) : forall n k x, In (k, x) (combine (seq n (length l)) l) <->
  n <= k /\ nth_error l (k - n) = Some x.
Proof.
  induction l as [|y l IH]; intros n k x; cbn [length seq combine In].
  - split; [intros []|]. intros [_ H]. destruct (k - n); discriminate.
  - rewrite IH. split.
    + intros [[= <- <-]|[H1 H2]]; [rewrite Nat.sub_diag; auto|]. split; [lia|].
      replace (k - n) with (S (k - S n)) by lia. auto.
    + intros [H1 H2]. destruct (Nat.eq_dec n k) as [->|Hn].
      * rewrite Nat.sub_diag in H2. injection H2 as ->. auto.
      * right. split; [lia|]. replace (k - n) with (S (k - S n)) in H2 by lia. auto.
Qed.
Lemma drawn_in l p n : In (p, n) (drawn l) <-> node_at l p n.
Proof.
  unfold drawn. rewrite in_concat. split.
  - intros (ys & H & I). apply in_map_iff in H. destruct H as ([k [st x]] & <- & H).
    apply in_combine_seq in H. destruct H as [_ H]. rewrite Nat.sub_0_r in H. cbn [fst snd In] in I.
    destruct I as [[= <- <-]|[[= <- <-]|[]]]; exists x; (split; [exists st; exact H|reflexivity]).
  - intros (x & (st & H) & ->). exists [((fst p, false), xs_start x); ((fst p, true), xs_end x)]. split.
    + apply in_map_iff. exists (fst p, (st, x)). split; [reflexivity|]. apply in_combine_seq. rewrite Nat.sub_0_r. split; [lia|auto].
    + destruct p as [s []]; cbn [fst snd In]; auto.
Qed.
Lemma drawn_places {A} (l : list A) (f h : A -> snode) : forall n,
  NoDup (map fst (concat (map (fun q => [((fst q, false), f (snd q)); ((fst q, true), h (snd q))])
                          (combine (seq n (length l)) l)))) /\
  forall k b, In (k, b) (map fst (concat (map (fun q => [((fst q, false), f (snd q)); ((fst q, true), h (snd q))])
                          (combine (seq n (length l)) l)))) -> n <= k.
Proof.
  induction l as [|y l IH]; intros n; cbn [length seq combine map concat app fst snd].
  - split; [constructor|intros ? ? []].
  - destruct (IH (S n)) as [H1 H2]. split.
    + constructor; [|constructor; [|exact H1]].
      * intros [[=]|H]. apply H2 in H. lia.
      * intros H. apply H2 in H. lia.
    + intros k b [[= <- <-]|[[= <- <-]|H]]; [lia|lia|]. apply H2 in H. lia.
Qed.
Lemma drawn_nodup l : NoDup (map fst (drawn l)).
Proof. apply (drawn_places (plan l) (fun y => xs_start (snd y)) (fun y => xs_end (snd y)) 0). Qed.
Lemma nodup_fst {A B} (l : list (A * B)) : NoDup (map fst l) -> NoDup l.
Proof. apply NoDup_map_inv. Qed.

Lemma drawn_occ {A} (f h : A -> snode) (tr : A -> list tnode) (t : etype) (l : list A) : forall n,
  occ (concat (map (fun y => stype (sn_name (f y)) :: map tn_type (tr y) ++ [stype (sn_name (h y))]) l)) t =
  occ (map (fun d => stype (sn_name (snd d)))
        (concat (map (fun q => [((fst q, false), f (snd q)); ((fst q, true), h (snd q))])
                     (combine (seq n (length l)) l)))) t +
  occ (map tn_type (concat (map tr l))) t.
Proof.
  induction l as [|y l IH]; intros n; cbn [length seq combine map concat app fst snd count_occ]; [reflexivity|].
  rewrite map_app, !count_occ_app, (IH (S n)). cbn [map count_occ].
  destruct (type_dec (stype (sn_name (f y))) t), (type_dec (stype (sn_name (h y))) t); lia.
Qed.
Lemma drawn_types_occ l t : occ (drawn_types l) t =
  length (filter (fun d => ty_eqb (stype (sn_name (snd d))) t) (drawn l)) +
  length (filter (fun n => ty_eqb (tn_type n) t) (track_nodes l)).
Proof.
  unfold drawn_types, child_types.
  rewrite (drawn_occ (fun y => xs_start (snd y)) (fun y => xs_end (snd y)) (fun y : nat * xsection => xs_track (snd y)) t (plan l) 0).
  rewrite !occ_filter. reflexivity.
Qed.

Lemma track_nodes_in l n : In n (track_nodes l) <-> exists s x, section_at l s x /\ In n (xs_track x).
Proof.
  unfold track_nodes. rewrite in_concat. split.
  - intros (ys & H & I). apply in_map_iff in H. destruct H as ([st x] & <- & H).
    apply In_nth_error in H. destruct H as [s H]. exists s, x. split; [exists st; exact H|exact I].
  - intros (s & x & (st & H) & I). exists (xs_track x). split; auto. apply in_map_iff. exists (st, x).
    split; auto. eapply nth_error_In; eauto.
Qed.
Lemma NoDup_app_r {A} (l l' : list A) : NoDup (l ++ l') -> NoDup l'.
Proof. induction l as [|x l IH]; cbn; auto. intros H. inversion H; auto. Qed.
Lemma NoDup_app_iff {A} (l l' : list A) : NoDup (l ++ l') <-> NoDup l /\ NoDup l' /\ forall x, In x l -> ~ In x l'.
Proof.
  induction l as [|y l IH]; cbn.
  - split; [|tauto]. intros H. repeat split; auto. constructor.
  - split.
    + intros H. inversion H as [|? ? N D]; subst. apply IH in D. destruct D as (D1 & D2 & D3).
      rewrite in_app_iff in N. repeat split; [constructor; tauto|auto|]. intros x [<-|Hx]; auto.
    + intros (H1 & H2 & H3). inversion H1; subst. constructor.
      * rewrite in_app_iff. intros [X|X]; auto. apply (H3 y); auto.
      * apply IH. auto.
Qed.
Lemma track_ids l : well_drawn l -> NoDup (map tn_id (track_nodes l)).
Proof.
  intros WD. pose proof (wd_ids l WD) as H. unfold all_ids in H. unfold track_nodes. revert H.
  induction (plan l) as [|[st x] ps IH]; cbn [map concat]; [constructor|]. cbn [snd].
  change (sn_id (xs_start x) :: sn_id (xs_end x) :: map tn_id (xs_track x)) with ([sn_id (xs_start x); sn_id (xs_end x)] ++ map tn_id (xs_track x)).
  rewrite <- app_assoc. intros H. apply NoDup_app_r in H. apply NoDup_app_iff in H. destruct H as (H1 & H2 & H3).
  rewrite map_app. apply NoDup_app_iff. split; auto. split; auto.
  intros i Hi X. apply (H3 i Hi). clear - X. apply in_map_iff in X. destruct X as (n & <- & X).
  apply in_concat in X. destruct X as (ys & X & I). apply in_map_iff in X. destruct X as (p & <- & X).
  apply in_concat. eexists. split; [apply in_map_iff; exists p; split; [reflexivity|exact X]|]. right. right.
  apply in_map; auto.
Qed.
Lemma nodup_filter {A} (f : A -> bool) l : NoDup l -> NoDup (filter f l).
Proof. apply NoDup_filter. Qed.
Lemma track_id_one l n m : well_drawn l -> In n (track_nodes l) -> In m (track_nodes l) -> tn_id n = tn_id m -> n = m.
Proof.
  intros WD. pose proof (track_ids l WD) as H. revert H. generalize (track_nodes l).
  induction l0 as [|y r IH]; intros H Hn Hm E; [destruct Hn|]. cbn [map] in H. inversion H; subst.
  destruct Hn as [<-|Hn], Hm as [<-|Hm]; auto; exfalso.
  - apply H2. rewrite E. apply in_map; auto.
  - apply H2. rewrite <- E. apply in_map; auto.
Qed.

(* ---- parts of devices ---- *)
Definition part_dec (a b : part) : {a = b} + {a <> b}.
Proof. decide equality. Defined.
Definition part_eqb (a b : part) : bool := if part_dec a b then true else false.
Lemma part_eqb_iff a b : part_eqb a b = true <-> a = b.
Proof. unfold part_eqb. destruct (part_dec a b); split; congruence. Qed.
Definition lead_of (t : etype) : part :=
  match t with KM_JUMP | LINE_SWITCH => First | SIMPLE_SWITCH => Toe | CROSS => StartLeft | _ => Whole end.

Section PARTS.
  Variable l : list xstation.
  Hypothesis WD : well_drawn l.
  Definition having (t : etype) (pt : part) (d : place * snode) : bool :=
    ty_eqb (stype (sn_name (snd d))) t && part_eqb (part_of (sn_name (snd d))) pt.
  Definition with_part (t : etype) (pt : part) : list (place * snode) := filter (having t pt) (drawn l).

  Lemma with_part_in t pt p n : In (p, n) (with_part t pt) <-> node_at l p n /\ stype (sn_name n) = t /\ part_of (sn_name n) = pt.
  Proof.
    unfold with_part, having. rewrite filter_In, drawn_in. cbn [snd]. rewrite andb_true_iff, ty_eqb_iff, part_eqb_iff. tauto.
  Qed.
  Lemma with_part_nodup t pt : NoDup (with_part t pt).
  Proof. apply nodup_filter. apply nodup_fst, drawn_nodup. Qed.
  Lemma node_fun p n m : node_at l p n -> node_at l p m -> n = m.
  Proof. intros (x & (st & H) & ->) (y & (st' & H') & ->). rewrite H in H'. injection H' as <- <-. reflexivity. Qed.

  Lemma lead_part n : leading (part_of n) = true -> part_of n = lead_of (stype n).
  Proof. destruct n; cbn; congruence. Qed.
  Lemma same_number t pt : In pt (other_parts (lead_of t)) -> t <> INVALID ->
    length (with_part t (lead_of t)) = length (with_part t pt).
  Proof.
    intros Hpt Ht. apply (rel_eq (fun a b => device (snd a) = device (snd b))); try apply with_part_nodup.
    - intros [p n] H. apply with_part_in in H. destruct H as (H1 & H2 & H3).
      destruct (wd_parts l WD p n pt H1) as (q & m & X1 & X2 & X3); [rewrite H3; auto|].
      exists (q, m). cbn [snd]. split; [|congruence]. apply with_part_in. split; auto. split; auto.
      destruct (wd_lead l WD q m X1) as (q' & m' & Y1 & Y2 & Y3 & Y4).
      assert (D : device m' = device n) by (unfold device at 1; rewrite Y3; congruence).
      assert (p = q'); [|subst q'; rewrite (node_fun _ _ _ H1 Y1) in H2; congruence].
      apply (wd_once l WD p q' n m'); auto.
      pose proof (same_device_type l WD _ _ _ _ H1 Y1 (eq_sym D)) as T. rewrite (lead_part _ Y3), <- T, H3, H2. reflexivity.
    - intros [p n] H. apply with_part_in in H. destruct H as (H1 & H2 & H3).
      destruct (wd_lead l WD p n H1) as (q & m & Y1 & Y2 & Y3 & Y4).
      exists (q, m). cbn [snd]. split; [|unfold device at 1; rewrite Y3; congruence].
      apply with_part_in. split; auto. split; [congruence|]. rewrite (lead_part _ Y3). congruence.
    - intros [p n] [q m] b H H' X Y. apply with_part_in in H, H'. destruct H as (H1 & H2 & H3), H' as (G1 & G2 & G3). cbn [snd] in X, Y.
      assert (p = q) by (apply (wd_once l WD p q n m); congruence). subst q. rewrite (node_fun _ _ _ H1 G1). auto.
    - intros a [p n] [q m] H H' X Y. apply with_part_in in H, H'. destruct H as (H1 & H2 & H3), H' as (G1 & G2 & G3). cbn [snd] in X, Y.
      assert (p = q) by (apply (wd_once l WD p q n m); congruence). subst q. rewrite (node_fun _ _ _ H1 G1). auto.
  Qed.

  Definition nodes_of (t : etype) : list (place * snode) := filter (fun d => ty_eqb (stype (sn_name (snd d))) t) (drawn l).
  Lemma split_parts t (ps : list part) ds : NoDup ps ->
    (forall d, In d ds -> stype (sn_name (snd d)) = t -> In (part_of (sn_name (snd d))) ps) ->
    length (filter (fun d => ty_eqb (stype (sn_name (snd d))) t) ds) =
    fold_right (fun pt n => length (filter (having t pt) ds) + n) 0 ps.
  Proof.
    intros N. induction ds as [|d ds IH]; intros H.
    - cbn [filter length]. clear. induction ps as [|p ps IH]; cbn; auto.
    - cbn [filter]. unfold having at 1. destruct (ty_eqb (stype (sn_name (snd d))) t) eqn:T.
      + apply ty_eqb_iff in T. specialize (H d (or_introl eq_refl) T) as Hp.
        cbn [length]. rewrite IH by (intros; apply H; auto; right; auto). cbn [andb]. clear - N Hp.
        induction ps as [|p ps IH]; [destruct Hp|]. inversion N; subst. cbn [fold_right].
        destruct (part_eqb (part_of (sn_name (snd d))) p) eqn:X.
        * apply part_eqb_iff in X. cbn [length]. rewrite <- plus_Sn_m. apply f_equal2; [reflexivity|].
          clear - X H1. induction ps as [|q ps IH]; [reflexivity|]. cbn [fold_right].
          assert (part_eqb (part_of (sn_name (snd d))) q = false) as ->.
          { destruct (part_eqb _ q) eqn:Y; auto. apply part_eqb_iff in Y. exfalso. apply H1. left. congruence. }
          rewrite IH; auto. intros Z. apply H1. right; auto.
        * destruct Hp as [->|Hp]; [exfalso; rewrite (proj2 (part_eqb_iff _ _) eq_refl) in X; discriminate|].
          specialize (IH H2 Hp). lia.
      + rewrite IH by (intros; apply H; auto; right; auto). reflexivity.
  Qed.
  Lemma nodes_of_device t : t <> INVALID -> length (nodes_of t) = divisor t * length (with_part t (lead_of t)).
  Proof.
    intros Ht. unfold nodes_of.
    rewrite (split_parts t (lead_of t :: other_parts (lead_of t))).
    - cbn [fold_right]. fold (with_part t (lead_of t)).
      assert (G : forall ps, incl ps (other_parts (lead_of t)) ->
        fold_right (fun pt n => length (filter (having t pt) (drawn l)) + n) 0 ps = length ps * length (with_part t (lead_of t))).
      { induction ps as [|p ps IH]; intros H; [reflexivity|]. cbn [fold_right length].
        rewrite IH by (intros x Hx; apply H; right; auto). fold (with_part t p).
        rewrite <- (same_number t p) by (auto; apply H; left; auto). lia. }
      rewrite (G _ (incl_refl _)). destruct t; cbn; lia.
    - destruct t; cbn; repeat constructor; cbn; intuition discriminate.
    - intros [p n] _ <-. cbn [snd]. destruct (sn_name n); cbn; auto.
  Qed.
End PARTS.

(* ---- the elements of the network ---- *)
Definition type_at (g : graph) (t : etype) (i : nat) : bool :=
  match E g i with Some e => ty_eqb (e_type e) t | None => false end.
Lemma elements_at g t : elements g t = length (filter (type_at g t) (seq 0 (len g))).
Proof.
  unfold elements. rewrite occ_filter. unfold type_at, E, len.
  assert (G : forall es pre, length (filter (fun e => ty_eqb (e_type e) t) es) =
    length (filter (fun i => match nth_error (pre ++ es) i with Some e => ty_eqb (e_type e) t | None => false end)
                   (seq (length pre) (length es)))).
  { induction es as [|e es IH]; intros pre; [reflexivity|]. cbn [length seq filter].
    rewrite nth_error_app2 by lia. rewrite Nat.sub_diag. cbn [nth_error].
    specialize (IH (pre ++ [e])). rewrite <- app_assoc, app_length in IH. cbn [length app] in IH.
    rewrite Nat.add_1_r in IH. destruct (ty_eqb (e_type e) t); cbn [length]; congruence. }
  exact (G (g_elems g) []).
Qed.
Lemma at_in g t i : In i (filter (type_at g t) (seq 0 (len g))) <-> exists e, E g i = Some e /\ e_type e = t.
Proof.
  rewrite filter_In, in_seq. unfold type_at. split.
  - intros [_ H]. destruct (E g i) as [e|]; [|discriminate]. exists e. split; auto. apply ty_eqb_iff; auto.
  - intros (e & He & <-). split; [apply E_lt in He; lia|]. rewrite He. apply ty_eqb_refl.
Qed.
Lemma at_nodup g t : NoDup (filter (type_at g t) (seq 0 (len g))).
Proof. apply nodup_filter, seq_NoDup. Qed.

Lemma sname_border n : sn_name n = N_BORDER \/ sn_name n <> N_BORDER.
Proof. destruct (sn_name n); (left; reflexivity) || (right; discriminate). Qed.

Section NETWORK.
  Variable l : list xstation.
  Hypothesis WD : well_drawn l.
  Hypothesis PI : plain_inside l.
  Hypothesis NM : no_meta l.
  Variables (g : graph) (dev : place -> nat) (run : nat -> bool -> list nat).
  Hypothesis I : Inv l (length (plan l)) g dev run.

  Lemma lead_node p n : node_at l p n -> exists q m, node_at l q m /\ dev q = dev p /\
    stype (sn_name m) = stype (sn_name n) /\ part_of (sn_name m) = lead_of (stype (sn_name n)).
  Proof.
    intros H. destruct (wd_lead l WD p n H) as (q & m & Y1 & Y2 & Y3 & Y4). exists q, m.
    split; auto. split; [|split; [auto|rewrite (lead_part _ Y3); congruence]].
    apply (dev_same l g dev run I q p m n); auto. unfold device at 1. rewrite Y3. auto.
  Qed.
  Lemma devices t : is_track_element t = false -> t <> INVALID -> elements g t = length (with_part l t (lead_of t)).
  Proof.
    intros Ht Hi. rewrite elements_at. symmetry. apply (rel_eq (fun d i => dev (fst d) = i)).
    - apply with_part_nodup.
    - apply at_nodup.
    - intros [p n] H. apply with_part_in in H. destruct H as (H1 & H2 & H3). exists (dev p). split; auto.
      destruct (in_dev _ _ _ _ _ I p n H1 (place_lt l p n H1)) as (e & He & T & _). apply at_in. exists e. split; congruence.
    - intros i H. apply at_in in H. destruct H as (e & He & T).
      destruct (in_elem _ _ _ _ _ I i (E_lt _ _ _ He)) as [(p & n & H1 & H2 & <-)|(s & d & H1 & H2)].
      + destruct (lead_node p n H1) as (q & m & X1 & X2 & X3 & X4).
        destruct (in_dev _ _ _ _ _ I p n H1 H2) as (e' & He' & T' & _).
        rewrite He in He'. injection He' as <-. exists (q, m). split; [|exact X2].
        apply with_part_in. split; auto. split; congruence.
      + exfalso. destruct (run_track l g dev run I s d i H1 H2) as (st & x & e' & _ & He' & _ & _ & T' & _).
        rewrite He in He'. injection He' as <-. unfold is_track_e in T'. congruence.
    - intros [p n] [q m] i H H' X Y. apply with_part_in in H, H'. destruct H as (H1 & H2 & H3), H' as (G1 & G2 & G3). cbn [fst] in X, Y.
      assert (D : dev p = dev q) by congruence. apply (dev_same l g dev run I p q n m H1 G1) in D.
      assert (p = q) by (apply (wd_once l WD p q n m); congruence). subst q. rewrite (node_fun l _ _ _ H1 G1). auto.
    - intros; congruence.
  Qed.

  Lemma run_node s st x d i e : nth_error (plan l) s = Some (st, x) -> s < length (plan l) -> In i (run s d) -> E g i = Some e ->
    e_type e <> META -> exists n j, In n (xs_track x) /\ nth_error (nodes_in (tracks x) d) j = Some n /\
      nth_error (run s d) j = Some i /\ made st s (xs_line x) n e /\ rp_find (g_rp g) (tn_id n) = Some i.
  Proof.
    intros P L Hi He T. pose proof (in_nodes _ _ _ _ _ I s st x d P L) as N.
    apply In_nth_error in Hi. destruct Hi as [j J].
    destruct (nodes_in (tracks x) d) as [|n0 ns] eqn:Q.
    - destruct N as (m & e' & R & He' & T' & _). rewrite R in J. destruct j as [|[|j]]; try discriminate.
      cbn in J. injection J as <-. congruence.
    - rewrite <- Q in N. destruct (nth_error (nodes_in (tracks x) d) j) as [n|] eqn:Nj.
      + destruct (in_made _ _ _ _ _ I s st x d j n i P L Nj J) as (e' & He' & M & R). rewrite He in He'. injection He' as <-.
        exists n, j. rewrite <- Q. split; [|auto]. apply nth_error_In in Nj. apply nodes_in_spec in Nj.
        destruct Nj as [Nj _]. apply filter_In in Nj. tauto.
      + apply nth_error_None in Nj. assert (j < length (run s d)) by (apply nth_error_Some; congruence). lia.
  Qed.
  Lemma node_run s st x n : nth_error (plan l) s = Some (st, x) -> In n (xs_track x) -> is_track_element (tn_type n) = true ->
    exists d j i e, nth_error (nodes_in (tracks x) d) j = Some n /\ nth_error (run s d) j = Some i /\ In i (run s d) /\
      E g i = Some e /\ made st s (xs_line x) n e /\ rp_find (g_rp g) (tn_id n) = Some i /\ keep d n = true.
  Proof.
    intros P Hn T. assert (L : s < length (plan l)) by (apply nth_error_Some; congruence).
    assert (K : exists d, keep d n = true).
    { unfold keep. destruct (is_directed_track_element (tn_type n)); [|exists true; reflexivity].
      exists (tn_rising n). rewrite eqb_reflx. reflexivity. }
    destruct K as [d K]. exists d.
    assert (Hin : In n (nodes_in (tracks x) d)) by (apply nodes_in_spec; split; auto; apply filter_In; auto).
    apply In_nth_error in Hin. destruct Hin as [j J]. exists j.
    pose proof (in_nodes _ _ _ _ _ I s st x d P L) as N.
    destruct (nodes_in (tracks x) d) as [|n0 ns] eqn:Q; [destruct j; discriminate|]. rewrite <- Q in N, J.
    assert (Lj : j < length (run s d)) by (rewrite N; apply nth_error_Some; congruence).
    apply nth_error_Some in Lj. destruct (nth_error (run s d) j) as [i|] eqn:R; [|congruence]. exists i.
    destruct (in_made _ _ _ _ _ I s st x d j n i P L J R) as (e & He & M & Rp). exists e. rewrite <- Q.
    repeat split; auto; try apply M; [eapply nth_error_In; eauto].
  Qed.
  Lemma track_elem_one n m i : In n (track_nodes l) -> In m (track_nodes l) ->
    is_track_element (tn_type n) = true -> is_track_element (tn_type m) = true ->
    rp_find (g_rp g) (tn_id n) = Some i -> rp_find (g_rp g) (tn_id m) = Some i -> n = m.
  Proof.
    intros Hn Hm Tn Tm Rn Rm. apply track_nodes_in in Hn, Hm.
    destruct Hn as (s & x & (st & P) & Hn), Hm as (s' & x' & (st' & P') & Hm).
    assert (L : s < length (plan l)) by (apply nth_error_Some; congruence).
    assert (L' : s' < length (plan l)) by (apply nth_error_Some; congruence).
    destruct (node_run s st x n P Hn Tn) as (d & j & i1 & e & A1 & A2 & A3 & A4 & A5 & A6 & A7).
    destruct (node_run s' st' x' m P' Hm Tm) as (d' & j' & i2 & e' & B1 & B2 & B3 & B4 & B5 & B6 & B7).
    assert (i1 = i) by congruence. assert (i2 = i) by congruence. subst i1 i2.
    pose proof (run_section l g dev run I s s' d d' i L L' A3 B3) as <-. rewrite P in P'. injection P' as <- <-.
    rewrite A4 in B4. injection B4 as <-.
    assert (S : forall j', nth_error (nodes_in (tracks x) d) j' = Some m -> nth_error (run s d) j' = Some i -> n = m).
    { intros k K1 K2. assert (j = k); [|congruence].
      pose proof (in_nodup _ _ _ _ _ I s d L) as D. rewrite NoDup_nth_error in D. apply D; [|congruence].
      apply nth_error_Some. congruence. }
    destruct (Bool.bool_dec d d') as [->|Nd]; [eauto|].
    destruct A5 as (M1 & M2 & M3 & _), B5 as (N1 & N2 & N3 & _).
    assert (Tt : tn_type n = tn_type m) by congruence.
    destruct (is_directed_track_element (tn_type n)) eqn:D.
    - exfalso. rewrite <- Tt, D in N3. pose proof (keep_rising d n A7 D). rewrite Tt in D. pose proof (keep_rising d' m B7 D). congruence.
    - assert (K : keep d m = true) by (unfold keep; rewrite <- Tt, D; reflexivity).
      assert (Hin : In m (nodes_in (tracks x) d)) by (apply nodes_in_spec; split; auto; apply filter_In; auto).
      apply In_nth_error in Hin. destruct Hin as [k K1].
      pose proof (in_nodes _ _ _ _ _ I s st x d P L) as N.
      destruct (nodes_in (tracks x) d) as [|n0 ns] eqn:Q; [destruct k; discriminate|]. rewrite <- Q in N, K1, S.
      assert (Lk : k < length (run s d)) by (rewrite N; apply nth_error_Some; congruence).
      apply nth_error_Some in Lk. destruct (nth_error (run s d) k) as [i2|] eqn:R; [|congruence].
      destruct (in_made _ _ _ _ _ I s st x d k m i2 P L K1 R) as (e2 & _ & _ & R2). apply (S k K1). congruence.
  Qed.
  Lemma track_elements t : is_track_element t = true -> t <> META ->
    elements g t = length (filter (fun n => ty_eqb (tn_type n) t) (track_nodes l)).
  Proof.
    intros Ht Hm. rewrite elements_at. symmetry.
    apply (rel_eq (fun n i => rp_find (g_rp g) (tn_id n) = Some i)).
    - apply nodup_filter. eapply NoDup_map_inv. apply (track_ids l WD).
    - apply at_nodup.
    - intros n H. apply filter_In in H. destruct H as [H T]. apply ty_eqb_iff in T.
      apply track_nodes_in in H. destruct H as (s & x & (st & P) & Hn).
      destruct (node_run s st x n P Hn) as (d & j & i & e & _ & _ & _ & A4 & A5 & A6 & _); [congruence|].
      exists i. split; auto. apply at_in. exists e. split; auto. destruct A5 as [A5 _]. congruence.
    - intros i H. apply at_in in H. destruct H as (e & He & T).
      destruct (in_elem _ _ _ _ _ I i (E_lt _ _ _ He)) as [(p & n & H1 & H2 & <-)|(s & d & H1 & H2)].
      + exfalso. destruct (in_dev _ _ _ _ _ I p n H1 H2) as (e' & He' & T' & _). rewrite He in He'. injection He' as <-.
        pose proof (stype_not_track (sn_name n)). congruence.
      + destruct (nth_error (plan l) s) as [[st x]|] eqn:P; [|apply nth_error_None in P; lia].
        destruct (run_node s st x d i e P H1 H2 He) as (n & j & A1 & _ & _ & (A2 & _) & A3); [congruence|].
        exists n. split; auto. apply filter_In. split; [apply track_nodes_in; exists s, x; split; [exists st|]; auto|].
        apply ty_eqb_iff. congruence.
    - intros n m i H H' X Y. apply filter_In in H, H'. destruct H as [H T], H' as [H' T']. apply ty_eqb_iff in T, T'.
      apply (track_elem_one n m i); congruence || auto.
    - intros; congruence.
  Qed.

  Lemma tracks_of_device t : is_track_element t = false -> t <> INVALID ->
    filter (fun n => ty_eqb (tn_type n) t) (track_nodes l) = [].
  Proof.
    intros Ht Hi. destruct (filter _ _) as [|n r] eqn:Q; [reflexivity|exfalso].
    assert (H : In n (filter (fun n => ty_eqb (tn_type n) t) (track_nodes l))) by (rewrite Q; left; auto).
    apply filter_In in H. destruct H as [H T]. apply ty_eqb_iff in T. apply track_nodes_in in H.
    destruct H as (s & x & H & Hn). destruct (PI s x n H Hn); congruence.
  Qed.
  Lemma devices_of_track t : is_track_element t = true -> nodes_of l t = [].
  Proof.
    intros Ht. unfold nodes_of. destruct (filter _ _) as [|d r] eqn:Q; [reflexivity|exfalso].
    assert (H : In d (filter (fun d => ty_eqb (stype (sn_name (snd d))) t) (drawn l))) by (rewrite Q; left; auto).
    apply filter_In in H. destruct H as [H T]. apply ty_eqb_iff in T.
    pose proof (stype_not_track (sn_name (snd d))). congruence.
  Qed.
  Lemma number_counted t : t <> META -> t <> INVALID -> is_number (get_infra_stats l) t = elements g t.
  Proof.
    intros Hm Hi. rewrite stats_number, drawn_types_occ by auto. fold (nodes_of l t).
    destruct (is_track_element t) eqn:T.
    - rewrite (devices_of_track t T), (track_elements t T Hm). destruct t; try discriminate; cbn [divisor length]; rewrite Nat.div_1_r; reflexivity.
    - rewrite (tracks_of_device t T Hi), (nodes_of_device l WD t Hi), (devices t T Hi). cbn [length]. rewrite Nat.add_0_r.
      rewrite Nat.mul_comm. apply Nat.div_mul. destruct t; discriminate.
  Qed.
  Lemma meta_counted : is_number (get_infra_stats l) META = 0.
  Proof.
    rewrite stats_number, drawn_types_occ by discriminate. fold (nodes_of l META). rewrite devices_of_track by reflexivity.
    destruct (filter _ _) as [|n r] eqn:Q; [reflexivity|exfalso].
    assert (H : In n (filter (fun n => ty_eqb (tn_type n) META) (track_nodes l))) by (rewrite Q; left; auto).
    apply filter_In in H. destruct H as [H T]. apply ty_eqb_iff in T. apply track_nodes_in in H.
    destruct H as (s & x & H & Hn). exact (NM s x n H Hn T).
  Qed.
  Lemma no_invalid : ~ In INVALID (map e_type (g_elems g)).
  Proof.
    intros H. apply in_map_iff in H. destruct H as (e & T & H). apply In_nth_error in H. destruct H as [i He].
    change (E g i = Some e) in He.
    destruct (in_elem _ _ _ _ _ I i (E_lt _ _ _ He)) as [(p & n & H1 & H2 & <-)|(s & d & H1 & H2)].
    - destruct (in_dev _ _ _ _ _ I p n H1 H2) as (e' & He' & T' & _). rewrite He in He'. injection He' as <-.
      rewrite T in T'. destruct (sn_name n); discriminate.
    - destruct (run_track l g dev run I s d i H1 H2) as (st & x & e' & _ & He' & _ & _ & T' & _).
      rewrite He in He'. injection He' as <-. unfold is_track_e in T'. rewrite T in T'. discriminate.
  Qed.
  Lemma total_counted : total_elements (get_infra_stats l) + elements g META = length (g_elems g).
  Proof.
    unfold total_elements.
    assert (H : fold_left (fun n t => n + elements g t) all_types 0 = length (g_elems g)).
    { unfold elements. rewrite (total_occ _ no_invalid). apply map_length. }
    rewrite <- H. unfold all_types. cbn [fold_left]. rewrite meta_counted, !number_counted by discriminate. lia.
  Qed.

  (* ---- the ways on which nothing is met ---- *)
  Lemma empty_iff s st x d : nth_error (plan l) s = Some (st, x) ->
    ((forall n, In n (xs_track x) -> met d n = false) <-> nodes_in (tracks x) d = []).
  Proof.
    intros P. assert (K : forall n, is_track_element (tn_type n) = true -> met d n = keep d n).
    { intros n Hn. unfold met, keep. destruct (tn_type n); try discriminate Hn; cbn; try reflexivity; destruct (tn_rising n), d; reflexivity. }
    split.
    - intros H. destruct (nodes_in (tracks x) d) as [|n r] eqn:Q; [reflexivity|exfalso].
      assert (Hn : In n (nodes_in (tracks x) d)) by (rewrite Q; left; auto). apply nodes_in_spec in Hn.
      destruct Hn as [Hn Kn]. apply filter_In in Hn. destruct Hn as [Hn T]. rewrite <- (K n T), (H n Hn) in Kn. discriminate.
    - intros Q n Hn. destruct (is_track_element (tn_type n)) eqn:T.
      + destruct (met d n) eqn:M; [|reflexivity]. rewrite (K n T) in M. exfalso.
        assert (X : In n (nodes_in (tracks x) d)) by (apply nodes_in_spec; split; auto; apply filter_In; auto). rewrite Q in X. destruct X.
      + unfold met. destruct (tn_type n); try discriminate T; reflexivity.
  Qed.
  Definition empty_ways : list place :=
    filter (fun p => match nth_error (plan l) (fst p) with
                     | Some (_, x) => match nodes_in (tracks x) (snd p) with [] => true | _ => false end
                     | None => false end) (map fst (drawn l)).
  Lemma empty_ways_in p : In p empty_ways <-> empty_way l p.
  Proof.
    unfold empty_ways. rewrite filter_In. split.
    - intros [_ H]. destruct (nth_error (plan l) (fst p)) as [[st x]|] eqn:P; [|discriminate]. exists x. split; [exists st; auto|].
      apply (empty_iff _ _ _ (snd p) P). destruct (nodes_in (tracks x) (snd p)); [reflexivity|discriminate].
    - intros (x & (st & P) & H). split.
      + apply in_map_iff. exists (p, if snd p then xs_end x else xs_start x). split; auto. apply drawn_in. exists x. split; [exists st; auto|reflexivity].
      + rewrite P. apply (empty_iff _ _ _ (snd p) P) in H. rewrite H. reflexivity.
  Qed.
  Lemma metas : number_of (empty_way l) (elements g META).
  Proof.
    exists empty_ways. split; [apply nodup_filter, drawn_nodup|]. split; [exact empty_ways_in|].
    rewrite elements_at. apply (rel_eq (fun p i => empty_way l p /\ In i (run (fst p) (snd p)))).
    - apply nodup_filter, drawn_nodup.
    - apply at_nodup.
    - intros [s d] H. apply empty_ways_in in H. pose proof H as W. destruct H as (x & (st & P) & H). cbn [fst snd] in *.
      apply (empty_iff _ _ _ d P) in H. assert (L : s < length (plan l)) by (apply nth_error_Some; congruence).
      pose proof (in_nodes _ _ _ _ _ I s st x d P L) as N. rewrite H in N. destruct N as (m & e & R & He & T & _).
      exists m. rewrite R. split; [|split; [exact W|left; auto]]. apply at_in. eauto.
    - intros i H. apply at_in in H. destruct H as (e & He & T).
      destruct (in_elem _ _ _ _ _ I i (E_lt _ _ _ He)) as [(p & n & H1 & H2 & <-)|(s & d & H1 & H2)].
      + exfalso. destruct (in_dev _ _ _ _ _ I p n H1 H2) as (e' & He' & T' & _). rewrite He in He'. injection He' as <-.
        pose proof (stype_not_track (sn_name n)) as X. rewrite <- T', T in X. discriminate.
      + exists (s, d). enough (W : empty_way l (s, d)) by (split; [apply empty_ways_in; exact W|split; [exact W|exact H2]]).
        destruct (nth_error (plan l) s) as [[st x]|] eqn:P; [|apply nth_error_None in P; lia].
        exists x. split; [exists st; auto|]. apply (empty_iff _ _ _ d P).
        apply In_nth_error in H2. destruct H2 as [j J]. pose proof (in_nodes _ _ _ _ _ I s st x d P H1) as N.
        destruct (nodes_in (tracks x) d) as [|n0 ns] eqn:Q; [reflexivity|exfalso]. rewrite <- Q in N.
        assert (Lj : j < length (nodes_in (tracks x) d)) by (rewrite <- N; apply nth_error_Some; congruence).
        apply nth_error_Some in Lj. destruct (nth_error (nodes_in (tracks x) d) j) as [n|] eqn:Nj; [|congruence].
        destruct (in_made _ _ _ _ _ I s st x d j n i P H1 Nj J) as (e' & He' & (M & _) & _). rewrite He in He'. injection He' as <-.
        apply nth_error_In in Nj. apply nodes_in_spec in Nj. destruct Nj as [Nj _]. apply filter_In in Nj.
        apply (NM s x n); [exists st; auto|tauto|congruence].
    - intros [s d] [s' d'] i _ _ [H X] [H' Y].
      destruct H as (x & (st & P) & H), H' as (x' & (st' & P') & H'). cbn [fst snd] in *.
      assert (L : s < length (plan l)) by (apply nth_error_Some; congruence).
      assert (L' : s' < length (plan l)) by (apply nth_error_Some; congruence).
      pose proof (run_section l g dev run I s s' d d' i L L' X Y) as <-. f_equal.
      destruct (run_track l g dev run I s d i L X) as (_ & _ & e & _ & He & _ & K & _ & _ & D).
      destruct (run_track l g dev run I s d' i L Y) as (_ & _ & e' & _ & He' & _ & _ & _ & _ & D').
      rewrite He in He'. injection He' as <-.
      apply (empty_iff _ _ _ d P) in H. pose proof (in_nodes _ _ _ _ _ I s st x d P L) as N. rewrite H in N.
      destruct N as (m & e' & R & Hm & T & _). rewrite R in X. destruct X as [->|[]].
      rewrite He in Hm. injection Hm as <-. rewrite T in K. cbn in K. injection K as K.
      destruct D as [[_ D]|D], D' as [[_ D']|D']; congruence.
    - intros [s d] i j _ _ [H X] [_ Y]. destruct H as (x & (st & P) & H). cbn [fst snd] in *.
      assert (L : s < length (plan l)) by (apply nth_error_Some; congruence).
      apply (empty_iff _ _ _ d P) in H. pose proof (in_nodes _ _ _ _ _ I s st x d P L) as N. rewrite H in N.
      destruct N as (m & e' & R & _). rewrite R in X, Y. destruct X as [X|[]], Y as [Y|[]]. congruence.
  Qed.

  (* ---- the sections ---- *)
  Variable g' : graph.
  Hypothesis CB : closed_borders l dev g g'.

  Definition known (p : place * snode) : bool := existsb (String.eqb (sn_station (snd p))) (map st_ds100 l).
  Lemma known_iff d : known d = true <-> In (sn_station (snd d)) (map st_ds100 l).
  Proof.
    unfold known. rewrite existsb_exists. split.
    - intros (y & H & X). apply String.eqb_eq in X. congruence.
    - intros H. eexists. split; [exact H|]. apply String.eqb_refl.
  Qed.
  Definition bords (up : bool) : list (place * snode) :=
    filter (fun d => known d && Bool.eqb (snd (fst d)) up) (nodes_of l BORDER).
  Definition outs : list (place * snode) := filter (fun d => negb (known d)) (nodes_of l BORDER).
  Lemma nodes_of_border p n : In (p, n) (nodes_of l BORDER) <-> node_at l p n /\ sn_name n = N_BORDER.
  Proof.
    unfold nodes_of. rewrite filter_In, drawn_in, ty_eqb_iff. cbn [snd]. destruct (sn_name n); cbn; split; intros [? ?]; split; auto; discriminate.
  Qed.
  Lemma border_split : length (nodes_of l BORDER) = length (bords true) + length (bords false) + length outs.
  Proof.
    unfold bords, outs. induction (nodes_of l BORDER) as [|d r IH]; [reflexivity|]. cbn [filter].
    destruct (known d), (snd (fst d)); cbn [andb negb Bool.eqb length]; lia.
  Qed.
  Lemma bords_in up p n : In (p, n) (bords up) <-> node_at l p n /\ sn_name n = N_BORDER /\ snd p = up /\ exists q, partners l p q.
  Proof.
    unfold bords. rewrite filter_In, nodes_of_border, andb_true_iff, known_iff, eqb_true_iff. cbn [fst snd]. split.
    - intros ((H1 & H2) & H3 & H4). repeat split; auto. destruct (wd_border l WD p n H1 H2 H3) as (q & H & _). eauto.
    - intros (H1 & H2 & H3 & (q & H)). repeat split; auto.
      destruct H as (n' & m & ln & sp & sq & xp & xq & A1 & A2 & A3 & A4 & A5 & A6 & A7 & A8 & A9 & A10 & A11 & A12 & A13).
      rewrite (node_fun l _ _ _ H1 A1), A12. apply in_map. eapply nth_error_In; eauto.
  Qed.
  Lemma bords_nodup up : NoDup (bords up).
  Proof. apply nodup_filter, nodup_filter, nodup_fst, drawn_nodup. Qed.
  Lemma partner_node p q : partners l p q -> exists m, node_at l q m /\ sn_name m = N_BORDER.
  Proof. intros (n' & m & ln & sp & sq & xp & xq & A1 & A2 & A3 & A4 & _). eauto. Qed.
  Lemma bords_same : length (bords true) = length (bords false).
  Proof.
    assert (G : forall up d, In d (bords up) -> exists d', In d' (bords (negb up)) /\ partners l (fst d) (fst d')).
    { intros up [p n] H. apply bords_in in H. destruct H as (H1 & H2 & H3 & (q & H)).
      destruct (partner_node p q H) as (m & M1 & M2). exists (q, m). split; [|exact H]. apply bords_in.
      repeat split; auto.
      - destruct (partner_one l WD p q q H H) as [_ D]. rewrite H3 in D. destruct (snd q), up; cbn; congruence.
      - exists p. apply partners_sym; auto. }
    apply (rel_eq (fun a b => partners l (fst a) (fst b))); try apply bords_nodup.
    - apply (G true).
    - intros b Hb. destruct (G false b Hb) as (a & A1 & A2). exists a. split; auto. apply partners_sym; auto.
    - intros [p n] [q m] [r b] H H' X Y. apply bords_in in H, H'. cbn [fst] in *.
      destruct (partner_one l WD r p q) as [<- _]; [apply partners_sym; auto..|]. f_equal. eapply node_fun; [apply H|apply H'].
    - intros [r b] [p n] [q m] H H' X Y. apply bords_in in H, H'. cbn [fst] in *.
      destruct (partner_one l WD r p q) as [<- _]; auto. f_equal. eapply node_fun; [apply H|apply H'].
  Qed.
  Lemma sections_made : length (g_secs g') = length (plan l) + length (bords true).
  Proof.
    destruct (cb_secs _ _ _ _ CB) as (more & H1 & H2 & H3). rewrite H1, app_length, (in_len _ _ _ _ _ I). f_equal.
    assert (D : forall p n, node_at l p n -> sn_name n = N_BORDER -> forall q m, node_at l q m -> dev p = dev q -> p = q).
    { intros p n Hn B q m Hm X. apply (dev_whole l WD g dev run I p q n m); auto. rewrite B. reflexivity. }
    symmetry. rewrite <- (seq_length (length more) 0).
    apply (rel_eq (fun d k => exists sc, nth_error more k = Some sc /\ hd_error (sc_rising sc) = Some (dev (fst d)))).
    - apply bords_nodup.
    - apply seq_NoDup.
    - intros [p n] H. apply bords_in in H. destruct H as (A1 & A2 & A3 & (q & A4)).
      assert (X : exists ln, line_at l p ln) by (destruct A1 as (x & A1 & _); exists (xs_line x), x; auto). destruct X as [ln X].
      destruct (H3 p q ln A4 A3 X) as (k & K1 & _). exists k. split; [|exists (mksec [dev p; dev q] [dev q; dev p] 0%Q ln); auto].
      apply in_seq. assert (k < length more) by (apply nth_error_Some; congruence). lia.
    - intros k H. apply in_seq in H. destruct (nth_error more k) as [sc|] eqn:K; [|apply nth_error_None in K; lia].
      destruct (H2 sc (nth_error_In _ _ K)) as (p & q & ln & P1 & P2 & P3 & P4 & ->).
      destruct (partner_node q p (partners_sym _ _ _ P1)) as (n & N1 & N2). exists (p, n). split.
      + apply bords_in. eauto.
      + eexists. split; [reflexivity|reflexivity].
    - intros [p n] [q m] k H H' (sc & K1 & K2) (sc' & K1' & K2'). apply bords_in in H, H'. cbn [fst] in *.
      assert (p = q); [|subst q; f_equal; eapply node_fun; [apply H|apply H']].
      apply (D p n) with (m := m); [apply H|apply H|apply H'|]. congruence.
    - intros [p n] k k' _ _ (sc & K1 & K2) (sc' & K1' & K2'). cbn [fst] in *.
      destruct (H2 sc (nth_error_In _ _ K1)) as (p1 & q1 & ln & P1 & P2 & P3 & P4 & ->). cbn in K2. injection K2 as K2.
      destruct (H3 p1 q1 ln P1 P2 P4) as (k1 & _ & U).
      transitivity k1; [|symmetry].
      + apply (U k _ K1). left. reflexivity.
      + apply (U k' _ K1'). rewrite K2. destruct (sc_rising sc'); [discriminate|]. cbn in K2'. injection K2' as ->. left; auto.
  Qed.
  Lemma out_places : number_of (leads_out l) (length outs).
  Proof.
    exists (map fst outs). split; [|split].
    - unfold outs, nodes_of. pose proof (drawn_nodup l) as N. revert N. induction (drawn l) as [|d r IH]; cbn [map filter]; intros N; [constructor|].
      inversion N; subst. destruct (ty_eqb _ _); cbn [filter]; [destruct (negb (known d)); cbn [map]|]; auto. constructor; auto.
      intros X. apply H1. apply in_map_iff in X. destruct X as (y & <- & X). apply in_map. apply filter_In in X. destruct X as [X _].
      apply filter_In in X. tauto.
    - intros p. rewrite in_map_iff. unfold outs. split.
      + intros ([q n] & <- & H). apply filter_In in H. destruct H as [H K]. apply nodes_of_border in H. exists n.
        destruct H as [H1 H2]. repeat split; auto. intros X. apply negb_true_iff in K.
        assert (known (q, n) = true) by (apply known_iff; exact X). congruence.
      + intros (n & H1 & H2 & H3). exists (p, n). split; auto. apply filter_In. split; [apply nodes_of_border; auto|].
        apply negb_true_iff. destruct (known (p, n)) eqn:K; auto. apply known_iff in K. contradiction.
    - apply map_length.
  Qed.
  Lemma sections_counted : is_sections (get_infra_stats l) = length (g_secs g') + length outs / 2.
  Proof.
    rewrite stats_sections, drawn_types_occ, sections_made. fold (nodes_of l BORDER).
    rewrite (tracks_of_device BORDER) by (reflexivity || discriminate). rewrite border_split, bords_same. cbn [length]. rewrite Nat.add_0_r.
    replace (length (bords false) + length (bords false) + length outs) with (length outs + length (bords false) * 2) by lia.
    rewrite Nat.div_add by discriminate. lia.
  Qed.

  Lemma types_kept : map e_type (g_elems g') = map e_type (g_elems g).
  Proof.
    assert (G : forall (xs ys : list elem), length xs = length ys ->
      (forall i y, nth_error ys i = Some y -> exists x, nth_error xs i = Some x /\ e_type x = e_type y) -> map e_type xs = map e_type ys).
    { induction xs as [|x xs IH]; intros [|y ys] L H; try discriminate; [reflexivity|]. cbn [map].
      destruct (H 0 y eq_refl) as (x' & [= <-] & T). rewrite T. f_equal. apply IH; [cbn in L; lia|]. intros i. apply (H (S i)). }
    apply G; [exact (cb_len _ _ _ _ CB)|]. intros i e He. change (E g i = Some e) in He. change (exists x, E g' i = Some x /\ e_type x = e_type e).
    destruct (in_elem _ _ _ _ _ I i (E_lt _ _ _ He)) as [(p & n & H1 & H2 & X)|(s & d & H1 & H2)].
    - destruct (in_dev _ _ _ _ _ I p n H1 H2) as (e0 & He0 & T0 & _). rewrite X, He in He0. injection He0 as <-.
      destruct (sname_border n) as [B|B].
      + destruct (in_dec string_dec (sn_station n) (map st_ds100 l)) as [K|K].
        * destruct (wd_border l WD p n H1 B K) as (q & Q & _).
          rewrite <- X in He. destruct (cb_border _ _ _ _ CB p q e Q He) as (e' & xs & e1 & A1 & -> & A2 & _).
          rewrite X in A1. eexists. split; [exact A1|]. cbn. apply core_inv in A2. tauto.
        * exists e. split; auto. rewrite (cb_frame _ _ _ _ CB); auto. intros p' q' Q Y.
          destruct (partner_node q' p' (partners_sym _ _ _ Q)) as (n' & N1 & N2).
          assert (p' = p). { apply (dev_whole l WD g dev run I p' p n' n); auto; [congruence|]. rewrite N2. reflexivity. }
          subst p'. apply K. assert (In (p, n) (bords (snd p))) as Z by (apply bords_in; eauto).
          apply filter_In in Z. destruct Z as [_ Z]. apply andb_true_iff in Z. destruct Z as [Z _]. apply known_iff in Z. exact Z.
      + exists e. split; auto. rewrite (cb_frame _ _ _ _ CB); auto. intros p' q' Q Y.
        destruct (partner_node q' p' (partners_sym _ _ _ Q)) as (n' & N1 & N2).
        assert (p' = p). { apply (dev_whole l WD g dev run I p' p n' n); auto; [congruence|]. rewrite N2. reflexivity. }
        subst p'. rewrite (node_fun l _ _ _ H1 N1) in B. contradiction.
    - exists e. split; auto. rewrite (cb_frame _ _ _ _ CB); auto. intros p q Q Y.
      destruct (partner_node q p (partners_sym _ _ _ Q)) as (n' & N1 & N2).
      apply (dev_not_run l g dev run I p n' s d N1 H1). rewrite Y. exact H2.
  Qed.
End NETWORK.

Lemma counted l : well_drawn l -> plain_inside l -> no_meta l -> exists g k, import l = Ok g /\
  (forall t, t <> META -> t <> INVALID -> is_number (get_infra_stats l) t = elements g t) /\
  is_number (get_infra_stats l) META = 0 /\ number_of (empty_way l) (elements g META) /\
  total_elements (get_infra_stats l) + elements g META = length (g_elems g) /\
  is_stations (get_infra_stats l) = length l /\
  number_of (leads_out l) k /\ is_sections (get_infra_stats l) = length (g_secs g) + k / 2.
Proof.
  intros WD PI NM. destruct (parse_all l WD) as (g & dev & run & H & I).
  destruct (close_borders l WD g dev run I) as (g' & H' & CB).
  pose proof (types_kept l WD g dev run I g' CB) as T.
  exists g', (length (outs l)). unfold import. rewrite H. cbn [bind]. split; [exact H'|].
  unfold elements. rewrite T. fold (elements g META).
  replace (length (g_elems g')) with (length (g_elems g)) by (symmetry; apply (cb_len _ _ _ _ CB)).
  split; [intros t H1 H2; rewrite (number_counted l WD PI g dev run I t H1 H2); reflexivity|].
  split; [apply meta_counted; auto|]. split; [eapply metas; eauto|]. split; [eapply total_counted; eauto|].
  split; [apply stats_stations|]. split; [apply out_places|]. eapply sections_counted; eauto.
Qed.
