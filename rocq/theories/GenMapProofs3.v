From Coq Require Import String List QArith Qround ZArith NArith Bool Lia Lqa Permutation.
From Verif Require Import Base GenOsmModel GenOsmSpec GenOsmProofs GenFindModel GenFindSpec GenMapModel GenMapSpec GenMapProofs.
Import ListNotations.
Local Open Scope list_scope.
Local Open Scope nat_scope.

(* ---- lists ---- *)
Lemma set_nth_some {A} (l : list A) : forall i f x, nth_error l i = Some x -> exists l', set_nth l i f = Some l' /\ List.length l' = List.length l /\
  nth_error l' i = Some (f x) /\ forall j, j <> i -> nth_error l' j = nth_error l j.
Proof.
  induction l as [|y l IH]; intros i f x H; [destruct i; discriminate|]. destruct i as [|i]; cbn in *.
  - inversion H; subst. eexists. split; [reflexivity|]. split; [reflexivity|]. split; [reflexivity|]. intros [|j] Hj; [congruence|reflexivity].
  - destruct (IH i f x H) as (l' & -> & Hlen & Hi & Hj). eexists. split; [reflexivity|]. split; [cbn; congruence|]. split; [exact Hi|].
    intros [|j] Hne; [reflexivity|]. apply Hj. congruence.
Qed.
Lemma positions_spec {A} (p : A -> bool) l : forall b i, In i (positions p b l) <-> exists x, b <= i /\ nth_error l (i - b) = Some x /\ p x = true.
Proof.
  induction l as [|x l IH]; intros b i; cbn [positions].
  - split; [intros []|]. intros (x & _ & E & _). destruct (i - b); discriminate.
  - assert (G : In i (positions p (S b) l) <-> exists y, S b <= i /\ nth_error (x :: l) (i - b) = Some y /\ p y = true).
    { rewrite IH. split; intros (y & H1 & H2 & H3); exists y; (split; [exact H1|]); (split; [|exact H3]); replace (i - b) with (S (i - S b)) in * by lia; exact H2. }
    destruct (p x) eqn:Ep.
    + cbn [In]. rewrite G. split.
      * intros [<-|(y & H1 & H2)]; [exists x; rewrite Nat.sub_diag; auto|exists y; split; [lia|exact H2]].
      * intros (y & H1 & H2 & H3). destruct (Nat.eq_dec b i) as [->|]; [left; reflexivity|]. right. exists y. split; [lia|auto].
    + rewrite G. split; intros (y & H1 & H2 & H3); exists y.
      * split; [lia|auto].
      * split; [|auto]. destruct (Nat.eq_dec b i) as [->|]; [|lia]. rewrite Nat.sub_diag in H2. cbn in H2. inversion H2; subst. congruence.
Qed.

(* ---- the map of anchors ---- *)
Definition distinct (m : places_map) : Prop := ForallOrdPairs (fun a b => ~ (fst a == fst b)%Q) m.
Lemma Qeq_bool_true a b : Qeq_bool a b = true <-> (a == b)%Q.
Proof. apply Qeq_bool_iff. Qed.
Lemma Qeq_bool_false a b : Qeq_bool a b = false <-> ~ (a == b)%Q.
Proof. rewrite <- Qeq_bool_iff. destruct (Qeq_bool a b); split; congruence. Qed.
Lemma distinct_in m k l k' l' : distinct m -> In (k, l) m -> In (k', l') m -> (k == k')%Q -> (k, l) = (k', l').
Proof.
  intros H. induction H as [|x m HF HD IH]; intros H1 H2 E; [contradiction|]. rewrite Forall_forall in HF.
  destruct H1 as [->|H1], H2 as [H2|H2]; subst; auto.
  - exfalso. exact (HF _ H2 E).
  - exfalso. apply (HF _ H1). cbn. symmetry. exact E.
Qed.
Lemma anchor_add_in m km i k l : In (k, l) (anchor_add m km i) -> (In (k, l) m /\ ~ (k == km)%Q) \/
  (k == km)%Q /\ (l = [i] /\ k = km \/ exists l0, In (k, l0) m /\ l = l0 ++ [i]) \/ In (k, l) m.
Proof.
  induction m as [|[k0 l0] m IH]; cbn [anchor_add].
  - intros [E|[]]. inversion E; subst. right. left. split; [reflexivity|]. auto.
  - destruct (Qeq_bool k0 km) eqn:E0.
    + apply Qeq_bool_true in E0. intros [E|H]; [inversion E; subst; right; left; split; [exact E0|right; exists l0; split; [left; reflexivity|reflexivity]]|].
      right. right. right. exact H.
    + apply Qeq_bool_false in E0. intros [E|H]; [inversion E; subst; left; split; [left; reflexivity|exact E0]|].
      destruct (IH H) as [[H1 H2]|[[H1 [H2|(l1 & H2 & H3)]]|H1]]; [left; split; [right; exact H1|exact H2]|right; left; auto|right; left; split; [exact H1|right; exists l1; split; [right; exact H2|exact H3]]|right; right; right; exact H1].
Qed.
Lemma anchor_add_flat m km i : Permutation (flat_map snd (anchor_add m km i)) (i :: flat_map snd m).
Proof.
  induction m as [|[k l] m IH]; cbn [anchor_add]; [reflexivity|]. destruct (Qeq_bool k km); cbn [flat_map snd].
  - rewrite <- app_assoc. cbn [app]. apply Permutation_sym, Permutation_middle.
  - rewrite IH. apply Permutation_sym, Permutation_middle.
Qed.
Lemma anchor_add_keys m km i : forall x, In x (anchor_add m km i) -> (fst x == km)%Q \/ exists l, In (fst x, l) m.
Proof.
  intros [k l] H. apply anchor_add_in in H. cbn. destruct H as [[H _]|[[H _]|H]]; eauto.
Qed.
Lemma anchor_add_distinct m km i : distinct m -> distinct (anchor_add m km i).
Proof.
  intros H. induction H as [|[k l] m HF HD IH]; cbn [anchor_add].
  - repeat constructor.
  - rewrite Forall_forall in HF. destruct (Qeq_bool k km) eqn:E.
    + constructor; [|exact HD]. apply Forall_forall. intros x Hx. cbn. apply (HF x Hx).
    + apply Qeq_bool_false in E. constructor; [|exact IH]. apply Forall_forall. intros x Hx. cbn.
      destruct (anchor_add_keys _ _ _ x Hx) as [Hk|(l' & Hk)]; [rewrite Hk; exact E|apply (HF _ Hk)].
Qed.
(* what was anchored stays, the new one is *)
Lemma anchor_add_old m km i k l j : In (k, l) m -> In j l -> exists l', In (k, l') (anchor_add m km i) /\ In j l'.
Proof.
  induction m as [|[k0 l0] m IH]; intros H Hj; [contradiction|]. cbn [anchor_add]. destruct H as [E|H].
  - inversion E; subst. destruct (Qeq_bool k km); [exists (l ++ [i]); split; [left; reflexivity|apply in_or_app; left; exact Hj]|exists l; split; [left; reflexivity|exact Hj]].
  - destruct (Qeq_bool k0 km); [exists l; split; [right; exact H|exact Hj]|]. destruct (IH H Hj) as (l' & H1 & H2). exists l'. split; [right; exact H1|exact H2].
Qed.
Lemma anchor_add_new m km i : exists k l, In (k, l) (anchor_add m km i) /\ (k == km)%Q /\ In i l.
Proof.
  induction m as [|[k0 l0] m IH]; cbn [anchor_add].
  - exists km, [i]. split; [left; reflexivity|]. split; [reflexivity|left; reflexivity].
  - destruct (Qeq_bool k0 km) eqn:E.
    + exists k0, (l0 ++ [i]). split; [left; reflexivity|]. split; [apply Qeq_bool_true, E|]. apply in_or_app. right. left. reflexivity.
    + destruct IH as (k & l & H1 & H2). exists k, l. split; [right; exact H1|exact H2].
Qed.
Lemma anchor_delete_in m km k l : In (k, l) (anchor_delete m km) <-> In (k, l) m /\ ~ (k == km)%Q.
Proof. unfold anchor_delete. rewrite filter_In. cbn. rewrite negb_true_iff, Qeq_bool_false. reflexivity. Qed.
Lemma anchor_delete_distinct m km : distinct m -> distinct (anchor_delete m km).
Proof.
  intros H. induction H as [|x m HF HD IH]; cbn [anchor_delete filter]; [constructor|]. fold (anchor_delete m km).
  destruct (negb (Qeq_bool (fst x) km)); [|exact IH]. constructor; [|exact IH]. rewrite Forall_forall in *. intros y Hy.
  apply HF. unfold anchor_delete in Hy. apply filter_In in Hy. apply Hy.
Qed.
Lemma anchor_delete_none m k : Forall (fun b => ~ (k == fst b)%Q) m -> anchor_delete m k = m.
Proof.
  intros H. induction H as [|x m Hx HF IH]; cbn [anchor_delete filter]; [reflexivity|]. fold (anchor_delete m k). rewrite IH.
  rewrite (proj2 (Qeq_bool_false _ _)); [reflexivity|]. intros E. apply Hx. symmetry. exact E.
Qed.
Lemma anchor_delete_flat m k l : distinct m -> In (k, l) m -> Permutation (flat_map snd m) (l ++ flat_map snd (anchor_delete m k)).
Proof.
  intros H. induction H as [|x m HF HD IH]; intros Hin; [contradiction|]. cbn [anchor_delete filter flat_map]. fold (anchor_delete m k).
  destruct Hin as [->|Hin].
  - cbn [fst snd]. rewrite (proj2 (Qeq_bool_true _ _)) by reflexivity. cbn [negb]. rewrite anchor_delete_none by exact HF. reflexivity.
  - rewrite Forall_forall in HF. specialize (HF _ Hin). cbn in HF. rewrite (proj2 (Qeq_bool_false _ _)) by exact HF. cbn [negb flat_map].
    rewrite (IH Hin). rewrite !app_assoc. apply Permutation_app_tail, Permutation_app_comm.
Qed.
Lemma anchor_get_in m k : anchor_get m k <> [] -> exists k', In (k', anchor_get m k) m /\ (k' == k)%Q.
Proof.
  induction m as [|[k0 l0] m IH]; cbn [anchor_get]; [congruence|]. destruct (Qeq_bool k0 k) eqn:E.
  - intros _. exists k0. split; [left; reflexivity|apply Qeq_bool_true, E].
  - intros H. destruct (IH H) as (k' & H1 & H2). exists k'. split; [right; exact H1|exact H2].
Qed.

(* ---- giving anchors up ---- *)
Definition at_place (n n' : node) : Prop := n_id n' = n_id n /\ n_lat n' = n_lat n /\ n_lon n' = n_lon n.
Lemma drop_anchors_spec km : forall l st st', drop_anchors km l st = Ok st' ->
  a_anchors st' = a_anchors st /\ a_conflicts st' = a_conflicts st /\ a_id st' = a_id st /\ a_signals st' = a_signals st /\
  a_count st' = (a_count st - Z.of_nat (List.length l))%Z /\
  o_ways (a_osm st') = o_ways (a_osm st) /\ o_rels (a_osm st') = o_rels (a_osm st) /\ List.length (o_nodes (a_osm st')) = List.length (o_nodes (a_osm st)) /\
  (forall j n, nth_error (o_nodes (a_osm st)) j = Some n -> exists n', nth_error (o_nodes (a_osm st')) j = Some n' /\ at_place n n') /\
  (forall j, ~ In j l -> nth_error (o_nodes (a_osm st')) j = nth_error (o_nodes (a_osm st)) j) /\
  exists extra, a_missing st' = a_missing st ++ extra /\
    (NoDup l -> forall i n t v, In i l -> nth_error (o_nodes (a_osm st)) i = Some n -> nth_error (n_tags n) 3 = Some (t, v) -> In (mkelem (round3 km) "" v) extra).
Proof.
  induction l as [|i l IH]; intros st st' H; cbn [drop_anchors] in H.
  - inversion H; subst. repeat split; try reflexivity; try (cbn; lia).
    + intros j n Hj. exists n. repeat split. exact Hj.
    + exists []. rewrite app_nil_r. split; [reflexivity|]. intros _ i n t v [].
  - destruct (nth_error (o_nodes (a_osm st)) i) as [n|] eqn:En; [|discriminate].
    destruct (nth_error (n_tags n) 3) as [[t v]|] eqn:Et; [|discriminate].
    destruct (set_nth_some (o_nodes (a_osm st)) i (fun n => mknode (firstn (List.length (n_tags n) - 4) (n_tags n)) (n_id n) (n_lat n) (n_lon n)) n En)
      as (nodes & Es & Hlen & Hi & Hj). rewrite Es in H. apply IH in H. cbn [a_anchors a_conflicts a_id a_signals a_count a_osm a_missing o_ways o_rels o_nodes] in H.
    destruct H as (H1 & H2 & H3 & H4 & H5 & H6 & H7 & H8 & H9 & H10 & extra & H11 & H12).
    repeat split; try assumption; try congruence.
    + rewrite H5. cbn [List.length]. lia.
    + intros j m Hm. destruct (Nat.eq_dec j i) as [->|Hne].
      * destruct (H9 _ _ Hi) as (n' & Hn' & A1 & A2 & A3). exists n'. split; [exact Hn'|]. rewrite En in Hm. inversion Hm; subst. repeat split; assumption.
      * apply H9. rewrite Hj by exact Hne. exact Hm.
    + intros j Hnj. rewrite H10 by (intros Hl; apply Hnj; right; exact Hl). apply Hj. intros ->. apply Hnj. left. reflexivity.
    + exists (mkelem (round3 km) "" v :: extra). split; [rewrite H11, <- app_assoc; reflexivity|].
      intros Hnd j m t' v' [<-|Hin] Hm Hv.
      * left. rewrite En in Hm. inversion Hm; subst. rewrite Et in Hv. inversion Hv. reflexivity.
      * right. inversion Hnd; subst. apply (H12 H14 j m t' v' Hin); [|exact Hv]. rewrite Hj by (intros ->; contradiction). exact Hm.
Qed.
Lemma drop_anchors_ok km : forall l st, NoDup l -> (forall i, In i l -> exists n, nth_error (o_nodes (a_osm st)) i = Some n /\ 4 <= List.length (n_tags n)) ->
  exists st', drop_anchors km l st = Ok st'.
Proof.
  induction l as [|i l IH]; intros st Hn Hl; cbn [drop_anchors]; [eauto|]. inversion Hn; subst.
  destruct (Hl i (or_introl eq_refl)) as (n & En & Ht). rewrite En. destruct (nth_error (n_tags n) 3) as [[t v]|] eqn:Et; [|apply nth_error_None in Et; lia].
  destruct (set_nth_some (o_nodes (a_osm st)) i (fun n => mknode (firstn (List.length (n_tags n) - 4) (n_tags n)) (n_id n) (n_lat n) (n_lon n)) n En)
    as (nodes & Es & Hlen & Hi & Hj). rewrite Es. apply IH; [assumption|]. cbn [a_osm o_nodes]. intros j Hin. rewrite Hj by (intros ->; contradiction). apply Hl. right. exact Hin.
Qed.

(* ---- the number of anchors ---- *)
Definition counted (st : astate) : Prop := distinct (a_anchors st) /\ a_count st = Z.of_nat (anchor_total (a_anchors st)).
Lemma total_add m km i : anchor_total (anchor_add m km i) = S (anchor_total m).
Proof. unfold anchor_total. rewrite (Permutation_length (anchor_add_flat m km i)). reflexivity. Qed.
Lemma find_conflict_in o n km order k l : find_conflict o n km order = Some (k, l) -> In (k, l) order /\ ~ (k == km)%Q /\ existsb (same_place o n) l = true.
Proof.
  induction order as [|[k0 l0] order IH]; cbn [find_conflict]; [discriminate|].
  destruct (negb (Qeq_bool k0 km) && existsb (same_place o n) l0) eqn:E.
  - intros H. inversion H; subst. apply andb_true_iff in E. destruct E as [E1 E2]. apply negb_true_iff, Qeq_bool_false in E1. split; [left; reflexivity|]. auto.
  - intros H. destruct (IH H) as (H1 & H2). split; [right; exact H1|exact H2].
Qed.
Lemma find_conflict_none o n km order : find_conflict o n km order = None -> forall k l i, In (k, l) order -> In i l -> same_place o n i = true -> (k == km)%Q.
Proof.
  induction order as [|[k0 l0] order IH]; cbn [find_conflict]; [contradiction|].
  destruct (negb (Qeq_bool k0 km) && existsb (same_place o n) l0) eqn:E; [discriminate|].
  intros H k l i [Ei|Hin] Hl Hs; [|exact (IH H k l i Hin Hl Hs)]. inversion Ei; subst. apply andb_false_iff in E. destruct E as [E|E].
  - apply negb_false_iff, Qeq_bool_true in E. exact E.
  - exfalso. assert (existsb (same_place o n) l = true) by (apply existsb_exists; eauto). congruence.
Qed.
Lemma insert_counted order n s f st b st' : reorders order -> counted st -> insert_new_hauptsignal (order (a_anchors st)) n s f st = Ok (b, st') ->
  distinct (a_anchors st') /\ (a_count st' + (if b then 1 else 0))%Z = Z.of_nat (anchor_total (a_anchors st')).
Proof.
  intros Ho (Hd & Hc) H. unfold insert_new_hauptsignal in H. destruct (existsb _ (a_conflicts st)); [inversion H; subst; split; [exact Hd|lia]|].
  destruct (find_conflict (a_osm st) n (e_km s) (order (a_anchors st))) as [[k l]|] eqn:Ef.
  - apply bind_Ok in H. destruct H as (st1 & H1 & H). inversion H; subst; clear H. cbn [a_anchors a_count].
    apply drop_anchors_spec in H1. destruct H1 as (E1 & _ & _ & _ & E5 & _). rewrite E1, E5.
    apply find_conflict_in in Ef. destruct Ef as (Hin & _). apply (Permutation_in _ (Ho _)) in Hin.
    split; [apply anchor_delete_distinct, Hd|]. pose proof (Permutation_length (anchor_delete_flat _ _ _ Hd Hin)) as P. rewrite app_length in P.
    unfold anchor_total in *. lia.
  - cbn in H. inversion H; subst; clear H. cbn [a_anchors a_count]. split; [apply anchor_add_distinct, Hd|]. rewrite total_add. lia.
Qed.
Lemma process_counted f : forall l st st', Forall reorders (map fst l) -> counted st -> process_hauptsignal l f st = Ok st' -> counted st'.
Proof.
  induction l as [|[order s] l IH]; intros st st' Ho Hc H; cbn [process_hauptsignal] in H; [inversion H; subst; exact Hc|].
  cbn [map fst] in Ho. inversion Ho as [|? ? Ho1 Ho2]; subst. apply bind_Ok in H. destruct H as ([ok st1] & H1 & H).
  assert (G : counted st1).
  { destruct (positions _ 0 _) as [|i [|]]; [inversion H1; subst; exact Hc| |inversion H1; subst; exact Hc].
    destruct (nth_error (o_nodes (a_osm st)) i) as [n|]; [|discriminate].
    apply bind_Ok in H1. destruct H1 as ([b st2] & H2 & H1). apply insert_counted in H2; [|exact Ho1|exact Hc]. destruct H2 as [G1 G2].
    destruct b; inversion H1; subst; split; cbn [a_anchors a_count]; try exact G1; lia. }
  destruct ok; [inversion H; subst; exact G|]. refine (IH _ _ Ho2 _ H). exact G.
Qed.
Lemma switches_counted : forall l b st st', counted st -> anchor_switches l b st = Ok st' -> counted st'.
Proof.
  induction l as [|s l IH]; intros b st st' Hc H; cbn [anchor_switches] in H; [inversion H; subst; exact Hc|].
  destruct (positions _ 0 _) as [|i ?].
  - refine (IH _ _ _ _ H). destruct b; exact Hc.
  - destruct (nth_error (o_nodes (a_osm st)) i) as [n|]; [|discriminate]. cbn in H. refine (IH _ _ _ _ H).
    destruct Hc as [Hd Hc]. split; cbn [a_anchors a_count]; [apply anchor_add_distinct, Hd|]. rewrite total_add. lia.
Qed.
Lemma partner_counted s : forall nodes i st, counted st -> counted (anchor_partner s nodes i st).
Proof.
  induction nodes as [|n nodes IH]; intros i st Hc; cbn [anchor_partner]; [exact Hc|]. apply IH.
  destruct (_ && _); [|exact Hc]. destruct Hc as [Hd Hc]. split; cbn [a_anchors a_count]; [apply anchor_add_distinct, Hd|]. rewrite total_add. lia.
Qed.
Lemma find_switches_counted k st st' : counted st -> find_and_map_anchor_switches k st = Ok st' -> counted st'.
Proof.
  intros Hc H. unfold find_and_map_anchor_switches in H. apply bind_Ok in H. destruct H as (st1 & H1 & H). inversion H; subst; clear H.
  apply switches_counted in H1; [|exact Hc]. clear -H1. revert st1 H1. induction (k_stem k ++ k_left k ++ k_right k) as [|s l IH]; intros st1 H1; cbn [fold_left]; [exact H1|].
  apply IH, partner_counted, H1.
Qed.
Lemma main_signals_counted fl rl st mf ms st' mf' ms' : Forall reorders (map fst fl) -> Forall reorders (map fst rl) -> counted st ->
  anchor_main_signals fl rl st mf ms = Ok (st', mf', ms') -> counted st'.
Proof.
  intros Ho1 Ho2 Hc H. unfold anchor_main_signals in H. apply bind_Ok in H. destruct H as (st1 & H1 & H). apply bind_Ok in H. destruct H as (st2 & H2 & H). inversion H; subst.
  apply (process_counted _ _ _ _ Ho1) in H1; [|exact Hc]. apply (process_counted _ _ _ _ Ho2) in H2; [exact H2|exact H1].
Qed.
Lemma map_fst_combine {A B} (l : list A) (l' : list B) : List.length l = List.length l' -> map fst (combine l l') = l.
Proof. revert l'. induction l as [|x l IH]; intros [|y l'] H; cbn in *; try congruence. f_equal. apply IH. congruence. Qed.
Lemma map_snd_combine {A B} (l : list A) (l' : list B) : List.length l = List.length l' -> map snd (combine l l') = l'.
Proof. revert l'. induction l as [|x l IH]; intros [|y l'] H; cbn in *; try congruence. f_equal. apply IH. congruence. Qed.
Lemma first_pass_counted : forall l st st', Forall ordered l -> counted (f_state st) -> first_pass l st = Ok st' -> counted (f_state st').
Proof.
  induction l as [|[[k of_f] of_s] l IH]; intros st st' Ho Hc H; cbn [first_pass] in H; [inversion H; subst; exact Hc|].
  inversion Ho as [|? ? Ho1 Ho2]; subst. destruct Ho1 as (O1 & O2 & L1 & L2). apply bind_Ok in H. destruct H as (st1 & H1 & H). refine (IH _ _ Ho2 _ H).
  unfold anchor_knoten in H1. apply bind_Ok in H1. destruct H1 as ([[a mf] ms] & Hm & H1). apply bind_Ok in H1. destruct H1 as (a' & Hs & H1). inversion H1; subst; clear H1.
  cbn [f_state]. apply find_switches_counted in Hs; [exact Hs|]. apply main_signals_counted in Hm; [exact Hm| | |exact Hc]; rewrite map_fst_combine; assumption.
Qed.

(* ---- lines without switches ---- *)
Definition sig_ok (o0 : osm) (st : astate) : Prop :=
  (exists extra, o_nodes (a_osm st) = o_nodes o0 ++ extra) /\ distinct (a_anchors st) /\ NoDup (flat_map snd (a_anchors st)) /\
  (forall i, In i (flat_map snd (a_anchors st)) -> List.length (o_nodes o0) <= i /\ exists n s, nth_error (o_nodes (a_osm st)) i = Some n /\ is_main_signal s n) /\
  consistent (a_osm st) (a_anchors st).
Definition accounted (st : astate) (missing : list elem) (s : elem) : Prop :=
  (exists n, anchored (a_osm st) (a_anchors st) (e_km s) n /\ is_main_signal s n) \/ reported s missing.

Lemma prefix_nth {A} (p : list A) : forall l, (forall j x, nth_error p j = Some x -> nth_error l j = Some x) -> exists q, l = p ++ q.
Proof.
  induction p as [|x p IH]; intros l H; [exists l; reflexivity|]. destruct l as [|y l]; [discriminate (H 0 x eq_refl)|].
  pose proof (H 0 x eq_refl) as E. cbn in E. inversion E; subst. destruct (IH l) as (q & ->); [intros j z Hj; apply (H (S j) z Hj)|]. exists q. reflexivity.
Qed.
Lemma flat_in (m : places_map) k l i : In (k, l) m -> In i l -> In i (flat_map snd m).
Proof. intros H1 H2. apply in_flat_map. exists (k, l). auto. Qed.
Lemma signal_tag3 s n : is_main_signal s n -> nth_error (n_tags n) 3 = Some ("id"%string, e_name s) /\ List.length (n_tags n) = 4.
Proof. intros [E|E]; rewrite E; split; reflexivity. Qed.
Lemma round3_thousandths q : to_thousandths q (round3 q).
Proof.
  split; [exists (Qfloor (q * (1000 # 1) + (1 # 2))); reflexivity|]. unfold round3.
  pose proof (Qfloor_le (q * (1000 # 1) + (1 # 2))) as A. pose proof (Qlt_floor (q * (1000 # 1) + (1 # 2))) as B.
  set (z := Qfloor (q * (1000 # 1) + (1 # 2))) in *. clearbody z.
  assert (E : (z # 1000 == inject_Z z * (1 # 1000))%Q) by (unfold Qeq, Qmult, inject_Z; cbn [Qnum Qden]; lia).
  rewrite inject_Z_plus in B. change (inject_Z 1) with 1%Q in B. rewrite E. split; lra.
Qed.
Lemma round3_eq a b : (a == b)%Q -> round3 a = round3 b.
Proof. intros E. unfold round3. rewrite (Qfloor_comp _ ((b * (1000 # 1) + (1 # 2)))%Q); [reflexivity|]. rewrite E. reflexivity. Qed.
Lemma nodup_app_l {A} (l l' : list A) : NoDup (l ++ l') -> NoDup l.
Proof. induction l as [|x l IH]; cbn; [constructor|]. intros H. inversion H; subst. constructor; [|apply IH; assumption]. intros Hi. apply H2. apply in_or_app. left. exact Hi. Qed.
Lemma nodup_app_disj {A} (l l' : list A) x : NoDup (l ++ l') -> In x l -> ~ In x l'.
Proof. induction l as [|y l IH]; cbn; [tauto|]. intros H [->|Hi]; inversion H; subst; [intros Hj; apply H2, in_or_app; right; exact Hj|apply IH; assumption]. Qed.
Lemma nodup_app_r {A} (l l' : list A) : NoDup (l ++ l') -> NoDup l'.
Proof. induction l as [|x l IH]; cbn; [auto|]. intros H. inversion H; subst. apply IH. assumption. Qed.

Lemma insert_signal o0 order n i s f st : reorders order -> sig_ok o0 st -> nth_error (o_nodes (a_osm st)) i = Some n ->
  exists b st', insert_new_hauptsignal (order (a_anchors st)) n s f st = Ok (b, st') /\ sig_ok o0 st' /\
    (forall x other, accounted st (a_missing st ++ other) x -> accounted st' (a_missing st' ++ other) x) /\
    (b = true -> exists new, anchored (a_osm st') (a_anchors st') (e_km s) new /\ is_main_signal s new /\ n_tags new = element_tags "ms" [if f then falling_tag else rising_tag; name_tag s] /\
       n_lat new = n_lat n /\ n_lon new = n_lon n).
Proof.
  intros Ho Hok Hi. pose proof Hok as ((extra & Ee) & Hd & Hnd & Han & Hcon). unfold insert_new_hauptsignal.
  destruct (existsb (String.eqb (e_name s)) (a_conflicts st)).
  { exists false, st. split; [reflexivity|]. split; [exact Hok|]. split; [auto|discriminate]. }
  destruct (find_conflict (a_osm st) n (e_km s) (order (a_anchors st))) as [[k l]|] eqn:Ef.
  - apply find_conflict_in in Ef. destruct Ef as (Hin & Hne & _). apply (Permutation_in _ (Ho _)) in Hin.
    pose proof (anchor_delete_flat _ _ _ Hd Hin) as P. pose proof (Permutation_NoDup P Hnd) as Hnd'.
    destruct (drop_anchors_ok k l st (nodup_app_l _ _ Hnd')) as (st1 & H1).
    { intros j Hj. destruct (Han j (flat_in _ _ _ _ Hin Hj)) as (_ & m & s' & Hm & Hs). exists m. split; [exact Hm|]. destruct (signal_tag3 _ _ Hs) as [_ ->]. lia. }
    rewrite H1. cbn [bind]. eexists false, _. split; [reflexivity|].
    apply drop_anchors_spec in H1. destruct H1 as (E1 & E2 & E3 & E4 & E5 & E6 & E7 & E8 & E9 & E10 & ex & E11 & E12).
    assert (Hkeep : forall k' l' j, In (k', l') (anchor_delete (a_anchors st) k) -> In j l' -> nth_error (o_nodes (a_osm st1)) j = nth_error (o_nodes (a_osm st)) j).
    { intros k' l' j Hk' Hj. apply E10. intros Hjl. apply (nodup_app_disj _ _ _ Hnd' Hjl). eapply flat_in; eassumption. }
    split; [|split].
    + unfold sig_ok. cbn [a_osm a_anchors]. rewrite E1. split; [|split; [|split; [|split]]].
      * apply prefix_nth. intros j x Hj. rewrite E10; [rewrite Ee, nth_error_app1; [exact Hj|]; apply nth_error_Some; congruence|].
        intros Hjl. destruct (Han j (flat_in _ _ _ _ Hin Hjl)) as (Hge & _). assert (j < List.length (o_nodes o0)) by (apply nth_error_Some; congruence). lia.
      * apply anchor_delete_distinct, Hd.
      * eapply nodup_app_r, Hnd'.
      * intros j Hj. apply in_flat_map in Hj. destruct Hj as ([k' l'] & Hk' & Hj). cbn in Hj. rewrite (Hkeep k' l' j Hk' Hj).
        apply anchor_delete_in in Hk'. apply Han. eapply flat_in; [apply Hk'|exact Hj].
      * assert (G : forall k' m, anchored (a_osm st1) (anchor_delete (a_anchors st) k) k' m -> anchored (a_osm st) (a_anchors st) k' m).
        { intros k' m (k1 & l1 & j & A1 & A2 & A3 & A4). rewrite (Hkeep _ _ _ A1 A3) in A4. apply anchor_delete_in in A1. exists k1, l1, j. tauto. }
        intros k1 k2 n1 n2 A1 A2. apply Hcon; apply G; assumption.
    + intros x other [(m & (k1 & l1 & j & A1 & A2 & A3 & A4) & Hm)|(e & Hin' & Hname)].
      * destruct (Qeq_bool k1 k) eqn:Ek.
        -- apply Qeq_bool_true in Ek. pose proof (distinct_in _ _ _ _ _ Hd A1 Hin Ek) as E. inversion E; subst k1 l1.
           right. cbn [a_missing]. rewrite E11. destruct (signal_tag3 _ _ Hm) as [T3 _].
           exists (mkelem (round3 k) "" (e_name x)). split; [|split; [reflexivity|]].
           ++ apply in_or_app. left. apply in_or_app. right. eapply E12; [eapply nodup_app_l; exact Hnd'|exact A3|exact A4|exact T3].
           ++ right. cbn [e_km]. rewrite (round3_eq _ _ A2). apply round3_thousandths.
        -- apply Qeq_bool_false in Ek. left. exists m. split; [|exact Hm]. cbn [a_osm a_anchors]. rewrite E1. exists k1, l1, j.
           assert (D : In (k1, l1) (anchor_delete (a_anchors st) k)) by (apply anchor_delete_in; auto).
           split; [exact D|]. split; [exact A2|]. split; [exact A3|]. rewrite (Hkeep _ _ _ D A3). exact A4.
      * right. exists e. split; [|exact Hname]. cbn [a_missing]. rewrite E11. apply in_app_or in Hin'. rewrite !in_app_iff. tauto.
    + discriminate.
  - cbn [create_named_directional_node create_directional_node create_simple_node]. 
    set (new := add_tag _ "id" (e_name s)).
    assert (Tnew : n_tags new = element_tags "ms" [if f then falling_tag else rising_tag; name_tag s]) by (unfold new; destruct f; reflexivity).
    assert (Lnew : n_lat new = n_lat n /\ n_lon new = n_lon n) by (split; reflexivity).
    clearbody new. destruct Lnew as [Lat Lon]. eexists true, _. split; [reflexivity|]. cbn [a_osm a_anchors a_missing insert_new_node o_nodes].
    assert (Mnew : is_main_signal s new) by (unfold is_main_signal; rewrite Tnew; destruct f; auto).
    assert (Hlast : nth_error (o_nodes (a_osm st) ++ [new]) (List.length (o_nodes (a_osm st))) = Some new)
      by (rewrite nth_error_app2, Nat.sub_diag by lia; reflexivity).
    assert (Hlow : forall j, In j (flat_map snd (a_anchors st)) -> j < List.length (o_nodes (a_osm st))).
    { intros j Hj. destruct (Han j Hj) as (_ & m & s' & Hm & _). apply nth_error_Some. congruence. }
    assert (Hnew : anchored (insert_new_node (a_osm st) new n) (anchor_add (a_anchors st) (e_km s) (List.length (o_nodes (a_osm st)))) (e_km s) new).
    { destruct (anchor_add_new (a_anchors st) (e_km s) (List.length (o_nodes (a_osm st)))) as (k & l & A1 & A2 & A3). exists k, l, (List.length (o_nodes (a_osm st))). auto. }
    split; [|split].
    + unfold sig_ok. cbn [a_osm a_anchors insert_new_node o_nodes]. split; [|split; [|split; [|split]]].
      * exists (extra ++ [new]). rewrite Ee, app_assoc. reflexivity.
      * apply anchor_add_distinct, Hd.
      * apply (Permutation_NoDup (Permutation_sym (anchor_add_flat _ _ _))). constructor; [|exact Hnd]. intros Hj. apply Hlow in Hj. lia.
      * intros j Hj. apply (Permutation_in _ (anchor_add_flat _ _ _)) in Hj. destruct Hj as [<-|Hj].
        -- split; [rewrite Ee, app_length; lia|]. exists new, s. auto.
        -- destruct (Han j Hj) as (H1 & m & s' & H2 & H3). split; [exact H1|]. exists m, s'. split; [rewrite nth_error_app1 by (apply Hlow, Hj); exact H2|exact H3].
      * assert (G : forall k' m, anchored (insert_new_node (a_osm st) new n) (anchor_add (a_anchors st) (e_km s) (List.length (o_nodes (a_osm st)))) k' m ->
            anchored (a_osm st) (a_anchors st) k' m \/ (k' == e_km s)%Q /\ m = new).
        { intros k' m (k1 & l1 & j & A1 & A2 & A3 & A4). cbn [insert_new_node o_nodes] in A4.
          assert (Hold : forall l0, In (k1, l0) (a_anchors st) -> In j l0 -> anchored (a_osm st) (a_anchors st) k' m).
          { intros l0 H1 H2. exists k1, l0, j. split; [exact H1|]. split; [exact A2|]. split; [exact H2|]. rewrite nth_error_app1 in A4; [exact A4|]. apply Hlow. eapply flat_in; eassumption. }
          apply anchor_add_in in A1. destruct A1 as [[A1 _]|[[A1 [[-> _]|(l0 & A5 & ->)]]|A1]]; [left; exact (Hold _ A1 A3)| | |left; exact (Hold _ A1 A3)].
          - destruct A3 as [<-|[]]. right. split; [rewrite <- A2; exact A1|]. congruence.
          - apply in_app_or in A3. destruct A3 as [A3|[<-|[]]]; [left; exact (Hold _ A5 A3)|]. right. split; [rewrite <- A2; exact A1|]. congruence. }
        assert (Hc : forall k' m, anchored (a_osm st) (a_anchors st) k' m -> n_lat m = n_lat n -> n_lon m = n_lon n -> (k' == e_km s)%Q).
        { intros k' m (k1 & l1 & j & A1 & A2 & A3 & A4) L1 L2. rewrite <- A2. refine (find_conflict_none _ _ _ _ Ef k1 l1 j _ A3 _).
          - apply (Permutation_in _ (Permutation_sym (Ho _))), A1.
          - unfold same_place. rewrite A4, L1, L2, !String.eqb_refl. reflexivity. }
        intros k1 k2 n1 n2 A1 A2 L1 L2. destruct (G _ _ A1) as [B1|[B1 ->]], (G _ _ A2) as [B2|[B2 ->]].
        -- exact (Hcon _ _ _ _ B1 B2 L1 L2).
        -- rewrite B2. apply (Hc _ _ B1); congruence.
        -- rewrite B1. symmetry. apply (Hc _ _ B2); congruence.
        -- rewrite B1, B2. reflexivity.
    + intros x other [(m & (k1 & l1 & j & A1 & A2 & A3 & A4) & Hm)|Hr]; [left|right; exact Hr].
      exists m. split; [|exact Hm]. destruct (anchor_add_old (a_anchors st) (e_km s) (List.length (o_nodes (a_osm st))) _ _ _ A1 A3) as (l' & B1 & B2).
      exists k1, l', j. split; [exact B1|]. split; [exact A2|]. split; [exact B2|]. cbn [a_osm insert_new_node o_nodes]. rewrite nth_error_app1; [exact A4|]. apply nth_error_Some. congruence.
    + intros _. exists new. auto.
Qed.

Lemma reported_in s l : In s l -> reported s l.
Proof. intros H. exists s. auto. Qed.
Lemma process_signals o0 f : forall l st, Forall reorders (map fst l) -> sig_ok o0 st ->
  exists st', process_hauptsignal l f st = Ok st' /\ sig_ok o0 st' /\
    (forall x other, accounted st (a_missing st ++ other) x -> accounted st' (a_missing st' ++ other) x) /\
    (List.length l <= 1 -> forall s, In s (map snd l) -> accounted st' (a_missing st') s).
Proof.
  induction l as [|[order s] l IH]; intros st Ho Hok; cbn [process_hauptsignal].
  { exists st. split; [reflexivity|]. split; [exact Hok|]. split; [auto|]. intros _ s []. }
  cbn [map fst] in Ho. inversion Ho as [|? ? Ho1 Ho2]; subst.
  assert (Step : exists ok st1,
     match positions (signal_matches (e_name s)) 0 (o_nodes (a_osm st)) with
        | [i] => match nth_error (o_nodes (a_osm st)) i with None => UB | Some n =>
                   do ' (ok, st) <- insert_new_hauptsignal (order (a_anchors st)) n s f st;
                   if ok : bool
                   then Ok (true, mkas (a_osm st) (a_anchors st) (a_missing st) (a_conflicts st) (a_count st + 1) (a_id st)
                              (put_place (a_signals st) (n_id n) (GenOsmModel.mkplace (e_name s) (n_lat n) (n_lon n))))
                   else Ok (false, st)
                 end
        | _ => Ok (false, st)
        end = Ok (ok, st1) /\ sig_ok o0 st1 /\ (forall x other, accounted st (a_missing st ++ other) x -> accounted st1 (a_missing st1 ++ other) x) /\
        (ok = true -> accounted st1 (a_missing st1) s)).
  { assert (Hskip : exists ok st1, Ok (false, st) = Ok (ok, st1) /\ sig_ok o0 st1 /\ (forall x other, accounted st (a_missing st ++ other) x -> accounted st1 (a_missing st1 ++ other) x) /\
        (ok = true -> accounted st1 (a_missing st1) s)) by (exists false, st; split; [reflexivity|split; [exact Hok|split; [auto|discriminate]]]).
    pose proof (positions_spec (signal_matches (e_name s)) (o_nodes (a_osm st)) 0) as Hp.
    destruct (positions (signal_matches (e_name s)) 0 (o_nodes (a_osm st))) as [|i [|]]; [exact Hskip| |exact Hskip].
    destruct (proj1 (Hp i) (or_introl eq_refl)) as (n & _ & Hn & _). rewrite Nat.sub_0_r in Hn. rewrite Hn.
    destruct (insert_signal o0 order n i s f st Ho1 Hok Hn) as (b & st1 & H1 & H2 & H3 & H4). rewrite H1. cbn [bind]. destruct b.
    - eexists true, _. split; [reflexivity|]. split; [exact H2|]. split; [exact H3|]. intros _. left. destruct (H4 eq_refl) as (new & A & B & _). exists new. auto.
    - exists false, st1. split; [reflexivity|]. split; [exact H2|]. split; [exact H3|discriminate]. }
  destruct Step as (ok & st1 & E & H1 & H2 & H3). rewrite E. cbn [bind]. destruct ok.
  - exists st1. split; [reflexivity|]. split; [exact H1|]. split; [exact H2|]. cbn [List.length map snd]. intros Hl x [<-|Hx]; [apply H3; reflexivity|].
    destruct l; [contradiction|cbn in Hl; lia].
  - destruct (IH (mkas (a_osm st1) (a_anchors st1) (a_missing st1 ++ [s]) (e_name s :: a_conflicts st1) (a_count st1) (a_id st1) (a_signals st1)) Ho2 H1) as (st' & P1 & P2 & P3 & _).
    exists st'. split; [exact P1|]. split; [exact P2|].
    assert (Hext : forall x other, accounted st1 (a_missing st1 ++ other) x -> accounted st' (a_missing st' ++ other) x).
    { intros x other [A|(e & A & B)]; apply P3; [left; exact A|right]. exists e. split; [|exact B]. cbn [a_missing]. rewrite !in_app_iff in *. tauto. }
    split; [intros x other A; apply Hext, H2, A|]. cbn [List.length map snd]. intros Hl x [<-|Hx]; [|destruct l; [contradiction|cbn in Hl; lia]].
    rewrite <- (app_nil_r (a_missing st')). apply P3. right. apply reported_in. cbn [a_missing]. rewrite !in_app_iff. cbn. tauto.
Qed.

Lemma accounted_perm st l l' x : (forall e, In e l -> In e l') -> accounted st l x -> accounted st l' x.
Proof. intros H [A|(e & A & B)]; [left; exact A|right; exists e; split; [apply H, A|exact B]]. Qed.
Lemma switches_none k st : no_switches k -> find_and_map_anchor_switches k st = Ok st.
Proof. intros (E1 & E2 & E3 & E4). unfold find_and_map_anchor_switches. rewrite E1, E2, E3, E4. reflexivity. Qed.

Lemma knoten_signals o0 x st : ordered x -> no_switches (knoten_of x) -> sig_ok o0 (f_state st) ->
  exists st', anchor_knoten x st = Ok st' /\ sig_ok o0 (f_state st') /\
    (forall s, accounted (f_state st) (f_falling st ++ f_rising st) s -> accounted (f_state st') (f_falling st' ++ f_rising st') s) /\
    (one_signal (knoten_of x) -> forall s, In s (k_main_f (knoten_of x) ++ k_main_s (knoten_of x)) -> accounted (f_state st') (f_falling st' ++ f_rising st') s).
Proof.
  destruct x as [[k of_f] of_s]. unfold knoten_of. cbn [fst]. intros (O1 & O2 & L1 & L2) Hk Hok. unfold anchor_knoten, anchor_main_signals.
  destruct (process_signals o0 true (combine of_f (k_main_f k)) (mkas (a_osm (f_state st)) (a_anchors (f_state st)) (f_falling st) [] (a_count (f_state st)) (a_id (f_state st)) (a_signals (f_state st))))
    as (st1 & P1 & P2 & P3 & P4); [rewrite map_fst_combine; assumption|exact Hok|].
  rewrite P1. cbn [bind].
  destruct (process_signals o0 false (combine of_s (k_main_s k)) (mkas (a_osm st1) (a_anchors st1) (f_rising st) (a_conflicts st1) (a_count st1) (a_id st1) (a_signals st1)))
    as (st2 & Q1 & Q2 & Q3 & Q4); [rewrite map_fst_combine; assumption|exact P2|].
  rewrite Q1. cbn [bind]. rewrite (switches_none k _ Hk). cbn [bind]. eexists. split; [reflexivity|]. cbn [f_state f_falling f_rising].
  split; [exact Q2|].
  assert (Two : forall s, accounted st1 (a_missing st1 ++ f_rising st) s -> accounted (with_missing st2 (f_switches st)) (a_missing st1 ++ a_missing st2) s).
  { intros s A. assert (A' : accounted (mkas (a_osm st1) (a_anchors st1) (f_rising st) (a_conflicts st1) (a_count st1) (a_id st1) (a_signals st1)) (f_rising st ++ a_missing st1) s).
    { refine (accounted_perm st1 _ _ _ _ A). intros e. rewrite !in_app_iff. tauto. }
    apply Q3 in A'. refine (accounted_perm st2 _ _ _ _ A'). intros e. rewrite !in_app_iff. tauto. }
  split.
  - intros s A. apply Two. exact (P3 s (f_rising st) A).
  - intros (S1 & S2) s Hs. apply in_app_or in Hs. destruct Hs as [Hs|Hs].
    + apply Two. refine (accounted_perm st1 (a_missing st1) _ _ _ (P4 _ s _)); [intros e He; apply in_or_app; left; exact He| |].
      * rewrite combine_length. lia.
      * rewrite map_snd_combine by exact L1. exact Hs.
    + refine (accounted_perm st2 (a_missing st2) _ _ _ (Q4 _ s _)); [intros e He; apply in_or_app; right; exact He| |].
      * rewrite combine_length. lia.
      * rewrite map_snd_combine by exact L2. exact Hs.
Qed.
Lemma first_pass_signals o0 : forall l st, Forall ordered l -> Forall (fun x => no_switches (knoten_of x)) l -> sig_ok o0 (f_state st) ->
  exists st', first_pass l st = Ok st' /\ sig_ok o0 (f_state st') /\
    (forall s, accounted (f_state st) (f_falling st ++ f_rising st) s -> accounted (f_state st') (f_falling st' ++ f_rising st') s) /\
    (forall x s, In x l -> one_signal (knoten_of x) -> In s (k_main_f (knoten_of x) ++ k_main_s (knoten_of x)) -> accounted (f_state st') (f_falling st' ++ f_rising st') s).
Proof.
  induction l as [|x l IH]; intros st Ho Hk Hok; cbn [first_pass].
  - exists st. split; [reflexivity|]. split; [exact Hok|]. split; [auto|]. intros x s [].
  - inversion Ho; subst. inversion Hk; subst. destruct (knoten_signals o0 x st) as (st1 & K1 & K2 & K3 & K4); try assumption.
    rewrite K1. cbn [bind]. destruct (IH st1) as (st' & I1 & I2 & I3 & I4); try assumption.
    exists st'. split; [exact I1|]. split; [exact I2|]. split; [intros s A; apply I3, K3, A|].
    intros y s [<-|Hy] Ho1 Hs; [apply I3, K4; assumption|exact (I4 y s Hy Ho1 Hs)].
Qed.
Lemma first_state_ok o c sig : sig_ok o (f_state (first_state o c sig)) /\ counted (f_state (first_state o c sig)).
Proof.
  split; [|split; [constructor|reflexivity]]. unfold sig_ok, first_state. cbn. split; [exists []; rewrite app_nil_r; reflexivity|].
  split; [constructor|]. split; [constructor|]. split; [contradiction|]. intros k k' n n' (? & ? & ? & [] & _).
Qed.
