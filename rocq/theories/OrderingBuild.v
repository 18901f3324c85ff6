(* Proofs about the construction of the ordering graph. *)
From Verif Require Import Base GraphModel GraphProofs GraphBfs OrderingModel OrderingProofs OrderingSpec.
From Coq Require Import Permutation Sorting.Sorted.

(* ---- generated nodes ---- *)

Definition node_of (i : nat) (u : route_use) : pnode :=
  mkpn (u_ir u) (u_train u) (if Nat.eqb (u_pos u) 0 then [] else [i - 1])
       (if u_last u then [] else [i + 1]) (u_start u).

Fixpoint imap (i : nat) (us : list route_use) : list pnode :=
  match us with
  | [] => []
  | u :: us => node_of i u :: imap (S i) us
  end.

Lemma imap_app us1 : forall i us2, imap i (us1 ++ us2) = imap i us1 ++ imap (i + length us1) us2.
Proof.
  induction us1 as [|u us1 IH]; intros i us2; cbn [app imap length].
  - rewrite Nat.add_0_r. reflexivity.
  - rewrite IH. replace (S i + length us1) with (i + S (length us1)) by lia. reflexivity.
Qed.

Lemma imap_length us : forall i, length (imap i us) = length us.
Proof. induction us as [|u us IH]; intros i; cbn; [reflexivity|]. rewrite IH. reflexivity. Qed.

Lemma imap_nth us : forall i k, nth_error (imap i us) k = option_map (node_of (i + k)) (nth_error us k).
Proof.
  induction us as [|u us IH]; intros i [|k]; cbn [imap nth_error option_map]; try reflexivity.
  - rewrite Nat.add_0_r. reflexivity.
  - rewrite IH. replace (S i + k) with (i + S k) by lia. reflexivity.
Qed.

Lemma uses_from_length id a : forall path pos starts, length starts = length path ->
  length (uses_from id a pos path starts) = length path.
Proof.
  induction path as [|ir path IH]; intros pos [|t starts] H; cbn in *; try discriminate; [reflexivity|].
  rewrite IH by lia. reflexivity.
Qed.

Lemma mid_nodes_ok id a : forall arrivals path cur pos,
  length path = length arrivals -> arrivals <> [] -> pos > 0 ->
  mid_nodes id a cur path arrivals ++
    [mkpn (last path 0) id [cur + length path - 2] [] (add32 a (last arrivals 0%N))] =
  imap cur (uses_from id a pos path arrivals).
Proof.
  induction arrivals as [|t arrivals IH]; intros path cur pos L Ne P; [congruence|].
  destruct path as [|ir path]; [discriminate|].
  destruct arrivals as [|t2 arrivals].
  - destruct path as [|? ?]; [|discriminate]. cbn. unfold node_of. cbn.
    destruct pos; [lia|]. cbn. replace (cur + 1 - 2) with (cur - 1) by lia. reflexivity.
  - destruct path as [|ir2 path]; [discriminate|].
    change (uses_from id a pos (ir :: ir2 :: path) (t :: t2 :: arrivals))
      with (mkU id a pos ir (add32 a t) false :: uses_from id a (S pos) (ir2 :: path) (t2 :: arrivals)).
    change (mid_nodes id a cur (ir :: ir2 :: path) (t :: t2 :: arrivals))
      with (mkpn ir id [cur - 1] [cur + 1] (add32 a t) :: mid_nodes id a (S cur) (ir2 :: path) (t2 :: arrivals)).
    cbn [app]. set (us := uses_from id a (S pos) (ir2 :: path) (t2 :: arrivals)). cbn [imap]. subst us. f_equal.
    + unfold node_of. cbn [u_ir u_train u_pos u_last u_start]. destruct pos; [lia|]. reflexivity.
    + rewrite <- (IH (ir2 :: path) (S cur) (S pos)); [|cbn in *; lia|discriminate|lia].
      f_equal. f_equal. replace (S cur + length (ir2 :: path) - 2) with (cur + length (ir :: ir2 :: path) - 2) by (cbn [length]; lia).
      reflexivity.
Qed.

Lemma trip_nodes_gen_ok t a cur : length (ot_path t) = S (length (ot_arrivals t)) -> ot_arrivals t <> [] ->
  trip_nodes_gen t a cur = imap cur (trip_uses t a).
Proof.
  intros L Ne. unfold trip_nodes_gen, trip_uses.
  destruct (ot_path t) as [|ir path] eqn:Ep; [discriminate|]. cbn [length] in L. injection L as L.
  destruct (ot_arrivals t) as [|t1 arr] eqn:Ea; [congruence|]. rewrite <- Ea in *. clear Ea t1 arr.
  cbn [hd tl]. cbn [uses_from imap]. f_equal.
  - unfold node_of. cbn. destruct path; [cbn in L; destruct (ot_arrivals t); [congruence|discriminate]|]. reflexivity.
  - rewrite <- (mid_nodes_ok (ot_id t) a (ot_arrivals t) path (S cur) 1 L Ne) by lia.
    replace (S cur) with (cur + 1) by lia. f_equal. f_equal.
    destruct path as [|ir2 path]; [cbn in L; destruct (ot_arrivals t); [congruence|discriminate]|].
    replace (cur + length (ir :: ir2 :: path) - 2) with (cur + 1 + length (ir2 :: path) - 2) by (cbn [length]; lia).
    reflexivity.
Qed.

Lemma trip_uses_length t a : length (ot_path t) = S (length (ot_arrivals t)) -> ot_arrivals t <> [] ->
  length (trip_uses t a) = length (ot_path t).
Proof.
  intros L Ne. unfold trip_uses. destruct (ot_arrivals t) as [|x l] eqn:E; [congruence|]. rewrite <- E in *.
  apply uses_from_length. cbn. lia.
Qed.

(* the index of the trips: an entry spans the usages of a trip with its key *)
Definition tindex : Type := list ((nat * N) * (nat * nat)).
Definition entry_ok (P : otrain -> Prop) (us : list route_use) (e : (nat * N) * (nat * nat)) : Prop :=
  exists t, P t /\ fst (fst e) = ot_id t /\ In (snd (fst e)) (ot_anchors t) /\ ot_arrivals t <> [] /\
    fst (snd e) <= snd (snd e) <= length us /\
    map (nth_error us) (seq (fst (snd e)) (snd (snd e) - fst (snd e))) = map Some (trip_uses t (snd (fst e))).
Definition index_ok (P : otrain -> Prop) (us : list route_use) (m : tindex) : Prop :=
  forall e, In e m -> entry_ok P us e.
Definition has_key (m : tindex) (k : nat * N) : Prop := exists v, In (k, v) m.

Lemma trip_eqb_eq a b : trip_eqb a b = true <-> a = b.
Proof.
  unfold trip_eqb. rewrite andb_true_iff, Nat.eqb_eq, N.eqb_eq. destruct a, b; cbn. split; [intros [-> ->]; reflexivity|intros [= -> ->]; auto].
Qed.

Lemma emplace_key m k v : has_key (emplace m k v) k.
Proof.
  unfold emplace. destruct (existsb _ m) eqn:E.
  - apply existsb_exists in E. destruct E as [[k' v'] [H1 H2]]. cbn in H2. apply trip_eqb_eq in H2. subst k'. exists v'. exact H1.
  - exists v. apply in_or_app. right. left. reflexivity.
Qed.
Lemma emplace_incl m k v e : In e m -> In e (emplace m k v).
Proof. intros H. unfold emplace. destruct (existsb _ m); [exact H|]. apply in_or_app. left. exact H. Qed.
Lemma emplace_inv m k v e : In e (emplace m k v) -> In e m \/ e = (k, v).
Proof.
  unfold emplace. destruct (existsb _ m); [tauto|]. rewrite in_app_iff. intros [H|[H|[]]]; auto.
Qed.

Lemma map_nth_seq (us us2 : list route_use) : forall n x, x + n <= length us ->
  map (nth_error (us ++ us2)) (seq x n) = map (nth_error us) (seq x n).
Proof.
  induction n as [|n IH]; intros x H; cbn [seq map]; [reflexivity|]. rewrite IH by lia.
  rewrite nth_error_app1 by lia. reflexivity.
Qed.

Lemma map_nth_all (us : list route_use) : forall pre, map (nth_error (pre ++ us)) (seq (length pre) (length us)) = map Some us.
Proof.
  induction us as [|u us IH]; intros pre; cbn [length seq map]; [reflexivity|]. f_equal.
  - rewrite nth_error_app2 by lia. rewrite Nat.sub_diag. reflexivity.
  - specialize (IH (pre ++ [u])). rewrite app_length in IH. cbn [length] in IH. rewrite <- app_assoc in IH. cbn [app] in IH.
    replace (length pre + 1) with (S (length pre)) in IH by lia. exact IH.
Qed.

Lemma entry_ok_app P us us2 e : entry_ok P us e -> entry_ok P (us ++ us2) e.
Proof.
  intros [t [A [B [C [D [F G]]]]]]. exists t. repeat (split; [assumption|]). split.
  - rewrite app_length. lia.
  - rewrite map_nth_seq by lia. exact G.
Qed.

Lemma gen_anchors_ok t (P : otrain -> Prop) : length (ot_path t) = S (length (ot_arrivals t)) -> P t ->
  forall anchors us (m : tindex), incl anchors (ot_anchors t) -> index_ok P us m -> exists m',
  gen_anchors t anchors (imap 0 us, m) = Ok (imap 0 (us ++ flat_map (trip_uses t) anchors), m') /\
  index_ok P (us ++ flat_map (trip_uses t) anchors) m' /\ incl m m' /\
  (ot_arrivals t <> [] -> forall a, In a anchors -> has_key m' (ot_id t, a)).
Proof.
  intros L Pt. induction anchors as [|a anchors IH]; intros us m I K; cbn [gen_anchors flat_map].
  - exists m. rewrite app_nil_r. split; [reflexivity|]. split; [exact K|]. split; [apply incl_refl|intros _ a []].
  - rewrite sassert_true by (apply Nat.eqb_eq; lia). cbn [bind].
    destruct (ot_arrivals t) as [|x l] eqn:E.
    + exists m. assert (flat_map (trip_uses t) anchors = []) as ->.
      { clear - E. induction anchors as [|b anchors IH]; [reflexivity|]. cbn. rewrite IH. unfold trip_uses. rewrite E. reflexivity. }
      unfold trip_uses. rewrite E. cbn. rewrite app_nil_r. split; [reflexivity|]. split; [exact K|].
      split; [apply incl_refl|]. intros Ne. congruence.
    + assert (Ne : ot_arrivals t <> []) by (rewrite E; discriminate). cbn [fst snd]. rewrite imap_length.
      rewrite <- E in L. rewrite (trip_nodes_gen_ok t a _ L Ne).
      replace (imap 0 us ++ imap (length us) (trip_uses t a)) with (imap 0 (us ++ trip_uses t a))
        by (rewrite imap_app; reflexivity).
      set (m1 := emplace m (ot_id t, a) (length us, length us + length (ot_path t))).
      assert (K1 : index_ok P (us ++ trip_uses t a) m1).
      { intros e He. apply emplace_inv in He. destruct He as [He| ->]; [apply entry_ok_app, K, He|].
        exists t. cbn [fst snd]. split; [exact Pt|]. split; [reflexivity|]. split; [apply I; left; reflexivity|].
        split; [exact Ne|]. rewrite <- (trip_uses_length t a L Ne). split; [rewrite app_length; lia|].
        replace (length us + length (trip_uses t a) - length us) with (length (trip_uses t a)) by lia. apply map_nth_all. }
      destruct (IH (us ++ trip_uses t a) m1) as [m' [E' [K' [I' H']]]].
      { intros b Hb. apply I. right. exact Hb. }
      { exact K1. }
      exists m'. rewrite app_assoc. split; [exact E'|]. split; [exact K'|].
      split; [intros e He; apply I', emplace_incl, He|]. intros Nn b [<-|Hb]; [|apply H'; [congruence|exact Hb]].
      destruct (emplace_key m (ot_id t, a) (length us, length us + length (ot_path t))) as [v Hv]. exists v. apply I', Hv.
Qed.

Lemma gen_trains_ok flt (P : otrain -> Prop) : forall ts us (m : tindex), well_formed flt ts ->
  (forall t, In t ts -> selected flt t = true -> P t) -> index_ok P us m -> exists m',
  gen_trains flt ts (imap 0 us, m) = Ok (imap 0 (us ++ all_uses flt ts), m') /\
  index_ok P (us ++ all_uses flt ts) m' /\ incl m m' /\
  (forall t a, In t ts -> selected flt t = true -> ot_arrivals t <> [] -> In a (ot_anchors t) -> has_key m' (ot_id t, a)).
Proof.
  induction ts as [|t ts IH]; intros us m W HP K; cbn [gen_trains].
  - exists m. unfold all_uses. cbn. rewrite app_nil_r. split; [reflexivity|]. split; [exact K|]. split; [apply incl_refl|intros t a []].
  - assert (W' : well_formed flt ts) by (intros x Hx; apply W; right; exact Hx).
    assert (HP' : forall t, In t ts -> selected flt t = true -> P t) by (intros x Hx; apply HP; right; exact Hx).
    unfold all_uses. cbn [filter].
    assert (Es : negb (match flt with [] => true | _ => false end) && negb (existsb (Nat.eqb (ot_id t)) flt)
                 = negb (selected flt t)).
    { unfold selected. destruct flt; reflexivity. }
    rewrite Es. destruct (selected flt t) eqn:Hs; cbn [negb].
    + cbn [flat_map]. destruct (ot_anchors t) as [|a anchors] eqn:Ea.
      * cbn [gen_anchors bind flat_map app]. destruct (IH us m W' HP' K) as [m' [A [B [C D]]]]. exists m'.
        split; [exact A|]. split; [exact B|]. split; [exact C|].
        intros x b [<-|Hx] H1 H2 H3; [rewrite Ea in H3; destruct H3|apply (D x b Hx H1 H2 H3)].
      * assert (L : length (ot_path t) = S (length (ot_arrivals t))).
        { apply (W t); [left; reflexivity|exact Hs|rewrite Ea; discriminate]. }
        rewrite <- Ea.
        destruct (gen_anchors_ok t P L (HP t (or_introl eq_refl) Hs) (ot_anchors t) us m (incl_refl _) K) as [m1 [E1 [K1 [I1 H1]]]].
        rewrite E1. cbn [bind].
        destruct (IH (us ++ flat_map (trip_uses t) (ot_anchors t)) m1 W' HP' K1) as [m2 [E2 [K2 [I2 H2]]]]. exists m2.
        unfold all_uses in *. rewrite app_assoc. split; [exact E2|]. split; [exact K2|].
        split; [eapply incl_tran; eassumption|].
        intros x b [<-|Hx] Hx1 Hx2 Hx3; [|apply (H2 x b Hx Hx1 Hx2 Hx3)].
        destruct (H1 Hx2 b Hx3) as [v Hv]. exists v. apply I2, Hv.
    + destruct (IH us m W' HP' K) as [m' [A [B [C D]]]]. exists m'.
      split; [exact A|]. split; [exact B|]. split; [exact C|].
      intros x b [<-|Hx] H1 H2 H3; [congruence|apply (D x b Hx H1 H2 H3)].
Qed.

(* consecutive usages of a trip follow each other in the list *)
Definition linked (us : list route_use) : Prop :=
  (forall i u, nth_error us i = Some u -> u_last u = false ->
     exists u', nth_error us (S i) = Some u' /\ u_pos u' = S (u_pos u) /\
                u_train u' = u_train u /\ u_anchor u' = u_anchor u) /\
  (forall i u, nth_error us i = Some u -> u_pos u <> 0 ->
     exists j u', i = S j /\ nth_error us j = Some u' /\ u_last u' = false /\ u_pos u = S (u_pos u')).

Lemma linked_app us1 us2 : linked us1 -> linked us2 -> linked (us1 ++ us2).
Proof.
  intros [A1 B1] [A2 B2]. split.
  - intros i u H Hl. destruct (Nat.ltb_spec i (length us1)) as [Li|Li].
    + rewrite nth_error_app1 in H by exact Li. destruct (A1 i u H Hl) as [u' [E R]]. exists u'. split; [|exact R].
      rewrite nth_error_app1; [exact E|]. apply nth_error_Some. congruence.
    + rewrite nth_error_app2 in H by exact Li. destruct (A2 _ u H Hl) as [u' [E R]]. exists u'. split; [|exact R].
      rewrite nth_error_app2 by lia. replace (S i - length us1) with (S (i - length us1)) by lia. exact E.
  - intros i u H Hp. destruct (Nat.ltb_spec i (length us1)) as [Li|Li].
    + rewrite nth_error_app1 in H by exact Li. destruct (B1 i u H Hp) as [j [u' [-> [E R]]]].
      exists j, u'. split; [reflexivity|]. split; [|exact R]. rewrite nth_error_app1 by lia. exact E.
    + rewrite nth_error_app2 in H by exact Li. destruct (B2 _ u H Hp) as [j [u' [Ej [E R]]]].
      exists (length us1 + j), u'. split; [lia|]. split; [|exact R]. rewrite nth_error_app2 by lia.
      replace (length us1 + j - length us1) with j by lia. exact E.
Qed.

Lemma linked_nil : linked [].
Proof. split; intros [|i] u H; discriminate. Qed.

Lemma uses_from_nth id a : forall path starts pos k u, nth_error (uses_from id a pos path starts) k = Some u ->
  u_train u = id /\ u_anchor u = a /\ u_pos u = pos + k /\ nth_error path k = Some (u_ir u) /\
  (exists s, nth_error starts k = Some s /\ u_start u = add32 a s) /\ u_last u = Nat.eqb (S k) (length path).
Proof.
  induction path as [|ir path IH]; intros starts pos k u H; [destruct k; discriminate|].
  destruct starts as [|s starts]; [destruct k; discriminate|]. cbn [uses_from] in H. destruct k as [|k]; cbn [nth_error] in *.
  - injection H as <-. cbn. repeat split; [lia|exists s; auto|]. destruct path; reflexivity.
  - destruct (IH _ _ _ _ H) as [A [B [C [D [E F]]]]]. repeat split; try assumption; try lia; exact F.
Qed.

Lemma linked_trip t a : length (ot_path t) = S (length (ot_arrivals t)) -> linked (trip_uses t a).
Proof.
  intros L. unfold trip_uses. destruct (ot_arrivals t) as [|x l] eqn:E; [apply linked_nil|]. rewrite <- E in *. clear E x l.
  set (us := uses_from (ot_id t) a 0 (ot_path t) (ot_first_departure t :: ot_arrivals t)).
  assert (Lu : length us = length (ot_path t)) by (apply uses_from_length; cbn; lia).
  assert (Nt : forall k, k < length us -> exists u, nth_error us k = Some u).
  { intros k Hk. destruct (nth_error us k) eqn:Ek; [eauto|]. apply nth_error_None in Ek. lia. }
  split.
  - intros i u H Hl. assert (Li : i < length us) by (apply nth_error_Some; congruence).
    destruct (uses_from_nth _ _ _ _ _ _ _ H) as [A [B [C [_ [_ F]]]]]. rewrite Hl in F. symmetry in F. apply Nat.eqb_neq in F.
    destruct (Nt (S i)) as [u' Hu]; [lia|]. exists u'. split; [exact Hu|].
    destruct (uses_from_nth _ _ _ _ _ _ _ Hu) as [A' [B' [C' _]]]. split; [lia|]. split; congruence.
  - intros i u H Hp. assert (Li : i < length us) by (apply nth_error_Some; congruence).
    destruct (uses_from_nth _ _ _ _ _ _ _ H) as [A [B [C [_ [_ F]]]]].
    destruct i as [|i]; [lia|]. destruct (Nt i) as [u' Hu]; [lia|]. exists i, u'. split; [reflexivity|]. split; [exact Hu|].
    destruct (uses_from_nth _ _ _ _ _ _ _ Hu) as [A' [B' [C' [_ [_ F']]]]]. split; [|lia]. rewrite F'. apply Nat.eqb_neq. lia.
Qed.

Lemma linked_all flt ts : well_formed flt ts -> linked (all_uses flt ts).
Proof.
  intros W. unfold all_uses.
  assert (G : forall l, (forall t, In t l -> In t ts /\ selected flt t = true) ->
    linked (flat_map (fun t => flat_map (trip_uses t) (ot_anchors t)) l)).
  { induction l as [|t l IH]; intros H; [apply linked_nil|]. cbn [flat_map]. apply linked_app.
    - destruct (H t (or_introl eq_refl)) as [I S]. specialize (W t I S). destruct (ot_anchors t) as [|a anchors]; [apply linked_nil|].
      assert (L := W ltac:(discriminate)). clear - L. induction (a :: anchors) as [|b l IH]; [apply linked_nil|].
      cbn [flat_map]. apply linked_app; [apply linked_trip, L|exact IH].
    - apply IH. intros x Hx. apply H. right. exact Hx. }
  apply G. intros t Ht. apply filter_In in Ht. exact Ht.
Qed.

(* ---- edges ---- *)

Lemma insert_uniq_In x l y : In y (insert_uniq x l) <-> y = x \/ In y l.
Proof.
  induction l as [|z l IH]; cbn [insert_uniq].
  - cbn. intuition congruence.
  - destruct (Nat.ltb_spec x z); [cbn; intuition congruence|].
    destruct (Nat.eqb_spec x z) as [->|]; [cbn; intuition congruence|]. cbn [In]. rewrite IH. cbn. intuition congruence.
Qed.

Lemma erase_duplicates_In l x : In x (erase_duplicates l) <-> In x l.
Proof.
  unfold erase_duplicates. induction l as [|y l IH]; [reflexivity|]. cbn [fold_right In]. rewrite insert_uniq_In, IH.
  intuition congruence.
Qed.

Lemma insert_uniq_sorted x l : StronglySorted lt l -> StronglySorted lt (insert_uniq x l).
Proof.
  induction 1 as [|y l S IH F]; cbn [insert_uniq]; [constructor; constructor|].
  destruct (Nat.ltb_spec x y) as [H|H].
  - constructor; [constructor; assumption|]. constructor; [exact H|]. rewrite Forall_forall in *. intros z Hz. specialize (F z Hz). lia.
  - destruct (Nat.eqb_spec x y) as [->|N]; [constructor; assumption|]. constructor; [exact IH|].
    rewrite Forall_forall in *. intros z Hz. apply insert_uniq_In in Hz. destruct Hz as [->|Hz]; [lia|apply F, Hz].
Qed.

Lemma erase_duplicates_sorted l : StronglySorted lt (erase_duplicates l).
Proof. unfold erase_duplicates. induction l as [|x l IH]; cbn [fold_right]; [constructor|apply insert_uniq_sorted, IH]. Qed.

Lemma pairwise_split {A} (l : list A) x y : In (x, y) (pairwise l) <-> exists l1 l2, l = l1 ++ x :: y :: l2.
Proof.
  induction l as [|a l IH]; cbn [pairwise].
  - split; [intros []|]. intros [[|? ?] [l2 H]]; discriminate.
  - destruct l as [|b l].
    + split; [intros []|]. intros [[|? [|? ?]] [l2 H]]; discriminate.
    + cbn [In]. rewrite IH. split.
      * intros [[= -> ->]|[l1 [l2 ->]]]; [exists [], l; reflexivity|exists (a :: l1), l2; reflexivity].
      * intros [[|c l1] [l2 H]]; cbn [app] in H.
        -- left. congruence.
        -- right. exists l1, l2. congruence.
Qed.

Lemma sorted_pair {A} (P : A -> A -> Prop) l l1 x l2 y l3 :
  StronglySorted P l -> l = l1 ++ x :: l2 ++ y :: l3 -> P x y.
Proof.
  intros S ->. induction l1 as [|a l1 IH]; cbn [app] in S; inversion S as [|? ? S1 F]; subst.
  - rewrite Forall_forall in F. apply F. apply in_or_app. right. left. reflexivity.
  - apply IH, S1.
Qed.

Lemma two_positions {A} (l : list A) x y : In x l -> In y l -> x <> y ->
  (exists l1 l2 l3, l = l1 ++ x :: l2 ++ y :: l3) \/ (exists l1 l2 l3, l = l1 ++ y :: l2 ++ x :: l3).
Proof.
  intros Hx Hy N. apply in_split in Hx. destruct Hx as [l1 [l2 ->]]. apply in_app_iff in Hy.
  destruct Hy as [Hy|[Hy|Hy]]; [|congruence|]; apply in_split in Hy; destruct Hy as [a [b ->]].
  - right. exists a, b, l2. rewrite <- app_assoc. reflexivity.
  - left. exists l1, a, b. reflexivity.
Qed.

Section Edges.
  Variable sorter : list usage -> list usage.
  Variable i2e : nat -> list nat.
  Variable E : nat.
  Variable us : list route_use.
  Hypothesis Sorts : sorts sorter.
  Hypothesis Nd : forall u, In u us -> NoDup (i2e (u_ir u)).
  Hypothesis Lk : linked us.

  Notation ns := (imap 0 us).
  Notation ord := (ordering_of i2e ns).

  Lemma nth_ns i : nth_error ns i = option_map (node_of i) (nth_error us i).
  Proof. rewrite imap_nth. reflexivity. Qed.

  Lemma ord_In es t i : In (t, i) (ord es) <->
    exists u, nth_error us i = Some u /\ t = u_start u /\ In es (i2e (u_ir u)).
  Proof.
    unfold ordering_of. rewrite in_flat_map. split.
    - intros [j [Hj H]]. rewrite nth_ns in H. destruct (nth_error us j) as [u|] eqn:Eu; [|destruct H].
      cbn [option_map] in H. apply in_map_iff in H. destruct H as [e [He H]]. injection He as <- <-.
      apply filter_In in H. destruct H as [H1 H2]. apply Nat.eqb_eq in H2. subst e. exists u. cbn in *. auto.
    - intros [u [Eu [-> H]]]. exists i. split.
      + apply in_seq. rewrite imap_length. assert (i < length us) by (apply nth_error_Some; congruence). lia.
      + rewrite nth_ns, Eu. cbn [option_map]. apply in_map_iff. exists es. split; [reflexivity|].
        apply filter_In. split; [exact H|apply Nat.eqb_refl].
  Qed.

  Lemma filter_eq_NoDup es l : NoDup l -> length (filter (Nat.eqb es) l) <= 1.
  Proof.
    induction 1 as [|x l Hx N IH]; cbn; [lia|]. destruct (Nat.eqb_spec es x) as [<-|]; [|exact IH].
    cbn. assert (filter (Nat.eqb es) l = []) as ->; [|cbn; lia].
    destruct (filter (Nat.eqb es) l) as [|y f] eqn:Ef; [reflexivity|]. exfalso. apply Hx.
    assert (In y (filter (Nat.eqb es) l)) by (rewrite Ef; left; reflexivity). apply filter_In in H.
    destruct H as [H1 H2]. apply Nat.eqb_eq in H2. congruence.
  Qed.

  Lemma ord_ids es : StronglySorted lt (map snd (ord es)).
  Proof.
    unfold ordering_of. generalize (length ns). intros n.
    assert (G : forall k a, StronglySorted lt (map snd (flat_map (fun i => match nth_error ns i with
              | Some n => map (fun _ => (pn_from n, i)) (filter (Nat.eqb es) (i2e (pn_ir n)))
              | None => [] end) (seq a k))) /\
      forall x, In x (map snd (flat_map (fun i => match nth_error ns i with
              | Some n => map (fun _ => (pn_from n, i)) (filter (Nat.eqb es) (i2e (pn_ir n)))
              | None => [] end) (seq a k))) -> a <= x).
    { induction k as [|k IH]; intros a; cbn [seq flat_map].
      - split; [constructor|intros x []].
      - destruct (IH (S a)) as [S1 B1].
        set (rest := flat_map _ (seq (S a) k)) in *.
        rewrite nth_ns. destruct (nth_error us a) as [u|] eqn:Eu; cbn [option_map].
        + assert (L := filter_eq_NoDup es (i2e (u_ir u)) (Nd u (nth_error_In _ _ Eu))).
          cbn [node_of pn_ir pn_from]. destruct (filter (Nat.eqb es) (i2e (u_ir u))) as [|x [|y f]]; cbn in L.
          * cbn [map app]. split; [exact S1|]. intros x Hx. specialize (B1 x Hx). lia.
          * cbn [map app snd]. split.
            -- constructor; [exact S1|]. apply Forall_forall. intros z Hz. specialize (B1 z Hz). lia.
            -- intros z [<-|Hz]; [lia|]. specialize (B1 z Hz). lia.
          * lia.
        + cbn [app]. split; [exact S1|]. intros x Hx. specialize (B1 x Hx). lia. }
    apply (G n 0).
  Qed.

  Lemma sorted_lt_NoDup l : StronglySorted lt l -> NoDup l.
  Proof.
    induction 1 as [|x l S IH F]; constructor; [|exact IH]. intros H. rewrite Forall_forall in F. specialize (F x H). lia.
  Qed.

  Lemma sord_In es p : In p (sorter (ord es)) <-> In p (ord es).
  Proof.
    destruct (Sorts (ord es)) as [P _]. split; apply Permutation_in; [symmetry|]; exact P.
  Qed.

  Lemma sord_NoDup es : NoDup (map snd (sorter (ord es))).
  Proof.
    destruct (Sorts (ord es)) as [P _]. eapply Permutation_NoDup; [apply Permutation_map, P|].
    apply sorted_lt_NoDup, ord_ids.
  Qed.

  (* a strict order on usages that every sorted list respects *)
  Variable rk : usage -> usage -> Prop.
  Hypothesis rk_irrefl : forall a, ~ rk a a.
  Hypothesis rk_trans : forall a b c, rk a b -> rk b c -> rk a c.
  Hypothesis rk_sorted : forall es, es < E -> StronglySorted rk (sorter (ord es)).
  Hypothesis rk_trip : forall i u u', nth_error us i = Some u -> nth_error us (S i) = Some u' ->
    u_last u = false -> rk (u_start u, i) (u_start u', S i).

  Variable m : list ((nat * N) * (nat * nat)).
  Notation og := (with_edges sorter i2e E (ns, m)).

  Lemma order_edges_In a b : In (a, b) (order_edges sorter i2e E ns) <->
    exists es ta tb l1 l2, es < E /\ sorter (ord es) = l1 ++ (ta, a) :: (tb, b) :: l2.
  Proof.
    unfold order_edges. rewrite in_flat_map. split.
    - intros [es [He H]]. apply in_seq in He. apply in_map_iff in H. destruct H as [[[ta a'] [tb b']] [Hp H]].
      cbn in Hp. injection Hp as -> ->. apply pairwise_split in H. destruct H as [l1 [l2 H]].
      exists es, ta, tb, l1, l2. split; [lia|exact H].
    - intros [es [ta [tb [l1 [l2 [He H]]]]]]. exists es. split; [apply in_seq; lia|].
      apply in_map_iff. exists ((ta, a), (tb, b)). split; [reflexivity|]. apply pairwise_split. exists l1, l2. exact H.
  Qed.

  Lemma field_ns {A} (f : pnode -> A) d i : field f d ns i =
    match nth_error us i with Some u => f (node_of i u) | None => d end.
  Proof. unfold field. rewrite nth_ns. destruct (nth_error us i); reflexivity. Qed.

  Lemma edge_og a b : edge (og_out og) a b <->
    (exists u, nth_error us a = Some u /\ u_last u = false /\ b = S a) \/ In (a, b) (order_edges sorter i2e E ns).
  Proof.
    unfold edge. cbn [with_edges og_out fst snd]. rewrite erase_duplicates_In, in_app_iff, field_ns.
    assert (X : In b (map snd (filter (fun e => Nat.eqb (fst e) a) (order_edges sorter i2e E ns))) <->
                In (a, b) (order_edges sorter i2e E ns)).
    { rewrite in_map_iff. split.
      - intros [[x y] [Hy H]]. cbn in Hy. subst y. apply filter_In in H. destruct H as [H1 H2]. apply Nat.eqb_eq in H2. cbn in H2. subst x. exact H1.
      - intros H. exists (a, b). split; [reflexivity|]. apply filter_In. split; [exact H|apply Nat.eqb_refl]. }
    rewrite X. destruct (nth_error us a) as [u|].
    - cbn [node_of pn_out]. destruct (u_last u) eqn:El.
      + split; [intros [[]|H]; right; exact H|]. intros [[u' [[= <-] [H _]]]|H]; [congruence|right; exact H].
      + split.
        * intros [[<-|[]]|H]; [left; exists u; split; [reflexivity|split; [exact El|lia]]|right; exact H].
        * intros [[u' [[= <-] [_ ->]]]|H]; [left; left; lia|right; exact H].
    - split; [intros [[]|H]; right; exact H|]. intros [[u' [[=] _]]|H]; right; exact H.
  Qed.

  Lemma in_edge_og a b : edge (og_in og) b a <->
    (exists u, nth_error us b = Some u /\ u_pos u <> 0 /\ a = b - 1) \/ In (a, b) (order_edges sorter i2e E ns).
  Proof.
    unfold edge. cbn [with_edges og_in fst snd]. rewrite erase_duplicates_In, in_app_iff, field_ns.
    assert (X : In a (map fst (filter (fun e => Nat.eqb (snd e) b) (order_edges sorter i2e E ns))) <->
                In (a, b) (order_edges sorter i2e E ns)).
    { rewrite in_map_iff. split.
      - intros [[x y] [Hy H]]. cbn in Hy. subst x. apply filter_In in H. destruct H as [H1 H2]. apply Nat.eqb_eq in H2. cbn in H2. subst y. exact H1.
      - intros H. exists (a, b). split; [reflexivity|]. apply filter_In. split; [exact H|apply Nat.eqb_refl]. }
    rewrite X. destruct (nth_error us b) as [u|].
    - cbn [node_of pn_in]. destruct (Nat.eqb_spec (u_pos u) 0) as [El|El].
      + split; [intros [[]|H]; right; exact H|]. intros [[u' [[= <-] [H _]]]|H]; [congruence|right; exact H].
      + split.
        * intros [[<-|[]]|H]; [left; exists u; split; [reflexivity|split; [exact El|lia]]|right; exact H].
        * intros [[u' [[= <-] [_ ->]]]|H]; [left; left; lia|right; exact H].
    - split; [intros [[]|H]; right; exact H|]. intros [[u' [[=] _]]|H]; right; exact H.
  Qed.

  Lemma mirror a b : edge (og_out og) a b <-> edge (og_in og) b a.
  Proof.
    rewrite edge_og, in_edge_og. destruct Lk as [K1 K2]. split; intros [[u [H1 [H2 H3]]]|H]; try (right; exact H); left.
    - destruct (K1 _ _ H1 H2) as [u' [E1 [E2 _]]]. subst b. exists u'. split; [exact E1|]. split; [lia|lia].
    - destruct (K2 _ _ H1 H2) as [j [u' [-> [E1 [E2 _]]]]]. exists u'. replace (S j - 1) with j in H3 by lia. subst a.
      split; [exact E1|]. split; [exact E2|reflexivity].
  Qed.

  Lemma og_size_eq : og_size og = length us.
  Proof. cbn. apply imap_length. Qed.

  Lemma order_edge_range a b : In (a, b) (order_edges sorter i2e E ns) -> a < length us /\ b < length us.
  Proof.
    intros H. apply order_edges_In in H. destruct H as [es [ta [tb [l1 [l2 [He H]]]]]].
    assert (A : In (ta, a) (sorter (ord es))) by (rewrite H; apply in_or_app; right; left; reflexivity).
    assert (B : In (tb, b) (sorter (ord es))) by (rewrite H; apply in_or_app; right; right; left; reflexivity).
    apply sord_In, ord_In in A. apply sord_In, ord_In in B. destruct A as [u [A _]]. destruct B as [v [B _]].
    split; apply nth_error_Some; congruence.
  Qed.

  Lemma range_og : in_range (og_out og) (og_size og).
  Proof.
    rewrite og_size_eq. intros a b La H. apply edge_og in H. destruct H as [[u [H1 [H2 ->]]]|H].
    - destruct Lk as [K _]. destruct (K _ _ H1 H2) as [u' [E' _]]. apply nth_error_Some. congruence.
    - apply order_edge_range in H. apply H.
  Qed.

  Definition start_of (i : nat) : N := match nth_error us i with Some u => u_start u | None => 0%N end.

  Lemma edge_rk a b : edge (og_out og) a b -> rk (start_of a, a) (start_of b, b).
  Proof.
    intros H. apply edge_og in H. destruct H as [[u [H1 [H2 ->]]]|H].
    - destruct Lk as [K _]. destruct (K _ _ H1 H2) as [u' [E' _]]. unfold start_of. rewrite H1, E'.
      apply (rk_trip a u u' H1 E' H2).
    - apply order_edges_In in H. destruct H as [es [ta [tb [l1 [l2 [He H]]]]]].
      assert (A : In (ta, a) (sorter (ord es))) by (rewrite H; apply in_or_app; right; left; reflexivity).
      assert (B : In (tb, b) (sorter (ord es))) by (rewrite H; apply in_or_app; right; right; left; reflexivity).
      apply sord_In, ord_In in A. apply sord_In, ord_In in B. destruct A as [u [A1 [A2 _]]]. destruct B as [v [B1 [B2 _]]].
      unfold start_of. rewrite A1, B1. subst ta tb.
      apply (sorted_pair rk (sorter (ord es)) l1 _ [] _ l2); [apply rk_sorted, He|exact H].
  Qed.

  Lemma walk_rk a b : walk (og_out og) a b -> rk (start_of a, a) (start_of b, b).
  Proof.
    induction 1 as [a b H|a b c H W IH]; [apply edge_rk, H|]. eapply rk_trans; [apply edge_rk, H|exact IH].
  Qed.

  Lemma acyclic_og : acyclic (og_out og) (og_size og).
  Proof. intros x _ W. exact (rk_irrefl _ (walk_rk _ _ W)). Qed.

  Lemma list_walk es : es < E -> forall l2 l1 x y l3, sorter (ord es) = l1 ++ x :: l2 ++ y :: l3 ->
    walk (og_out og) (snd x) (snd y).
  Proof.
    intros He. induction l2 as [|z l2 IH]; intros l1 x y l3 H.
    - apply walk_one. apply edge_og. right. apply order_edges_In. destruct x as [tx x], y as [ty y].
      exists es, tx, ty, l1, l3. split; [exact He|exact H].
    - apply (walk_step _ (snd x) (snd z)).
      + apply edge_og. right. apply order_edges_In. destruct x as [tx x], z as [tz z].
        exists es, tx, tz, l1, (l2 ++ y :: l3). split; [exact He|exact H].
      + apply (IH (l1 ++ [x]) z y l3). rewrite <- app_assoc. exact H.
  Qed.

  (* conflicting usages are connected in the direction of the order *)
  Lemma conflict_walk i j u v : nth_error us i = Some u -> nth_error us j = Some v -> i <> j ->
    conflict i2e E (u_ir u) (u_ir v) ->
    (walk (og_out og) i j /\ rk (u_start u, i) (u_start v, j)) \/
    (walk (og_out og) j i /\ rk (u_start v, j) (u_start u, i)).
  Proof.
    intros Hi Hj N [es [He [H1 H2]]].
    assert (A : In (u_start u, i) (sorter (ord es))) by (apply sord_In, ord_In; exists u; auto).
    assert (B : In (u_start v, j) (sorter (ord es))) by (apply sord_In, ord_In; exists v; auto).
    destruct (two_positions _ _ _ A B) as [[l1 [l2 [l3 H]]]|[l1 [l2 [l3 H]]]]; [congruence| |].
    - left. split; [exact (list_walk es He _ _ _ _ _ H)|]. eapply sorted_pair; [apply rk_sorted, He|exact H].
    - right. split; [exact (list_walk es He _ _ _ _ _ H)|]. eapply sorted_pair; [apply rk_sorted, He|exact H].
  Qed.

  Lemma trip_walk i u : nth_error us i = Some u -> u_last u = false -> walk (og_out og) i (S i).
  Proof. intros H Hl. apply walk_one, edge_og. left. exists u. auto. Qed.
End Edges.
