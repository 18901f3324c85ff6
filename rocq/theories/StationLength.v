(* The length of a route on a well-drawn plan *)
From Coq Require Import List Bool NArith QArith Qabs String Sorted Permutation Arith Lia Lqa.
From Verif Require Import Base PhysModel TextModel InfraModel InfraOrder InfraSpec StationModel StationSpec StationWay StationDrawn.
Import ListNotations.
Local Open Scope nat_scope.

Section SUM.
  Variable g : graph.
  Definition seen (i j : nat) (q : Q) : Prop :=
    exists e r, nth_error (g_elems g) i = Some e /\ get_km e j = Ok r /\ (r == q)%Q.
  Inductive sumkm : list nat -> Q -> Prop :=
  | sk_one i s : (s == 0)%Q -> sumkm [i] s
  | sk_cons i j l a b s t : seen i j a -> seen j i b -> sumkm (j :: l) s -> (t == Qabs (a - b) + s)%Q ->
      sumkm (i :: j :: l) t.
  Lemma qabs_eq a : (qabs a == Qabs a)%Q.
  Proof.
    unfold qabs. destruct (qlt a 0) eqn:X; [apply qlt_iff in X|apply qlt_false in X].
    - rewrite Qabs_neg by lra. reflexivity.
    - rewrite Qabs_pos by lra. reflexivity.
  Qed.
  Lemma length_sum l : forall acc i r s, length_from g acc i l = Ok r -> sumkm (i :: l) s -> (r == acc + s)%Q.
  Proof.
    induction l as [|j l IH]; intros acc i r s H S; cbn [length_from] in H.
    - injection H as <-. inversion S; subst. rewrite H0. ring.
    - inversion S as [|? ? ? a b t ? Sa Sb St Es]; subst.
      destruct Sa as (e & x & He & Hx & Ex), Sb as (e' & y & He' & Hy & Ey).
      unfold get_e in H. rewrite He, He' in H. cbn [bind] in H. rewrite Hx, Hy in H. cbn [bind] in H.
      rewrite (IH _ _ _ _ H St), Es, qabs_eq, Ex, Ey. ring.
  Qed.
  Lemma sum_eq L s t : sumkm L s -> (s == t)%Q -> sumkm L t.
  Proof.
    intros H E. inversion H; subst.
    - constructor. rewrite <- E. assumption.
    - econstructor; eauto. rewrite <- E. assumption.
  Qed.
  Lemma sum_app p x q : forall s1 s2, sumkm (p ++ [x]) s1 -> sumkm (x :: q) s2 -> sumkm (p ++ x :: q) (s1 + s2)%Q.
  Proof.
    induction p as [|y p IH]; intros s1 s2 A B; cbn [app] in *.
    - inversion A; subst. eapply sum_eq; [exact B|]. rewrite H0. ring.
    - destruct p as [|z p]; cbn [app] in *.
      + inversion A as [|? ? ? a b s ? Sa Sb Ss Es]; subst. apply (sk_cons y x q a b s2 _ Sa Sb B). inversion Ss; subst. rewrite Es, H0. ring.
      + inversion A as [|? ? ? a b s ? Sa Sb Ss Es]; subst. apply (sk_cons y z (p ++ x :: q) a b (s + s2)%Q _ Sa Sb (IH _ _ Ss B)). rewrite Es. ring.
  Qed.

  Inductive hops : list nat -> list Q -> Prop :=
  | hops_one i k : hops [i] [k]
  | hops_cons i j l a b ks : seen i j a -> seen j i b -> hops (j :: l) (b :: ks) -> hops (i :: j :: l) (a :: b :: ks).
  Definition le_dir (d : bool) (a b : Q) : Prop := if d then (a <= b)%Q else (b <= a)%Q.
  Lemma hops_length L K : hops L K -> List.length L = List.length K.
  Proof. induction 1; cbn in *; congruence. Qed.
  Lemma hops_sum d L K : hops L K -> StronglySorted (le_dir d) K -> sumkm L (Qabs (last K 0 - hd 0 K)%Q).
  Proof.
    induction 1 as [i k|i j l a b ks Sa Sb H IH]; intros S.
    - constructor. cbn [last hd]. rewrite Qabs_pos by lra. ring.
    - inversion S as [|? ? S' Fa]; subst. specialize (IH S').
      apply (sk_cons i j l a b _ _ Sa Sb IH). inversion S' as [|? ? _ Fb]; subst. cbn [hd].
      replace (last (a :: b :: ks) 0%Q) with (last (b :: ks) 0%Q) by reflexivity.
      cbn [hd]. assert (Lb : le_dir d b (last (b :: ks) 0%Q)).
      { destruct ks as [|c ks]; [destruct d; apply Qle_refl|].
        rewrite Forall_forall in Fb. apply Fb.
        change (last (b :: c :: ks) 0%Q) with (last (c :: ks) 0%Q).
        destruct (@exists_last _ (c :: ks)) as (u & v & ->); [discriminate|]. rewrite last_last.
        apply in_or_app. right. left. reflexivity. }
      assert (La : le_dir d a b) by (inversion Fa; assumption).
      generalize dependent (last (b :: ks) 0%Q). intros z _ Lb.
      destruct d; cbn in La, Lb.
      + rewrite (Qabs_pos (z - a)), (Qabs_neg (a - b)), (Qabs_pos (z - b)) by lra. ring.
      + rewrite (Qabs_neg (z - a)), (Qabs_pos (a - b)), (Qabs_neg (z - b)) by lra. ring.
  Qed.
  Lemma hops_skip n : forall L K, hops L K -> n < List.length L -> hops (skipn n L) (skipn n K).
  Proof.
    induction n as [|n IH]; intros L K H N; [exact H|].
    inversion H; subst; cbn in N; [lia|]. cbn [skipn]. apply IH; [assumption|cbn; lia].
  Qed.
  Lemma hops_first n : forall L K, hops L K -> 0 < n -> hops (firstn n L) (firstn n K).
  Proof.
    induction n as [|n IH]; intros L K H N; [lia|].
    inversion H; subst; cbn [firstn].
    - destruct n; constructor.
    - destruct n as [|n]; [cbn; constructor|]. cbn [firstn]. constructor; auto.
      apply (IH _ _ H2). lia.
  Qed.
  Lemma sorted_skip {A} (R : A -> A -> Prop) n : forall K, StronglySorted R K -> StronglySorted R (skipn n K).
  Proof. induction n; intros K H; [exact H|]. destruct K; [exact H|]. inversion H; subst. cbn. auto. Qed.
  Lemma sorted_first {A} (R : A -> A -> Prop) n : forall K, StronglySorted R K -> StronglySorted R (firstn n K).
  Proof.
    induction n; intros K H; [constructor|]. destruct K; [constructor|]. inversion H; subst. cbn. constructor; auto.
    rewrite Forall_forall in *. intros x X. apply H3. rewrite <- (firstn_skipn n K). apply in_or_app. left. exact X.
  Qed.
End SUM.

Lemma F2_len {A B} {R : A -> B -> Prop} {l l'} : Forall2 R l l' -> List.length l = List.length l'.
Proof. induction 1; cbn; congruence. Qed.
Lemma nth_firstn {A} (d : A) n : forall j L, j < n -> nth j (firstn n L) d = nth j L d.
Proof.
  induction n; intros j L H; [lia|]. destruct L; [destruct j; reflexivity|]. destruct j; [reflexivity|]. cbn. apply IHn. lia.
Qed.
Lemma nth_skipn {A} (d : A) i : forall j L, nth j (skipn i L) d = nth (i + j) L d.
Proof. induction i; intros j L; [reflexivity|]. destruct L; [cbn; destruct j; reflexivity|]. cbn. apply IHi. Qed.
Lemma last_nth {A} (d : A) L : last L d = nth (List.length L - 1) L d.
Proof.
  induction L as [|x L IH]; [reflexivity|]. destruct L as [|y L]; [reflexivity|].
  change (last (x :: y :: L) d) with (last (y :: L) d). rewrite IH. cbn [List.length Nat.sub]. rewrite !Nat.sub_0_r. reflexivity.
Qed.
Lemma last_default {A} (L : list A) a b : L <> [] -> last L a = last L b.
Proof. intros H. destruct (exists_last H) as (r & z & ->). rewrite !last_last. reflexivity. Qed.
Lemma list_eq_dec_nil {A} (L : list A) : L = [] \/ L <> [].
Proof. destruct L; [left; reflexivity|right; discriminate]. Qed.
Lemma hd_nth {A} (d : A) L : hd d L = nth 0 L d.
Proof. destruct L; reflexivity. Qed.
Lemma hops_part g d L K i n : hops g L K -> StronglySorted (le_dir d) K -> i + n < List.length L ->
  sumkm g (firstn (S n) (skipn i L)) (Qabs (nth (i + n) K 0 - nth i K 0)%Q).
Proof.
  intros H So N. pose proof (hops_length _ _ _ H) as Len.
  assert (A : hops g (firstn (S n) (skipn i L)) (firstn (S n) (skipn i K))).
  { apply hops_first; [|lia]. apply hops_skip; [exact H|lia]. }
  pose proof (hops_sum g d _ _ A (sorted_first _ (S n) _ (sorted_skip _ i _ So))) as R.
  rewrite last_nth, hd_nth, !nth_firstn, !nth_skipn, Nat.add_0_r in R by (rewrite ?firstn_length, ?skipn_length; lia).
  rewrite firstn_length, skipn_length in R. replace (i + (Nat.min (S n) (List.length K - i) - 1)) with (i + n) in R by lia.
  exact R.
Qed.
Lemma hd_rev_cons {A} (n : A) q m : hd_error (rev q) = Some m -> hd_error (rev (n :: q)) = Some m.
Proof. cbn [rev]. destruct (rev q); [discriminate|]. cbn. auto. Qed.

Section LEGS.
  Variables (l : list xstation) (g : graph) (ls : list links) (run : nat -> bool -> list node) (arrive : nat -> bool -> node).
  Hypothesis F : net_facts l g ls run arrive.
  Let D := nf_drawn _ _ _ _ _ F.
  Definition from (w : leg) : nat := fst (arrive (fst (enters w)) (snd (enters w))).
  (* the elements of a leg from the device it comes from to the one it leads to *)
  Definition elems_of (w : leg) : list nat :=
    from w :: map fst (rn run w) ++ [fst (ar arrive w)].

  Lemma hops_chain a (q : list node) z ka ks kz :
    Forall2 (fun n k => forall j, seen g (fst n) j k) q ks ->
    (match q with [] => False | n :: _ => seen g a (fst n) ka end) ->
    (forall n, hd_error (rev q) = Some n -> seen g z (fst n) kz) ->
    hops g (a :: map fst q ++ [z]) (ka :: ks ++ [kz]).
  Proof.
    intros H. revert a ka. induction H as [|n k q ks Hn Hq IH]; intros a ka A Z; [contradiction|].
    cbn [map app]. constructor; [exact A|apply Hn|].
    destruct q as [|n' q'].
    - inversion Hq; subst. cbn [map app]. constructor; [apply Hn| |constructor]. apply (Z n). reflexivity.
    - destruct ks as [|k' ks']; [inversion Hq|]. apply IH; [apply Hn|].
      intros m M. apply Z. apply hd_rev_cons. exact M.
  Qed.

  Lemma track_seen w x n : section_at l (fst w) x -> In n (rn run w) ->
    exists q, (forall j, seen g (fst n) j q) /\ forall t, stands_for g t n -> (q == tn_km t)%Q.
  Proof.
    intros Hx Hn. destruct (nf_track _ _ _ _ _ F (fst w) x (snd w) n Hx Hn) as (e & He & K).
    exists (e_km e S0). split.
    - intros j. exists e, (e_km e S0). split; [exact He|]. split; [|reflexivity]. unfold get_km. destruct K as [-> | ->]; reflexivity.
    - intros t (_ & e' & He' & _ & Km). unfold elem_at in He. rewrite He in He'. injection He' as <-. exact Km.
  Qed.
  Lemma stands_km t n e : stands_for g t n -> nth_error (g_elems g) (fst n) = Some e -> (e_km e S0 == tn_km t)%Q.
  Proof. intros (_ & e' & He' & _ & Km) He. rewrite He in He'. injection He' as <-. exact Km. Qed.

  Lemma run_kms w x : section_at l (fst w) x -> between_ends l (fst w) ->
    exists ks, Forall2 (fun n k => forall j, seen g (fst n) j k) (rn run w) ks /\
      StronglySorted (le_dir (snd w))
        (sn_km (if snd w then xs_start x else xs_end x) :: ks ++ [sn_km (if snd w then xs_end x else xs_start x)]) /\
      forall k n t q, nth_error (rn run w) k = Some n -> stands_for g t n -> nth_error ks k = Some q -> (q == tn_km t)%Q.
  Proof.
    intros Hx Bt. destruct (Bt x Hx) as [Bs Be].
    destruct (dr_run _ _ _ _ _ D (fst w) x (snd w) Hx) as (ns & (Pm & So) & R).
    assert (In' : forall t, In t ns -> In t (xs_track x)).
    { intros t Ht. eapply Permutation_in in Ht; [|exact Pm]. apply filter_In in Ht. apply Ht. }
    destruct ns as [|n0 ns0].
    - destruct R as (m & e & R & He & Ty & Km). unfold rn. rewrite R.
      exists [e_km e S0]. split; [|split].
      + constructor; [|constructor]. intros j. destruct (track_seen w x m Hx) as (q & Q & _); [unfold rn; rewrite R; left; reflexivity|].
        destruct (Q j) as (e' & r & He' & Hr & Er). rewrite He in He'. injection He' as <-.
        assert (Hk : e_kind e = KTrack \/ e_kind e = KUndirected).
        { destruct (nf_track _ _ _ _ _ F (fst w) x (snd w) m Hx) as (e' & He' & K); [rewrite R; left; reflexivity|].
          unfold elem_at in He'. rewrite He in He'. injection He' as <-. exact K. }
        exists e, (e_km e S0). split; [exact He|]. split; [|reflexivity]. unfold get_km. destruct Hk as [-> | ->]; reflexivity.
      + rewrite Km. destruct (snd w); cbn [app]; repeat constructor; cbn; lra.
      + intros [|[|k]] n t q N St K; try discriminate. cbn in N, K. injection N as <-. injection K as <-.
        exact (stands_km _ _ _ St He).
    - set (ns := n0 :: ns0) in *. clearbody ns. exists (map tn_km ns).
      assert (So' : StronglySorted (le_dir (snd w)) (map tn_km ns)).
      { clear - So. induction So as [|a q Hq IH Ha]; cbn; constructor; auto.
        rewrite Forall_forall in *. intros k K. apply in_map_iff in K. destruct K as (b & <- & Hb).
        specialize (Ha b Hb). unfold before in Ha. unfold le_dir. destruct (snd w), Ha as [Ha|(Ha & _)]; lra. }
      split; [|split].
      + fold (rn run w) in R.
        assert (Gx : forall n, In n (rn run w) -> exists q, (forall j, seen g (fst n) j q) /\ forall t, stands_for g t n -> (q == tn_km t)%Q).
        { intros n Hn. exact (track_seen w x n Hx Hn). }
        clear - R Gx. induction R as [|t n ns r St R IH]; cbn; constructor.
        * intros j. destruct (Gx n (or_introl eq_refl)) as (q & Q & T). destruct (Q j) as (e & s & A1 & A2 & A3).
          exists e, s. split; [exact A1|]. split; [exact A2|]. rewrite A3. apply T, St.
        * apply IH. intros n' Hn'. apply Gx. right. exact Hn'.
      + assert (All : forall k, In k (map tn_km ns) -> le_dir (snd w) (sn_km (if snd w then xs_start x else xs_end x)) k /\
                  le_dir (snd w) k (sn_km (if snd w then xs_end x else xs_start x))).
        { intros k K. apply in_map_iff in K. destruct K as (t & <- & T). specialize (Be t (In' t T)). destruct (snd w); cbn; lra. }
        constructor.
        * clear - So' All. induction So' as [|a q Hq IH Ha]; cbn; [constructor; constructor|].
          constructor; [apply IH; intros k K; apply All; right; exact K|].
          apply Forall_app. split; [exact Ha|]. constructor; [|constructor]. apply All. left. reflexivity.
        * apply Forall_app. split.
          -- rewrite Forall_forall. intros k K. apply All, K.
          -- constructor; [|constructor]. destruct (snd w); cbn; lra.
      + fold (rn run w) in R. intros k n t q N St K. rewrite nth_error_map in K.
        destruct (nth_error ns k) as [t'|] eqn:T; [|discriminate]. cbn in K. injection K as <-.
        assert (St' : stands_for g t' n).
        { clear - R T N. revert k T N. induction R as [|a b p r H R IH]; intros [|k] T N; try discriminate; cbn in *.
          - congruence.
          - eapply IH; eauto. }
        destruct St as (_ & e & He & _ & Km). rewrite <- (stands_km _ _ _ St' He). exact Km.
  Qed.

  Lemma leg_hops w x : section_at l (fst w) x -> between_ends l (fst w) ->
    exists K, hops g (elems_of w) K /\ StronglySorted (le_dir (snd w)) K /\
      (forall n, node_at l (enters w) n -> hd 0%Q K = sn_km n) /\
      (forall n, node_at l (leaves w) n -> last K 0%Q = sn_km n) /\
      forall k n t q, nth_error (rn run w) k = Some n -> stands_for g t n -> nth_error K (S k) = Some q -> (q == tn_km t)%Q.
  Proof.
    intros Hx Bt. destruct (run_kms w x Hx Bt) as (ks & H1 & H2 & H3).
    set (ka := sn_km (if snd w then xs_start x else xs_end x)) in *.
    set (kz := sn_km (if snd w then xs_end x else xs_start x)) in *.
    assert (Ha : node_at l (enters w) (if snd w then xs_start x else xs_end x)).
    { exists x. split; [exact Hx|]. unfold enters. cbn. destruct (snd w); reflexivity. }
    assert (Hz : node_at l (leaves w) (if snd w then xs_end x else xs_start x)).
    { exists x. split; [exact Hx|]. unfold leaves. destruct (snd w); reflexivity. }
    assert (Un : forall p n m, node_at l p n -> node_at l p m -> n = m).
    { intros p n m (x1 & (s1 & A1) & ->) (x2 & (s2 & A2) & ->). assert (x1 = x2) by congruence. subst. reflexivity. }
    exists (ka :: ks ++ [kz]). split; [|split; [exact H2|split; [|split]]].
    - unfold elems_of. apply hops_chain; [exact H1| |].
      + pose proof (nf_some _ _ _ _ _ F (fst w) x (snd w) Hx) as NE.
        destruct (rn run w) as [|n q] eqn:R; [unfold rn in R; congruence|].
        destruct (dr_km _ _ _ _ _ D (enters w) _ n Ha) as (e & He & Km).
        { right. cbn [enters fst snd]. rewrite negb_involutive. fold (rn run w). rewrite R. reflexivity. }
        exists e, ka. split; [exact He|]. split; [exact Km|reflexivity].
      + intros n N. destruct (dr_km _ _ _ _ _ D (leaves w) _ n Hz) as (e & He & Km); [left; exact N|].
        exists e, kz. split; [exact He|]. split; [exact Km|reflexivity].
    - intros n N. cbn [hd]. rewrite (Un _ _ _ N Ha). reflexivity.
    - intros n N. rewrite app_comm_cons, last_last, (Un _ _ _ N Hz). reflexivity.
    - intros k n t q N St K. cbn [nth_error] in K. apply (H3 k n t q N St).
      rewrite nth_error_app1 in K; [exact K|]. rewrite <- (F2_len H1). apply (proj1 (@nth_error_Some node (rn run w) k)). congruence.
  Qed.

  Ltac lia := unfold node in *; Lia.lia.
  Lemma elems_len w : List.length (elems_of w) = 2 + List.length (rn run w).
  Proof. unfold elems_of. cbn [List.length]. rewrite app_length, map_length. cbn. lia. Qed.
  Definition starting (w : leg) (i : nat) (a : Q) : Prop :=
    (i = 0 /\ exists n, node_at l (enters w) n /\ a = sn_km n) \/
    (exists k n t, i = S k /\ nth_error (rn run w) k = Some n /\ stands_for g t n /\ a = tn_km t).
  Definition stopping (w : leg) (N post : list nat) (b : Q) : Prop :=
    (post = [] /\ exists n, node_at l (leaves w) n /\ b = sn_km n) \/
    (0 < List.length post <= List.length (rn run w) /\
     exists p m t, N = p ++ [fst m] /\ stands_for g t m /\ b = tn_km t).

  Lemma starting_km w x K i a : section_at l (fst w) x -> hops g (elems_of w) K ->
    (forall n, node_at l (enters w) n -> hd 0%Q K = sn_km n) ->
    (forall k n t q, nth_error (rn run w) k = Some n -> stands_for g t n -> nth_error K (S k) = Some q -> (q == tn_km t)%Q) ->
    starting w i a -> (nth i K 0 == a)%Q /\ i <= List.length (rn run w).
  Proof.
    intros Hx H Hd Hk [(-> & n & Hn & ->)|(k & n & t & -> & Nk & St & ->)].
    - split; [|lia]. rewrite <- hd_nth, (Hd n Hn). reflexivity.
    - assert (k < List.length (rn run w)) by (apply nth_error_Some; congruence). split; [|lia].
      apply (Hk k n t); [exact Nk|exact St|]. apply nth_error_nth'. rewrite <- (hops_length _ _ _ H), elems_len. lia.
  Qed.
  Lemma elems_nth w k : k < List.length (rn run w) -> nth_error (elems_of w) (S k) = option_map fst (nth_error (rn run w) k).
  Proof.
    intros L. unfold elems_of. cbn [nth_error]. rewrite nth_error_app1 by (rewrite map_length; exact L).
    apply nth_error_map.
  Qed.

  Lemma way_sum xcourse ws : forall k w i N post a b dd, follows l xcourse k w ws ->
    (forall v, In v (w :: ws) -> (exists x, section_at l (fst v) x) /\ between_ends l (fst v)) ->
    starting w i a -> stopping (last ws w) N post b ->
    skipn i (elems_of w) ++ map fst (line_of run arrive ws) = N ++ post ->
    distance l w ws a b dd -> exists s, sumkm g N s /\ (s == dd)%Q.
  Proof.
    induction ws as [|w' ws IH]; intros k w i N post a b dd Fo Vs St En Eq Di;
      destruct (Vs w (or_introl eq_refl)) as [(x & Hx) Bt];
      destruct (leg_hops w x Hx Bt) as (K & H & So & Hd & Hl & Hk);
      destruct (starting_km w x K i a Hx H Hd Hk St) as [Ka Li]; pose proof (elems_len w) as EL;
      pose proof (hops_length _ _ _ H) as KL.
    - cbn [last] in En. change (map fst (line_of run arrive [])) with (@nil nat) in Eq. rewrite app_nil_r in Eq.
      inversion Di; subst.
      assert (NL : List.length N + List.length post = 2 + List.length (rn run w) - i).
      { rewrite <- app_length, <- Eq, skipn_length, EL. reflexivity. }
      assert (NE : 0 < List.length N).
      { destruct En as [(-> & _)|(_ & p & m & t & -> & _)]; [cbn [List.length] in NL; lia|rewrite app_length; cbn; lia]. }
      assert (Nf : N = firstn (S (List.length N - 1)) (skipn i (elems_of w))).
      { rewrite Eq, firstn_app. replace (S (List.length N - 1)) with (List.length N) by lia.
        rewrite firstn_all, Nat.sub_diag. cbn [firstn]. symmetry. apply app_nil_r. }
      pose proof (hops_part g (snd w) (elems_of w) K i (List.length N - 1) H So) as P. rewrite <- Nf in P.
      eexists. split; [apply P; lia|].
      assert (Kb : (nth (i + (List.length N - 1)) K 0 == b)%Q); [|rewrite Kb, Ka; reflexivity].
      destruct En as [(-> & n & Hn & ->)|(Lp & p & m & t & -> & Sm & ->)].
      + cbn [List.length] in NL. replace (i + (List.length N - 1)) with (List.length K - 1) by lia.
        rewrite <- last_nth, (Hl n Hn). reflexivity.
      + rewrite app_length in *. cbn [List.length] in *.
        assert (exists j, i + (List.length p + 1 - 1) = S j /\ j < List.length (rn run w)) as (j & Ej & Lj).
        { exists (i + List.length p - 1). lia. }
        rewrite Ej. destruct (nth_error (rn run w) j) as [n|] eqn:Nj; [|apply nth_error_None in Nj; lia].
        assert (Fn : fst n = fst m).
        { pose proof (elems_nth w j Lj) as X. rewrite Nj, <- Ej in X. cbn [option_map] in X.
          assert (Y : nth_error (skipn i (elems_of w)) (List.length p) = Some (fst m)).
          { rewrite Eq, <- app_assoc, nth_error_app2, Nat.sub_diag by lia. reflexivity. }
          rewrite <- (firstn_skipn i (elems_of w)) in X.
          rewrite nth_error_app2 in X by (rewrite firstn_length; lia). rewrite firstn_length in X.
          replace (i + (List.length p + 1 - 1) - Nat.min i (List.length (elems_of w))) with (List.length p) in X by lia.
          congruence. }
        apply (Hk j n t); [exact Nj| |apply nth_error_nth'; lia].
        destruct Sm as (S1 & S2). split; rewrite Fn; assumption.
    - assert (El : last (w' :: ws) w = last ws w').
      { destruct ws as [|u ws]; [reflexivity|]. change (last (w' :: u :: ws) w) with (last (u :: ws) w). apply last_default. discriminate. }
      rewrite El in En.
      assert (Dev : exists n m k', node_at l (leaves w) n /\ node_at l (enters w') m /\ device n = device m /\ follows l xcourse k' w' ws).
      { inversion Fo; subst; eauto 8. }
      destruct Dev as (n & m & k' & Hn & Hm & Dnm & Fo').
      assert (Fr : fst (ar arrive w) = from w').
      { exact (nf_same _ _ _ _ _ F (leaves w) (enters w') n m Hn Hm Dnm). }
      inversion Di as [|? ? ? n' m' ? ? d' Hn' Hm' Di']; subst.
      assert (Li' : i < List.length (from w :: map fst (rn run w))) by (cbn; rewrite map_length; lia).
      set (X := skipn i (from w :: map fst (rn run w))).
      assert (Sk : skipn i (elems_of w) = X ++ [fst (ar arrive w)]).
      { unfold elems_of, X. rewrite app_comm_cons, skipn_app. replace (i - List.length (from w :: map fst (rn run w))) with 0 by lia. reflexivity. }
      assert (Ln : map fst (line_of run arrive (w' :: ws)) = map fst (rn run w') ++ [fst (ar arrive w')] ++ map fst (line_of run arrive ws)).
      { rewrite line_cons, map_app. reflexivity. }
      rewrite Sk, Ln, <- app_assoc in Eq.
      assert (Eq1 : X ++ (elems_of w' ++ map fst (line_of run arrive ws)) = N ++ post).
      { rewrite <- Eq. unfold elems_of. rewrite <- Fr. cbn [app]. rewrite <- app_assoc. reflexivity. }
      (* the end lies behind the first leg *)
      assert (Sh : List.length post < List.length (elems_of w' ++ map fst (line_of run arrive ws))).
      { assert (A : List.length post <= List.length (rn run (last ws w'))).
        { destruct En as [(-> & _)|(Lp & _)]; [cbn; lia|lia]. }
        rewrite app_length, elems_len.
        destruct (list_eq_dec_nil ws) as [->|NE]; [cbn [last] in A; lia|].
        destruct (exists_last NE) as (r & u & ->). rewrite last_last in A.
        rewrite line_app, map_app, app_length, line_cons, map_app, app_length, !map_length. lia. }
      assert (exists N', N = X ++ N' /\ elems_of w' ++ map fst (line_of run arrive ws) = N' ++ post) as (N' & -> & Eq').
      { apply app_eq_app in Eq1. destruct Eq1 as (z & [[Z1 Z2]|[Z1 Z2]]); [|exists z; auto]. exfalso.
        rewrite Z2, app_length in Sh. lia. }
      assert (NE : exists N'', N' = fst (ar arrive w) :: N'').
      { destruct N' as [|y N'']; [change ([] ++ post) with post in Eq'; rewrite Eq' in Sh; lia|].
        unfold elems_of in Eq'. cbn [app] in Eq'. injection Eq' as E1 _. exists N''. congruence. }
      destruct (IH k' w' 0 N' post (sn_km m') b d' Fo') as (s & S1 & S2); auto.
      { intros v Hv. apply Vs. right. exact Hv. }
      { left. split; [reflexivity|]. exists m'. auto. }
      { destruct En as [En|(Lp & p & m0 & t & Ep & Sm)]; [left; exact En|right]. split; [exact Lp|].
        destruct NE as (N'' & EN). destruct (@exists_last _ N') as (p' & y & Ey); [rewrite EN; discriminate|].
        rewrite Ey, app_assoc in Ep. apply app_inj_tail in Ep. destruct Ep as [_ ->]. exists p', m0, t. auto. }
      destruct NE as (N'' & ->).
      pose proof (hops_part g (snd w) (elems_of w) K i (List.length K - 1 - i) H So) as P.
      assert (Fi : firstn (S (List.length K - 1 - i)) (skipn i (elems_of w)) = X ++ [fst (ar arrive w)]).
      { rewrite firstn_all2; [exact Sk|]. rewrite skipn_length. lia. }
      rewrite Fi in P. replace (i + (List.length K - 1 - i)) with (List.length K - 1) in P by lia.
      rewrite <- last_nth, (Hl _ Hn') in P.
      eexists. split; [apply sum_app; [apply P; lia|exact S1]|]. rewrite S2, Ka. reflexivity.
  Qed.
End LEGS.
