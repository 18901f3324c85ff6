(* Proofs about the exclusion index and the exclusion graph. *)
From Coq Require Import Sorted Permutation ZifyBool ZifyNat ZifyN.
From Verif Require Import Base AlgoModel AlgoProofs Par RouteModel RouteProofs RouteSpec RouteIter RouteIndex
  ExclModel.
From Verif Require ExclusionSetModel ExclusionSetFacts.
Import ExclusionSetModel(es, es_default, make_es, INVALID, es_index, es_expanded).

Lemma Forall2_at {A B} (R : A -> B -> Prop) l l' : Forall2 R l l' -> forall k a b,
  nth_error l k = Some a -> nth_error l' k = Some b -> R a b.
Proof.
  induction 1 as [|x y l l' H F IH]; intros [|k] a b E1 E2; cbn in E1, E2; try discriminate.
  - congruence.
  - exact (IH k a b E1 E2).
Qed.

Lemma erase_duplicates_ok l : StronglySorted N.lt (erase_duplicates l) /\
  forall x, In x (erase_duplicates l) <-> In x l.
Proof.
  unfold erase_duplicates. split; [apply unique_sasc, sort_N_asc|].
  intros v. destruct (unique_In (sort_by N.leb l)) as [U _]. rewrite U.
  split; apply Permutation_in; [|symmetry]; apply sort_by_perm.
Qed.

(* ---- get_irs_to_exclusion_sets ---- *)
Definition set_pairs (sets : list (list N)) : list (N * N) :=
  concat (map (fun p => map (fun ir => (ir, N.of_nat (fst p))) (snd p)) (combine (seq 0 (length sets)) sets)).

Lemma in_combine_seq {A} (l : list A) : forall a i x,
  In (i, x) (combine (seq a (length l)) l) <-> a <= i /\ nth_error l (i - a) = Some x.
Proof.
  induction l as [|y l IH]; intros a i x; cbn [length seq combine In].
  - split; [intros []|]. intros [_ E]. destruct (i - a); discriminate E.
  - rewrite IH. split.
    + intros [E|[H E]].
      * injection E as <- <-. split; [lia|]. rewrite Nat.sub_diag. reflexivity.
      * split; [lia|]. replace (i - a) with (S (i - S a)) by lia. exact E.
    + intros [H E]. destruct (Nat.eq_dec a i) as [->|NE].
      * rewrite Nat.sub_diag in E. injection E as ->. left. reflexivity.
      * right. split; [lia|]. replace (i - a) with (S (i - S a)) in E by lia. exact E.
Qed.

Lemma in_set_pairs sets ir v : In (ir, v) (set_pairs sets) <->
  exists s, nth_error sets (N.to_nat v) = Some s /\ In ir s.
Proof.
  unfold set_pairs. rewrite in_concat. split.
  - intros [l [Il I]]. apply in_map_iff in Il as [[i s] [<- Ic]]. cbn [fst snd] in I.
    apply in_map_iff in I as [x [E Ix]]. injection E as -> <-.
    apply in_combine_seq in Ic as [_ E]. rewrite Nat.sub_0_r in E. exists s.
    rewrite Nnat.Nat2N.id. split; assumption.
  - intros [s [E I]]. exists (map (fun x => (x, v)) s). split; [|apply in_map_iff; exists ir; split; [reflexivity|exact I]].
    apply in_map_iff. exists (N.to_nat v, s). cbn [fst snd]. rewrite Nnat.N2Nat.id. split; [reflexivity|].
    apply in_combine_seq. split; [lia|]. rewrite Nat.sub_0_r. exact E.
Qed.

Lemma hits_app k a b : hits k (a ++ b) = hits k a ++ hits k b.
Proof. unfold hits. rewrite filter_app, map_app. reflexivity. Qed.

Lemma set_hits_asc k : forall sets a,
  StronglySorted N.le (hits k (concat (map (fun p => map (fun ir => (ir, N.of_nat (fst p))) (snd p))
                                        (combine (seq a (length sets)) sets)))) /\
  forall v, In v (hits k (concat (map (fun p => map (fun ir => (ir, N.of_nat (fst p))) (snd p))
                                        (combine (seq a (length sets)) sets)))) -> (N.of_nat a <= v)%N.
Proof.
  induction sets as [|s sets IH]; intros a; cbn [length seq combine map concat].
  - split; [constructor|intros v []].
  - destruct (IH (S a)) as [S1 B1]. cbn [fst snd]. rewrite hits_app.
    assert (H : forall v, In v (hits k (map (fun ir => (ir, N.of_nat a)) s)) -> v = N.of_nat a).
    { intros v I. apply in_hits in I. apply in_map_iff in I as [x [E _]]. injection E as _ <-. reflexivity. }
    split.
    + induction (hits k (map (fun ir => (ir, N.of_nat a)) s)) as [|v l IHl]; [exact S1|].
      cbn [app]. constructor; [apply IHl; intros w I; apply H; right; exact I|].
      rewrite Forall_forall. intros w I. apply in_app_iff in I as [I|I].
      * rewrite (H v (or_introl eq_refl)), (H w (or_intror I)). lia.
      * specialize (B1 w I). rewrite (H v (or_introl eq_refl)). lia.
    + intros v I. apply in_app_iff in I as [I|I]; [rewrite (H v I); lia|]. specialize (B1 v I). lia.
Qed.

Lemma set_pairs_NoDup sets : Forall (fun s => NoDup s) sets -> NoDup (set_pairs sets).
Proof.
  unfold set_pairs. intros F.
  assert (G : forall (l : list (list N)) a, Forall (fun s => NoDup s) l -> NoDup (concat (map (fun p => map (fun ir => (ir, N.of_nat (fst p))) (snd p))
                                        (combine (seq a (length l)) l)))).
  { clear. induction l as [|s l IH]; intros a F; cbn [length seq combine map concat]; [constructor|].
    inversion F as [|? ? F0 F1]; subst. cbn [fst snd].
    assert (D : forall x, In x (map (fun ir : N => (ir, N.of_nat a)) s) ->
                ~ In x (concat (map (fun p => map (fun ir : N => (ir, N.of_nat (fst p))) (snd p))
                                    (combine (seq (S a) (length l)) l)))).
    { intros x I1 I2. apply in_map_iff in I1 as [y [<- _]].
      apply in_concat in I2 as [r [Ir I2]]. apply in_map_iff in Ir as [[i t] [<- Ic]].
      apply in_map_iff in I2 as [z [E _]]. cbn [fst snd] in E. injection E as _ E.
      apply in_combine_seq in Ic as [Hi _]. lia. }
    assert (ND1 : NoDup (map (fun ir : N => (ir, N.of_nat a)) s)).
    { apply FinFun.Injective_map_NoDup; [|exact F0]. intros x y E. injection E as ->. reflexivity. }
    specialize (IH (S a) F1). revert D IH. generalize (concat (map (fun p => map (fun ir : N => (ir, N.of_nat (fst p))) (snd p))
                                    (combine (seq (S a) (length l)) l))).
    intros l2 D IH. induction ND1 as [|x l1 NI ND1 IH1]; [exact IH|].
    cbn [app]. constructor.
    - intros I. apply in_app_iff in I as [I|I]; [contradiction|]. exact (D x (or_introl eq_refl) I).
    - apply IH1. intros y Iy. apply D. right. exact Iy. }
  apply G. exact F.
Qed.

Lemma irs_to_sets_ok sets n : (forall s ir, In s sets -> In ir s -> N.to_nat ir < n) ->
  exists t, get_irs_to_exclusion_sets sets n = Ok t /\ length t = n /\
    forall k row, nth_error t k = Some row ->
      StronglySorted N.le row /\
      (forall v, In v row <-> exists s, nth_error sets (N.to_nat v) = Some s /\ In (N.of_nat k) s) /\
      (Forall (fun s => NoDup s) sets -> StronglySorted N.lt row).
Proof.
  intros B. destruct (table_ok n (set_pairs sets)) as [t [Et [Lt [_ Ht]]]].
  { rewrite Forall_forall. intros [ir v] I. apply in_set_pairs in I as [s [E I]]. cbn [fst].
    apply nth_error_In in E. exact (B s ir E I). }
  exists t. split; [exact Et|]. split; [exact Lt|]. intros k row E. rewrite (Ht k row E).
  pose proof (proj1 (set_hits_asc k sets 0)) as A. fold (set_pairs sets) in A. split; [exact A|]. split.
  - intros v. rewrite in_hits. apply in_set_pairs.
  - intros F. apply asc_NoDup_sasc; [exact A|]. apply hits_NoDup, set_pairs_NoDup, F.
Qed.

Lemma fill_range ps : forall t t', fill ps t = Ok t' -> Forall (fun p => N.to_nat (fst p) < length t) ps.
Proof.
  induction ps as [|[a b] ps IH]; intros t t' E; [constructor|]. cbn [fill] in E.
  apply bind_Ok in E as [row [Er E]]. apply IH in E. rewrite upd_length in E. constructor; [|exact E].
  cbn [fst]. unfold at_ in Er. apply nth_error_Some. destruct (nth_error t (N.to_nat a)); discriminate.
Qed.
Lemma fill_not ps t : ~ Forall (fun p => N.to_nat (fst p) < length t) ps -> fill ps t = UB.
Proof.
  revert t. induction ps as [|[a b] ps IH]; intros t NF; [exfalso; apply NF; constructor|].
  cbn [fill]. unfold at_. destruct (nth_error t (N.to_nat a)) as [row|] eqn:E; [|reflexivity].
  cbn [bind]. apply IH. rewrite upd_length. intros F. apply NF. constructor; [|exact F].
  cbn [fst]. apply nth_error_Some. congruence.
Qed.

(* ---- get_closed_element_used_by ---- *)
Definition swap (p : N * N) : N * N := (snd p, fst p).

Lemma push_fill t ps : forall tbl,
  run_fns (map (fun p => (t, push (fst p) (snd p))) ps) tbl = fill (map swap ps) tbl.
Proof.
  induction ps as [|[a b] ps IH]; intros tbl; [reflexivity|].
  cbn [map run_fns fill swap fst snd]. unfold push at 1. unfold at_.
  destruct (nth_error tbl (N.to_nat b)) as [row|]; [|reflexivity]. cbn [bind]. apply IH.
Qed.

Lemma in_uses closed f t i e : In (i, e) (uses closed f t) <->
  f <= N.to_nat i < t /\ In e (nth (N.to_nat i) closed []).
Proof.
  unfold uses. rewrite in_concat. split.
  - intros [l [Il I]]. apply in_map_iff in Il as [j [<- Ij]]. apply in_map_iff in I as [x [E Ix]].
    injection E as <- ->. apply in_seq in Ij. rewrite Nnat.Nat2N.id. split; [lia|exact Ix].
  - intros [H I]. exists (map (fun x => (i, x)) (nth (N.to_nat i) closed [])). split.
    + apply in_map_iff. exists (N.to_nat i). rewrite Nnat.N2Nat.id. split; [reflexivity|]. apply in_seq. lia.
    + apply in_map_iff. exists e. split; [reflexivity|exact I].
Qed.

(* the batches of the threads cover every route *)
Lemma batch_cover n T i : 0 < T -> i < n ->
  exists t, t < T /\ fst (batch n T t) <= i < snd (batch n T t).
Proof.
  intros HT Hi. unfold batch. cbn [fst snd].
  assert (B : (n / T) * T <= n) by (rewrite Nat.mul_comm; apply Nat.mul_div_le; lia).
  destruct (Nat.le_gt_cases ((T - 1) * (n / T)) i) as [H|H].
  - exists (T - 1). rewrite Nat.eqb_refl. lia.
  - assert (Hb : n / T <> 0) by (intros E; rewrite E in H; lia).
    exists (i / (n / T)).
    assert (L : i / (n / T) < T - 1) by (apply Nat.div_lt_upper_bound; lia).
    split; [lia|]. destruct (Nat.eqb_spec (i / (n / T)) (T - 1)) as [E|_]; [lia|].
    pose proof (Nat.div_mod i (n / T) Hb). pose proof (Nat.mod_upper_bound i (n / T) Hb). lia.
Qed.
Lemma batch_end n T t : t < T -> snd (batch n T t) <= n.
Proof.
  intros H. unfold batch. cbn [snd]. destruct (Nat.eqb_spec t (T - 1)) as [E|NE]; [lia|].
  assert (B : (n / T) * T <= n) by (rewrite Nat.mul_comm; apply Nat.mul_div_le; lia). nia.
Qed.

Lemma par_exists {A} (sched : list nat) (ths : list (list (@action A))) (mem : list A) (P : nat -> A -> Prop) :
  length ths = length mem ->
  (forall i fs m, nth_error ths i = Some fs -> nth_error mem i = Some m ->
     Forall (fun o => fst o = i) fs /\ exists r, run_fns fs m = Ok r /\ P i r) ->
  exists R, par_run sched ths mem = Ok R /\ length R = length mem /\
    forall i r, nth_error R i = Some r -> P i r.
Proof.
  intros L H.
  assert (G : forall ths mem d, length ths = length mem ->
    (forall i fs m, nth_error ths i = Some fs -> nth_error mem i = Some m ->
       Forall (fun o => fst o = d + i) fs /\ exists r, run_fns fs m = Ok r /\ P (d + i) r) ->
    exists R, length R = length mem /\ forall i fs m r, nth_error ths i = Some fs -> nth_error mem i = Some m ->
      nth_error R i = Some r -> Forall (fun o => fst o = d + i) fs /\ run_fns fs m = Ok r /\ P (d + i) r).
  { clear. induction ths as [|fs ths IH]; intros [|m mem] d L H; try discriminate L.
    - exists []. split; [reflexivity|]. intros [|i] fs m r E; discriminate E.
    - destruct (IH mem (S d)) as [R [LR HR]].
      + injection L; auto.
      + intros i fs' m' E1 E2. replace (S d + i) with (d + S i) by lia. apply (H (S i) fs' m' E1 E2).
      + destruct (H 0 fs m eq_refl eq_refl) as [F [r [Er Pr]]].
        exists (r :: R). split; [cbn; lia|]. intros [|i] fs' m' r' E1 E2 E3; cbn in E1, E2, E3.
        * injection E1 as <-. injection E2 as <-. injection E3 as <-. repeat split; assumption.
        * replace (d + S i) with (S d + i) by lia. apply (HR i fs' m' r' E1 E2 E3). }
  destruct (G ths mem 0 L H) as [R [LR HR]]. exists R. split.
  - apply par_run_owned. split; [exact L|]. split; [exact LR|]. intros i fs m r E1 E2 E3.
    destruct (HR i fs m r E1 E2 E3) as [F [E _]]. split; assumption.
  - split; [exact LR|]. intros i r E3.
    assert (i < length R) by (apply nth_error_Some; congruence).
    destruct (nth_error ths i) as [fs|] eqn:E1; [|apply nth_error_None in E1; lia].
    destruct (nth_error mem i) as [m|] eqn:E2; [|apply nth_error_None in E2; lia].
    apply (HR i fs m r E1 E2 E3).
Qed.

Lemma nth_error_seq n i : i < n -> nth_error (seq 0 n) i = Some i.
Proof.
  intros H. rewrite (nth_error_nth' (seq 0 n) 0) by (rewrite seq_length; exact H).
  rewrite seq_nth by exact H. reflexivity.
Qed.
Lemma nth_error_map_seq {A} (f : nat -> A) n i x : nth_error (map f (seq 0 n)) i = Some x -> i < n /\ x = f i.
Proof.
  intros E. assert (H : i < n).
  { assert (i < length (map f (seq 0 n))) by (apply nth_error_Some; congruence).
    rewrite map_length, seq_length in H. exact H. }
  split; [exact H|]. rewrite nth_error_map, nth_error_seq in E by exact H. cbn in E. congruence.
Qed.
Lemma nth_error_repeat_some {A} (a : A) n i x : nth_error (repeat a n) i = Some x -> x = a.
Proof. intros E. apply nth_error_In, repeat_spec in E. exact E. Qed.

Lemma combine_run e trs : forall row rs, Forall2 (fun tr r => nth_error tr e = Some r) trs rs ->
  run_fns (combine_results trs e) row = Ok (row ++ concat rs).
Proof.
  induction trs as [|tr trs IH]; intros row rs F; inversion F as [|? r ? rs' F0 F1]; subst.
  - cbn. rewrite app_nil_r. reflexivity.
  - unfold combine_results. cbn [map run_fns snd]. unfold at_. rewrite F0. cbn [bind].
    fold (combine_results trs e). rewrite (IH _ rs' F1). cbn [concat]. rewrite app_assoc. reflexivity.
Qed.

Lemma used_by_ok T sched1 sched2 sched3 closed n : 0 < T ->
  (forall row e, In row closed -> In e row -> N.to_nat e < n) ->
  exists t, get_closed_element_used_by T sched1 sched2 sched3 closed n = Ok t /\ length t = n /\
    forall e row, nth_error t e = Some row ->
      StronglySorted N.lt row /\
      forall ir, In ir row <-> exists els, nth_error closed (N.to_nat ir) = Some els /\ In (N.of_nat e) els.
Proof.
  intros HT B. unfold get_closed_element_used_by.
  destruct (par_exists sched1 (map (generate_used_by closed T) (seq 0 T)) (repeat (repeat [] n) T)
     (fun t tbl => length tbl = n /\ forall e row, nth_error tbl e = Some row -> forall ir, In ir row <->
        fst (batch (length closed) T t) <= N.to_nat ir < snd (batch (length closed) T t) /\
        In (N.of_nat e) (nth (N.to_nat ir) closed [])))
    as [tr [E1 [L1 H1]]].
  { rewrite map_length, seq_length, repeat_length. reflexivity. }
  { intros t fs m Ef Em. apply nth_error_map_seq in Ef as [Ht ->]. apply nth_error_repeat_some in Em. subst m.
    unfold generate_used_by.
    pose proof (batch_end (length closed) T t Ht) as BE.
    destruct (batch (length closed) T t) as [f to] eqn:EB. cbn [fst snd] in *. split.
    { rewrite Forall_forall. intros o I. apply in_map_iff in I as [p [<- _]]. reflexivity. }
    rewrite push_fill.
    destruct (table_ok n (map swap (uses closed f to))) as [tbl [Et [Lt [_ Hh]]]].
    { rewrite Forall_forall. intros p I. apply in_map_iff in I as [[i e] [<- I]]. cbn [swap fst snd].
      apply in_uses in I as [Hi I]. eapply B; [|exact I]. apply nth_In. lia. }
    exists tbl. split; [exact Et|]. split; [exact Lt|]. intros e row E ir. rewrite (Hh e row E), in_hits.
    rewrite <- (in_uses closed f to). rewrite in_map_iff. unfold swap. split.
    - intros [[a b] [EQ I]]. cbn [fst snd] in EQ. injection EQ as -> ->. exact I.
    - intros I. exists (ir, N.of_nat e). split; [reflexivity|exact I]. }
  rewrite E1. cbn [bind]. rewrite repeat_length in L1.
  destruct (par_exists sched2 (map (combine_results tr) (seq 0 n)) (repeat [] n)
     (fun e row => e < n /\ forall ir, In ir row <-> exists els, nth_error closed (N.to_nat ir) = Some els /\ In (N.of_nat e) els))
    as [t2 [E2 [L2 H2]]].
  { rewrite map_length, seq_length, repeat_length. reflexivity. }
  { intros e fs m Ef Em. apply nth_error_map_seq in Ef as [He ->]. apply nth_error_repeat_some in Em. subst m. split.
    { rewrite Forall_forall. intros o I. apply in_map_iff in I as [p [<- _]]. reflexivity. }
    assert (FR : exists rs, Forall2 (fun t r => nth_error t e = Some r) tr rs).
    { assert (FL : Forall (fun t => length t = n) tr).
      { rewrite Forall_forall. intros t I. apply In_nth_error in I as [k Ek]. apply (H1 k t Ek). }
      clear -FL He. induction FL as [|t l Lt FL [rs IH]]; [exists []; constructor|].
      destruct (nth_error t e) as [r|] eqn:E; [|apply nth_error_None in E; lia].
      exists (r :: rs). constructor; assumption. }
    destruct FR as [rs FR]. exists (concat rs). rewrite (combine_run e tr [] rs FR). split; [reflexivity|].
    split; [exact He|]. intros ir. rewrite in_concat. split.
    - intros [r [Ir I]]. apply In_nth_error in Ir as [k Ek].
      destruct (nth_error tr k) as [t|] eqn:Et.
      2:{ apply nth_error_None in Et. assert (k < length rs) by (apply nth_error_Some; congruence).
          rewrite (Forall2_len _ _ _ FR) in Et. lia. }
      pose proof (Forall2_at _ _ _ FR _ _ _ Et Ek) as Er. cbv beta in Er.
      destruct (H1 k t Et) as [_ Hk]. apply (Hk e r Er) in I as [HB I].
      exists (nth (N.to_nat ir) closed []). split; [|exact I].
      apply nth_error_nth'. pose proof (batch_end (length closed) T k) as BE.
      assert (k < T) by (rewrite <- L1; apply nth_error_Some; congruence). lia.
    - intros [els [Ee I]].
      assert (Hi : N.to_nat ir < length closed) by (apply nth_error_Some; congruence).
      destruct (batch_cover (length closed) T (N.to_nat ir) HT Hi) as [k [Hk HB]].
      destruct (nth_error tr k) as [t|] eqn:Et; [|apply nth_error_None in Et; lia].
      destruct (nth_error rs k) as [r|] eqn:Er.
      2:{ apply nth_error_None in Er. rewrite <- (Forall2_len _ _ _ FR) in Er. lia. }
      exists r. split; [apply nth_error_In in Er; exact Er|].
      pose proof (Forall2_at _ _ _ FR _ _ _ Et Er) as Eq. cbv beta in Eq.
      destruct (H1 k t Et) as [_ Hr]. apply (Hr e r Eq). split; [exact HB|].
      rewrite (nth_error_nth _ _ [] Ee). exact I. }
  rewrite E2. cbn [bind]. rewrite repeat_length in L2.
  destruct (par_exists sched3 (map remove_duplicates (seq 0 n)) t2
     (fun e row => StronglySorted N.lt row /\ forall ir, In ir row <-> exists els, nth_error closed (N.to_nat ir) = Some els /\ In (N.of_nat e) els))
    as [t3 [E3 [L3 H3]]].
  { rewrite map_length, seq_length. symmetry. exact L2. }
  { intros e fs m Ef Em. apply nth_error_map_seq in Ef as [He ->]. split.
    { constructor; [reflexivity|constructor]. }
    exists (erase_duplicates m). split; [reflexivity|]. destruct (erase_duplicates_ok m) as [S1 I1].
    split; [exact S1|]. intros ir. rewrite I1. apply (H2 e m Em). }
  rewrite E3. cbn [bind]. exists t3. rewrite L3, L2. unfold sassert. rewrite Nat.eqb_refl.
  split; [reflexivity|]. split; [reflexivity|exact H3].
Qed.

(* ---- the exclusion graph ---- *)
Lemma sd_cons a t1 b t2 : set_difference (a :: t1) (b :: t2) =
  if N.ltb a b then a :: set_difference t1 (b :: t2)
  else if N.ltb b a then set_difference (a :: t1) t2 else set_difference t1 t2.
Proof. reflexivity. Qed.

Lemma set_difference_ok l1 : StronglySorted N.lt l1 -> forall l2, StronglySorted N.lt l2 ->
  StronglySorted N.lt (set_difference l1 l2) /\
  forall x, In x (set_difference l1 l2) <-> In x l1 /\ ~ In x l2.
Proof.
  induction 1 as [|a t1 S1 IH1 F1]; intros l2 S2.
  { destruct l2; split; try constructor; cbn; tauto. }
  induction S2 as [|b t2 S2 IH2 F2].
  { cbn. split; [constructor; assumption|tauto]. }
  rewrite sd_cons. rewrite Forall_forall in F1, F2.
  destruct (N.ltb_spec a b) as [L|L].
  - destruct (IH1 (b :: t2)) as [SS II]; [constructor; [exact S2|rewrite Forall_forall; exact F2]|].
    split.
    + constructor; [exact SS|]. rewrite Forall_forall. intros x Ix. apply II in Ix. apply F1, Ix.
    + intros x. cbn [In]. rewrite II. cbn [In]. split.
      * intros [<-|[H1 H2]]; [split; [left; reflexivity|]|tauto].
        intros [<-|I]; [lia|]. specialize (F2 _ I). lia.
      * tauto.
  - destruct (N.ltb_spec b a) as [L'|L'].
    + destruct IH2 as [SS II]. split; [exact SS|]. intros x. rewrite II. cbn [In]. split.
      * intros [H1 H2]. split; [exact H1|]. intros [<-|I]; [|tauto]. destruct H1 as [->|H1]; [lia|]. specialize (F1 _ H1). lia.
      * tauto.
    + assert (a = b) by lia. subst b. destruct (IH1 t2 S2) as [SS II]. split; [exact SS|]. intros x. rewrite II. cbn [In]. split.
      * intros [H1 H2]. split; [tauto|]. intros [<-|I]; [|tauto]. specialize (F1 _ H1). lia.
      * tauto.
Qed.

Lemma used_rows_sorted t : (forall e row, nth_error t e = Some row -> StronglySorted N.lt row) ->
  forallb is_sorted t = true.
Proof.
  intros H. apply forallb_forall. intros row I. apply In_nth_error in I as [e E].
  apply is_sorted_asc, sasc_asc. exact (H e row E).
Qed.

Section GRAPH.
  Variable pick : list (list N) -> nat.
  Hypothesis PK : top_ok pick.
  Variable srs : list sroute.
  Variable irs : list iroute.
  Variables closed used_by sa ea : list (list N).
  Variable ncount ecount : nat.
  Hypothesis PR : Forall (proper srs) irs.
  Hypothesis IDS : forall k r, nth_error irs k = Some r -> ir_id r = N.of_nat k.
  Hypothesis SMALL : (N.of_nat (length irs) <= 2 ^ 32 - 64)%N.
  Hypothesis LC : length closed = length irs.
  Hypothesis CS : forall row, In row closed -> StronglySorted N.le row.
  Hypothesis CE : forall row e, In row closed -> In e row -> N.to_nat e < ecount.
  Hypothesis UL : length used_by = ecount.
  Hypothesis UB : forall e row, nth_error used_by e = Some row ->
      StronglySorted N.lt row /\
      forall ir, In ir row <-> exists els, nth_error closed (N.to_nat ir) = Some els /\ In (N.of_nat e) els.
  Hypothesis SA : length sa = ncount /\ lists_exactly sa irs (starts_at srs).
  Hypothesis EA : length ea = ncount /\ lists_exactly ea irs (ends_at srs).
  Hypothesis NB : nodes_below srs ncount.

  Definition conflict (i j : nat) : Prop :=
    (exists e a b, nth_error closed i = Some a /\ nth_error closed j = Some b /\ In e a /\ In e b) /\
    forall ri rj, nth_error irs i = Some ri -> nth_error irs j = Some rj ->
      ~ (exists n, ends_at srs ri n /\ starts_at srs rj n) /\
      ~ (exists n, ends_at srs rj n /\ starts_at srs ri n).

  Lemma graph_ok_ sched : exists g, get_exclusion_graph pick srs closed used_by sa ea sched irs = Ok g /\
    length g = length irs /\
    forall i s, nth_error g i = Some s ->
      (forall j, (j < 2 ^ 32)%N -> (es_index s j = true <-> conflict i (N.to_nat j))) /\
      StronglySorted N.lt (es_expanded s) /\
      (forall j, In j (es_expanded s) <-> conflict i (N.to_nat j)) /\
      ExclusionSetModel.es_iterate s = Ok (es_expanded s).
  Proof.
    unfold get_exclusion_graph.
    rewrite (used_rows_sorted used_by) by (intros e row E; apply (UB e row E)).
    rewrite (proj2 (forallb_forall is_sorted closed)).
    2:{ intros row I. apply is_sorted_asc. exact (CS row I). }
    cbn [sassert bind].
    destruct (par_exists sched
      (map (fun i => [(i, fun _ : es => do ir <- at_ irs i; neighbours pick srs closed used_by sa ea i ir)]) (seq 0 (length closed)))
      (repeat es_default (length closed))
      (fun i s => (forall j, (j < 2 ^ 32)%N -> (es_index s j = true <-> conflict i (N.to_nat j))) /\
         StronglySorted N.lt (es_expanded s) /\ (forall j, In j (es_expanded s) <-> conflict i (N.to_nat j)) /\
         ExclusionSetModel.es_iterate s = Ok (es_expanded s))) as [g [Eg [Lg Hg]]].
    - rewrite map_length, seq_length, repeat_length. reflexivity.
    - intros i fs m Ef Em. apply nth_error_map_seq in Ef as [Hi ->].
      split; [constructor; [reflexivity|constructor]|].
      cbn [run_fns snd]. rewrite LC in Hi.
      destruct (at_lt irs i Hi) as [r [Er Ea]]. rewrite Ea. cbn [bind].
      assert (Pr : proper srs r) by (rewrite Forall_forall in PR; apply PR; apply nth_error_In in Er; exact Er).
      destruct Pr as [W [NE [Ls Le]]].
      destruct (first_node_ok srs r W NE Ls) as [fn [Efn Cf]].
      destruct (last_node_ok srs r W NE Le) as [ln [Eln Cl]].
      unfold neighbours. rewrite <- LC in Hi. destruct (at_lt closed i Hi) as [els [Eels Eat]]. rewrite Eat. cbn [bind].
      destruct (mapM_ok (fun e => at_ used_by (N.to_nat e)) els) as [ranges [Emm Fm]].
      { intros e Ie. assert (He : N.to_nat e < length used_by).
        { rewrite UL. eapply CE; [|exact Ie]. apply nth_error_In in Eels. exact Eels. }
        destruct (at_lt used_by _ He) as [row [_ E]]. exists row. exact E. }
      rewrite Emm. cbn [bind].
      assert (AS : Forall sasc ranges).
      { rewrite Forall_forall. intros row I. destruct (Forall2_in_r _ _ _ Fm row I) as [e [_ E]].
        unfold at_ in E. destruct (nth_error used_by (N.to_nat e)) as [x|] eqn:Ex; [|discriminate E].
        injection E as <-. apply (UB _ _ Ex). }
      destruct (multi_set_merge_ok pick PK ranges) as [mg [Emg [_ [Hmg Smg]]]].
      { eapply Forall_impl; [|exact AS]. intros x. apply sasc_asc. }
      specialize (Smg AS). rewrite Emg, Eln. cbn [bind].
      destruct SA as [LSA HSA], EA as [LEA HEA].
      assert (Hl : N.to_nat ln < length sa) by (rewrite LSA; apply (cell_below srs ncount _ _ NB Cl)).
      destruct (at_lt sa _ Hl) as [ra [Ea1 Ea2]]. rewrite Ea2, Efn. cbn [bind].
      assert (Hf : N.to_nat fn < length ea) by (rewrite LEA; apply (cell_below srs ncount _ _ NB Cf)).
      destruct (at_lt ea _ Hf) as [rb [Eb1 Eb2]]. rewrite Eb2. cbn [bind].
      destruct (HSA _ _ Ea1) as [_ IA]. destruct (HEA _ _ Eb1) as [_ IB].
      rewrite Nnat.N2Nat.id in IA, IB.
      destruct (erase_duplicates_ok (ra ++ rb)) as [SE IE].
      destruct (set_difference_ok mg Smg _ SE) as [SD ID].
      assert (MEM : forall x, In x mg <-> exists e a, nth_error closed (N.to_nat x) = Some a /\ In e els /\ In e a).
      { intros x. rewrite Hmg, in_concat. split.
        - intros [row [Ir I]]. destruct (Forall2_in_r _ _ _ Fm row Ir) as [e [Ie E]].
          unfold at_ in E. destruct (nth_error used_by (N.to_nat e)) as [y|] eqn:Ex; [|discriminate E].
          injection E as <-. apply (UB _ _ Ex) in I as [a [E1 I1]]. rewrite Nnat.N2Nat.id in I1.
          exists e, a. repeat split; assumption.
        - intros [e [a [E1 [I1 I2]]]]. destruct (Forall2_in_l _ _ _ Fm e I1) as [row [Ir E]]. exists row.
          split; [exact Ir|]. unfold at_ in E. destruct (nth_error used_by (N.to_nat e)) as [y|] eqn:Ex; [|discriminate E].
          injection E as <-. apply (UB _ _ Ex). exists a. rewrite Nnat.N2Nat.id. split; assumption. }
      destruct (ExclusionSetFacts.make_contains_exactly INVALID _ (sasc_asc _ SD)) as [s [Es [_ [Hs [Hss [Hin _]]]]]].
      { intros x Ix. apply ID in Ix as [Ix _]. apply MEM in Ix as [e [a [E1 _]]].
        assert (N.to_nat x < length closed) by (apply nth_error_Some; congruence). lia. }
      assert (IT : ExclusionSetModel.es_iterate s = Ok (es_expanded s)).
      { apply ExclusionSetFacts.iteration_spec. eapply ExclusionSetMore.reach_make; [|exact Es].
        intros x Ix. apply ID in Ix as [Ix _]. apply MEM in Ix as [e [a [E1 _]]].
        assert (N.to_nat x < length closed) by (apply nth_error_Some; congruence).
        unfold M32. lia. }
      rewrite Es. cbn [bind]. exists s. split; [reflexivity|].
      enough (CF : forall j, In j (set_difference mg (erase_duplicates (ra ++ rb))) <-> conflict i (N.to_nat j)).
      { split; [intros j Hj; rewrite (Hs j Hj); apply CF|]. split; [exact Hss|].
        split; [|exact IT]. intros j. rewrite Hin. apply CF. }
      intros j. rewrite ID, MEM, IE, in_app_iff, IA, IB.
      unfold conflict. split.
      + intros [[e [a [E1 [I1 I2]]]] NR]. split; [exists e, els, a; repeat split; assumption|].
        intros ri rj Eri Erj. assert (ri = r) by congruence. subst ri.
        split; intros [n [Hn1 Hn2]]; apply NR.
        * left. exists rj. apply nth_error_In in Erj as Irj. split; [exact Irj|]. split; [rewrite (IDS _ _ Erj); lia|].
          assert (n = ln) by (apply (cell_node_fun srs _ _ _ Hn1 Cl)). subst n. exact Hn2.
        * right. exists rj. apply nth_error_In in Erj as Irj. split; [exact Irj|]. split; [rewrite (IDS _ _ Erj); lia|].
          assert (n = fn) by (apply (cell_node_fun srs _ _ _ Hn2 Cf)). subst n. exact Hn1.
      + intros [[e [a [b [E1 [E2 [I1 I2]]]]]] NR]. assert (a = els) by congruence. subst a.
        split; [exists e, b; repeat split; assumption|].
        assert (IX : forall r', In r' irs -> ir_id r' = j -> nth_error irs (N.to_nat j) = Some r').
        { intros r' Ir' Ej. apply In_nth_error in Ir' as [k Ek]. rewrite (IDS _ _ Ek) in Ej. subst j.
          rewrite Nnat.Nat2N.id. exact Ek. }
        intros [[r' [Ir' [Ej Hs1]]]|[r' [Ir' [Ej Hs1]]]]; destruct (NR r r' Er (IX r' Ir' Ej)) as [N1 N2].
        * apply N1. exists ln. split; [exact Cl|exact Hs1].
        * apply N2. exists fn. split; [exact Hs1|exact Cf].
    - rewrite Eg. exists g. rewrite repeat_length in Lg. split; [reflexivity|]. split; [congruence|exact Hg].
  Qed.
End GRAPH.
