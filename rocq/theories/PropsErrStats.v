(* C132 the report of rejected trains under every schedule of the workers *)
From Verif Require Import Base ErrStatsModel.
From Coq Require Import Sorting.Sorted.

(* ---- vocabulary ---- *)
(* every worker is through with its trains and has left the counting *)
Definition all_done (s : estate) : Prop := forall w, In w (es_workers s) -> w = (Out, []).
Definition times (c : nat) (files : list (list nat)) : nat := count_occ Nat.eq_dec (concat files) c.
(* a worker between taking and releasing the lock *)
Definition inside (s : estate) (i : nat) : Prop :=
  exists p l, nth_error (es_workers s) i = Some (p, l) /\ p <> Out.

(* ---- maps ---- *)
Definition asc (m : emap) : Prop := StronglySorted lt (map fst m).

Lemma eput_keys c n m k : In k (map fst (eput c n m)) <-> k = c \/ In k (map fst m).
Proof.
  induction m as [|[k0 v] t IH]; simpl; [intuition|].
  destruct (Nat.ltb_spec c k0); simpl; [intuition|].
  destruct (Nat.eqb_spec k0 c); simpl; [subst; intuition|]. rewrite IH. intuition.
Qed.
Lemma eput_asc c n m : asc m -> asc (eput c n m).
Proof.
  unfold asc. induction m as [|[k0 v] t IH]; simpl; intros H; [repeat constructor|].
  inversion H as [|x y Ht Hf]; subst. rewrite Forall_forall in Hf.
  destruct (Nat.ltb_spec c k0); simpl.
  - constructor; [exact H|]. constructor; [lia|]. rewrite Forall_forall. intros x Hx. specialize (Hf _ Hx). lia.
  - destruct (Nat.eqb_spec k0 c); simpl.
    + subst. constructor; [exact Ht|]. rewrite Forall_forall. exact Hf.
    + constructor; [apply IH, Ht|]. rewrite Forall_forall. intros x Hx. apply eput_keys in Hx.
      destruct Hx as [->|Hx]; [lia|]. apply Hf, Hx.
Qed.
Lemma eget_none c m : asc m -> (forall k, In k (map fst m) -> (c < k)%nat) -> eget c m = None.
Proof.
  intros _ H. induction m as [|[k v] t IH]; simpl; [reflexivity|].
  destruct (Nat.eqb_spec k c); [subst; specialize (H c (or_introl eq_refl)); lia|]. apply IH. intros; apply H; simpl; auto.
Qed.
Lemma eget_put c n m x : asc m -> eget x (eput c n m) = if Nat.eqb c x then Some n else eget x m.
Proof.
  unfold asc. induction m as [|[k0 v] t IH]; simpl; intros H; [reflexivity|].
  inversion H as [|a b Ht Hf]; subst. rewrite Forall_forall in Hf.
  destruct (Nat.ltb_spec c k0); simpl; [destruct (Nat.eqb_spec c x); reflexivity|].
  destruct (Nat.eqb_spec k0 c); simpl.
  - subst. destruct (Nat.eqb_spec c x); reflexivity.
  - rewrite IH by exact Ht. destruct (Nat.eqb_spec k0 x), (Nat.eqb_spec c x); congruence.
Qed.
Lemma eget_in c m : asc m -> forall n, eget c m = Some n <-> In (c, n) m.
Proof.
  unfold asc. induction m as [|[k0 v] t IH]; simpl; intros H n; [split; [discriminate|tauto]|].
  inversion H as [|a b Ht Hf]; subst. rewrite Forall_forall in Hf.
  destruct (Nat.eqb_spec k0 c).
  - subst. split; [intros E; inversion E; auto|]. intros [E|E]; [inversion E; reflexivity|].
    apply (in_map fst) in E. specialize (Hf _ E). simpl in Hf. lia.
  - rewrite IH by exact Ht. split; [auto|]. intros [E|E]; [inversion E; congruence|exact E].
Qed.
Lemma eget_key c m : (exists n, eget c m = Some n) <-> In c (map fst m).
Proof.
  induction m as [|[k v] t IH]; simpl; [split; [intros [n E]; discriminate|tauto]|].
  destruct (Nat.eqb_spec k c); [split; [auto|intros _; eauto]|]. rewrite IH. intuition.
Qed.

(* ---- invariant ---- *)
Definition eleft (w : worker) : list nat := match fst w with Stored => tl (snd w) | _ => snd w end.
Definition val (c : nat) (m : emap) : N := match eget c m with Some n => n | None => 0%N end.
Definition pend (c : nat) (ws : list worker) : nat := count_occ Nat.eq_dec (concat (map eleft ws)) c.
Definition stage (w : worker) : nat :=
  match w with (p, l) => 5 * length l - match p with Out => 0 | Entered => 1 | Found => 2 | Loaded _ => 3 | Stored => 4 end end.
Definition wok (m : emap) (w : worker) : Prop :=
  match w with
  | (Out, _) => True
  | (Entered, l) => l <> []
  | (Found, l) | (Stored, l) => exists c r, l = c :: r /\ exists n, eget c m = Some n
  | (Loaded n, l) => exists c r, l = c :: r /\ eget c m = Some n
  end.
Definition sum (l : list nat) : nat := fold_right Nat.add 0 l.

Record inv (files : list (list nat)) (k : nat) (s : estate) : Prop := {
  i_asc : asc (es_map s);
  i_own : forall j w, nth_error (es_workers s) j = Some w -> (fst w <> Out <-> es_lock s = Some j);
  i_len : forall j, es_lock s = Some j -> (j < length (es_workers s))%nat;
  i_ok : forall w, In w (es_workers s) -> wok (es_map s) w;
  i_lt : forall c n, eget c (es_map s) = Some n -> (n < 2 ^ 64)%N;
  i_sum : forall c, ((val c (es_map s) + N.of_nat (pend c (es_workers s))) mod 2 ^ 64 = N.of_nat (times c files) mod 2 ^ 64)%N;
  i_key : forall c, In c (map fst (es_map s)) -> In c (concat files);
  i_all : forall c, In c (concat files) -> In c (map fst (es_map s)) \/ In c (concat (map eleft (es_workers s)));
  i_sub : forall c w, In w (es_workers s) -> In c (snd w) -> In c (concat files);
  i_num : (k + sum (map stage (es_workers s)) = 5 * length (concat files))%nat }.

Lemma sum_app a b : sum (a ++ b) = (sum a + sum b)%nat.
Proof. unfold sum. induction a; simpl; lia. Qed.

Lemma inv_start files : inv files 0 (estart files).
Proof.
  assert (L : concat (map eleft (map (fun l : list nat => (Out, l)) files)) = concat files).
  { rewrite map_map. unfold eleft. simpl. now rewrite map_id. }
  constructor; simpl.
  - constructor.
  - intros j w H. apply nth_error_In in H. apply in_map_iff in H. destruct H as [l [<- _]]. simpl. split; [tauto|discriminate].
  - discriminate.
  - intros w H. apply in_map_iff in H. destruct H as [l [<- _]]. exact I.
  - discriminate.
  - intros c. unfold val, pend, times. simpl eget. cbn match. rewrite L. reflexivity.
  - tauto.
  - intros c H. right. now rewrite L.
  - intros c w H Hc. apply in_map_iff in H. destruct H as [l [<- Hl]]. apply in_concat. eauto.
  - clear L. induction files as [|f t IH]; simpl; [reflexivity|]. rewrite app_length. simpl in *. lia.
Qed.

Lemma nth_mid {A} (a : list A) w b j v : nth_error (a ++ w :: b) j = Some v -> (j = length a /\ v = w) \/ (j <> length a /\ forall w', nth_error (a ++ w' :: b) j = Some v).
Proof.
  intros H. destruct (Nat.lt_trichotomy j (length a)) as [L|[L|L]].
  - right. split; [lia|]. intros w'. rewrite nth_error_app1 in * by exact L. exact H.
  - left. subst j. rewrite nth_error_app2, Nat.sub_diag in H by lia. simpl in H. split; congruence.
  - right. split; [lia|]. intros w'. rewrite nth_error_app2 in * by lia. destruct (j - length a) eqn:E; [lia|]. exact H.
Qed.
Lemma in_other {A} (a : list A) w w' b v : In v (a ++ w' :: b) -> v = w' \/ In v (a ++ w :: b).
Proof. rewrite !in_app_iff. simpl. intuition. Qed.

Lemma others_out (a : list worker) w b (lk : option nat) : (forall j v, nth_error (a ++ w :: b) j = Some v -> (fst v <> Out <-> lk = Some j)) ->
  (lk = None \/ lk = Some (length a)) -> forall v w', In v (a ++ w' :: b) -> v = w' \/ fst v = Out.
Proof.
  intros O L v w' H. apply In_nth_error in H. destruct H as [j H]. apply nth_mid in H. destruct H as [[_ ->]|[Hj H]]; [auto|].
  right. specialize (O j v (H w)). destruct (fst v); [reflexivity| | | |];
    (destruct O as [O _]; specialize (O ltac:(discriminate)); destruct L as [L|L]; congruence).
Qed.
Lemma wok_out m (v : worker) : fst v = Out -> wok m v.
Proof. destruct v as [p l]. simpl. intros ->. exact I. Qed.

Lemma pend_mid c a w b : pend c (a ++ w :: b) = (pend c (a ++ b) + count_occ Nat.eq_dec (eleft w) c)%nat.
Proof. unfold pend. rewrite !map_app, !concat_app. simpl. rewrite !count_occ_app. lia. Qed.
Lemma left_mid c a w b : In c (concat (map eleft (a ++ w :: b))) <-> In c (concat (map eleft (a ++ b))) \/ In c (eleft w).
Proof. rewrite !map_app, !concat_app. simpl. rewrite !in_app_iff. tauto. Qed.
Lemma stage_mid a w b : sum (map stage (a ++ w :: b)) = (sum (map stage (a ++ b)) + stage w)%nat.
Proof. rewrite !map_app. simpl. rewrite !sum_app. simpl. lia. Qed.

(* what a step of the worker at its place has to keep *)
Lemma inv_mid files k a w b lk m w' lk' m' :
  inv files k (mkes (a ++ w :: b) lk m) ->
  (lk = None \/ lk = Some (length a)) ->
  (lk' = None /\ fst w' = Out \/ lk' = Some (length a) /\ fst w' <> Out) ->
  asc m' -> wok m' w' ->
  (forall c n, eget c m' = Some n -> (n < 2 ^ 64)%N) ->
  (forall c, ((val c m' + N.of_nat (count_occ Nat.eq_dec (eleft w') c)) mod 2 ^ 64 =
              (val c m + N.of_nat (count_occ Nat.eq_dec (eleft w) c)) mod 2 ^ 64)%N) ->
  (forall c, In c (map fst m') -> In c (map fst m) \/ In c (snd w)) ->
  (forall c, In c (map fst m) \/ In c (eleft w) -> In c (map fst m') \/ In c (eleft w')) ->
  (forall c, In c (snd w') -> In c (snd w)) ->
  stage w = S (stage w') ->
  inv files (S k) (mkes (a ++ w' :: b) lk' m').
Proof.
  intros [A O L K T S Ky Al Sb Nm] Hl Hl' Ha Hw Ht Hs Hk Hin Hsub Hst. simpl in *.
  constructor; simpl.
  - exact Ha.
  - intros j v H. apply nth_mid in H. destruct H as [[-> ->]|[Hj H]].
    + destruct Hl' as [[-> E]|[-> E]]; split; intros; try congruence; auto.
    + specialize (O j v (H w)). split.
      * intros E. apply O in E. destruct Hl; congruence.
      * intros E. destruct Hl' as [[-> _]|[-> _]]; congruence.
  - intros j E. destruct Hl' as [[-> _]|[-> _]]; [discriminate|]. inversion E. rewrite app_length. simpl. lia.
  - intros v H. destruct (others_out a w b lk O Hl v w' H) as [->|E]; [exact Hw|apply wok_out, E].
  - exact Ht.
  - intros c. rewrite <- S. rewrite !pend_mid, !Nnat.Nat2N.inj_add.
    replace (val c m' + (N.of_nat (pend c (a ++ b)) + N.of_nat (count_occ Nat.eq_dec (eleft w') c)))%N
      with ((val c m' + N.of_nat (count_occ Nat.eq_dec (eleft w') c)) + N.of_nat (pend c (a ++ b)))%N by lia.
    replace (val c m + (N.of_nat (pend c (a ++ b)) + N.of_nat (count_occ Nat.eq_dec (eleft w) c)))%N
      with ((val c m + N.of_nat (count_occ Nat.eq_dec (eleft w) c)) + N.of_nat (pend c (a ++ b)))%N by lia.
    rewrite <- (N.add_mod_idemp_l (val c m' + _)), <- (N.add_mod_idemp_l (val c m + _)) by discriminate.
    now rewrite Hs.
  - intros c H. apply Hk in H. destruct H as [H|H]; [auto|]. apply (Sb c w); [|exact H]. apply in_or_app. simpl. auto.
  - intros c H. rewrite left_mid. apply Al in H. rewrite left_mid in H. specialize (Hin c). tauto.
  - intros c v H Hc. apply (in_other a w w' b) in H. destruct H as [->|H]; [|eauto].
    apply (Sb c w); [apply in_or_app; simpl; auto|auto].
  - rewrite stage_mid in *. lia.
Qed.

Lemma inv_step files k s t : inv files k s -> estep s t -> inv files (S k) t.
Proof.
  intros I H. destruct H as [a w b lk m w' lk' m' H].
  assert (HO := i_own _ _ _ I (length a) w). simpl in HO.
  rewrite nth_error_app2, Nat.sub_diag in HO by lia. specialize (HO eq_refl).
  assert (HK := i_ok _ _ _ I w). simpl in HK. specialize (HK ltac:(apply in_or_app; simpl; auto)).
  assert (A := i_asc _ _ _ I). assert (T := i_lt _ _ _ I). simpl in A, T.
  destruct w as [p [|c l]]; [destruct p; discriminate|]. destruct p; simpl in H.
  - destruct lk; [discriminate|]. inversion H; subst. eapply inv_mid; eauto; simpl; try tauto.
    + right. split; [reflexivity|discriminate].
    + discriminate.
    + lia.
  - inversion H; subst. assert (lk' = Some (length a)) by (apply HO; discriminate). subst.
    destruct (eget c m) as [n|] eqn:E.
    + eapply inv_mid; eauto; simpl; try tauto.
      * right. split; [reflexivity|discriminate].
      * eauto 6.
      * lia.
    + eapply inv_mid; eauto; simpl; try tauto.
      * right. split; [reflexivity|discriminate].
      * now apply eput_asc.
      * exists c, l. split; [reflexivity|]. exists 0%N. rewrite eget_put by exact A. now rewrite Nat.eqb_refl.
      * intros x n. rewrite eget_put by exact A. destruct (Nat.eqb c x); [intros X; inversion X; reflexivity|apply T].
      * intros x. f_equal. f_equal. unfold val. rewrite eget_put by exact A.
        destruct (Nat.eqb_spec c x); [subst; now rewrite E|reflexivity].
      * intros x Hx. apply eput_keys in Hx. intuition.
      * intros x Hx. rewrite eput_keys. simpl in *. tauto.
      * lia.
  - destruct (eget c m) as [n|] eqn:E; [|discriminate]. inversion H; subst.
    assert (lk' = Some (length a)) by (apply HO; discriminate). subst.
    eapply inv_mid; eauto; simpl; try tauto.
    + right. split; [reflexivity|discriminate].
    + eauto.
    + lia.
  - inversion H; subst. assert (lk' = Some (length a)) by (apply HO; discriminate). subst.
    destruct HK as (c0 & r & E0 & E). inversion E0; subst c0 r.
    eapply inv_mid; eauto; try (simpl; tauto).
    + right. split; [reflexivity|discriminate].
    + now apply eput_asc.
    + exists c, l. split; [reflexivity|]. eexists. rewrite eget_put by exact A. now rewrite Nat.eqb_refl.
    + intros x v. rewrite eget_put by exact A. destruct (Nat.eqb c x); [intros X; inversion X; apply N.mod_lt; discriminate|apply T].
    + intros x. unfold val, eleft. rewrite eget_put by exact A. cbn [fst snd tl count_occ].
      destruct (Nat.eqb_spec c x).
      * subst. rewrite E. destruct (Nat.eq_dec x x); [|congruence].
        rewrite N.add_mod_idemp_l by discriminate. f_equal. lia.
      * destruct (Nat.eq_dec c x); [congruence|reflexivity].
    + intros x Hx. apply eput_keys in Hx. simpl. intuition.
    + intros x Hx. rewrite eput_keys. simpl in *. intuition.
    + simpl. lia.
  - inversion H; subst. assert (L : lk = Some (length a)) by (apply HO; discriminate). subst.
    eapply inv_mid; eauto; simpl; try tauto.
    + lia.
Qed.
Lemma inv_steps files k s : esteps k (estart files) s -> inv files k s.
Proof.
  intros H. remember (estart files) as s0 eqn:E. induction H; subst; [apply inv_start|]. eapply inv_step; eauto.
Qed.

(* ---- C132 ---- *)
(* at most one worker is between taking and releasing the lock: there is no data race on the counts *)
Theorem C132_alone files k s i j :
  esteps k (estart files) s -> inside s i -> inside s j -> i = j.
Proof.
  intros H (p & l & E & P) (q & r & F & Q). apply inv_steps in H.
  apply (i_own _ _ _ H) in E, F. simpl in *. apply E in P. apply F in Q. congruence.
Qed.
Print Assumptions C132_alone.

(* whatever the order of the steps: the report has one line for each error that occurred, in ascending order, with the
   number of trains rejected for it; it is empty if no train was rejected *)
Theorem C132_report files k s :
  esteps k (estart files) s -> all_done s ->
  (concat files = [] -> report (es_map s) = []) /\
  (concat files <> [] -> exists ls, report (es_map s) = Head :: map (fun e => Count (fst e) (snd e)) ls /\
     StronglySorted lt (map fst ls) /\
     forall c n, In (c, n) ls <-> In c (concat files) /\ n = (N.of_nat (times c files) mod 2 ^ 64)%N).
Proof.
  intros H D. apply inv_steps in H. destruct H as [A O L K T S Ky Al Sb Nm].
  assert (P : concat (map eleft (es_workers s)) = []).
  { unfold all_done in D. induction (es_workers s) as [|w t IH]; [reflexivity|]. simpl.
    rewrite (D w (or_introl eq_refl)). simpl. clear - D. assert (D' : forall w, In w t -> w = (Out, [])) by (intros; apply D; simpl; auto).
    clear D. induction t as [|x t IH]; [reflexivity|]. simpl. rewrite (D' x (or_introl eq_refl)). simpl. apply IH. intros; apply D'; simpl; auto. }
  rewrite P in Al. unfold pend in S. rewrite P in S. simpl in S. split.
  - intros E. rewrite E in Ky. destruct (es_map s) as [|[c n] t]; [reflexivity|]. destruct (Ky c). simpl. auto.
  - intros E. exists (es_map s). split; [|split].
    + destruct (es_map s) eqn:F; [|reflexivity]. exfalso. destruct (concat files) as [|c r]; [congruence|].
      destruct (Al c (or_introl eq_refl)) as [[]|[]].
    + exact A.
    + intros c n. assert (G : forall v, eget c (es_map s) = Some v -> v = (N.of_nat (times c files) mod 2 ^ 64)%N).
      { intros v X. specialize (S c). unfold val in S. rewrite X, N.add_0_r, N.mod_small in S by (eapply T; eauto). exact S. }
      rewrite <- (eget_in c _ A n). split.
      * intros X. split; [apply Ky, eget_key; eauto|auto].
      * intros [X ->]. destruct (Al c X) as [Y|[]]. apply eget_key in Y. destruct Y as [v Y]. rewrite Y. f_equal. auto.
Qed.
Print Assumptions C132_report.

Lemma asc_same (m m' : emap) : asc m -> asc m' -> (forall e, In e m <-> In e m') -> m = m'.
Proof.
  unfold asc. revert m'. induction m as [|[k v] m IH]; intros m' A A' E.
  - destruct m' as [|e m']; [reflexivity|]. destruct (E e) as [_ X]. destruct X. simpl. auto.
  - destruct m' as [|[k' v'] m']; [destruct (E (k, v)) as [X _]; destruct X; simpl; auto|].
    simpl in A, A'. inversion A as [|x y B F]; subst. inversion A' as [|x y B' F']; subst.
    rewrite Forall_forall in F, F'.
    assert (H : (k, v) = (k', v')).
    { destruct (E (k, v)) as [X _]. destruct (E (k', v')) as [_ Y].
      destruct (X (or_introl eq_refl)) as [X'|X']; [congruence|]. destruct (Y (or_introl eq_refl)) as [Y'|Y']; [congruence|].
      apply (in_map fst) in X', Y'. apply F' in X'. apply F in Y'. simpl in *. lia. }
    inversion H; subst. f_equal. apply IH; [exact B|exact B'|]. intros e. specialize (E e). simpl in E. split; intros G.
    + destruct E as [E _]. destruct (E (or_intror G)) as [<-|]; [|assumption]. apply (in_map fst), F in G. simpl in G. lia.
    + destruct E as [_ E]. destruct (E (or_intror G)) as [<-|]; [|assumption]. apply (in_map fst), F' in G. simpl in G. lia.
Qed.
(* neither the schedule nor the order of the files nor the distribution of the trains over them changes the report *)
Theorem C132_same files files' k k' s s' :
  (forall c, times c files = times c files') ->
  esteps k (estart files) s -> all_done s -> esteps k' (estart files') s' -> all_done s' ->
  report (es_map s) = report (es_map s').
Proof.
  intros E H D H' D'. destruct (C132_report _ _ _ H D) as [N C]. destruct (C132_report _ _ _ H' D') as [N' C'].
  assert (I : forall c, In c (concat files) <-> In c (concat files')).
  { intros c. rewrite !(count_occ_In Nat.eq_dec). specialize (E c). unfold times in E. now rewrite E. }
  destruct (concat files) as [|x l] eqn:F, (concat files') as [|x' l'] eqn:F'.
  - rewrite N, N' by reflexivity. reflexivity.
  - exfalso. apply (I x'). simpl. auto.
  - exfalso. apply (I x). simpl. auto.
  - destruct C as (m & -> & S & M); [discriminate|]. destruct C' as (m' & -> & S' & M'); [discriminate|].
    rewrite (asc_same m m'); [reflexivity|exact S|exact S'|]. intros [c n]. rewrite M, M', I, E. reflexivity.
Qed.
Print Assumptions C132_same.

(* no schedule goes on forever, and none stops before all workers are through *)
Theorem C132_ends files k s :
  esteps k (estart files) s ->
  (k <= 5 * length (concat files))%nat /\ (all_done s \/ exists t, estep s t).
Proof.
  intros H. apply inv_steps in H. destruct H as [A O L K T S Ky Al Sb Nm]. split; [lia|].
  destruct s as [ws lk m]. simpl in *. destruct lk as [j|].
  - right. specialize (L j eq_refl). destruct (nth_error ws j) as [w|] eqn:E; [|apply nth_error_None in E; lia].
    specialize (O j w E). specialize (K w (nth_error_In _ _ E)). apply nth_error_split in E. destruct E as (a & b & -> & <-).
    destruct w as [p l]. destruct p; simpl in *.
    + destruct O as [_ O]. exfalso. now apply O.
    + destruct l as [|c l]; [congruence|]. eexists. eapply estep_at. reflexivity.
    + destruct K as (c & r & -> & n & E). eexists. eapply estep_at. simpl. rewrite E. reflexivity.
    + destruct K as (c & r & -> & E). eexists. eapply estep_at. reflexivity.
    + destruct K as (c & r & -> & n & E). eexists. eapply estep_at. reflexivity.
  - assert (Z : forall w, In w ws -> fst w = Out).
    { intros w Hw. apply In_nth_error in Hw. destruct Hw as [j Hw]. specialize (O j w Hw).
      destruct (fst w); [reflexivity| | | |]; (destruct O as [O _]; specialize (O ltac:(discriminate)); discriminate). }
    destruct (Exists_dec (fun w : worker => snd w <> []) ws) as [X|X].
    { intros [p [|c l]]; simpl; [right; tauto|left; discriminate]. }
    + right. apply Exists_exists in X. destruct X as ([p l] & Hin & Hn). specialize (Z _ Hin). simpl in *. subst.
      apply in_split in Hin. destruct Hin as (a & b & ->). destruct l as [|c l]; [congruence|].
      eexists. eapply estep_at. reflexivity.
    + left. intros [p l] Hw. specialize (Z _ Hw). simpl in *. subst. destruct l as [|c l]; [reflexivity|].
      exfalso. apply X. apply Exists_exists. exists (Out, c :: l). split; [exact Hw|discriminate].
Qed.
Print Assumptions C132_ends.

(* a schedule with all its steps reaches the end: the hypotheses of C132_report are met for every list of files *)
Theorem C132_reached files : exists s, esteps (5 * length (concat files)) (estart files) s /\ all_done s.
Proof.
  assert (G : forall d k s, esteps k (estart files) s -> (5 * length (concat files) - k = d)%nat ->
              exists t, esteps (5 * length (concat files)) (estart files) t /\ all_done t).
  { induction d; intros k s H E.
    - destruct (C132_ends _ _ _ H) as [B [D|[t X]]].
      + assert (k = 5 * length (concat files))%nat by lia. subst. eauto.
      + assert (Y := es_more _ _ _ _ H X). apply C132_ends in Y. lia.
    - destruct (C132_ends _ _ _ H) as [B [D|[t X]]].
      + exfalso. apply inv_steps in H. apply i_num in H.
        assert (Z : sum (map stage (es_workers s)) = 0%nat); [|lia].
        unfold all_done in D. clear - D. induction (es_workers s) as [|w t IH]; [reflexivity|]. simpl.
        rewrite (D w (or_introl eq_refl)). simpl. apply IH. intros; apply D; simpl; auto.
      + apply (IHd (S k) t); [econstructor; eauto|lia]. }
  exact (G _ 0 (estart files) (es_none _) eq_refl).
Qed.
Print Assumptions C132_reached.

(* two workers, three rejected trains, two errors *)
Example ex_C132 : exists s, esteps 15 (estart [[7; 3]; [7]]) s /\ all_done s /\
  times 7 [[7; 3]; [7]] = 2%nat /\ times 3 [[7; 3]; [7]] = 1%nat.
Proof. destruct (C132_reached [[7; 3]; [7]]) as (s & H & D). exists s. auto. Qed.
Example ex_C132_inside : exists k s, esteps k (estart [[7; 3]; [7]]) s /\ inside s 1.
Proof.
  exists 1, (mkes [(Out, [7; 3]); (Entered, [7])] (Some 1) []). split.
  - econstructor; [constructor|]. unfold estart. simpl. apply (estep_at [(Out, [7; 3])] (Out, [7]) []). reflexivity.
  - exists Entered, [7]. split; [reflexivity|discriminate].
Qed.

(* ---- the lines together ---- *)
Definition line_count (l : line) : N := match l with Head => 0%N | Count _ n => n end.
Definition total (ls : list line) : N := fold_right N.add 0%N (map line_count ls).

Lemma asc_nodup l : StronglySorted lt l -> NoDup l.
Proof.
  induction 1 as [|x l S IH F]; constructor; [|exact IH]. intros H. rewrite Forall_forall in F. specialize (F _ H). lia.
Qed.
Lemma occ_one x ks : NoDup ks -> fold_right Nat.add 0 (map (fun k => if Nat.eq_dec x k then 1 else 0) ks) =
  if in_dec Nat.eq_dec x ks then 1 else 0.
Proof.
  induction 1 as [|k ks N D IH]; [reflexivity|]. cbn [map fold_right]. rewrite IH.
  destruct (Nat.eq_dec x k) as [->|X].
  - destruct (in_dec Nat.eq_dec k ks); [tauto|]. destruct (in_dec Nat.eq_dec k (k :: ks)) as [|Y]; [reflexivity|]. destruct Y; simpl; auto.
  - destruct (in_dec Nat.eq_dec x ks), (in_dec Nat.eq_dec x (k :: ks)) as [Y|Y]; try reflexivity; simpl in Y; exfalso; intuition.
Qed.
Lemma occ_sum l ks : NoDup ks -> incl l ks -> fold_right Nat.add 0 (map (count_occ Nat.eq_dec l) ks) = length l.
Proof.
  intros D. induction l as [|x l IH]; intros I.
  - simpl. clear. induction ks; simpl; auto.
  - simpl length. rewrite <- IH by (intros y Hy; apply I; simpl; auto).
    assert (E : fold_right Nat.add 0 (map (count_occ Nat.eq_dec (x :: l)) ks) =
                fold_right Nat.add 0 (map (fun k => if Nat.eq_dec x k then 1 else 0) ks) +
                fold_right Nat.add 0 (map (count_occ Nat.eq_dec l) ks)).
    { clear. induction ks as [|k ks IH]; [reflexivity|]. cbn [map fold_right]. rewrite IH. cbn [count_occ].
      destruct (Nat.eq_dec x k); lia. }
    rewrite E, occ_one by exact D. destruct (in_dec Nat.eq_dec x ks) as [|X]; [reflexivity|]. destruct X. apply I. simpl. auto.
Qed.

(* every rejected train is in one line: the counts of the report add up to the trains rejected *)
Theorem C132_total files k s :
  esteps k (estart files) s -> all_done s -> (N.of_nat (length (concat files)) < 2 ^ 64)%N ->
  total (report (es_map s)) = N.of_nat (length (concat files)).
Proof.
  intros H D B. destruct (C132_report _ _ _ H D) as [N C].
  destruct (concat files) as [|x l] eqn:F; [rewrite N by reflexivity; reflexivity|].
  destruct C as (ls & -> & S & M); [discriminate|]. rewrite <- F in *. clear N x l F.
  assert (I : incl (concat files) (map fst ls)).
  { intros c Hc. apply in_map_iff. eexists (c, _). split; [reflexivity|]. apply M. split; [exact Hc|reflexivity]. }
  rewrite <- (occ_sum (concat files) (map fst ls)) by (try apply asc_nodup; assumption).
  assert (G : forall e, In e ls -> snd e = N.of_nat (count_occ Nat.eq_dec (concat files) (fst e))).
  { intros [c n] He. apply M in He. destruct He as [_ ->]. cbn [fst snd]. unfold times. apply N.mod_small.
    assert (X := count_occ_bound Nat.eq_dec c (concat files)). lia. }
  unfold total. cbn [map fold_right line_count]. rewrite N.add_0_l. clear - G.
  induction ls as [|e ls IH]; [reflexivity|]. cbn [map fold_right line_count].
  rewrite IH by (intros; apply G; simpl; auto). rewrite (G e) by (simpl; auto). rewrite Nnat.Nat2N.inj_add. reflexivity.
Qed.
Print Assumptions C132_total.
Example ex_C132_total : (N.of_nat (length (concat [[7; 3]; [7]])) < 2 ^ 64)%N.
Proof. reflexivity. Qed.
