(* Proofs about the simulation graph. *)
From Verif Require Import Base GraphModel GraphProofs GraphBfs OrderingProofs DpdModel DpdSpec DpdProofs SimModel SimSpec.
From Coq Require Import Lqa.
Local Open Scope Z_scope.

(* ---- the later of two times ---- *)
Lemma upto_app x a b : (upto x (a ++ b) == upto x a + upto x b)%Q.
Proof.
  induction a as [|[t p] a IH]; cbn [app upto]; [ring|]. destruct (t <=? x); rewrite IH; ring.
Qed.
Lemma upto_row x t p l : (upto x (map (fun y => (Z.max t (fst y), (p * snd y)%Q)) l) == if t <=? x then p * upto x l else 0)%Q.
Proof.
  induction l as [|[u q] l IH]; cbn [map upto fst snd]; [destruct (t <=? x); ring|].
  destruct (t <=? x) eqn:A; destruct (u <=? x) eqn:B; destruct (Z.max t u <=? x) eqn:C;
    apply Z.leb_le in A || apply Z.leb_gt in A; apply Z.leb_le in B || apply Z.leb_gt in B;
    apply Z.leb_le in C || apply Z.leb_gt in C; try lia; rewrite IH; ring.
Qed.
Lemma upto_maxima x l1 l2 : (upto x (maxima l1 l2) == upto x l1 * upto x l2)%Q.
Proof.
  unfold maxima. induction l1 as [|[t p] l1 IH]; cbn [flat_map upto]; [ring|].
  rewrite upto_app, IH. cbn [fst snd]. rewrite upto_row. destruct (t <=? x); ring.
Qed.
Fixpoint over (ks : list Z) (f : Z -> Q) : Q := match ks with [] => 0 | k :: ks => f k + over ks f end%Q.
Lemma over_ext ks f h : (forall k, f k == h k)%Q -> (over ks f == over ks h)%Q.
Proof. intros E. induction ks as [|k ks IH]; cbn [over]; [reflexivity|]. rewrite IH, E. reflexivity. Qed.
Lemma over_add ks f h : (over ks (fun k => f k + h k) == over ks f + over ks h)%Q.
Proof. induction ks as [|k ks IH]; cbn [over]; [ring|]. rewrite IH. ring. Qed.
Lemma over_one ks t p : NoDup ks -> In t ks -> (over ks (fun k => if t =? k then p else 0) == p)%Q.
Proof.
  assert (Z0 : forall ks, ~ In t ks -> (over ks (fun k => if t =? k then p else 0) == 0)%Q).
  { clear. induction ks as [|k ks IH]; intros H; cbn [over]; [reflexivity|]. cbn [In] in H.
    destruct (t =? k) eqn:E; [apply Z.eqb_eq in E; exfalso; apply H; auto|]. rewrite IH by tauto. ring. }
  induction 1 as [|k ks Hk ND IH]; intros I; [destruct I|]. cbn [over]. destruct (t =? k) eqn:E.
  - apply Z.eqb_eq in E. subst k. rewrite Z0 by exact Hk. ring.
  - apply Z.eqb_neq in E. destruct I as [I|I]; [congruence|]. rewrite IH by exact I. ring.
Qed.
Lemma over_zero ks f : (forall k, f k == 0)%Q -> (over ks f == 0)%Q.
Proof. intros E. induction ks as [|k ks IH]; cbn [over]; [reflexivity|]. rewrite IH, E. ring. Qed.
Lemma upto_over x l : forall ks, NoDup ks -> (forall t p, In (t, p) l -> In t ks) ->
  (upto x l == over ks (fun k => if k <=? x then listed Z.eqb l k else 0))%Q.
Proof.
  induction l as [|[t p] l IH]; intros ks ND I; cbn [upto listed].
  - symmetry. apply over_zero. intros k. destruct (k <=? x); reflexivity.
  - assert (It : In t ks) by (apply (I t p); left; reflexivity).
    specialize (IH ks ND ltac:(intros; eapply I; right; eassumption)).
    assert (E : (over ks (fun k => if k <=? x then if t =? k then p + listed Z.eqb l k else listed Z.eqb l k else 0)
      == (if t <=? x then p else 0) + over ks (fun k => if k <=? x then listed Z.eqb l k else 0))%Q).
    { rewrite <- (over_one ks t (if t <=? x then p else 0%Q) ND It) at 1. rewrite <- over_add. apply over_ext. intros k.
      destruct (t =? k) eqn:E; [apply Z.eqb_eq in E; subst k; destruct (t <=? x); ring|]. destruct (k <=? x); ring. }
    rewrite E. destruct (t <=? x); rewrite IH; ring.
Qed.
Lemma upto_ext x a b : (forall k, listed Z.eqb a k == listed Z.eqb b k)%Q -> (upto x a == upto x b)%Q.
Proof.
  intros E. set (ks := nodup Z.eq_dec (map fst a ++ map fst b)).
  rewrite (upto_over x a ks), (upto_over x b ks); try apply NoDup_nodup.
  - apply over_ext. intros k. destruct (k <=? x); [apply E|reflexivity].
  - intros t p I. apply nodup_In, in_or_app. right. apply (in_map fst) in I. exact I.
  - intros t p I. apply nodup_In, in_or_app. left. apply (in_map fst) in I. exact I.
Qed.
Lemma rounds_self g h x : 0 < g -> (g | h) -> rounds g h x <-> h = x.
Proof.
  intros G D. split.
  - intros R. apply (rounds_unique g h h x G); [|exact R]. split; [exact D|lia].
  - intros <-. split; [exact D|lia].
Qed.
Lemma mass_listed g x l : 0 < g -> (forall h p, In (h, p) l -> (g | h)) -> mass g x l (listed Z.eqb l x).
Proof.
  intros G. induction l as [|[h p] l IH]; intros D; cbn [listed]; [constructor|].
  specialize (IH ltac:(intros; eapply D; right; eassumption)). assert (Dh : (g | h)) by (apply (D h p); left; reflexivity).
  destruct (h =? x) eqn:E.
  - apply Z.eqb_eq in E. apply mass_in; [apply rounds_self; assumption|exact IH].
  - apply Z.eqb_neq in E. apply mass_out; [rewrite rounds_self by assumption; exact E|exact IH].
Qed.

(* times below 2^56: the same arithmetic with an earlier end *)
Definition early : primary := mkprimary int64 6 (2 ^ 56 + 6).
Lemma early_norm_ok : norm_ok early.
Proof.
  split; [reflexivity|]. split; [reflexivity|]. intros z Hz. cbn [pr_norm early] in *. unfold int64.
  cbn [pr_max early] in Hz.
  replace (- INT64_MAX - 1 <=? z) with true by (symmetry; apply Z.leb_le; unfold INT64_MAX in *; lia).
  replace (z <=? INT64_MAX) with true by (symmetry; apply Z.leb_le; unfold INT64_MAX; lia). reflexivity.
Qed.
Lemma early_fits h : moderate h -> fits early h.
Proof. intros H. unfold fits, moderate in *. cbn [pr_gran pr_max early]. lia. Qed.
Lemma inserts1_early l : forall d, inserts1 early d l = inserts1 time_primary d l.
Proof.
  induction l as [|[h p] l IH]; intros d; cbn [inserts1]; [reflexivity|].
  change (insert1 early d h p) with (insert1 time_primary d h p). destruct (insert1 time_primary d h p); cbn [bind]; auto.
Qed.
Lemma inserts1_start l : l <> [] -> inserts1 early (empty1 early) l = inserts1 time_primary (empty1 time_primary) l.
Proof.
  destruct l as [|[h p] l]; [congruence|]. intros _. cbn [inserts1].
  change (insert1 early (empty1 early) h p) with (insert1 time_primary (empty1 time_primary) h p).
  destruct (insert1 time_primary _ h p); cbn [bind]; auto. apply inserts1_early.
Qed.
(* what a history of moderate times leads to *)
Record fair (d : dpd1) (es : list (Z * Q)) : Prop := {
  f_entries : entries1 time_primary d = Ok es;
  f_mass : d1_mass d <> [];
  f_head : exists t p es', es = (t, p) :: es' /\ forall u q, In (u, q) es' -> t <= u;
  f_div : forall t p, In (t, p) es -> (6 | t) /\ 0 <= t <= 2 ^ 56 + 6 }.
Lemma entries1_early d : entries1 early d = entries1 time_primary d.
Proof.
  unfold entries1. generalize (d1_first d). induction (d1_mass d) as [|a l IH]; intros t; [reflexivity|].
  cbn [entries_from]. destruct l as [|b l]; [reflexivity|].
  change (pr_norm early (t + pr_gran early)) with (pr_norm time_primary (t + pr_gran time_primary)).
  destruct (pr_norm time_primary (t + pr_gran time_primary)); cbn [bind]; auto. rewrite IH. reflexivity.
Qed.
Lemma good_fair d : good1 early d -> exists es, fair d es.
Proof.
  intros G. pose proof G as [NE F D L]. cbn [pr_gran pr_max early] in *.
  pose proof (entries_from_ok early early_norm_ok (d1_mass d) (d1_first d) F L) as E. cbn [pr_gran early] in E.
  eexists. constructor; [rewrite <- entries1_early; exact E|exact NE| |].
  - destruct (d1_mass d) as [|q0 m]; [congruence|]. cbn [numbered map fst snd]. do 3 eexists. split; [reflexivity|].
    intros u q I. apply in_map_iff in I. destruct I as (x & E0 & I). apply pair_equal_spec in E0. destruct E0 as (<- & <-). apply numbered_bound in I. lia.
  - intros t p I. apply in_map_iff in I. destruct I as (x & E0 & I). apply pair_equal_spec in E0. destruct E0 as (<- & <-). apply numbered_bound in I.
    split; [apply Z.divide_add_r; [exact D|exists (fst x); ring]|]. lia.
Qed.
Lemma history_fair l : l <> [] -> (forall h p, In (h, p) l -> moderate h) -> first_least 6 (map fst l) ->
  exists d es, inserts1 time_primary (empty1 time_primary) l = Ok d /\ fair d es /\ forall x q, mass 6 x l q -> (listed Z.eqb es x == q)%Q.
Proof.
  intros NE HF FL. destruct (inserts1_history early early_norm_ok l NE) as (d & E & G & A).
  { intros h p I. apply early_fits. eapply HF. exact I. } { exact FL. }
  rewrite inserts1_start in E by exact NE.
  destruct (good_fair d G) as (es & FA). destruct (entries_at early early_norm_ok d G) as (es' & E2 & A2).
  exists d, es. split; [exact E|]. split; [exact FA|]. intros x q M.
  rewrite entries1_early, (f_entries _ _ FA) in E2. injection E2 as <-. rewrite A2. apply A. exact M.
Qed.
Lemma fold_max_ok d1 d2 es1 es2 : fair d1 es1 -> fair d2 es2 ->
  exists d es, fold_max d1 d2 = Ok d /\ entries1 time_primary d = Ok es /\ forall x, (upto x es == upto x es1 * upto x es2)%Q.
Proof.
  intros [E1 N1 (t1 & p1 & r1 & -> & H1) D1] [E2 N2 (t2 & p2 & r2 & -> & H2) D2].
  set (l := maxima ((t1, p1) :: r1) ((t2, p2) :: r2)).
  assert (IN : forall h p, In (h, p) l -> exists u v, h = Z.max u v /\ (exists q, In (u, q) ((t1, p1) :: r1)) /\ exists q, In (v, q) ((t2, p2) :: r2)).
  { intros h p I. unfold l, maxima in I. apply in_flat_map in I. destruct I as ([u q] & Iu & I). apply in_map_iff in I.
    destruct I as ([v q'] & [= <- <-] & Iv). exists u, v. split; [reflexivity|]. split; eexists; eassumption. }
  assert (DV : forall h p, In (h, p) l -> (6 | h)).
  { intros h p I. apply IN in I. destruct I as (u & v & -> & (q & Iu) & (q' & Iv)).
    destruct (Z.max_spec u v) as [(_ & ->)|(_ & ->)]; [apply (D2 _ _ Iv)|apply (D1 _ _ Iu)]. }
  destruct (inserts1_history time_primary time_norm_ok l) as (d & E & G & A).
  { discriminate. }
  { intros h p I. apply IN in I. destruct I as (u & v & -> & (q & Iu) & (q' & Iv)).
    apply D1 in Iu. apply D2 in Iv. unfold fits. cbn [pr_gran pr_max time_primary]. unfold INT64_MAX. lia. }
  { cbn [pr_gran time_primary]. unfold first_least. change l with ((Z.max t1 t2, (p1 * p2)%Q) :: tl l). cbn [map fst].
    intros h x0 x I R0 R. apply in_map_iff in I. destruct I as ([h' p] & <- & I). cbn [fst] in *.
    assert (I' : In (h', p) l) by (change l with ((Z.max t1 t2, (p1 * p2)%Q) :: tl l); right; exact I).
    assert (D0 : (6 | Z.max t1 t2)) by (apply (DV _ (p1 * p2)%Q); change l with ((Z.max t1 t2, (p1 * p2)%Q) :: tl l); left; reflexivity).
    apply rounds_self in R0; [|lia|exact D0]. apply rounds_self in R; [|lia|apply (DV _ _ I')]. subst x0 x.
    apply IN in I'. destruct I' as (u & v & -> & (q & Iu) & (q' & Iv)).
    assert (t1 <= u) by (destruct Iu as [[= <- <-]|Iu]; [lia|apply (H1 _ _ Iu)]).
    assert (t2 <= v) by (destruct Iv as [[= <- <-]|Iv]; [lia|apply (H2 _ _ Iv)]). lia. }
  destruct (entries_at time_primary time_norm_ok d G) as (es & EE & AA). exists d, es.
  split; [|split; [exact EE|]].
  - unfold fold_max. destruct (d1_mass d1); [congruence|]. rewrite E1, E2. cbn [bind]. exact E.
  - intros x. rewrite <- upto_maxima. fold l. apply upto_ext. intros k. rewrite AA. apply A.
    apply mass_listed; [reflexivity|exact DV].
Qed.
(* rounding first *)
Lemma rounds_ex h : exists r, rounds 6 h r.
Proof.
  exists (6 * ((h + 2) / 6)). pose proof (Z.div_mod (h + 2) 6 ltac:(lia)). pose proof (Z.mod_pos_bound (h + 2) 6 ltac:(lia)).
  split; [exists ((h + 2) / 6); ring|lia].
Qed.
Lemma rounded_list l : exists l', Forall2 (fun a b : Z * Q => rounds 6 (fst a) (fst b) /\ snd a = snd b) l l'.
Proof.
  induction l as [|[h p] l (l' & IH)]; [exists []; constructor|]. destruct (rounds_ex h) as (r & R).
  exists ((r, p) :: l'). constructor; [cbn [fst snd]; auto|exact IH].
Qed.
Lemma rounded_mass l l' : Forall2 (fun a b : Z * Q => rounds 6 (fst a) (fst b) /\ snd a = snd b) l l' ->
  forall x, mass 6 x l (listed Z.eqb l' x).
Proof.
  induction 1 as [|[h p] [r p'] l l' (R & E) HF IH]; intros x; [constructor|]. cbn [fst snd] in *. subst p'. cbn [listed].
  destruct (r =? x) eqn:Ex.
  - apply Z.eqb_eq in Ex. subst x. apply mass_in; auto.
  - apply Z.eqb_neq in Ex. apply mass_out; auto. intros R'. apply Ex. eapply rounds_unique; [|exact R|exact R']. lia.
Qed.
Lemma rounded_upto l l' : Forall2 (fun a b : Z * Q => rounds 6 (fst a) (fst b) /\ snd a = snd b) l l' ->
  forall x q, mass_upto 6 x l q -> q = upto x l'.
Proof.
  induction 1 as [|[h p] [r p'] l l' (R & E) HF IH]; intros x q M; [inversion M; reflexivity|]. cbn [fst snd] in *. subst p'.
  cbn [upto]. inversion M as [|? ? ? q' r' R' L M'|? ? ? q' r' R' L M']; subst;
    assert (r' = r) by (eapply rounds_unique; [|exact R'|exact R]; lia); subst r'.
  - replace (r <=? x) with true by (symmetry; apply Z.leb_le; exact L). f_equal. apply IH. exact M'.
  - replace (r <=? x) with false by (symmetry; apply Z.leb_gt; exact L). apply IH. exact M'.
Qed.
Lemma listed_upto l es : (forall x q, mass 6 x l q -> (listed Z.eqb es x == q)%Q) ->
  forall x q, mass_upto 6 x l q -> (upto x es == q)%Q.
Proof.
  intros H x q M. destruct (rounded_list l) as (l' & F). rewrite (rounded_upto l l' F x q M). apply upto_ext. intros k.
  apply H. apply rounded_mass. exact F.
Qed.
