(* The lemmas used verbatim by PropsExclusionSet. *)
From Coq Require Import Sorted ZifyBool ZifyNat ZifyN.
From Verif Require Import Base ExclusionSetModel NLists ExclusionSetProofs ExclusionSetGrow
  ExclusionSetSub ExclusionSetMore.
Local Open Scope N_scope.

Lemma sorted_le_sortedb ids : StronglySorted N.le ids -> is_sortedb ids = true.
Proof.
  induction 1 as [|a l Hs IH Hf]; [reflexivity|]. destruct l as [|b l]; [reflexivity|].
  cbn [is_sortedb]. rewrite Forall_forall in Hf. specialize (Hf b (or_introl eq_refl)).
  cbn [is_sortedb] in IH. rewrite IH. lia.
Qed.

Lemma existsb_eqb_In i ids : existsb (N.eqb i) ids = true <-> In i ids.
Proof.
  rewrite existsb_exists. split.
  - intros [x [Hx He]]. apply N.eqb_eq in He. subst. exact Hx.
  - intros H. exists i. split; [exact H|apply N.eqb_refl].
Qed.

Lemma make_contains_exactly id ids :
  StronglySorted N.le ids -> (forall i, In i ids -> i < 2 ^ 32 - 64) ->
  exists s, make_es id ids = Ok s /\ es_id s = id /\
    (forall i, i < 2 ^ 32 -> (es_index s i = true <-> In i ids)) /\
    StronglySorted N.lt (es_expanded s) /\
    (forall i, In i (es_expanded s) <-> In i ids) /\
    (forall distinct, NoDup distinct -> (forall i, In i distinct <-> In i ids) ->
       es_count s = N.of_nat (length distinct)).
Proof.
  intros Hs Hl. destruct (make_es_ok id ids (sorted_le_sortedb ids Hs) Hl) as [s [E [G [Hid [_ Hi]]]]].
  exists s. split; [exact E|]. split; [exact Hid|].
  assert (Hidx : forall i, i < 2 ^ 32 -> (es_index s i = true <-> In i ids)).
  { intros i Hlt. rewrite Hi by exact Hlt. apply existsb_eqb_In. }
  split; [exact Hidx|].
  destruct (good_expanded s G) as [Hsort Hin]. split; [exact Hsort|].
  assert (Hin' : forall i, In i (es_expanded s) <-> In i ids).
  { intros i. rewrite Hin. split.
    - intros [Hlt Ht]. apply Hidx; assumption.
    - intros Hm. pose proof (Hl i Hm). split; [unfold M32; lia|]. apply Hidx; [lia|exact Hm]. }
  split; [exact Hin'|].
  intros d Hd Hdi. rewrite count_expanded. f_equal.
  apply Nat.le_antisymm; apply NoDup_incl_length.
  - apply sorted_NoDup, Hsort.
  - intros x Hx. apply Hdi, Hin', Hx.
  - exact Hd.
  - intros x Hx. apply Hin', Hdi, Hx.
Qed.

Lemma union_spec a b : reach a -> reach b ->
  (exists c, es_union a b = Ok c /\ reach c /\
     forall i, i < 2 ^ 32 -> es_index c i = es_index a i || es_index b i) /\
  (exists c, es_or_assign false a b = Ok c /\ reach c /\
     forall i, i < 2 ^ 32 -> es_index c i = es_index a i || es_index b i) /\
  es_or_assign true a a = Ok a.
Proof.
  intros Ra Rb. unfold es_union.
  destruct (good_or a b (reach_good a Ra) (reach_good b Rb)) as [c [E H]].
  assert (Rc : reach c) by (apply (reach_or false a b c); try assumption; discriminate).
  split; [|split]; [exists c; auto|exists c; auto|reflexivity].
Qed.

Lemma difference_spec a b : reach a -> reach b ->
  (exists c, es_minus a b = Ok c /\ reach c /\ es_id c = es_id a /\
     forall i, i < 2 ^ 32 -> es_index c i = es_index a i && negb (es_index b i)) /\
  (exists c, es_sub_assign false a b = Ok c /\ reach c /\ es_id c = es_id a /\
     forall i, i < 2 ^ 32 -> es_index c i = es_index a i && negb (es_index b i)) /\
  (exists c, es_sub_assign true a a = Ok c /\ reach c /\ es_id c = es_id a /\
     forall i, i < 2 ^ 32 -> es_index c i = false).
Proof.
  intros Ra Rb. unfold es_minus.
  destruct (good_sub a b (reach_good a Ra) (reach_good b Rb)) as [c [E [Hid H]]].
  assert (Rc : reach c) by (apply (reach_sub false a b c); try assumption; discriminate).
  split; [|split]; [exists c; auto|exists c; auto|].
  exists (es_clear a). split; [reflexivity|]. split; [apply reach_clear, Ra|].
  split; [reflexivity|]. intros i _. apply empty_index.
Qed.

Lemma set_on_empty_throws s i : reach s -> es_empty s = true -> i < 2 ^ 32 - 64 -> es_set s i = Throw.
Proof.
  intros R He Hi. destruct (reach_good s R) as [[id ->]|G].
  - apply set_on_empty. exact Hi.
  - rewrite (goodne_not_empty s G) in He. discriminate.
Qed.

Lemma set_adds_exactly s i : reach s -> es_empty s = false -> i < 2 ^ 32 - 64 ->
  exists c, es_set s i = Ok c /\ reach c /\ es_id c = es_id s /\
    forall j, j < 2 ^ 32 -> es_index c j = (j =? i) || es_index s j.
Proof.
  intros R He Hi. destruct (good_set s i (reach_good s R) He Hi) as [c [E [_ [Hid H]]]].
  exists c. split; [exact E|]. split; [apply (reach_set s i c); assumption|]. split; assumption.
Qed.

Lemma compare_empty_greater same a b : reach a -> reach b ->
  es_empty a = true -> es_empty b = true -> es_compare same a b = Ok PGreater.
Proof. intros _ _ Ha Hb. unfold es_compare. rewrite Ha, Hb. reflexivity. Qed.

Lemma compare_aliased a : reach a -> es_empty a = false -> es_compare true a a = Ok PEquiv.
Proof. intros _ Ha. unfold es_compare. rewrite Ha. reflexivity. Qed.

Lemma compare_good a b : good a -> good b -> ~ (es_empty a = true /\ es_empty b = true) ->
  exists p, es_compare false a b = Ok p /\
    match p with
    | PEquiv => (forall i, i < M32 -> es_index a i = true -> es_index b i = true) /\
                (forall i, i < M32 -> es_index b i = true -> es_index a i = true)
    | PLess => (forall i, i < M32 -> es_index a i = true -> es_index b i = true) /\
                ~ (forall i, i < M32 -> es_index b i = true -> es_index a i = true)
    | PGreater => ~ (forall i, i < M32 -> es_index a i = true -> es_index b i = true) /\
                (forall i, i < M32 -> es_index b i = true -> es_index a i = true)
    | PUnord => ~ (forall i, i < M32 -> es_index a i = true -> es_index b i = true) /\
                ~ (forall i, i < M32 -> es_index b i = true -> es_index a i = true)
    end.
Proof.
  intros [[ida ->]|Ga] [[idb ->]|Gb] Hne.
  - exfalso. apply Hne. split; reflexivity.
  - exists PLess. split.
    + unfold es_compare. rewrite empty_rep_empty, (goodne_not_empty b Gb). reflexivity.
    + split.
      * intros i _ H. rewrite empty_index in H. discriminate.
      * intros H. destruct (goodne_nonempty_index b Gb) as [i [Hi Ht]].
        specialize (H i Hi Ht). rewrite empty_index in H. discriminate.
  - exists PGreater. split.
    + unfold es_compare. rewrite empty_rep_empty, (goodne_not_empty a Ga). reflexivity.
    + split.
      * intros H. destruct (goodne_nonempty_index a Ga) as [i [Hi Ht]].
        specialize (H i Hi Ht). rewrite empty_index in H. discriminate.
      * intros i _ H. rewrite empty_index in H. discriminate.
  - destruct (compare_ne a b Ga Gb) as [p [E H]]. exists p. split; [exact E|].
    pose proof (bsub_index a b Ga Gb) as Hab. pose proof (bsub_index b a Gb Ga) as Hba.
    destruct p; cbn [cmp_spec] in H; rewrite Hab, Hba in H; exact H.
Qed.

Lemma compare_spec a b : reach a -> reach b ->
  ~ (es_empty a = true /\ es_empty b = true) ->
  let subset a b := forall i, i < 2 ^ 32 -> es_index a i = true -> es_index b i = true in
  exists p, es_compare false a b = Ok p /\
    (p = PEquiv <-> subset a b /\ subset b a) /\
    (p = PLess <-> subset a b /\ ~ subset b a) /\
    (p = PGreater <-> ~ subset a b /\ subset b a) /\
    (p = PUnord <-> ~ subset a b /\ ~ subset b a).
Proof.
  intros Ra Rb Hne subset.
  destruct (compare_good a b (reach_good a Ra) (reach_good b Rb) Hne) as [p [E H]].
  exists p. split; [exact E|]. unfold M32 in *.
  fold (subset a b) in H. fold (subset b a) in H. clear E Hne.
  generalize dependent (subset a b). generalize dependent (subset b a). clear.
  intros Q P H. destruct p; intuition discriminate.
Qed.

Lemma contains_spec a b : reach a -> reach b ->
  exists r, es_contains false a b = Ok r /\
    (r = true <-> forall i, i < 2 ^ 32 -> es_index b i = true -> es_index a i = true).
Proof.
  intros Ra Rb. pose proof (reach_good a Ra) as Ga. pose proof (reach_good b Rb) as Gb.
  unfold es_contains. destruct (es_empty a && es_empty b) eqn:He.
  - apply andb_true_iff in He. destruct He as [Ha Hb].
    rewrite (compare_empty_greater false a b Ra Rb Ha Hb). cbn [bind]. exists true.
    split; [reflexivity|]. split; [|reflexivity]. intros _ i Hi Ht.
    rewrite (proj1 (good_empty_iff b Gb) Hb) in Ht by exact Hi. discriminate.
  - destruct (compare_good a b Ga Gb) as [p [E H]].
    { intros [Ha Hb]. rewrite Ha, Hb in He. discriminate. }
    rewrite E. cbn [bind]. eexists. split; [reflexivity|]. unfold M32 in H. clear E.
    destruct p; destruct H as [H1 H2].
    + split; [intros _; exact H2|reflexivity].
    + split; [discriminate|]. intros H. contradiction.
    + split; [intros _; exact H2|reflexivity].
    + split; [discriminate|]. intros H. contradiction.
Qed.

Lemma reach_ok s : reach s -> es_ok s = true.
Proof. intros R. apply good_ok, reach_good, R. Qed.

Lemma reach_canonical a b : reach a -> reach b ->
  (forall i, i < 2 ^ 32 -> es_index a i = es_index b i) ->
  a = mkes (es_id a) (es_first b) (es_last b) (es_fbs b) (es_lbs b) (es_bits b).
Proof. intros Ra Rb. apply good_canonical; apply reach_good; assumption. Qed.

Lemma iteration_spec s : reach s ->
  es_iterate s = Ok (es_expanded s) /\
  StronglySorted N.lt (es_expanded s) /\
  (forall i, In i (es_expanded s) <-> i < 2 ^ 32 /\ es_index s i = true).
Proof.
  intros R. pose proof (reach_good s R) as G. split; [apply good_iterate, G|]. apply good_expanded, G.
Qed.

Section History.
Let aset : Type := N -> bool.
Let astep (m : aset) (o : hop) : aset :=
  match o with
  | HMake ids => fun j => existsb (N.eqb j) ids
  | HSet i => fun j => (j =? i) || m j
  | HOr ids => fun j => m j || existsb (N.eqb j) ids
  | HSub ids => fun j => m j && negb (existsb (N.eqb j) ids)
  | HOrSelf => m
  | HSubSelf => fun _ => false
  | HClear => fun _ => false
  end.
Let okop (m : aset) (o : hop) : Prop :=
  match o with
  | HMake ids | HOr ids | HSub ids => StronglySorted N.le ids /\ forall i, In i ids -> i < 2 ^ 32 - 64
  | HSet i => i < 2 ^ 32 - 64 /\ exists j, j < 2 ^ 32 /\ m j = true
  | _ => True
  end.
Let okhist := fix okhist (m : aset) (h : list hop) : Prop :=
  match h with
  | [] => True
  | o :: t => okop m o /\ okhist (astep m o) t
  end.

Lemma okop_ext m m' o : (forall j, j < 2 ^ 32 -> m j = m' j) -> okop m o -> okop m' o.
Proof.
  intros H. destruct o; cbn [okop]; auto. intros [Hi [j [Hj Hm]]]. split; [exact Hi|].
  exists j. split; [exact Hj|]. rewrite <- H by exact Hj. exact Hm.
Qed.

Lemma history_step s m o : reach s -> (forall i, i < 2 ^ 32 -> es_index s i = m i) -> okop m o ->
  exists s', hstep s o = Ok s' /\ reach s' /\ (forall i, i < 2 ^ 32 -> es_index s' i = astep m o i).
Proof.
  intros R Hm Hok. pose proof (reach_good s R) as G.
  destruct o as [ids|i|ids|ids| | |]; cbn [okop] in Hok; cbn [hstep astep].
  - destruct Hok as [Hs Hl]. destruct (make_es_ok INVALID ids (sorted_le_sortedb ids Hs) Hl) as [s' [E [_ [_ [_ H]]]]].
    exists s'. split; [exact E|]. split; [apply (reach_make INVALID ids); assumption|exact H].
  - destruct Hok as [Hi [j [Hj Ht]]].
    assert (He : es_empty s = false).
    { apply not_true_is_false. intros He. rewrite <- Hm in Ht by exact Hj.
      rewrite (proj1 (good_empty_iff s G) He) in Ht by exact Hj. discriminate. }
    destruct (set_adds_exactly s i R He Hi) as [c [E [Rc [_ H]]]]. exists c.
    split; [exact E|]. split; [exact Rc|]. intros k Hk. rewrite H, Hm by exact Hk. reflexivity.
  - destruct Hok as [Hs Hl]. destruct (make_es_ok INVALID ids (sorted_le_sortedb ids Hs) Hl) as [o [E [Go [_ [_ Ho]]]]].
    rewrite E. cbn [bind]. destruct (good_or s o G Go) as [c [Ec Hc]]. exists c.
    split; [exact Ec|]. split.
    + apply (reach_or false s o c); try assumption; [|discriminate]. apply (reach_make INVALID ids); assumption.
    + intros k Hk. rewrite Hc, Hm, Ho by exact Hk. reflexivity.
  - destruct Hok as [Hs Hl]. destruct (make_es_ok INVALID ids (sorted_le_sortedb ids Hs) Hl) as [o [E [Go [_ [_ Ho]]]]].
    rewrite E. cbn [bind]. destruct (good_sub s o G Go) as [c [Ec [_ Hc]]]. exists c.
    split; [exact Ec|]. split.
    + apply (reach_sub false s o c); try assumption; [|discriminate]. apply (reach_make INVALID ids); assumption.
    + intros k Hk. rewrite Hc, Hm, Ho by exact Hk. reflexivity.
  - exists s. split; [reflexivity|]. split; [exact R|]. exact Hm.
  - exists (es_clear s). split; [reflexivity|]. split; [apply reach_clear, R|].
    intros k _. apply empty_index.
  - exists (es_clear s). split; [reflexivity|]. split; [apply reach_clear, R|].
    intros k _. apply empty_index.
Qed.

Lemma history_gen h : forall s m, reach s -> (forall i, i < 2 ^ 32 -> es_index s i = m i) -> okhist m h ->
  exists s', hrun s h = Ok s' /\ reach s' /\ es_ok s' = true /\
    forall i, i < 2 ^ 32 -> es_index s' i = fold_left astep h m i.
Proof.
  induction h as [|o h IH]; intros s m R Hm Hok.
  - exists s. split; [reflexivity|]. split; [exact R|]. split; [apply reach_ok, R|exact Hm].
  - destruct Hok as [Ho Hh]. destruct (history_step s m o R Hm Ho) as [s' [E [R' Hm']]].
    cbn [hrun]. rewrite E. cbn [bind fold_left]. apply IH; assumption.
Qed.

Lemma history_refines h : okhist (fun _ => false) h ->
  exists s, hrun es_default h = Ok s /\ reach s /\ es_ok s = true /\
    forall i, i < 2 ^ 32 -> es_index s i = fold_left astep h (fun _ => false) i.
Proof.
  apply history_gen; [apply reach_default|]. intros i _. apply (empty_index INVALID).
Qed.
End History.
