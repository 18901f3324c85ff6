(* Proofs about the exclusion elements of a route and about reading cliques. *)
From Coq Require Import Sorted Permutation ZifyBool ZifyNat ZifyN.
From Verif Require Import Base AlgoModel AlgoProofs Par RouteModel RouteProofs RouteSpec RouteIter RouteIndex
  ExclModel ExclProofs.

(* ---- pieces of a section ---- *)
Lemma find_eq_split v x : In x v -> exists a b, v = a ++ x :: b /\ ~ In x a /\ find_if (N.eqb x) v = length a.
Proof.
  induction v as [|y v IH]; intros I; [destruct I|]. cbn [find_if].
  destruct (N.eqb_spec x y) as [->|NE].
  - exists [], v. split; [reflexivity|]. split; [intros []|reflexivity].
  - destruct I as [->|I]; [congruence|]. destruct (IH I) as [a [b [-> [NI E]]]].
    exists (y :: a), b. split; [reflexivity|]. split; [intros [->|J]; [congruence|contradiction]|]. rewrite E. reflexivity.
Qed.
Lemma find_eq_none v x : ~ In x v -> find_if (N.eqb x) v = length v.
Proof.
  induction v as [|y v IH]; intros NI; [reflexivity|]. cbn [find_if length].
  destruct (N.eqb_spec x y) as [->|NE]; [exfalso; apply NI; left; reflexivity|]. rewrite IH; [reflexivity|].
  intros I. apply NI. right. exact I.
Qed.
Lemma skipn_app_len {A} (a b : list A) : skipn (length a) (a ++ b) = b.
Proof. rewrite skipn_app, skipn_all, Nat.sub_diag. reflexivity. Qed.
Lemma firstn_app_len {A} (a b : list A) : firstn (length a) (a ++ b) = a.
Proof. rewrite firstn_app, firstn_all, Nat.sub_diag. cbn. apply app_nil_r. Qed.

(* x comes at or after f / at or before t in v *)
Definition at_or_after (v : list N) (f x : N) : Prop := exists a b, v = a ++ f :: b /\ In x (f :: b).
Definition at_or_before (v : list N) (t x : N) : Prop := exists a b, v = a ++ t :: b /\ In x (a ++ [t]).

Lemma NoDup_split_unique (v a b a' b' : list N) x : NoDup v -> v = a ++ x :: b -> v = a' ++ x :: b' -> a = a' /\ b = b'.
Proof.
  revert v a'. induction a as [|y a IH]; intros v a' ND E E'.
  - destruct a' as [|z a']; cbn in *; subst v; [injection E' as ->; split; reflexivity|].
    injection E' as -> ->. inversion ND as [|? ? NI _]; subst. exfalso. apply NI, in_app_iff. right. left. reflexivity.
  - destruct a' as [|z a']; cbn in *; subst v.
    + injection E' as -> <-. inversion ND as [|? ? NI _]; subst. exfalso. apply NI, in_app_iff. right. left. reflexivity.
    + injection E' as -> E'. inversion ND as [|? ? _ ND']; subst.
      destruct (IH _ a' ND' eq_refl E') as [-> ->]. split; reflexivity.
Qed.

Lemma sec_from_ok v f : NoDup v -> forall x, In x (sec_from v f) <-> at_or_after v f x.
Proof.
  intros ND x. unfold sec_from, at_or_after. destruct (in_dec N.eq_dec f v) as [I|NI].
  - destruct (find_eq_split v f I) as [a [b [E [_ ->]]]]. rewrite E at 1. rewrite skipn_app_len. split.
    + intros Ix. exists a, b. split; assumption.
    + intros [a' [b' [E' Ix]]]. destruct (NoDup_split_unique v a b a' b' f ND E E') as [_ ->]. exact Ix.
  - rewrite (find_eq_none v f NI), skipn_all. split; [intros []|]. intros [a [b [-> _]]].
    exfalso. apply NI, in_app_iff. right. left. reflexivity.
Qed.
Lemma sec_to_ok v t : NoDup v -> In t v -> exists l, sec_to v t = Ok l /\ forall x, In x l <-> at_or_before v t x.
Proof.
  intros ND I. unfold sec_to, at_or_before. destruct (find_eq_split v t I) as [a [b [E [_ ->]]]].
  destruct (Nat.ltb_spec (length a) (length v)) as [_|L].
  2:{ rewrite E, app_length in L. cbn [length] in L. lia. }
  eexists. split; [reflexivity|]. intros x.
  replace (firstn (S (length a)) v) with (a ++ [t]).
  2:{ rewrite E. replace (S (length a)) with (length (a ++ [t])) by (rewrite app_length; cbn; lia).
      replace (a ++ t :: b) with ((a ++ [t]) ++ b) by (rewrite <- app_assoc; reflexivity).
      rewrite firstn_app_len. reflexivity. }
  split; [intros Ix; exists a, b; split; assumption|].
  intros [a' [b' [E' Ix]]]. destruct (NoDup_split_unique v a b a' b' t ND E E') as [-> _]. exact Ix.
Qed.
Lemma sec_from_to_ok v f t : NoDup v -> at_or_after v f t ->
  exists l, sec_from_to v f t = Ok l /\ forall x, In x l <-> at_or_after v f x /\ at_or_before v t x.
Proof.
  intros ND A. unfold sec_from_to.
  assert (If : In f v). { destruct A as [a [b [-> _]]]. apply in_app_iff. right. left. reflexivity. }
  assert (It : In t v). { destruct A as [a [b [-> I]]]. apply in_app_iff. right. exact I. }
  destruct (find_eq_split v f If) as [a [b [E [NIf Ef]]]]. destruct (find_eq_split v t It) as [c [d [E' [NIt Et]]]].
  rewrite Ef, Et.
  assert (L : length a <= length c).
  { destruct (Nat.le_gt_cases (length a) (length c)) as [L|L]; [exact L|exfalso].
    destruct A as [a' [b' [E1 I]]]. destruct (NoDup_split_unique v a b a' b' f ND E E1) as [<- <-].
    assert (It2 : In t a).
    { assert (X : firstn (length a) v = a) by (rewrite E; apply firstn_app_len).
      rewrite <- X. rewrite E'. rewrite firstn_app. apply in_app_iff. right.
      destruct (length a - length c) eqn:Ed; [lia|]. left. reflexivity. }
    rewrite E in ND.
    clear -I It2 ND. apply in_split in It2 as [p [q ->]]. rewrite <- app_assoc in ND. cbn in ND.
    apply NoDup_remove_2 in ND. apply ND. rewrite !in_app_iff. right. right. exact I. }
  destruct (Nat.ltb_spec (length c) (length v)) as [_|L1].
  2:{ rewrite E', app_length in L1. cbn [length] in L1. lia. }
  destruct (Nat.leb_spec (length a) (S (length c))) as [_|L1]; [|lia]. cbn [andb].
  eexists. split; [reflexivity|]. intros x.
  (* v = a ++ m ++ d with c ++ [t] = a ++ m *)
  assert (M : exists m, c ++ [t] = a ++ m /\ f :: b = m ++ d).
  { exists (skipn (length a) (c ++ [t])).
    assert (EV : a ++ f :: b = (c ++ [t]) ++ d) by (rewrite <- app_assoc; cbn; congruence).
    assert (Q : a = firstn (length a) (c ++ [t])).
    { transitivity (firstn (length a) (a ++ f :: b)); [symmetry; apply firstn_app_len|]. rewrite EV.
      rewrite firstn_app. replace (length a - length (c ++ [t])) with 0 by (rewrite app_length; cbn; lia).
      cbn. rewrite app_nil_r. reflexivity. }
    split.
    - rewrite Q at 1. symmetry. apply firstn_skipn.
    - apply (f_equal (skipn (length a))) in EV. rewrite skipn_app_len in EV. rewrite EV.
      rewrite skipn_app. replace (length a - length (c ++ [t])) with 0 by (rewrite app_length; cbn; lia). reflexivity. }
  destruct M as [m [M1 M2]].
  assert (EM : firstn (S (length c) - length a) (skipn (length a) v) = m).
  { rewrite E, skipn_app_len, M2. replace (S (length c) - length a) with (length m).
    - apply firstn_app_len.
    - apply (f_equal (@length N)) in M1. rewrite !app_length in M1. cbn in M1. lia. }
  rewrite EM. unfold at_or_after, at_or_before. split.
  - intros Ix. split.
    + exists a, b. split; [exact E|]. rewrite M2. apply in_app_iff. left. exact Ix.
    + exists c, d. split; [exact E'|]. rewrite M1. apply in_app_iff. right. exact Ix.
  - intros [[a' [b' [E1 I1]]] [c' [d' [E2 I2]]]].
    destruct (NoDup_split_unique v a b a' b' f ND E E1) as [<- <-].
    destruct (NoDup_split_unique v c d c' d' t ND E' E2) as [<- <-].
    rewrite M1 in I2. apply in_app_iff in I2 as [I2|I2]; [|exact I2]. exfalso.
    rewrite E in ND. apply in_split in I2 as [p [q ->]]. rewrite <- app_assoc in ND. cbn in ND.
    apply NoDup_remove_2 in ND. apply ND. rewrite !in_app_iff. right. right. exact I1.
Qed.

(* ---- the used sections ---- *)
(* l without consecutive repetitions is ss *)
Inductive merged : list nat -> list nat -> Prop :=
| merged_nil : merged [] []
| merged_one x : merged [x] [x]
| merged_same x l ss : merged (x :: l) ss -> merged (x :: x :: l) ss
| merged_diff x y l ss : x <> y -> merged (y :: l) ss -> merged (x :: y :: l) (x :: ss).

Lemma merged_hd x l ss : merged (x :: l) ss -> exists t, ss = x :: t.
Proof.
  remember (x :: l) as m eqn:Em. intros H. revert x l Em. induction H as [|y|y l' ss H IH|y z l' ss NE H IH]; intros x l Em.
  - discriminate Em.
  - injection Em as <- <-. exists []. reflexivity.
  - injection Em as <- <-. apply (IH y l' eq_refl).
  - injection Em as <- <-. exists ss. reflexivity.
Qed.

Section ELEMENTS.
  Variable srs : list sroute.
  Variable elem : N -> N.
  Variable is_track : N -> bool.
  Variable rising : N -> bool.
  Variable is_excl : N -> bool.
  Variable secs_of : N -> list nat.
  Variable sections : list section.

  (* the sections of the track elements among els *)
  Definition track_sections (els : list N) : list nat := concat (map secs_of (filter is_track els)).

  Lemma used_loop_run els : (forall e, In e els -> is_track e = true -> exists s, secs_of e = [s]) ->
    forall pre x ss, merged (x :: track_sections els) ss ->
      used_loop is_track secs_of els (pre ++ [x]) = Ok (pre ++ ss).
  Proof.
    induction els as [|e els IH]; intros H pre x ss M.
    - cbn in M. inversion M; subst. reflexivity.
    - cbn [used_loop]. unfold track_sections in M. cbn [filter] in M. destruct (is_track e) eqn:Et; cbn [negb].
      + destruct (H e (or_introl eq_refl) Et) as [s Es]. rewrite Es. cbn [map concat] in M. rewrite Es in M. cbn [app] in M.
        fold (track_sections els) in M. rewrite rev_app_distr. cbn [rev app].
        assert (H' : forall e, In e els -> is_track e = true -> exists s, secs_of e = [s]) by (intros e' I; apply H; right; exact I).
        destruct (Nat.eqb_spec x s) as [->|NE].
        * inversion M as [| |? ? ? M'|? ? ? ? NE M']; subst; [|congruence]. apply (IH H' pre s ss M').
        * inversion M as [| |? ? ? M'|? ? ? ss' _ M']; subst; [congruence|].
          rewrite (IH H' (pre ++ [x]) s ss' M'). rewrite <- app_assoc. reflexivity.
      + apply IH; [intros e' I; apply H; right; exact I|exact M].
  Qed.
  Lemma used_loop_ok els : (forall e, In e els -> is_track e = true -> exists s, secs_of e = [s]) ->
    forall ss, merged (track_sections els) ss -> used_loop is_track secs_of els [] = Ok ss.
  Proof.
    induction els as [|e els IH]; intros H ss M.
    - cbn in M. inversion M; subst. reflexivity.
    - assert (H' : forall e, In e els -> is_track e = true -> exists s, secs_of e = [s]) by (intros e' I; apply H; right; exact I).
      cbn [used_loop]. unfold track_sections in M. cbn [filter] in M. destruct (is_track e) eqn:Et; cbn [negb].
      + destruct (H e (or_introl eq_refl) Et) as [s Es]. rewrite Es. cbn [map concat] in M. rewrite Es in M. cbn [app] in M.
        cbn [rev]. apply (used_loop_run els H' [] s ss M).
      + apply (IH H' ss M).
  Qed.
  Lemma merged_total l : exists ss, merged l ss.
  Proof.
    induction l as [|x l [ss IH]]; [exists []; constructor|].
    destruct l as [|y l]; [exists [x]; constructor|].
    destruct (Nat.eq_dec x y) as [->|NE]; [exists ss; constructor; exact IH|exists (x :: ss); constructor; assumption].
  Qed.

  Lemma whole_ok l : Forall (fun s => s < length sections) l ->
    exists r, whole_sections is_excl sections l = Ok r /\
      forall x, In x r <-> is_excl x = true /\ exists s sec, In s l /\ nth_error sections s = Some sec /\ In x (sec_rising sec).
  Proof.
    induction 1 as [|s l Hs F [r [Er Hr]]].
    - exists []. split; [reflexivity|]. intros x. split; [intros []|]. intros [_ [s [sec [[] _]]]].
    - destruct (at_lt sections s Hs) as [sec [E1 E2]]. cbn [whole_sections]. rewrite E2, Er. cbn [bind].
      eexists. split; [reflexivity|]. intros x. rewrite in_app_iff, filter_In, Hr. split.
      + intros [[I X]|[X [s' [sec' [I [E I']]]]]].
        * split; [exact X|]. exists s, sec. split; [left; reflexivity|]. split; assumption.
        * split; [exact X|]. exists s', sec'. split; [right; exact I|]. split; assumption.
      + intros [X [s' [sec' [[<-|I] [E I']]]]].
        * left. split; [|exact X]. congruence.
        * right. split; [exact X|]. exists s', sec'. repeat split; assumption.
  Qed.

  (* the elements visited by the route *)
  Definition visits (r : iroute) (els : list N) : Prop :=
    Forall2 (fun c e => exists n, cell_node srs c n /\ elem n = e) (ir_cells srs r) els.

  Definition travel_dir (first last : N) : bool :=
    if is_track first then rising first else if is_track last then rising last else true.

  (* the elements of the used sections that belong to the route *)
  Definition covered (first last : N) (ss : list nat) (x : N) : Prop :=
    match ss with
    | [] => False
    | [s] => exists sec, nth_error sections s = Some sec /\
               at_or_after (sec_order sec (travel_dir first last)) first x /\
               at_or_before (sec_order sec (travel_dir first last)) last x
    | s :: rest =>
        (exists sec, nth_error sections s = Some sec /\
           if is_track first then at_or_after (sec_order sec (rising first)) first x else In x (sec_rising sec)) \/
        (exists m sec, In m (removelast rest) /\ nth_error sections m = Some sec /\ In x (sec_rising sec)) \/
        (exists sec, nth_error sections (List.last rest 0) = Some sec /\
           if is_track last then at_or_before (sec_order sec (rising last)) last x else In x (sec_rising sec))
    end.

  (* what the end of the route needs to satisfy *)
  Definition ends_inside (first last : N) (ss : list nat) : Prop :=
    match ss with
    | [] => False
    | [s] => exists sec, nth_error sections s = Some sec /\
               at_or_after (sec_order sec (travel_dir first last)) first last
    | s :: rest => is_track last = true -> exists sec, nth_error sections (List.last rest 0) = Some sec /\
                     In last (sec_order sec (rising last))
    end.

  Hypothesis SND : forall s sec, nth_error sections s = Some sec -> NoDup (sec_rising sec) /\ NoDup (sec_falling sec).
  Lemma order_NoDup s sec d : nth_error sections s = Some sec -> NoDup (sec_order sec d).
  Proof. intros E. destruct (SND s sec E). destruct d; assumption. Qed.

  Lemma excl_elems_ok r els ss : proper srs r -> omitted_sorted srs ->
    (1 < length (ir_srs r) -> hd 0 (ir_srs r) <> List.last (ir_srs r) 0) ->
    visits r els ->
    (forall e, In e els -> is_track e = true -> exists s, secs_of e = [s]) ->
    merged (track_sections els) ss -> Forall (fun s => s < length sections) ss ->
    ends_inside (hd 0%N els) (List.last els 0%N) ss ->
    exists l, get_exclusion_elements srs elem is_track rising is_excl secs_of sections r = Ok l /\
      StronglySorted N.lt l /\
      forall x, In x l <-> is_excl x = true /\ covered (hd 0%N els) (List.last els 0%N) ss x.
  Proof.
    intros [W [NE [Ls Le]]] OS LOOP V SEC M B EI.
    assert (IT : exists l, ir_iterate srs r = Ok l /\ Forall2 (shows srs) l (ir_cells srs r)).
    { apply (ir_iterate_vis srs OS r W). intros N0. apply LOOP.
      pose proof (wf_nonempty _ _ W). destruct (ir_srs r) as [|x [|y l]]; cbn in *; [congruence|congruence|lia]. }
    destruct IT as [l [El Fl]].
    assert (ME : map (fun x => elem (rn_node x)) l = els).
    { revert Fl V. unfold visits. clear. intros Fl. revert els. induction Fl as [|x c l cs [Hn _] F IH]; intros els V;
        inversion V as [|? e ? es [n [Hc <-]] V']; subst; [reflexivity|].
      cbn [map]. rewrite (IH es V'). f_equal. f_equal. apply (cell_node_fun srs c _ _ Hn Hc). }
    unfold get_exclusion_elements, get_used_sections. rewrite El. cbn [bind]. rewrite ME.
    rewrite (used_loop_ok els SEC ss M). cbn [bind].
    destruct (first_node_ok srs r W NE Ls) as [fn [Efn Cf]].
    destruct (last_node_ok srs r W NE Le) as [ln [Eln Cl]].
    assert (Hf : elem fn = hd 0%N els).
    { unfold visits in V. unfold starts_at in *. destruct V as [|c e cs es [n [Hc <-]] V]; [congruence|].
      cbn [hd] in *. f_equal. apply (cell_node_fun srs c _ _ Cf Hc). }
    assert (Hl : elem ln = List.last els 0%N).
    { clear -V Cl NE. unfold visits in V. revert NE Cl. induction V as [|c e cs es [n [Hc <-]] V IH]; intros NE Cl; [congruence|].
      destruct V as [|c' e' cs' es' Hc' V].
      - cbn [List.last] in *. f_equal. apply (cell_node_fun srs c _ _ Cl Hc).
      - change (List.last (elem n :: e' :: es') 0%N) with (List.last (e' :: es') 0%N).
        apply IH; [discriminate|exact Cl]. }
    destruct ss as [|s rest]; [destruct EI|].
    rewrite Efn, Eln. cbn [bind]. rewrite Hf, Hl.
    apply Forall_cons_iff in B as [Bs Br].
    destruct (at_lt sections s Bs) as [fsec [Ef1 Ef2]]. rewrite Ef2. cbn [bind].
    destruct rest as [|s2 rest].
    - cbn [List.last]. rewrite Ef2. cbn [bind]. unfold one_section. fold (travel_dir (hd 0%N els) (List.last els 0%N)).
      destruct EI as [sec [Es A]]. assert (sec = fsec) by congruence. subst sec.
      destruct (sec_from_to_ok _ _ _ (order_NoDup s fsec (travel_dir (hd 0%N els) (List.last els 0%N)) Ef1) A) as [p [Ep Hp]].
      rewrite Ep. cbn [bind]. eexists. split; [reflexivity|].
      destruct (erase_duplicates_ok (filter is_excl p)) as [S1 I1]. split; [exact S1|]. intros x.
      rewrite I1, filter_In, Hp. cbn [covered]. split.
      + intros [H X]. split; [exact X|]. exists fsec. split; [exact Ef1|exact H].
      + intros [X [sec [Es' H]]]. assert (sec = fsec) by congruence. subst sec. split; assumption.
    - set (rest' := s2 :: rest) in *.
      change (List.last (s :: rest') 0) with (List.last rest' 0).
      assert (Bl : List.last rest' 0 < length sections).
      { rewrite Forall_forall in Br. apply Br. unfold rest'. rewrite (app_removelast_last 0 (l := s2 :: rest)) at 2 by discriminate.
        apply in_app_iff. right. left. reflexivity. }
      destruct (at_lt sections _ Bl) as [lsec [El1 El2]]. rewrite El2. cbn [bind].
      destruct (whole_ok (removelast rest')) as [mid [Em Hm]].
      { rewrite Forall_forall in *. intros y I. apply Br. unfold rest' in *.
        rewrite (app_removelast_last 0 (l := s2 :: rest)) by discriminate. apply in_app_iff. left. exact I. }
      cbv iota. rewrite Em. cbn [bind].
      assert (ZZ : exists z, (if is_track (List.last els 0%N)
             then sec_to (sec_order lsec (rising (List.last els 0%N))) (List.last els 0%N)
             else Ok (sec_rising lsec)) = Ok z /\ forall x, In x z <->
             if is_track (List.last els 0%N) then at_or_before (sec_order lsec (rising (List.last els 0%N))) (List.last els 0%N) x
             else In x (sec_rising lsec)).
      { cbn [ends_inside] in EI. unfold rest' in EI. fold rest' in EI.
        destruct (is_track (List.last els 0%N)) eqn:Tl; [|eexists; split; [reflexivity|reflexivity]].
        destruct (EI eq_refl) as [sec [Es I]]. assert (sec = lsec) by congruence. subst sec.
        apply sec_to_ok; [|exact I]. apply (order_NoDup _ _ _ El1). }
      destruct ZZ as [z [Ez Hz]]. rewrite Ez. cbn [bind]. eexists. split; [reflexivity|].
      match goal with |- StronglySorted _ (erase_duplicates ?q) /\ _ => destruct (erase_duplicates_ok q) as [S1 I1] end.
      split; [exact S1|]. intros x. rewrite I1, !in_app_iff, !filter_In, Hm, Hz.
      assert (HA : In x (if is_track (hd 0%N els) then sec_from (sec_order fsec (rising (hd 0%N els))) (hd 0%N els) else sec_rising fsec) <->
                   if is_track (hd 0%N els) then at_or_after (sec_order fsec (rising (hd 0%N els))) (hd 0%N els) x else In x (sec_rising fsec)).
      { destruct (is_track (hd 0%N els)); [|reflexivity]. apply sec_from_ok. apply (order_NoDup _ _ _ Ef1). }
      rewrite HA.
      change (covered (hd 0%N els) (List.last els 0%N) (s :: rest') x) with
        ((exists sec, nth_error sections s = Some sec /\
           if is_track (hd 0%N els) then at_or_after (sec_order sec (rising (hd 0%N els))) (hd 0%N els) x else In x (sec_rising sec)) \/
        (exists m sec, In m (removelast rest') /\ nth_error sections m = Some sec /\ In x (sec_rising sec)) \/
        (exists sec, nth_error sections (List.last rest' 0) = Some sec /\
           if is_track (List.last els 0%N) then at_or_before (sec_order sec (rising (List.last els 0%N))) (List.last els 0%N) x else In x (sec_rising sec))).
      split.
      + intros [[H X]|[[X H]|[H X]]].
        * split; [exact X|]. left. exists fsec. split; assumption.
        * split; [exact X|]. right. left. exact H.
        * split; [exact X|]. right. right. exists lsec. split; assumption.
      + intros [X [[sec [Es H]]|[H|[sec [Es H]]]]].
        * left. assert (sec = fsec) by congruence. subst sec. split; assumption.
        * right. left. split; assumption.
        * right. right. assert (sec = lsec) by congruence. subst sec. split; assumption.
  Qed.

End ELEMENTS.

Section OPEN.
  Variable srs : list sroute.
  Variable elem : N -> N.
  (* ---- open elements ---- *)
  Lemma in_erase x y l : In y (erase_value x l) <-> In y l /\ y <> x.
  Proof.
    unfold erase_value. rewrite filter_In. destruct (N.eqb_spec y x); cbn; intuition congruence.
  Qed.
  Lemma filter_SS (f : N -> bool) l : StronglySorted N.lt l -> StronglySorted N.lt (filter f l).
  Proof.
    induction 1 as [|a l S0 IH F]; [constructor|]. cbn [filter]. destruct (f a); [|exact IH].
    constructor; [exact IH|]. rewrite Forall_forall in *. intros y I. apply filter_In in I. apply F, I.
  Qed.

  Definition open_row (irs : list iroute) (k : nat) (row row' : list N) : Prop :=
    (forall x, In x row' <-> In x row /\
       forall r n, In r irs -> ir_id r = N.of_nat k -> starts_at srs r n \/ ends_at srs r n -> x <> elem n) /\
    (StronglySorted N.lt row -> StronglySorted N.lt row').

  Lemma open_ok irs : Forall (proper srs) irs -> forall t,
    (forall r, In r irs -> N.to_nat (ir_id r) < length t) ->
    exists t', open_loop srs elem irs t = Ok t' /\ length t' = length t /\
      forall k row', nth_error t' k = Some row' -> exists row, nth_error t k = Some row /\ open_row irs k row row'.
  Proof.
    induction 1 as [|r irs P F IH]; intros t H.
    - exists t. split; [reflexivity|]. split; [reflexivity|]. intros k row E. exists row. split; [exact E|]. split.
      + intros x. split; [intros I; split; [exact I|intros ? ? []]|tauto].
      + tauto.
    - cbn [open_loop]. destruct P as [W [NE [Ls Le]]].
      destruct (first_node_ok srs r W NE Ls) as [fn [Efn Cf]].
      destruct (last_node_ok srs r W NE Le) as [ln [Eln Cl]].
      rewrite Efn, Eln. cbn [bind].
      destruct (at_lt t (N.to_nat (ir_id r)) (H r (or_introl eq_refl))) as [row0 [E0 E1]]. rewrite E1. cbn [bind].
      match goal with |- context [open_loop _ _ _ ?u] => destruct (IH u) as [t' [Et [Lt Ht]]] end.
      { intros r' I. rewrite upd_length. apply H. right. exact I. }
      rewrite upd_length in Lt. exists t'. split; [exact Et|]. split; [exact Lt|].
      intros k row' E. destruct (Ht k row' E) as [row [Er [O1 O2]]].
      destruct (Nat.eq_dec (N.to_nat (ir_id r)) k) as [Ek|Nk].
      + subst k. rewrite nth_error_upd_same in Er by (apply H; left; reflexivity). injection Er as <-.
        exists row0. split; [exact E0|]. split.
        * intros x. rewrite O1, !in_erase. split.
          -- intros [[[I X1] X2] A]. split; [exact I|]. intros r' n [<-|I'] Ei C; [|exact (A r' n I' Ei C)].
             destruct C as [C|C]; [rewrite (cell_node_fun srs _ _ _ C Cf); exact X1|rewrite (cell_node_fun srs _ _ _ C Cl); exact X2].
          -- intros [I A]. split.
             ++ split; [split; [exact I|]|].
                ** apply (A r fn); [left; reflexivity|lia|left; exact Cf].
                ** apply (A r ln); [left; reflexivity|lia|right; exact Cl].
             ++ intros r' n I'. apply A. right. exact I'.
        * intros S0. apply O2. apply filter_SS, filter_SS, S0.
      + rewrite nth_error_upd_other in Er by exact Nk. exists row. split; [exact Er|]. split; [|exact O2].
        intros x. rewrite O1. split; intros [I A]; (split; [exact I|]); intros r' n.
        * intros [<-|I'] Ei C; [lia|exact (A r' n I' Ei C)].
        * intros I'. apply A. right. exact I'.
  Qed.
End OPEN.

(* ---- cliques ---- *)
Lemma lex_total a : forall b, lex_leb a b = false -> lex_leb b a = true.
Proof.
  induction a as [|x a IH]; intros [|y b] H; cbn in *; try reflexivity; try discriminate.
  destruct (N.ltb_spec x y); [discriminate|]. destruct (N.ltb_spec y x); [reflexivity|]. apply IH, H.
Qed.
Lemma lex_trans a : forall b c, lex_leb a b = true -> lex_leb b c = true -> lex_leb a c = true.
Proof.
  induction a as [|x a IH]; intros [|y b] [|z c] H1 H2; cbn in *; try reflexivity; try discriminate.
  destruct (N.ltb_spec x y), (N.ltb_spec y z), (N.ltb_spec x z); try reflexivity; try discriminate; try lia;
    destruct (N.ltb_spec y x); try discriminate; destruct (N.ltb_spec z y); try discriminate; try lia;
    destruct (N.ltb_spec z x); try lia; try (eapply IH; eassumption).
Qed.

(* p runs along v: its elements are in v, later ones not before earlier ones *)
Definition along (v p : list N) : Prop :=
  Forall (fun e => In e v) p /\ StronglySorted (at_or_after v) p.

Lemma after_refl v x : In x v -> at_or_after v x x.
Proof. intros I. apply in_split in I as [a [b ->]]. exists a, b. split; [reflexivity|left; reflexivity]. Qed.
Lemma before_refl v x : In x v -> at_or_before v x x.
Proof. intros I. apply in_split in I as [a [b ->]]. exists a, b. split; [reflexivity|]. apply in_app_iff. right. left. reflexivity. Qed.
Lemma after_before v x y : at_or_after v x y -> at_or_before v y x.
Proof.
  intros [a [b [-> [<-|I]]]].
  - apply before_refl. apply in_app_iff. right. left. reflexivity.
  - apply in_split in I as [c [d ->]]. exists (a ++ x :: c), d. split; [rewrite <- app_assoc; reflexivity|].
    rewrite !in_app_iff. left. right. left. reflexivity.
Qed.
Lemma along_after v p f x : along v (f :: p) -> In x (f :: p) -> at_or_after v f x.
Proof.
  intros [F S0] [<-|I]; [apply after_refl; inversion F; assumption|].
  inversion S0 as [|? ? _ G]; subst. rewrite Forall_forall in G. apply G, I.
Qed.
Lemma along_before v p d x : along v p -> In x p -> at_or_before v (List.last p d) x.
Proof.
  intros [F S0]. revert F. induction S0 as [|y p S0 IH G]; intros F I; [destruct I|].
  destruct p as [|z p].
  - destruct I as [<-|[]]. cbn. apply before_refl. inversion F; assumption.
  - change (List.last (y :: z :: p) d) with (List.last (z :: p) d). inversion F as [|? ? F0 F1]; subst.
    destruct I as [<-|I]; [|exact (IH F1 I)]. apply after_before. rewrite Forall_forall in G. apply G.
    rewrite (app_removelast_last d (l := z :: p)) at 2 by discriminate. apply in_app_iff. right. left. reflexivity.
Qed.

Section COVER.
  Variable is_track rising : N -> bool.
  Variable sections : list section.

  (* part p of the route lies in section s and is travelled in one direction *)
  Definition part_in (s : nat) (p : list N) : Prop :=
    p <> [] /\ exists sec d, nth_error sections s = Some sec /\ along (sec_order sec d) p /\
      (forall e, In e p -> is_track e = true -> rising e = d) /\
      (forall e, In e (sec_falling sec) <-> In e (sec_rising sec)).

  Lemma order_in sec d e : (forall e, In e (sec_falling sec) <-> In e (sec_rising sec)) ->
    In e (sec_order sec d) -> In e (sec_rising sec).
  Proof. intros H. destruct d; [tauto|]. apply H. Qed.
  Lemma last_concat (ps : list (list N)) : ps <> [] -> Forall (fun p => p <> []) ps ->
    List.last (concat ps) 0%N = List.last (List.last ps []) 0%N.
  Proof.
    intros NE F. revert NE. induction F as [|p ps Hp F IH]; intros NE; [congruence|].
    destruct ps as [|q ps]; [cbn; rewrite app_nil_r; reflexivity|].
    change (List.last (p :: q :: ps) []) with (List.last (q :: ps) []).
    rewrite <- IH by discriminate. change (concat (p :: q :: ps)) with (p ++ concat (q :: ps)).
    assert (Q : concat (q :: ps) <> []) by (cbn; inversion F; subst; destruct q; [congruence|discriminate]).
    revert Q. generalize (concat (q :: ps)). intros l Q.
    rewrite (app_removelast_last 0%N Q). rewrite app_assoc. rewrite !last_last. reflexivity.
  Qed.

  (* a route along its sections covers every element it visits; only when both
     end points of a route inside one section are not track elements the
     direction of travel must be given *)
  Lemma parts_covered ss parts : Forall2 part_in ss parts -> ss <> [] ->
    (forall s sec p, ss = [s] -> parts = [p] -> nth_error sections s = Some sec ->
       is_track (hd 0%N p) = false -> is_track (List.last p 0%N) = false -> along (sec_rising sec) p) ->
    let els := concat parts in
    ends_inside is_track rising sections (hd 0%N els) (List.last els 0%N) ss /\
    forall x, In x els -> covered is_track rising sections (hd 0%N els) (List.last els 0%N) ss x.
  Proof.
    intros F NE ONE els.
    assert (NEP : Forall (fun p => p <> []) parts) by (clear -F; induction F as [|s p ss ps [H _] F IH]; constructor; assumption).
    destruct F as [|s p ss parts H F]; [congruence|].
    destruct ss as [|s2 ss].
    - inversion F; subst. unfold els. cbn [concat]. rewrite app_nil_r.
      destruct H as [Hp [sec [d [Es [A [D _]]]]]].
      assert (A' : along (sec_order sec (travel_dir is_track rising (hd 0%N p) (List.last p 0%N))) p).
      { unfold travel_dir. destruct (is_track (hd 0%N p)) eqn:T1.
          replace (rising (hd 0%N p)) with d; [exact A|]. symmetry. apply D; [|exact T1]. destruct p; [congruence|left; reflexivity].
        - destruct (is_track (List.last p 0%N)) eqn:T2.
          + replace (rising (List.last p 0%N)) with d; [exact A|]. symmetry. apply D; [|exact T2].
            rewrite (app_removelast_last 0%N (l := p)) at 2 by exact Hp. apply in_app_iff. right. left. reflexivity.
          + exact (ONE s sec p eq_refl eq_refl Es T1 T2). }
      assert (IL : In (List.last p 0%N) p).
      { rewrite (app_removelast_last 0%N (l := p)) at 2 by exact Hp. apply in_app_iff. right. left. reflexivity. }
      split.
      + cbn [ends_inside]. exists sec. split; [exact Es|]. destruct p as [|f p]; [congruence|]. apply (along_after _ p); [exact A'|exact IL].
      + intros x I. cbn [covered]. exists sec. split; [exact Es|]. split.
        * destruct p as [|f p]; [congruence|]. apply (along_after _ p); assumption.
        * apply along_before; assumption.
    - destruct parts as [|p2 parts]; [inversion F|].
      assert (HL : hd 0%N els = hd 0%N p).
      { unfold els. cbn [concat]. destruct p; [inversion NEP; congruence|reflexivity]. }
      assert (LL : List.last els 0%N = List.last (List.last (p2 :: parts) []) 0%N).
      { unfold els. rewrite last_concat by (discriminate || exact NEP). reflexivity. }
      rewrite HL, LL.
      assert (FL : part_in (List.last (s2 :: ss) 0) (List.last (p2 :: parts) [])).
      { clear -F. remember (s2 :: ss) as a eqn:Ea. remember (p2 :: parts) as b eqn:Eb. revert s2 ss p2 parts Ea Eb.
        induction F as [|x y l l' H F IH]; intros s2 ss p2 parts Ea Eb; [discriminate Ea|].
        destruct F as [|x' y' l l' H' F]; [exact H|].
        change (part_in (List.last (x' :: l) 0) (List.last (y' :: l') [])). eapply IH; reflexivity. }
      set (rest := s2 :: ss) in *. set (z := List.last (p2 :: parts) []) in *.
      destruct FL as [Hz [zsec [zd [Ez [Az [Dz Cz]]]]]].
      destruct H as [Hp [sec [d [Es [A [D Cs]]]]]].
      assert (IL : In (List.last z 0%N) z).
      { rewrite (app_removelast_last 0%N (l := z)) at 2 by exact Hz. apply in_app_iff. right. left. reflexivity. }
      split.
      + change (is_track (List.last z 0%N) = true -> exists sec, nth_error sections (List.last rest 0) = Some sec /\
                     In (List.last z 0%N) (sec_order sec (rising (List.last z 0%N)))).
        intros T. exists zsec. split; [exact Ez|]. rewrite (Dz _ IL T). destruct Az as [Fz _].
        rewrite Forall_forall in Fz. apply Fz, IL.
      + intros x I.
        change ((exists sec, nth_error sections s = Some sec /\
           if is_track (hd 0%N p) then at_or_after (sec_order sec (rising (hd 0%N p))) (hd 0%N p) x else In x (sec_rising sec)) \/
        (exists m sec, In m (removelast rest) /\ nth_error sections m = Some sec /\ In x (sec_rising sec)) \/
        (exists sec, nth_error sections (List.last rest 0) = Some sec /\
           if is_track (List.last z 0%N) then at_or_before (sec_order sec (rising (List.last z 0%N))) (List.last z 0%N) x else In x (sec_rising sec))).
        unfold els in I. cbn [concat] in I. apply in_app_iff in I as [I|I].
        * left. exists sec. split; [exact Es|]. destruct (is_track (hd 0%N p)) eqn:T.
          -- destruct p as [|f p]; [congruence|]. cbn [hd] in *. rewrite (D f (or_introl eq_refl) T).
             apply (along_after _ p); assumption.
          -- apply (order_in sec d); [exact Cs|]. destruct A as [FA _]. rewrite Forall_forall in FA. apply FA, I.
        * right.
          assert (Q : In x z \/ exists m q, In m (removelast rest) /\ part_in m q /\ In x q).
          { unfold rest, z in *. clear -F I. change (p2 ++ concat parts) with (concat (p2 :: parts)) in I.
            remember (s2 :: ss) as a eqn:Ea. remember (p2 :: parts) as b eqn:Eb. revert s2 ss p2 parts Ea Eb I.
            induction F as [|u y l l' H F IH]; intros s2 ss p2 parts Ea Eb I; [discriminate Ea|].
            destruct F as [|u' y' l l' H' F].
            - left. cbn in I. rewrite app_nil_r in I. exact I.
            - cbn [concat] in I. apply in_app_iff in I as [I|I].
              + right. exists u, y. split; [left; reflexivity|]. split; [exact H|exact I].
              + destruct (IH u' l y' l' eq_refl eq_refl I) as [J|[m [q [J1 J2]]]].
                * left. exact J.
                * right. exists m, q. split; [right; exact J1|exact J2]. }
          destruct Q as [I'|[m [q [Im [[Hq [msec [md [Ems [Am [_ Cm]]]]]] Iq]]]]].
          -- right. exists zsec. split; [exact Ez|]. destruct (is_track (List.last z 0%N)) eqn:T.
             ++ rewrite (Dz _ IL T). apply along_before; assumption.
             ++ apply (order_in zsec zd); [exact Cz|]. destruct Az as [FA _]. rewrite Forall_forall in FA. apply FA, I'.
          -- left. exists m, msec. split; [exact Im|]. split; [exact Ems|]. apply (order_in msec md); [exact Cm|].
             destruct Am as [FA _]. rewrite Forall_forall in FA. apply FA, Iq.
  Qed.
End COVER.
