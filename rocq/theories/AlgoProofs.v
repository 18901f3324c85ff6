(* Proofs about AlgoModel.v. *)
From Verif Require Import Base AlgoModel.
From Coq Require Import Sorting Permutation Sorted ZifyBool ZifyNat ZifyN.
Local Open Scope N_scope.

Definition asc : list N -> Prop := StronglySorted N.le.
Definition sasc : list N -> Prop := StronglySorted N.lt.

Lemma sasc_asc l : sasc l -> asc l.
Proof.
  induction 1 as [|x l S IH F]; constructor; [exact IH|].
  eapply Forall_impl; [|exact F]. cbn. intros. lia.
Qed.

Lemma is_sorted_asc l : is_sorted l = true <-> asc l.
Proof.
  unfold asc. split.
  - intros H. apply Sorted_StronglySorted; [intros x y z; lia|].
    induction l as [|a l IH]; [constructor|]. destruct l as [|b l].
    + repeat constructor.
    + cbn [is_sorted] in H. apply andb_prop in H as [H1 H2].
      constructor; [apply IH; exact H2|constructor; lia].
  - intros H. apply StronglySorted_Sorted in H.
    induction H as [|a l S IH F]; [reflexivity|]. destruct l as [|b l]; [reflexivity|].
    change (is_sorted (a :: b :: l)) with ((a <=? b) && is_sorted (b :: l)).
    inversion F. rewrite IH. lia.
Qed.

(* ---- merge_unique ---- *)
Lemma std_merge_nil_r l : std_merge l [] = l.
Proof. destruct l; reflexivity. Qed.
Lemma std_merge_cons a t1 b t2 :
  std_merge (a :: t1) (b :: t2) =
  if b <? a then b :: std_merge (a :: t1) t2 else a :: std_merge t1 (b :: t2).
Proof. reflexivity. Qed.

Lemma std_merge_perm l1 : forall l2, Permutation (std_merge l1 l2) (l1 ++ l2).
Proof.
  induction l1 as [|a t1 IH1]; intros l2; [destruct l2; reflexivity|].
  induction l2 as [|b t2 IH2]; [rewrite std_merge_nil_r, app_nil_r; reflexivity|].
  rewrite std_merge_cons. destruct (b <? a).
  - rewrite IH2. apply Permutation_middle.
  - cbn [app]. constructor. apply IH1.
Qed.

Lemma std_merge_asc l1 : asc l1 -> forall l2, asc l2 -> asc (std_merge l1 l2).
Proof.
  induction 1 as [|a t1 S1 IH1 F1]; intros l2 H2; [destruct l2; exact H2|].
  induction H2 as [|b t2 S2 IH2 F2].
  - rewrite std_merge_nil_r. constructor; assumption.
  - rewrite std_merge_cons. destruct (N.ltb_spec b a).
    + constructor; [exact IH2|]. rewrite std_merge_perm. apply Forall_app. split; [|exact F2].
      constructor; [lia|]. eapply Forall_impl; [|exact F1]. cbn. intros. lia.
    + constructor; [apply IH1; constructor; assumption|].
      rewrite std_merge_perm. apply Forall_app. split; [exact F1|]. constructor; [lia|].
      eapply Forall_impl; [|exact F2]. cbn. intros. lia.
Qed.

Definition skip_eq (a : N) : list N -> list N :=
  fix skip (l : list N) : list N :=
    match l with
    | b :: t' => if a =? b then skip t' else std_unique l
    | [] => []
    end.
Lemma std_unique_cons a t : std_unique (a :: t) = a :: skip_eq a t.
Proof. reflexivity. Qed.

Lemma unique_In l : (forall x, In x (std_unique l) <-> In x l) /\
  forall a x, In x (a :: skip_eq a l) <-> In x (a :: l).
Proof.
  induction l as [|b t [IH1 IH2]]; [split; reflexivity|].
  split; [exact (IH2 b)|]. intros a x. cbn [skip_eq]. destruct (N.eqb_spec a b) as [E|NE].
  - subst b. fold (skip_eq a). specialize (IH2 a x). cbn [In] in *. tauto.
  - rewrite std_unique_cons. specialize (IH2 b x). cbn [In] in *. tauto.
Qed.

Lemma unique_sasc l : (asc l -> sasc (std_unique l)) /\
  forall a, asc (a :: l) -> sasc (a :: skip_eq a l).
Proof.
  induction l as [|b t [IH1 IH2]].
  - split; [intros; constructor|]. intros a _. repeat constructor.
  - split; [exact (IH2 b)|]. intros a H. inversion H as [|? ? S F]; subst.
    cbn [skip_eq]. destruct (N.eqb_spec a b) as [E|NE].
    + subst b. fold (skip_eq a). apply IH2. constructor; [inversion S; assumption|].
      inversion F; assumption.
    + constructor; [exact (IH2 b S)|]. rewrite Forall_forall. intros x Ix.
      assert (I : In x (b :: t)) by (apply (proj1 (unique_In (b :: t))); exact Ix).
      inversion F as [|? ? Lb Ft]; subst. destruct I as [<-|I]; [lia|].
      inversion S as [|? ? S' F']; subst. rewrite Forall_forall in F'.
      specialize (F' x I). lia.
Qed.

(* ---- multi_set_merge ---- *)
Definition nonempty (r : list N) : Prop := r <> [].
Definition smallest_head (q : list (list N)) (r : list N) : Prop :=
  exists x t, r = x :: t /\ forall y t', In (y :: t') q -> x <= y.
(* what std::priority_queue guarantees *)
Definition top_ok (pick : list (list N) -> nat) : Prop :=
  forall q, q <> [] -> Forall nonempty q ->
    exists r, nth_error q (pick q) = Some r /\ smallest_head q r.

Lemma extract_ok n : forall q r, nth_error q n = Some r ->
  exists q', extract n q = Ok (r, q') /\ Permutation q (r :: q').
Proof.
  induction n as [|n IH]; intros [|x q] r E; cbn [nth_error] in E; try discriminate.
  - injection E as ->. exists q. split; reflexivity.
  - destruct (IH q r E) as [q' [E' P]]. exists (x :: q'). split.
    + cbn [extract]. rewrite E'. reflexivity.
    + rewrite P. constructor.
Qed.

Lemma skip_le_spec x r : asc r -> asc (skip_le x r) /\
  (forall y, In y (skip_le x r) <-> In y r /\ x < y) /\
  (length (skip_le x r) <= length r)%nat.
Proof.
  induction 1 as [|a t S IH F]; [split; [constructor|split; [cbn; tauto|reflexivity]]|].
  cbn [skip_le]. destruct (N.leb_spec a x) as [L|L].
  - destruct IH as [A [M Le]]. split; [exact A|]. split; [|cbn [length]; lia].
    intros y. rewrite M. cbn [In]. split; [tauto|]. intros [[<-|I] Lx]; [lia|tauto].
  - split; [constructor; assumption|]. split; [|lia]. intros y. split; [|tauto].
    intros I. split; [exact I|]. destruct I as [<-|I]; [lia|].
    rewrite Forall_forall in F. specialize (F y I). lia.
Qed.

Section MULTI.
  Variable pick : list (list N) -> nat.
  Hypothesis PICK : top_ok pick.

  Lemma msm_loop_ok fuel : forall q back,
    Forall nonempty q -> Forall asc q -> (length (concat q) < fuel)%nat ->
    exists l, msm_loop pick fuel q back = Ok l /\ sasc (back :: l) /\
      forall x, In x l <-> In x (concat q) /\ back < x.
  Proof.
    induction fuel as [|fuel IH]; intros q back NE A L; [lia|].
    destruct q as [|r0 q0].
    { exists []. split; [reflexivity|]. split; [repeat constructor|]. cbn. tauto. }
    remember (r0 :: q0) as q eqn:Q.
    destruct (PICK q) as [r [E [x [t [-> Min]]]]]; [subst; discriminate|exact NE|].
    destruct (extract_ok _ _ _ E) as [q' [Ex P]].
    assert (U : msm_loop pick (S fuel) q back =
      do ' (cur, q') <- extract (pick q) q;
      match cur with
      | [] => UB
      | x :: _ =>
          let emit := back <? x in
          let back' := if emit then x else back in
          let cur' := skip_le back' cur in
          do l <- msm_loop pick fuel (match cur' with [] => q' | _ => cur' :: q' end) back';
          Ok (if emit then x :: l else l)
      end) by (rewrite Q; reflexivity).
    rewrite U, Ex. cbn [bind]. cbv zeta. clear U.
    set (back' := if back <? x then x else back).
    set (cur' := skip_le back' (x :: t)).
    assert (NE' := Permutation_Forall P NE). assert (A' := Permutation_Forall P A).
    inversion NE' as [|? ? _ NEq]; subst. inversion A' as [|? ? Ar Aq]; subst.
    destruct (skip_le_spec back' (x :: t) Ar) as [Ac [Mc Lc]]. fold cur' in Ac, Mc, Lc.
    assert (Bx : x <= back') by (unfold back'; destruct (N.ltb_spec back x); lia).
    assert (Lc' : (length cur' < length (x :: t))%nat).
    { unfold cur'. cbn [skip_le]. destruct (N.leb_spec x back'); [|lia].
      assert (asc t) by (inversion Ar; assumption).
      destruct (skip_le_spec back' t H0) as [_ [_ Q]]. cbn [length]. lia. }
    set (q2 := match cur' with [] => q' | _ => cur' :: q' end).
    assert (C2 : forall y, In y (concat q2) <-> In y (concat q') \/ In y cur').
    { intros y. unfold q2. destruct cur' as [|c cs]; cbn [concat]; [cbn; tauto|].
      rewrite in_app_iff. tauto. }
    assert (Lq : length (concat (r0 :: q0)) = (length (x :: t) + length (concat q'))%nat).
    { clear -P. rewrite <- app_length. change ((x :: t) ++ concat q') with (concat ((x :: t) :: q')).
      revert P. generalize (r0 :: q0) as a, ((x :: t) :: q') as b. intros a b P.
      induction P; cbn [concat]; rewrite ?app_length in *; lia. }
    destruct (IH q2 back') as [l [El [Sl Ml]]].
    - unfold q2. destruct cur' as [|c cs]; [exact NEq|constructor; [discriminate|exact NEq]].
    - unfold q2. destruct cur' as [|c cs]; [exact Aq|constructor; assumption].
    - unfold q2. clear -L Lq Lc'. destruct cur' as [|c cs]; cbn [concat]; rewrite ?app_length;
        cbn [length] in *; lia.
    - rewrite El. cbn [bind]. eexists. split; [reflexivity|].
      assert (Mq : forall y, In y (concat (r0 :: q0)) <-> In y (x :: t) \/ In y (concat q')).
      { clear -P. intros y. rewrite <- in_app_iff.
        change ((x :: t) ++ concat q') with (concat ((x :: t) :: q')).
        split; intros H; apply in_concat in H as [w [Iw Iy]]; apply in_concat; exists w;
          (split; [|exact Iy]); [apply (Permutation_in _ P)|apply (Permutation_in _ (Permutation_sym P))];
          exact Iw. }
      assert (Hx : forall y, In y (concat (r0 :: q0)) -> x <= y).
      { intros y I. apply in_concat in I as [w [Iw Iy]].
        destruct w as [|w0 ws]; [destruct Iy|].
        specialize (Min w0 ws Iw). destruct Iy as [<-|Iy]; [exact Min|].
        assert (Aw : asc (w0 :: ws)) by (rewrite Forall_forall in A; apply A; exact Iw).
        inversion Aw as [|? ? _ Fw]; subst. rewrite Forall_forall in Fw. specialize (Fw y Iy). lia. }
      destruct (N.ltb_spec back x) as [Lt|Ge].
      + split.
        * constructor; [exact Sl|]. constructor; [exact Lt|].
          rewrite Forall_forall. intros y Iy. apply Ml in Iy as [_ Ly]. unfold back' in Ly. lia.
        * intros y. cbn [In]. rewrite Ml, C2, Mc, Mq. unfold back' in *. split.
          -- intros [<-|[[H|[H H']] H'']]; [split; [left; left; reflexivity|exact Lt]| |];
               (split; [tauto|lia]).
          -- intros [I Lb]. assert (Hy : x <= y) by (apply Hx, Mq; exact I).
             destruct (N.eq_dec x y) as [->|Ne]; [left; reflexivity|right].
             split; [|lia]. destruct I as [I|I]; [right; split; [exact I|lia]|left; exact I].
      + unfold back' in *. split; [exact Sl|]. intros y. rewrite Ml, C2, Mc, Mq. split.
        * intros [[H|[H H']] H'']; split; try tauto; lia.
        * intros [[I|I] Lb]; tauto.
  Qed.

  Lemma filter_nonempty_spec (ranges : list (list N)) :
    Forall nonempty (filter (fun r => match r with [] => false | _ => true end) ranges) /\
    concat (filter (fun r => match r with [] => false | _ => true end) ranges) = concat ranges.
  Proof.
    induction ranges as [|r rs [IH1 IH2]]; [split; [constructor|reflexivity]|].
    cbn [filter]. destruct r as [|a r]; [split; [exact IH1|exact IH2]|].
    split; [constructor; [discriminate|exact IH1]|cbn [concat]; rewrite IH2; reflexivity].
  Qed.

  Lemma multi_set_merge_ok ranges : Forall asc ranges ->
    exists l, multi_set_merge pick ranges = Ok l /\ asc l /\
      (forall x, In x l <-> In x (concat ranges)) /\
      (Forall sasc ranges -> sasc l).
  Proof.
    intros A. unfold multi_set_merge.
    destruct (filter_nonempty_spec ranges) as [NE C].
    assert (Af : forall P : list N -> Prop, Forall P ranges ->
      Forall P (filter (fun r => match r with [] => false | _ => true end) ranges)).
    { intros P H. rewrite Forall_forall in *. intros r I. apply filter_In in I. apply H, I. }
    assert (A2 := Af asc A). specialize (Af sasc).
    remember (filter (fun r => match r with [] => false | _ => true end) ranges) as q eqn:Q.
    rewrite <- C. clear Q C.
    destruct q as [|r1 [|r2 q0]].
    - exists []. repeat split; [constructor|tauto|tauto|constructor].
    - exists r1. inversion A2; subst. split; [reflexivity|]. split; [assumption|]. cbn [concat].
      rewrite app_nil_r. split; [tauto|]. intros H'. specialize (Af H'). inversion Af; assumption.
    - remember (r1 :: r2 :: q0) as q eqn:Q.
      destruct (PICK q) as [r [E [x [t [-> Min]]]]]; [subst; discriminate|exact NE|].
      destruct (extract_ok _ _ _ E) as [q' [Ex P]]. rewrite Ex. cbn [bind].
      destruct (msm_loop_ok (S (length (concat q))) q x NE A2) as [l [El [Sl Ml]]]; [lia|].
      rewrite El. cbn [bind]. eexists. split; [reflexivity|].
      split; [apply sasc_asc; exact Sl|]. split; [|intros; exact Sl].
      assert (Ix : In x (concat q)).
      { apply in_concat. exists (x :: t). split; [|left; reflexivity].
        apply (Permutation_in _ (Permutation_sym P)). left. reflexivity. }
      intros y. cbn [In]. rewrite Ml. split; [intros [<-|[I _]]; assumption|].
      intros I. assert (Hy : x <= y).
      { apply in_concat in I as [w [Iw Iy]]. destruct w as [|w0 ws]; [destruct Iy|].
        specialize (Min w0 ws Iw). destruct Iy as [<-|Iy]; [exact Min|].
        assert (Aw : asc (w0 :: ws)) by (rewrite Forall_forall in A2; apply A2; exact Iw).
        inversion Aw as [|? ? _ Fw]; subst. rewrite Forall_forall in Fw. specialize (Fw y Iy). lia. }
      destruct (N.eq_dec x y); [left; assumption|right; split; [exact I|lia]].
  Qed.
End MULTI.

(* ---- overlap ---- *)
Lemma skip_lt_spec x r : asc r -> asc (skip_lt x r) /\
  (forall y, In y (skip_lt x r) <-> In y r /\ x <= y) /\
  (length (skip_lt x r) <= length r)%nat.
Proof.
  induction 1 as [|a t S IH F]; [split; [constructor|split; [cbn; tauto|reflexivity]]|].
  cbn [skip_lt]. destruct (N.ltb_spec a x) as [L|L].
  - destruct IH as [A [M Le]]. split; [exact A|]. split; [|cbn [length]; lia].
    intros y. rewrite M. cbn [In]. split; [tauto|]. intros [[<-|I] Lx]; [lia|tauto].
  - split; [constructor; assumption|]. split; [|lia]. intros y. split; [|tauto].
    intros I. split; [exact I|]. destruct I as [<-|I]; [lia|].
    rewrite Forall_forall in F. specialize (F y I). lia.
Qed.

Lemma asc_head a t y : asc (a :: t) -> In y (a :: t) -> a <= y.
Proof.
  intros H [<-|I]; [lia|]. inversion H as [|? ? _ F]; subst. rewrite Forall_forall in F.
  apply F, I.
Qed.

Lemma overlap_loop_ok fuel : forall l1 l2, asc l1 -> asc l2 ->
  (length l1 + length l2 <= fuel)%nat ->
  exists b, overlap_loop fuel l1 l2 = Ok b /\ (b = true <-> exists x, In x l1 /\ In x l2).
Proof.
  induction fuel as [|fuel IH]; intros l1 l2 A1 A2 L.
  - destruct l1 as [|a l1]; [|cbn [length] in L; lia].
    exists false. split; [destruct l2; reflexivity|]. split; [discriminate|]. intros [x [[] _]].
  - destruct l1 as [|a l1].
    { exists false. split; [destruct l2; reflexivity|]. split; [discriminate|]. intros [x [[] _]]. }
    destruct l2 as [|b l2].
    { exists false. split; [reflexivity|]. split; [discriminate|]. intros [x [_ []]]. }
    cbn [overlap_loop]. destruct (N.eqb_spec a b) as [E|NE].
    + subst b. exists true. split; [reflexivity|]. split; [|reflexivity].
      intros _. exists a. split; left; reflexivity.
    + destruct (N.ltb_spec a b) as [Lt|Ge].
      * destruct (skip_lt_spec b (a :: l1) A1) as [A [M Le]].
        destruct (IH (skip_lt b (a :: l1)) (b :: l2) A A2) as [r [Er Hr]].
        { cbn [skip_lt] in *. destruct (N.ltb_spec a b); [|lia].
          assert (asc l1) by (inversion A1; assumption).
          destruct (skip_lt_spec b l1 H0) as [_ [_ Q]]. cbn [length] in *. lia. }
        exists r. split; [exact Er|]. rewrite Hr. split.
        -- intros [x [H1 H2]]. exists x. split; [apply M, H1|exact H2].
        -- intros [x [H1 H2]]. exists x. split; [|exact H2]. apply M. split; [exact H1|].
           exact (asc_head _ _ _ A2 H2).
      * destruct (skip_lt_spec a (b :: l2) A2) as [A [M Le]].
        destruct (IH (a :: l1) (skip_lt a (b :: l2)) A1 A) as [r [Er Hr]].
        { cbn [skip_lt] in *. destruct (N.ltb_spec b a); [|lia].
          assert (asc l2) by (inversion A2; assumption).
          destruct (skip_lt_spec a l2 H0) as [_ [_ Q]]. cbn [length] in *. lia. }
        exists r. split; [exact Er|]. rewrite Hr. split.
        -- intros [x [H1 H2]]. exists x. split; [exact H1|apply M, H2].
        -- intros [x [H1 H2]]. exists x. split; [exact H1|]. apply M. split; [exact H2|].
           exact (asc_head _ _ _ A1 H1).
Qed.

(* ---- permutations of positions ---- *)

Lemma wrapper_ok c perm : Forall (fun i => (i < length c)%nat) perm ->
  wrapper c perm = Ok (map (fun i => nth i c 0) perm).
Proof.
  induction perm as [|i perm IH]; intros F; [reflexivity|].
  inversion F as [|? ? L F']; subst. cbn [wrapper map].
  rewrite (nth_error_nth' c 0 L). rewrite (IH F'). reflexivity.
Qed.

Lemma map_nth_seq (c : list N) : map (fun i => nth i c 0) (seq 0 (length c)) = c.
Proof.
  induction c as [|a c IH]; [reflexivity|]. cbn [length seq map nth]. f_equal.
  rewrite <- seq_shift, map_map. exact IH.
Qed.

Lemma perm_values c perm : Permutation perm (seq 0 (length c)) ->
  Permutation (map (fun i => nth i c 0) perm) c.
Proof.
  intros P. rewrite (Permutation_map (fun i => nth i c 0) P), map_nth_seq. reflexivity.
Qed.

Lemma perm_in_range (c : list N) perm : Permutation perm (seq 0 (length c)) ->
  Forall (fun i => (i < length c)%nat) perm.
Proof.
  intros P. rewrite Forall_forall. intros i I. apply (Permutation_in _ P), in_seq in I. lia.
Qed.

(* ---- set_intersection ---- *)
Section SI.
  Context {A B : Type} (k1 : A -> N) (k2 : B -> N).
  Let si := set_intersection k1 k2.

  Lemma si_cons a t1 b t2 : si (a :: t1) (b :: t2) =
    if k1 a <? k2 b then si t1 (b :: t2)
    else if k2 b <? k1 a then si (a :: t1) t2
    else a :: si t1 t2.
  Proof. reflexivity. Qed.

  Definition cnt (x : N) (l : list N) : nat := count_occ N.eq_dec l x.

  Lemma cnt_cons x a l : cnt x (a :: l) = ((if N.eqb a x then 1 else 0) + cnt x l)%nat.
  Proof.
    unfold cnt. cbn [count_occ]. destruct (N.eq_dec a x) as [->|NE].
    - rewrite N.eqb_refl. reflexivity.
    - destruct (N.eqb_spec a x); [congruence|reflexivity].
  Qed.

  Lemma cnt_zero x l : Forall (fun y => x < y) l -> cnt x l = 0%nat.
  Proof.
    intros F. apply count_occ_not_In. intros I. rewrite Forall_forall in F. specialize (F x I). lia.
  Qed.

  Lemma si_count l1 : asc (map k1 l1) -> forall l2, asc (map k2 l2) -> forall x,
    cnt x (map k1 (si l1 l2)) = Nat.min (cnt x (map k1 l1)) (cnt x (map k2 l2)).
  Proof.
    induction l1 as [|a t1 IH1]; intros A1 l2 A2 x.
    - destruct l2; cbn; reflexivity.
    - induction l2 as [|b t2 IH2].
      + cbn. rewrite Nat.min_0_r. reflexivity.
      + rewrite si_cons.
        assert (A1' : asc (map k1 t1)) by (inversion A1; assumption).
        assert (A2' : asc (map k2 t2)) by (inversion A2; assumption).
        destruct (N.ltb_spec (k1 a) (k2 b)) as [L|L].
        * rewrite (IH1 A1' _ A2). cbn [map]. rewrite (cnt_cons x (k1 a)).
          destruct (N.eqb_spec (k1 a) x) as [E|NE]; [|reflexivity].
          assert (Z : cnt x (k2 b :: map k2 t2) = 0%nat).
          { apply cnt_zero. rewrite Forall_forall. intros y Iy.
            assert (H := asc_head _ _ _ A2 Iy). lia. }
          rewrite Z, !Nat.min_0_r. reflexivity.
        * destruct (N.ltb_spec (k2 b) (k1 a)) as [L'|L'].
          -- rewrite (IH2 A2'). cbn [map]. rewrite (cnt_cons x (k2 b)).
             destruct (N.eqb_spec (k2 b) x) as [E|NE]; [|reflexivity].
             assert (Z : cnt x (k1 a :: map k1 t1) = 0%nat).
             { apply cnt_zero. rewrite Forall_forall. intros y Iy.
               assert (H := asc_head _ _ _ A1 Iy). lia. }
             rewrite Z. reflexivity.
          -- cbn [map]. rewrite !cnt_cons, (IH1 A1' _ A2').
             assert (k2 b = k1 a) by lia. rewrite H.
             destruct (N.eqb_spec (k1 a) x); lia.
  Qed.

  (* the result is a subsequence of the first range *)
  Inductive subseq {T : Type} : list T -> list T -> Prop :=
  | sub_nil : forall l, subseq [] l
  | sub_take : forall x l l', subseq l l' -> subseq (x :: l) (x :: l')
  | sub_skip : forall x l l', subseq l l' -> subseq l (x :: l').

  Lemma si_subseq l1 : forall l2, subseq (si l1 l2) l1.
  Proof.
    induction l1 as [|a t1 IH1]; intros l2; [destruct l2; constructor|].
    induction l2 as [|b t2 IH2]; [constructor|]. rewrite si_cons.
    destruct (k1 a <? k2 b); [constructor; apply IH1|].
    destruct (k2 b <? k1 a); [exact IH2|constructor; apply IH1].
  Qed.
End SI.

Lemma subseq_In {T} (l l' : list T) : subseq l l' -> forall x, In x l -> In x l'.
Proof.
  induction 1 as [l|x l l' S IH|x l l' S IH]; intros y I; [destruct I| |right; auto].
  destruct I as [->|I]; [left; reflexivity|right; auto].
Qed.

Lemma subseq_refl {T} (l : list T) : subseq l l.
Proof. induction l; constructor; assumption. Qed.

Lemma subseq_map {T U} (f : T -> U) l l' : subseq l l' -> subseq (map f l) (map f l').
Proof. induction 1; cbn [map]; constructor; assumption. Qed.

Lemma subseq_StronglySorted {T} (R : T -> T -> Prop) l l' :
  subseq l l' -> StronglySorted R l' -> StronglySorted R l.
Proof.
  induction 1 as [l|x l l' S IH|x l l' S IH]; intros H; [constructor| |].
  - inversion H as [|? ? S' F]; subst. constructor; [auto|].
    rewrite Forall_forall in *. intros y I. apply F, (subseq_In _ _ S), I.
  - inversion H; auto.
Qed.

(* strictly increasing positions below n are a subsequence of 0..n-1 *)
Lemma sorted_positions_subseq l : forall s n, StronglySorted lt l ->
  Forall (fun i => s <= i < s + n)%nat l -> subseq l (seq s n).
Proof.
  intros s n. revert l s. induction n as [|n IH]; intros l s S F.
  - destruct l as [|i l]; [constructor|]. inversion F; lia.
  - destruct l as [|i l]; [constructor|]. inversion S as [|? ? S' G]; subst.
    inversion F as [|? ? Li Fl]; subst. cbn [seq].
    destruct (Nat.eq_dec i s) as [->|NE].
    + constructor. apply IH; [exact S'|]. rewrite Forall_forall in *. intros j Ij.
      specialize (G j Ij). specialize (Fl j Ij). lia.
    + constructor. apply IH; [constructor; assumption|]. rewrite Forall_forall in *.
      intros j [<-|Ij]; [lia|]. specialize (G j Ij). specialize (Fl j Ij). lia.
Qed.

(* ---- sort_by ---- *)
Lemma insert_by_perm {A} le (x : A) l : Permutation (insert_by le x l) (x :: l).
Proof.
  induction l as [|y t IH]; [reflexivity|]. cbn [insert_by]. destruct (le x y); [reflexivity|].
  rewrite IH. constructor.
Qed.
Lemma sort_by_perm {A} le (l : list A) : Permutation (sort_by le l) l.
Proof.
  induction l as [|x l IH]; [reflexivity|]. cbn [sort_by fold_right]. fold (sort_by le l).
  rewrite insert_by_perm, IH. reflexivity.
Qed.
Section SORTED.
  Context {A : Type} (le : A -> A -> bool).
  Hypothesis TOT : forall a b, le a b = false -> le b a = true.
  Hypothesis TR : forall a b c, le a b = true -> le b c = true -> le a c = true.
  Lemma insert_by_sorted x l : StronglySorted (fun a b => le a b = true) l ->
    StronglySorted (fun a b => le a b = true) (insert_by le x l).
  Proof.
    induction 1 as [|y t S IH F]; [repeat constructor|]. cbn [insert_by].
    destruct (le x y) eqn:E.
    - constructor; [constructor; assumption|]. constructor; [exact E|].
      rewrite Forall_forall in *. intros z I. exact (TR _ _ _ E (F z I)).
    - constructor; [exact IH|]. rewrite Forall_forall in *. intros z I.
      apply (Permutation_in _ (insert_by_perm le x t)) in I as [<-|I]; [apply TOT, E|apply F, I].
  Qed.
  Lemma sort_by_sorted l : StronglySorted (fun a b => le a b = true) (sort_by le l).
  Proof.
    induction l as [|x l IH]; [constructor|]. apply insert_by_sorted, IH.
  Qed.
End SORTED.

Lemma SS_impl {A} (R Q : A -> A -> Prop) l : (forall a b, R a b -> Q a b) ->
  StronglySorted R l -> StronglySorted Q l.
Proof.
  intros H. induction 1 as [|x l S IH F]; constructor; [exact IH|].
  eapply Forall_impl; [|exact F]. cbn. auto.
Qed.

Lemma sort_N_asc l : asc (sort_by N.leb l).
Proof.
  eapply SS_impl; [|apply sort_by_sorted].
  - cbn. intros a b H. lia.
  - intros a b. lia.
  - intros a b c. lia.
Qed.

Lemma sort_nat_sorted l : StronglySorted le (sort_by Nat.leb l).
Proof.
  eapply SS_impl; [|apply sort_by_sorted].
  - cbn. intros a b H. lia.
  - intros a b. lia.
  - intros a b c. lia.
Qed.

Lemma SS_le_lt l : StronglySorted le l -> NoDup l -> StronglySorted lt l.
Proof.
  induction 1 as [|x l S IH F]; intros ND; constructor; inversion ND; subst; [auto|].
  rewrite Forall_forall in *. intros y I. specialize (F y I).
  destruct (Nat.eq_dec x y) as [->|]; [contradiction|lia].
Qed.

Lemma cnt_perm x l l' : Permutation l l' -> cnt x l = cnt x l'.
Proof. intros P. unfold cnt. apply Permutation_count_occ. exact P. Qed.

Lemma subseq_NoDup {T} (l l' : list T) : subseq l l' -> NoDup l' -> NoDup l.
Proof.
  induction 1 as [l|x l l' S IH|x l l' S IH]; intros N; [constructor| |]; inversion N; subst; auto.
  constructor; [|auto]. intros I. apply (subseq_In _ _ S) in I. contradiction.
Qed.

(* ---- slices ---- *)
Section SLICES.
  Context {A : Type}.

  Lemma find_if_le (p : A -> bool) l : (find_if p l <= length l)%nat.
  Proof. induction l as [|x l IH]; [cbn; lia|]. cbn. destruct (p x); lia. Qed.

  Lemma find_if_spec (p : A -> bool) l :
    Forall (fun x => p x = false) (firstn (find_if p l) l) /\
    match skipn (find_if p l) l with [] => True | x :: _ => p x = true end.
  Proof.
    induction l as [|x l [IH1 IH2]]; [split; [constructor|exact I]|].
    cbn [find_if]. destruct (p x) eqn:E; [split; [constructor|exact E]|].
    split; [constructor; assumption|exact IH2].
  Qed.

  Lemma slice_eq (v : list A) from to : (from <= to <= length v)%nat ->
    slice v from to = Ok (firstn (to - from) (skipn from v)) /\
    slice_in_place v from to = Ok (firstn (to - from) (skipn from v)).
  Proof.
    intros L. unfold slice, copy_range, slice_in_place, erase_range.
    assert (E1 : Nat.leb from to = true) by lia.
    assert (E2 : Nat.leb to (length v) = true) by lia.
    rewrite E1, E2, Nat.leb_refl. split; [reflexivity|]. cbn [andb bind].
    rewrite skipn_all, app_nil_r.
    assert (E3 : Nat.leb from (length (firstn to v)) = true) by (rewrite firstn_length; lia).
    rewrite E3. cbn [Nat.leb andb firstn app]. rewrite skipn_firstn_comm. reflexivity.
  Qed.

  Lemma nth_error_slice (v : list A) from n i : (i < n)%nat ->
    nth_error (firstn n (skipn from v)) i = nth_error v (from + i).
  Proof.
    revert v n i. induction from as [|from IH]; intros v n i L.
    - cbn [skipn]. revert v i L. induction n as [|n IHn]; intros v i L; [lia|].
      destruct v as [|x v]; [destruct i; reflexivity|]. destruct i as [|i]; [reflexivity|].
      cbn. apply IHn. lia.
    - destruct v as [|x v]; [cbn; rewrite firstn_nil; destruct i; reflexivity|].
      cbn [skipn Nat.add nth_error]. apply IH. exact L.
  Qed.
End SLICES.
