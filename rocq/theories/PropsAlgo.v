(* C26 - C28: merging, intersecting and slicing helpers.

   Reading guide: `asc`/`sasc` (AlgoProofs.v) are Coq's StronglySorted N.le /
   StronglySorted N.lt; `cnt x l` is the number of occurrences of x in l;
   `subseq l l'` says that l arises from l' by deleting elements. *)
From Verif Require Import Base AlgoModel AlgoProofs.
From Coq Require Import Sorting Permutation Sorted ZifyBool ZifyNat ZifyN.
Local Open Scope N_scope.

(* ---- C26 ---- *)
Theorem C26_merge_unique :
  forall c1 c2, StronglySorted N.le c1 -> StronglySorted N.le c2 ->
    exists l, merge_unique c1 c2 = Ok l /\ StronglySorted N.lt l /\
      forall x, In x l <-> In x c1 \/ In x c2.
Proof.
  intros c1 c2 A1 A2. unfold merge_unique.
  rewrite (proj2 (is_sorted_asc c1) A1), (proj2 (is_sorted_asc c2) A2). cbn [sassert bind].
  eexists. split; [reflexivity|]. split.
  - apply (proj1 (unique_sasc _)), std_merge_asc; assumption.
  - intros x. rewrite (proj1 (unique_In _)). rewrite <- in_app_iff.
    split; apply Permutation_in; [|symmetry]; apply std_merge_perm.
Qed.
Print Assumptions C26_merge_unique.

(* unsorted arguments are always rejected *)
Theorem C26_merge_unique_unsorted :
  forall c1 c2, ~ (StronglySorted N.le c1 /\ StronglySorted N.le c2) ->
    merge_unique c1 c2 = Throw.
Proof.
  intros c1 c2 H. unfold merge_unique. destruct (is_sorted c1) eqn:E1; [|reflexivity].
  destruct (is_sorted c2) eqn:E2; [|reflexivity]. exfalso. apply H.
  split; apply is_sorted_asc; assumption.
Qed.
Print Assumptions C26_merge_unique_unsorted.

(* top_ok: the queue's top is some range with a smallest first element *)
Theorem C26_multi_set_merge :
  forall pick, top_ok pick ->
  forall ranges, Forall (StronglySorted N.lt) ranges ->
    exists l, multi_set_merge pick ranges = Ok l /\ StronglySorted N.lt l /\
      forall x, In x l <-> exists r, In r ranges /\ In x r.
Proof.
  intros pick P ranges S.
  destruct (multi_set_merge_ok pick P ranges) as [l [E [_ [M Sl]]]].
  { eapply Forall_impl; [|exact S]. exact sasc_asc. }
  exists l. split; [exact E|]. split; [exact (Sl S)|]. intros x. rewrite M. rewrite in_concat.
  split; intros [r H]; exists r; tauto.
Qed.
Print Assumptions C26_multi_set_merge.

(* ranges that are sorted but contain repetitions: union of the members, sorted *)
Theorem C26_multi_set_merge_repetitions :
  forall pick, top_ok pick ->
  forall ranges, Forall (StronglySorted N.le) ranges ->
    exists l, multi_set_merge pick ranges = Ok l /\ StronglySorted N.le l /\
      forall x, In x l <-> exists r, In r ranges /\ In x r.
Proof.
  intros pick P ranges S.
  destruct (multi_set_merge_ok pick P ranges S) as [l [E [A [M _]]]].
  exists l. split; [exact E|]. split; [exact A|]. intros x. rewrite M. rewrite in_concat.
  split; intros [r H]; exists r; tauto.
Qed.
Print Assumptions C26_multi_set_merge_repetitions.

(* position of the first range with a smallest head; a possible queue *)
Definition head (r : list N) : N := match r with [] => 0 | x :: _ => x end.
Fixpoint first_min (q : list (list N)) : nat * N :=
  match q with
  | [] => (0%nat, 0)
  | [r] => (0%nat, head r)
  | r :: q' => let '(i, m) := first_min q' in if head r <=? m then (0%nat, head r) else (S i, m)
  end.
Example ex_top_ok : top_ok (fun q => fst (first_min q)).
Proof.
  assert (H : forall q, q <> [] -> Forall nonempty q ->
    exists x t, nth_error q (fst (first_min q)) = Some (x :: t) /\ snd (first_min q) = x /\
      forall y t', In (y :: t') q -> x <= y).
  { induction q as [|r q IH]; intros NE F; [congruence|].
    inversion F as [|? ? Nr Fq]; subst. destruct r as [|a r]; [exfalso; apply Nr; reflexivity|].
    destruct q as [|r2 q].
    - exists a, r. split; [reflexivity|]. split; [reflexivity|].
      intros y t' [E|[]]. injection E as <- <-. lia.
    - destruct IH as [x [t [E1 [E2 M]]]]; [discriminate|exact Fq|].
      change (first_min ((a :: r) :: r2 :: q)) with
        (let '(i, m) := first_min (r2 :: q) in
         if head (a :: r) <=? m then (0%nat, head (a :: r)) else (S i, m)).
      destruct (first_min (r2 :: q)) as [i m]. cbn [fst snd] in E1, E2. subst m.
      cbn [head]. destruct (N.leb_spec a x).
      + exists a, r. split; [reflexivity|]. split; [reflexivity|].
        intros y t' [E|I]; [injection E as <- <-; lia|]. specialize (M y t' I). lia.
      + exists x, t. split; [exact E1|]. split; [reflexivity|].
        intros y t' [E|I]; [injection E as <- <-; lia|exact (M y t' I)]. }
  intros q NE F. destruct (H q NE F) as [x [t [E [_ M]]]].
  exists (x :: t). split; [exact E|]. exists x, t. split; [reflexivity|exact M].
Qed.
Example ex_C26 :
  multi_set_merge (fun q => fst (first_min q)) [[3; 5; 9]; []; [1; 3; 4]; [5; 10]] =
    Ok [1; 3; 4; 5; 9; 10] /\
  merge_unique [1; 3; 3; 7] [3; 4] = Ok [1; 3; 4; 7].
Proof. split; vm_compute; reflexivity. Qed.

(* ---- C27 ---- *)
Theorem C27_overlap :
  forall c1 c2, StronglySorted N.le c1 -> StronglySorted N.le c2 ->
    exists b, overlap true c1 c2 = Ok b /\ (b = true <-> exists x, In x c1 /\ In x c2).
Proof.
  intros c1 c2 A1 A2. unfold overlap.
  rewrite (proj2 (is_sorted_asc c1) A1), (proj2 (is_sorted_asc c2) A2). cbn [sassert bind].
  apply overlap_loop_ok; [exact A1|exact A2|lia].
Qed.
Print Assumptions C27_overlap.

(* a possible result of get_permutation_index: the positions of c, ordered by
   element; the order of positions of equal elements is arbitrary *)
Definition sorted_positions (c : list N) (perm : list nat) : Prop :=
  Permutation perm (seq 0 (length c)) /\
  StronglySorted N.le (map (fun i => nth i c 0) perm).

Theorem C27_overlap_non_sorted :
  forall c1 c2 perm1 perm2, sorted_positions c1 perm1 -> sorted_positions c2 perm2 ->
    exists b, overlap_non_sorted perm1 perm2 c1 c2 = Ok b /\
      (b = true <-> exists x, In x c1 /\ In x c2).
Proof.
  intros c1 c2 p1 p2 [P1 S1] [P2 S2]. unfold overlap_non_sorted.
  rewrite (wrapper_ok c1 p1 (perm_in_range c1 p1 P1)), (wrapper_ok c2 p2 (perm_in_range c2 p2 P2)).
  cbn [bind]. unfold overlap. cbn [bind].
  destruct (overlap_loop_ok _ _ _ S1 S2 (Nat.le_refl _)) as [b [E H]]. exists b. split; [exact E|].
  rewrite H. assert (V1 := perm_values c1 p1 P1). assert (V2 := perm_values c2 p2 P2).
  split; intros [x [I1 I2]]; exists x; split;
    [exact (Permutation_in _ V1 I1)|exact (Permutation_in _ V2 I2)
    |exact (Permutation_in _ (Permutation_sym V1) I1)|exact (Permutation_in _ (Permutation_sym V2) I2)].
Qed.
Print Assumptions C27_overlap_non_sorted.

(* get_overlap and intersect: the multiset intersection, ascending *)
Theorem C27_get_overlap :
  forall c1 c2, StronglySorted N.le c1 -> StronglySorted N.le c2 ->
    exists l, get_overlap c1 c2 = Ok l /\ intersect c1 c2 = Ok l /\ StronglySorted N.le l /\
      (forall x, cnt x l = Nat.min (cnt x c1) (cnt x c2)) /\
      (forall x, In x l <-> In x c1 /\ In x c2).
Proof.
  intros c1 c2 A1 A2. unfold intersect, get_overlap.
  rewrite (proj2 (is_sorted_asc c1) A1), (proj2 (is_sorted_asc c2) A2). cbn [sassert bind].
  eexists. split; [reflexivity|]. split; [reflexivity|].
  set (l := set_intersection _ _ _ _).
  assert (C : forall x, cnt x l = Nat.min (cnt x c1) (cnt x c2)).
  { intros x. assert (H := si_count (fun x => x) (fun x => x) c1).
    rewrite map_id in H. specialize (H A1 c2). rewrite map_id in H. specialize (H A2 x).
    rewrite map_id in H. exact H. }
  split; [eapply subseq_StronglySorted; [apply si_subseq|exact A1]|].
  split; [exact C|]. intros x. specialize (C x). unfold cnt in C.
  rewrite !(count_occ_In N.eq_dec). lia.
Qed.
Print Assumptions C27_get_overlap.

Theorem C27_sort_and_intersect :
  forall c1 c2, let l := sort_and_intersect c1 c2 in
    StronglySorted N.le l /\
    (forall x, cnt x l = Nat.min (cnt x c1) (cnt x c2)) /\
    (forall x, In x l <-> In x c1 /\ In x c2).
Proof.
  intros c1 c2 l.
  assert (C : forall x, cnt x l = Nat.min (cnt x c1) (cnt x c2)).
  { intros x. assert (H := si_count (fun x => x) (fun x => x) (sort_by N.leb c1)).
    rewrite map_id in H. specialize (H (sort_N_asc c1) (sort_by N.leb c2)). rewrite map_id in H.
    specialize (H (sort_N_asc c2) x). rewrite map_id in H.
    rewrite (cnt_perm x _ _ (sort_by_perm N.leb c1)), (cnt_perm x _ _ (sort_by_perm N.leb c2)) in H.
    exact H. }
  split; [eapply subseq_StronglySorted; [apply si_subseq|apply sort_N_asc]|].
  split; [exact C|]. intros x. specialize (C x). unfold cnt in C.
  rewrite !(count_occ_In N.eq_dec). lia.
Qed.
Print Assumptions C27_sort_and_intersect.

(* get_overlap_non_sorted: the multiset intersection in the order of c1 *)
Theorem C27_get_overlap_non_sorted :
  forall c1 c2 perm1 perm2, sorted_positions c1 perm1 -> sorted_positions c2 perm2 ->
    exists l, get_overlap_non_sorted perm1 perm2 c1 c2 = Ok l /\ subseq l c1 /\
      (forall x, cnt x l = Nat.min (cnt x c1) (cnt x c2)) /\
      (forall x, In x l <-> In x c1 /\ In x c2).
Proof.
  intros c1 c2 p1 p2 [P1 S1] [P2 S2]. unfold get_overlap_non_sorted.
  set (k1 := fun i => nth i c1 0). set (k2 := fun i => nth i c2 0).
  set (ov := set_intersection k1 k2 p1 p2).
  assert (Sub : subseq ov p1) by apply si_subseq.
  assert (R : Forall (fun i => (i < length c1)%nat) (sort_by Nat.leb ov)).
  { rewrite Forall_forall. intros i I. apply (Permutation_in _ (sort_by_perm Nat.leb ov)) in I.
    assert (Q := perm_in_range c1 p1 P1). rewrite Forall_forall in Q.
    apply Q, (subseq_In _ _ Sub), I. }
  rewrite (wrapper_ok c1 _ R). eexists. split; [reflexivity|]. fold k1.
  assert (C : forall x, cnt x (map k1 (sort_by Nat.leb ov)) = Nat.min (cnt x c1) (cnt x c2)).
  { intros x. rewrite (cnt_perm x _ _ (Permutation_map k1 (sort_by_perm Nat.leb ov))).
    unfold ov. rewrite (si_count k1 k2 p1 S1 p2 S2 x). unfold k1, k2.
    rewrite (cnt_perm x _ _ (perm_values c1 p1 P1)), (cnt_perm x _ _ (perm_values c2 p2 P2)).
    reflexivity. }
  split.
  - assert (E := map_nth_seq c1). fold k1 in E. rewrite <- E at 1. clear E. apply subseq_map. apply sorted_positions_subseq.
    + apply SS_le_lt; [apply sort_nat_sorted|].
      apply (Permutation_NoDup (Permutation_sym (sort_by_perm Nat.leb ov))).
      apply (subseq_NoDup _ _ Sub). apply (Permutation_NoDup (Permutation_sym P1)), seq_NoDup.
    + rewrite Forall_forall in *. intros i I. specialize (R i I). lia.
  - split; [exact C|]. intros x. specialize (C x). unfold cnt in C.
    rewrite !(count_occ_In N.eq_dec). lia.
Qed.
Print Assumptions C27_get_overlap_non_sorted.

Example ex_C27 :
  overlap true [1; 4; 4; 9] [2; 3; 9] = Ok true /\ overlap true [1; 4] [2; 5] = Ok false /\
  get_overlap [1; 4; 4; 9] [4; 4; 4; 9] = Ok [4; 4; 9] /\
  overlap_non_sorted [1; 2; 0]%nat [0; 1]%nat [9; 2; 4] [4; 7] = Ok true /\
  get_overlap_non_sorted [1; 2; 0]%nat [1; 0]%nat [9; 2; 4] [9; 4] = Ok [9; 4].
Proof. repeat split; vm_compute; reflexivity. Qed.
Example ex_C27_positions : sorted_positions [9; 2; 4] [1; 2; 0]%nat.
Proof.
  split.
  - cbn [length seq]. apply Permutation_sym. apply (Permutation_cons_app [1; 2]%nat []). reflexivity.
  - apply is_sorted_asc. reflexivity.
Qed.

(* ---- C28 ---- *)
(* l is v restricted to the index range [from, to) *)
Definition index_range {A} (v : list A) (from to : nat) (l : list A) : Prop :=
  length l = (to - from)%nat /\
  forall i, (i < to - from)%nat -> nth_error l i = nth_error v (from + i).

Theorem C28_slice :
  forall A (v : list A) from to, (from <= to <= length v)%nat ->
    exists l, slice v from to = Ok l /\ slice_in_place v from to = Ok l /\
      index_range v from to l.
Proof.
  intros A v from to L. destruct (slice_eq v from to L) as [E1 E2].
  eexists. split; [exact E1|]. split; [exact E2|]. split.
  - rewrite firstn_length, skipn_length. lia.
  - intros i Li. apply nth_error_slice, Li.
Qed.
Print Assumptions C28_slice.

(* the documented clamping: from beyond the size counts as 0, to beyond the size
   as the size *)
Theorem C28_slice_clasp_partial :
  forall A (v : list A) from to,
    let from' := if Nat.ltb (length v) from then 0%nat else from in
    let to' := Nat.min to (length v) in
    (from' <= to')%nat ->
    exists l, slice_clasp v from to = Ok l /\ slice_clasp_in_place v from to = Ok l /\
      index_range v from' to' l.
Proof.
  intros A v from to from' to' L.
  assert (T : clasp_to v to = to').
  { unfold clasp_to, to'. destruct (Nat.ltb_spec (length v) to); lia. }
  unfold slice_clasp, slice_clasp_in_place. rewrite T. change (clasp_from v from) with from'.
  apply C28_slice. unfold to' in *. lia.
Qed.
Print Assumptions C28_slice_clasp_partial.

(* ... but for an inverted range, and for a from beyond the size with any to,
   the caller does not get the empty range *)
Theorem C28_slice_clasp_refuted :
  (exists (v : list N), slice_clasp v 2 1 = UB) /\
  (exists (v : list N), slice_clasp v 4 5 = Ok v /\ v <> []).
Proof.
  split; [exists [1; 2; 3]; reflexivity|].
  exists [1; 2; 3]. split; [reflexivity|discriminate].
Qed.
Print Assumptions C28_slice_clasp_refuted.

Theorem C28_remove_after :
  forall A (p : A -> bool) v,
    exists keep dropped, remove_after p v = Ok keep /\ v = keep ++ dropped /\
      Forall (fun x => p x = false) dropped /\
      (keep = [] \/ exists front x, keep = front ++ [x] /\ p x = true).
Proof.
  intros A p v. unfold remove_after, erase_range. set (n := find_if p (rev v)).
  assert (L : (n <= length v)%nat) by (rewrite <- (rev_length v); apply find_if_le).
  assert (E : Nat.leb (length v - n) (length v) = true) by lia.
  rewrite E, Nat.leb_refl, skipn_all, app_nil_r. cbn [andb].
  destruct (find_if_spec p (rev v)) as [F S]. fold n in F, S.
  exists (firstn (length v - n) v), (skipn (length v - n) v).
  split; [reflexivity|]. split; [symmetry; apply firstn_skipn|]. split.
  - rewrite firstn_rev in F. apply Forall_rev in F. rewrite rev_involutive in F. exact F.
  - rewrite skipn_rev in S.
    destruct (rev (firstn (length v - n) v)) as [|x t] eqn:R.
    + left. rewrite <- (rev_involutive (firstn _ v)), R. reflexivity.
    + right. exists (rev t), x. split; [|exact S].
      rewrite <- (rev_involutive (firstn (length v - n) v)), R. reflexivity.
Qed.
Print Assumptions C28_remove_after.

Theorem C28_remove_until :
  forall A (p : A -> bool) v,
    exists keep dropped, remove_until p v = Ok keep /\ v = dropped ++ keep /\
      Forall (fun x => p x = false) dropped /\
      (keep = [] \/ exists x back, keep = x :: back /\ p x = true).
Proof.
  intros A p v. unfold remove_until, erase_range.
  assert (E : Nat.leb (find_if p v) (length v) = true) by (assert (H := find_if_le p v); lia).
  rewrite E. cbn [Nat.leb andb firstn app].
  destruct (find_if_spec p v) as [F S].
  exists (skipn (find_if p v) v), (firstn (find_if p v) v).
  split; [reflexivity|]. split; [symmetry; apply firstn_skipn|]. split; [exact F|].
  destruct (skipn (find_if p v) v) as [|x t]; [left; reflexivity|].
  right. exists x, t. split; [reflexivity|exact S].
Qed.
Print Assumptions C28_remove_until.

Example ex_C28 :
  slice [1; 2; 3; 4; 5] 1 3 = Ok [2; 3] /\ slice_clasp [1; 2; 3] 1 9 = Ok [2; 3] /\
  remove_after N.even [1; 2; 3; 4; 5; 7] = Ok [1; 2; 3; 4] /\
  remove_until N.even [1; 2; 3; 4] = Ok [2; 3; 4] /\ remove_after N.even [1; 3] = Ok [].
Proof. repeat split; vm_compute; reflexivity. Qed.
