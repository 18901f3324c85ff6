(* The nodes a train passes: lemmas. *)
From Verif Require Import Base AlgoModel RouteModel RouteProofs RouteSpec RouteIter RouteIndex
  TransformModel TrainIterModel.

Definition slice {A} (a b : nat) (l : list A) : list A := firstn (b - a) (skipn a l).

Lemma skip_skip {A} n m (l : list A) : skipn n (skipn m l) = skipn (m + n) l.
Proof. revert l. induction m as [|m IH]; intros l; [reflexivity|]. destruct l; [now rewrite !skipn_nil|]. apply IH. Qed.

Lemma slice_app {A} a b c (l : list A) : a <= b <= c -> slice a b l ++ slice b c l = slice a c l.
Proof.
  intros H. unfold slice. replace (c - a) with ((b - a) + (c - b)) by lia.
  assert (G : forall n m (l : list A), firstn n l ++ firstn m (skipn n l) = firstn (n + m) l).
  { clear. induction n as [|n IH]; intros m l; [reflexivity|]. destruct l; cbn; [now rewrite firstn_nil|].
    f_equal. apply IH. }
  rewrite <- G. f_equal. f_equal. rewrite skip_skip. f_equal. lia.
Qed.
Lemma slice_same {A} a (l : list A) : slice a a l = [].
Proof. unfold slice. now rewrite Nat.sub_diag. Qed.
Lemma slice_length {A} a b (l : list A) : a <= b <= length l -> length (slice a b l) = b - a.
Proof. intros H. unfold slice. rewrite firstn_length, skipn_length. lia. Qed.
Lemma nth_error_firstn_lt {A} n k (l : list A) : k < n -> nth_error (firstn n l) k = nth_error l k.
Proof.
  revert k l. induction n as [|n IH]; intros k l H; [lia|]. destruct l as [|x l]; [now destruct k|].
  destruct k; [reflexivity|]. cbn. apply IH. lia.
Qed.
Lemma nth_error_skipn_add {A} n k (l : list A) : nth_error (skipn n l) k = nth_error l (n + k).
Proof.
  revert l. induction n as [|n IH]; intros l; [reflexivity|]. destruct l; [now destruct k|]. apply IH.
Qed.
Lemma slice_nth {A} a b (l : list A) k : k < b - a -> nth_error (slice a b l) k = nth_error l (a + k).
Proof. intros H. unfold slice. rewrite nth_error_firstn_lt by lia. apply nth_error_skipn_add. Qed.
Lemma slice_in {A} a b (l : list A) x : In x (slice a b l) <-> exists k, a <= k < b /\ nth_error l k = Some x.
Proof.
  split.
  - intros I. apply In_nth_error in I as [k E].
    assert (k < b - a).
    { assert (H : k < length (slice a b l)) by (apply nth_error_Some; congruence).
      unfold slice in H. rewrite firstn_length in H. lia. }
    rewrite slice_nth in E by lia. exists (a + k). split; [lia|exact E].
  - intros [k [L E]]. apply (nth_error_In _ (k - a)). rewrite slice_nth by lia.
    replace (a + (k - a)) with k by lia. exact E.
Qed.
Lemma slice_tl {A} a b (l : list A) : a < b -> tl (slice a b l) = slice (S a) b l.
Proof.
  intros H. unfold slice. replace (b - a) with (S (b - S a)) by lia.
  replace (skipn (S a) l) with (tl (skipn a l)).
  - destruct (skipn a l); cbn; [now rewrite firstn_nil|reflexivity].
  - clear. revert l. induction a as [|a IH]; intros l; [reflexivity|]. destruct l; [reflexivity|]. apply IH.
Qed.
Lemma slice_hd {A} a b (l : list A) : a < b -> hd_error (slice a b l) = nth_error l a.
Proof.
  intros H. assert (G : hd_error (slice a b l) = nth_error (slice a b l) 0) by (now destruct (slice a b l)).
  rewrite G, slice_nth by lia. f_equal. lia.
Qed.
Lemma last_nth {A} (l : list A) d n : length l = S n -> nth_error l n = Some (last l d).
Proof.
  revert n. induction l as [|x l IH]; intros n L; [discriminate|]. destruct l as [|y l].
  - cbn in L. injection L as <-. reflexivity.
  - destruct n; [discriminate|]. cbn [nth_error]. rewrite (IH n); [reflexivity|]. cbn in *. lia.
Qed.

Section CELLS.
  Variable srs : list sroute.
  Hypothesis OS : omitted_sorted srs.

  Definition off (pre : list nat) (i : nat) : nat := length (cells_of srs pre) + i.

  Lemma cells_cons s l : cells_of srs (s :: l) = pairs s 0 (sr_len srs s) ++ cells_of srs l.
  Proof. change (s :: l) with ([s] ++ l). now rewrite cells_of_app, cells_of_one. Qed.

  Lemma cells_nth_inv l k s i : nth_error (cells_of srs l) k = Some (s, i) ->
    exists pre post, l = pre ++ s :: post /\ k = off pre i /\ i < sr_len srs s.
  Proof.
    revert k. induction l as [|x l IH]; intros k E; [now destruct k|]. rewrite cells_cons in E.
    destruct (Nat.ltb_spec k (sr_len srs x)) as [L|L].
    - rewrite nth_error_app1 in E by (rewrite pairs_length; lia). unfold pairs in E.
      rewrite nth_error_map in E. destruct (nth_error (seq 0 (sr_len srs x)) k) as [j|] eqn:Ej; [|discriminate].
      cbn in E. injection E as -> ->.
      assert (i = k).
      { assert (H := nth_error_nth _ _ 0 Ej). rewrite seq_nth in H by lia. lia. }
      subst i. exists [], l. unfold off. cbn. auto.
    - rewrite nth_error_app2 in E by (rewrite pairs_length; lia). rewrite pairs_length in E.
      destruct (IH _ E) as [pre [post [-> [H1 H2]]]]. exists (x :: pre), post. split; [reflexivity|].
      split; [|exact H2]. unfold off in *. rewrite cells_cons, app_length, pairs_length. lia.
  Qed.
  Lemma cells_nth pre s post i : i < sr_len srs s -> nth_error (cells_of srs (pre ++ s :: post)) (off pre i) = Some (s, i).
  Proof.
    intros L. rewrite cells_of_app. unfold off. rewrite nth_error_app2 by lia.
    replace (length (cells_of srs pre) + i - length (cells_of srs pre)) with i by lia.
    rewrite cells_cons, nth_error_app1 by (rewrite pairs_length; lia). unfold pairs. rewrite nth_error_map.
    rewrite (nth_error_nth' _ 0) by (rewrite seq_length; lia). rewrite seq_nth by lia. reflexivity.
  Qed.

  Lemma nodup_split {A} (l : list A) pre s post pre' post' : NoDup l ->
    l = pre ++ s :: post -> l = pre' ++ s :: post' -> pre = pre' /\ post = post'.
  Proof.
    intros ND E1 E2.
    assert (L : length pre = length pre').
    { assert (N1 : nth_error l (length pre) = Some s) by (rewrite E1, nth_error_app2, Nat.sub_diag by lia; reflexivity).
      assert (N2 : nth_error l (length pre') = Some s) by (rewrite E2, nth_error_app2, Nat.sub_diag by lia; reflexivity).
      rewrite NoDup_nth_error in ND. apply ND; [apply nth_error_Some; congruence|congruence]. }
    rewrite E1 in E2.
    assert (F : firstn (length pre) (pre ++ s :: post) = firstn (length pre) (pre' ++ s :: post')) by congruence.
    rewrite firstn_app, Nat.sub_diag, firstn_all, L, firstn_app, Nat.sub_diag, firstn_all in F.
    cbn in F. rewrite !app_nil_r in F. subst pre'. apply app_inv_head in E2. injection E2 as ->. auto.
  Qed.

  (* from_to between two positions of a route *)
  Lemma from_to_slice r pre s post pre' t post' i e :
    valid_srs srs (ir_srs r) -> NoDup (ir_srs r) ->
    ir_srs r = pre ++ s :: post -> ir_srs r = pre' ++ t :: post' ->
    length pre <= length pre' -> i <= sr_len srs s -> e <= sr_len srs t -> (s = t -> i <= e) ->
    exists l, ir_from_to srs r s i t e = Ok l /\
      Forall2 (shows srs) l (slice (off pre i) (off pre' e) (cells_of srs (ir_srs r))).
  Proof.
    intros V ND E1 E2 LE Li Le SO. destruct r as [id a0 b0 l0]. cbn [ir_srs] in *.
    destruct (Nat.eq_dec (length pre) (length pre')) as [LEN|LEN].
    - assert (pre = pre' /\ s = t /\ post = post') as [<- [<- <-]].
      { assert (F : firstn (length pre) l0 = firstn (length pre) l0) by reflexivity.
        rewrite E1 in F at 1. rewrite E2 in F. rewrite firstn_app, Nat.sub_diag, firstn_all in F.
        rewrite LEN in F. rewrite firstn_app, Nat.sub_diag, firstn_all in F. cbn in F. rewrite !app_nil_r in F.
        subst pre'. rewrite E1 in E2. apply app_inv_head in E2. injection E2 as -> ->. auto. }
      specialize (SO eq_refl).
      assert (SL : slice (off pre i) (off pre e) (cells_of srs l0) = pairs s i (e - i)).
      { unfold slice, off. rewrite E1, cells_of_app, cells_cons.
        rewrite skipn_app. rewrite skipn_all2 by lia. cbn [app].
        replace (length (cells_of srs pre) + i - length (cells_of srs pre)) with i by lia.
        replace (length (cells_of srs pre) + e - (length (cells_of srs pre) + i)) with (e - i) by lia.
        rewrite skipn_app, pairs_length. rewrite pairs_skipn by lia. replace (i - sr_len srs s) with 0 by lia.
        cbn [skipn]. rewrite firstn_app, pairs_length. rewrite pairs_firstn by lia.
        replace (e - i - (sr_len srs s - i)) with 0 by lia. cbn. now rewrite app_nil_r. }
      rewrite SL. destruct (V s) as [sr [Er Fr]]; [rewrite E1; apply in_or_app; right; now left|].
      destruct (Nat.eq_dec (length l0) 1) as [L1|L1].
      + assert (pre = [] /\ post = []) as [-> ->].
        { rewrite E1 in L1. rewrite app_length in L1. cbn in L1. destruct pre, post; cbn in L1; try lia. auto. }
        cbn [app] in E1. subst l0. cbn [app]. unfold ir_from_to, first_sr. cbn [ir_srs].
        rewrite Nat.eqb_refl. cbn [sassert bind]. pose proof Er as Er'. unfold sr_of in Er'. apply at_some in Er'.
        rewrite Er'. cbn [bind]. apply (from_to_vis srs OS); auto.
      + rewrite E1. apply (from_to_same srs OS).
        * rewrite <- E1. assert (length l0 <> 0) by (rewrite E1, app_length; cbn; lia). lia.
        * rewrite E1 in ND. apply NoDup_remove in ND as [_ NI]. intros I. apply NI. apply in_or_app. now left.
        * intros u [<-|[]]. eauto.
        * lia.
    - (* two different station routes *)
      assert (exists mid, pre' = pre ++ s :: mid /\ post = mid ++ t :: post') as [mid [-> ->]].
      { clear - E1 E2 LE LEN. subst l0. revert pre' LE LEN E2. induction pre as [|x pre IH]; intros pre' LE LEN E2.
        - destruct pre' as [|y pre']; [cbn in *; lia|]. cbn in E2. injection E2 as -> ->. exists pre'. auto.
        - destruct pre' as [|y pre']; [cbn in *; lia|]. cbn in E2. injection E2 as -> E2.
          destruct (IH pre') as [mid [-> ->]]; [cbn in *; lia|cbn in *; lia|exact E2|]. exists mid. auto. }
      assert (SL : slice (off pre i) (off (pre ++ s :: mid) e) (cells_of srs l0) =
                   pairs s i (sr_len srs s - i) ++ cells_of srs mid ++ pairs t 0 e).
      { unfold slice, off. rewrite E1, !cells_of_app, !cells_cons, !cells_of_app, !cells_cons.
        rewrite !app_length, pairs_length.
        rewrite skipn_app. rewrite skipn_all2 by lia. cbn [app].
        set (p := length (cells_of srs pre)). replace (p + i - p) with i by lia.
        rewrite skipn_app, pairs_length, pairs_skipn by lia. replace (i - sr_len srs s) with 0 by lia. cbn [skipn].
        set (m := cells_of srs mid).
        replace (p + (sr_len srs s + length m) + e - (p + i)) with ((sr_len srs s - i) + (length m + e)) by lia.
        rewrite firstn_app, pairs_length. rewrite firstn_all2 by (rewrite pairs_length; lia). f_equal.
        replace (sr_len srs s - i + (length m + e) - (sr_len srs s - i)) with (length m + e) by lia.
        rewrite firstn_app, firstn_all2 by lia. f_equal. replace (length m + e - length m) with e by lia.
        rewrite firstn_app, pairs_length, pairs_firstn by lia. replace (e - sr_len srs t) with 0 by lia.
        cbn. now rewrite app_nil_r. }
      rewrite SL. rewrite E1 in *. apply (from_to_two srs OS); auto.
      intros u I. apply V. apply in_or_app. right. destruct I as [->|I]; [now left|]. right.
      apply in_app_or in I as [I|[<-|[]]]; apply in_or_app; [now left|right; now left].
  Qed.

  (* a proper route without repeated station routes *)
  Record plain (r : iroute) (pre_l : list nat) : Prop := {
    pl_wf : wf_ir srs r;
    pl_nodup : NoDup (ir_srs r);
    pl_start : ir_start r < sr_len srs (hd 0 (ir_srs r));
    pl_last : ir_srs r = pre_l ++ [last (ir_srs r) 0];
    pl_cells : ir_cells srs r = slice (ir_start r) (off pre_l (ir_end r)) (cells_of srs (ir_srs r));
    pl_lt : ir_start r < off pre_l (ir_end r);
    pl_le : off pre_l (ir_end r) <= length (cells_of srs (ir_srs r));
  }.

  Lemma plain_ok r : wf_ir srs r -> NoDup (ir_srs r) -> ir_cells srs r <> [] ->
    ir_start r < sr_len srs (hd 0 (ir_srs r)) -> exists pre_l, plain r pre_l.
  Proof.
    intros W ND NE LS. exists (removelast (ir_srs r)).
    assert (EL : ir_srs r = removelast (ir_srs r) ++ [last (ir_srs r) 0]).
    { apply app_removelast_last. exact (wf_nonempty _ _ W). }
    assert (LEN : length (cells_of srs (ir_srs r)) =
      length (cells_of srs (removelast (ir_srs r))) + sr_len srs (last (ir_srs r) 0)).
    { rewrite EL at 1. rewrite cells_of_app, app_length, cells_of_one, pairs_length. reflexivity. }
    pose proof (wf_end _ _ W) as LE.
    assert (EC : ir_cells srs r = slice (ir_start r) (off (removelast (ir_srs r)) (ir_end r)) (cells_of srs (ir_srs r))).
    { unfold ir_cells, slice. rewrite skipn_firstn_comm. f_equal. unfold off. lia. }
    constructor; auto.
    - destruct (Nat.ltb_spec (ir_start r) (off (removelast (ir_srs r)) (ir_end r))); [assumption|].
      exfalso. apply NE. rewrite EC. unfold slice. replace (_ - ir_start r) with 0 by lia. reflexivity.
    - unfold off. lia.
  Qed.

  Lemma plain_first r pl : plain r pl -> exists s0 post0, ir_srs r = s0 :: post0 /\ ir_start r < sr_len srs s0.
  Proof.
    intros P. pose proof (pl_start _ _ P) as H. pose proof (wf_nonempty _ _ (pl_wf _ _ P)).
    destruct (ir_srs r) as [|s0 l]; [congruence|]. eauto.
  Qed.

  (* from the node behind the first one to the end *)
  Lemma tail_ok r pl : plain r pl -> exists s0 l, front (ir_srs r) = Ok s0 /\
    ir_from srs r s0 (ir_start r + 1) = Ok l /\ Forall2 (shows srs) l (tl (ir_cells srs r)).
  Proof.
    intros P. destruct (plain_first r pl P) as [s0 [post0 [E0 L0]]].
    rewrite (pl_cells _ _ P), slice_tl by exact (pl_lt _ _ P).
    destruct (from_to_slice r [] s0 post0 pl (last (ir_srs r) 0) [] (ir_start r + 1) (ir_end r)) as [l [El Vl]].
    - exact (wf_srs _ _ (pl_wf _ _ P)).
    - exact (pl_nodup _ _ P).
    - exact E0.
    - exact (pl_last _ _ P).
    - cbn. lia.
    - lia.
    - exact (wf_end _ _ (pl_wf _ _ P)).
    - intros ES. pose proof (pl_lt _ _ P) as LT. unfold off in LT.
      assert (pl = []).
      { pose proof (pl_last _ _ P) as E. destruct (nodup_split (ir_srs r) [] s0 post0 pl []) as [<- _]; auto.
        - exact (pl_nodup _ _ P).
        - rewrite ES. exact (pl_last _ _ P). }
      subst pl. cbn in LT. lia.
    - exists s0, l. split; [now rewrite E0|]. split.
      + unfold ir_from, last_sr_id. rewrite (pl_last _ _ P) at 1. rewrite rev_app_distr. cbn [rev app bind]. exact El.
      + replace (S (ir_start r)) with (off [] (ir_start r + 1)); [exact Vl|]. unfold off. cbn. lia.
  Qed.

  (* positions inside the route *)
  Lemma cell_pos r pl s i : plain r pl -> In (s, i) (ir_cells srs r) ->
    exists pre post, ir_srs r = pre ++ s :: post /\ ir_start r <= off pre i < off pl (ir_end r) /\ i < sr_len srs s.
  Proof.
    intros P I. rewrite (pl_cells _ _ P) in I. apply slice_in in I as [k [L E]].
    apply cells_nth_inv in E as [pre [post [E1 [-> L2]]]]. exists pre, post. auto.
  Qed.

  Lemma pre_le r pl pre s post : plain r pl -> ir_srs r = pre ++ s :: post -> length pre <= length pl.
  Proof.
    intros P E. pose proof (pl_last _ _ P) as E2. assert (L : length (pre ++ s :: post) = length (pl ++ [last (ir_srs r) 0])) by congruence.
    rewrite !app_length in L. cbn in L. lia.
  Qed.

  (* from a position of the route to its end *)
  Lemma from_ok r pl s i pre post : plain r pl -> ir_srs r = pre ++ s :: post ->
    ir_start r <= off pre i < off pl (ir_end r) -> i < sr_len srs s ->
    exists l, ir_from srs r s i = Ok l /\
      Forall2 (shows srs) l (slice (off pre i) (off pl (ir_end r)) (cells_of srs (ir_srs r))).
  Proof.
    intros P E L Li.
    destruct (from_to_slice r pre s post pl (last (ir_srs r) 0) [] i (ir_end r)) as [l [El Vl]]; auto.
    - exact (wf_srs _ _ (pl_wf _ _ P)).
    - exact (pl_nodup _ _ P).
    - exact (pl_last _ _ P).
    - exact (pre_le _ _ _ _ _ P E).
    - lia.
    - exact (wf_end _ _ (pl_wf _ _ P)).
    - intros ES. assert (pre = pl).
      { destruct (nodup_split (ir_srs r) pre s post pl []) as [<- _]; auto.
        - exact (pl_nodup _ _ P).
        - rewrite ES. exact (pl_last _ _ P). }
      subst pl. unfold off in L. lia.
    - exists l. split; [|exact Vl]. unfold ir_from, last_sr_id. rewrite (pl_last _ _ P) at 1.
      rewrite rev_app_distr. cbn [rev app bind]. exact El.
  Qed.

  (* from position a of the route up to and including a later one *)
  Lemma between_ok r pl pre s post i pre' t post' j : plain r pl ->
    ir_srs r = pre ++ s :: post -> ir_srs r = pre' ++ t :: post' -> i <= sr_len srs s -> j < sr_len srs t ->
    length pre <= length pre' -> off pre i <= off pre' (j + 1) ->
    exists l, ir_from_to srs r s i t (j + 1) = Ok l /\
      Forall2 (shows srs) l (slice (off pre i) (off pre' (j + 1)) (cells_of srs (ir_srs r))).
  Proof.
    intros P E E' Li Lj LP LO. apply (from_to_slice r pre s post pre' t post'); auto.
    - exact (wf_srs _ _ (pl_wf _ _ P)).
    - exact (pl_nodup _ _ P).
    - lia.
    - intros ES. subst t. destruct (nodup_split (ir_srs r) pre s post pre' post') as [<- _]; auto.
      + exact (pl_nodup _ _ P).
      + unfold off in LO. lia.
  Qed.

  Lemma off_le l pre s post pre' t post' i j : l = pre ++ s :: post -> l = pre' ++ t :: post' ->
    i < sr_len srs s -> j < sr_len srs t -> off pre i <= off pre' j -> length pre <= length pre'.
  Proof.
    intros E1 E2 Li Lj LO. destruct (Nat.leb_spec (length pre) (length pre')) as [H|H]; [exact H|]. exfalso.
    assert (exists mid, pre = pre' ++ t :: mid) as [mid ->].
    { clear - E1 E2 H. subst l. revert pre H E2. induction pre' as [|x pre' IH]; intros pre H E2.
      - destruct pre as [|y pre]; [cbn in *; lia|]. cbn in E2. injection E2 as -> _. now exists pre.
      - destruct pre as [|y pre]; [cbn in *; lia|]. cbn in E2. injection E2 as -> E2.
        destruct (IH pre) as [mid ->]; [cbn in *; lia|exact E2|]. now exists mid. }
    unfold off in LO. rewrite cells_of_app, cells_cons, !app_length, pairs_length in LO. lia.
  Qed.
End CELLS.
