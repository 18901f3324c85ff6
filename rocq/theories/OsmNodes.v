(* The nodes of the exported map: collecting them in parts, sorting them. *)
From Coq Require Import Permutation String Sorting.Sorted.
From Verif Require Import Base LayoutModel LayoutProofs GeoModel OsmModel OsmSpec.
Local Open Scope nat_scope.

Lemma at_N_Ok {A} (l : list A) i a : at_N l i = Ok a <-> nth_error l (N.to_nat i) = Some a.
Proof. apply at_Ok. Qed.

(* ---- for_each ---- *)
Lemma for_each_app {A S} (f : S -> A -> res S) l1 : forall l2 s,
  for_each f s (l1 ++ l2) = bind (for_each f s l1) (fun s => for_each f s l2).
Proof.
  induction l1 as [|a l1 IH]; intros l2 s; cbn [for_each app]; [reflexivity|].
  destruct (f s a); cbn [bind]; [apply IH|reflexivity..].
Qed.
Lemma for_each_ext {A S} (f g : S -> A -> res S) l : (forall s a, f s a = g s a) ->
  forall s, for_each f s l = for_each g s l.
Proof.
  intros E. induction l as [|a l IH]; intros s; cbn [for_each]; [reflexivity|]. rewrite E.
  destruct (g s a); cbn [bind]; [apply IH|reflexivity..].
Qed.
Lemma for_each_inv {A S} (f : S -> A -> res S) (I : list A -> S -> Prop) l :
  forall done s, I done s ->
  (forall d a r s, l = d ++ a :: r -> I (done ++ d) s -> exists s', f s a = Ok s' /\ I (done ++ d ++ [a]) s') ->
  exists s', for_each f s l = Ok s' /\ I (done ++ l) s'.
Proof.
  induction l as [|a l IH]; intros done s Hs St; cbn [for_each].
  - exists s. rewrite app_nil_r. auto.
  - destruct (St [] a l s) as (s' & E & I'); [reflexivity|rewrite app_nil_r; exact Hs|].
    rewrite E. cbn [bind]. destruct (IH (done ++ [a]) s' I') as (s2 & E2 & I2).
    + intros d b r s0 El Is. destruct (St (a :: d) b r s0) as (s3 & E3 & I3).
      * cbn [app]. rewrite El. reflexivity.
      * rewrite <- app_assoc in Is. exact Is.
      * exists s3. split; [exact E3|]. rewrite <- app_assoc. exact I3.
    + exists s2. split; [exact E2|]. rewrite <- app_assoc in I2. exact I2.
Qed.

Fixpoint map_res {A B} (f : A -> res B) (l : list A) : res (list B) :=
  match l with
  | [] => Ok []
  | a :: l => do b <- f a; do bs <- map_res f l; Ok (b :: bs)
  end.
Lemma map_res_app {A B} (f : A -> res B) l1 l2 :
  map_res f (l1 ++ l2) = do a <- map_res f l1; do b <- map_res f l2; Ok (a ++ b).
Proof.
  induction l1 as [|a l1 IH]; cbn [map_res app].
  - cbn [bind]. destruct (map_res f l2); reflexivity.
  - destruct (f a); cbn [bind]; [|reflexivity..]. rewrite IH.
    destruct (map_res f l1); cbn [bind]; [|reflexivity..]. destruct (map_res f l2); reflexivity.
Qed.
Lemma map_res_ok {A B} (f : A -> res B) (Q : B -> A -> Prop) l :
  (forall a, In a l -> exists b, f a = Ok b /\ Q b a) -> exists bs, map_res f l = Ok bs /\ Forall2 Q bs l.
Proof.
  induction l as [|a l IH]; cbn [map_res]; intros H; [eauto|].
  destruct (H a (or_introl eq_refl)) as (b & -> & Qb). cbn [bind].
  destruct IH as (bs & -> & Qs); [intros x Hx; apply H; right; exact Hx|].
  cbn [bind]. exists (b :: bs). split; [reflexivity|]. constructor; assumption.
Qed.
Lemma for_each_collect {A B} (f : A -> res B) l : forall acc,
  for_each (fun out a => do x <- f a; Ok (out ++ [x])) acc l = do xs <- map_res f l; Ok (acc ++ xs).
Proof.
  induction l as [|a l IH]; intros acc; cbn [for_each map_res].
  - cbn [bind]. rewrite app_nil_r. reflexivity.
  - destruct (f a) as [b| | |]; cbn [bind]; [|reflexivity..]. rewrite IH.
    destruct (map_res f l); cbn [bind]; [|reflexivity..]. rewrite <- app_assoc. reflexivity.
Qed.

(* ---- the nodes are written in parts ---- *)
Definition one_node (iss : osm_infra) (val : N * item) : res xml :=
  match snd val with
  | Is_station id s => create_station_osm iss (fst val) id s
  | Is_element e => create_element_osm iss e
  end.

Lemma seq_nth_collect (f : N * item -> res xml) l : forall a k, a + k <= List.length l ->
  map_res (fun i => do val <- match nth_error l i with Some v => Ok v | None => Throw end; f val) (seq a k)
  = map_res f (firstn k (skipn a l)).
Proof.
  intros a k. revert a. induction k as [|k IH]; intros a L; [reflexivity|].
  cbn [seq map_res]. destruct (nth_error l a) as [v|] eqn:E; [|apply nth_error_None in E; lia].
  assert (S1 : skipn a l = v :: skipn (S a) l).
  { clear -E. revert l E. induction a as [|a IH]; intros [|x l] E; try discriminate E.
    - injection E as ->. reflexivity.
    - apply IH in E. exact E. }
  rewrite S1. cbn [firstn map_res bind]. destruct (f v); cbn [bind]; [|reflexivity..].
  rewrite IH by lia. reflexivity.
Qed.

Lemma export_osm_nodes_eq iss l a b : b <= List.length l ->
  export_osm_nodes iss l a b = map_res (one_node iss) (firstn (b - a) (skipn a l)).
Proof.
  intros L. unfold export_osm_nodes.
  transitivity (for_each (fun out i => do x <- (do val <- match nth_error l i with Some v => Ok v | None => Throw end;
      one_node iss val); Ok (out ++ [x])) [] (seq a (b - a))).
  - apply for_each_ext. intros s i. destruct (nth_error l i) as [v|]; reflexivity.
  - rewrite for_each_collect. destruct (Nat.le_gt_cases a b) as [La|La].
    + rewrite seq_nth_collect by lia. destruct (map_res _ _); reflexivity.
    + replace (b - a) with 0 by lia. reflexivity.
Qed.

Lemma for_each_parts {A B} (g : A -> list B) {C} (f : B -> res C) l : forall acc,
  for_each (fun out i => do doc <- map_res f (g i); Ok (out ++ doc)) acc l
  = do xs <- map_res f (flat_map g l); Ok (acc ++ xs).
Proof.
  induction l as [|a l IH]; intros acc; cbn [for_each flat_map].
  - cbn [map_res bind]. rewrite app_nil_r. reflexivity.
  - rewrite map_res_app. destruct (map_res f (g a)); cbn [bind]; [|reflexivity..]. rewrite IH.
    destruct (map_res f (flat_map g l)); cbn [bind]; [|reflexivity..]. rewrite app_assoc. reflexivity.
Qed.

Lemma parts_all {A} (l : list A) u t :
  flat_map (fun i => firstn (Nat.min (u * (i + 1)) (List.length l) - u * i) (skipn (u * i) l)) (seq 0 t)
  = firstn (u * t) l.
Proof.
  induction t as [|t IH]; [rewrite Nat.mul_0_r; reflexivity|].
  rewrite seq_S, flat_map_app, IH. cbn [flat_map]. rewrite app_nil_r, Nat.add_0_l.
  replace (u * S t) with (u * t + u) by lia.
  rewrite <- (firstn_skipn (u * t) (firstn (u * t + u) l)).
  rewrite firstn_firstn. replace (Nat.min (u * t) (u * t + u)) with (u * t) by lia. f_equal.
  rewrite skipn_firstn_comm. replace (u * t + u - u * t) with u by lia.
  replace (u * (t + 1)) with (u * t + u) by lia.
  destruct (Nat.le_gt_cases (u * t + u) (List.length l)) as [L|L].
  - f_equal. lia.
  - rewrite firstn_all2 by (rewrite skipn_length; lia). rewrite firstn_all2; [reflexivity|]. rewrite skipn_length. lia.
Qed.

(* the nodes, whatever the number of threads *)
Lemma export_parts iss (sorted : list (N * item)) t : t <> 0 ->
  let node_length := List.length sorted in
  let unit := node_length / t + 1 in
  for_each (fun osm i =>
      let min := unit * i in
      let max := unit * (i + 1) in
      let max := if Nat.ltb node_length max then node_length else max in
      do doc <- export_osm_nodes iss sorted min max;
      Ok (osm ++ doc)) [] (seq 0 t)
  = map_res (one_node iss) sorted.
Proof.
  intros T n u.
  transitivity (for_each (fun osm i => do doc <- map_res (one_node iss)
     ((fun i => firstn (Nat.min (u * (i + 1)) n - u * i) (skipn (u * i) sorted)) i); Ok (osm ++ doc)) [] (seq 0 t)).
  - apply for_each_ext. intros s i. cbv zeta. rewrite export_osm_nodes_eq.
    + replace (if Nat.ltb n (u * (i + 1)) then n else u * (i + 1)) with (Nat.min (u * (i + 1)) n)
        by (destruct (Nat.ltb_spec n (u * (i + 1))); lia).
      reflexivity.
    + fold n. destruct (Nat.ltb_spec n (u * (i + 1))); lia.
  - rewrite for_each_parts. unfold n. rewrite parts_all. rewrite firstn_all2.
    + destruct (map_res _ _); reflexivity.
    + pose proof (Nat.div_mod (List.length sorted) t T) as D. pose proof (Nat.mod_upper_bound (List.length sorted) t T) as U.
      unfold u, n. nia.
Qed.

(* ---- sorting ---- *)
Definition key_le (x y : N * item) : Prop := (fst x <= fst y)%N.
Lemma insert_node_perm x l : Permutation (x :: l) (insert_node x l).
Proof.
  induction l as [|y l IH]; cbn [insert_node]; [reflexivity|]. destruct (fst x <=? fst y)%N; [reflexivity|].
  transitivity (y :: x :: l); [apply perm_swap|]. constructor. exact IH.
Qed.
Lemma sort_nodes_perm l : Permutation l (sort_nodes l).
Proof.
  induction l as [|x l IH]; cbn [sort_nodes fold_right]; [reflexivity|].
  etransitivity; [constructor; exact IH|]. apply insert_node_perm.
Qed.
Lemma insert_node_sorted x l : StronglySorted key_le l -> StronglySorted key_le (insert_node x l).
Proof.
  induction l as [|y l IH]; intros S; cbn [insert_node]; [repeat constructor|].
  apply StronglySorted_inv in S. destruct S as (S & F). destruct (N.leb_spec (fst x) (fst y)) as [L|L].
  - constructor; [constructor; assumption|]. constructor; [exact L|].
    eapply Forall_impl; [|exact F]. intros z Hz. unfold key_le in *. lia.
  - constructor; [apply IH, S|]. rewrite Forall_forall in *. intros z Hz.
    apply (Permutation_in _ (Permutation_sym (insert_node_perm x l))) in Hz. destruct Hz as [<-|Hz]; [unfold key_le; lia|apply F, Hz].
Qed.
Lemma sort_nodes_sorted l : StronglySorted key_le (sort_nodes l).
Proof. induction l as [|x l IH]; cbn [sort_nodes fold_right]; [constructor|]. apply insert_node_sorted, IH. Qed.

Lemma sorted_unique l1 : forall l2, Permutation l1 l2 ->
  StronglySorted key_le l1 -> StronglySorted (fun x y => (fst x < fst y)%N) l2 -> l1 = l2.
Proof.
  induction l1 as [|x l1 IH]; intros l2 P S1 S2.
  - apply Permutation_nil in P. auto.
  - destruct l2 as [|y l2]; [apply Permutation_sym, Permutation_nil in P; discriminate|].
    apply StronglySorted_inv in S1, S2. destruct S1 as (S1 & F1). destruct S2 as (S2 & F2).
    assert (E : x = y).
    { destruct (Permutation_in x P (or_introl eq_refl)) as [E|Hx]; [auto|].
      destruct (Permutation_in y (Permutation_sym P) (or_introl eq_refl)) as [E|Hy]; [auto|].
      rewrite Forall_forall in F1, F2. specialize (F1 y Hy). specialize (F2 x Hx). unfold key_le in F1. lia. }
    subst y. f_equal. apply IH; [|assumption..]. apply Permutation_cons_inv in P. exact P.
Qed.
