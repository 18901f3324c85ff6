(* The exported map as a whole. *)
From Coq Require Import Permutation String Sorting.Sorted.
From Verif Require Import Base LayoutModel LayoutProofs GeoModel OsmModel OsmSpec OsmNodes OsmWays.
Local Open Scope nat_scope.

(* ---- lists ---- *)
Lemma Forall2_map_right {A B C} (Q : A -> C -> Prop) (g : B -> C) l1 : forall l2,
  Forall2 (fun a b => Q a (g b)) l1 l2 -> Forall2 Q l1 (map g l2).
Proof. intros l2 H. induction H; cbn [map]; constructor; auto. Qed.
Lemma Forall2_weaken {A B} (P Q : A -> B -> Prop) l1 l2 : (forall a b, In b l2 -> P a b -> Q a b) -> Forall2 P l1 l2 -> Forall2 Q l1 l2.
Proof. intros H F. induction F; constructor; [apply H; [left; reflexivity|assumption]|]. apply IHF. intros a b Hb. apply H. right. exact Hb. Qed.
Lemma Forall2_len {A B} (P : A -> B -> Prop) l1 l2 : Forall2 P l1 l2 -> List.length l1 = List.length l2.
Proof. intros F. induction F; cbn [List.length]; auto. Qed.
Lemma map_res_map {A B C} (f : B -> res C) (g : A -> B) l : map_res f (map g l) = map_res (fun a => f (g a)) l.
Proof. induction l as [|a l IH]; cbn [map map_res]; [reflexivity|]. rewrite IH. reflexivity. Qed.
Lemma with_ids_app {A} (l1 : list A) : forall l2 k, with_ids k (l1 ++ l2) = with_ids k l1 ++ with_ids (k + List.length l1) l2.
Proof.
  induction l1 as [|a l1 IH]; intros l2 k; cbn [with_ids app List.length]; [rewrite Nat.add_0_r; reflexivity|].
  rewrite IH. do 3 f_equal. lia.
Qed.
Lemma with_ids_fst {A} (l : list A) : forall k, map fst (with_ids k l) = seq k (List.length l).
Proof. induction l as [|a l IH]; intros k; cbn [with_ids map List.length seq fst]; [reflexivity|]. rewrite IH. reflexivity. Qed.
Lemma with_ids_snd {A} (l : list A) : forall k, map snd (with_ids k l) = l.
Proof. induction l as [|a l IH]; intros k; cbn [with_ids map snd]; [reflexivity|]. rewrite IH. reflexivity. Qed.
Lemma with_ids_length {A} (l : list A) k : List.length (with_ids k l) = List.length l.
Proof. rewrite <- (with_ids_snd l k) at 2. rewrite map_length. reflexivity. Qed.
Lemma flat_map_cons_perm {A B} (f : A -> B) (g : A -> list B) L :
  Permutation (flat_map (fun s => f s :: g s) L) (concat (map g L) ++ map f L).
Proof.
  induction L as [|s L IH]; cbn [flat_map map concat]; [reflexivity|]. rewrite <- app_assoc. cbn [app].
  transitivity (f s :: g s ++ (concat (map g L) ++ map f L)); [constructor; apply Permutation_app_head, IH|].
  rewrite !app_assoc. apply Permutation_middle.
Qed.
Lemma last_map {A B} (f : A -> B) l d : List.last (map f l) (f d) = f (List.last l d).
Proof. induction l as [|a [|b l] IH]; [reflexivity..|]. exact IH. Qed.
Lemma last_app {A} (l : list A) x d : List.last (l ++ [x]) d = x.
Proof. induction l as [|a l IH]; [reflexivity|]. cbn [app]. destruct (l ++ [x]) eqn:E; [destruct l; discriminate|exact IH]. Qed.
Lemma sorted_fst {B} (l : list (N * B)) : StronglySorted N.lt (map fst l) -> StronglySorted (fun x y => (fst x < fst y)%N) l.
Proof.
  induction l as [|x l IH]; intros S; [constructor|]. cbn [map] in S. apply StronglySorted_inv in S. destruct S as (S & F).
  constructor; [apply IH, S|]. rewrite Forall_forall in *. intros y Hy. apply F, in_map, Hy.
Qed.
Lemma seq_sorted k : forall a, StronglySorted N.lt (map N.of_nat (seq a k)).
Proof.
  induction k as [|k IH]; intros a; cbn [seq map]; constructor; [apply IH|]. rewrite Forall_forall. intros y Hy.
  apply in_map_iff in Hy. destruct Hy as (b & <- & Hb). apply in_seq in Hb. lia.
Qed.

(* ---- one curve ---- *)
Definition point_node (p : nat * point) : xml := Node (N.of_nat (fst p)) (snd p) [("type", Text "interpolation")]%string.
Definition way_node (w : nat * (N * N)) : xml :=
  Way (N.of_nat (fst w)) [fst (snd w); snd (snd w)] [("railway", Text "rail")]%string.

Lemma steps_seq k : forall a x y, steps_along (x :: map N.of_nat (seq a (S k)) ++ [y]) =
  (x, N.of_nat a) :: map (fun j => (N.of_nat j, N.of_nat (S j))) (seq a k) ++ [(N.of_nat (a + k), y)].
Proof.
  induction k as [|k IH]; intros a x y.
  - cbn [seq map app steps_along]. rewrite Nat.add_0_r. reflexivity.
  - change (seq a (S (S k))) with (a :: seq (S a) (S k)). cbn [map app].
    change (steps_along (x :: N.of_nat a :: map N.of_nat (seq (S a) (S k)) ++ [y]))
      with ((x, N.of_nat a) :: steps_along (N.of_nat a :: map N.of_nat (seq (S a) (S k)) ++ [y])).
    rewrite IH. cbn [seq map app]. replace (S a + k) with (a + S k) by lia. reflexivity.
Qed.

Lemma inner_ways f s (size : nat) : size <> 0 -> forall a k, a + k = size ->
  (forall j, j < size -> f j = s j) ->
  flat_map (fun j => if Nat.ltb j (size - 1) then [f j] else []) (seq a k) = map (s : nat -> N * N) (seq a (k - 1)).
Proof.
  intros Sz a k. revert a. induction k as [|k IH]; intros a L H; [reflexivity|]. cbn [seq flat_map].
  destruct (Nat.ltb_spec a (size - 1)) as [La|La].
  - rewrite IH by (auto; lia). destruct k as [|k]; [lia|]. cbn [Nat.sub]. rewrite Nat.sub_0_r. cbn [app].
    cbn [seq map]. rewrite H by lia. reflexivity.
  - assert (k = 0) by lia. subst k. reflexivity.
Qed.

Lemma create_interpolation_eq osm ws i k : List.length (points i) = 50 -> (N.of_nat (k + 50) < 2 ^ 32)%N ->
  create_interpolation_osm osm ws i (N.of_nat k) =
  (osm ++ map point_node (with_ids k (points i)), ws ++ detour k (first_elem i) (second_elem i), N.of_nat (k + 50)).
Proof.
  intros L50 B. unfold create_interpolation_osm. cbv zeta. rewrite L50. f_equal; [f_equal|].
  - f_equal.
    assert (H : forall (l : list point) a, map (fun p => Node (N.of_nat k + N.of_nat (fst p)) (snd p) [("type", Text "interpolation")]%string)
      (with_ids a l) = map point_node (with_ids (k + a) l)).
    { induction l as [|p l IH]; intros a; cbn [with_ids map]; [reflexivity|]. rewrite IH. f_equal.
      - unfold point_node. cbn [fst snd]. f_equal. lia.
      - do 2 f_equal. lia. }
    rewrite (H _ 0), Nat.add_0_r. reflexivity.
  - f_equal. unfold detour. change 50 with (S 49) at 4. rewrite (steps_seq 49). cbn [app]. f_equal. f_equal.
    + rewrite (inner_ways _ (fun j => (N.of_nat (k + j), N.of_nat (S (k + j)))) 50) with (a := 0) (k := 50); try lia.
      * assert (H : forall c a, map (fun j => (N.of_nat (k + j), N.of_nat (S (k + j)))) (seq a c) =
          map (fun j => (N.of_nat j, N.of_nat (S j))) (seq (k + a) c)).
        { induction c as [|c IH]; intros a; cbn [seq map]; [reflexivity|]. rewrite IH. do 2 f_equal. f_equal. lia. }
        change (50 - 1) with 49. rewrite H, Nat.add_0_r. reflexivity.
      * intros j Lj. rewrite !w32_small; unfold M32; [f_equal|..]; lia.
    + f_equal. f_equal. rewrite w32_small; unfold M32; lia.
  - rewrite w32_small; unfold M32; lia.
Qed.

Lemma curves_eq is : forall osm ws k, (forall i, In i is -> List.length (points i) = 50) ->
  (N.of_nat (k + 50 * List.length is) < 2 ^ 32)%N ->
  fold_left (fun '(osm, ws, id) i => create_interpolation_osm osm ws i id) is (osm, ws, N.of_nat k) =
  (osm ++ map point_node (with_ids k (flat_map points is)),
   ws ++ detours k (map (fun i => (first_elem i, second_elem i)) is), N.of_nat (k + 50 * List.length is)).
Proof.
  induction is as [|i is IH]; intros osm ws k L B.
  - cbn [fold_left flat_map with_ids map detours List.length]. rewrite !app_nil_r. do 2 f_equal. lia.
  - cbn [fold_left]. cbn [List.length] in B. rewrite create_interpolation_eq by (try (apply L; left; reflexivity); lia).
    rewrite IH by (try (intros j Hj; apply L; right; exact Hj); lia).
    cbn [flat_map map detours fst snd List.length]. rewrite with_ids_app, map_app, (L i (or_introl eq_refl)), <- !app_assoc.
    do 2 f_equal. lia.
Qed.

Lemma ways_eq ws : forall out k, (N.of_nat (k + List.length ws) < 2 ^ 32)%N ->
  fst (fold_left (fun '(out, id) w => (out ++ [create_way_osm w id], w32 (id + 1))) ws (out, N.of_nat k)) =
  out ++ map way_node (with_ids k ws).
Proof.
  induction ws as [|w ws IH]; intros out k B; cbn [fold_left with_ids map].
  - rewrite app_nil_r. reflexivity.
  - cbn [List.length] in B. replace (w32 (N.of_nat k + 1)) with (N.of_nat (S k)) by (rewrite w32_small; unfold M32; lia).
    rewrite IH by lia. rewrite <- app_assoc. reflexivity.
Qed.

Lemma detours_length l : forall k, List.length (detours k l) = 51 * List.length l.
Proof.
  induction l as [|c l IH]; intros k; cbn [detours List.length]; [reflexivity|]. rewrite app_length, IH.
  unfold detour. change 50 with (S 49) at 1. rewrite (steps_seq 49). cbn [List.length]. rewrite app_length, map_length, seq_length. cbn [List.length]. lia.
Qed.

Lemma NoDup_once a b l c : NoDup (map norm l) -> In c l -> ends a b c -> once a b l.
Proof.
  intros Nd Hc E. apply in_split in Hc. destruct Hc as (l1 & l2 & ->). exists l1, c, l2. split; [reflexivity|]. split; [exact E|].
  intros d Hd Ed. rewrite map_app in Nd. cbn [map] in Nd. apply NoDup_remove_2 in Nd. apply Nd. rewrite <- map_app.
  apply norm_ends in E. apply norm_ends in Ed. rewrite E, <- Ed. apply in_map, Hd.
Qed.

Section export.
  Variable iss : osm_infra.
  Hypothesis C : complete iss.
  Notation n := (List.length (elements iss)).
  Notation m := (List.length (stations iss)).

  Lemma numbered_elements : map (fun s => station_elements (snd s)) (numbered_stations iss) = map station_elements (stations iss).
  Proof.
    unfold numbered_stations. rewrite map_map. cbn [snd]. rewrite <- (with_ids_snd (stations iss) 0) at 2. rewrite map_map. reflexivity.
  Qed.
  Lemma element_known e : In e (concat (map station_elements (stations iss))) -> (e < N.of_nat n)%N.
  Proof.
    intros H. apply (Permutation_in _ (every_element iss C)) in H. apply in_map_iff in H. destruct H as (j & <- & Hj).
    apply in_seq in Hj. lia.
  Qed.

  Lemma slots_sum : list_sum (map (slot_count iss) (concat (map station_elements (stations iss)))) = slots iss.
  Proof.
    assert (P : forall l1 l2, Permutation l1 l2 -> list_sum l1 = list_sum l2).
    { intros l1 l2 H. induction H; cbn [list_sum fold_right] in *; try change (fold_right Nat.add 0) with list_sum in *; lia. }
    rewrite (P _ _ (Permutation_map (slot_count iss) (every_element iss C))). unfold slots.
    rewrite map_map. f_equal. unfold slot_count. generalize (elements iss). intros l.
    enough (H : forall k pre, map (fun x => match nth_error (pre ++ l) (N.to_nat (N.of_nat x)) with
        | Some el => List.length (neighbours el) | None => 0 end) (seq (List.length pre) k) =
        map (fun el => List.length (neighbours el)) l \/ k <> List.length l) by (destruct (H (List.length l) []) as [E|E]; [exact E|congruence]).
    induction l as [|el l IH]; intros k pre; [destruct k; [left; reflexivity|right; discriminate]|].
    destruct k as [|k]; [right; discriminate|]. destruct (IH k (pre ++ [el])) as [E|E]; [|right; cbn [List.length]; congruence].
    left. cbn [seq map]. rewrite Nat2N.id. rewrite nth_error_app2, Nat.sub_diag by lia. cbn [nth_error]. f_equal.
    rewrite <- E. rewrite app_length, Nat.add_1_r. rewrite <- app_assoc. reflexivity.
  Qed.

  Lemma gathered : exists info,
    for_each (export_station iss) (mk_info [] [] [] (fun _ => [])) (numbered_stations iss) = Ok info /\
    Permutation (nodes info)
      (map (fun e => (e, Is_element e)) (map N.of_nat (seq 0 n)) ++ map (station_item iss) (numbered_stations iss)) /\
    Inv iss (slots iss) (has_neighbour iss) info.
  Proof.
    destruct (all_stations iss C (numbered_stations iss)) with (k := 0) (D := fun _ _ : N => False)
      (info := mk_info [] [] [] (fun _ : N => @nil N)) as (info & E & Nd & I).
    - intros s Hs e He. apply element_known. rewrite <- numbered_elements. apply in_concat.
      exists (station_elements (snd s)). split; [|exact He]. apply in_map_iff. eauto.
    - constructor; cbn; try tauto; try lia.
      + intros x y. split; [intros []|intros (c & [] & _)].
      + constructor.
    - exists info. split; [exact E|]. split.
      + rewrite Nd. cbn [nodes app]. unfold station_items. etransitivity; [apply flat_map_cons_perm|].
        apply Permutation_app_tail. rewrite <- (map_map (fun s => station_elements (snd s))). rewrite <- concat_map.
        apply Permutation_map. rewrite numbered_elements. apply (every_element iss C).
      + rewrite numbered_elements in I. eapply Inv_mono; [exact I|rewrite slots_sum; lia|]. intros a b H. right. split; [|exact H].
        apply (Permutation_in _ (Permutation_sym (every_element iss C))). apply in_map_iff. exists (N.to_nat a).
        rewrite N2Nat.id. split; [reflexivity|]. apply in_seq. pose proof (has_neighbour_fst iss a b H). lia.
  Qed.

  Definition target : list (N * item) :=
    map (fun e => (e, Is_element e)) (map N.of_nat (seq 0 n)) ++ map (station_item iss) (numbered_stations iss).
  Lemma target_fst : map fst target = map N.of_nat (seq 0 (n + m)).
  Proof.
    unfold target. rewrite map_app, !map_map. rewrite seq_app, map_app. f_equal. unfold numbered_stations. rewrite map_map.
    unfold station_item. cbn [fst snd].
    rewrite <- (map_map fst (fun i => w32 (N.of_nat i + N.of_nat n))). rewrite with_ids_fst.
    pose proof (room iss C) as R.
    assert (H : forall k a, a + k <= m -> map (fun i => w32 (N.of_nat i + N.of_nat n)) (seq a k) = map N.of_nat (seq (n + a) k)).
    { induction k as [|k IH]; intros a L; cbn [seq map]; [reflexivity|]. rewrite IH by lia.
      rewrite w32_small by (unfold M32; lia). f_equal; [lia|]. replace (n + S a) with (S (n + a)) by lia. reflexivity. }
    rewrite (H m 0) by lia. rewrite Nat.add_0_r. reflexivity.
  Qed.

  Lemma target_nodes : exists els sts, map_res (one_node iss) target = Ok (els ++ sts) /\
    Forall2 (shows_element iss) els (seq 0 n) /\ Forall2 (shows_station iss) sts (seq 0 m).
  Proof.
    unfold target. rewrite map_res_app, map_map, map_res_map.
    destruct (map_res_ok (fun a => one_node iss (N.of_nat a, Is_element (N.of_nat a))) (shows_element iss) (seq 0 n)) as (els & -> & F1).
    { intros e He. apply in_seq in He. unfold one_node. cbn [snd]. unfold create_element_osm.
      destruct (element_at iss (N.of_nat e)) as (el & El); [lia|]. rewrite (proj2 (at_N_Ok _ _ _) El). cbn [bind].
      destruct (place_at iss C (N.of_nat e)) as (p & P); [lia|]. rewrite (proj2 (at_N_Ok _ _ _) P). cbn [bind].
      eexists. split; [reflexivity|]. rewrite Nat2N.id in El, P. exists el, p. auto. }
    cbn [bind]. unfold numbered_stations. rewrite map_map, map_res_map.
    destruct (map_res_ok (fun a => one_node iss (station_item iss (N.of_nat (fst a), snd a))) (fun x a => shows_station iss x (fst a))
      (with_ids 0 (stations iss))) as (sts & -> & F2).
    { intros [s st] Hs. apply with_ids_In in Hs. rewrite Nat.sub_0_r in Hs. destruct Hs as (_ & Hs). cbn [fst snd].
      assert (Ls : s < m) by (apply nth_error_Some; rewrite Hs; discriminate).
      unfold one_node, station_item. cbn [fst snd]. unfold create_station_osm.
      destruct (nth_error (station_positions iss) s) as [p|] eqn:P; [|apply nth_error_None in P; rewrite (station_places iss C) in P; lia].
      rewrite (proj2 (at_N_Ok (station_positions iss) (N.of_nat s) p)) by (rewrite Nat2N.id; exact P). cbn [bind].
      eexists. split; [reflexivity|]. exists st, p. split; [exact Hs|]. split; [exact P|]. f_equal.
      pose proof (room iss C). rewrite w32_small by (unfold M32; lia). lia. }
    cbn [bind]. exists els, sts. split; [reflexivity|]. split; [exact F1|]. apply (Forall2_map_right (shows_station iss) fst) in F2.
    rewrite with_ids_fst in F2. exact F2.
  Qed.

  Lemma export_whole : exists els sts direct curves,
    (forall t, t <> 0 -> export_to_osm t iss = Ok (els ++ sts ++
       map point_node (with_ids (n + m) (flat_map points curves)) ++
       map way_node (with_ids (n + m + 50 * List.length curves)
          (direct ++ detours (n + m) (map (fun i => (first_elem i, second_elem i)) curves))))) /\
    Forall2 (shows_element iss) els (seq 0 n) /\ Forall2 (shows_station iss) sts (seq 0 m) /\
    exists info, direct = ways info /\ curves = interpolations info /\ Inv iss (slots iss) (has_neighbour iss) info.
  Proof.
    destruct gathered as (info & E & P & I). destruct target_nodes as (els & sts & En & F1 & F2).
    exists els, sts, (ways info), (interpolations info). split; [|split; [exact F1|split; [exact F2|exists info; auto]]].
    intros t T. unfold export_to_osm. rewrite E. cbn [bind]. cbv zeta.
    assert (S : sort_nodes (nodes info) = target).
    { apply sorted_unique; [|apply sort_nodes_sorted|apply sorted_fst; rewrite target_fst; apply seq_sorted].
      etransitivity; [apply Permutation_sym, sort_nodes_perm|exact P]. }
    rewrite S. destruct (Nat.eqb_spec t 0) as [X|_]; [contradiction|].
    pose proof (export_parts iss target t T) as Xp. cbv zeta in Xp. rewrite Xp. rewrite En. cbn [bind].
    assert (Back : exists x, match target with [] => UB | x :: _ => Ok (List.last target x) end = Ok x /\ fst x = N.of_nat (n + m - 1)).
    { pose proof target_fst as Tf. pose proof (some_station iss C) as M0. destruct target as [|x l].
      - exfalso. apply (f_equal (@List.length N)) in Tf. rewrite !map_length, seq_length in Tf. cbn in Tf. lia.
      - exists (List.last (x :: l) x). split; [reflexivity|]. rewrite <- last_map, Tf.
        replace (n + m) with (n + m - 1 + 1) at 1 by lia. rewrite seq_app, map_app. cbn [seq map]. rewrite last_app. f_equal. }
    destruct Back as (back & -> & Kb). cbn [bind]. rewrite Kb. pose proof (room iss C) as R. pose proof (some_station iss C) as M0.
    assert (Id : w32 (N.of_nat (n + m - 1) + 1) = N.of_nat (n + m)) by (rewrite w32_small; unfold M32; lia).
    rewrite Id. pose proof (inv_count _ _ _ _ I) as Cn. unfold conns in Cn. rewrite app_length, map_length in Cn.
    rewrite curves_eq.
    - rewrite ways_eq; [cbn [app]; rewrite <- !app_assoc; reflexivity|].
      rewrite app_length, detours_length, map_length. lia.
    - intros i Hi. apply (inv_curve _ _ _ _ I i Hi).
    - lia.
  Qed.
End export.
