(* C46: the sums over a distribution. *)
From Verif Require Import Base DpdModel DpdSpec DpdProofs PropsDpd.
From Coq Require Import QArith.
Local Open Scope Z_scope.

(* ---- specification: all that was inserted ---- *)
Fixpoint all_of (ps : list Q) : Q := match ps with [] => 0 | p :: ps => p + all_of ps end%Q.

(* ---- proofs ---- *)
Lemma total_from l : forall a, (fold_left Qplus l a == a + all_of l)%Q.
Proof. induction l as [|x l IH]; intros a; cbn [fold_left all_of]; [ring|]. rewrite IH. ring. Qed.
Lemma total_all l : (total l == all_of l)%Q.
Proof. unfold total. rewrite total_from. ring. Qed.
Lemma sum2_from l : forall a, (fold_left (fun p d => (p + subsum d)%Q) l a == a + all_of (map subsum l))%Q.
Proof. induction l as [|x l IH]; intros a; cbn [fold_left all_of map]; [ring|]. rewrite IH. ring. Qed.
Lemma sum2_all d : (sum2 d == all_of (map subsum (d2_dpds d)))%Q.
Proof. unfold sum2. rewrite sum2_from. ring. Qed.
Lemma all_of_app a b : (all_of (a ++ b) == all_of a + all_of b)%Q.
Proof. induction a as [|x a IH]; cbn [app all_of]; [ring|]. rewrite IH. ring. Qed.
Lemma all_of_zeros n : (all_of (repeat 0%Q n) == 0)%Q.
Proof. induction n as [|n IH]; cbn [repeat all_of]; [reflexivity|]. rewrite IH. ring. Qed.

Lemma resize_keeps {A} (dflt : A) (f : A -> Q) mx idx l r : (f dflt == 0)%Q ->
  (N.of_nat (length l) <= idx)%N -> resize dflt mx (size_of (Z.of_N idx + 1)) l = Ok r -> (idx < N.of_nat (length r))%N ->
  (all_of (map f r) == all_of (map f l))%Q.
Proof.
  intros Z0 L E B. unfold resize in E. set (n := size_of (Z.of_N idx + 1)) in *. destruct (mx <? n)%N; [discriminate|]. injection E as <-.
  rewrite app_length, repeat_length, firstn_length in B.
  rewrite firstn_all2 by lia. rewrite map_app, all_of_app.
  assert (R : forall k, (all_of (map f (repeat dflt k)) == 0)%Q).
  { induction k as [|k IH]; cbn [repeat map all_of]; [reflexivity|]. rewrite IH, Z0. ring. }
  rewrite R. ring.
Qed.
Lemma update_adds {A} (f : A -> Q) g (p : Q) l : (forall a b, g a = Ok b -> (f b == f a + p)%Q) ->
  forall i r, update l i g = Ok r -> (all_of (map f r) == all_of (map f l) + p)%Q.
Proof.
  intros G. induction l as [|a l IH]; intros [|i] r E; cbn [update] in E; try discriminate.
  - destruct (g a) as [b| | |] eqn:Eg; cbn [bind] in E; try discriminate. injection E as <-. cbn [map all_of]. rewrite (G a b Eg). ring.
  - destruct (update l i g) as [r'| | |] eqn:Eu; cbn [bind] in E; try discriminate. injection E as <-. cbn [map all_of]. rewrite (IH i r' Eu). ring.
Qed.
Lemma adds_here p : forall x y : Q, Ok (x + p)%Q = Ok y -> (y == x + p)%Q.
Proof. intros x y [= <-]. reflexivity. Qed.
Lemma insert1_total P d h p d' : insert1 P d h p = Ok d' -> (subsum d' == subsum d + p)%Q.
Proof.
  unfold insert1, subsum. rewrite !total_all. destruct (round_to_nearest_multiple P h); cbn [bind]; try discriminate.
  destruct (d1_mass d) as [|m0 ms] eqn:Em; [intros [= <-]; cbn; ring|]. rewrite <- Em. clear Em m0 ms.
  match goal with |- context [bind ?x _] => destruct x as [[]| | |]; cbn [bind]; try discriminate end.
  destruct (to_idx P (d1_first d) h) as [idx| | |]; cbn [bind]; try discriminate.
  match goal with |- context [bind ?x _] => destruct x as [m| | |] eqn:Er; cbn [bind]; try discriminate end.
  destruct (idx <? N.of_nat (length m))%N eqn:Ei; cbn [bind]; [|discriminate]. apply N.ltb_lt in Ei.
  match goal with |- context [update ?l ?i ?g] => destruct (update l i g) as [m'| | |] eqn:Eu; cbn [bind]; try discriminate end.
  intros [= <-]. cbn [d1_mass].
  pose proof (update_adds (fun q => q) _ p m (adds_here p) _ _ Eu) as U. rewrite !map_id in U. rewrite U.
  destruct (N.of_nat (length (d1_mass d)) <=? idx)%N eqn:El; [|injection Er as <-; reflexivity]. apply N.leb_le in El.
  pose proof (resize_keeps 0%Q (fun q => q) _ _ _ _ ltac:(reflexivity) El Er Ei) as R. rewrite !map_id in R. rewrite R. reflexivity.
Qed.
Lemma insert2_total P S d h v p d' : insert2 P S d h v p = Ok d' -> (sum2 d' == sum2 d + p)%Q.
Proof.
  unfold insert2. rewrite !sum2_all. destruct (round_to_nearest_multiple P h) as [g| | |]; cbn [bind]; try discriminate.
  destruct (d2_first d =? pr_max P).
  { destruct (insert1 S (empty1 S) v p) as [inner| | |] eqn:Ei; cbn [bind]; try discriminate. intros [= <-]. cbn [d2_dpds].
    rewrite map_app, all_of_app. cbn [map all_of]. rewrite (insert1_total _ _ _ _ _ Ei). cbn. ring. }
  match goal with |- context [bind ?x _] => destruct x as [[]| | |]; cbn [bind]; try discriminate end.
  destruct (to_idx P (d2_first d) h) as [idx| | |]; cbn [bind]; try discriminate.
  match goal with |- context [bind ?x _] => destruct x as [m| | |] eqn:Er; cbn [bind]; try discriminate end.
  destruct (idx <? N.of_nat (length m))%N eqn:Ei; cbn [bind]; [|discriminate]. apply N.ltb_lt in Ei.
  match goal with |- context [update ?l ?i ?g] => destruct (update l i g) as [m'| | |] eqn:Eu; cbn [bind]; try discriminate end.
  intros [= <-]. cbn [d2_dpds]. rewrite (update_adds subsum _ p m (fun a b E => insert1_total S a v p b E) _ _ Eu).
  destruct (N.of_nat (length (d2_dpds d)) <=? idx)%N eqn:El; [|injection Er as <-; reflexivity]. apply N.leb_le in El.
  rewrite (resize_keeps (empty1 S) subsum _ _ _ _ ltac:(reflexivity) El Er Ei). reflexivity.
Qed.

(* Whatever is inserted, in any order: if it succeeds, the sum over the distribution is the
   sum of the probabilities inserted; none is lost and none is counted twice. *)
Theorem C46_total P l d : inserts1 P (empty1 P) l = Ok d -> (subsum d == all_of (map snd l))%Q.
Proof.
  assert (G : forall l d0 d, inserts1 P d0 l = Ok d -> (subsum d == subsum d0 + all_of (map snd l))%Q).
  { clear. induction l as [|[h p] l IH]; intros d0 d E; cbn [inserts1] in E; [injection E as <-; cbn; ring|].
    destruct (insert1 P d0 h p) as [d1| | |] eqn:E1; cbn [bind] in E; try discriminate.
    rewrite (IH d1 d E), (insert1_total _ _ _ _ _ E1). cbn [map snd all_of]. ring. }
  intros E. rewrite (G l _ d E). cbn. ring.
Qed.
Print Assumptions C46_total.
Theorem C46_total_pairs P S l d : inserts2 P S (empty2 P) l = Ok d -> (sum2 d == all_of (map snd l))%Q.
Proof.
  assert (G : forall l d0 d, inserts2 P S d0 l = Ok d -> (sum2 d == sum2 d0 + all_of (map snd l))%Q).
  { clear. induction l as [|[[h v] p] l IH]; intros d0 d E; cbn [inserts2] in E; [injection E as <-; cbn; ring|].
    destruct (insert2 P S d0 h v p) as [d1| | |] eqn:E1; cbn [bind] in E; try discriminate.
    rewrite (IH d1 d E), (insert2_total _ _ _ _ _ _ _ E1). cbn [map snd all_of]. ring. }
  intros E. rewrite (G l _ d E). cbn. ring.
Qed.
Print Assumptions C46_total_pairs.

Example C46_total_sat :
  (exists d, inserts1 time_primary (empty1 time_primary) [(0, (1#4)%Q); (13, (1#2)%Q); (2, (1#4)%Q)] = Ok d /\ (subsum d == 1)%Q) /\
  (exists d, inserts2 time_primary speed_primary (empty2 time_primary) [(0, 5, (1#4)%Q); (13, 7, (1#2)%Q); (2, 9, (1#8)%Q)] = Ok d /\ (sum2 d == 7#8)%Q).
Proof. split; eexists; (split; [vm_compute; reflexivity|vm_compute; reflexivity]). Qed.

(* FINDING, made precise.  What happens to a time that rounds to k buckets below the first one of n
   buckets: it is refused with an exception if 2 <= k < n; otherwise memory outside of the vectors is
   accessed.  A distribution over times and speeds always accesses memory outside. *)
Lemma shift1_ok n k : (1 <= n)%nat -> shift_loop1 n k = (k <? n)%nat.
Proof.
  intros N1. unfold shift_loop1. destruct (Nat.ltb_spec k n) as [L|L].
  - apply forallb_forall. intros i _. destruct (Nat.ltb_spec k i) as [A|A]; [reflexivity|]. cbn [orb].
    apply andb_true_iff. split; apply Nat.ltb_lt; lia.
  - destruct (forallb _ _) eqn:E; [|reflexivity]. rewrite forallb_forall in E. specialize (E n).
    rewrite in_seq in E. specialize (E ltac:(lia)). apply orb_true_iff in E as [E|E]; [apply Nat.ltb_lt in E; lia|].
    apply andb_true_iff in E as [E _]. apply Nat.ltb_lt in E. lia.
Qed.
Lemma shift2_never n k : (1 <= n)%nat -> (1 <= k)%nat -> shift_loop2 n k = false.
Proof.
  intros N1 K1. unfold shift_loop2. destruct (forallb _ _) eqn:E; [|reflexivity]. rewrite forallb_forall in E.
  specialize (E (Nat.max n k)). rewrite in_seq in E. specialize (E ltac:(lia)). apply orb_true_iff in E as [E|E]; apply Nat.ltb_lt in E; lia.
Qed.
Lemma int64_small z : - 2 ^ 60 <= z <= 2 ^ 60 -> int64 z = Ok z.
Proof.
  intros Hz. unfold int64. replace (- INT64_MAX - 1 <=? z) with true by (symmetry; apply Z.leb_le; unfold INT64_MAX; lia).
  replace (z <=? INT64_MAX) with true by (symmetry; apply Z.leb_le; unfold INT64_MAX; lia). reflexivity.
Qed.
Lemma rounded h r : ordinary h -> rounds 6 h r -> round_to_nearest_multiple time_primary h = Ok r /\ 0 <= r.
Proof.
  intros OR R. pose proof (time_fits h OR) as HF.
  destruct (round_ok time_primary time_norm_ok h) as (r' & E & R' & P0); [destruct HF; lia|destruct HF; lia|].
  rewrite (rounds_unique 6 h r' r eq_refl R' R) in *. auto.
Qed.
Theorem C46_below_first_exact_refuted d h p r k :
  d1_mass d <> [] -> 0 <= d1_first d <= 2 ^ 57 -> Z.of_nat (length (d1_mass d)) < 2 ^ 57 ->
  ordinary h -> rounds 6 h r -> 1 <= k -> r = d1_first d - 6 * k ->
  (2 <= k < Z.of_nat (length (d1_mass d)) -> insert1 time_primary d h p = Throw) /\
  (k = 1 \/ Z.of_nat (length (d1_mass d)) <= k -> insert1 time_primary d h p = UB).
Proof.
  intros NE F0 LN OR R K1 EK. destruct (rounded h r OR R) as [E P0]. unfold insert1. rewrite E. cbn [bind].
  destruct (d1_mass d) as [|q0 mass0] eqn:EM; [congruence|]. rewrite <- EM in *.
  assert (N1 : (1 <= length (d1_mass d))%nat) by (rewrite EM; cbn; lia).
  replace (r <? d1_first d) with true by (symmetry; apply Z.ltb_lt; lia).
  cbn [pr_norm time_primary]. rewrite int64_small by lia. cbn [bind pr_gran time_primary].
  replace (d1_first d - r) with (k * 6) by lia. rewrite Z.quot_mul by lia.
  replace (size_of k) with (Z.to_N k) by (unfold size_of; rewrite Z.mod_small by (unfold M64; lia); reflexivity).
  rewrite shift1_ok by exact N1. replace (N.to_nat (Z.to_N k)) with (Z.to_nat k) by lia.
  destruct (Nat.ltb_spec (Z.to_nat k) (length (d1_mass d))) as [L|L]; [|split; [lia|reflexivity]]. cbn [bind].
  unfold to_idx. rewrite E. cbn [bind pr_norm time_primary]. rewrite int64_small by lia. cbn [bind pr_gran time_primary].
  replace (r - d1_first d) with (- k * 6) by lia. rewrite Z.quot_mul by lia.
  assert (SZ : size_of (- k) = Z.to_N (M64 - k)).
  { unfold size_of. f_equal. symmetry. apply (Z.mod_unique (- k) M64 (-1)); [left; unfold M64; lia|ring]. }
  rewrite SZ. replace (N.of_nat (length (d1_mass d)) <=? Z.to_N (M64 - k))%N with true by (symmetry; apply N.leb_le; unfold M64; lia).
  rewrite Z2N.id by (unfold M64; lia). split.
  - intros K. unfold size_of. rewrite Z.mod_small by (unfold M64; lia). unfold resize.
    replace (FLOATS_MAX <? Z.to_N (M64 - k + 1))%N with true; [reflexivity|]. symmetry. apply N.ltb_lt. unfold FLOATS_MAX, M64. lia.
  - intros [-> |K]; [|lia]. assert (Z0 : size_of (M64 - 1 + 1) = 0%N) by reflexivity. rewrite Z0. unfold resize. cbn [N.ltb N.compare FLOATS_MAX].
    change (N.to_nat 0) with O. cbn [firstn app Nat.sub repeat bind length N.of_nat]. reflexivity.
Qed.
Print Assumptions C46_below_first_exact_refuted.
Theorem C46_pairs_below_first_refuted d h v p r :
  d2_dpds d <> [] -> 0 <= d2_first d <= 2 ^ 57 -> (6 | d2_first d) -> ordinary h -> rounds 6 h r -> r < d2_first d ->
  insert2 time_primary speed_primary d h v p = UB.
Proof.
  intros NE F0 D OR R LT. destruct (rounded h r OR R) as [E P0]. unfold insert2. rewrite E. cbn [bind].
  replace (d2_first d =? pr_max time_primary) with false by (symmetry; apply Z.eqb_neq; cbn [pr_max time_primary]; unfold INT64_MAX; lia).
  replace (r <? d2_first d) with true by (symmetry; apply Z.ltb_lt; exact LT).
  assert (DV : (6 | d2_first d - r)) by (apply Z.divide_sub_r; [exact D|apply R]). destruct DV as (k & K).
  cbn [pr_norm time_primary]. rewrite int64_small by lia. cbn [bind pr_gran time_primary]. rewrite K. rewrite Z.quot_mul by lia.
  replace (size_of k) with (Z.to_N k) by (unfold size_of; rewrite Z.mod_small by (unfold M64; lia); reflexivity).
  rewrite shift2_never; [reflexivity|destruct (d2_dpds d); [congruence|cbn; lia]|lia].
Qed.
Print Assumptions C46_pairs_below_first_refuted.
Example C46_pairs_below_sat :
  exists d, inserts2 time_primary speed_primary (empty2 time_primary) [(12, 50, (1#2)%Q); (18, 51, (1#4)%Q); (24, 40, (1#8)%Q)] = Ok d /\
    d2_first d = 12 /\ length (d2_dpds d) = 3%nat /\ insert2 time_primary speed_primary d 6 50 (1#2)%Q = UB.
Proof. eexists. split; [vm_compute; reflexivity|]. split; [reflexivity|]. split; reflexivity. Qed.
