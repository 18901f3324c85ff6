(* The map generator: following the tracks to find a node at a distance.
   C102-C104. *)
From Coq Require Import String List ZArith QArith Bool Permutation Sorted Lia Lqa.
From Verif Require Import Base GenOsmModel GenFindModel GenFindSpec GenOsmProofs GenFindProofs GenFindProofs2.
Import ListNotations.
Local Open Scope list_scope.
Local Open Scope nat_scope.

Definition clean_network (o : osm) : Prop := simple_ways o /\ separate_ways o /\ complete o /\ meet_at_ends o.

(* ---- C102 ---- *)
(* q lies behind the start *)
Definition behind (nds : list string) (index : nat) (up : bool) (q : string) : Prop :=
  nth_error nds (if up then index + 1 else index - 1) = Some q /\ (up = false -> 0 < index).

Theorem C102_walk : forall hav o w index start dist up fuel r,
  In w (o_ways o) -> nth_error (w_nd w) index = Some start -> go_direction hav fuel o (w_nd w) index dist up = Ok r ->
  match r with
  | Reached e d => exists l, trail hav o dist (l ++ [start]) d /\ hd_error (l ++ [start]) = Some e /\ (dist <= d)%Q /\
      (simple_ways o -> separate_ways o -> straight (l ++ [start]) /\ forall q, behind (w_nd w) index up q -> straight (l ++ [start; q]))
  | Stopped e d junction => exists l, trail hav o dist (l ++ [start]) d /\ hd_error (l ++ [start]) = Some e /\ (d < dist)%Q /\
      (if junction then exists k, 2 < k /\ ways_through o e k else ways_through o e 1) /\
      (simple_ways o -> separate_ways o -> straight (l ++ [start]) /\ forall q, behind (w_nd w) index up q -> straight (l ++ [start; q]))
  | Failed => True
  end.
Proof.
  intros hav o w index start dist up fuel r Hin Hs H. apply go_direction_walk with (start := start) in H; [|exists w; auto|exact Hs].
  assert (Hb : forall q, behind (w_nd w) index up q -> behind_list (w_nd w) up index = [q]).
  { intros q [Hq Hz]. unfold behind_list. destruct up.
    - rewrite Nat.add_1_r in Hq. now rewrite Hq.
    - destruct index as [|j]; [specialize (Hz eq_refl); lia|]. cbn [Nat.sub] in Hq. rewrite Nat.sub_0_r in Hq. now rewrite Hq. }
  destruct r as [e d|e d j|]; [| |exact I].
  - destruct H as (l & Ht & (l' & ->) & Hh & Hst & Hd). exists l'. repeat split; try assumption.
    + eapply straight_front, Hst; assumption.
    + intros q Hq. specialize (Hst H H0). rewrite (Hb q Hq) in Hst. now rewrite <- app_assoc in Hst.
  - destruct H as (l & Ht & (l' & ->) & Hh & Hst & Hd & Hj). exists l'. repeat split; try assumption.
    + eapply straight_front, Hst; assumption.
    + intros q Hq. specialize (Hst H H0). rewrite (Hb q Hq) in Hst. now rewrite <- app_assoc in Hst.
Qed.
Print Assumptions C102_walk.

(* the first step goes the way that was asked for *)
Theorem C102_direction : forall hav o w index start dist (up : bool) fuel r e d,
  simple_ways o -> separate_ways o -> In w (o_ways o) -> nth_error (w_nd w) index = Some start ->
  (if up then 0 < index else index + 1 < List.length (w_nd w)) -> (0 < dist)%Q ->
  go_direction hav fuel o (w_nd w) index dist up = Ok r -> r = Reached e d \/ (exists j, r = Stopped e d j) ->
  exists l nx, nth_error (w_nd w) (if up then index - 1 else index + 1) = Some nx /\
    trail hav o dist (l ++ [nx; start]) d /\ hd_error (l ++ [nx; start]) = Some e.
Proof.
  intros hav o w index start dist up fuel r e d Hsim Hsep Hin Hs Hi Hd H Hr.
  assert (He : result_of r = Some (e, d)) by (destruct Hr as [-> |[j ->]]; reflexivity).
  assert (Hedge : at_edge (w_nd w) up index = false).
  { unfold at_edge. destruct up; cbn [andb negb orb].
    - rewrite orb_false_r. apply Nat.eqb_neq. lia.
    - apply Nat.eqb_neq. lia. }
  destruct (go_direction_first hav o dist Hsim fuel (w_nd w) index up start r e d Hsep) as (l & (Ht & Hh & Hst) & _ & Hl); try assumption.
  { exists w; auto. } { rewrite Hedge. discriminate. }
  destruct Hl as [[-> [Hc|Hc]]|(l' & nx & i & -> & Hnx)]; [lra|congruence|].
  exists l', nx. destruct (next_ref_ok _ _ _ _ _ Hnx) as [Hat Hi']. split.
    + rewrite <- Hat. f_equal. destruct up; lia.
    + rewrite <- app_assoc in Ht, Hh. auto.
Qed.
Print Assumptions C102_direction.

(* no crash *)
Theorem C102_safe : forall hav o w index start dist up fuel, simple_ways o -> complete o ->
  In w (o_ways o) -> nth_error (w_nd w) index = Some start ->
  match go_direction hav fuel o (w_nd w) index dist up with
  | Throw | UB => False
  | Ok Failed => ~ meet_at_ends o
  | _ => True
  end.
Proof.
  intros hav o w index start dist up fuel Hsim Hcom Hin Hs.
  pose proof (go_direction_fine hav o dist fuel (w_nd w) index up start Hsim Hcom ltac:(exists w; auto) Hs) as F.
  destruct (go_direction hav fuel o (w_nd w) index dist up) as [[]| | |]; exact F.
Qed.
Print Assumptions C102_safe.

(* with a smallest distance between neighbours the walk ends *)
Theorem C102_ends : forall hav o delta w index start dist up k,
  (forall a b na nb, neighbours o a b -> node_of o a na -> node_of o b nb -> (delta <= hav na nb)%Q) ->
  In w (o_ways o) -> nth_error (w_nd w) index = Some start -> (dist <= inject_Z (Z.of_nat k) * delta)%Q ->
  go_direction hav (S k) o (w_nd w) index dist up <> Fuel.
Proof.
  intros hav o delta w index start dist up k Hd Hin Hs Hk. eapply go_direction_ends; [exact Hd|exists w; auto|exact Hs|exact Hk].
Qed.
Print Assumptions C102_ends.

(* a network of nodes at the same place: a ring of three ways *)
Definition nd (id : string) : node := mknode [] id "50.0" "8.0".
Definition ring : osm := mkosm [nd "1"; nd "2"; nd "3"] [mkway [] "11" ["1"; "2"]; mkway [] "12" ["2"; "3"]; mkway [] "13" ["3"; "1"]]%string [].
Definition flat (a b : node) : Q := 0.
Ltac split_ways :=
  repeat match goal with
  | H : nth_error (?w :: _) ?i = Some _ |- _ => destruct i as [|i]; cbn [nth_error] in H; [injection H as <-|]
  | H : nth_error [] ?i = Some _ |- _ => destruct i; discriminate
  end.
Ltac in_cases H := cbn [In] in H; repeat match type of H with _ \/ _ => destruct H as [H|H] end; try contradiction; subst.
Lemma no_twin a (l : list string) : NoDup l -> ~ next_in l a a.
Proof.
  intros Hn (pre & post & [-> | ->]); apply NoDup_remove_2 in Hn; apply Hn; apply in_or_app; right; now left.
Qed.
(* two lists with one node in common share no track *)
Lemma share_one (l1 l2 : list string) : NoDup l1 -> (forall a b, In a l1 -> In b l1 -> In a l2 -> In b l2 -> a = b) ->
  forall a b, next_in l1 a b -> ~ next_in l2 a b.
Proof.
  intros Hn H a b H1 H2. pose proof (next_in_in _ _ _ H1) as [A1 B1]. pose proof (next_in_in _ _ _ H2) as [A2 B2].
  specialize (H a b A1 B1 A2 B2). subst b. exact (no_twin a l1 Hn H1).
Qed.
Ltac solve_nodup := repeat constructor; cbn [In]; intuition discriminate.
Lemma ring_clean : clean_network ring.
Proof.
  split; [|split; [|split]].
  - intros w H. cbn [ring o_ways] in H. in_cases H; cbn [w_nd]; (split; [solve_nodup|cbn; lia]).
  - intros i j wi wj a b Hij Hi Hj. cbn [ring o_ways] in Hi, Hj. split_ways; try congruence; cbn [w_nd]; apply share_one; try solve_nodup;
      intros x y Hx Hy Hx' Hy'; cbn [In] in *; intuition congruence.
  - intros w id H Hid. cbn [ring o_ways] in H. exists (nd id). apply get_node_of. in_cases H; cbn [w_nd] in Hid; in_cases Hid; reflexivity.
  - intros i j wi wj id Hij Hi Hj H1 H2. cbn [ring o_ways] in Hi, Hj. split_ways; try congruence; cbn [w_nd] in *; in_cases H1; in_cases H2; try discriminate;
      (eexists [_]; left; reflexivity) || (eexists [_]; right; reflexivity).
Qed.
(* round and round *)
Theorem C102_ends_refuted : ~ (forall hav o w index start dist up, clean_network o -> In w (o_ways o) ->
  nth_error (w_nd w) index = Some start -> exists fuel, go_direction hav fuel o (w_nd w) index dist up <> Fuel).
Proof.
  intros H. destruct (H flat ring (mkway [] "11" ["1"; "2"]%string) 1 "2"%string 1%Q true ring_clean (or_introl eq_refl) eq_refl) as [fuel Hf].
  apply Hf. destruct fuel as [|fuel]; [reflexivity|].
  change (go_loop flat fuel ring ["1"; "2"]%string 0 1 true (nd "1") (Some (nd "2")) 0 = Fuel).
  assert (Hloop : forall n, go_loop flat n ring ["1"; "2"]%string 0 1 true (nd "1") (Some (nd "2")) 0 = Fuel /\
    go_loop flat (S n) ring ["1"; "2"]%string 0 1 true (nd "1") (Some (nd "2")) 0 = Fuel /\
    go_loop flat (S (S n)) ring ["1"; "2"]%string 0 1 true (nd "1") (Some (nd "2")) 0 = Fuel).
  { induction n as [|n (IH1 & IH2 & IH3)]; [repeat split; reflexivity|]. split; [exact IH2|]. split; [exact IH3|].
    change (go_loop flat n ring ["1"; "2"]%string 0 1 true (nd "1") (Some (nd "2")) 0 = Fuel). exact IH1. }
  apply Hloop.
Qed.
Print Assumptions C102_ends_refuted.

(* ---- C103 ---- *)
Theorem C103_both_directions : forall hav o n dist fuel u du w dw, simple_ways o -> separate_ways o ->
  find_nodes hav fuel o n dist = Ok (Some (u, du, w, dw)) -> both_ends hav o dist (n_id n) u du w dw.
Proof. intros. eapply find_nodes_ends; eassumption. Qed.
Print Assumptions C103_both_directions.

Theorem C103_usable_partial : forall hav o n dist fuel, simple_ways o -> complete o -> meet_at_ends o ->
  match find_nodes hav fuel o n dist with
  | Ok None => ~ usable o (n_id n)
  | Ok (Some _) => usable o (n_id n)
  | Fuel => usable o (n_id n)
  | Throw | UB => False
  end.
Proof.
  intros hav o n dist fuel H1 H2 H3. pose proof (find_nodes_usable hav o dist H1 H2 H3 fuel n) as U.
  destruct (find_nodes hav fuel o n dist) as [[?|]| | |]; exact U.
Qed.
Print Assumptions C103_usable_partial.

(* the track goes on at a node where two ways begin, but the search does not *)
Definition fork : osm := mkosm [nd "1"; nd "2"; nd "3"; nd "4"; nd "5"] [mkway [] "11" ["3"; "2"; "1"]; mkway [] "12" ["3"; "4"; "5"]]%string [].
Definition one (a b : node) : Q := 1.
Lemma fork_clean : clean_network fork.
Proof.
  split; [|split; [|split]].
  - intros w H. cbn [fork o_ways] in H. in_cases H; cbn [w_nd]; (split; [solve_nodup|cbn; lia]).
  - intros i j wi wj a b Hij Hi Hj. cbn [fork o_ways] in Hi, Hj. split_ways; try congruence; cbn [w_nd]; apply share_one; try solve_nodup;
      intros x y Hx Hy Hx' Hy'; cbn [In] in *; intuition congruence.
  - intros w id H Hid. cbn [fork o_ways] in H. exists (nd id). apply get_node_of. in_cases H; cbn [w_nd] in Hid; in_cases Hid; reflexivity.
  - intros i j wi wj id Hij Hi Hj H1 H2. cbn [fork o_ways] in Hi, Hj. split_ways; try congruence; cbn [w_nd] in *; in_cases H1; in_cases H2; try discriminate;
      (eexists [_; _]; left; reflexivity).
Qed.
Theorem C103_usable_refuted : ~ (forall hav o n dist fuel, clean_network o -> ways_through o (n_id n) 2 ->
  find_nodes hav fuel o n dist <> Ok None).
Proof.
  intros H. apply (H one fork (nd "3") 1%Q 3 fork_clean); [|reflexivity]. apply ways_through_length. reflexivity.
Qed.
Print Assumptions C103_usable_refuted.

(* the node found from two others: an end of both searches, or the better of the
   two ends closest to each other, up to the slip in [chosen] *)
Theorem C103_new_node_partial : forall hav o n1 n2 d1 d2 fuel m, clean_network o ->
  find_new_node hav fuel o n1 n2 d1 d2 = Ok (Found m) ->
  (d1 == 0)%Q /\ m = n1 \/
  exists u1 du1 w1 dw1 u2 du2 w2 dw2,
    both_ends hav o d1 (n_id n1) u1 du1 w1 dw1 /\ both_ends hav o d2 (n_id n2) u2 du2 w2 dw2 /\
    chosen hav o d1 d2 (u1, du1) (w1, dw1) (u2, du2) (w2, dw2) m.
Proof.
  intros hav o n1 n2 d1 d2 fuel m (H1 & H2 & H3 & H4) H. pose proof (find_new_node_spec hav o H1 H2 H3 H4 fuel n1 n2 d1 d2) as S. rewrite H in S.
  destruct S as [S|(_ & _ & _ & S)]; auto.
Qed.
Print Assumptions C103_new_node_partial.
(* it fails only because of a node that cannot be used, and names it *)
Theorem C103_failure : forall hav o n1 n2 d1 d2 fuel, clean_network o ->
  match find_new_node hav fuel o n1 n2 d1 d2 with
  | Ok (Found _) => (d1 == 0)%Q \/ usable o (n_id n1) /\ usable o (n_id n2)
  | Ok (Insufficient id) => (id = n_id n1 \/ id = n_id n2) /\ ~ usable o id
  | Fuel => True
  | _ => False
  end.
Proof.
  intros hav o n1 n2 d1 d2 fuel (H1 & H2 & H3 & H4). pose proof (find_new_node_spec hav o H1 H2 H3 H4 fuel n1 n2 d1 d2) as S.
  destruct (find_new_node hav fuel o n1 n2 d1 d2) as [[m|id| |]| | |]; try exact S; [|destruct S as (_ & [[-> S]|(-> & _ & S)]); auto|exact I].
  destruct S as [[S _]|(_ & S1 & S2 & _)]; auto.
Qed.
Print Assumptions C103_failure.

(* a straight track with nodes at 0, 12, 20, 30 and 40 *)
Definition place (n : node) : Q :=
  if String.eqb (n_id n) "1" then 0 else if String.eqb (n_id n) "2" then 12 else if String.eqb (n_id n) "3" then 20 else
  if String.eqb (n_id n) "4" then 30 else 40.
Definition apart (a b : node) : Q := off (place a) (place b).
Definition line : osm := mkosm [nd "1"; nd "2"; nd "3"; nd "4"; nd "5"] [mkway [] "11" ["1"; "2"; "3"; "4"; "5"]]%string [].
Lemma line_clean : clean_network line.
Proof.
  split; [|split; [|split]].
  - intros w H. cbn [line o_ways] in H. in_cases H; cbn [w_nd]; (split; [solve_nodup|cbn; lia]).
  - intros i j wi wj a b Hij Hi Hj. cbn [line o_ways] in Hi, Hj. split_ways. congruence.
  - intros w id H Hid. cbn [line o_ways] in H. exists (nd id). apply get_node_of. in_cases H; cbn [w_nd] in Hid; in_cases Hid; reflexivity.
  - intros i j wi wj id Hij Hi Hj H1 H2. cbn [line o_ways] in Hi, Hj. split_ways. congruence.
Qed.
(* 25 from the node at 40 leads to 12 or stays at 40, 18 from the node at 0 leads
   to 20 or stays at 0: 12 and 20 are closest, and 20 is the better one, but the
   node at 40 is returned *)
Theorem C103_new_node_refuted : ~ (forall hav o n1 n2 d1 d2 fuel m u1 du1 w1 dw1 u2 du2 w2 dw2, clean_network o ->
  find_nodes hav fuel o n1 d1 = Ok (Some (u1, du1, w1, dw1)) -> find_nodes hav fuel o n2 d2 = Ok (Some (u2, du2, w2, dw2)) ->
  ~ (d1 == 0)%Q -> find_new_node hav fuel o n1 n2 d1 d2 = Ok (Found m) ->
  common_end o [(u1, du1); (w1, dw1)] [(u2, du2); (w2, dw2)] m \/ closest_ends hav o d1 d2 [(u1, du1); (w1, dw1)] [(u2, du2); (w2, dw2)] m).
Proof.
  intros H.
  assert (F1 : find_nodes apart 9 line (nd "5") 25 = Ok (Some ("2"%string, 28, "5"%string, 0)%Q)) by (vm_compute; reflexivity).
  assert (F2 : find_nodes apart 9 line (nd "1") 18 = Ok (Some ("1"%string, 0, "3"%string, 20)%Q)) by (vm_compute; reflexivity).
  assert (F3 : find_new_node apart 9 line (nd "5") (nd "1") 25 18 = Ok (Found (nd "5"))) by (vm_compute; reflexivity).
  destruct (H apart line (nd "5") (nd "1") 25%Q 18%Q 9 (nd "5") _ _ _ _ _ _ _ _ line_clean F1 F2 ltac:(discriminate) F3) as [C|C].
  - destruct C as (e & d & d' & C1 & C2 & _). cbn [In] in C1, C2. intuition congruence.
  - destruct C as (_ & a & da & na & b & db & nb & A & B & Na & Nb & Hmin & Hm).
    assert (N : forall id n, In id ["1"; "2"; "3"; "4"; "5"]%string -> node_of line id n -> n = nd id).
    { intros id n Hid Hn. apply get_node_of in Hn. in_cases Hid; vm_compute in Hn; injection Hn as <-; reflexivity. }
    assert (M2 : node_of line "2" (nd "2")) by (apply get_node_of; reflexivity).
    assert (M3 : node_of line "3" (nd "3")) by (apply get_node_of; reflexivity).
    pose proof (Hmin "2"%string _ _ "3"%string _ _ (or_introl eq_refl) (or_intror (or_introl eq_refl)) M2 M3) as Hle.
    cbn [In] in A, B. destruct A as [A|[A|[]]], B as [B|[B|[]]]; injection A as <- <-; injection B as <- <-;
      (apply N in Na; [|cbn [In]; tauto]); (apply N in Nb; [|cbn [In]; tauto]); subst na nb;
      try (revert Hle; vm_compute; intros Hle; apply Hle; reflexivity).
    destruct Hm as [[_ Hm]|[_ Hm]]; discriminate.
Qed.
Print Assumptions C103_new_node_refuted.
Example C103_example : find_nodes apart 9 line (nd "3") 10 = Ok (Some ("1"%string, 20, "4"%string, 10)%Q).
Proof. vm_compute. reflexivity. Qed.

(* ---- C104 ---- *)
Theorem C104_best_node : forall hav o order km fuel m, clean_network o ->
  Forall (fun a => snd a <> []) order -> find_best_osm_node hav fuel o order km = Ok (Some m) ->
  exists s, Permutation order s /\ StronglySorted (nearer km) s /\
    ((exists a s', s = a :: s' /\ (fst a == km)%Q /\ anchor_is a m) \/
     exists pre mid post a b, s = pre ++ a :: mid ++ b :: post /\ Forall (bad o) pre /\ Forall (bad o) mid /\ good o a /\ good o b /\
       (from_pair hav o km a b m \/ from_pair hav o km b a m)).
Proof.
  intros hav o order km fuel m (H1 & H2 & H3 & H4) Hne H.
  assert (Hl : 2 <= List.length order).
  { destruct order as [|x [|y order]]; [discriminate|discriminate|cbn; lia]. }
  pose proof (find_best_spec hav o H1 H2 H3 H4 km fuel order Hne Hl) as S. rewrite H in S. exact S.
Qed.
Print Assumptions C104_best_node.

(* without a node at the kilometrage itself, it gives up only if no two anchors can be used *)
Theorem C104_no_anchors : forall hav o order km fuel pre mid post a b, clean_network o ->
  Forall (fun a => snd a <> []) order -> order = pre ++ a :: mid ++ b :: post -> good o a -> good o b ->
  find_best_osm_node hav fuel o order km <> Ok None.
Proof.
  intros hav o order km fuel pre mid post a b (H1 & H2 & H3 & H4) Hne E Ga Gb H.
  assert (Hl : 2 <= List.length order) by (rewrite E, app_length; cbn; rewrite app_length; cbn; lia).
  pose proof (find_best_spec hav o H1 H2 H3 H4 km fuel order Hne Hl) as S. rewrite H in S. destruct S as (c & U & HP & HU).
  assert (Hgb : forall x, good o x -> ~ bad o x) by (intros x (n & Hn & Hu) Hb; exact (Hb n Hn Hu)).
  assert (HP' : Permutation (a :: b :: pre ++ mid ++ post) (c :: U)).
  { rewrite <- HP, E. rewrite <- Permutation_middle. apply perm_skip. rewrite !app_assoc. apply Permutation_middle. }
  rewrite Forall_forall in HU.
  assert (Ha : a = c). { destruct (Permutation_in a HP' (or_introl eq_refl)) as [->|Hin]; [reflexivity|]. exfalso. exact (Hgb _ Ga (HU _ Hin)). }
  subst c. apply Permutation_cons_inv in HP'. exact (Hgb _ Gb (HU _ (Permutation_in b HP' (or_introl eq_refl)))).
Qed.
Print Assumptions C104_no_anchors.

(* two anchors or more: no crash; fewer: a crash *)
Theorem C104_safe : forall hav o order km fuel, clean_network o -> Forall (fun a => snd a <> []) order ->
  (find_best_osm_node hav fuel o order km = Throw <-> List.length order < 2) /\ find_best_osm_node hav fuel o order km <> UB.
Proof.
  intros hav o order km fuel (H1 & H2 & H3 & H4) Hne. destruct (Nat.lt_ge_cases (List.length order) 2) as [Hl|Hl].
  - destruct order as [|x [|y order]]; cbn in Hl; [| |lia]; (split; [split; [intros _; cbn; lia|reflexivity]|discriminate]).
  - pose proof (find_best_spec hav o H1 H2 H3 H4 km fuel order Hne Hl) as S.
    destruct (find_best_osm_node hav fuel o order km) as [r| | |]; try contradiction; (split; [split; [discriminate|lia]|discriminate]).
Qed.
Print Assumptions C104_safe.

Theorem C104_ends : forall hav o delta order km k, simple_ways o ->
  (forall a b na nb, neighbours o a b -> node_of o a na -> node_of o b nb -> (delta <= hav na nb)%Q) ->
  Forall (fun a => (off (fst a) km <= inject_Z (Z.of_nat k) * delta)%Q) order ->
  find_best_osm_node hav (S k) o order km <> Fuel.
Proof. intros hav o delta order km k H1 Hd HF. eapply find_best_ends; eassumption. Qed.
Print Assumptions C104_ends.

(* the nearest anchor, a node of no way, is passed over *)
Example C104_example : find_best_osm_node apart 9 line [(40, [nd "5"]); (0, [nd "1"]); (11, [nd "9"])]%Q 12 = Ok (Some (nd "2")).
Proof. vm_compute. reflexivity. Qed.
