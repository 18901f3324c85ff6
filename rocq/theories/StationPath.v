(* The path of a station route is the drive along its course *)
From Coq Require Import List Bool NArith QArith String Arith Lia Sorted Permutation.
From Verif Require Import Base PhysModel TextModel InfraModel StationModel StationSpec.
Import ListNotations.
Local Open Scope nat_scope.

Lemma slot_eqb_eq a b : slot_eqb a b = true <-> a = b.
Proof. destruct a, b; cbn; split; congruence. Qed.
Lemma node_eqb_eq a b : node_eqb a b = true <-> a = b.
Proof.
  unfold node_eqb. rewrite andb_true_iff, Nat.eqb_eq, slot_eqb_eq. destruct a, b; cbn. split.
  - intros [-> ->]. reflexivity.
  - intros [= -> ->]. auto.
Qed.
Lemma node_eqb_refl a : node_eqb a a = true.
Proof. apply node_eqb_eq. reflexivity. Qed.
Lemma node_eqb_ne a b : node_eqb a b = false <-> a <> b.
Proof. rewrite <- node_eqb_eq. destruct (node_eqb a b); split; congruence. Qed.
Lemma node_dec (a b : node) : {a = b} + {a <> b}.
Proof. destruct (node_eqb a b) eqn:H; [left; apply node_eqb_eq, H|right; apply node_eqb_ne, H]. Qed.

Lemma is_switch_takes g n e : elem_at g (fst n) e -> takes_decision g n = is_switch e.
Proof.
  intros H. unfold takes_decision. rewrite H. unfold is_switch. destruct (e_type e); cbn; auto.
Qed.

(* every link of the network leads to an element of the network *)
Definition closed_links (g : graph) (ls : list links) : Prop :=
  forall n m, next_node ls n = Some m \/ branch_node ls n = Some m -> fst m < List.length (g_elems g).

Lemma get_node_in g p r i n : get_node g p r i = Ok n -> fst n < List.length (g_elems g).
Proof.
  unfold get_node. destruct p as [j|]; [|discriminate]. unfold get_e.
  destruct (nth_error (g_elems g) j) as [e|] eqn:N; [|discriminate]. cbn [bind].
  intros H. assert (fst n = j).
  { unfold get_node_e in H. destruct (e_kind e);
      repeat match type of H with context [if ?b then _ else _] => destruct b end;
      try discriminate H; injection H as <-; reflexivity. }
  subst j. apply nth_error_Some. congruence.
Qed.

Definition good (g : graph) (l : links) : Prop :=
  forall s m, fst (l s) = Some m \/ snd (l s) = Some m -> fst m < List.length (g_elems g).
Lemma good_none g : good g no_links.
Proof. intros s m [H|H]; discriminate H. Qed.
Lemma good_next g s n l : fst n < List.length (g_elems g) -> good g l -> good g (set_next s n l).
Proof.
  intros L G s' m H. unfold set_next in H. destruct (slot_eqb s' s); [|eapply G; eauto].
  cbn in H. destruct H as [[= <-]|H]; auto. eapply G; eauto.
Qed.
Lemma good_branch g s n l : fst n < List.length (g_elems g) -> good g l -> good g (set_branch s n l).
Proof.
  intros L G s' m H. unfold set_branch in H. destruct (slot_eqb s' s); [|eapply G; eauto].
  cbn in H. destruct H as [H|[= <-]]; auto. eapply G; eauto.
Qed.
Ltac inv_bind H :=
  repeat match type of H with
         | bind ?m _ = Ok _ => let x := fresh "x" in let Hx := fresh "Hx" in
                               apply bind_Ok in H; destruct H as (x & Hx & H)
         end.
Lemma connect_good g i e l : connect_elem g i e = Ok l -> good g l.
Proof.
  intros H. unfold connect_elem, connect_side in H.
  destruct (e_kind e);
  repeat (inv_bind H; try match type of H with
          | (if ?b then _ else _) = _ => destruct b
          | (match ?b with Some _ => _ | None => _ end) = _ => destruct b
          end);
  repeat match goal with X : (match ?b with Some _ => _ | None => _ end) = Ok _ |- _ =>
           destruct b; inv_bind X end;
  repeat match goal with X : Ok _ = Ok _ |- _ => injection X as <- end;
  repeat match goal with X : get_node _ _ _ _ = Ok _ |- _ => apply get_node_in in X end;
  repeat match goal with |- context [if ?b then _ else _] => destruct b end;
  repeat first [apply good_next; [assumption|] | apply good_branch; [assumption|]]; apply good_none.
Qed.
Lemma connect_closed g ls : connect_nodes g = Ok ls -> closed_links g ls.
Proof.
  unfold connect_nodes. assert (H : forall es i ls, connect_from g i es = Ok ls -> Forall (good g) ls).
  { induction es as [|e es IH]; intros i ls'; cbn [connect_from].
    - intros [= <-]. constructor.
    - intros H. inv_bind H. injection H as <-. constructor; [eapply connect_good; eauto|eauto]. }
  intros C. apply H in C. intros n m X. unfold next_node, branch_node in X.
  destruct (nth_error ls (fst n)) as [l|] eqn:N; [|destruct X; discriminate].
  apply nth_error_In in N. rewrite Forall_forall in C. eapply C; eauto.
Qed.

Section PATH.
  Variables (g : graph) (ls : list links) (course : list decision).
  Hypothesis CL : closed_links g ls.

  Lemma drives_on_fun way a b c : drives_on g ls course way a b -> drives_on g ls course way a c -> b = c.
  Proof.
    unfold drives_on. destruct (branch_node ls a); [|congruence].
    intros [[H ->]|[H ->]] [[K ->]|[K ->]]; congruence.
  Qed.
  Lemma drives_on_in way a m : drives_on g ls course way a (Some m) -> fst m < List.length (g_elems g).
  Proof.
    unfold drives_on. destruct (branch_node ls a) as [c|] eqn:B.
    - intros [[_ H]|[_ H]]; apply CL with a; [left|right]; congruence.
    - intros H. apply CL with a. left. congruence.
  Qed.
  (* only the number of decisions taken so far matters, up to the length of the course *)
  Lemma drives_on_way w1 w2 a b :
    Nat.min (decisions g w1) (List.length course) = Nat.min (decisions g w2) (List.length course) ->
    drives_on g ls course w1 a b -> drives_on g ls course w2 a b.
  Proof.
    intros M. unfold drives_on. destruct (branch_node ls a); [|auto].
    assert (N : nth_error course (decisions g w1) = nth_error course (decisions g w2)).
    { destruct (Nat.lt_ge_cases (decisions g w1) (List.length course)).
      - assert (decisions g w1 = decisions g w2) by lia. congruence.
      - rewrite (proj2 (nth_error_None course (decisions g w1))) by lia.
        symmetry. apply nth_error_None. lia. }
    rewrite N. auto.
  Qed.

  Lemma decisions_snoc w a : decisions g (w ++ [a]) = decisions g w + (if takes_decision g a then 1 else 0).
  Proof. unfold decisions. rewrite filter_app, app_length. cbn. destruct (takes_decision g a); reflexivity. Qed.

  (* ---- outcomes of the search ---- *)
  (* p: nodes from a on, way: nodes before *)
  Definition leg (way : list node) (a : node) (p : list node) : Prop :=
    hd_error p = Some a /\
    forall i x y, nth_error p i = Some x -> nth_error p (S i) = Some y ->
      drives_on g ls course (way ++ firstn i p) x (Some y).

  Lemma leg_cons way a b p : drives_on g ls course way a (Some b) -> leg (way ++ [a]) b p -> leg way a (a :: p).
  Proof.
    intros D [H L]. split; [reflexivity|]. intros i x y. destruct i as [|i]; cbn.
    - intros [= <-]. destruct p as [|z p]; cbn in H |- *; [discriminate|]. intros [= <-]. injection H as ->.
      rewrite app_nil_r. exact D.
    - intros X Y. specialize (L i x y X Y). rewrite <- app_assoc in L. exact L.
  Qed.
  Lemma leg_one way a : leg way a [a].
  Proof. split; [reflexivity|]. intros i x y _. destruct i as [|[|i]]; cbn; discriminate. Qed.

  Definition ends_badly (b : node) (way : list node) (a : node) (bad : list node -> node -> Prop) : Prop :=
    exists p x, leg way a (p ++ [x]) /\ ~ In b (p ++ [x]) /\ bad (way ++ p) x.
  Definition dead_end (way : list node) (x : node) : Prop := drives_on g ls course way x None.
  Definition no_advice (way : list node) (x : node) : Prop :=
    branch_node ls x <> None /\ List.length course <= decisions g way.

  Lemma get_path_spec b fuel : forall way a, fst a < List.length (g_elems g) ->
    match get_path fuel g ls course (decisions g way) (Some a) b with
    | Ok p => leg way a p /\ (forall i, nth_error p i = Some b <-> S i = List.length p)
    | Throw => ends_badly b way a dead_end
    | UB => ends_badly b way a no_advice
    | Fuel => exists p, List.length p = fuel /\ (0 < fuel -> leg way a p) /\ ~ In b p
    end.
  Proof.
    induction fuel as [|fuel IH]; intros way a L; cbn [get_path].
    { exists []. repeat split; auto; lia. }
    destruct (node_eqb a b) eqn:E.
    { apply node_eqb_eq in E. subst b. split; [apply leg_one|].
      intros [|i]; cbn; [tauto|]. split; [destruct i; discriminate|lia]. }
    apply node_eqb_ne in E.
    assert (Ge : exists e, nth_error (g_elems g) (fst a) = Some e).
    { apply nth_error_Some in L. destruct (nth_error (g_elems g) (fst a)); [eauto|congruence]. }
    destruct Ge as (e & Ge). unfold get_e. rewrite Ge. cbn [bind].
    assert (Ni : forall p, ~ In b p -> ~ In b (a :: p)) by (intros p N [X|X]; congruence || tauto).
    assert (Nx : forall x, (forall m, x = Some m -> fst m < List.length (g_elems g)) -> drives_on g ls course way a x ->
      match (do r <- get_path fuel g ls course (if is_switch e then S (decisions g way) else decisions g way) x b; Ok (a :: r)) with
      | Ok p => leg way a p /\ (forall i, nth_error p i = Some b <-> S i = List.length p)
      | Throw => ends_badly b way a dead_end
      | UB => ends_badly b way a no_advice
      | Fuel => exists p, List.length p = S fuel /\ (0 < S fuel -> leg way a p) /\ ~ In b p
      end).
    { intros x Lx D. destruct x as [m|].
      - specialize (IH (way ++ [a]) m (Lx m eq_refl)). rewrite decisions_snoc, (is_switch_takes g a e Ge) in IH.
        replace (decisions g way + (if is_switch e then 1 else 0))
          with (if is_switch e then S (decisions g way) else decisions g way) in IH by (destruct (is_switch e); lia).
        destruct (get_path fuel g ls course _ (Some m) b) as [p| | |]; cbn [bind].
        + destruct IH as [H1 H2]. split; [eapply leg_cons; eauto|]. intros [|i]; cbn.
          * split; [intros [= X]; congruence|]. intros X. destruct p; [|discriminate X]. destruct H1 as [H1 _]. discriminate H1.
          * rewrite H2. split; [intros ->; reflexivity|intros [= ->]; reflexivity].
        + destruct IH as (p & z & H1 & H2 & H3). exists (a :: p), z. split; [eapply leg_cons; eauto|]. split; [apply Ni, H2|].
          rewrite <- app_assoc in H3. exact H3.
        + destruct IH as (p & z & H1 & H2 & H3). exists (a :: p), z. split; [eapply leg_cons; eauto|]. split; [apply Ni, H2|].
          rewrite <- app_assoc in H3. exact H3.
        + destruct IH as (p & H1 & H2 & H3). exists (a :: p). cbn. split; [congruence|]. split; [|apply Ni, H3].
          intros _. destruct fuel as [|f].
          * destruct p; [apply leg_one|discriminate].
          * eapply leg_cons; eauto. apply H2. lia.
      - destruct fuel as [|f]; cbn [get_path bind].
        + exists [a]. split; [reflexivity|]. split; [intros _; apply leg_one|]. intros [X|[]]. congruence.
        + exists [], a. split; [apply leg_one|]. split; [intros [X|[]]; congruence|]. rewrite app_nil_r. exact D. }
    unfold drives_on in Nx. destruct (branch_node ls a) as [c|] eqn:B.
    - destruct (nth_error course (decisions g way)) as [[|]|] eqn:K; cbn [bind].
      + apply Nx; [|auto]. intros m X. apply CL with a. left. exact X.
      + apply Nx; [|auto]. intros m [= <-]. apply CL with a. right. exact B.
      + exists [], a. split; [apply leg_one|]. split; [intros [X|[]]; congruence|]. rewrite app_nil_r.
        split; [congruence|]. apply nth_error_None. exact K.
    - cbn [bind]. apply Nx; [|auto]. intros m X. apply CL with a. left. exact X.
  Qed.

  (* ---- enough fuel ---- *)
  Definition state (p : list node) (i : nat) : option (node * nat) :=
    match nth_error p i with
    | Some x => Some (x, Nat.min (decisions g (firstn i p)) (List.length course))
    | None => None
    end.
  Definition all_states : list (node * nat) :=
    list_prod (list_prod (seq 0 (List.length (g_elems g))) [Top; Bot; Lft; Rgt])
              (seq 0 (S (List.length course))).
  Lemma all_states_length : S (List.length all_states) = path_fuel g course.
  Proof. unfold all_states, path_fuel. rewrite !prod_length, !seq_length. cbn [List.length]. lia. Qed.
  Lemma in_states (x : node) k : fst x < List.length (g_elems g) -> k <= List.length course ->
    In (x, k) all_states.
  Proof.
    intros L K. unfold all_states. apply in_prod; [|apply in_seq; lia]. destruct x as [i s].
    apply in_prod; [apply in_seq; cbn in L; lia|]. destruct s; cbn; auto.
  Qed.

  Lemma firstn_snoc {A} (p : list A) i x : nth_error p i = Some x -> firstn (S i) p = firstn i p ++ [x].
  Proof.
    revert i. induction p as [|y p IH]; intros [|i]; try discriminate.
    - intros [= ->]. reflexivity.
    - intros H. cbn [firstn app]. f_equal. apply IH, H.
  Qed.

  Lemma drive_in a p i x : fst a < List.length (g_elems g) -> drive g ls course a p ->
    nth_error p i = Some x -> fst x < List.length (g_elems g).
  Proof.
    intros L [H D]. destruct i as [|i]; intros N.
    - destruct p; [discriminate|]. cbn in H, N. congruence.
    - destruct (nth_error p i) as [y|] eqn:Y.
      + eapply drives_on_in. eapply D; eauto.
      + apply nth_error_None in Y. assert (nth_error p (S i) = None) by (apply nth_error_None; lia). congruence.
  Qed.

  Lemma state_step a p i j : drive g ls course a p -> state p i = state p j -> state p i <> None ->
    S j < List.length p -> i < j -> state p (S i) = state p (S j).
  Proof.
    intros [H D] E NN L1 L2. unfold state in E, NN.
    destruct (nth_error p i) as [x|] eqn:X; [|congruence].
    destruct (nth_error p j) as [y|] eqn:Y; [|discriminate]. injection E as <- M.
    assert (Ex : exists u, nth_error p (S i) = Some u).
    { destruct (nth_error p (S i)) eqn:U; [eauto|]. apply nth_error_None in U. lia. }
    assert (Ev : exists v, nth_error p (S j) = Some v).
    { destruct (nth_error p (S j)) eqn:U; [eauto|]. apply nth_error_None in U. lia. }
    destruct Ex as (u & U), Ev as (v & V).
    pose proof (D i x u X U) as D1. pose proof (D j x v Y V) as D2.
    assert (u = v).
    { enough (Some u = Some v) by congruence. eapply drives_on_fun; [|exact D2]. eapply drives_on_way; eauto. }
    subst v. unfold state. rewrite U, V. f_equal. f_equal.
    rewrite (firstn_snoc p i x X), (firstn_snoc p j x Y), !decisions_snoc. destruct (takes_decision g x); lia.
  Qed.

  Lemma state_shift a p i j t : drive g ls course a p -> state p i = state p j -> i < j ->
    j + t < List.length p -> state p (i + t) = state p (j + t).
  Proof.
    intros D E L. induction t as [|t IH]; intros B.
    - rewrite !Nat.add_0_r. exact E.
    - rewrite !Nat.add_succ_r. eapply state_step; eauto; try lia.
      + apply IH. lia.
      + unfold state. destruct (nth_error p (i + t)) eqn:X; [discriminate|]. apply nth_error_None in X. lia.
  Qed.

  Lemma nth_error_snoc {A} (p : list A) y i : nth_error (p ++ [y]) i =
    if i <? List.length p then nth_error p i else if i =? List.length p then Some y else None.
  Proof.
    destruct (Nat.ltb_spec i (List.length p)).
    - apply nth_error_app1. auto.
    - rewrite nth_error_app2 by auto. destruct (Nat.eqb_spec i (List.length p)) as [->|N].
      + rewrite Nat.sub_diag. reflexivity.
      + apply nth_error_None. cbn. lia.
  Qed.

  Lemma drive_snoc a p x y : drive g ls course a (p ++ [x]) -> drives_on g ls course p x (Some y) ->
    drive g ls course a (p ++ [x; y]).
  Proof.
    intros [H D] O. split.
    - destruct p; exact H.
    - intros i u v U V.
      replace (p ++ [x; y]) with ((p ++ [x]) ++ [y]) in * by (rewrite <- app_assoc; reflexivity).
      rewrite nth_error_snoc in U. rewrite nth_error_snoc in V. rewrite app_length in U, V. cbn [List.length] in U, V.
      destruct (Nat.ltb_spec (S i) (List.length p + 1)).
      + destruct (Nat.ltb_spec i (List.length p + 1)); [|lia].
        replace (firstn i ((p ++ [x]) ++ [y])) with (firstn i (p ++ [x])); [eapply D; eauto|].
        rewrite (firstn_app i (p ++ [x]) [y]), app_length. cbn [List.length].
        replace (i - (List.length p + 1)) with 0 by lia. cbn [firstn]. rewrite app_nil_r. reflexivity.
      + destruct (Nat.eqb_spec (S i) (List.length p + 1)); [|discriminate]. injection V as <-.
        assert (i = List.length p) by lia. subst i.
        destruct (Nat.ltb_spec (List.length p) (List.length p + 1)); [|lia].
        rewrite nth_error_app2 in U by lia. rewrite Nat.sub_diag in U. injection U as <-.
        rewrite <- app_assoc, firstn_app, Nat.sub_diag, firstn_all. cbn. rewrite app_nil_r. exact O.
  Qed.

  (* a drive that repeats a state can be prolonged *)
  Lemma prolong a b p i j : drive g ls course a p -> ~ In b p -> state p i = state p j -> i < j ->
    j < List.length p -> exists y, drive g ls course a (p ++ [y]) /\ ~ In b (p ++ [y]) /\
      state (p ++ [y]) i = state (p ++ [y]) j.
  Proof.
    intros D N E L1 L2. destruct p as [|x0 p0 _] using rev_ind; [cbn in L2; lia|].
    rename x0 into x, p0 into p. rewrite app_length in L2. cbn in L2.
    assert (Sh : state (p ++ [x]) (i + (List.length p - j)) = state (p ++ [x]) (List.length p)).
    { replace (List.length p) with (j + (List.length p - j)) at 2 by lia.
      eapply state_shift; eauto. rewrite app_length. cbn. lia. }
    set (k := i + (List.length p - j)) in *. assert (Lk : k < List.length p) by lia.
    unfold state in Sh. rewrite (nth_error_snoc p x (List.length p)), Nat.ltb_irrefl, Nat.eqb_refl in Sh.
    destruct (nth_error (p ++ [x]) k) as [z|] eqn:Z; [|discriminate]. injection Sh as -> M.
    destruct (nth_error (p ++ [x]) (S k)) as [y|] eqn:Y; [|apply nth_error_None in Y; rewrite app_length in Y; cbn in Y; lia].
    assert (O : drives_on g ls course (firstn k (p ++ [x])) x (Some y)) by (eapply D; eauto).
    rewrite (firstn_app (List.length p)), Nat.sub_diag, firstn_all in M. cbn [firstn] in M. rewrite app_nil_r in M.
    exists y. rewrite <- app_assoc. split; [|split].
    - apply drive_snoc; [exact D|]. eapply drives_on_way; eauto.
    - intros X. apply N. apply nth_error_In in Y. rewrite in_app_iff in *. cbn in *. intuition (subst; auto).
    - assert (K : forall t, t < S (List.length p) -> state (p ++ [x; y]) t = state (p ++ [x]) t).
      { intros t Lt. replace (p ++ [x; y]) with ((p ++ [x]) ++ [y]) by (rewrite <- app_assoc; reflexivity).
        unfold state. rewrite nth_error_app1 by (rewrite app_length; cbn; lia).
        rewrite (firstn_app t (p ++ [x]) [y]), app_length. cbn [List.length].
        replace (t - (List.length p + 1)) with 0 by lia. cbn [firstn]. rewrite app_nil_r. reflexivity. }
      cbn. rewrite !K by lia. exact E.
  Qed.

  Lemma repeats a p : fst a < List.length (g_elems g) -> drive g ls course a p ->
    List.length all_states < List.length p ->
    exists i j, i < j /\ j < List.length p /\ state p i = state p j.
  Proof.
    intros L D B.
    set (sts := map (state p) (seq 0 (List.length p))).
    assert (Inc : incl sts (map Some all_states)).
    { intros s H. apply in_map_iff in H. destruct H as (i & <- & H). apply in_seq in H. unfold state.
      destruct (nth_error p i) as [x|] eqn:X; [|apply nth_error_None in X; lia].
      apply in_map, in_states; [eapply drive_in; eauto|lia]. }
    assert (Dup : ~ NoDup sts).
    { intros ND. apply (NoDup_incl_length ND) in Inc. unfold sts in Inc. rewrite !map_length, seq_length in Inc. lia. }
    assert (Dec : forall x y : option (node * nat), {x = y} + {x <> y}).
    { intros [[x n]|] [[y m]|]; try (right; congruence); [|left; reflexivity].
      destruct (node_dec x y) as [->|]; [|right; congruence].
      destruct (Nat.eq_dec n m) as [->|]; [left; reflexivity|right; congruence]. }
    assert (Gen : forall f n s, ~ NoDup (map f (seq s n)) -> exists i j, i < j /\ j < s + n /\ @eq (option (node*nat)) (f i) (f j)).
    { intros f. induction n as [|n IH]; intros s H; cbn in H; [destruct H; constructor|].
      destruct (in_dec Dec (f s) (map f (seq (S s) n))) as [I|I].
      - apply in_map_iff in I. destruct I as (j & E & I). apply in_seq in I. exists s, j. repeat split; auto; lia.
      - destruct (IH (S s)) as (i & j & A1 & A2 & A3).
        { intros ND. apply H. constructor; auto. }
        exists i, j. repeat split; auto; lia. }
    destruct (Gen (state p) (List.length p) 0 Dup) as (i & j & A1 & A2 & A3). exists i, j. auto.
  Qed.

  Lemma endless a b p : fst a < List.length (g_elems g) -> drive g ls course a p -> ~ In b p ->
    path_fuel g course <= List.length p ->
    forall n, exists q, List.length q = List.length p + n /\ drive g ls course a q /\ ~ In b q.
  Proof.
    intros L D N B. rewrite <- all_states_length in B.
    destruct (repeats a p L D B) as (i & j & A1 & A2 & A3).
    enough (forall n, exists q, List.length q = List.length p + n /\ drive g ls course a q /\ ~ In b q /\ state q i = state q j) as H.
    { intros n. destruct (H n) as (q & H1 & H2 & H3 & _). eauto. }
    induction n as [|n (q & H1 & H2 & H3 & H4)].
    - exists p. split; [lia|auto].
    - destruct (prolong a b q i j H2 H3 H4 A1 ltac:(lia)) as (y & Y1 & Y2 & Y3).
      exists (q ++ [y]). rewrite app_length. cbn. split; [lia|auto].
  Qed.

  (* a prefix of a drive is a drive *)
  Lemma drive_firstn a p n : 0 < n -> drive g ls course a p -> drive g ls course a (firstn n p).
  Proof.
    intros L [H D]. split.
    - destruct p; [discriminate|]. destruct n; [lia|]. exact H.
    - intros i x y X Y.
      assert (forall k z, nth_error (firstn n p) k = Some z -> nth_error p k = Some z /\ k < n) as F.
      { intros k z K. assert (k < n).
        { assert (k < List.length (firstn n p)) by (apply nth_error_Some; congruence). rewrite firstn_length in H0. lia. }
        split; [|auto]. rewrite <- K. clear -H0. revert n k H0. induction p as [|z p IH]; intros [|n] [|k] H; cbn; try lia; auto.
        apply IH. lia. }
      apply F in X, Y. rewrite firstn_firstn. replace (Nat.min i n) with i by lia. eapply D; tauto.
  Qed.
  (* two drives agree as far as both go *)
  Lemma drive_agree a p q : drive g ls course a p -> drive g ls course a q ->
    forall n, n <= List.length p -> n <= List.length q -> firstn n p = firstn n q.
  Proof.
    intros [H1 D1] [H2 D2]. induction n as [|n IH]; intros L1 L2; [reflexivity|].
    specialize (IH ltac:(lia) ltac:(lia)).
    destruct (nth_error p n) as [x|] eqn:X; [|apply nth_error_None in X; lia].
    destruct (nth_error q n) as [y|] eqn:Y; [|apply nth_error_None in Y; lia].
    rewrite (firstn_snoc p n x X), (firstn_snoc q n y Y), IH. f_equal. f_equal.
    destruct n as [|n].
    - destruct p, q; try discriminate. cbn in *. congruence.
    - destruct (nth_error p n) as [u|] eqn:U; [|apply nth_error_None in U; lia].
      destruct (nth_error q n) as [v|] eqn:V; [|apply nth_error_None in V; lia].
      rewrite (firstn_snoc p n u U), (firstn_snoc q n v V) in IH. apply app_inj_tail in IH. destruct IH as [IH ->].
      specialize (D1 n v x U X). specialize (D2 n v y V Y). rewrite IH in D1.
      assert (Some x = Some y) by (eapply drives_on_fun; eauto). congruence.
  Qed.
End PATH.

Lemma leg_drive g ls course a p : leg g ls course [] a p <-> drive g ls course a p.
Proof. reflexivity. Qed.

(* ---- the outcome of the search ---- *)
Lemma path_outcome g ls course a b : closed_links g ls -> fst a < List.length (g_elems g) ->
  match get_path (path_fuel g course) g ls course 0 (Some a) b with
  | Ok p => drive_to g ls course a b p
  | Throw => exists p x, drive g ls course a (p ++ [x]) /\ ~ In b (p ++ [x]) /\
                         drives_on g ls course p x None
  | UB => exists p x, drive g ls course a (p ++ [x]) /\ ~ In b (p ++ [x]) /\
                      branch_node ls x <> None /\ nth_error course (decisions g p) = None
  | Fuel => forall n, exists p, List.length p = S n /\ drive g ls course a p /\ ~ In b p
  end.
Proof.
  intros CL L. pose proof (get_path_spec g ls course CL b (path_fuel g course) [] a L) as H.
  cbn [decisions filter List.length] in H. change (decisions g []) with 0 in H.
  destruct (get_path (path_fuel g course) g ls course 0 (Some a) b) as [p| | |].
  - destruct H as [H1 H2]. split; auto.
  - destruct H as (p & x & H1 & H2 & H3). exists p, x. auto.
  - destruct H as (p & x & H1 & H2 & H3 & H4). exists p, x. split; [exact H1|]. split; [exact H2|]. split; [exact H3|].
    apply nth_error_None. exact H4.
  - destruct H as (p & H1 & H2 & H3). intros n.
    assert (D : drive g ls course a p) by (apply H2; unfold path_fuel; lia).
    destruct (endless g ls course CL a b p L D H3 ltac:(lia) (S n)) as (q & Q1 & Q2 & Q3).
    exists (firstn (S n) q). split; [rewrite firstn_length; lia|]. split; [apply drive_firstn; [lia|exact Q2]|].
    intros X. apply Q3. revert X. clear. generalize (S n). intros m. revert q. induction m as [|m IH]; intros [|z q]; cbn; tauto || firstorder.
Qed.

Lemma drive_to_unique g ls course a b p q : drive_to g ls course a b p -> drive_to g ls course a b q -> p = q.
Proof.
  intros [D1 L1] [D2 L2].
  assert (W : forall p q, drive g ls course a p -> drive g ls course a q ->
     (forall i, nth_error p i = Some b <-> S i = List.length p) ->
     (forall i, nth_error q i = Some b <-> S i = List.length q) -> List.length p <= List.length q -> p = q).
  { clear. intros p q D1 D2 L1 L2 L.
    pose proof (drive_agree g ls course a p q D1 D2 (List.length p) ltac:(lia) L) as A.
    rewrite firstn_all in A. destruct (Nat.eq_dec (List.length p) (List.length q)) as [E|E].
    - rewrite E, firstn_all in A. exact A.
    - exfalso. destruct p as [|x p]; [destruct D1; discriminate|].
      assert (X : nth_error (x :: p) (List.length p) = Some b) by (apply L1; reflexivity).
      rewrite A in X. assert (Y : nth_error q (List.length p) = Some b).
      { clear -X. revert X. cbn [List.length]. generalize (List.length p). intros n. revert q.
        induction n as [|n IH]; intros [|z q]; cbn; auto. }
      apply L2 in Y. cbn in *. lia. }
  destruct (Nat.le_ge_cases (List.length p) (List.length q)); [apply W|symmetry; apply W]; auto.
Qed.

(* a drive to b is longer than every drive avoiding b *)
Lemma drive_to_longer g ls course a b p q : drive_to g ls course a b p -> drive g ls course a q ->
  ~ In b q -> List.length q < List.length p.
Proof.
  intros [D1 L1] D2 N. destruct (Nat.lt_ge_cases (List.length q) (List.length p)) as [|L]; [auto|exfalso].
  pose proof (drive_agree g ls course a p q D1 D2 (List.length p) ltac:(lia) L) as A. rewrite firstn_all in A.
  apply N. destruct p as [|x p]; [destruct D1; discriminate|].
  assert (X : nth_error (x :: p) (List.length p) = Some b) by (apply L1; reflexivity).
  rewrite A in X. apply nth_error_In in X. revert X. clear. cbn [List.length]. generalize (S (List.length p)). intros m.
  revert q. induction m as [|m IH]; intros [|z q]; cbn; tauto || firstorder.
Qed.

Lemma path_complete g ls course a b p : closed_links g ls -> fst a < List.length (g_elems g) ->
  drive_to g ls course a b p -> get_path (path_fuel g course) g ls course 0 (Some a) b = Ok p.
Proof.
  intros CL L D. pose proof (path_outcome g ls course a b CL L) as H.
  destruct (get_path (path_fuel g course) g ls course 0 (Some a) b) as [q| | |].
  - f_equal. eapply drive_to_unique; eauto.
  - exfalso. destruct H as (q & x & D1 & N & O). pose proof (drive_to_longer g ls course a b p _ D D1 N) as Lg.
    destruct D as [D _]. pose proof (drive_agree g ls course a _ _ D D1 (List.length (q ++ [x])) ltac:(lia) (le_n _)) as A.
    rewrite firstn_all in A. rewrite app_length in *. cbn in *.
    destruct (nth_error p (List.length q + 1)) as [y|] eqn:Y; [|apply nth_error_None in Y; lia].
    destruct D as [_ D]. rewrite Nat.add_1_r in *.
    assert (X : nth_error p (List.length q) = Some x).
    { destruct (nth_error p (List.length q)) as [z|] eqn:Z; [|apply nth_error_None in Z; lia].
      rewrite (firstn_snoc _ _ _ Z) in A. apply app_inj_tail in A. destruct A as [_ ->]. reflexivity. }
    specialize (D _ _ _ X Y). rewrite (firstn_snoc _ _ _ X) in A. apply app_inj_tail in A. destruct A as [A _].
    rewrite A in D. pose proof (drives_on_fun g ls course _ _ _ _ O D). discriminate.
  - exfalso. destruct H as (q & x & D1 & N & B & O). pose proof (drive_to_longer g ls course a b p _ D D1 N) as Lg.
    destruct D as [D _]. pose proof (drive_agree g ls course a _ _ D D1 (List.length (q ++ [x])) ltac:(lia) (le_n _)) as A.
    rewrite firstn_all in A. rewrite app_length in *. cbn in *.
    destruct (nth_error p (List.length q + 1)) as [y|] eqn:Y; [|apply nth_error_None in Y; lia].
    destruct D as [_ D]. rewrite Nat.add_1_r in *.
    assert (X : nth_error p (List.length q) = Some x).
    { destruct (nth_error p (List.length q)) as [z|] eqn:Z; [|apply nth_error_None in Z; lia].
      rewrite (firstn_snoc _ _ _ Z) in A. apply app_inj_tail in A. destruct A as [_ ->]. reflexivity. }
    specialize (D _ _ _ X Y). rewrite (firstn_snoc _ _ _ X) in A. apply app_inj_tail in A. destruct A as [A _].
    rewrite A in D. unfold drives_on in D. destruct (branch_node ls x); [|congruence].
    destruct D as [[D _]|[D _]]; congruence.
  - exfalso. destruct (H (List.length p)) as (q & Q1 & Q2 & Q3).
    pose proof (drive_to_longer g ls course a b p q D Q2 Q3). lia.
Qed.
Lemma path_ok g ls course a b p : closed_links g ls -> fst a < List.length (g_elems g) ->
  get_path (path_fuel g course) g ls course 0 (Some a) b = Ok p -> drive_to g ls course a b p.
Proof. intros CL L H. pose proof (path_outcome g ls course a b CL L) as P. rewrite H in P. exact P. Qed.
