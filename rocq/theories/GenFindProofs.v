From Coq Require Import String List ZArith QArith Bool Lia Lqa.
From Verif Require Import Base GenOsmModel GenFindModel GenFindSpec GenOsmProofs.
Import ListNotations.
Local Open Scope list_scope.
Local Open Scope nat_scope.

Lemma get_node_of o id n : get_node_by_id o id = Some n <-> node_of o id n.
Proof.
  unfold get_node_by_id, node_of. generalize (o_nodes o) as l. induction l as [|m l IH]; cbn [get_node].
  - split; [discriminate|]. intros (pre & post & H & _). destruct pre; discriminate.
  - destruct (String.eqb_spec (n_id m) id) as [E|E].
    + split.
      * intros H. injection H as ->. exists [], l. repeat split; [exact E|constructor].
      * intros (pre & post & H & Hn & Hp). destruct pre as [|x pre]; cbn [app] in H; injection H as -> ->; [reflexivity|].
        inversion Hp. contradiction.
    + rewrite IH. split.
      * intros (pre & post & -> & Hn & Hp). exists (m :: pre), post. repeat split; [exact Hn|constructor; assumption].
      * intros (pre & post & H & Hn & Hp). destruct pre as [|x pre]; cbn [app] in H; injection H as -> ->; [contradiction|].
        inversion Hp. exists pre, post. auto.
Qed.
Lemma get_node_id o id n : get_node_by_id o id = Some n -> n_id n = id.
Proof. intros H. apply get_node_of in H. destruct H as (? & ? & _ & H & _). exact H. Qed.

Lemma at_ok nds i s : at_ nds i = Ok s <-> nth_error nds i = Some s.
Proof. unfold at_. destruct (nth_error nds i); split; congruence. Qed.
Lemma first_ref_ok nds s : first_ref nds = Ok s <-> nth_error nds 0 = Some s.
Proof. apply at_ok. Qed.
Lemma last_ref_ok nds s : last_ref nds = Ok s <-> nth_error nds (List.length nds - 1) = Some s.
Proof.
  unfold last_ref. destruct (Nat.ltb_spec (List.length nds) 1) as [H|H]; [|apply at_ok].
  destruct nds; [split; discriminate|cbn in H; lia].
Qed.

(* ---- neighbours ---- *)
Lemma nth_next nds i a b : nth_error nds i = Some a -> nth_error nds (S i) = Some b -> next_in nds a b.
Proof.
  intros Ha Hb. apply nth_error_split in Ha. destruct Ha as (pre & post & -> & Hl).
  rewrite nth_error_app2 in Hb by lia. replace (S i - List.length pre) with 1 in Hb by lia. cbn [nth_error] in Hb.
  destruct post as [|c post]; [discriminate|]. cbn in Hb. injection Hb as ->. exists pre, post. now left.
Qed.
Lemma next_in_sym nds a b : next_in nds a b -> next_in nds b a.
Proof. intros (pre & post & [H|H]); exists pre, post; tauto. Qed.

(* ---- which ways pass a node ---- *)
Lemma existsb_in l id : existsb (fun x => String.eqb x id) l = true <-> In id l.
Proof.
  rewrite existsb_exists. split; [intros (x & H & E); apply String.eqb_eq in E; now subst|].
  intros H. exists id. split; [exact H|apply String.eqb_refl].
Qed.
Fixpoint places_from (k : nat) (id : string) (l : list way) : list nat :=
  match l with
  | [] => []
  | w :: l => if existsb (fun x => String.eqb x id) (w_nd w) then k :: places_from (S k) id l else places_from (S k) id l
  end.
Lemma places_spec id l : forall k i, In i (places_from k id l) <-> k <= i /\ exists w, nth_error l (i - k) = Some w /\ In id (w_nd w).
Proof.
  induction l as [|w l IH]; intros k i; cbn [places_from].
  - split; [intros []|]. intros (_ & w & H & _). destruct (i - k); discriminate.
  - assert (Hin : In i (if existsb (fun x => String.eqb x id) (w_nd w) then k :: places_from (S k) id l else places_from (S k) id l) <->
        (i = k /\ In id (w_nd w)) \/ In i (places_from (S k) id l)).
    { destruct (existsb (fun x => String.eqb x id) (w_nd w)) eqn:E.
      - apply existsb_in in E. cbn [In]. split; [intros [->|H]; auto|intros [[-> _]|H]; auto].
      - split; [auto|]. intros [[_ H]|H]; [|exact H]. apply existsb_in in H. congruence. }
    rewrite Hin, IH. split.
    + intros [[-> H]|(Hk & w' & Hn & H)].
      * split; [lia|]. exists w. rewrite Nat.sub_diag. auto.
      * split; [lia|]. exists w'. replace (i - k) with (S (i - S k)) by lia. auto.
    + intros (Hk & w' & Hn & H). destruct (Nat.eq_dec i k) as [->|E].
      * rewrite Nat.sub_diag in Hn. cbn in Hn. injection Hn as ->. auto.
      * right. split; [lia|]. exists w'. replace (i - k) with (S (i - S k)) in Hn by lia. auto.
Qed.
Lemma places_nodup id l : forall k, NoDup (places_from k id l).
Proof.
  induction l as [|w l IH]; intros k; cbn [places_from]; [constructor|].
  destruct (existsb _ _); [|apply IH]. constructor; [|apply IH]. intros H. apply places_spec in H. lia.
Qed.
Lemma places_length id l : forall k, List.length (places_from k id l) = List.length (filter (fun w => existsb (fun x => String.eqb x id) (w_nd w)) l).
Proof.
  induction l as [|w l IH]; intros k; cbn [places_from filter]; [reflexivity|].
  destruct (existsb _ _); cbn [List.length]; rewrite IH; reflexivity.
Qed.
Lemma ways_through_filter o id : ways_through o id (List.length (find_ways_by_node_id o id)).
Proof.
  exists (places_from 0 id (o_ways o)). split; [apply places_nodup|]. split; [apply places_length|].
  intros i. rewrite places_spec, Nat.sub_0_r. split; [intros [_ H]; exact H|intros H; split; [lia|exact H]].
Qed.
Lemma filter_two {A} (f : A -> bool) l a b : filter f l = [a; b] ->
  exists i j, i < j /\ nth_error l i = Some a /\ nth_error l j = Some b /\ f a = true /\ f b = true /\
    forall k x, nth_error l k = Some x -> f x = true -> k = i \/ k = j.
Proof.
  intros H.
  assert (H1 : forall l c r, filter f l = c :: r -> exists l1 l2, l = l1 ++ c :: l2 /\ f c = true /\ filter f l1 = [] /\ filter f l2 = r).
  { clear. induction l as [|x l IH]; intros c r H; cbn [filter] in H; [discriminate|]. destruct (f x) eqn:E.
    - injection H as -> <-. exists [], l. auto.
    - destruct (IH c r H) as (l1 & l2 & -> & Hc & Hl & Hr). exists (x :: l1), l2. cbn [filter]. rewrite E. auto. }
  assert (H0 : forall l k x, filter f l = [] -> nth_error l k = Some x -> f x = true -> False).
  { clear. intros l k x H Hn Hx. assert (In x (filter f l)) by (apply filter_In; split; [eapply nth_error_In, Hn|exact Hx]). now rewrite H in *. }
  destruct (H1 l a [b] H) as (l1 & l2 & -> & Ha & Hl1 & Hl2). destruct (H1 l2 b [] Hl2) as (l3 & l4 & -> & Hb & Hl3 & Hl4).
  exists (List.length l1), (List.length l1 + S (List.length l3)). repeat split; try assumption.
  - lia.
  - rewrite nth_error_app2, Nat.sub_diag by lia. reflexivity.
  - rewrite nth_error_app2 by lia. replace (List.length l1 + S (List.length l3) - List.length l1) with (S (List.length l3)) by lia.
    cbn [nth_error]. rewrite nth_error_app2, Nat.sub_diag by lia. reflexivity.
  - intros k x Hk Hx. destruct (Nat.lt_ge_cases k (List.length l1)) as [L|L].
    { rewrite nth_error_app1 in Hk by lia. exfalso. exact (H0 l1 k x Hl1 Hk Hx). }
    rewrite nth_error_app2 in Hk by lia. destruct (k - List.length l1) as [|m] eqn:Em; [left; lia|]. cbn [nth_error] in Hk.
    destruct (Nat.lt_ge_cases m (List.length l3)) as [L'|L'].
    { rewrite nth_error_app1 in Hk by lia. exfalso. exact (H0 l3 m x Hl3 Hk Hx). }
    rewrite nth_error_app2 in Hk by lia. destruct (m - List.length l3) as [|q] eqn:Eq; [right; lia|]. cbn [nth_error] in Hk.
    exfalso. eapply H0; [exact Hl4|exact Hk|exact Hx].
Qed.
Lemma get_both_inl o id first second : get_both_correct_ways o id = inl (first, second) ->
  exists i j wi wj, i < j /\ nth_error (o_ways o) i = Some wi /\ nth_error (o_ways o) j = Some wj /\ w_nd wi = first /\ w_nd wj = second /\
    In id first /\ In id second /\ forall k w, nth_error (o_ways o) k = Some w -> In id (w_nd w) -> k = i \/ k = j.
Proof.
  unfold get_both_correct_ways. destruct (find_ways_by_node_id o id) as [|wi [|wj [|]]] eqn:E; cbn [map]; try discriminate.
  intros H. injection H as <- <-. unfold find_ways_by_node_id in E. apply filter_two in E.
  destruct E as (i & j & Hij & Hi & Hj & Fi & Fj & Hk). exists i, j, wi, wj. apply existsb_in in Fi. apply existsb_in in Fj.
  repeat split; try assumption. intros k w Hw Hin. eapply Hk; [exact Hw|]. now apply existsb_in.
Qed.
Lemma get_both_inr o id e : get_both_correct_ways o id = inr e ->
  match e with
  | EndReached => ways_through o id 1
  | JunctionReached => exists k, 2 < k /\ ways_through o id k
  | OtherErr => ways_through o id 0
  end.
Proof.
  unfold get_both_correct_ways. pose proof (ways_through_filter o id) as H.
  destruct (find_ways_by_node_id o id) as [|a [|b [|c l]]]; cbn [map List.length] in *; intros E; try discriminate; injection E as <-; try exact H.
  eexists. split; [|exact H]. lia.
Qed.

Lemma bind_Ok {A B} (m : res A) (f : A -> res B) b : bind m f = Ok b -> exists a, m = Ok a /\ f a = Ok b.
Proof. destruct m; cbn; intros H; try discriminate. eauto. Qed.

(* ---- the next way ---- *)
Definition enters (nds : list string) (i : nat) (up : bool) : Prop := if up then i = List.length nds - 1 else i = 0.
Ltac binds H := repeat (let v := fresh "v" in let Hv := fresh "Hv" in apply bind_Ok in H; destruct H as (v & Hv & H)).
Ltac eqbs := repeat match goal with
  | H : (_ && _)%bool = true |- _ => apply andb_prop in H; destruct H
  | H : String.eqb _ _ = true |- _ => apply String.eqb_eq in H
  end.
Lemma find_next_way_entry o up index running old nds i up' :
  find_next_way o up index running old = Ok (inl (nds, i, up')) ->
  (exists w, In w (o_ways o) /\ w_nd w = nds) /\ nth_error nds i = Some running /\ enters nds i up'.
Proof.
  unfold find_next_way. destruct (get_both_correct_ways o running) as [[first second]|e] eqn:Eg; [|discriminate].
  apply get_both_inl in Eg. destruct Eg as (a & b & wi & wj & Hab & Hi & Hj & Ef & Es & _).
  assert (Hf : exists w, In w (o_ways o) /\ w_nd w = first) by (exists wi; split; [eapply nth_error_In, Hi|exact Ef]).
  assert (Hs : exists w, In w (o_ways o) /\ w_nd w = second) by (exists wj; split; [eapply nth_error_In, Hj|exact Es]).
  clear a b wi wj Hab Hi Hj Ef Es. intros H.
  apply bind_Ok in H; destruct H as (f0 & Hf0 & H). apply bind_Ok in H; destruct H as (s0 & Hs0 & H).
  apply bind_Ok in H; destruct H as (fl & Hfl & H). apply bind_Ok in H; destruct H as (sl & Hsl & H).
  apply first_ref_ok in Hf0, Hs0. apply last_ref_ok in Hfl, Hsl.
  destruct old as [old|]; [|discriminate]. destruct (up && Nat.eqb index 0).
  - apply bind_Ok in H; destruct H as (f1 & Hf1 & H). apply bind_Ok in H; destruct H as (s1 & Hs1 & H).
    destruct (String.eqb f0 running && String.eqb f0 sl) eqn:E1; [|destruct (String.eqb s0 running && String.eqb s0 fl) eqn:E2;
      [|destruct (String.eqb f0 s0 && String.eqb f0 running && String.eqb f1 (n_id old)) eqn:E3;
        [|destruct (String.eqb f0 s0 && String.eqb s0 running && String.eqb s1 (n_id old)) eqn:E4; [|discriminate]]]];
      injection H as <- <- <-; eqbs; subst; (split; [assumption|]); (split; [congruence|reflexivity]).
  - apply bind_Ok in H; destruct H as (f1 & Hf1 & H). apply bind_Ok in H; destruct H as (s1 & Hs1 & H).
    destruct (String.eqb f0 running && String.eqb f0 sl) eqn:E1; [|destruct (String.eqb s0 running && String.eqb s0 fl) eqn:E2;
      [|destruct (String.eqb fl sl && String.eqb fl running && String.eqb f1 (n_id old)) eqn:E3;
        [|destruct (String.eqb fl sl && String.eqb sl running && String.eqb s1 (n_id old)) eqn:E4; [|discriminate]]]];
      injection H as <- <- <-; eqbs; subst; (split; [assumption|]); (split; [congruence|reflexivity]).
Qed.
Lemma find_next_way_stop o up index running old e : find_next_way o up index running old = Ok (inr e) ->
  match e with
  | EndReached => ways_through o running 1
  | JunctionReached => exists k, 2 < k /\ ways_through o running k
  | OtherErr => True
  end.
Proof.
  unfold find_next_way. destruct (get_both_correct_ways o running) as [[first second]|e'] eqn:Eg.
  - intros H. apply bind_Ok in H; destruct H as (f0 & _ & H). apply bind_Ok in H; destruct H as (s0 & _ & H).
    apply bind_Ok in H; destruct H as (fl & _ & H). apply bind_Ok in H; destruct H as (sl & _ & H).
    destruct old as [old|]; [|discriminate].
    destruct (up && Nat.eqb index 0); apply bind_Ok in H; destruct H as (f1 & _ & H); apply bind_Ok in H; destruct H as (s1 & _ & H);
    repeat (match type of H with (if ?c then _ else _) = _ => destruct c; [discriminate|] end); injection H as <-; exact I.
  - intros H. injection H as ->. apply get_both_inr in Eg. destruct e; auto.
Qed.

(* ---- walking ---- *)
Section Walk.
  Variable hav : node -> node -> Q.
  Variable o : osm.
  Variable dist : Q.

  Definition on_way (nds : list string) : Prop := exists w, In w (o_ways o) /\ w_nd w = nds.
  (* nodes i and i' are neighbours, i' in the direction *)
  Lemma next_ref_ok nds up index r i : next_ref nds up index = Ok (r, i) ->
    nth_error nds i = Some r /\ (if up then S i = index else i = S index).
  Proof.
    unfold next_ref. destruct up.
    - destruct index as [|k]; [discriminate|]. intros H. apply bind_Ok in H. destruct H as (s & Hs & H). injection H as <- <-.
      apply at_ok in Hs. auto.
    - intros H. apply bind_Ok in H. destruct H as (s & Hs & H). injection H as <- <-. apply at_ok in Hs. auto.
  Qed.
  Lemma next_neighbour nds up index r i a : nth_error nds index = Some a -> next_ref nds up index = Ok (r, i) -> next_in nds a r.
  Proof.
    intros Ha H. apply next_ref_ok in H. destruct H as [Hr Hi]. destruct up.
    - subst index. apply next_in_sym. eapply nth_next; eassumption.
    - subst i. eapply nth_next; eassumption.
  Qed.

  (* what a walk that has come to [visited] leads to; [behind] is what lies
     behind the start *)
  Definition outcome_at (r : went) (visited behind : list string) : Prop :=
    match r with
    | Reached id d => exists l, trail hav o dist l d /\ (exists l', l = l' ++ visited) /\ hd_error l = Some id /\
        (simple_ways o -> separate_ways o -> straight (l ++ behind)) /\ (dist <= d)%Q
    | Stopped id d j => exists l, trail hav o dist l d /\ (exists l', l = l' ++ visited) /\ hd_error l = Some id /\
        (simple_ways o -> separate_ways o -> straight (l ++ behind)) /\ (d < dist)%Q /\
        (if j then exists k, 2 < k /\ ways_through o id k else ways_through o id 1)
    | Failed => True
    end.
  Lemma outcome_mono r x visited behind : outcome_at r (x :: visited) behind -> outcome_at r visited behind.
  Proof.
    destruct r as [id d|id d j|]; cbn; [| |auto].
    - intros (l & Ht & (l' & ->) & H). exists (l' ++ x :: visited). split; [exact Ht|]. split; [|exact H].
      exists (l' ++ [x]). now rewrite <- app_assoc.
    - intros (l & Ht & (l' & ->) & H). exists (l' ++ x :: visited). split; [exact Ht|]. split; [|exact H].
      exists (l' ++ [x]). now rewrite <- app_assoc.
  Qed.
  Lemma Qle_bool_false a b : Qle_bool a b = false -> (b < a)%Q.
  Proof. intros H. apply Qnot_le_lt. intros H'. apply Qle_bool_iff in H'. congruence. Qed.

  (* the node behind *)
  Definition behind_at (nds : list string) (up : bool) (index : nat) (q : string) : Prop :=
    if up then nth_error nds (S index) = Some q else exists j, S j = index /\ nth_error nds j = Some q.
  Definition at_edge (nds : list string) (up : bool) (index : nat) : bool :=
    (up && Nat.eqb index 0) || (negb up && Nat.eqb (S index) (List.length nds)).
  Lemma behind_next nds up index a q : nth_error nds index = Some a -> behind_at nds up index q -> next_in nds q a.
  Proof.
    intros Ha H. destruct up; cbn [behind_at] in H.
    - apply next_in_sym. eapply nth_next; eassumption.
    - destruct H as (j & <- & Hj). eapply nth_next; eassumption.
  Qed.
  Lemma ends_differ (nds : list string) a b : NoDup nds -> 2 <= List.length nds -> nth_error nds 0 = Some a ->
    nth_error nds (List.length nds - 1) = Some b -> a <> b.
  Proof.
    intros Hnd Hl Ha Hb ->. rewrite <- Hb in Ha. apply (proj1 (NoDup_nth_error nds) Hnd) in Ha; lia.
  Qed.
  Lemma find_next_way_other p w up index running on nds i up' :
    simple_ways o -> separate_ways o -> nth_error (o_ways o) p = Some w -> nth_error (w_nd w) index = Some running ->
    at_edge (w_nd w) up index = true -> behind_at (w_nd w) up index (n_id on) ->
    find_next_way o up index running (Some on) = Ok (inl (nds, i, up')) ->
    exists p' w', p' <> p /\ nth_error (o_ways o) p' = Some w' /\ w_nd w' = nds.
  Proof.
    intros Hsim Hsep Hp Hr He Hb. unfold find_next_way.
    destruct (get_both_correct_ways o running) as [[first second]|e] eqn:Eg; [|discriminate].
    apply get_both_inl in Eg. destruct Eg as (a & b & wi & wj & Hab & Hi & Hj & <- & <- & _ & _ & Honly).
    destruct (Hsim wi (nth_error_In _ _ Hi)) as [Ndi Li]. destruct (Hsim wj (nth_error_In _ _ Hj)) as [Ndj Lj].
    pose proof (Honly p w Hp (nth_error_In _ _ Hr)) as Hpp.
    assert (Hsh : forall x y, next_in (w_nd wi) x y -> ~ next_in (w_nd wj) x y) by (intros x y; eapply Hsep; [|eassumption|eassumption]; lia).
    intros H.
    apply bind_Ok in H; destruct H as (f0 & Hf0 & H). apply bind_Ok in H; destruct H as (s0 & Hs0 & H).
    apply bind_Ok in H; destruct H as (fl & Hfl & H). apply bind_Ok in H; destruct H as (sl & Hsl & H).
    apply first_ref_ok in Hf0, Hs0. apply last_ref_ok in Hfl, Hsl.
    pose proof (ends_differ _ _ _ Ndi Li Hf0 Hfl) as Di. pose proof (ends_differ _ _ _ Ndj Lj Hs0 Hsl) as Dj.
    assert (Hgo : forall nds0 i0 u0, (p = a -> nds0 = w_nd wj) -> (p = b -> nds0 = w_nd wi) ->
      Ok (inl (nds0, i0, u0)) = @Ok ((list string * nat * bool) + gerr) (inl (nds, i, up')) ->
      exists p' w', p' <> p /\ nth_error (o_ways o) p' = Some w' /\ w_nd w' = nds).
    { intros nds0 i0 u0 Ha' Hb' Hok. injection Hok as <- _ _. destruct Hpp as [->| ->].
      - exists b, wj. rewrite (Ha' eq_refl). repeat split; [lia|exact Hj].
      - exists a, wi. rewrite (Hb' eq_refl). repeat split; [lia|exact Hi]. }
    destruct up; cbn [andb negb] in He; unfold at_edge in He; cbn [andb negb orb] in He.
    - rewrite orb_false_r in He. apply Nat.eqb_eq in He. subst index. cbn [andb Nat.eqb] in H.
      cbn [behind_at] in Hb.
      apply bind_Ok in H; destruct H as (f1 & Hf1 & H). apply bind_Ok in H; destruct H as (s1 & Hs1 & H).
      apply at_ok in Hf1, Hs1.
      destruct (String.eqb f0 running && String.eqb f0 sl) eqn:E1; [|destruct (String.eqb s0 running && String.eqb s0 fl) eqn:E2;
        [|destruct (String.eqb f0 s0 && String.eqb f0 running && String.eqb f1 (n_id on)) eqn:E3;
          [|destruct (String.eqb f0 s0 && String.eqb s0 running && String.eqb s1 (n_id on)) eqn:E4; [|discriminate]]]];
        (eapply Hgo; [| |exact H]); intros ->; try reflexivity; exfalso;
        rewrite ?Hi, ?Hj in Hp; injection Hp as <-; eqbs; subst.
      + congruence.
      + congruence.
      + apply (Hsh running (n_id on)); eapply nth_next; eassumption.
      + rewrite Hb in Hf1. injection Hf1 as <-.
        rewrite !String.eqb_refl in E3. discriminate.
    - apply Nat.eqb_eq in He. cbn [andb] in H. cbn [behind_at] in Hb. destruct Hb as (j & <- & Hb).
      apply bind_Ok in H; destruct H as (f1 & Hf1 & H). apply bind_Ok in H; destruct H as (s1 & Hs1 & H).
      unfold second_last_ref in Hf1, Hs1.
      replace (List.length (w_nd wi) <? 2) with false in Hf1 by (symmetry; apply Nat.ltb_ge; lia).
      replace (List.length (w_nd wj) <? 2) with false in Hs1 by (symmetry; apply Nat.ltb_ge; lia).
      apply at_ok in Hf1, Hs1.
      destruct (String.eqb f0 running && String.eqb f0 sl) eqn:E1; [|destruct (String.eqb s0 running && String.eqb s0 fl) eqn:E2;
        [|destruct (String.eqb fl sl && String.eqb fl running && String.eqb f1 (n_id on)) eqn:E3;
          [|destruct (String.eqb fl sl && String.eqb sl running && String.eqb s1 (n_id on)) eqn:E4; [|discriminate]]]];
        (eapply Hgo; [| |exact H]); intros ->; try reflexivity; exfalso;
        rewrite ?Hi, ?Hj in Hp; injection Hp as <-; eqbs; subst;
        try (replace (List.length (w_nd wi) - 1) with (S j) in * by lia; replace (List.length (w_nd wi) - 2) with j in * by lia);
        try (replace (List.length (w_nd wj) - 1) with (S j) in * by lia; replace (List.length (w_nd wj) - 2) with j in * by lia).
      + congruence.
      + congruence.
      + apply (Hsh (n_id on) running); [eapply nth_next; [exact Hf1|]|eapply nth_next; eassumption].
        rewrite <- Hfl. f_equal. lia.
      + rewrite Hb in Hf1. injection Hf1 as <-.
        rewrite !String.eqb_refl in E3. discriminate.
  Qed.

  Lemma straight_cons a b l : straight (b :: l) -> (forall c l', l = c :: l' -> a <> c) -> straight (a :: b :: l).
  Proof.
    intros Hs Hc [|x pre] u v t post H; cbn [app] in H.
    - injection H as -> -> ->. eapply Hc. reflexivity.
    - injection H as -> H. eapply Hs. exact H.
  Qed.

  (* the state of a walk on a clean network *)
  Definition steady (nds : list string) (up : bool) (index : nat) (old : option node) (l : list string) : Prop :=
    simple_ways o -> separate_ways o ->
    match l with [] => True | q :: _ => behind_at nds up index q end /\
    match old with Some on => exists l', l = n_id on :: l' | None => True end.

  Lemma go_loop_walk behind fuel : forall nds index up running old total l r,
    on_way nds -> nth_error nds index = Some (n_id running) -> node_of o (n_id running) running ->
    trail hav o dist (n_id running :: l) total ->
    steady nds up index old (l ++ behind) -> (simple_ways o -> separate_ways o -> straight (n_id running :: l ++ behind)) ->
    go_loop hav fuel o nds index dist up running old total = Ok r -> outcome_at r (n_id running :: l) behind.
  Proof.
    induction fuel as [|fuel IH]; intros nds index up running old total l r Hw Hr Hn Ht Hst0 Hstr H; [discriminate|].
    cbn [go_loop] in H. destruct (Qle_bool dist total) eqn:Ed.
    { injection H as <-. apply Qle_bool_iff in Ed. exists (n_id running :: l). repeat split; [exact Ht|exists []; reflexivity|exact Hstr|exact Ed]. }
    apply Qle_bool_false in Ed. apply bind_Ok in H. destruct H as (st & Hst & H).
    assert (Hmv : match st with
                  | inl (nds', index', up') => on_way nds' /\ nth_error nds' index' = Some (n_id running) /\
                      (simple_ways o -> separate_ways o -> forall r' i', next_ref nds' up' index' = Ok (r', i') ->
                         forall c l', l ++ behind = c :: l' -> r' <> c)
                  | inr EndReached => ways_through o (n_id running) 1
                  | inr JunctionReached => exists k, 2 < k /\ ways_through o (n_id running) k
                  | inr OtherErr => True end).
    { change ((up && Nat.eqb index 0) || (negb up && Nat.eqb (S index) (List.length nds))) with (at_edge nds up index) in Hst.
      destruct (at_edge nds up index) eqn:Eedge.
      - destruct st as [[[nds' i'] up']|e].
        + pose proof Hst as Hst1. apply find_next_way_entry in Hst. destruct Hst as (H1 & H2 & _).
          split; [exact H1|]. split; [exact H2|]. intros Hsim Hsep r' j' Hnx c l' El Ec. subst c.
          destruct (Hst0 Hsim Hsep) as [Hbe Hold]. rewrite El in Hbe.
          destruct old as [on|].
          2:{ unfold find_next_way in Hst1. destruct (get_both_correct_ways o (n_id running)) as [[]|]; [|discriminate].
              repeat (apply bind_Ok in Hst1; let v := fresh in destruct Hst1 as (v & _ & Hst1)). discriminate. }
          destruct Hold as (l2 & El2). rewrite El in El2. injection El2 as -> _.
          destruct Hw as (w & Hin & <-). apply In_nth_error in Hin. destruct Hin as [p Hp].
          destruct (find_next_way_other p w up index (n_id running) on nds' i' up' Hsim Hsep Hp Hr Eedge Hbe Hst1) as (p' & w' & Hne & Hp' & <-).
          apply (Hsep p p' w w' (n_id on) (n_id running) ltac:(congruence) Hp Hp').
          * eapply behind_next; eassumption.
          * apply next_in_sym. eapply next_neighbour; eassumption.
        + apply find_next_way_stop in Hst. exact Hst.
      - injection Hst as <-. split; [exact Hw|]. split; [exact Hr|]. intros Hsim Hsep r' i' Hnx c l' El Ec. subst c.
        destruct (Hst0 Hsim Hsep) as [Hbe _]. rewrite El in Hbe. apply next_ref_ok in Hnx. destruct Hnx as [Hnx Hi].
        destruct Hw as (w & Hin & <-). destruct (Hsim w Hin) as [Hnd _]. rewrite NoDup_nth_error in Hnd.
        destruct up; cbn [behind_at] in Hbe.
        + assert (E : i' = S index); [|lia]. apply Hnd; [apply nth_error_Some; congruence|congruence].
        + destruct Hbe as (j & <- & Hj). assert (E : i' = j); [|lia]. apply Hnd; [apply nth_error_Some; congruence|congruence]. }
    destruct st as [[[nds' i'] up']|e].
    - destruct Hmv as (Hw' & Hr' & Hon). apply bind_Ok in H. destruct H as ([ref i] & Hnx & H).
      destruct (get_node_by_id o ref) as [next|] eqn:Eg; [|injection H as <-; exact I].
      pose proof (next_neighbour _ _ _ _ _ _ Hr' Hnx) as Hnb. destruct (next_ref_ok _ _ _ _ _ Hnx) as [Hat Hi].
      pose proof (get_node_id _ _ _ Eg) as Eid. subst ref. apply get_node_of in Eg.
      assert (Ht' : trail hav o dist (n_id next :: n_id running :: l) (total + hav running next)).
      { apply trail_step; try assumption. destruct Hw' as (w & Hin & <-). exists w. auto. }
      assert (Hs' : simple_ways o -> separate_ways o -> straight (n_id next :: (n_id running :: l) ++ behind)).
      { intros Hsim Hsep. cbn [app]. apply straight_cons; [apply Hstr; assumption|]. eapply Hon; eassumption. }
      destruct (Qeq_bool (total + hav running next) dist) eqn:Ee.
      + injection H as <-. apply Qeq_bool_iff in Ee. exists (n_id next :: n_id running :: l).
        repeat split; [exact Ht'|exists [n_id next]; reflexivity|exact Hs'|]. rewrite Ee. apply Qle_refl.
      + apply outcome_mono with (n_id next). eapply IH; [exact Hw'|exact Hat|exact Eg|exact Ht'| |exact Hs'|exact H].
        intros Hsim Hsep. cbn [app]. split; [|eauto]. destruct up'; cbn [behind_at]; [now rewrite Hi|exists i'; auto].
    - destruct e; injection H as <-; [| |exact I];
        (exists (n_id running :: l); repeat split; [exact Ht|exists []; reflexivity|exact Hstr|exact Ed|exact Hmv]).
  Qed.
  Lemma straight_two a (l : list string) : List.length l <= 1 -> straight (a :: l).
  Proof. intros Hl pre x y z post H. apply (f_equal (@List.length string)) in H. rewrite app_length in H. cbn in H. lia. Qed.
  (* what lies behind the start *)
  Definition behind_list (nds : list string) (up : bool) (index : nat) : list string :=
    if up then match nth_error nds (S index) with Some q => [q] | None => [] end
    else match index with 0 => [] | S j => match nth_error nds j with Some q => [q] | None => [] end end.
  Lemma behind_list_at nds up index q l : behind_list nds up index = q :: l -> behind_at nds up index q.
  Proof.
    unfold behind_list, behind_at. destruct up.
    - destruct (nth_error nds (S index)) as [x|]; [|discriminate]. intros H. injection H as -> _. reflexivity.
    - destruct index as [|j]; [discriminate|]. destruct (nth_error nds j) as [x|] eqn:E; [|discriminate].
      intros H. injection H as -> _. eauto.
  Qed.
  Lemma go_direction_walk fuel nds index up r start : on_way nds -> nth_error nds index = Some start ->
    go_direction hav fuel o nds index dist up = Ok r -> outcome_at r [start] (behind_list nds up index).
  Proof.
    intros Hw Hs H. unfold go_direction in H. apply bind_Ok in H. destruct H as (s & Hs' & H). apply at_ok in Hs'.
    rewrite Hs in Hs'. injection Hs' as <-. apply bind_Ok in H. destruct H as (old & Hold & H).
    destruct (get_node_by_id o start) as [running|] eqn:Eg.
    - pose proof (get_node_id _ _ _ Eg) as Eid. subst start. apply get_node_of in Eg.
      eapply go_loop_walk; [exact Hw|exact Hs|exact Eg|constructor| | |exact H].
      + intros Hsim Hsep. cbn [app]. split.
        * destruct (behind_list nds up index) as [|q l] eqn:E; [exact I|]. eapply behind_list_at, E.
        * destruct old as [on|]; [|exact I]. exists []. unfold behind_list. destruct up.
          -- destruct (Nat.eqb (S index) (List.length nds)); [discriminate|]. apply bind_Ok in Hold. destruct Hold as (q & Hq & Hold).
             apply at_ok in Hq. rewrite Hq. injection Hold as Hold. now rewrite (get_node_id _ _ _ Hold).
          -- destruct index as [|j]; [discriminate|]. apply bind_Ok in Hold. destruct Hold as (q & Hq & Hold).
             apply at_ok in Hq. rewrite Hq. injection Hold as Hold. now rewrite (get_node_id _ _ _ Hold).
      + intros _ _. cbn [app]. apply straight_two. unfold behind_list. destruct up; [destruct (nth_error nds (S index)); cbn; lia|].
        destruct index as [|j]; [cbn; lia|]. destruct (nth_error nds j); cbn; lia.
    - destruct (Qle_bool dist 0); [discriminate|]. destruct (_ || _); [discriminate|].
      apply bind_Ok in H. destruct H as ([ref i] & _ & H). destruct (get_node_by_id o ref); [discriminate|]. injection H as <-. exact I.
  Qed.

  (* ---- no crash ---- *)
  Lemma nth_some {A} (l : list A) i : i < List.length l -> exists x, nth_error l i = Some x.
  Proof. intros H. destruct (nth_error l i) eqn:E; [eauto|]. apply nth_error_None in E. lia. Qed.
  Lemma find_next_way_ok up index running on : simple_ways o -> exists r, find_next_way o up index running (Some on) = Ok r.
  Proof.
    intros Hsim. unfold find_next_way. destruct (get_both_correct_ways o running) as [[first second]|e] eqn:Eg; [|eauto].
    apply get_both_inl in Eg. destruct Eg as (a & b & wi & wj & _ & Hi & Hj & <- & <- & _).
    destruct (Hsim wi (nth_error_In _ _ Hi)) as [_ Li]. destruct (Hsim wj (nth_error_In _ _ Hj)) as [_ Lj].
    destruct (nth_some (w_nd wi) 0 ltac:(lia)) as [f0 Hf0]. destruct (nth_some (w_nd wj) 0 ltac:(lia)) as [s0 Hs0].
    destruct (nth_some (w_nd wi) (List.length (w_nd wi) - 1) ltac:(lia)) as [fl Hfl].
    destruct (nth_some (w_nd wj) (List.length (w_nd wj) - 1) ltac:(lia)) as [sl Hsl].
    destruct (nth_some (w_nd wi) 1 ltac:(lia)) as [f1 Hf1]. destruct (nth_some (w_nd wj) 1 ltac:(lia)) as [s1 Hs1].
    destruct (nth_some (w_nd wi) (List.length (w_nd wi) - 2) ltac:(lia)) as [f2 Hf2].
    destruct (nth_some (w_nd wj) (List.length (w_nd wj) - 2) ltac:(lia)) as [s2 Hs2].
    apply first_ref_ok in Hf0, Hs0. apply last_ref_ok in Hfl, Hsl.
    rewrite Hf0, Hs0, Hfl, Hsl. cbn [bind]. unfold second_ref, second_last_ref.
    replace (List.length (w_nd wi) <? 2) with false by (symmetry; apply Nat.ltb_ge; lia).
    replace (List.length (w_nd wj) <? 2) with false by (symmetry; apply Nat.ltb_ge; lia).
    apply at_ok in Hf1, Hs1, Hf2, Hs2. rewrite Hf1, Hs1, Hf2, Hs2. cbn [bind].
    destruct (up && (index =? 0)); repeat (match goal with |- exists r, (if ?c then _ else _) = _ => destruct c; [eauto|] end); eauto.
  Qed.
  Lemma end_of (nds : list string) id (l : list string) : nds = id :: l \/ nds = l ++ [id] -> nth_error nds 0 = Some id \/ nth_error nds (List.length nds - 1) = Some id.
  Proof.
    intros [->| ->]; [left; reflexivity|right]. rewrite app_length, nth_error_app2; cbn [List.length]; [|lia].
    now replace (List.length l + 1 - 1 - List.length l) with 0 by lia.
  Qed.
  Lemma find_next_way_good p w up index running on : simple_ways o -> meet_at_ends o ->
    nth_error (o_ways o) p = Some w -> nth_error (w_nd w) index = Some running ->
    at_edge (w_nd w) up index = true -> behind_at (w_nd w) up index (n_id on) ->
    find_next_way o up index running (Some on) <> Ok (inr OtherErr).
  Proof.
    intros Hsim Hmeet Hp Hr He Hb H. unfold find_next_way in H.
    destruct (get_both_correct_ways o running) as [[first second]|e] eqn:Eg.
    2:{ injection H as ->. apply get_both_inr in Eg. destruct Eg as (pl & _ & Hl & Hpl). destruct pl; [|discriminate].
        apply (proj2 (Hpl p)). exists w. split; [exact Hp|eapply nth_error_In, Hr]. }
    apply get_both_inl in Eg. destruct Eg as (a & b & wi & wj & Hab & Hi & Hj & <- & <- & Ini & Inj & Honly).
    destruct (Hsim wi (nth_error_In _ _ Hi)) as [_ Li]. destruct (Hsim wj (nth_error_In _ _ Hj)) as [_ Lj].
    destruct (Hmeet a b wi wj running ltac:(lia) Hi Hj Ini Inj) as [li Eli]. apply end_of in Eli.
    destruct (Hmeet b a wj wi running ltac:(lia) Hj Hi Inj Ini) as [lj Elj]. apply end_of in Elj.
    pose proof (Honly p w Hp (nth_error_In _ _ Hr)) as Hpp. clear Hmeet Honly Ini Inj Hsim.
    apply bind_Ok in H; destruct H as (f0 & Hf0 & H). apply bind_Ok in H; destruct H as (s0 & Hs0 & H).
    apply bind_Ok in H; destruct H as (fl & Hfl & H). apply bind_Ok in H; destruct H as (sl & Hsl & H).
    apply first_ref_ok in Hf0, Hs0. apply last_ref_ok in Hfl, Hsl.
    rewrite Hf0, Hfl in Eli. rewrite Hs0, Hsl in Elj.
    assert (Eli' : f0 = running \/ fl = running) by (destruct Eli as [E|E]; injection E; auto).
    assert (Elj' : s0 = running \/ sl = running) by (destruct Elj as [E|E]; injection E; auto). clear Eli Elj.
    destruct up; unfold at_edge in He; cbn [andb negb orb] in He.
    - rewrite orb_false_r in He. apply Nat.eqb_eq in He. subst index. cbn [andb Nat.eqb] in H. cbn [behind_at] in Hb.
      apply bind_Ok in H; destruct H as (f1 & Hf1 & H). apply bind_Ok in H; destruct H as (s1 & Hs1 & H). apply at_ok in Hf1, Hs1.
      destruct Hpp as [->| ->]; [rewrite Hi in Hp|rewrite Hj in Hp]; injection Hp as <-.
      + rewrite Hf0 in Hr. injection Hr as ->. rewrite Hf1 in Hb. injection Hb as ->. rewrite !String.eqb_refl in H. cbn [andb] in H.
        destruct Elj' as [->| ->].
        * rewrite !String.eqb_refl in H. cbn [andb] in H. destruct (String.eqb running sl); [discriminate|]. destruct (String.eqb running fl); discriminate.
        * rewrite String.eqb_refl in H. discriminate.
      + rewrite Hs0 in Hr. injection Hr as ->. rewrite Hs1 in Hb. injection Hb as ->. rewrite !String.eqb_refl in H. cbn [andb] in H.
        destruct Eli' as [->| ->].
        * rewrite !String.eqb_refl in H. cbn [andb] in H. destruct (String.eqb running sl); [discriminate|]. destruct (String.eqb running fl); [discriminate|].
          destruct (String.eqb f1 (n_id on)); discriminate.
        * rewrite String.eqb_refl in H. destruct (String.eqb f0 running && String.eqb f0 sl); discriminate.
    - apply Nat.eqb_eq in He. cbn [andb] in H. cbn [behind_at] in Hb. destruct Hb as (j & <- & Hb).
      apply bind_Ok in H; destruct H as (f1 & Hf1 & H). apply bind_Ok in H; destruct H as (s1 & Hs1 & H).
      unfold second_last_ref in Hf1, Hs1.
      replace (List.length (w_nd wi) <? 2) with false in Hf1 by (symmetry; apply Nat.ltb_ge; lia).
      replace (List.length (w_nd wj) <? 2) with false in Hs1 by (symmetry; apply Nat.ltb_ge; lia).
      apply at_ok in Hf1, Hs1.
      destruct Hpp as [->| ->]; [rewrite Hi in Hp|rewrite Hj in Hp]; injection Hp as <-.
      + replace (List.length (w_nd wi) - 1) with (S j) in Hfl by lia. replace (List.length (w_nd wi) - 2) with j in Hf1 by lia.
        rewrite Hfl in Hr. injection Hr as ->. rewrite Hf1 in Hb. injection Hb as ->. rewrite !String.eqb_refl in H. cbn [andb] in H.
        destruct Elj' as [->| ->].
        * rewrite !String.eqb_refl in H. cbn [andb] in H. destruct (String.eqb f0 running && String.eqb f0 sl); discriminate.
        * rewrite !String.eqb_refl in H. cbn [andb] in H. destruct (String.eqb f0 running && String.eqb f0 running); [discriminate|].
          destruct (String.eqb s0 running && String.eqb s0 running); discriminate.
      + replace (List.length (w_nd wj) - 1) with (S j) in Hsl by lia. replace (List.length (w_nd wj) - 2) with j in Hs1 by lia.
        rewrite Hsl in Hr. injection Hr as ->. rewrite Hs1 in Hb. injection Hb as ->. rewrite !String.eqb_refl in H. cbn [andb] in H.
        destruct Eli' as [->| ->].
        * rewrite String.eqb_refl in H. discriminate.
        * rewrite !String.eqb_refl in H. cbn [andb] in H. destruct (String.eqb f0 running && String.eqb f0 running); [discriminate|].
          destruct (String.eqb s0 running && String.eqb s0 running); [discriminate|]. destruct (String.eqb f1 (n_id on)); discriminate.
  Qed.

  Definition old_ok (nds : list string) (up : bool) (index : nat) (old : option node) : Prop :=
    match old with
    | Some on => behind_at nds up index (n_id on)
    | None => if up then S index = List.length nds else index = 0
    end.
  Lemma not_edge_next nds up index x : nth_error nds index = Some x -> at_edge nds up index = false ->
    exists r i, next_ref nds up index = Ok (r, i).
  Proof.
    intros Hx He. assert (index < List.length nds) by (apply nth_error_Some; congruence). unfold at_edge in He.
    destruct up; cbn [andb negb orb] in He; unfold next_ref.
    - rewrite orb_false_r in He. apply Nat.eqb_neq in He. destruct index as [|k]; [congruence|].
      destruct (nth_some nds k ltac:(lia)) as [r Hr]. apply at_ok in Hr. rewrite Hr. cbn [bind]. eauto.
    - apply Nat.eqb_neq in He. destruct (nth_some nds (S index) ltac:(lia)) as [r Hr]. apply at_ok in Hr. rewrite Hr. cbn [bind]. eauto.
  Qed.
  Lemma entered_next nds i up : 2 <= List.length nds -> enters nds i up -> exists r k, next_ref nds up i = Ok (r, k).
  Proof.
    intros Hl He. destruct up; cbn [enters] in He; subst i; unfold next_ref.
    - destruct (List.length nds - 1) as [|k] eqn:E; [lia|]. destruct (nth_some nds k ltac:(lia)) as [r Hr]. apply at_ok in Hr. rewrite Hr. cbn [bind]. eauto.
    - destruct (nth_some nds 1 ltac:(lia)) as [r Hr]. apply at_ok in Hr. rewrite Hr. cbn [bind]. eauto.
  Qed.

  Definition fine (r : res went) : Prop :=
    match r with Ok Failed => ~ meet_at_ends o | Ok _ => True | Fuel => True | _ => False end.
  Lemma go_loop_fine fuel : simple_ways o -> complete o -> forall nds index up running old total,
    on_way nds -> nth_error nds index = Some (n_id running) -> old_ok nds up index old ->
    fine (go_loop hav fuel o nds index dist up running old total).
  Proof.
    intros Hsim Hcom. induction fuel as [|fuel IH]; intros nds index up running old total Hw Hr Hold; [exact I|].
    cbn [go_loop]. destruct (Qle_bool dist total); [exact I|].
    change ((up && Nat.eqb index 0) || (negb up && Nat.eqb (S index) (List.length nds))) with (at_edge nds up index).
    assert (Hgo : forall nds' i' up', on_way nds' -> nth_error nds' i' = Some (n_id running) ->
      (exists r k, next_ref nds' up' i' = Ok (r, k)) ->
      fine (do ' (ref, i) <- next_ref nds' up' i';
            match get_node_by_id o ref with
            | None => Ok Failed
            | Some next => if Qeq_bool (total + hav running next) dist then Ok (Reached (n_id next) (total + hav running next))
                           else go_loop hav fuel o nds' i dist up' next (Some running) (total + hav running next)
            end)).
    { intros nds' i' up' Hw' Hr' (r & k & Hk). rewrite Hk. cbn [bind]. destruct (next_ref_ok _ _ _ _ _ Hk) as [Hk1 Hk2].
      destruct (get_node_by_id o r) as [next|] eqn:Eg.
      - destruct (Qeq_bool _ _); [exact I|]. pose proof (get_node_id _ _ _ Eg) as Eid. subst r. apply IH; [exact Hw'|exact Hk1|].
        cbn [old_ok]. destruct up'; cbn [behind_at]; [now rewrite Hk2|eauto].
      - exfalso. destruct Hw' as (w & Hin & <-). destruct (Hcom w r Hin (nth_error_In _ _ Hk1)) as [n Hn]. apply get_node_of in Hn. congruence. }
    destruct (at_edge nds up index) eqn:Eedge.
    - assert (Hlen : 2 <= List.length nds) by (destruct Hw as (w & Hin & <-); apply (Hsim w Hin)).
      destruct old as [on|].
      2:{ exfalso. cbn [old_ok] in Hold. unfold at_edge in Eedge. destruct up; cbn [andb negb orb] in Eedge.
          - rewrite orb_false_r in Eedge. apply Nat.eqb_eq in Eedge. lia.
          - apply Nat.eqb_eq in Eedge. lia. }
      destruct (find_next_way_ok up index (n_id running) on Hsim) as [st Hst]. rewrite Hst. cbn [bind].
      destruct st as [[[nds' i'] up']|e].
      + apply find_next_way_entry in Hst. destruct Hst as (H1 & H2 & H3). apply Hgo; [exact H1|exact H2|].
        apply entered_next; [|exact H3]. destruct H1 as (w & Hin & <-). apply (Hsim w Hin).
      + destruct e; [exact I|exact I|]. cbn [fine]. intros Hm. destruct Hw as (w & Hin & <-). apply In_nth_error in Hin. destruct Hin as [p Hp].
        eapply find_next_way_good; eassumption.
    - cbn [bind]. apply Hgo; [exact Hw|exact Hr|]. eapply not_edge_next; eassumption.
  Qed.
  Lemma go_direction_fine fuel nds index up start : simple_ways o -> complete o -> on_way nds -> nth_error nds index = Some start ->
    fine (go_direction hav fuel o nds index dist up).
  Proof.
    intros Hsim Hcom Hw Hs. unfold go_direction. pose proof Hs as Hs'. apply at_ok in Hs'. rewrite Hs'. cbn [bind].
    assert (Hget : forall s, In s nds -> exists n, get_node_by_id o s = Some n /\ n_id n = s).
    { intros s Hin. destruct Hw as (w & Hw & <-). destruct (Hcom w s Hw Hin) as [n Hn]. apply get_node_of in Hn. exists n. split; [exact Hn|eapply get_node_id, Hn]. }
    destruct (Hget start (nth_error_In _ _ Hs)) as (running & Eg & <-). rewrite Eg.
    assert (Hlt : index < List.length nds) by (apply nth_error_Some; congruence).
    destruct up.
    - destruct (Nat.eqb_spec (S index) (List.length nds)) as [E|E].
      + cbn [bind]. apply go_loop_fine; try assumption.
      + destruct (nth_some nds (S index) ltac:(lia)) as [q Hq]. pose proof Hq as Hq'. apply at_ok in Hq'. rewrite Hq'. cbn [bind].
        destruct (Hget q (nth_error_In _ _ Hq)) as (on & Hon & <-). rewrite Hon. apply go_loop_fine; try assumption.
    - destruct index as [|j].
      + cbn [bind]. apply go_loop_fine; try assumption. reflexivity.
      + destruct (nth_some nds j ltac:(lia)) as [q Hq]. pose proof Hq as Hq'. apply at_ok in Hq'. rewrite Hq'. cbn [bind].
        destruct (Hget q (nth_error_In _ _ Hq)) as (on & Hon & <-). rewrite Hon. apply go_loop_fine; try assumption.
        cbn [old_ok behind_at]. eauto.
  Qed.

  (* ---- the walk ends ---- *)
  Lemma find_next_way_no_fuel up index running old : find_next_way o up index running old <> Fuel.
  Proof.
    unfold find_next_way. destruct (get_both_correct_ways o running) as [[first second]|]; [|discriminate].
    unfold first_ref, last_ref, second_ref, second_last_ref, at_.
    intros H.
    repeat (match type of H with context [match ?x with _ => _ end] => destruct x; cbn [bind] in H; try discriminate end).
  Qed.
  Lemma next_ref_no_fuel nds up index : next_ref nds up index <> Fuel.
  Proof.
    unfold next_ref, at_. destruct up.
    - destruct index; [discriminate|]. destruct (nth_error nds index); discriminate.
    - destruct (nth_error nds (S index)); discriminate.
  Qed.
  Lemma go_loop_ends delta : (forall a b na nb, neighbours o a b -> node_of o a na -> node_of o b nb -> (delta <= hav na nb)%Q) ->
    forall k nds index up running old total, on_way nds -> nth_error nds index = Some (n_id running) -> node_of o (n_id running) running ->
    (dist <= total + inject_Z (Z.of_nat k) * delta)%Q ->
    go_loop hav (S k) o nds index dist up running old total <> Fuel.
  Proof.
    intros Hdel. induction k as [|k IH]; intros nds index up running old total Hw Hr Hn Hd H.
    - cbn [go_loop] in H. replace (Qle_bool dist total) with true in H; [discriminate|]. symmetry. apply Qle_bool_iff.
      change (Z.of_nat 0) with 0%Z in Hd. rewrite Qmult_0_l, Qplus_0_r in Hd. exact Hd.
    - remember (S k) as k1 eqn:Ek1. cbn [go_loop] in H. destruct (Qle_bool dist total); [discriminate|].
      change ((up && Nat.eqb index 0) || (negb up && Nat.eqb (S index) (List.length nds))) with (at_edge nds up index) in H.
      destruct (if at_edge nds up index then find_next_way o up index (n_id running) old else Ok (inl (nds, index, up))) as [st| | |] eqn:Est;
        cbn [bind] in H; try discriminate.
      2:{ destruct (at_edge nds up index); [|discriminate]. eapply find_next_way_no_fuel, Est. }
      destruct st as [[[nds' i'] up']|[]]; try discriminate.
      assert (Hmv : on_way nds' /\ nth_error nds' i' = Some (n_id running)).
      { destruct (at_edge nds up index); [apply find_next_way_entry in Est; tauto|]. injection Est as <- <- <-. auto. }
      destruct Hmv as [Hw' Hr']. destruct (next_ref nds' up' i') as [[r j]| | |] eqn:Enx; cbn [bind] in H; try discriminate.
      2:{ eapply next_ref_no_fuel, Enx. }
      destruct (get_node_by_id o r) as [next|] eqn:Eg; [|discriminate].
      destruct (Qeq_bool _ _); [discriminate|]. pose proof (get_node_id _ _ _ Eg) as Eid. subst r. apply get_node_of in Eg.
      pose proof (next_neighbour _ _ _ _ _ _ Hr' Enx) as Hnb. destruct (next_ref_ok _ _ _ _ _ Enx) as [Hat _].
      subst k1. revert H. apply IH; [exact Hw'|exact Hat|exact Eg|].
      assert (Hh : (delta <= hav running next)%Q).
      { eapply Hdel; [|exact Hn|exact Eg]. destruct Hw' as (w & Hin & <-). exists w. auto. }
      rewrite Nat2Z.inj_succ, <- Z.add_1_r, inject_Z_plus in Hd. change (inject_Z 1) with 1%Q in Hd.
      rewrite Qmult_plus_distr_l, Qmult_1_l in Hd. lra.
  Qed.
  Lemma go_direction_ends delta : (forall a b na nb, neighbours o a b -> node_of o a na -> node_of o b nb -> (delta <= hav na nb)%Q) ->
    forall k nds index up start, on_way nds -> nth_error nds index = Some start ->
    (dist <= inject_Z (Z.of_nat k) * delta)%Q -> go_direction hav (S k) o nds index dist up <> Fuel.
  Proof.
    intros Hdel k nds index up start Hw Hs Hd H. unfold go_direction in H. pose proof Hs as Hs'. apply at_ok in Hs'. rewrite Hs' in H. cbn [bind] in H.
    match type of H with bind ?x _ = _ => destruct x as [old| | |] eqn:Eo end; cbn [bind] in H; try discriminate.
    2:{ destruct up; [destruct (_ =? _); [discriminate|]|destruct index; [discriminate|]];
        unfold at_ in Eo; match type of Eo with context [nth_error nds ?i] => destruct (nth_error nds i) end; discriminate. }
    destruct (get_node_by_id o start) as [running|] eqn:Eg.
    - pose proof (get_node_id _ _ _ Eg) as Eid. subst start. apply get_node_of in Eg. revert H.
      eapply go_loop_ends; [exact Hdel|exact Hw|exact Hs|exact Eg|]. rewrite Qplus_0_l. exact Hd.
    - destruct (Qle_bool dist 0); [discriminate|]. destruct (_ || _); [discriminate|].
      destruct (next_ref nds up index) as [[r i]| | |] eqn:En; cbn [bind] in H; try discriminate.
      + destruct (get_node_by_id o r); discriminate.
      + eapply next_ref_no_fuel, En.
  Qed.
End Walk.
