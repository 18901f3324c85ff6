(* C63 driving over the imported network, C64 its sections, C49 the comparator used for sorting *)
From Coq Require Import List Bool NArith QArith String Sorted Permutation Lia Lqa.
From Verif Require Import Base PhysModel TextModel InfraModel InfraOrder InfraSpec InfraNet InfraSecSpec InfraSect.
Import ListNotations.

(* ---- C63 ---- *)
Theorem C63_network_drives_as_drawn_partial l : well_drawn l ->
  exists g ls run arrive, import l = Ok g /\ connect_nodes g = Ok ls /\
                          drives_as_drawn l g ls run arrive.
Proof. exact (network l). Qed.
Print Assumptions C63_network_drives_as_drawn_partial.

(* A switch whose straight track leads over the border into the next station and
   whose branch ends; signals in both directions and a tunnel on the first track. *)
Definition ex_node (n : sname) (id ref : N) (km : Q) (to : string) : snode :=
  mksnode n id ref false km to 1%Z.
Definition ex_plan : list xstation :=
  [mkxst "A" [mkxsec 100 (ex_node N_BUMPER 1 0 0 "") (ex_node N_SWITCH_START 2 0 1 "")
                [mktnode MAIN_SIGNAL true 10 (1#2); mktnode HALT false 11 (1#4);
                 mktnode TUNNEL true 12 (1#2)];
              mkxsec 100 (ex_node N_SWITCH_STEM 3 2 1 "") (ex_node N_BORDER 4 0 2 "B") [];
              mkxsec 100 (ex_node N_SWITCH_BRANCH_LEFT 5 2 1 "") (ex_node N_TRACK_END 6 0 2 "") []];
   mkxst "B" [mkxsec 100 (ex_node N_BORDER 7 0 2 "A") (ex_node N_BUMPER 8 0 3 "") []]].
Lemma ex_sections s x : section_at ex_plan s x ->
  (s < 4)%nat /\ exists st, nth_error (plan ex_plan) s = Some (st, x).
Proof.
  intros (st & H). split; [|eauto].
  assert (H' : nth_error (plan ex_plan) s <> None) by congruence. apply nth_error_Some in H'. exact H'.
Qed.
Ltac ex_sec H :=
  let s := fresh "s" in let L := fresh in let st := fresh "st" in
  apply ex_sections in H; destruct H as (L & st & H);
  match type of H with nth_error _ ?v = _ => destruct v as [|[|[|[|v]]]]; [..|lia] end;
  cbn in H; injection H as <- <-.
Ltac ex_node_at H :=
  let x := fresh "x" in let S := fresh "S" in
  match type of H with node_at _ ?p _ => destruct p as [? []] end;
  destruct H as (x & S & ->); cbn [fst snd] in *; ex_sec S; cbn [xs_start xs_end] in *.
Lemma ex_at s b st x : nth_error (plan ex_plan) s = Some (st, x) ->
  node_at ex_plan (s, b) (if b then xs_end x else xs_start x).
Proof. intros H. exists x. split; [exists st; exact H|reflexivity]. Qed.
Ltac ex_place s b := exists (s, b); eexists; split; [eapply ex_at; reflexivity|].

Example C63_sat : well_drawn ex_plan.
Proof.
  split.
  - vm_compute. repeat constructor; cbn; intuition discriminate.
  - intros i H. vm_compute in H. repeat (destruct H as [<-|H]; [reflexivity|]). destruct H.
  - intros p n H. ex_node_at H;
      [ex_place 0%nat true|ex_place 1%nat true|ex_place 2%nat true|ex_place 3%nat true
      |ex_place 0%nat false|ex_place 0%nat true|ex_place 0%nat true|ex_place 3%nat false]; repeat split.
  - intros p q n m H G D P. ex_node_at H; ex_node_at G; cbn in D, P; try discriminate; reflexivity.
  - intros p n t H T. ex_node_at H; cbn in T; try tauto.
    destruct T as [<-|[<-|[]]]; [ex_place 1%nat false|ex_place 2%nat false]; repeat split.
  - intros s x H. ex_sec H; discriminate.
  - intros s x a b H. ex_sec H; cbn [xs_track In]; try tauto.
    intros [<-|[<-|[<-|[]]]] [<-|[<-|[<-|[]]]]; unfold apart; cbn; lra.
  - intros s x H. ex_sec H; vm_compute; repeat constructor; cbn; intuition discriminate.
  - intros p q n m ln H G D _ T _ _. ex_node_at H; ex_node_at G; cbn in D, T; try discriminate; tauto || discriminate.
  - intros p n H. ex_node_at H; cbn; split; discriminate.
  - repeat constructor; cbn; intuition discriminate.
  - intros p n H B I.
    assert (P : forall p q, partners ex_plan p q ->
                (p = (1, true) /\ q = (3, false) \/ p = (3, false) /\ q = (1, true))%nat).
    { clear. intros p q (n & m & ln & sp & sq & xp & xq & H & G & B1 & B2 & _ & _ & _ & S1 & S2 & N1 & N2 & C1 & C2).
      destruct S1 as (y1 & S1), S2 as (y2 & S2).
      ex_node_at H; try discriminate; ex_node_at G; try discriminate; cbn [fst] in S1, S2;
        cbn in S1, S2; injection S1 as <- <-; injection S2 as <- <-; cbn in N1, N2;
        injection N1 as <-; injection N2 as <-; try discriminate; auto. }
    assert (Q1 : partners ex_plan (1%nat, true) (3%nat, false)).
    { exists (ex_node N_BORDER 4 0 2 "B"), (ex_node N_BORDER 7 0 2 "A"), 100%N, 0%nat, 1%nat. eexists _, _.
      repeat apply conj; try reflexivity; try (eexists; split; [eexists; reflexivity|reflexivity]); eexists; reflexivity. }
    assert (Q2 : partners ex_plan (3%nat, false) (1%nat, true)).
    { exists (ex_node N_BORDER 7 0 2 "A"), (ex_node N_BORDER 4 0 2 "B"), 100%N, 1%nat, 0%nat. eexists _, _.
      repeat apply conj; try reflexivity; try (eexists; split; [eexists; reflexivity|reflexivity]); eexists; reflexivity. }
    ex_node_at H; try discriminate B.
    + exists (3%nat, false). split; [exact Q1|]. split; [discriminate|]. intros q' X. destruct (P _ _ X) as [[_ ->]|[[=] _]]. reflexivity.
    + exists (1%nat, true). split; [exact Q2|]. split; [discriminate|]. intros q' X. destruct (P _ _ X) as [[[=] _]|[_ ->]]. reflexivity.
Qed.
Local Open Scope nat_scope.

(* following the straight way for a number of nodes *)
Fixpoint follow (ls : list links) (n : node) (k : nat) : list nat :=
  match k with
  | O => []
  | S k => fst n :: match next_node ls n with Some m => follow ls m k | None => [] end
  end.
Definition route (l : list xstation) (n : node) : option (list nat) :=
  match import l with
  | Ok g => match connect_nodes g with Ok ls => Some (follow ls n 20) | _ => None end
  | _ => None
  end.
Example C63_route : route ex_plan (0, Top) = Some [0; 2; 3; 1; 6; 5; 11; 13; 12].
Proof. vm_compute. reflexivity. Qed.

(* FINDING (why C63 is partial).  A change of kilometrage is only connected if the
   lower section of it is its KmSprungEnde: drawn the other way round, a train that
   arrives there turns round and drives up and down for ever. *)
Definition jump_plan (a b : sname) (ra rb : N) : list xstation :=
  [mkxst "A" [mkxsec 100 (ex_node N_BUMPER 1 0 0 "") (ex_node a 2 ra 1 "") [];
              mkxsec 100 (ex_node b 3 rb 5 "") (ex_node N_BUMPER 4 0 6 "") []]].
Lemma follow_sub ls (P : node -> Prop) : (forall n m, P n -> next_node ls n = Some m -> P m) ->
  forall k n i, P n -> In i (follow ls n k) -> exists s, P (i, s).
Proof.
  intros H. induction k as [|k IH]; intros n i Pn; cbn [follow]; [intros []|]. intros [<-|X].
  - exists (snd n). destruct n; exact Pn.
  - destruct (next_node ls n) as [m|] eqn:N; [|destruct X]. eapply IH; [|exact X]. eapply H; eauto.
Qed.
Theorem C63_jump_refuted : exists g ls,
  import (jump_plan N_KM_JUMP_START N_KM_JUMP_END 0 2) = Ok g /\ connect_nodes g = Ok ls /\
  forall k i, In i (follow ls (0, Top) k) -> i = 0 \/ i = 1 \/ i = 2.
Proof.
  eexists _, _. split; [vm_compute; reflexivity|]. split; [vm_compute; reflexivity|].
  intros k i H.
  eapply (follow_sub _ (fun n => n = (0, Top) \/ n = (1, Top) \/ n = (2, Top))) in H.
  - destruct H as (s & [[= -> _]|[[= -> _]|[= -> _]]]); auto.
  - intros n m [-> |[-> | ->]] X; vm_compute in X; injection X as <-; auto.
  - auto.
Qed.
Print Assumptions C63_jump_refuted.
Example C63_jump_other_way_round :
  route (jump_plan N_KM_JUMP_END N_KM_JUMP_START 3 0) (0, Top) = Some [0; 2; 1; 5; 4].
Proof. vm_compute. reflexivity. Qed.
(* FINDING.  If the kilometrage of one line rises towards a switch both on the track of
   its toe and on that of its stem, a train arriving on the stem is sent back. *)
Definition switch_plan (ln : N) : list xstation :=
  [mkxst "A" [mkxsec 100 (ex_node N_BUMPER 1 0 0 "") (ex_node N_SWITCH_START 2 0 1 "") [];
              mkxsec ln (ex_node N_BUMPER 6 0 0 "") (ex_node N_SWITCH_STEM 3 2 1 "") [];
              mkxsec 100 (ex_node N_SWITCH_BRANCH_LEFT 4 2 1 "") (ex_node N_BUMPER 5 0 2 "") []]].
Theorem C63_switch_refuted : route (switch_plan 100) (4, Top) = Some [4; 5; 1; 6; 4] /\
  route (switch_plan 101) (4, Top) = Some [4; 5; 1; 3; 0].
Proof. split; vm_compute; reflexivity. Qed.
Print Assumptions C63_switch_refuted.
(* FINDING.  A border to a station of the plan that has no border back is read
   through a null pointer. *)
Theorem C63_lone_border_refuted :
  import [mkxst "A" [mkxsec 100 (ex_node N_BUMPER 1 0 0 "") (ex_node N_BORDER 2 0 2 "B") []];
          mkxst "B" []] = UB.
Proof. vm_compute. reflexivity. Qed.
Print Assumptions C63_lone_border_refuted.
(* FINDING.  Two borders that both end a section are connected although the
   kilometrage rises towards both: trains are caught between them. *)
Theorem C63_high_borders_refuted : exists g ls,
  import [mkxst "A" [mkxsec 100 (ex_node N_BUMPER 1 0 0 "") (ex_node N_BORDER 2 0 2 "B") []];
          mkxst "B" [mkxsec 100 (ex_node N_BUMPER 3 0 0 "") (ex_node N_BORDER 4 0 2 "A") []]] = Ok g /\
  connect_nodes g = Ok ls /\
  forall k i, In i (follow ls (0, Top) k) -> i = 0 \/ i = 1 \/ i = 2 \/ i = 5.
Proof.
  eexists _, _. split; [vm_compute; reflexivity|]. split; [vm_compute; reflexivity|].
  intros k i H.
  eapply (follow_sub _ (fun n => n = (0, Top) \/ n = (1, Top) \/ n = (2, Top) \/ n = (5, Top))) in H.
  - destruct H as (s & [[= -> _]|[[= -> _]|[[= -> _]|[= -> _]]]]); auto.
  - intros n m [-> |[-> |[-> | ->]]] X; vm_compute in X; injection X as <-; auto.
  - auto.
Qed.
Print Assumptions C63_high_borders_refuted.

(* ---- C49 ---- *)
(* what std::sort requires of a comparator *)
Record strict_weak_order {A} (P : A -> Prop) (lt : A -> A -> bool) : Prop := {
  so_irreflexive : forall a, P a -> lt a a = false;
  so_transitive : forall a b c, P a -> P b -> P c -> lt a b = true -> lt b c = true -> lt a c = true;
  so_equivalence : forall a b c, P a -> P b -> P c ->
    lt a b = false -> lt b a = false -> lt b c = false -> lt c b = false ->
    lt a c = false /\ lt c a = false }.
(* the comparator as used for the track nodes and the elements of a section: up for
   rising order (std::less), down for falling order (std::greater) *)
(* FINDING.  Kilometrages closer than a centimetre count as equal, so three signals
   six millimetres apart can be ordered in a circle. *)
Theorem C49_comparator_refuted up : ~ strict_weak_order (fun _ => True) (order_impl up).
Proof.
  intros [_ T _]. destruct up.
  - specialize (T (mkkey (12#1000) MAIN_SIGNAL true 1) (mkkey (6#1000) MAIN_SIGNAL true 2)
                  (mkkey 0 MAIN_SIGNAL true 3) Logic.I Logic.I Logic.I eq_refl eq_refl). discriminate T.
  - specialize (T (mkkey 0 MAIN_SIGNAL true 1) (mkkey (6#1000) MAIN_SIGNAL true 2)
                  (mkkey (12#1000) MAIN_SIGNAL true 3) Logic.I Logic.I Logic.I eq_refl eq_refl). discriminate T.
Qed.
Print Assumptions C49_comparator_refuted.
Theorem C49_comparator_partial up (P : okey -> Prop) :
  (forall a b, P a -> P b -> apart (k_km a) (k_km b)) -> strict_weak_order P (order_impl up).
Proof.
  intros A. assert (O : forall a b, P a -> P b -> order_impl up a b = true <-> klt up a b).
  { intros a b Ha Hb. apply order_iff. apply A; auto. }
  assert (O' : forall a b, P a -> P b -> order_impl up a b = false <-> ~ klt up a b).
  { intros a b Ha Hb. rewrite <- (O a b Ha Hb). destruct (order_impl up a b); split; congruence. }
  split.
  - intros a Ha. apply O'; auto. apply klt_irr.
  - intros a b c Ha Hb Hc. rewrite !O by auto. apply klt_tra.
  - intros a b c Ha Hb Hc. rewrite !O' by auto. intros N1 N2 N3 N4.
    destruct (klt_tot up a b) as [X|[X|(X1 & X2 & X3)]]; try tauto.
    destruct (klt_tot up b c) as [Y|[Y|(Y1 & Y2 & Y3)]]; try tauto.
    unfold klt in *. split; intros [H|[H [K|[_ K]]]]; try lia; destruct up; lra.
Qed.
Print Assumptions C49_comparator_partial.
(* the elements of the switch section above, in both directions *)
Example C49_sat : strict_weak_order (fun k => exists n, In n (concat (map (fun p => xs_track (snd p)) (plan ex_plan))) /\ k = node_key n)
                    (order_impl true) /\
  map tn_id (sort_nodes true (xs_track (snd (nth 0 (plan ex_plan) (0, mkxsec 0 (ex_node N_BUMPER 0 0 0 "") (ex_node N_BUMPER 0 0 0 "") []))))) = [11; 12; 10]%N.
Proof.
  split; [|reflexivity]. apply C49_comparator_partial. intros a b (n & Hn & ->) (m & Hm & ->). cbn [node_key k_km].
  cbn in Hn, Hm. destruct Hn as [<-|[<-|[<-|[]]]], Hm as [<-|[<-|[<-|[]]]]; unfold apart; cbn; lra.
Qed.

(* ---- C64 ---- *)
(* The runs are those of C63: the same run serves both statements. *)
Theorem C64_sections_as_drawn l : well_drawn l -> no_meta l ->
  exists g ls run arrive, import l = Ok g /\ connect_nodes g = Ok ls /\
    drives_as_drawn l g ls run arrive /\ sections_as_drawn l g run.
Proof. exact (network_sections l). Qed.
Print Assumptions C64_sections_as_drawn.

(* The elements of a plan have their types from the names in the input
   (parse_iss.cc:357-417); no name has the type META, which is what the import
   itself puts on ways without elements. *)
Definition from_names (l : list xstation) : Prop :=
  forall s x n, section_at l s x -> In n (xs_track x) -> exists name, tn_type n = get_type name.
Theorem C64_no_name_is_meta name : get_type name <> META.
Proof.
  unfold get_type. destruct (List.find _ iss_names) as [p|] eqn:E; [|discriminate].
  apply List.find_some in E as [I _]. revert p I. apply List.Forall_forall.
  unfold iss_names. repeat (constructor; [discriminate|]). constructor.
Qed.
Print Assumptions C64_no_name_is_meta.
Theorem C64_sections_as_read l : well_drawn l -> from_names l ->
  exists g ls run arrive, import l = Ok g /\ connect_nodes g = Ok ls /\
    drives_as_drawn l g ls run arrive /\ sections_as_drawn l g run.
Proof.
  intros W F. apply network_sections; [exact W|]. intros s x n S I. destruct (F s x n S I) as [name ->].
  apply C64_no_name_is_meta.
Qed.
Print Assumptions C64_sections_as_read.

Example C64_sat_read : from_names ex_plan.
Proof.
  intros s x n H. ex_sec H; cbn [xs_track In]; intros I; repeat (destruct I as [<-|I]); try destruct I; cbn [tn_type];
    [exists (list_ascii_of_string "HauptsignalS")|exists (list_ascii_of_string "HalteplatzGzF")|exists (list_ascii_of_string "Tunnel")];
    vm_compute; reflexivity.
Qed.
Example C64_sat : no_meta ex_plan.
Proof. intros s x n H. ex_sec H; cbn [xs_track In]; intuition (subst; discriminate). Qed.
(* first section: bumper, halt (against the kilometrage), tunnel, signal, switch;
   last one: the border between the stations *)
Example C64_sat_sections : exists g, import ex_plan = Ok g /\
  map sc_rising (g_secs g) = [[0; 4; 2; 3; 1]; [1; 6; 7; 5]; [1; 9; 10; 8]; [11; 13; 14; 12]; [5; 11]] /\
  map sc_falling (g_secs g) = [[1; 2; 3; 4; 0]; [5; 7; 6; 1]; [8; 10; 9; 1]; [12; 14; 13; 11]; [11; 5]].
Proof. eexists. split; [vm_compute; reflexivity|]. split; reflexivity. Qed.
