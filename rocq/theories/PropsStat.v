(* C95 the statistics of a plan agree with the network loaded from it *)
From Coq Require Import List Bool NArith QArith String Lia.
From Verif Require Import Base TextModel InfraModel InfraSpec InfraSecSpec PropsInfra StatModel StatSpec StatProofs.
Import ListNotations.
Local Open Scope nat_scope.

Theorem C95_elements_counted l : well_drawn l -> plain_inside l -> no_meta l ->
  exists g, import l = Ok g /\
    (forall t, t <> META -> t <> INVALID -> is_number (get_infra_stats l) t = elements g t) /\
    is_number (get_infra_stats l) META = 0 /\
    number_of (empty_way l) (elements g META) /\
    total_elements (get_infra_stats l) + elements g META = List.length (g_elems g) /\
    is_stations (get_infra_stats l) = List.length l.
Proof.
  intros A B C. destruct (counted l A B C) as (g & k & H & H1 & H2 & H3 & H4 & H5 & _). exists g. auto 7.
Qed.
Print Assumptions C95_elements_counted.

Theorem C95_sections_partial l : well_drawn l -> plain_inside l -> no_meta l -> closed_plan l ->
  exists g, import l = Ok g /\ is_sections (get_infra_stats l) = List.length (g_secs g).
Proof.
  intros A B C D. destruct (counted l A B C) as (g & k & H & _ & _ & _ & _ & _ & (xs & _ & X & <-) & E). exists g. split; auto.
  destruct xs as [|p xs]; [rewrite E; change (List.length [] / 2) with 0; lia|]. exfalso. apply (D p). apply X. left. reflexivity.
Qed.
Print Assumptions C95_sections_partial.

(* with borders that lead out of the plan, by how much it is wrong *)
Theorem C95_sections_excess l : well_drawn l -> plain_inside l -> no_meta l ->
  exists g k, import l = Ok g /\ number_of (leads_out l) k /\
    is_sections (get_infra_stats l) = List.length (g_secs g) + k / 2.
Proof.
  intros A B C. destruct (counted l A B C) as (g & k & H & _ & _ & _ & _ & _ & X & E). exists g, k. auto.
Qed.
Print Assumptions C95_sections_excess.

Example C95_sat : well_drawn ex_plan /\ plain_inside ex_plan /\ no_meta ex_plan /\ closed_plan ex_plan.
Proof.
  split; [exact C63_sat|]. split; [|split].
  - intros s x n H I. ex_sec H; cbn in I; repeat (destruct I as [<-|I]; [left; reflexivity|]); destruct I.
  - intros s x n H I. ex_sec H; cbn in I; repeat (destruct I as [<-|I]; [discriminate|]); destruct I.
  - intros p (n & H & B & O). apply O. ex_node_at H; cbn in B; try discriminate; cbn; auto.
Qed.
Example C95_ex : map (is_number (get_infra_stats ex_plan)) [BUMPER; SIMPLE_SWITCH; BORDER; TUNNEL; META] = [2; 1; 2; 1; 0] /\
  total_elements (get_infra_stats ex_plan) = 9 /\ is_sections (get_infra_stats ex_plan) = 5.
Proof. repeat split; vm_compute; reflexivity. Qed.

(* FINDING (why C95 is partial).  Two borders that lead out of the plan are
   counted as a section between them; none is built. *)
Definition out_plan : list xstation :=
  [mkxst "A" [mkxsec 100 (ex_node N_BORDER 1 0 0 "X") (ex_node N_BORDER 2 0 1 "Y") []]].
Theorem C95_sections_refuted : well_drawn out_plan /\ plain_inside out_plan /\ no_meta out_plan /\
  exists g, import out_plan = Ok g /\ List.length (g_secs g) = 1 /\ is_sections (get_infra_stats out_plan) = 2.
Proof.
  assert (S : forall s x, section_at out_plan s x -> s = 0 /\ x = mkxsec 100 (ex_node N_BORDER 1 0 0 "X") (ex_node N_BORDER 2 0 1 "Y") []).
  { intros s x (st & H). destruct s as [|[|s]]; cbn in H; try discriminate. injection H as <- <-. auto. }
  assert (N : forall p n, node_at out_plan p n -> p = (0, snd p) /\ n = if snd p then ex_node N_BORDER 2 0 1 "Y" else ex_node N_BORDER 1 0 0 "X").
  { intros [s b] n (x & H & ->). apply S in H. cbn [fst snd] in *. destruct H as [-> ->]. auto. }
  split.
  - split.
    + vm_compute. repeat constructor; cbn; intuition discriminate.
    + intros i H. vm_compute in H. repeat (destruct H as [<-|H]; [reflexivity|]). destruct H.
    + intros p n H. exists p, n. split; auto. apply N in H. destruct H as [_ ->]. destruct (snd p); repeat split.
    + intros p q n m H G D P. apply N in H, G. destruct H as [-> ->], G as [-> ->].
      destruct p as [? []], q as [? []]; cbn in *; congruence.
    + intros p n t H T. apply N in H. destruct H as [_ ->]. destruct (snd p); destruct T.
    + intros s x H. apply S in H. destruct H as [_ ->]. discriminate.
    + intros s x a b H A. apply S in H. destruct H as [_ ->]. destruct A.
    + intros s x H. apply S in H. destruct H as [_ ->]. constructor.
    + intros p q n m ln H G D [T|T]; apply N in H; destruct H as [_ ->]; destruct (snd p); discriminate.
    + intros p n H. apply N in H. destruct H as [_ ->]. destruct (snd p); split; discriminate.
    + repeat constructor; cbn; tauto.
    + intros p n H _ X. apply N in H. destruct H as [_ ->]. destruct (snd p); cbn in X; destruct X as [X|[]]; discriminate.
  - split; [intros s x n H I; apply S in H; destruct H as [_ ->]; destruct I|].
    split; [intros s x n H I; apply S in H; destruct H as [_ ->]; destruct I|].
    eexists. split; [vm_compute; reflexivity|]. split; reflexivity.
Qed.
Print Assumptions C95_sections_refuted.
