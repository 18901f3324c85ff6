(* C96: the exported exclusion graph.

   Reading guide: [file_of text rows] (ExportSpec.v) says that the text consists
   of one line per row, in which every number of the row is written in decimal
   and followed by a blank.  [in_conflict], [follows] and [exclusion_input] are
   those of PropsExcl.v: two routes are in conflict if they use a common element
   and neither starts where the other one ends. *)
From Coq Require Import Sorted Ascii String ZifyBool ZifyNat ZifyN.
From Coq Require Import List NArith.
From Verif Require Import Base AlgoModel AlgoProofs RouteModel RouteSpec RouteIter RouteIndex ExclModel PropsRoute PropsAlgo PropsExcl.
From Verif Require Import ExportModel ExportSpec ExportProofs.
Import ExclusionSetModel(es, es_index, es_expanded).
Import ListNotations.
Local Open Scope nat_scope.

(* the graph g is the one the infrastructure computes for the routes, whatever
   the number of threads and their schedule *)
Definition computed (pick : list (list N) -> nat) (srs : list sroute) (irs : list iroute)
    (closed : list (list N)) (nodes elements : nat) (g : list es) : Prop :=
  exists T s1 s2 s3 sched used_by sa ea, 0 < T /\
    get_closed_element_used_by T s1 s2 s3 closed elements = Ok used_by /\
    get_starting_at srs nodes irs = Ok sa /\ get_ending_at srs nodes irs = Ok ea /\
    get_exclusion_graph pick srs closed used_by sa ea sched irs = Ok g.

Lemma computed_sets pick srs irs closed nodes elements g :
  top_ok pick -> exclusion_input srs irs closed nodes elements ->
  computed pick srs irs closed nodes elements g ->
  length g = length irs /\
  forall i s, nth_error g i = Some s ->
    StronglySorted N.lt (es_expanded s) /\
    (forall j, In j (es_expanded s) <-> in_conflict srs irs closed i (N.to_nat j)) /\
    ExclusionSetModel.es_iterate s = Ok (es_expanded s).
Proof.
  intros PK EI (T & s1 & s2 & s3 & sched & ub & sa & ea & HT & E1 & E2 & E3 & E4).
  destruct (C35_exclusion_graph pick srs irs closed nodes elements T s1 s2 s3 sched PK EI HT)
    as [ub' [sa' [ea' [g' [E1' [E2' [E3' [E4' [Lg H]]]]]]]]].
  assert (ub' = ub) by congruence. assert (sa' = sa) by congruence. assert (ea' = ea) by congruence. subst.
  assert (g' = g) by congruence. subst g'. split; [exact Lg|]. intros i s Es. apply (H i s Es).
Qed.

(* Line i lists the routes that are in conflict with route i, in ascending
   order: the smaller ones, or all of them if route i ends where it starts. *)
Theorem C96_rows : forall pick srs irs closed nodes elements g,
  top_ok pick -> exclusion_input srs irs closed nodes elements ->
  computed pick srs irs closed nodes elements g ->
  exists text rows, write_out g = Ok text /\ file_of text rows /\ length rows = length irs /\
    forall i row, nth_error rows i = Some row ->
      StronglySorted N.lt row /\
      forall j, In j row <->
        in_conflict srs irs closed i (N.to_nat j) /\ (N.to_nat j < i \/ follows srs irs i i).
Proof.
  intros pick srs irs closed nodes elements g PK EI C.
  destruct (computed_sets _ _ _ _ _ _ _ PK EI C) as [Lg H].
  destruct (write_nodes_file g 0) as [text [rows [E [F [L R]]]]].
  { intros k s Es. apply (H k s Es). }
  exists text, rows. split; [exact E|]. split; [exact F|]. split; [congruence|].
  intros i row Er. destruct (R i row Er) as [s [Es ->]]. destruct (H i s Es) as [SS [IN _]].
  rewrite N.add_0_l. destruct (until_sorted (N.of_nat i) _ SS) as [US UM]. split; [exact US|].
  intros j. destruct (in_dec N.eq_dec (N.of_nat i) (es_expanded s)) as [I|NI].
  - rewrite (UM I), IN. apply IN in I. rewrite Nnat.Nat2N.id in I. destruct I as [_ [NF _]].
    split; [intros [A B]; split; [exact A|left; lia]|]. intros [A [B|B]]; [split; [exact A|lia]|contradiction].
  - rewrite (until_absent _ _ NI), IN. split; [|tauto]. intros A. split; [exact A|].
    destruct A as [[e [U1 U2]] _].
    assert (NC : ~ in_conflict srs irs closed i i).
    { intros X. apply NI. apply IN. rewrite Nnat.Nat2N.id. exact X. }
    destruct (EI) as [P IDS SM NB LC CS CE].
    assert (Hi : i < length irs) by (rewrite <- Lg; apply nth_error_Some; congruence).
    (* whether route i ends where it starts can be decided: both nodes are known *)
    destruct (nth_error irs i) as [r|] eqn:Ei; [|apply nth_error_None in Ei; lia].
    assert (D : follows srs irs i i \/ ~ follows srs irs i i).
    { rewrite Forall_forall in P. pose proof (P r (nth_error_In _ _ Ei)) as [W [NE [Ls Le]]].
      destruct (RouteIter.first_node_ok srs r W NE Ls) as [a [_ Ca]].
      destruct (RouteIter.last_node_ok srs r W NE Le) as [b [_ Cb]].
      destruct (N.eq_dec a b) as [->|Dab].
      - left. exists r, r, b. repeat split; assumption.
      - right. intros [r1 [r2 [n [X1 [X2 [X3 X4]]]]]]. assert (r1 = r) by congruence. assert (r2 = r) by congruence.
        subst r1 r2. apply Dab. transitivity n.
        + exact (RouteIndex.cell_node_fun srs _ _ _ Ca X4).
        + exact (RouteIndex.cell_node_fun srs _ _ _ X3 Cb). }
    destruct D as [D|D]; [right; exact D|]. exfalso. apply NC. split; [exists e; split; exact U1|split; exact D].
Qed.
Print Assumptions C96_rows.

(* the text determines the rows: nothing is lost by writing them *)
Theorem C96_readable : forall text rows rows', file_of text rows -> file_of text rows' -> rows = rows'.
Proof. intros text rows rows' F. exact (file_unique text rows F rows'). Qed.
Print Assumptions C96_readable.

(* If no route ends where it starts, every conflict of two routes is written
   exactly once: the smaller route in the line of the larger one.
   Missing for the full claim: routes that end where they start. *)
Theorem C96_once_partial : forall pick srs irs closed nodes elements g text rows,
  top_ok pick -> exclusion_input srs irs closed nodes elements ->
  (forall i, ~ follows srs irs i i) ->
  computed pick srs irs closed nodes elements g -> write_out g = Ok text -> file_of text rows ->
  length rows = length irs /\
  forall i j ri rj, i < j -> nth_error rows i = Some ri -> nth_error rows j = Some rj ->
    (in_conflict srs irs closed i j <-> In (N.of_nat i) rj) /\
    ~ In (N.of_nat j) ri /\ NoDup rj.
Proof.
  intros pick srs irs closed nodes elements g text rows PK EI NS C W F.
  destruct (C96_rows pick srs irs closed nodes elements g PK EI C) as [t [rs [E [F' [L R]]]]].
  assert (t = text) by congruence. subst t. rewrite <- (C96_readable _ _ _ F F') in *. split; [exact L|].
  intros i j ri rj Lt Ei Ej. destruct (R i ri Ei) as [_ Hi]. destruct (R j rj Ej) as [Sj Hj]. split; [|split].
  - rewrite Hj, Nnat.Nat2N.id. unfold in_conflict. split.
    + intros [[e [A B]] [X Y]]. split; [|left; exact Lt]. split; [exists e; split; assumption|split; assumption].
    + intros [[[e [A B]] [X Y]] _]. split; [exists e; split; assumption|split; assumption].
  - rewrite Hi, Nnat.Nat2N.id. intros [_ [X|X]]; [lia|exact (NS i X)].
  - clear -Sj. induction Sj as [|a l S IH F]; constructor; [|exact IH].
    intros I. rewrite Forall_forall in F. specialize (F a I). lia.
Qed.
Print Assumptions C96_once_partial.

(* hence the file determines which routes are in conflict *)
Theorem C96_determines_partial : forall pick pick' srs irs closed n m g srs' irs' closed' n' m' g' text,
  top_ok pick -> exclusion_input srs irs closed n m -> computed pick srs irs closed n m g ->
  top_ok pick' -> exclusion_input srs' irs' closed' n' m' -> computed pick' srs' irs' closed' n' m' g' ->
  (forall i, ~ follows srs irs i i) -> (forall i, ~ follows srs' irs' i i) ->
  write_out g = Ok text -> write_out g' = Ok text ->
  length irs = length irs' /\
  forall i j, i < length irs -> j < length irs -> i <> j ->
    (in_conflict srs irs closed i j <-> in_conflict srs' irs' closed' i j).
Proof.
  intros pick pick' srs irs closed n m g srs' irs' closed' n' m' g' text PK EI C PK' EI' C' NS NS' W W'.
  destruct (C96_rows pick srs irs closed n m g PK EI C) as [t [rows [E [F _]]]].
  assert (t = text) by congruence. subst t.
  destruct (C96_once_partial _ _ _ _ _ _ _ _ _ PK EI NS C W F) as [L H].
  destruct (C96_once_partial _ _ _ _ _ _ _ _ _ PK' EI' NS' C' W' F) as [L' H'].
  split; [congruence|].
  assert (SY : forall srs irs closed a b, in_conflict srs irs closed a b <-> in_conflict srs irs closed b a).
  { intros. unfold in_conflict. split; intros [[e [A B]] [X Y]]; (split; [exists e; split; assumption|split; assumption]). }
  assert (K : forall i j, i < length irs -> j < length irs -> i < j ->
    (in_conflict srs irs closed i j <-> in_conflict srs' irs' closed' i j)).
  { intros i j Hi Hj Lt. rewrite <- L in Hi, Hj.
    destruct (nth_error rows i) as [ri|] eqn:Ei; [|apply nth_error_None in Ei; lia].
    destruct (nth_error rows j) as [rj|] eqn:Ej; [|apply nth_error_None in Ej; lia].
    destruct (H i j ri rj Lt Ei Ej) as [X _]. destruct (H' i j ri rj Lt Ei Ej) as [Y _]. rewrite X, Y. reflexivity. }
  intros i j Hi Hj D. destruct (Nat.lt_ge_cases i j) as [Lt|Ge]; [apply K; assumption|].
  rewrite SY, (SY srs'). apply K; [assumption|assumption|lia].
Qed.
Print Assumptions C96_determines_partial.

(* Two routes of ex_srs: the first one consists of a single signal, so it ends
   where it starts, and its conflict with the second one is written twice. *)
Definition ex_two := [mkir 0 2 3 [2]; mkir 1 1 2 [0; 1; 2]].
Definition ex_two_closed : list (list N) := [[4]; [1; 4]]%N.
Theorem C96_once_refuted : exists g,
  exclusion_input ex_srs ex_two ex_two_closed 16 6 /\
  computed (fun q => fst (first_min q)) ex_srs ex_two ex_two_closed 16 6 g /\
  write_out g = Ok (list_ascii_of_string "1 " ++ "010"%char :: list_ascii_of_string "0 " ++ ["010"%char]) /\
  exists rows r0 r1, file_of (list_ascii_of_string "1 " ++ "010"%char :: list_ascii_of_string "0 " ++ ["010"%char]) rows /\
    nth_error rows 0 = Some r0 /\ nth_error rows 1 = Some r1 /\ In 1%N r0 /\ In 0%N r1.
Proof.
  assert (EI : exclusion_input ex_srs ex_two ex_two_closed 16 6).
  { destruct C38_example as [_ [P [NB _]]]. constructor.
    - repeat constructor; cbn; try lia; try discriminate;
        intros s Hs; intuition subst; eexists; (split; [reflexivity|reflexivity]).
    - intros [|[|k]] r E; try (injection E as <-; reflexivity). destruct k; discriminate E.
    - cbn. lia.
    - exact NB.
    - reflexivity.
    - intros row I. cbn in I. intuition subst; repeat constructor; discriminate.
    - intros [|[|i]] e [els [E I]]; try (destruct i; discriminate E); injection E as <-; cbn in I; intuition subst; cbn; lia. }
  eexists. split; [exact EI|]. split; [|split].
  - exists 1, [], [], [], [], [[]; [1]; []; []; [0; 1]; []]%N. do 2 eexists. split; [lia|].
    split; [vm_compute; reflexivity|]. split; [vm_compute; reflexivity|]. split; [vm_compute; reflexivity|].
    vm_compute. reflexivity.
  - vm_compute. reflexivity.
  - exists [[1]; [0]]%N, [1]%N, [0]%N. split; [|cbn; tauto].
    assert (SP : forall c n, is_digit c -> digits_value [c] = n -> spells [c] n).
    { intros c n D V. split; [discriminate|]. split; [repeat constructor; exact D || (destruct D; assumption)|]. split; [exact V|].
      intros rest E. injection E as _ <-. reflexivity. }
    apply (file_cons ["1"; " "]%char [1]%N (["0"; " "; "010"]%char) [[0]]%N).
    + apply (line_cons ["1"]%char 1%N [] []); [apply SP; [unfold is_digit; cbn; lia|reflexivity]|constructor].
    + apply (file_cons ["0"; " "]%char [0]%N [] []); [|constructor].
      apply (line_cons ["0"]%char 0%N [] []); [apply SP; [unfold is_digit; cbn; lia|reflexivity]|constructor].
Qed.
Print Assumptions C96_once_refuted.

(* the hypotheses of C96_once_partial: three of the routes of C35_example *)
Definition ex_three := [mkir 0 1 2 [0; 1; 2]; mkir 1 0 2 [0]; mkir 2 1 3 [2]].
Definition ex_three_closed : list (list N) := [[1; 2; 4]; [0; 1]; [1; 4; 5]]%N.
Example C96_example :
  exclusion_input ex_srs ex_three ex_three_closed 16 6 /\
  (forall i, ~ follows ex_srs ex_three i i) /\
  in_conflict ex_srs ex_three ex_three_closed 1 2 /\
  exists g, computed (fun q => fst (first_min q)) ex_srs ex_three ex_three_closed 16 6 g /\
    write_out g = Ok ("010"%char :: "010"%char :: list_ascii_of_string "1 " ++ ["010"%char]).
Proof.
  assert (NS : forall i r n, nth_error ex_three i = Some r -> ends_at ex_srs r n -> starts_at ex_srs r n -> False).
  { intros i r n E [sr [E1 E2]] [sr' [E1' E2']]. destruct i as [|[|[|i]]]; [| | |destruct i; discriminate E];
      injection E as <-; cbn in E1, E1'; injection E1 as <-; injection E1' as <-; cbn in E2, E2'; congruence. }
  split; [|split; [|split]].
  - destruct C38_example as [_ [P [NB _]]]. constructor.
    + repeat constructor; cbn; try lia; try discriminate;
        intros s Hs; intuition subst; eexists; (split; [reflexivity|reflexivity]).
    + intros [|[|[|k]]] r E; try (injection E as <-; reflexivity). destruct k; discriminate E.
    + cbn. lia.
    + exact NB.
    + reflexivity.
    + intros row I. cbn in I. intuition subst; repeat constructor; discriminate.
    + intros [|[|[|i]]] e [els [E I]]; try (destruct i; discriminate E); injection E as <-; cbn in I; intuition subst; cbn; lia.
  - intros i [r1 [r2 [n [E1 [E2 [A B]]]]]]. assert (r2 = r1) by congruence. subst r2. exact (NS i r1 n E1 A B).
  - split; [exists 1%N; split; eexists; (split; [reflexivity|]); cbn; tauto|].
    split; intros [r1 [r2 [n [E1 [E2 [[sr [A1 A2]] [sr' [B1 B2]]]]]]]]; injection E1 as <-; injection E2 as <-;
      cbn in A1, B1; injection A1 as <-; injection B1 as <-; cbn in A2, B2; congruence.
  - eexists. split.
    + exists 1, [], [], [], []. do 3 eexists. split; [lia|].
      split; [vm_compute; reflexivity|]. split; [vm_compute; reflexivity|]. split; [vm_compute; reflexivity|].
      vm_compute. reflexivity.
    + vm_compute. reflexivity.
Qed.
