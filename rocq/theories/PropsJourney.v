(* C115: the journey of a train of an imported timetable, on the rail plan. *)
From Coq Require Import List Bool NArith ZArith QArith String Sorted Arith Lia.
From Verif Require Import Base TextModel InfraModel InfraSpec StationModel StationSpec StationPath StationProofs StationNet StationWay
  WholeModel WholeSpec WholeProofs WholeWay WholeLoad PropsInfra PropsStation PropsWhole.
From Verif Require RouteModel RouteSpec RouteIter RouteIndex PropsRoute TransformModel TransformProofs PropsTransform
  TrainIterModel TrainIterProofs PropsTrainIter LineModel.
Import ListNotations.
Local Open Scope nat_scope.

(* ---- specification ----
   may_go, unbroken: WholeSpec.v.  journey, departs_from, arrives_at, in_order:
   PropsTrainIter.v. *)

(* the tables of the loaded interlocking the import of trains reads *)
Definition tables_of (ld : loaded) : PropsTransform.interlocking :=
  PropsTransform.mkil (il_routes (ld_il ld)) (il_participating (ld_il ld))
    (il_starting_at (ld_il ld)) (il_halting_at (ld_il ld)).
(* the runtime checkpoint of a station route *)
Definition checkpoint_of (ld : loaded) (s : nat) : option nat :=
  match nth_error (inf_routes (ld_infra ld)) s with Some r => ro_checkpoint r | None => None end.
(* the train the import makes of a sequence of station routes *)
Definition imported (ld : loaded) (freight : bool) (fuel : nat) (ss : TransformModel.stopseq) (t : TrainIterModel.train) : Prop :=
  exists path pts,
    PropsTransform.transform (ld_srs ld) (checkpoint_of ld) (tables_of ld) freight fuel ss = Ok (inr (path, pts)) /\
    t = TrainIterModel.mktrain (TransformModel.ss_break_in ss) (TransformModel.ss_break_out ss) path pts.
(* the element the plan of a station route names as its halt *)
Definition halt_of_plan (l : list (xstation * list xroute)) (inf : infrastructure) (freight : bool) (s : nat) (i : nat) : Prop :=
  exists st x id, nth_error (routes_of l) s = Some (st, x) /\
    (if freight then xr_freight x else xr_passenger x) = Some id /\ names (inf_graph inf) id i.

(* a halt is measured at the halt the plan names, a timed run through at the runtime
   checkpoint it names *)
Definition measured_at (l : list (xstation * list xroute)) (inf : infrastructure) (freight : bool)
  (p : TransformModel.seqpoint) (n : node) : Prop :=
  if TransformModel.sp_halt p then halt_of_plan l inf freight (TransformModel.sp_sr p) (fst n)
  else TransformModel.sp_timed p = true /\
       exists st x id, nth_error (routes_of l) (TransformModel.sp_sr p) = Some (st, x) /\
         xr_checkpoint x = Some id /\ names (inf_graph inf) id (fst n).

(* ---- proofs ---- *)
Section JOURNEY.
  Variables (fuel : nat) (l : list (xstation * list xroute)) (files : list (list LineModel.xml_line)) (ld : loaded).
  Hypothesis LD : load fuel l files = Ok ld.
  Notation inf := (ld_infra ld).
  Notation srs := (ld_srs ld).

  Lemma ld_built : PropsTransform.built srs (List.length (all_nodes (inf_graph inf))) (tables_of ld).
  Proof.
    destruct (ld_tables fuel l files ld LD) as (T1 & T2 & _ & T4 & _). unfold PropsTransform.built, tables_of.
    cbn [PropsTransform.il_routes PropsTransform.il_part PropsTransform.il_start PropsTransform.il_halt].
    split; [|split; [apply Forall_forall; exact (ld_proper fuel l files ld LD)|]; split; [exact (ld_below fuel l files ld LD)|auto]].
    assert (G : forall rs a, (forall k r, nth_error rs k = Some r -> RouteModel.ir_id r = N.of_nat (a + k)) ->
      map RouteModel.ir_id rs = map N.of_nat (seq a (List.length rs))).
    { induction rs as [|r rs IH]; intros a H; cbn; [reflexivity|].
      rewrite (H 0 r eq_refl), Nat.add_0_r. f_equal. apply IH. intros k q K. rewrite (H (S k) q K). f_equal. lia. }
    apply G. exact (ld_id fuel l files ld LD).
  Qed.

  Lemma unbroken_app ls p n q : unbroken ls (p ++ [n]) -> unbroken ls (n :: q) -> unbroken ls (p ++ n :: q).
  Proof.
    intros U V k a b A B. destruct (Nat.lt_ge_cases k (List.length p)) as [L|L].
    - apply (U k a b); [rewrite nth_error_app1 in * by exact L; exact A|].
      destruct (Nat.eq_dec (S k) (List.length p)) as [E|E].
      + rewrite nth_error_app2 in * by lia. rewrite E, Nat.sub_diag in *. exact B.
      + rewrite nth_error_app1 in * by lia. exact B.
    - rewrite nth_error_app2 in A, B by lia. replace (S k - List.length p) with (S (k - List.length p)) in B by lia.
      exact (V _ _ _ A B).
  Qed.
  Lemma unbroken_sub ls p q r : unbroken ls (p ++ q ++ r) -> unbroken ls q.
  Proof.
    intros U k a b A B. apply (U (List.length p + k) a b).
    - rewrite nth_error_app2, Nat.add_comm, Nat.add_sub by lia. rewrite nth_error_app1; [exact A|]. apply nth_error_Some. congruence.
    - rewrite nth_error_app2 by lia. replace (S (List.length p + k) - List.length p) with (S k) by lia.
      rewrite nth_error_app1; [exact B|]. apply nth_error_Some. congruence.
  Qed.

  Lemma journey_unbroken : well_drawn (map fst l) -> at_home l -> forall rs,
    rs <> [] -> (forall r, In r rs -> In r (il_routes (ld_il ld))) -> TransformProofs.consecutive (TransformProofs.meets srs) rs ->
    exists p, Forall2 (node_of inf) (PropsTrainIter.journey srs rs) p /\ unbroken (inf_links inf) p.
  Proof.
    intros WD AH rs. destruct rs as [|r rs]; [congruence|]. intros _. revert r.
    (* from the last route to the first one *)
    assert (G : forall rs r, (forall q, In q (r :: rs) -> In q (il_routes (ld_il ld))) ->
      TransformProofs.consecutive (TransformProofs.meets srs) (r :: rs) ->
      exists p n q, nodes_of ld r (p ++ [n]) /\ Forall2 (node_of inf) (concat (map (fun r => tl (RouteSpec.ir_cells srs r)) rs)) q /\
        unbroken (inf_links inf) ((p ++ [n]) ++ q) /\ unbroken (inf_links inf) (n :: q)).
    { induction rs0 as [|r2 rs0 IH]; intros r I C.
      - destruct (nodes_ex fuel l files ld LD r (I r (or_introl eq_refl))) as [p P].
        pose proof (route_unbroken fuel l files ld LD r p WD AH (I r (or_introl eq_refl)) P) as U.
        destruct (@exists_last _ p) as (p' & n & ->).
        { intros ->. unfold nodes_of in P. inversion P. apply (ld_proper fuel l files ld LD r (I r (or_introl eq_refl))). auto. }
        exists p', n, []. split; [exact P|]. split; [constructor|]. rewrite app_nil_r. split; [exact U|].
        apply (unbroken_sub _ p' [n] []). rewrite app_nil_r. exact U.
      - destruct C as [M C]. destruct (IH r2) as (p2 & n2 & q2 & P2 & Q2 & U2 & V2); [intros q Q; apply I; right; exact Q|exact C|].
        assert (Ir : In r (il_routes (ld_il ld))) by (apply I; left; reflexivity).
        assert (I2 : In r2 (il_routes (ld_il ld))) by (apply I; right; left; reflexivity).
        destruct (nodes_ex fuel l files ld LD r Ir) as [p P].
        pose proof (route_unbroken fuel l files ld LD r p WD AH Ir P) as U.
        destruct (@exists_last _ p) as (p' & n & ->).
        { intros ->. unfold nodes_of in P. inversion P. apply (ld_proper fuel l files ld LD r Ir). auto. }
        destruct M as (m & E & S).
        (* the node both routes share *)
        assert (Vn : In n (all_nodes (inf_graph inf))).
        { unfold nodes_of in P. apply Forall2_app_inv_r in P. destruct P as (u & v & _ & Q & _).
          inversion Q as [|c ? ? ? Q1]; subst. apply (node_of_valid fuel l files ld LD c n Q1). }
        assert (En : m = node_id (inf_graph inf) n).
        { assert (En : RouteSpec.ends_at srs r (node_id (inf_graph inf) n)) by (apply (last_node fuel l files ld LD r n Ir Vn); eauto).
          unfold RouteSpec.ends_at, RouteSpec.cell_node in *. destruct E as (a & A1 & A2). destruct En as (b & B1 & B2). congruence. }
        subst m. apply (hd_node fuel l files ld LD r2 n I2 Vn) in S. destruct S as [p3 P3].
        assert (EQ : p2 ++ [n2] = n :: p3).
        { clear - P2 P3 LD. unfold nodes_of in *. revert P2 P3. generalize (p2 ++ [n2]) (n :: p3).
          induction (RouteSpec.ir_cells srs r2) as [|c cs IH]; intros x y X Y; inversion X; inversion Y; subst; [reflexivity|].
          f_equal; [eapply node_of_fun; eauto|apply IH; assumption]. }
        exists p', n, (p3 ++ q2). split; [exact P|].
        assert (U3 : unbroken (inf_links inf) (n :: p3 ++ q2)).
        { rewrite EQ in U2. exact U2. }
        split; [|split; [rewrite <- app_assoc; apply unbroken_app; [exact U|exact U3]|exact U3]].
        cbn [map concat]. apply Forall2_app; [|exact Q2]. unfold nodes_of in P3.
        destruct (RouteSpec.ir_cells srs r2); inversion P3; subst; assumption. }
    intros r I C. destruct (G rs r I C) as (p & n & q & P & Q & U & _). exists ((p ++ [n]) ++ q). split; [|exact U].
    cbn [PropsTrainIter.journey]. apply Forall2_app; [exact P|exact Q].
  Qed.

  Lemma halt_in_plan freight r p c n : PropsTrainIter.halts_on srs (checkpoint_of ld) freight r p c -> node_of inf c n ->
    halt_of_plan l inf freight (fst c) (fst n).
  Proof.
    intros (H & _ & S & P) (q & Q & N). destruct (ld_lines fuel l files ld LD) as [lines MS]. pose proof (ld_im fuel l files ld LD) as IM.
    destruct (sroute_at _ _ _ MS _ q Q) as (sr & E & T). destruct (route_at _ _ _ _ IM MS _ sr E) as (st & x & q' & X & Q' & _ & _ & C).
    assert (q' = q) by congruence. subst q'. destruct (to_sroute_fields _ _ _ _ T) as (_ & _ & _ & T1 & T2 & _).
    unfold PropsTransform.position in P. rewrite H, S, E in P.
    assert (G : halt_as_described (inf_graph inf) (ro_nodes q) (if freight then xr_freight x else xr_passenger x) (Some (snd c))).
    { destruct freight; [rewrite T2 in P; rewrite <- P; exact (co_freight _ _ _ _ _ _ C)|rewrite T1 in P; rewrite <- P; exact (co_passenger _ _ _ _ _ _ C)]. }
    exists st, x. unfold halt_as_described in G. destruct (if freight then xr_freight x else xr_passenger x) as [id|]; [|discriminate].
    destruct (N.eqb id (2 ^ 64 - 1)); [discriminate|]. destruct G as (i & A & (n' & B1 & B2 & B3) & _).
    exists id. split; [exact X|]. split; [reflexivity|]. assert (n' = n) by congruence. subst n'. rewrite B3. exact A.
  Qed.

  Lemma halt_place o g nodes i : halt_as_described g nodes o (Some i) ->
    exists id e n, o = Some id /\ names g id e /\ nth_error nodes i = Some n /\ fst n = e.
  Proof.
    unfold halt_as_described. destruct o as [id|]; [|discriminate]. destruct (N.eqb id (2 ^ 64 - 1)); [discriminate|].
    intros (e & A & (n & B & _ & C) & _). exists id, e, n. auto.
  Qed.
  Lemma ld_positions : PropsTransform.positions_valid srs (checkpoint_of ld).
  Proof.
    destruct (ld_lines fuel l files ld LD) as [lines MS]. pose proof (ld_im fuel l files ld LD) as IM. split.
    - intros s i H. unfold checkpoint_of in H. destruct (nth_error (inf_routes inf) s) as [q|] eqn:Q; [|discriminate].
      destruct (sroute_at _ _ _ MS _ q Q) as (sr & E & T). destruct (route_at _ _ _ _ IM MS _ sr E) as (st & x & q' & X & Q' & _ & _ & C).
      assert (q' = q) by congruence. subst q'. pose proof (co_checkpoint _ _ _ _ _ _ C) as G. rewrite H in G.
      apply halt_place in G. destruct G as (_ & _ & n & _ & _ & N & _). rewrite (len_at _ _ _ MS s q Q). apply nth_error_Some. congruence.
    - intros s sr i E H. destruct (route_at _ _ _ _ IM MS _ sr E) as (st & x & q & X & Q & T & _ & C).
      destruct (to_sroute_fields _ _ _ _ T) as (_ & _ & _ & T1 & T2 & _). rewrite T1, T2 in H.
      assert (G : exists o, halt_as_described (inf_graph inf) (ro_nodes q) o (Some i)).
      { destruct H as [H|H]; rewrite <- H; eexists; [exact (co_passenger _ _ _ _ _ _ C)|exact (co_freight _ _ _ _ _ _ C)]. }
      destruct G as [o G]. apply halt_place in G. destruct G as (_ & _ & n & _ & _ & N & _).
      rewrite (len_at _ _ _ MS s q Q). apply nth_error_Some. congruence.
  Qed.
  Lemma point_place freight p r i : In r (il_routes (ld_il ld)) ->
    PropsTransform.position srs (checkpoint_of ld) freight p = Some i -> In (TransformModel.sp_sr p, i) (RouteSpec.ir_cells srs r) ->
    exists n, node_of inf (TransformModel.sp_sr p, i) n /\ measured_at l inf freight p n.
  Proof.
    intros R P C. destruct (nodes_ex fuel l files ld LD r R) as [ns NS]. unfold nodes_of in NS.
    assert (G : exists n, node_of inf (TransformModel.sp_sr p, i) n).
    { clear - NS C. induction NS as [|c n cs ns H _ IH]; [destruct C|]. destruct C as [->|C]; [eauto|exact (IH C)]. }
    destruct G as [n N]. exists n. split; [exact N|]. unfold measured_at.
    destruct (TransformModel.sp_halt p) eqn:H.
    - exact (halt_in_plan freight r p (TransformModel.sp_sr p, i) n (conj H (conj C (conj eq_refl P))) N).
    - unfold PropsTransform.position in P. rewrite H in P. destruct (TransformModel.sp_timed p) eqn:TI; [|discriminate]. split; [reflexivity|].
      destruct N as (q & Q & N). cbn [fst snd] in *. unfold checkpoint_of in P. rewrite Q in P.
      destruct (ld_lines fuel l files ld LD) as [lines MS]. pose proof (ld_im fuel l files ld LD) as IM.
      destruct (sroute_at _ _ _ MS _ q Q) as (sr & E & T). destruct (route_at _ _ _ _ IM MS _ sr E) as (st & x & q' & X & Q' & _ & _ & K).
      assert (q' = q) by congruence. subst q'. pose proof (co_checkpoint _ _ _ _ _ _ K) as G. rewrite P in G.
      apply halt_place in G. destruct G as (id & e & n' & G1 & G2 & G3 & G4). assert (n' = n) by congruence. subst n' e.
      exists st, x, id. auto.
  Qed.
End JOURNEY.

(* ---- theorems ---- *)
(* The nodes shown for a train that the import of timetables made are joined one to
   the next by the tracks of the rail plan. A train that does not enter from outside
   starts at the element that the plan of its first station route names as its halt,
   one that does not leave ends at the element its last one names. *)
Theorem C115_journey_partial fuel l files ld freight fuel' ss t r1 rs a b :
  load fuel l files = Ok ld -> well_drawn (map fst l) -> at_home l ->
  imported ld freight fuel' ss t ->
  PropsTransform.routes_of (tables_of ld) (TrainIterModel.tr_path t) (r1 :: rs) ->
  (forall r, In r (r1 :: rs) -> NoDup (RouteModel.ir_srs r)) ->
  PropsTrainIter.departs_from (ld_srs ld) (checkpoint_of ld) freight t r1 a ->
  PropsTrainIter.arrives_at (ld_srs ld) (checkpoint_of ld) freight t (last rs r1) b ->
  (rs = [] -> PropsTrainIter.in_order (ld_srs ld) r1 a b) ->
  exists out p,
    TrainIterModel.iterate_train (ld_srs ld) (checkpoint_of ld) (il_routes (ld_il ld)) freight t = Ok out /\
    map RouteModel.rn_node out = map (node_id (inf_graph (ld_infra ld))) p /\
    (forall n, In n p -> In n (all_nodes (inf_graph (ld_infra ld)))) /\
    unbroken (inf_links (ld_infra ld)) p /\
    (exists n, hd_error p = Some n /\ node_of (ld_infra ld) a n /\
       (TransformModel.ss_break_in ss = false -> halt_of_plan l (ld_infra ld) freight (fst a) (fst n))) /\
    (exists n, hd_error (rev p) = Some n /\ node_of (ld_infra ld) b n /\
       (TransformModel.ss_break_out ss = false -> halt_of_plan l (ld_infra ld) freight (fst b) (fst n))).
Proof.
  intros LD WD AH (path & pts & TR & ->) RO ND D A O.
  pose proof (ld_built fuel l files ld LD) as B.
  destruct (PropsTransform.C39_connected _ _ _ _ _ _ _ _ _ B TR) as (r0 & rs0 & RO' & C & _).
  cbn [TrainIterModel.tr_path] in RO.
  assert (EQ : r0 :: rs0 = r1 :: rs).
  { clear - RO RO'. revert RO RO'. generalize (r1 :: rs) (r0 :: rs0). intros x y X. revert y.
    induction X as [|i r is rs2 E X IH]; intros y Y; inversion Y; subst; [reflexivity|]. f_equal; [congruence|apply IH; assumption]. }
  injection EQ as -> ->.
  assert (IN : forall r, In r (r1 :: rs) -> In r (il_routes (ld_il ld))).
  { clear - RO. revert RO. generalize (r1 :: rs). intros rs2 RO. induction RO as [|i r is rs3 E X IH]; intros q Q; [destruct Q|]. destruct Q as [<-|Q]; [exact (nth_error_In _ _ E)|exact (IH q Q)]. }
  assert (PL : Forall (PropsTrainIter.plain_route (ld_srs ld)) (r1 :: rs)).
  { apply Forall_forall. intros r R. split; [exact (ld_proper fuel l files ld LD r (IN r R))|exact (ND r R)]. }
  assert (OS : RouteSpec.omitted_sorted (ld_srs ld)).
  { destruct (ld_lines fuel l files ld LD) as [lines MS]. exact (r_omitted _ _ _ _ (ld_im fuel l files ld LD) MS). }
  destruct (PropsTrainIter.C72_journey (ld_srs ld) (checkpoint_of ld) (tables_of ld) freight (TrainIterModel.mktrain (TransformModel.ss_break_in ss) (TransformModel.ss_break_out ss) path pts) r1 rs a b OS RO PL C D A O)
    as (out & before & visited & after & E & SH & J & H1 & _ & _ & H2 & _).
  destruct (journey_unbroken fuel l files ld LD WD AH (r1 :: rs)) as (p & P & U); [discriminate|exact IN|exact C|].
  rewrite J in P. apply Forall2_app_inv_l in P. destruct P as (p1 & p' & P1 & P & ->).
  apply Forall2_app_inv_l in P. destruct P as (p2 & p3 & P2 & P3 & ->).
  exists out, p2. split; [exact E|].
  assert (NN : Forall2 (fun x n => RouteModel.rn_node x = node_id (inf_graph (ld_infra ld)) n) out p2).
  { clear - SH P2 LD. revert p2 P2. induction SH as [|x c xs cs S _ IH]; intros p2 P; inversion P as [|? n ? ns N NS]; subst; constructor; [|apply IH; exact NS].
    destruct S as [(sr & S1 & S2) _]. destruct (node_of_valid fuel l files ld LD c n N) as [_ (sr' & S3 & S4)]. congruence. }
  split; [clear - NN; induction NN; cbn; congruence|].
  split; [intros n I; clear - P2 I LD; induction P2 as [|c m cs ms M _ IH]; [destruct I|]; destruct I as [<-|I]; [exact (proj1 (node_of_valid fuel l files ld LD c m M))|exact (IH I)]|].
  split; [exact (unbroken_sub _ _ _ _ U)|]. split.
  - destruct visited as [|c cs]; [discriminate|]. injection H1 as ->. inversion P2 as [|? n ? ns N NS]; subst.
    exists n. split; [reflexivity|]. split; [exact N|]. intros F. unfold PropsTrainIter.departs_from in D.
    cbn [TrainIterModel.tr_break_in] in D. rewrite F in D. destruct D as (q & _ & Q). exact (halt_in_plan fuel l files ld LD freight r1 q a n Q N).
  - destruct H2 as (x & m & X & Y & Z).
    assert (NE : p2 <> []) by (intros ->; inversion NN; subst; discriminate).
    destruct (@exists_last _ p2 NE) as (p2' & n & ->). exists n. rewrite rev_app_distr. split; [reflexivity|].
    assert (Vn : In n (all_nodes (inf_graph (ld_infra ld)))).
    { apply Forall2_app_inv_r in P2. destruct P2 as (u & v & _ & Q & _). inversion Q as [|c ? ? ? Q1]; subst.
      exact (proj1 (node_of_valid fuel l files ld LD c n Q1)). }
    assert (K : node_of (ld_infra ld) b n).
    { apply (cell_node_is fuel l files ld LD b n Vn). apply Forall2_app_inv_r in NN. destruct NN as (u & v & _ & Q & ->).
      inversion Q as [|x' ? ? ? Q1 Q2]; subst. inversion Q2; subst. rewrite rev_app_distr in X. cbn in X. injection X as ->. rewrite <- Q1. exact Z. }
    split; [exact K|]. intros F. unfold PropsTrainIter.arrives_at in A. cbn [TrainIterModel.tr_break_out] in A. rewrite F in A.
    destruct A as (q & _ & Q). exact (halt_in_plan fuel l files ld LD freight _ q b n Q K).
Qed.
Print Assumptions C115_journey_partial.

(* Every sequence point of an imported train is measured at the element that the rail
   plan names, and that lies on a route of the train; when the train is shown, the
   point is shown there. *)
Theorem C115_points fuel l files ld freight fuel' ss t :
  load fuel l files = Ok ld -> imported ld freight fuel' ss t ->
  (N.of_nat (List.length (TransformModel.ss_points ss)) < 2 ^ 63)%N ->
  exists ns, Forall2 (measured_at l (ld_infra ld) freight) (TrainIterModel.tr_points t) ns /\
    (forall n, In n ns -> In n (all_nodes (inf_graph (ld_infra ld))) /\
       exists k r p, In k (TrainIterModel.tr_path t) /\ nth_error (il_routes (ld_il ld)) (N.to_nat k) = Some r /\ nodes_of ld r p /\ In n p) /\
    forall out, TrainIterModel.train_iterate (ld_srs ld) (checkpoint_of ld) (il_routes (ld_il ld)) freight t = Ok out ->
      forall x i, In x out -> TrainIterModel.tn_point x = Some i ->
      exists n, nth_error ns i = Some n /\ RouteModel.rn_node (TrainIterModel.tn_route x) = node_id (inf_graph (ld_infra ld)) n.
Proof.
  intros LD (path & pts & TR & ->) LEN. pose proof (ld_built fuel l files ld LD) as B.
  destruct (PropsTransform.C39_points _ _ _ _ _ _ _ _ _ B (ld_positions fuel l files ld LD) LEN TR) as (rs & RO & PT & _).
  cbn [TrainIterModel.tr_points TrainIterModel.tr_path].
  assert (IN : forall r, In r rs -> exists k, In k path /\ nth_error (il_routes (ld_il ld)) (N.to_nat k) = Some r).
  { clear - RO. induction RO as [|k r ks rs E _ IH]; intros q Q; [destruct Q|]. destruct Q as [<-|Q]; [exists k; split; [left; reflexivity|exact E]|].
    destruct (IH q Q) as (k' & K & E'). exists k'. split; [right; exact K|exact E']. }
  assert (G : exists ns, Forall2 (measured_at l (ld_infra ld) freight) pts ns /\
    Forall2 (PropsTrainIter.point_node (ld_srs ld) (checkpoint_of ld) freight) pts (map (node_id (inf_graph (ld_infra ld))) ns) /\
    (forall n, In n ns -> In n (all_nodes (inf_graph (ld_infra ld))) /\
       exists k r p, In k path /\ nth_error (il_routes (ld_il ld)) (N.to_nat k) = Some r /\ nodes_of ld r p /\ In n p)).
  { assert (PT' : forall p, In p pts -> exists r, In r rs /\ PropsTransform.passes (ld_srs ld) (checkpoint_of ld) freight r p) by (intros p P; exact (proj2 (PT p P))).
    clear - PT' IN LD. induction pts as [|p pts IH]; [exists []; split; [constructor|]; split; [constructor|intros n []]|].
    destruct IH as (ns & F1 & F2 & F3); [intros q Q; apply PT'; right; exact Q|].
    destruct (PT' p (or_introl eq_refl)) as (r & R & i & P & C). destruct (IN r R) as (k & K & E).
    destruct (point_place fuel l files ld LD freight p r i (nth_error_In _ _ E) P C) as (n & N & M).
    destruct (node_of_valid fuel l files ld LD _ n N) as [V CN].
    exists (n :: ns). split; [constructor; assumption|]. split; [cbn [map]; constructor; [exists i; auto|exact F2]|].
    intros m [<-|Im]; [|exact (F3 m Im)]. split; [exact V|].
    destruct (nodes_ex fuel l files ld LD r (nth_error_In _ _ E)) as [q Q]. exists k, r, q. split; [exact K|]. split; [exact E|]. split; [exact Q|].
    unfold nodes_of in Q. clear - Q C N. induction Q as [|c m cs ms H _ IH]; [destruct C|]. destruct C as [->|C]; [left; eapply node_of_fun; eauto|right; exact (IH C)]. }
  destruct G as (ns & F1 & F2 & F3). exists ns. split; [exact F1|]. split; [exact F3|]. intros out E x i X P.
  assert (E' := E). unfold TrainIterModel.train_iterate in E'. apply bind_Ok in E'. destruct E' as (w & W & _).
  destruct (PropsTrainIter.C72_points _ _ (tables_of ld) _ _ _ _ W F2) as (out' & k & E2 & _ & _ & _ & Q & _).
  cbn [tables_of PropsTransform.il_routes] in E2. assert (out' = out) by congruence. subst out'.
  specialize (Q x i X P). rewrite nth_error_map in Q. destruct (nth_error ns i) as [n|]; [|discriminate]. cbn in Q. injection Q as <-. eauto.
Qed.
Print Assumptions C115_points.

(* a train that starts at the signal of the first station and leaves behind the second
   one, and a train that runs through both *)
Definition journey_plan : list (xstation * list xroute) :=
  combine ex_plan [[mkxr false "1" 1 4 None (Some 10%N) None [] [] ["Stamm"%string] []];
                   [mkxr false "1" 7 8 None None None [] [] [] []]].
Definition passing (s : nat) : TransformModel.seqpoint :=
  TransformModel.mkpt TransformModel.TRANSIT TransformModel.TIME_INVALID TransformModel.TIME_INVALID 0 s.
Definition starting : TransformModel.stopseq :=
  TransformModel.mkss [TransformModel.mkpt TransformModel.PASSENGER 5 5 0 0; passing 1] false true.
Definition through : TransformModel.stopseq := TransformModel.mkss [passing 0; passing 1] true true.
Example C115_sat : well_drawn (map fst journey_plan) /\ at_home journey_plan /\
  exists ld t1 t2 r0 r1, load 10 journey_plan [] = Ok ld /\
    (imported ld false 10 starting t1 /\
     PropsTransform.routes_of (tables_of ld) (TrainIterModel.tr_path t1) [r0] /\
     PropsTrainIter.departs_from (ld_srs ld) (checkpoint_of ld) false t1 r0 (0, 2) /\
     PropsTrainIter.arrives_at (ld_srs ld) (checkpoint_of ld) false t1 r0 (1, 2) /\
     PropsTrainIter.in_order (ld_srs ld) r0 (0, 2) (1, 2)) /\
    (imported ld false 10 through t2 /\
     PropsTransform.routes_of (tables_of ld) (TrainIterModel.tr_path t2) [r1; r0] /\
     PropsTrainIter.departs_from (ld_srs ld) (checkpoint_of ld) false t2 r1 (0, 0) /\
     PropsTrainIter.arrives_at (ld_srs ld) (checkpoint_of ld) false t2 r0 (1, 2)) /\
    NoDup (RouteModel.ir_srs r0) /\ NoDup (RouteModel.ir_srs r1).
Proof.
  split; [exact C63_sat|]. split.
  { assert (D : forall s (b : bool) st x, nth_error (plan ex_plan) s = Some (st, x) ->
      part_of (sn_name (if b then xs_end x else xs_start x)) = Whole ->
      drawn_in ex_plan st (sn_id (if b then xs_end x else xs_start x))).
    { clear. intros s b st x H P. left. exists (s, b). split; [eexists; split; [exact (ex_at s b st x H)|]; split; [reflexivity|exact P]|].
      unfold station_at. exists x. exact H. }
    intros st x H. cbn in H. change (map fst journey_plan) with ex_plan.
    destruct H as [H|[H|[]]]; injection H as <- <-; cbn [xr_start xr_end];
      (split; [first [exact (D 0 false 0 _ eq_refl eq_refl)|exact (D 3 false 1 _ eq_refl eq_refl)]
              |first [exact (D 1 true 0 _ eq_refl eq_refl)|exact (D 3 true 1 _ eq_refl eq_refl)]]). }
  assert (H : exists ld, load 10 journey_plan [] = Ok ld) by (vm_compute; eauto). destruct H as [ld E].
  assert (E' : Ok ld = load 10 journey_plan []) by congruence.
  let v := eval vm_compute in (load 10 journey_plan []) in change (load 10 journey_plan []) with v in E'.
  injection E' as ->.
  eexists. eexists. eexists. exists (RouteModel.mkir 0 2 3 [0; 1]), (RouteModel.mkir 1 0 3 [0]).
  split; [exact E|]. split.
  - split; [eexists; eexists; split; vm_compute; reflexivity|]. split; [repeat constructor|].
    split; [eexists; split; [reflexivity|]; repeat split; vm_compute; auto|].
    split; [reflexivity|]. exists [], [(0, 2); (0, 3); (0, 4); (0, 5); (1, 0); (1, 1); (1, 2)].
    split; [reflexivity|]. split; [reflexivity|]. cbn. auto 9.
  - split; [|split; repeat constructor; cbn; intuition discriminate].
    split; [eexists; eexists; split; vm_compute; reflexivity|]. split; [repeat constructor|]. split; reflexivity.
Qed.
