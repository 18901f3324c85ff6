(* C72: the nodes a train passes, and its sequence points on them. *)
From Verif Require Import Base AlgoModel RouteModel RouteProofs RouteSpec RouteIter RouteIndex PropsRoute
  TransformModel TransformProofs PropsTransform TrainIterModel TrainIterProofs.

(* ---- specification ----
   ir_cells, shows, cell_node: RouteSpec.v.  proper_route: PropsRoute.v.
   meets, consecutive: TransformProofs.v.  routes_of, position: PropsTransform.v. *)

(* the cells of a path of routes: two consecutive routes share a node, which is
   passed only once *)
Definition journey (srs : list sroute) (rs : list iroute) : list cell :=
  match rs with
  | [] => []
  | r :: rs => ir_cells srs r ++ concat (map (fun r => tl (ir_cells srs r)) rs)
  end.
(* a route that can be driven and visits each of its station routes once *)
Definition plain_route (srs : list sroute) (r : iroute) : Prop :=
  proper_route srs r /\ NoDup (ir_srs r).
(* p halts on cell c of the route *)
Definition halts_on srs checkpoint freight (r : iroute) (p : seqpoint) (c : cell) : Prop :=
  sp_halt p = true /\ In c (ir_cells srs r) /\
  sp_sr p = fst c /\ position srs checkpoint freight p = Some (snd c).
(* a train that does not break in (out) starts (ends) at its first (last) point,
   any other at the first (last) node of its path *)
Definition departs_from srs checkpoint freight (t : train) (r : iroute) (c : cell) : Prop :=
  if tr_break_in t then hd_error (ir_cells srs r) = Some c
  else exists p, hd_error (tr_points t) = Some p /\ halts_on srs checkpoint freight r p c.
Definition arrives_at srs checkpoint freight (t : train) (r : iroute) (c : cell) : Prop :=
  if tr_break_out t then hd_error (rev (ir_cells srs r)) = Some c
  else exists p, hd_error (rev (tr_points t)) = Some p /\ halts_on srs checkpoint freight r p c.
(* a is not behind b on the route *)
Definition in_order (srs : list sroute) (r : iroute) (a b : cell) : Prop :=
  exists u v, ir_cells srs r = u ++ v /\ hd_error v = Some a /\ In b v.

(* ---- proofs ---- *)
Section PROOF.
  Variable srs : list sroute.
  Hypothesis OS : omitted_sorted srs.

  Lemma journey_snoc rs r : rs <> [] -> journey srs (rs ++ [r]) = journey srs rs ++ tl (ir_cells srs r).
  Proof.
    destruct rs as [|x rs]; [congruence|]. intros _. cbn [journey app].
    rewrite map_app, concat_app. cbn. now rewrite app_nil_r, app_assoc.
  Qed.
  Lemma consecutive_snoc R rs a r : consecutive R ((rs ++ [a]) ++ [r]) -> consecutive R (rs ++ [a]) /\ R a r.
  Proof.
    induction rs as [|x rs IH]; cbn [app].
    - cbn. tauto.
    - destruct (rs ++ [a]) as [|y l] eqn:E; [now destruct rs|]. cbn [app] in *. intros [H1 H2].
      destruct (IH H2) as [H3 H4]. split; [split; assumption|exact H4].
  Qed.
  Lemma journey_nonempty rs : rs <> [] -> Forall (plain_route srs) rs -> journey srs rs <> [].
  Proof.
    destruct rs as [|r rs]; [congruence|]. intros _ F. inversion F as [|? ? [[_ [H _]] _] _]; subst.
    cbn. destruct (ir_cells srs r); [congruence|discriminate].
  Qed.

  (* the journey ends at the node where its last route ends *)
  Lemma journey_last rs : forall r n, Forall (plain_route srs) (rs ++ [r]) -> consecutive (meets srs) (rs ++ [r]) ->
    ends_at srs r n -> cell_node srs (last (journey srs (rs ++ [r])) (0, 0)) n.
  Proof.
    induction rs as [|a rs IH] using rev_ind; intros r n F C E.
    - cbn. rewrite app_nil_r. exact E.
    - assert (NE : rs ++ [a] <> []) by (destruct rs; discriminate).
      rewrite journey_snoc by exact NE.
      apply consecutive_snoc in C as [C [m [M1 M2]]].
      apply Forall_app in F as [F Fr]. inversion Fr as [|? ? [[_ [CN _]] _] _]; subst.
      unfold ends_at, starts_at in *. destruct (ir_cells srs r) as [|c l]; [congruence|]. cbn [tl].
      destruct l as [|c' l].
      + cbn in E, M2. rewrite app_nil_r. rewrite (cell_node_fun srs _ _ _ E M2). now apply IH.
      + replace (last (journey srs (rs ++ [a]) ++ c' :: l) (0, 0)) with (last (c :: c' :: l) (0, 0)); [exact E|].
        clear. induction (journey srs (rs ++ [a])) as [|x j IHj]; [reflexivity|].
        cbn [app]. rewrite IHj. destruct j; reflexivity.
  Qed.

  Variable checkpoint : nat -> option nat.
  Variable il : interlocking.
  Variable freight : bool.

  Lemma node_idx_ok p i s : s = sp_sr p -> (exists sr, sr_of srs s = Some sr) -> position srs checkpoint freight p = Some i ->
    node_idx srs checkpoint freight p = Ok (Some i).
  Proof.
    intros -> [sr E] H. unfold position in H. unfold node_idx, at_. unfold sr_of in *. rewrite E in *. cbn [bind].
    unfold has_transit_time, halt_idx. destruct (sp_halt p); cbn; [now rewrite H|].
    destruct (sp_timed p); [now rewrite H|discriminate].
  Qed.
  Lemma in_cells_sr r c : wf_ir srs r -> In c (ir_cells srs r) -> exists sr, sr_of srs (fst c) = Some sr.
  Proof.
    intros W I. destruct c as [s i]. apply ir_cells_sr in I as [sr H]. cbn in *. eauto.
  Qed.

  Lemma middle_ok path rs : routes_of il path rs -> Forall (plain_route srs) rs ->
    exists l, iterate_middle srs (il_routes il) path = Ok l /\
      Forall2 (shows srs) l (concat (map (fun r => tl (ir_cells srs r)) rs)).
  Proof.
    intros RO. induction RO as [|i r path rs E RO IH]; intros F; [exists []; cbn; auto|].
    inversion F as [|? ? [[W [NE [LS LE]]] ND] F']; subst. destruct (IH F') as [l2 [E2 V2]].
    destruct (plain_ok srs r W ND NE LS) as [pl P].
    destruct (tail_ok srs OS r pl P) as [s0 [l1 [E0 [E1 V1]]]].
    exists (l1 ++ l2). split.
    - cbn [iterate_middle]. unfold at_ at 1. rewrite E. cbn [bind]. rewrite E0. cbn [bind]. rewrite E1. cbn [bind].
      rewrite E2. reflexivity.
    - cbn [map concat]. apply Forall2_app; assumption.
  Qed.

  Lemma routes_of_snoc path r rs : routes_of il path (rs ++ [r]) ->
    exists path' i, path = path' ++ [i] /\ routes_of il path' rs /\ nth_error (il_routes il) (N.to_nat i) = Some r.
  Proof.
    intros H. apply Forall2_app_inv_r in H as [p1 [p2 [H1 [H2 ->]]]].
    inversion H2 as [|i ? ? ? E H3]; subst. inversion H3; subst. exists p1, i. auto.
  Qed.

  Lemma back_snoc {A} (l : list A) a : back (l ++ [a]) = Ok a.
  Proof. unfold back. now rewrite rev_app_distr. Qed.
  Lemma hd_rev_back {A} (l : list A) a : hd_error (rev l) = Some a -> back l = Ok a.
  Proof. unfold back. destruct (rev l); [discriminate|]. cbn. intros [= ->]. reflexivity. Qed.
  Lemma hd_front {A} (l : list A) a : hd_error l = Some a -> front l = Ok a.
  Proof. destruct l; [discriminate|]. cbn. intros [= ->]. reflexivity. Qed.

  (* the part of the first route that is driven *)
  Lemma first_part t r a path i : tr_path t = i :: path -> nth_error (il_routes il) (N.to_nat i) = Some r ->
    plain_route srs r -> departs_from srs checkpoint freight t r a ->
    exists l u v, iterate_first srs checkpoint (il_routes il) freight t = Ok l /\ Forall2 (shows srs) l v /\
      ir_cells srs r = u ++ v /\ hd_error v = Some a /\ (tr_break_in t = true -> u = []).
  Proof.
    intros EP ER [[W [NE [LS LE]]] ND] D.
    assert (FI : first_ir (il_routes il) t = Ok r).
    { unfold first_ir. rewrite EP. cbn [front bind]. unfold at_. now rewrite ER. }
    unfold iterate_first. rewrite FI. cbn [bind]. unfold departs_from in D. destruct (tr_break_in t) eqn:BI.
    - destruct (ir_iterate_vis srs OS r W) as [l [El Vl]].
      { intros L. destruct (ir_srs r) as [|x [|y l]] eqn:Es; [destruct W; congruence|cbn in L; lia|].
        intros H. cbn [hd] in H. apply NoDup_cons_iff in ND as [NI _]. apply NI. rewrite H.
        change (last (x :: y :: l) 0) with (last (y :: l) 0).
        rewrite (app_removelast_last 0 (l := y :: l)) by discriminate. rewrite last_last. apply in_or_app. right. now left. }
      exists l, [], (ir_cells srs r). repeat split; auto.
    - destruct D as [p [EPt [HP [IC [SR PO]]]]]. rewrite (hd_front _ _ EPt). cbn [bind]. rewrite HP. cbn [sassert bind].
      rewrite (node_idx_ok p (snd a) (fst a)); [|auto|eapply in_cells_sr; eauto|exact PO]. cbn [bind].
      destruct (plain_ok srs r W ND NE LS) as [pl P]. destruct a as [s j]. cbn [fst snd] in *. rewrite SR.
      destruct (cell_pos srs r pl s j P IC) as [pre [post [E [L Lj]]]].
      destruct (from_ok srs OS r pl s j pre post P E L Lj) as [l [El Vl]]. rewrite El.
      exists l, (slice (ir_start r) (off srs pre j) (cells_of srs (ir_srs r))),
        (slice (off srs pre j) (off srs pl (ir_end r)) (cells_of srs (ir_srs r))).
      split; [reflexivity|]. split; [exact Vl|]. split; [rewrite slice_app by lia; exact (pl_cells _ _ _ P)|].
      split; [|discriminate]. rewrite slice_hd by lia. rewrite E. now apply cells_nth.
  Qed.

  (* the part of the last route behind its first node *)
  Lemma last_part t r b path i : tr_path t = path ++ [i] -> nth_error (il_routes il) (N.to_nat i) = Some r ->
    plain_route srs r -> arrives_at srs checkpoint freight t r b ->
    exists l u v, iterate_last srs checkpoint (il_routes il) freight t = Ok l /\ Forall2 (shows srs) l u /\
      tl (ir_cells srs r) = u ++ v /\ (tr_break_out t = true -> v = []) /\
      last (hd (0, 0) (ir_cells srs r) :: u) (0, 0) = b.
  Proof.
    intros EP ER [[W [NE [LS LE]]] ND] D.
    assert (FI : last_ir (il_routes il) t = Ok r).
    { unfold last_ir. rewrite EP, back_snoc. cbn [bind]. unfold at_. now rewrite ER. }
    unfold iterate_last. rewrite FI. cbn [bind]. destruct (plain_ok srs r W ND NE LS) as [pl P].
    unfold arrives_at in D. destruct (tr_break_out t) eqn:BO.
    - destruct (tail_ok srs OS r pl P) as [s0 [l [E0 [E1 V]]]]. rewrite E0. cbn [bind]. rewrite E1.
      exists l, (tl (ir_cells srs r)), []. rewrite app_nil_r. repeat split; auto.
      destruct (ir_cells srs r) as [|c cs]; [congruence|]. cbn [hd tl].
      assert (G : exists cs', c :: cs = cs' ++ [b]).
      { destruct (rev (c :: cs)) as [|x xs] eqn:ER'; [discriminate|]. cbn in D. injection D as ->.
        exists (rev xs). rewrite <- (rev_involutive (c :: cs)), ER'. reflexivity. }
      destruct G as [cs' G]. change (last (c :: cs) (0, 0) = b). rewrite G. apply last_last.
    - destruct D as [p [EPt [HP [IC [SR PO]]]]]. destruct (plain_first srs r pl P) as [s0 [post0 [E0 L0]]].
      rewrite E0. cbn [front bind]. rewrite (hd_rev_back _ _ EPt). cbn [bind]. rewrite HP. cbn [sassert bind].
      rewrite (node_idx_ok p (snd b) (fst b)); [|auto|eapply in_cells_sr; eauto|exact PO]. cbn [bind].
      destruct b as [s j]. cbn [fst snd] in *. rewrite SR.
      destruct (cell_pos srs r pl s j P IC) as [pre [post [E [L Lj]]]].
      destruct (between_ok srs OS r pl [] s0 post0 (ir_start r + 1) pre s post j P) as [l [El Vl]]; auto.
      + lia.
      + cbn. lia.
      + unfold off in *. cbn. lia.
      + rewrite El. replace (off srs [] (ir_start r + 1)) with (S (ir_start r)) in Vl by (unfold off; cbn; lia).
        replace (off srs pre (j + 1)) with (S (off srs pre j)) in Vl by (unfold off; lia).
        exists l, (slice (S (ir_start r)) (S (off srs pre j)) (cells_of srs (ir_srs r))),
          (slice (S (off srs pre j)) (off srs pl (ir_end r)) (cells_of srs (ir_srs r))).
        split; [reflexivity|]. split; [exact Vl|]. split.
        { rewrite slice_app by lia. rewrite (pl_cells _ _ _ P). apply slice_tl. exact (pl_lt _ _ _ P). }
        split; [discriminate|].
        assert (EQ : hd (0, 0) (ir_cells srs r) :: slice (S (ir_start r)) (S (off srs pre j)) (cells_of srs (ir_srs r))
                     = slice (ir_start r) (S (off srs pre j)) (cells_of srs (ir_srs r))).
        { rewrite <- slice_tl by lia. rewrite (pl_cells _ _ _ P).
          assert (H : hd_error (slice (ir_start r) (off srs pl (ir_end r)) (cells_of srs (ir_srs r))) =
                      hd_error (slice (ir_start r) (S (off srs pre j)) (cells_of srs (ir_srs r)))).
          { rewrite !slice_hd by lia. reflexivity. }
          destruct (slice (ir_start r) (S (off srs pre j)) (cells_of srs (ir_srs r))) as [|c cs] eqn:EQ2.
          - exfalso. assert (H2 : length (slice (ir_start r) (S (off srs pre j)) (cells_of srs (ir_srs r))) = 0) by now rewrite EQ2.
            rewrite slice_length in H2; [lia|]. pose proof (pl_le _ _ _ P). lia.
          - cbn [tl]. destruct (slice (ir_start r) (off srs pl (ir_end r)) (cells_of srs (ir_srs r))); [discriminate|].
            injection H as ->. reflexivity. }
        rewrite EQ. assert (LEN : length (slice (ir_start r) (S (off srs pre j)) (cells_of srs (ir_srs r))) = S (off srs pre j - ir_start r)).
        { rewrite slice_length; [lia|]. pose proof (pl_le _ _ _ P). lia. }
        apply (@last_nth cell _ (0, 0)) in LEN. rewrite slice_nth in LEN by lia.
        replace (ir_start r + (off srs pre j - ir_start r)) with (off srs pre j) in LEN by lia.
        rewrite E in LEN at 1. rewrite cells_nth in LEN by exact Lj. injection LEN as LEN. symmetry. exact LEN.
  Qed.

  Lemma pos_unique l k1 k2 c : NoDup l -> nth_error (cells_of srs l) k1 = Some c -> nth_error (cells_of srs l) k2 = Some c -> k1 = k2.
  Proof.
    destruct c as [s i]. intros ND E1 E2. apply cells_nth_inv in E1 as [p1 [q1 [A1 [-> _]]]].
    apply cells_nth_inv in E2 as [p2 [q2 [A2 [-> _]]]].
    destruct (nodup_split l p1 s q1 p2 q2 ND A1 A2) as [-> _]. reflexivity.
  Qed.

  Lemma range_ok r pl pre s post i pre' t post' e : plain srs r pl ->
    ir_srs r = pre ++ s :: post -> ir_srs r = pre' ++ t :: post' -> i < sr_len srs s -> e <= sr_len srs t ->
    off srs pre i < off srs pre' e ->
    exists l, ir_from_to srs r s i t e = Ok l /\
      Forall2 (shows srs) l (slice (off srs pre i) (off srs pre' e) (cells_of srs (ir_srs r))).
  Proof.
    intros P E E' Li Le LO. apply (from_to_slice srs OS r pre s post pre' t post'); auto.
    - exact (wf_srs _ _ (pl_wf _ _ _ P)).
    - exact (pl_nodup _ _ _ P).
    - destruct (Nat.leb_spec (length pre) (length pre')) as [H|H]; [exact H|]. exfalso.
      assert (exists mid, pre = pre' ++ t :: mid) as [mid ->].
      { clear - E E' H. rewrite E in E'. clear E. revert pre H E'. induction pre' as [|x pre' IH]; intros pre H E2.
        - destruct pre as [|y pre]; [cbn in *; lia|]. cbn in E2. injection E2 as -> _. now exists pre.
        - destruct pre as [|y pre]; [cbn in *; lia|]. cbn in E2. injection E2 as -> E2.
          destruct (IH pre) as [mid ->]; [cbn in *; lia|exact E2|]. now exists mid. }
      unfold off in LO. rewrite cells_of_app, cells_cons, !app_length, pairs_length in LO. lia.
    - lia.
    - intros ES. subst t. destruct (nodup_split (ir_srs r) pre s post pre' post' (pl_nodup _ _ _ P) E E') as [<- _].
      unfold off in LO. lia.
  Qed.

  Lemma single_part t r a b i : tr_path t = [i] -> nth_error (il_routes il) (N.to_nat i) = Some r ->
    plain_route srs r -> departs_from srs checkpoint freight t r a -> arrives_at srs checkpoint freight t r b ->
    in_order srs r a b ->
    exists l u v w, iterate_single srs checkpoint (il_routes il) freight t = Ok l /\ Forall2 (shows srs) l v /\
      ir_cells srs r = u ++ v ++ w /\ hd_error v = Some a /\ hd_error (rev v) = Some b /\
      (tr_break_in t = true -> u = []) /\ (tr_break_out t = true -> w = []).
  Proof.
    intros EP ER [[W [NE [LS LE]]] ND] D A O. destruct (plain_ok srs r W ND NE LS) as [pl P].
    set (full := cells_of srs (ir_srs r)) in *.
    assert (PB := pl_lt _ _ _ P). assert (PL := pl_le _ _ _ P). assert (PC := pl_cells _ _ _ P).
    fold full in PL, PC.
    (* where it starts *)
    assert (ST : exists pre s post k,
      (do from_sr <- (if tr_break_in t then front (ir_srs r) else do p <- front (tr_points t); Ok (sp_sr p));
       do from <- (if tr_break_in t then Ok (ir_start r)
                   else do p <- front (tr_points t); the_idx srs checkpoint freight p);
       Ok (from_sr, from)) = Ok (s, k) /\
      ir_srs r = pre ++ s :: post /\ k < sr_len srs s /\ nth_error full (off srs pre k) = Some a /\
      ir_start r <= off srs pre k /\ (tr_break_in t = true -> off srs pre k = ir_start r)).
    { unfold departs_from in D. destruct (tr_break_in t).
      - destruct (plain_first srs r pl P) as [s0 [post0 [E0 L0]]]. exists [], s0, post0, (ir_start r).
        rewrite E0. cbn [front bind]. split; [reflexivity|]. split; [reflexivity|]. split; [exact L0|].
        split; [|split; [unfold off; cbn; lia|intros _; reflexivity]].
        rewrite PC, slice_hd in D by lia. exact D.
      - destruct D as [p [EPt [HP [IC [SR PO]]]]]. destruct a as [s k]. cbn [fst snd] in *.
        destruct (cell_pos srs r pl s k P IC) as [pre [post [E [L Lk]]]]. exists pre, s, post, k.
        rewrite (hd_front _ _ EPt). cbn [bind]. unfold the_idx.
        rewrite (node_idx_ok p k s); [|auto|apply (in_cells_sr r (s, k)); auto|exact PO]. cbn [bind]. rewrite SR.
        split; [reflexivity|]. split; [exact E|]. split; [exact Lk|].
        split; [unfold full; rewrite E; now apply cells_nth|]. split; [lia|discriminate]. }
    (* where it ends *)
    assert (EN : exists pre' s' post' e,
      (do to_sr <- (if tr_break_out t then back (ir_srs r) else do p <- back (tr_points t); Ok (sp_sr p));
       do to <- (if tr_break_out t then Ok (ir_end r)
                 else do p <- back (tr_points t); do i <- the_idx srs checkpoint freight p; Ok (i + 1));
       Ok (to_sr, to)) = Ok (s', e) /\
      ir_srs r = pre' ++ s' :: post' /\ e <= sr_len srs s' /\ 0 < off srs pre' e /\
      nth_error full (off srs pre' e - 1) = Some b /\
      off srs pre' e <= off srs pl (ir_end r) /\ (tr_break_out t = true -> off srs pre' e = off srs pl (ir_end r))).
    { unfold arrives_at in A. destruct (tr_break_out t).
      - exists pl, (last (ir_srs r) 0), [], (ir_end r).
        rewrite (pl_last _ _ _ P) at 1. rewrite back_snoc. cbn [bind]. split; [reflexivity|].
        split; [exact (pl_last _ _ _ P)|]. split; [exact (wf_end _ _ W)|]. split; [lia|].
        split; [|split; [lia|reflexivity]].
        assert (LEN : length (ir_cells srs r) = S (off srs pl (ir_end r) - 1 - ir_start r)).
        { rewrite PC, slice_length by (fold full; lia). lia. }
        assert (LA : last (ir_cells srs r) (0, 0) = b).
        { destruct (rev (ir_cells srs r)) as [|x xs] eqn:ER'; [discriminate|]. cbn in A. injection A as ->.
          rewrite <- (rev_involutive (ir_cells srs r)), ER'. cbn. apply last_last. }
        apply (@last_nth cell _ (0, 0)) in LEN. rewrite LA, PC, slice_nth in LEN by lia. rewrite <- LEN. f_equal. lia.
      - destruct A as [p [EPt [HP [IC [SR PO]]]]]. destruct b as [s k]. cbn [fst snd] in *.
        destruct (cell_pos srs r pl s k P IC) as [pre [post [E [L Lk]]]]. exists pre, s, post, (k + 1).
        rewrite (hd_rev_back _ _ EPt). cbn [bind]. unfold the_idx.
        rewrite (node_idx_ok p k s); [|auto|apply (in_cells_sr r (s, k)); auto|exact PO]. cbn [bind]. rewrite SR.
        split; [reflexivity|]. split; [exact E|]. split; [lia|]. split; [unfold off; lia|].
        split; [|split; [unfold off in *; lia|discriminate]].
        replace (off srs pre (k + 1) - 1) with (off srs pre k) by (unfold off; lia).
        unfold full. rewrite E. now apply cells_nth. }
    destruct ST as [pre [s [post [k [S1 [S2 [S3 [S4 [S5 S6]]]]]]]]].
    destruct EN as [pre' [s' [post' [e [T1 [T2 [T3 [T4 [T5 [T6 T7]]]]]]]]]].
    assert (LT : off srs pre k < off srs pre' e).
    { destruct O as [u [v [O1 [O2 O3]]]]. rewrite PC in O1. fold full in O1.
      assert (LU : length u + length v = off srs pl (ir_end r) - ir_start r).
      { rewrite <- app_length, <- O1, slice_length by lia. reflexivity. }
      assert (HV : forall j c, nth_error v j = Some c -> nth_error full (ir_start r + (length u + j)) = Some c).
      { intros j c Hj. assert (j < length v) by (apply nth_error_Some; congruence).
        rewrite <- (slice_nth _ (off srs pl (ir_end r))) by lia. rewrite O1, nth_error_app2 by lia.
        rewrite <- Hj. f_equal. lia. }
      apply In_nth_error in O3 as [j O3]. apply HV in O3.
      assert (O2' : nth_error v 0 = Some a) by (destruct v; [discriminate|exact O2]). apply HV in O2'.
      pose proof (pos_unique _ _ _ _ ND S4 O2'). pose proof (pos_unique _ _ _ _ ND T5 O3). lia. }
    destruct (range_ok r pl pre s post k pre' s' post' e P S2 T2 S3 T3 LT) as [l [El Vl]]. fold full in Vl.
    exists l, (slice (ir_start r) (off srs pre k) full), (slice (off srs pre k) (off srs pre' e) full),
      (slice (off srs pre' e) (off srs pl (ir_end r)) full).
    split.
    { unfold iterate_single, first_ir, last_ir. rewrite EP. cbn [front back rev app bind]. unfold at_. rewrite ER. cbn [bind].
      rewrite <- El. clear - S1 T1.
      destruct (if tr_break_in t then front (ir_srs r) else _) as [x| | |]; try discriminate. cbn [bind] in *.
      destruct (if tr_break_in t then Ok (ir_start r) else _) as [y| | |]; try discriminate. cbn [bind] in *.
      injection S1 as -> ->.
      destruct (if tr_break_out t then back (ir_srs r) else _) as [x| | |]; try discriminate. cbn [bind] in *.
      destruct (if tr_break_out t then Ok (ir_end r) else _) as [y| | |]; try discriminate. cbn [bind] in *.
      injection T1 as -> ->. reflexivity. }
    split; [exact Vl|]. split; [rewrite !slice_app by lia; exact PC|].
    split; [rewrite slice_hd by lia; exact S4|]. split.
    { assert (LEN : length (slice (off srs pre k) (off srs pre' e) full) = S (off srs pre' e - 1 - off srs pre k)).
      { rewrite slice_length by lia. lia. }
      apply (@last_nth cell _ (0, 0)) in LEN. rewrite slice_nth in LEN by lia.
      replace (off srs pre k + (off srs pre' e - 1 - off srs pre k)) with (off srs pre' e - 1) in LEN by lia.
      rewrite T5 in LEN. injection LEN as LEN. rewrite LEN.
      assert (NN : slice (off srs pre k) (off srs pre' e) full <> []).
      { intros H. assert (H2 : length (slice (off srs pre k) (off srs pre' e) full) = 0) by now rewrite H.
        rewrite slice_length in H2; lia. }
      rewrite (@app_removelast_last cell _ (0, 0) NN) at 1. rewrite rev_app_distr. reflexivity. }
    split; intros H; [rewrite (S6 H)|rewrite (T7 H)]; apply slice_same.
  Qed.
End PROOF.

Lemma shows_last srs l cs d n : Forall2 (shows srs) l cs -> cs <> [] -> cell_node srs (last cs d) n ->
  exists x, hd_error (rev l) = Some x /\ rn_node x = n.
Proof.
  intros F NE C. rewrite (app_removelast_last d NE) in F. apply Forall2_app_inv_r in F as [l1 [l2 [_ [F2 ->]]]].
  inversion F2 as [|x ? ? ? [S _] F3]; subst. inversion F3; subst. exists x. rewrite rev_app_distr. split; [reflexivity|].
  exact (cell_node_fun srs _ _ _ S C).
Qed.

(* The iteration of a train succeeds and visits its journey without gaps and
   without visiting a shared node twice: from the place where it departs, in its
   first route, to the place where it arrives, in its last route. *)
Theorem C72_journey : forall srs checkpoint il freight t r1 rs a b,
  omitted_sorted srs ->
  routes_of il (tr_path t) (r1 :: rs) -> Forall (plain_route srs) (r1 :: rs) -> consecutive (meets srs) (r1 :: rs) ->
  departs_from srs checkpoint freight t r1 a ->
  arrives_at srs checkpoint freight t (last rs r1) b ->
  (rs = [] -> in_order srs r1 a b) ->
  exists l before visited after,
    iterate_train srs checkpoint (il_routes il) freight t = Ok l /\
    Forall2 (shows srs) l visited /\
    journey srs (r1 :: rs) = before ++ visited ++ after /\
    (* it departs in the first route *)
    hd_error visited = Some a /\ length before < length (ir_cells srs r1) /\
    (tr_break_in t = true -> before = []) /\
    (* it arrives in the last route *)
    (exists x n, hd_error (rev l) = Some x /\ rn_node x = n /\ cell_node srs b n) /\
    length after < length (ir_cells srs (last rs r1)) /\
    (tr_break_out t = true -> after = []).
Proof.
  intros srs cp il fr t r1 rs a b OS RO FP CO D A O.
  destruct rs as [|r2 rs0] using rev_ind.
  - (* a single route *)
    cbn [last] in *. inversion RO as [|i ? ? ? ER RO' EP]; subst. inversion RO'; subst.
    inversion FP as [|? ? PR _]; subst.
    destruct (single_part srs OS cp il fr t r1 a b i (eq_sym EP) ER PR D A (O eq_refl))
      as [l [u [v [w [E [V [EC [HA [HB [BU BW]]]]]]]]]].
    assert (VN : v <> []) by (destruct v; [discriminate|discriminate]).
    exists l, u, v, w. split; [unfold iterate_train; rewrite <- EP; exact E|]. split; [exact V|].
    split; [cbn; rewrite app_nil_r; exact EC|]. split; [exact HA|].
    assert (LV : 0 < length v) by (destruct v; [congruence|cbn; lia]).
    split; [rewrite EC, !app_length; lia|]. split; [exact BU|].
    split; [|split; [rewrite EC, !app_length; lia|exact BW]].
    assert (LB : last v (0, 0) = b).
    { destruct (rev v) as [|y ys] eqn:Er; [discriminate|]. injection HB as ->.
      rewrite <- (rev_involutive v), Er. cbn. apply last_last. }
    assert (IB : In b (ir_cells srs r1)).
    { rewrite EC. apply in_or_app. right. apply in_or_app. left. rewrite <- LB.
      rewrite (@app_removelast_last cell _ (0, 0) VN) at 2. apply in_or_app. right. now left. }
    assert (CB : exists n, cell_node srs b n).
    { clear - V IB LB VN. rewrite (@app_removelast_last cell _ (0, 0) VN), LB in V.
      apply Forall2_app_inv_r in V as [l1 [l2 [_ [V _]]]]. inversion V as [|x ? ? ? [S _] _]; subst. eauto. }
    destruct CB as [n CB]. destruct (shows_last srs l v (0, 0) n V VN) as [x [X1 X2]]; [now rewrite LB|].
    exists x, n. auto.
  - (* several routes *)
    clear IHrs0 O. rewrite last_last in *.
    inversion RO as [|i ? path ? ER RO' EP]; subst. inversion FP as [|? ? PR1 FP']; subst.
    apply Forall_app in FP' as [FM FL]. inversion FL as [|? ? PRL _]; subst.
    apply routes_of_snoc in RO' as [path' [j [-> [RM EL]]]].
    destruct (first_part srs OS cp il fr t r1 a (path' ++ [j]) i (eq_sym EP) ER PR1 D)
      as [l1 [u [v [E1 [V1 [EC1 [HA BU]]]]]]].
    destruct (middle_ok srs OS il path' rs0 RM FM) as [l2 [E2 V2]].
    destruct (last_part srs OS cp il fr t r2 b (i :: path') j) as [l3 [u3 [v3 [E3 [V3 [EC3 [BW LB]]]]]]];
      [rewrite <- EP; reflexivity|exact EL|exact PRL|exact A|].
    assert (VN : v <> []) by (destruct v; [discriminate|discriminate]).
    exists (l1 ++ l2 ++ l3), u, (v ++ concat (map (fun r => tl (ir_cells srs r)) rs0) ++ u3), v3.
    assert (VV : Forall2 (shows srs) (l1 ++ l2 ++ l3) (v ++ concat (map (fun r => tl (ir_cells srs r)) rs0) ++ u3))
      by (repeat apply Forall2_app; assumption).
    split.
    { unfold iterate_train. rewrite <- EP. replace (removelast (path' ++ [j])) with path' by (symmetry; apply removelast_last).
      rewrite E1, E2, E3. cbn [bind]. destruct path'; reflexivity. }
    split; [exact VV|].
    split. { cbn [journey]. rewrite map_app, concat_app. cbn [map concat]. rewrite app_nil_r, EC1, EC3.
             rewrite <- !app_assoc. reflexivity. }
    split; [destruct v; [congruence|exact HA]|].
    split; [rewrite EC1, app_length; destruct v; [congruence|cbn; lia]|]. split; [exact BU|].
    destruct PRL as [[WL [NEL [LSL LEL]]] NDL].
    split; [|split; [|exact BW]].
    + (* the last node *)
      destruct u3 as [|c3 u3].
      * (* it arrives at the first node of the last route *)
        cbn [last] in LB. rewrite app_nil_r in *.
        assert (C2 := CO). change (r1 :: rs0 ++ [r2]) with ((r1 :: rs0) ++ [r2]) in C2.
        assert (exists front_rs la, r1 :: rs0 = front_rs ++ [la]) as [frs [la EF]].
        { exists (removelast (r1 :: rs0)), (last (r1 :: rs0) r1). apply app_removelast_last. discriminate. }
        rewrite EF in C2. apply consecutive_snoc in C2 as [C2 [n [N1 N2]]].
        assert (FF : Forall (plain_route srs) (frs ++ [la])) by (rewrite <- EF; constructor; assumption).
        pose proof (journey_last srs frs la n FF C2 N1) as JL. rewrite <- EF in JL. cbn [journey] in JL.
        rewrite EC1, <- app_assoc in JL.
        assert (VN2 : v ++ concat (map (fun r => tl (ir_cells srs r)) rs0) <> []) by (destruct v; [congruence|discriminate]).
        assert (LEQ : last (u ++ v ++ concat (map (fun r => tl (ir_cells srs r)) rs0)) (0, 0) =
                      last (v ++ concat (map (fun r => tl (ir_cells srs r)) rs0)) (0, 0)).
        { revert VN2. generalize (v ++ concat (map (fun r => tl (ir_cells srs r)) rs0)). clear. intros l NE.
          rewrite (@app_removelast_last cell _ (0, 0) NE), app_assoc, !last_last. reflexivity. }
        rewrite LEQ in JL. destruct (shows_last srs _ _ (0, 0) n VV VN2 JL) as [x [X1 X2]].
        exists x, n. split; [exact X1|]. split; [exact X2|]. unfold starts_at in N2. now rewrite LB in N2.
      * assert (VN2 : v ++ concat (map (fun r => tl (ir_cells srs r)) rs0) ++ c3 :: u3 <> []) by (destruct v; [congruence|discriminate]).
        assert (LEQ : last (v ++ concat (map (fun r => tl (ir_cells srs r)) rs0) ++ c3 :: u3) (0, 0) = b).
        { rewrite app_assoc, <- LB. change (last (hd (0, 0) (ir_cells srs r2) :: c3 :: u3) (0, 0)) with (last (c3 :: u3) (0, 0)).
          rewrite (@app_removelast_last cell (c3 :: u3) (0, 0)) by discriminate. rewrite app_assoc, !last_last. reflexivity. }
        assert (CB : exists n, cell_node srs b n).
        { rewrite (@app_removelast_last cell _ (0, 0) VN2), LEQ in VV.
          apply Forall2_app_inv_r in VV as [k1 [k2 [_ [VV _]]]]. inversion VV as [|x ? ? ? [S _] _]; subst. eauto. }
        destruct CB as [n CB]. rewrite <- LEQ in CB. destruct (shows_last srs _ _ (0, 0) n VV VN2 CB) as [x [X1 X2]].
        rewrite LEQ in CB. exists x, n. auto.
    + assert (L : length (tl (ir_cells srs r2)) = length u3 + length v3) by (rewrite EC3; apply app_length).
      destruct (ir_cells srs r2); [congruence|]. cbn in *. lia.
Qed.
Print Assumptions C72_journey.

(* ---- sequence points ---- *)
(* the node at which a sequence point is measured *)
Definition point_node srs checkpoint freight (p : seqpoint) (n : N) : Prop :=
  exists i, position srs checkpoint freight p = Some i /\ cell_node srs (sp_sr p, i) n.
(* a occurs in b, in order, possibly with gaps *)
Inductive subseq {A} : list A -> list A -> Prop :=
| ss_nil l : subseq [] l
| ss_take x a b : subseq a b -> subseq (x :: a) (x :: b)
| ss_skip x a b : subseq a b -> subseq a (x :: b).
(* the indices of the sequence points reported, in order *)
Definition reported (l : list tnode) : list nat :=
  concat (map (fun x => match tn_point x with Some i => [i] | None => [] end) l).

Lemma subseq_tail {A} (x : A) a b : subseq (x :: a) b -> subseq a b.
Proof. induction b as [|y b IH]; intros H; inversion H; subst; constructor; auto. Qed.

Lemma point_node_the srs cp fr p n : point_node srs cp fr p n -> the_node srs cp fr p = Ok n.
Proof.
  intros [i [P [r [E1 E2]]]]. unfold the_node, the_idx. cbn [fst snd] in *.
  assert (E1' : at_ srs (sp_sr p) = Ok r) by (unfold at_; unfold sr_of in E1; now rewrite E1).
  rewrite E1'. cbn [bind]. rewrite (node_idx_ok srs cp fr p i (sp_sr p)); [|reflexivity|eauto|exact P]. cbn [bind].
  unfold sr_node, at_. now rewrite E2.
Qed.

Lemma attach_ok srs cp fr l : forall ps ns k0, Forall2 (point_node srs cp fr) ps ns ->
  exists out k, attach srs cp fr ps k0 l = Ok out /\ map tn_route out = l /\ k <= length ns /\
    reported out = seq k0 k /\
    (forall x i, In x out -> tn_point x = Some i -> k0 <= i /\ nth_error ns (i - k0) = Some (rn_node (tn_route x))) /\
    (forall k', k' <= length ns -> subseq (firstn k' ns) (map rn_node l) -> k' <= k).
Proof.
  induction l as [|x l IH]; intros ps ns k0 F.
  - exists [], 0. split; [reflexivity|]. split; [reflexivity|]. split; [lia|]. split; [reflexivity|].
    split; [intros ? ? []|]. intros k' L S. destruct k' as [|k']; [lia|]. destruct ns; cbn in *; [lia|inversion S].
  - destruct F as [|p n ps ns P F].
    + destruct (IH [] [] k0 (Forall2_nil _)) as [out [k [E [M [L [R [I MX]]]]]]].
      exists (mktn x None :: out), k. cbn [attach]. rewrite E. cbn [bind]. split; [reflexivity|].
      split; [cbn; now rewrite M|]. split; [exact L|]. split; [exact R|]. split.
      * intros y i [<-|Iy] Ey; [discriminate|]. eauto.
      * intros k' L' _. cbn in L'. lia.
    + cbn [attach]. rewrite (point_node_the _ _ _ _ _ P). cbn [bind].
      destruct (N.eqb_spec n (rn_node x)) as [EQ|NE].
      * destruct (IH ps ns (S k0) F) as [out [k [E [M [L [R [I MX]]]]]]]. rewrite E. cbn [bind].
        exists (mktn x (Some k0) :: out), (S k). split; [reflexivity|]. split; [cbn; now rewrite M|].
        split; [cbn; lia|]. split; [unfold reported in *; cbn; now rewrite R|]. split.
        -- intros y i [<-|Iy] Ey.
           ++ cbn in Ey. injection Ey as <-. split; [lia|]. rewrite Nat.sub_diag. cbn. now rewrite EQ.
           ++ destruct (I y i Iy Ey) as [L1 L2]. split; [lia|]. replace (i - k0) with (S (i - S k0)) by lia. exact L2.
        -- intros k' L' SS. destruct k' as [|k']; [lia|]. cbn in L'. cbn [firstn map] in SS.
           assert (k' <= k); [|lia]. apply MX; [lia|]. inversion SS; subst; [assumption|].
           eapply subseq_tail. eassumption.
      * destruct (IH (p :: ps) (n :: ns) k0) as [out [k [E [M [L [R [I MX]]]]]]]; [now constructor|].
        rewrite E. cbn [bind]. exists (mktn x None :: out), k. split; [reflexivity|]. split; [cbn; now rewrite M|].
        split; [exact L|]. split; [exact R|]. split.
        -- intros y i [<-|Iy] Ey; [discriminate|]. eauto.
        -- intros k' L' SS. apply MX; [exact L'|]. destruct k' as [|k']; [constructor|].
           cbn [firstn map] in *. inversion SS; subst; [congruence|assumption].
Qed.

(* Every node is reported once. The reported sequence points are the first k ones,
   in order, each at its node; k is as large as possible: if the nodes of the
   first k' sequence points occur in this order on the journey, k' <= k. *)
Theorem C72_points : forall srs checkpoint il freight t l ns,
  iterate_train srs checkpoint (il_routes il) freight t = Ok l ->
  Forall2 (point_node srs checkpoint freight) (tr_points t) ns ->
  exists out k, train_iterate srs checkpoint (il_routes il) freight t = Ok out /\
    map tn_route out = l /\ k <= length ns /\ reported out = seq 0 k /\
    (forall x i, In x out -> tn_point x = Some i -> nth_error ns i = Some (rn_node (tn_route x))) /\
    (forall k', k' <= length ns -> subseq (firstn k' ns) (map rn_node l) -> k' <= k).
Proof.
  intros srs cp il fr t l ns E F. destruct (attach_ok srs cp fr l (tr_points t) ns 0 F) as [out [k [E2 [M [L [R [I MX]]]]]]].
  exists out, k. unfold train_iterate. rewrite E. cbn [bind]. split; [exact E2|]. split; [exact M|]. split; [exact L|].
  split; [exact R|]. split; [|exact MX]. intros x i Ix Ex. destruct (I x i Ix Ex) as [_ H]. now rewrite Nat.sub_0_r in H.
Qed.
Print Assumptions C72_points.

(* A node is passed over if its station route omits it. Of the other nodes, exactly those halts
   are passed over that none of the reported sequence points is at. *)
Theorem C72_passed_over : forall srs checkpoint il freight t l ns halt,
  iterate_train srs checkpoint (il_routes il) freight t = Ok l ->
  Forall2 (point_node srs checkpoint freight) (tr_points t) ns ->
  exists out, train_iterate srs checkpoint (il_routes il) freight t = Ok out /\ map tn_route out = l /\
    forall x, In x out ->
      (rn_omitted (tn_route x) = true -> tn_omitted halt x = true) /\
      (rn_omitted (tn_route x) = false -> halt (rn_node (tn_route x)) = false -> tn_omitted halt x = false) /\
      (rn_omitted (tn_route x) = false -> halt (rn_node (tn_route x)) = true ->
         (tn_omitted halt x = false <-> exists i, tn_point x = Some i /\ nth_error ns i = Some (rn_node (tn_route x)))).
Proof.
  intros srs cp il fr t l ns halt E F. destruct (C72_points srs cp il fr t l ns E F) as [out [k [E2 [M [_ [_ [I _]]]]]]].
  exists out. split; [exact E2|]. split; [exact M|]. intros x Ix. unfold tn_omitted. split; [intros ->; reflexivity|].
  split; [intros -> ->; reflexivity|]. intros -> ->. cbn [orb andb]. destruct (tn_point x) as [i|] eqn:Ep.
  - split; [intros _; exists i; split; [reflexivity|exact (I x i Ix Ep)]|reflexivity].
  - split; [discriminate|intros [i [H _]]; discriminate].
Qed.
Print Assumptions C72_passed_over.

(* a train of three routes over two stations that breaks in and halts at its end *)
Definition ex72_srs : list sroute :=
  [mksr [10; 11; 12]%N [1] [2] [] None None 0 false; mksr [13; 14; 15]%N [1] [] [] (Some 2) None 1 false].
Definition ex72_il : interlocking :=
  mkil [mkir 0 0 2 [0]; mkir 1 1 2 [0; 1]; mkir 2 1 3 [1]] [] [] [].
Definition ex72_cp (s : nat) : option nat := match s with 0 => Some 0 | _ => None end.
Definition ex72_train : train :=
  mktrain true false [0; 1; 2]%N [mkpt TRANSIT 5 5 0 0; mkpt PASSENGER 9 9 0 1].
Example C72_sat :
  omitted_sorted ex72_srs /\
  (exists rs, routes_of ex72_il (tr_path ex72_train) rs /\ Forall (plain_route ex72_srs) rs /\
     consecutive (meets ex72_srs) rs /\ length rs = 3 /\
     departs_from ex72_srs ex72_cp false ex72_train (hd (mkir 0 0 0 []) rs) (0, 0) /\
     arrives_at ex72_srs ex72_cp false ex72_train (last rs (mkir 0 0 0 [])) (1, 2)) /\
  Forall2 (point_node ex72_srs ex72_cp false) (tr_points ex72_train) [10; 15]%N /\
  train_iterate ex72_srs ex72_cp (il_routes ex72_il) false ex72_train =
    Ok [mktn (mkrn 10 None false) (Some 0); mktn (mkrn 11 None false) None; mktn (mkrn 12 None true) None;
        mktn (mkrn 13 None false) None; mktn (mkrn 14 None false) None; mktn (mkrn 15 None false) (Some 1)].
Proof.
  split.
  { intros [|[|s]] r E; try (injection E as <-; repeat constructor); destruct s; discriminate E. }
  split; [|split; [|reflexivity]].
  - exists (il_routes ex72_il). split; [repeat constructor|]. split.
    { assert (W : forall r, In r (il_routes ex72_il) -> wf_ir ex72_srs r).
      { intros r [<-|[<-|[<-|[]]]]; constructor; cbn; try lia; try discriminate;
          intros s I; cbn in I; repeat (destruct I as [<-|I]); try destruct I; eexists; (split; [reflexivity|reflexivity]). }
      apply Forall_forall. intros r I. split; [split; [exact (W r I)|]|].
      - destruct I as [<-|[<-|[<-|[]]]]; cbn; repeat split; (discriminate || lia).
      - destruct I as [<-|[<-|[<-|[]]]]; cbn; repeat constructor; cbn; intuition discriminate. }
    split.
    { cbn [consecutive il_routes ex72_il]. split; [|split; [|exact I]].
      - exists 11%N. split; eexists; split; reflexivity.
      - exists 14%N. split; eexists; split; reflexivity. }
    split; [reflexivity|]. split; [reflexivity|].
    eexists. split; [reflexivity|]. split; [reflexivity|]. split; [right; left; reflexivity|]. split; reflexivity.
  - constructor; [|constructor; [|constructor]]; eexists; (split; [reflexivity|]); eexists; split; reflexivity.
Qed.

(* Without the condition that a route visits each station route once the claim is
   false: a train that runs three laps around a loop, from a halt back to it, is
   reported to pass a single node *)
Definition laps_srs : list sroute :=
  [mksr [10; 11; 12]%N [1] [] [] (Some 1) None 0 false; mksr [13; 14]%N [] [] [] None None 0 false].
Theorem C72_laps_refuted :
  exists il t rs l,
    get_interlocking_routes laps_srs loop_g 5 = Ok (il_routes il) /\
    routes_of il (tr_path t) rs /\ Forall (proper_route laps_srs) rs /\ consecutive (meets laps_srs) rs /\
    departs_from laps_srs (fun _ => None) false t (hd (mkir 0 0 0 []) rs) (0, 1) /\
    arrives_at laps_srs (fun _ => None) false t (last rs (mkir 0 0 0 [])) (0, 1) /\
    length (journey laps_srs rs) = 16 /\
    iterate_train laps_srs (fun _ => None) (il_routes il) false t = Ok l /\ length l = 1.
Proof.
  exists (mkil [mkir 0 1 2 [0; 1; 0]] [] [] []).
  exists (mktrain false false [0; 0; 0]%N [mkpt PASSENGER 5 5 0 0; mkpt PASSENGER 9 9 0 0]).
  exists [mkir 0 1 2 [0; 1; 0]; mkir 0 1 2 [0; 1; 0]; mkir 0 1 2 [0; 1; 0]]. eexists.
  split; [vm_compute; reflexivity|]. split; [repeat constructor|]. split.
  { assert (P : proper_route laps_srs (mkir 0 1 2 [0; 1; 0])).
    { split; [|cbn; repeat split; (discriminate || lia)]. constructor; cbn; try lia; [discriminate|].
      intros s [<-|[<-|[<-|[]]]]; eexists; (split; [reflexivity|reflexivity]). }
    do 3 (apply Forall_cons; [exact P|]). constructor. }
  split.
  { assert (M : meets laps_srs (mkir 0 1 2 [0; 1; 0]) (mkir 0 1 2 [0; 1; 0])) by (exists 11%N; split; eexists; split; reflexivity).
    cbn [consecutive]. auto. }
  assert (H : forall p, p = mkpt PASSENGER 5 5 0 0 \/ p = mkpt PASSENGER 9 9 0 0 ->
    halts_on laps_srs (fun _ => None) false (mkir 0 1 2 [0; 1; 0]) p (0, 1)).
  { intros p [-> | ->]; (split; [reflexivity|]; split; [left; reflexivity|]; split; reflexivity). }
  split; [eexists; split; [reflexivity|]; apply H; now left|].
  split; [eexists; split; [reflexivity|]; apply H; now right|].
  split; [reflexivity|]. split; [vm_compute; reflexivity|reflexivity].
Qed.
Print Assumptions C72_laps_refuted.

(* Two consecutive sequence points at the same node: the second one is not
   reported, and neither is any later one, although the train halts there *)
Theorem C72_same_node_refuted :
  exists t out, 
    Forall2 (point_node ex72_srs (fun _ => Some 0) false) (tr_points t) [10; 10; 15]%N /\
    train_iterate ex72_srs (fun _ => Some 0) (il_routes ex72_il) false t = Ok out /\
    In 15%N (map (fun x => rn_node (tn_route x)) out) /\ reported out = [0].
Proof.
  exists (mktrain true true [0; 1; 2]%N [mkpt TRANSIT 5 5 0 0; mkpt TRANSIT 6 6 0 0; mkpt PASSENGER 9 9 0 1]). eexists.
  split; [repeat constructor; eexists; (split; [reflexivity|]); eexists; split; reflexivity|].
  split; [vm_compute; reflexivity|]. split; [cbn; tauto|reflexivity].
Qed.
Print Assumptions C72_same_node_refuted.

(* FINDING (C115): the train halts in A where no route passes, then at the signal where the
   second and the third route meet, then at the end. The first halt is left out, the second
   one is found on two routes, so that the number of halts is the expected one and the train
   is imported. Its first point does not lie on its first route: showing the train fails. *)
Definition late_srs : list sroute :=
  [mksr [0; 1]%N [] [] [] None None 0%N true; mksr [2; 3; 4]%N [2] [] [] None (Some 1) 1%N false;
   mksr [5; 6; 7]%N [1] [] [] None None 2%N false; mksr [8; 9; 10]%N [1] [] [] None (Some 1) 3%N false;
   mksr [11; 12]%N [] [] [] None (Some 1) 4%N false].
Definition late_il : interlocking :=
  mkil [mkir 0 2 2 [1; 2]; mkir 1 1 2 [2; 3]; mkir 2 1 2 [3; 4]] [[]; [0]; [0; 1]; [1; 2]; [2]]%N
       [[]; []; []; []; [0]; []; [1]; []; []; [2]; []; []; []]%N
       [[]; []; []; []; []; []; []; []; []; [1; 2]; []; []; [2]]%N.
Definition late_ss : stopseq :=
  mkss [mksp true true 1; mksp false false 2; mksp true true 3; mksp true true 4] false false.
Theorem C115_late_refuted :
  get_interlocking_routes late_srs (mksrg [[1]; [2]; [3]; [4]; []] [[]; [0]; [1]; [2]; [3]]) 13 = Ok (il_routes late_il) /\
  built late_srs 13 late_il /\ supported late_srs (fun _ => None) true late_ss /\
  exists path pts, transform late_srs (fun _ => None) late_il true 10 late_ss = Ok (inr (path, pts)) /\
    iterate_train late_srs (fun _ => None) (il_routes late_il) true (mktrain false false path pts) = Throw.
Proof.
  split; [reflexivity|]. split; [build|]. split.
  - split; [cbn; lia|]. repeat (split; [reflexivity|]). split; [intros ? [= <-]; reflexivity|]. split; [intros ? [= <-]; reflexivity|].
    intros p I J; cbn in I. destruct I as [<-|[<-|[<-|[<-|[]]]]]; cbn in J |- *; discriminate.
  - eexists _, _. split; reflexivity.
Qed.
Print Assumptions C115_late_refuted.
