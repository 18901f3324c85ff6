(* C39: where the path found for a sequence of station routes ends. *)
From Verif Require Import Base AlgoModel RouteModel RouteProofs RouteSpec RouteIter RouteIndex PropsRoute
  TransformModel TransformProofs PropsTransform PropsAlgo.
From Coq Require Import Sorted ZifyBool ZifyNat ZifyN.

(* ---- specification ---- *)
(* The route ends, in its last station route, behind the place where p halts; without a halt, at the
   end of the station route of p if the train breaks out.  Otherwise no index is far enough (the code
   compares with the largest 16 bit number). *)
Definition ends_behind srs checkpoint freight (break_out : bool) (r : iroute) (p : seqpoint) : Prop :=
  (sp_halt p = true -> exists i, position srs checkpoint freight p = Some i /\ i < ir_end r) /\
  (sp_halt p = false -> break_out = true -> sr_len srs (sp_sr p) <= ir_end r) /\
  (sp_halt p = false -> break_out = false -> (65535 < N.of_nat (ir_end r))%N).
(* From a station route of the sequence it uses, the route has more station routes than the rest of
   the sequence. *)
Definition overhangs (ss : stopseq) (r : iroute) : Prop :=
  exists o s, nth_error (sequence ss) o = Some s /\ In s (ir_srs r) /\ length (sequence ss) < o + length (ir_srs r).

(* ---- proofs ---- *)
Section PROOFS.
  Variable srs : list sroute.
  Variable checkpoint : nat -> option nat.
  Variable n : nat.
  Variable il : interlocking.
  Variable freight : bool.
  Hypothesis B : built srs n il.
  Notation irs := (il_routes il).
  Notation loop := (transform_loop srs checkpoint irs (il_part il) (il_start il) (il_halt il) freight).

  Lemma covers_behind c ss r : covers srs freight c ss = Ok true -> cv_idx c = N.of_nat (ir_end r) ->
    exists p, hd_error (rev (ss_points ss)) = Some p /\ ends_behind srs checkpoint freight (ss_break_out ss) r p.
  Proof.
    unfold covers. destruct (_ <? _)%N; [discriminate|]. intros E EI.
    destruct (rev (ss_points ss)) as [|p l]; [discriminate|]. exists p. split; [reflexivity|].
    apply bind_inv in E as [sr [E1 E]]. apply at_nth in E1. apply bind_inv in E as [x [E2 E]]. injection E as E. apply N.ltb_lt in E. rewrite EI in E.
    assert (SR : sr_of srs (sp_sr p) = Some sr) by exact E1.
    unfold ends_behind, position. rewrite SR. destruct (sp_halt p).
    - split; [|split; discriminate]. intros _. unfold halt_idx in E2. destruct (if freight then _ else _) as [i|]; [|discriminate].
      injection E2 as <-. exists i. split; [reflexivity|lia].
    - split; [discriminate|]. destruct (ss_break_out ss).
      + split; [|discriminate]. intros _ _. apply bind_inv in E2 as [k [E3 E2]]. injection E2 as <-.
        unfold sr_len. rewrite SR. unfold sr_size in E3. apply bind_inv in E3 as [[] [_ E3]]. injection E3 as <-. destruct (length (sr_nodes sr)) as [|k]; lia.
      + split; [discriminate|]. intros _ _. injection E2 as <-. exact E.
  Qed.
  Lemma loop_end ss : (N.of_nat (length (ss_points ss)) < 2 ^ 63)%N -> (forall r, In r irs -> (N.of_nat (length (ir_srs r)) < 2 ^ 63)%N) ->
    forall fuel c cur path pts path' pts', In cur irs -> hd_error (rev path) = Some (ir_id cur) -> cv_idx c = N.of_nat (ir_end cur) ->
    loop fuel ss c cur path pts = Ok (inr (path', pts')) ->
    exists r, In r irs /\ hd_error (rev path') = Some (ir_id r) /\
      ((exists p, hd_error (rev (ss_points ss)) = Some p /\ ends_behind srs checkpoint freight (ss_break_out ss) r p) \/ overhangs ss r).
  Proof.
    intros L1 L2. destruct (built_tables _ _ _ B) as [PA ST].
    induction fuel as [|fuel IH]; intros c cur path pts path' pts' IC HP HI E; cbn [transform_loop] in E; [discriminate|].
    apply bind_inv in E as [dn [E0 E]]. destruct dn.
    { injection E as <- <-. exists cur. split; [exact IC|]. split; [exact HP|]. left. eapply covers_behind; eauto. }
    apply bind_inv in E as [ln [E1 E]]. apply bind_inv in E as [cands [E2 E]]. apply bind_inv in E as [[best len] [E3 E]].
    destruct best as [|b [|b2 best]]; try discriminate.
    apply bind_inv in E as [ir [E4 E]]. apply at_nth in E4. assert (II : In ir irs) by (eapply nth_error_In; eauto).
    destruct (chosen srs checkpoint irs (il_part il) (il_start il) (il_halt il) freight (proj1 B) PA ST ss c (Some ln) cands [b] len b ir E2 E3 (or_introl eq_refl) E4)
      as [sp [S1 [S2 _]]].
    apply bind_inv in E as [mo [E5 E]].
    assert (HP' : hd_error (rev (path ++ [ir_id ir])) = Some (ir_id ir)) by (rewrite rev_app_distr; reflexivity).
    destruct (N.ltb_spec (N.of_nat (length (ss_points ss))) (add64 (cv_off c) (N.of_nat (length (ir_srs ir))))) as [L|L].
    - injection E as <- <-. exists ir. split; [exact II|]. split; [exact HP'|]. right.
      exists (N.to_nat (cv_off c)), (sp_sr sp). unfold sequence. rewrite nth_error_map, S1, map_length. split; [reflexivity|]. split; [exact S2|].
      assert (N.to_nat (cv_off c) < length (ss_points ss)) by (apply nth_error_Some; congruence).
      specialize (L2 ir II). unfold add64 in L. rewrite N.mod_small in L; [lia|]. unfold M64. lia.
    - apply bind_inv in E as [sp2 [_ E]]. apply bind_inv in E as [lsr [_ E]]. apply bind_inv in E as [ln2 [_ E]]. apply bind_inv in E as [bk [_ E]].
      eapply IH; [exact II|exact HP'| |exact E]. reflexivity.
  Qed.
End PROOFS.

(* A path that is found goes to the end of the sequence: its last route ends behind the last point
   of the sequence, or it leads beyond the sequence. *)
Theorem C39_to_the_end : forall srs checkpoint n il freight fuel ss path pts,
  built srs n il -> (N.of_nat (length (ss_points ss)) < 2 ^ 63)%N ->
  (forall r, In r (il_routes il) -> (N.of_nat (length (ir_srs r)) < 2 ^ 63)%N) ->
  transform srs checkpoint il freight fuel ss = Ok (inr (path, pts)) ->
  exists id r, hd_error (rev path) = Some id /\ nth_error (il_routes il) (N.to_nat id) = Some r /\
    ((exists p, hd_error (rev (ss_points ss)) = Some p /\ ends_behind srs checkpoint freight (ss_break_out ss) r p) \/ overhangs ss r).
Proof.
  intros srs cp n il fr fuel ss path pts B L1 L2 E. unfold transform, transform_to_interlocking in E.
  apply bind_inv in E as [f [E1 E]]. destruct f as [e|[b c]]; [discriminate|].
  apply bind_inv in E as [ir [E2 E]]. apply at_nth in E2. apply bind_inv in E as [mo [E3 E]]. apply bind_inv in E as [r [E4 E]].
  destruct r as [e|[path1 pts1]]; [discriminate|]. apply bind_inv in E as [[] [_ E]]. injection E as -> ->.
  assert (II : In ir (il_routes il)) by (eapply nth_error_In; eauto).
  assert (CI : cv_idx c = N.of_nat (ir_end ir)).
  { unfold get_first_ir in E1. destruct (ss_points ss) as [|p ps]; [discriminate|].
    apply bind_inv in E1 as [fsr [_ E1]]. apply bind_inv in E1 as [fn [_ E1]]. apply bind_inv in E1 as [cands [_ E1]].
    apply bind_inv in E1 as [[best len] [_ E1]]. destruct best as [|b' [|b2 best]]; try discriminate.
    apply bind_inv in E1 as [ir' [F5 E1]]. apply at_nth in F5. injection E1 as -> <-. rewrite E2 in F5. injection F5 as <-. reflexivity. }
  assert (IB : ir_id ir = b) by (rewrite (id_position (il_routes il) (proj1 B) _ _ E2); lia).
  destruct (loop_end srs cp n il fr B ss L1 L2 fuel c ir [b] mo path pts II) as (r & Ir & Hr & D); [cbn; congruence|exact CI|exact E4|].
  exists (ir_id r), r. split; [exact Hr|]. split; [|exact D].
  apply In_nth_error in Ir as [k K]. rewrite (id_position (il_routes il) (proj1 B) _ _ K), Nat2N.id. exact K.
Qed.
Print Assumptions C39_to_the_end.
(* the path of C39_example ends behind its last halt (index 2 of 3 nodes); the route before it does not *)
Example C39_end_sat : built ex39_srs 6 ex39_il /\
  (exists pts, transform ex39_srs (fun s => if Nat.eqb s 0 then Some 0 else None) ex39_il true 5 ex39_ss = Ok (inr ([0; 1; 2]%N, pts))) /\
  ends_behind ex39_srs (fun s => if Nat.eqb s 0 then Some 0 else None) true true (mkir 2 1 3 [1]) (mksp true true 1) /\
  ~ overhangs ex39_ss (mkir 2 1 3 [1]) /\
  ~ ends_behind ex39_srs (fun s => if Nat.eqb s 0 then Some 0 else None) true true (mkir 1 1 2 [0; 1]) (mksp true true 1).
Proof.
  split; [exact C39_example_built|]. split; [eexists; exact C39_example|]. split; [|split].
  - split; [|split; discriminate]. intros _. exists 2. split; [reflexivity|cbn; lia].
  - intros (o & s & H & I & L). cbn in L. destruct o as [|[|o]]; [lia|lia|]. destruct o; discriminate H.
  - intros (H & _). destruct (H eq_refl) as (i & E & L). cbn in E, L. injection E as <-. lia.
Qed.

(* ---- a train over one route is found ---- *)
  Lemma prefix_le l : forall ps, prefix_length l ps <= length ps.
  Proof. induction l as [|s l IH]; intros [|p ps]; cbn; try lia. destruct (Nat.eqb _ _); [specialize (IH ps)|]; lia. Qed.
  Lemma prefix_all l : forall ps, prefix_length l ps = length ps -> firstn (length ps) l = map sp_sr ps.
  Proof.
    induction l as [|s l IH]; intros [|p ps]; cbn; try reflexivity; try discriminate.
    destruct (Nat.eqb_spec s (sp_sr p)) as [->|]; [|discriminate]. intros [= E]. f_equal. apply IH, E.
  Qed.
  Lemma prefix_own ps : prefix_length (map sp_sr ps) ps = length ps.
  Proof. induction ps as [|p ps IH]; cbn; [reflexivity|]. rewrite Nat.eqb_refl. f_equal. exact IH. Qed.

Section LONGEST.
  Variable irs : list iroute.
  Lemma longest_after ps best L : forall cands,
    (forall c, In c cands -> exists ir, nth_error irs (N.to_nat c) = Some ir /\ prefix_length (ir_srs ir) ps < L) ->
    longest_loop irs cands ps best L = Ok (best, L).
  Proof.
    induction cands as [|c cands IH]; intros H; cbn [longest_loop]; [reflexivity|].
    destruct (H c (or_introl eq_refl)) as (ir & E & P). unfold at_. rewrite E. cbn [bind].
    destruct (Nat.ltb_spec L (prefix_length (ir_srs ir) ps)); [lia|]. destruct (Nat.leb_spec L (prefix_length (ir_srs ir) ps)); [lia|].
    apply IH. intros d D. apply H. right. exact D.
  Qed.
  Lemma longest_before ps id r L : nth_error irs (N.to_nat id) = Some r -> prefix_length (ir_srs r) ps = L ->
    forall cands best cur, cur < L -> NoDup cands -> In id cands ->
    (forall c, In c cands -> c <> id -> exists ir, nth_error irs (N.to_nat c) = Some ir /\ prefix_length (ir_srs ir) ps < L) ->
    longest_loop irs cands ps best cur = Ok ([id], L).
  Proof.
    intros R PL. induction cands as [|c cands IH]; intros best cur Lt N I H; [destruct I|]. inversion N as [|? ? N1 N2]; subst. cbn [longest_loop].
    destruct (N.eq_dec c id) as [->|D].
    - unfold at_. rewrite R. cbn [bind]. destruct (Nat.ltb_spec cur (prefix_length (ir_srs r) ps)); [|lia]. rewrite Nat.leb_refl.
      apply longest_after. intros c C. apply H; [right; exact C|]. intros ->. contradiction.
    - destruct (H c (or_introl eq_refl) D) as (ir & E & P). unfold at_. rewrite E. cbn [bind].
      destruct I as [I|I]; [contradiction|].
      assert (IHx : forall b k, k < prefix_length (ir_srs r) ps -> longest_loop irs cands ps b k = Ok ([id], prefix_length (ir_srs r) ps)).
      { intros b k K. apply IH; auto. intros d Dd. apply H. right. exact Dd. }
      destruct (Nat.ltb _ _); apply IHx; lia.
  Qed.
End LONGEST.
Section DIRECT.
  Variable srs : list sroute.
  Variable checkpoint : nat -> option nat.
  Variable freight : bool.
  Notation node_idx := (node_idx srs checkpoint freight).

  Lemma points_found ir ss (LEN : (N.of_nat (length (ss_points ss)) < 2 ^ 63)%N) :
    (forall p, In p (ss_points ss) -> exists i, node_idx p = Ok i) ->
    forall n i, N.to_nat i + n <= length (ss_points ss) ->
    exists l, sequence_points srs checkpoint freight ir ss i n = Ok l.
  Proof.
    intros H. induction n as [|n IH]; intros i L; cbn [sequence_points]; [eauto|].
    unfold at64 at 1. destruct (N.ltb_spec i (N.of_nat (length (ss_points ss)))); [|lia]. unfold at_ at 1.
    destruct (nth_error (ss_points ss) (N.to_nat i)) as [p|] eqn:E; [|apply nth_error_None in E; lia]. cbn [bind].
    destruct (H p (nth_error_In _ _ E)) as [k ->]. cbn [bind].
    destruct (IH (add64 i 1)) as [t ->].
    { unfold add64, M64. rewrite N.mod_small by lia. lia. }
    cbn [bind]. eauto.
  Qed.
End DIRECT.

(* A train whose station routes are those of one route r is found and gets the path r with all its
   halts and timed points, if it does not halt in its first station route, the last point lies before the end of r,
   r passes all halts and timed points, and the station routes of no other route begin with those of
   r.  Missing for a full account of when a path is found: trains over several routes and trains that
   halt in their first station route. *)
Theorem C39_direct_partial : forall srs checkpoint n il freight fuel ss r p l,
  built srs n il -> positions_valid srs checkpoint -> (forall q, In q (il_routes il) -> NoDup (ir_srs q)) ->
  (N.of_nat (length (ss_points ss)) < 2 ^ 63)%N ->
  In r (il_routes il) -> sequence ss = ir_srs r ->
  hd_error (ss_points ss) = Some p -> sp_halt p = false ->
  (ss_break_in ss = true -> exists x, starts_at srs r x /\ cell_node srs (sp_sr p, 0) x) ->
  (forall q, In q (il_routes il) -> firstn (length (ir_srs r)) (ir_srs q) = ir_srs r -> q = r) ->
  hd_error (rev (ss_points ss)) = Some l -> ends_behind srs checkpoint freight (ss_break_out ss) r l ->
  (forall p, In p (ss_points ss) -> sp_halt p || sp_timed p = true -> passes srs checkpoint freight r p) ->
  transform srs checkpoint il freight (S fuel) ss = Ok (inr ([ir_id r], filter (fun p => sp_halt p || sp_timed p) (ss_points ss))).
Proof.
  intros srs cp n il fr fuel ss r p l B PV ND LEN Ir SQ HP NH BI UN HL EB PA.
  pose proof (proj1 B) as IDS. destruct B as (_ & PR & NB & B4 & B5 & B6).
  assert (WF : forall q, In q (il_routes il) -> wf_ir srs q) by (intros q Iq; rewrite Forall_forall in PR; apply PR, Iq).
  destruct (C38_participating srs (il_routes il) WF) as (tp & TP1 & TP2 & TP3 & TP4). rewrite B4 in TP1. injection TP1 as <-.
  destruct (C38_starting_at srs n (il_routes il) PR NB) as (ts & TS1 & TS2 & TS3 & TS4). rewrite B5 in TS1. injection TS1 as <-.
  assert (NID : NoDup (map ir_id (il_routes il))).
  { rewrite IDS. apply FinFun.Injective_map_NoDup; [intros x y E; lia|apply seq_NoDup]. }
  specialize (TP4 NID ND). specialize (TS4 NID).
  assert (AT : forall q, In q (il_routes il) -> nth_error (il_routes il) (N.to_nat (ir_id q)) = Some q).
  { intros q Iq. apply In_nth_error in Iq as [k K]. rewrite (id_position _ IDS _ _ K), Nat2N.id. exact K. }
  destruct (ss_points ss) as [|p0 ps] eqn:PS; [discriminate|]. injection HP as ->.
  assert (SQ' : map sp_sr (p :: ps) = ir_srs r) by (rewrite <- SQ; unfold sequence; rewrite PS; reflexivity).
  assert (SRS : forall x, In x (p :: ps) -> exists sr, sr_of srs (sp_sr x) = Some sr /\ indexable sr).
  { intros x Ix. apply (wf_srs _ _ (WF r Ir)). rewrite <- SQ'. apply in_map, Ix. }
  assert (NI : forall x, In x (p :: ps) -> node_idx srs cp fr x = Ok (position srs cp fr x)).
  { intros x Ix. destruct (SRS x Ix) as (sr & E & _). unfold node_idx, position, at_, has_transit_time, halt_idx. rewrite E. unfold sr_of in E. rewrite E.
    cbn [bind]. destruct (sp_halt x); cbn [negb andb]; [reflexivity|]. destruct (sp_timed x); reflexivity. }
  (* the candidates *)
  destruct (SRS p (or_introl eq_refl)) as (sr & ESR & ISR).
  destruct (nth_error (il_part il) (sp_sr p)) as [row|] eqn:ROW.
  2:{ apply nth_error_None in ROW. assert (sp_sr p < length srs) by (apply nth_error_Some; unfold sr_of in ESR; congruence). lia. }
  destruct (TP3 _ _ ROW) as [SROW RIN]. pose proof (TP4 _ _ ROW) as DROW.
  assert (RR : In (ir_id r) row).
  { apply RIN. exists r. split; [exact Ir|]. split; [reflexivity|]. rewrite Nat2N.id, <- SQ'. left. reflexivity. }
  assert (LT : forall c, In c row -> c <> ir_id r -> exists ir, nth_error (il_routes il) (N.to_nat c) = Some ir /\ prefix_length (ir_srs ir) (p :: ps) < length (p :: ps)).
  { intros c C D. apply RIN in C as (q & Q1 & <- & _). exists q. split; [apply AT, Q1|].
    pose proof (prefix_le (ir_srs q) (p :: ps)). destruct (Nat.eq_dec (prefix_length (ir_srs q) (p :: ps)) (length (p :: ps))) as [E|]; [exfalso|lia].
    apply prefix_all in E. apply D. rewrite (UN q Q1); [reflexivity|]. rewrite <- SQ', map_length. exact E. }
  assert (CANDS : exists cands, (do fn <- (if ss_break_in ss then do n0 <- sr_node sr 0; Ok (Some n0) else Ok None);
      get_candidates srs cp (il_part il) (il_start il) (il_halt il) fr ss (mkcover 0 0) fn) = Ok cands /\ NoDup cands /\ In (ir_id r) cands /\ (forall c, In c cands -> In c row)).
  { assert (DR : NoDup row).
    { clear - DROW. induction DROW as [|y t _ IH F]; constructor; [|exact IH]. intros I. rewrite Forall_forall in F. specialize (F _ I). lia. }
    unfold get_candidates, at64. rewrite PS. cbn [cv_off length N.of_nat N.to_nat N.ltb N.compare]. cbn [at_ nth_error]. unfold at_. cbn [nth_error bind].
    rewrite ROW. cbn [bind]. rewrite NH. cbn [negb].
    destruct (ss_break_in ss).
    - destruct (BI eq_refl) as (x & X1 & sr' & X2 & X3). cbn [fst snd] in X2, X3. rewrite ESR in X2. injection X2 as <-.
      unfold sr_node, at_. rewrite X3. cbn [bind].
      assert (LX : N.to_nat x < length (il_start il)) by (rewrite TS2; eapply NB; [exact ESR|eapply nth_error_In; exact X3]).
      destruct (nth_error (il_start il) (N.to_nat x)) as [st|] eqn:ST; [|apply nth_error_None in ST; lia]. cbn [bind].
      destruct (TS3 _ _ ST) as [SST SIN].
      destruct (C27_get_overlap row st SROW SST) as (ov & _ & -> & _ & O3 & O4). cbn [bind].
      assert (G : NoDup ov).
      { apply (NoDup_count_occ N.eq_dec). intros z. specialize (O3 z). unfold AlgoProofs.cnt in O3. pose proof (proj1 (NoDup_count_occ N.eq_dec row) DR z). lia. }
      exists ov. split; [destruct (Nat.eqb _ _); reflexivity|]. split; [exact G|]. split; [|intros c C; apply O4, C].
      apply O4. split; [exact RR|]. apply SIN. exists r. rewrite N2Nat.id. auto.
    - cbn [bind]. exists row. split; [destruct (Nat.eqb _ _); reflexivity|]. auto. }
  destruct CANDS as (cands & C1 & C2 & C3 & C4).
  assert (LG : longest (il_routes il) cands ss 0 = Ok ([ir_id r], length (p :: ps))).
  { unfold longest. rewrite PS. cbn [N.to_nat skipn]. apply (longest_before (il_routes il) (p :: ps) (ir_id r) r).
    - apply AT, Ir.
    - rewrite <- SQ'. apply prefix_own.
    - cbn. lia.
    - exact C2.
    - exact C3.
    - intros c C D. apply LT; auto. }
  unfold transform, transform_to_interlocking.
  assert (FI : get_first_ir srs cp (il_routes il) (il_part il) (il_start il) (il_halt il) fr ss = Ok (inr (ir_id r, mkcover (N.of_nat (length ps)) (N.of_nat (ir_end r))))).
  { unfold get_first_ir. rewrite PS. unfold at_ at 1. unfold sr_of in ESR. rewrite ESR. cbn [bind].
    destruct (if ss_break_in ss then _ else _) as [fn| | |]; try discriminate C1. cbn [bind] in *. rewrite C1. cbn [bind]. rewrite LG. cbn [bind].
    unfold at_. rewrite (AT r Ir). cbn [bind length Nat.eqb]. do 3 f_equal. f_equal. lia. }
  rewrite FI. cbn [bind cv_off cv_idx]. unfold at_ at 1. rewrite (AT r Ir). cbn [bind].
  replace (N.to_nat (add64 (N.of_nat (length ps)) 1)) with (length (ss_points ss))
    by (rewrite PS; unfold add64, M64; cbn [length] in *; rewrite N.mod_small by lia; lia).
  assert (LEN' : (N.of_nat (length (ss_points ss)) < 2 ^ 63)%N) by (rewrite PS; exact LEN).
  destruct (points_found srs cp fr r ss LEN') with (n := length (ss_points ss)) (i := 0%N) as [pts PT].
  { rewrite PS. intros x Ix. rewrite (NI x Ix). eauto. } { cbn. lia. }
  rewrite PT. cbn [bind]. apply (sequence_points_filter srs cp fr r ss LEN') in PT. rewrite PS in PT. cbn [N.to_nat skipn] in PT. rewrite firstn_all in PT.
  assert (PF : pts = filter (fun p => sp_halt p || sp_timed p) (p :: ps)).
  { rewrite PT. clear - NI PA PV WF Ir. revert NI PA. generalize (p :: ps) as l. induction l as [|x l IH]; intros NI PA; [reflexivity|]. cbn [filter].
    rewrite (IH (fun y Iy => NI y (or_intror Iy)) (fun y Iy => PA y (or_intror Iy))).
    replace (on_route srs cp fr r x) with (sp_halt x || sp_timed x); [reflexivity|]. unfold on_route. rewrite (NI x (or_introl eq_refl)).
    destruct (sp_halt x || sp_timed x) eqn:M.
    - destruct (PA x (or_introl eq_refl) M) as (i & P1 & P2). rewrite P1. symmetry. apply (C37_contains srs r (sp_sr x) i (WF r Ir)); [|exact P2].
      unfold position in P1. destruct (sp_halt x).
      + destruct (sr_of srs (sp_sr x)) as [sr|] eqn:E; [|discriminate]. apply (proj2 PV _ _ _ E). destruct fr; auto.
      + destruct (sp_timed x); [|discriminate]. apply (proj1 PV), P1.
    - unfold position. destruct (sp_halt x); [discriminate|]. destruct (sp_timed x); [discriminate|]. reflexivity. }
  assert (CV : covers srs fr (mkcover (N.of_nat (length ps)) (N.of_nat (ir_end r))) ss = Ok true).
  { unfold covers. cbn [cv_off cv_idx]. rewrite PS. cbn [length]. replace (S (length ps) - 1) with (length ps) by lia. rewrite N.ltb_irrefl.
    destruct (rev (p :: ps)) as [|l' t] eqn:RV; [discriminate|]. injection HL as ->.
    destruct (SRS l) as (srl & EL & IL). { apply in_rev. rewrite RV. left. reflexivity. }
    unfold at_. unfold sr_of in EL. rewrite EL. cbn [bind]. destruct EB as (E1 & E2 & E3). destruct (sp_halt l) eqn:HH.
    - destruct (E1 eq_refl) as (i & P1 & P2). unfold position in P1. rewrite HH in P1. unfold sr_of in P1. rewrite EL in P1. unfold halt_idx. rewrite P1. cbn [bind].
      f_equal. apply N.ltb_lt. lia.
    - destruct (ss_break_out ss).
      + specialize (E2 eq_refl eq_refl). unfold sr_len, sr_of in E2. rewrite EL in E2. unfold sr_size. unfold indexable in IL.
        destruct (N.ltb_spec (N.of_nat (length (sr_nodes srl))) 65535); [|lia]. cbn [sassert bind]. f_equal. apply N.ltb_lt.
        destruct (length (sr_nodes srl)) as [|k] eqn:K; [|lia]. exfalso.
        assert (E0 : 0 < ir_end r) by (rewrite Forall_forall in PR; apply (PR r Ir)).
        assert (LS : last (ir_srs r) 0 = sp_sr l).
        { rewrite <- SQ'. assert (Z : p :: ps = rev t ++ [l]) by (rewrite <- (rev_involutive (p :: ps)), RV; reflexivity). rewrite Z, map_app. apply last_last. }
        pose proof (wf_end _ _ (WF r Ir)) as WE. rewrite LS in WE. unfold sr_len, sr_of in WE. rewrite EL, K in WE. lia.
      + specialize (E3 eq_refl eq_refl). cbn [bind]. f_equal. apply N.ltb_lt. exact E3. }
  cbn [transform_loop]. rewrite CV. cbn [bind]. rewrite PF, PS.
  assert (ME : filter measurable (p :: ps) = filter (fun p => sp_halt p || sp_timed p) (p :: ps)).
  { apply filter_ext. intros x. unfold measurable, has_transit_time. destruct (sp_halt x), (sp_timed x); reflexivity. }
  rewrite ME, Nat.eqb_refl. cbn [sassert bind]. reflexivity.
Qed.
Print Assumptions C39_direct_partial.
(* a timed run through the second station route of C39_example *)
Example C39_direct_sat :
  let ss := mkss [mksp false true 1] false true in
  let cp := fun s => if Nat.eqb s 1 then Some 2 else None in
  positions_valid ex39_srs cp /\ (forall q, In q (il_routes ex39_il) -> NoDup (ir_srs q)) /\
  sequence ss = [1] /\ (forall q, In q (il_routes ex39_il) -> firstn 1 (ir_srs q) = [1] -> q = mkir 2 1 3 [1]) /\
  ends_behind ex39_srs cp true true (mkir 2 1 3 [1]) (mksp false true 1) /\
  passes ex39_srs cp true (mkir 2 1 3 [1]) (mksp false true 1) /\
  transform ex39_srs cp ex39_il true 1 ss = Ok (inr ([2]%N, [mksp false true 1])).
Proof.
  cbv zeta. split; [|split; [|split; [reflexivity|split; [|split; [|split]]]]].
  - split.
    + intros [|[|s]] i E; cbn in E; try discriminate. injection E as <-. cbn. lia.
    + intros [|[|s]] sr i E H; cbn in E; try (destruct s; discriminate E); injection E as <-; cbn in H; destruct H as [H|H]; try discriminate; injection H as <-; cbn; lia.
  - intros q [<-|[<-|[<-|[]]]]; cbn; repeat constructor; cbn; intuition discriminate.
  - intros q [<-|[<-|[<-|[]]]]; cbn; intros E; try discriminate; reflexivity.
  - split; [discriminate|]. split; [|discriminate]. intros _ _. cbn. lia.
  - exists 2. split; [reflexivity|]. cbn. auto.
  - vm_compute. reflexivity.
Qed.
