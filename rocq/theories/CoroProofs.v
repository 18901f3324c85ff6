(* Proofs about generators. *)
From Verif Require Import Base CoroModel CoroSpec.

Section Proofs.
  Context {A V E : Type}.
  Notation prog := (prog A V E).
  Notation promise := (promise A V E).
  Notation heap := (heap A V E).
  Notation event := (A + V)%type.
  Notation frames := (list (prog * (E -> prog))).
  Notation cells := (@h_cells A V E).
  Notation frm := (pr_frame A V E).
  Notation exc := (pr_exc A V E).
  Notation root := (pr_root A V E).
  Notation pol := (pr_pol A V E).
  Notation val := (pr_value A V E).

  (* ---- heaps ---- *)
  Lemma get_ok (s : heap) p c : cells s p = Some c -> get A V E s p = Ok c.
  Proof. unfold get. intros ->. reflexivity. Qed.
  Lemma upd_ok (s : heap) p c f : cells s p = Some c -> upd A V E s p f = Ok (put A V E s p (Some (f c))).
  Proof. unfold upd, get. intros ->. reflexivity. Qed.
  Lemma free_ok (s : heap) p c : cells s p = Some c -> free A V E s p = Ok (put A V E s p None).
  Proof. unfold free, get. intros ->. reflexivity. Qed.
  Lemma put_same (s : heap) p o : cells (put A V E s p o) p = o.
  Proof. cbn. rewrite Nat.eqb_refl. reflexivity. Qed.
  Lemma put_other (s : heap) p o n : n <> p -> cells (put A V E s p o) n = cells s n.
  Proof. intros N. cbn. rewrite (proj2 (Nat.eqb_neq n p) N). reflexivity. Qed.

  (* a cell that only its pointer to the leaf may have changed in, and only if it
     is the root *)
  Definition like (r n : nat) (o o' : option promise) : Prop :=
    o' = o \/ n = r /\ exists c l, o = Some c /\ o' = Some (with_pol A V E l c).
  Lemma like_refl r n o : like r n o o.
  Proof. left. reflexivity. Qed.
  Lemma like_trans r n a b c : like r n a b -> like r n b c -> like r n a c.
  Proof.
    intros [->|(-> & x & l & -> & ->)] H; [exact H|]. destruct H as [->|(_ & y & m & Hy & ->)].
    - right. split; [reflexivity|]. eauto.
    - injection Hy as <-. right. split; [reflexivity|]. exists x, m. auto.
  Qed.
  Lemma like_some r n c o : like r n (Some c) o -> exists c', o = Some c' /\ frm c' = frm c /\ exc c' = exc c /\ root c' = root c /\ val c' = val c /\
    (n <> r -> pol c' = pol c).
  Proof.
    intros [->|(-> & x & l & [= <-] & ->)]; [exists c; auto 6|]. exists (with_pol A V E l c). repeat (split; [reflexivity|]). congruence.
  Qed.

  (* ---- suspended coroutines ---- *)
  Inductive seg (cs : nat -> option promise) (r : nat) : nat -> nat -> frames -> list nat -> Prop :=
  | seg_nil p : seg cs r p p [] []
  | seg_more c p q k h fs ids cc pc : c <> r -> cs c = Some cc -> pol cc = p -> cs p = Some pc ->
      frm pc = f_await A V E c k h -> exc pc = None -> root pc = r -> seg cs r p q fs ids ->
      seg cs r c q ((k, h) :: fs) (p :: ids).
  Lemma seg_app cs r a b c f1 f2 i1 i2 : seg cs r a b f1 i1 -> seg cs r b c f2 i2 -> seg cs r a c (f1 ++ f2) (i1 ++ i2).
  Proof. induction 1; intros H'; [exact H'|]. cbn. econstructor; eauto. Qed.
  Lemma seg_ext cs cs' r a b fs ids : (forall n, In n (a :: ids) -> like r n (cs n) (cs' n)) -> seg cs r a b fs ids -> seg cs' r a b fs ids.
  Proof.
    intros H G. induction G as [p|c p q k h fs ids cc pc N Hc Hp Hpc Hf He Hr G IH]; [constructor|].
    assert (Lc := H c (or_introl eq_refl)). assert (Lp := H p (or_intror (or_introl eq_refl))). rewrite Hc in Lc. rewrite Hpc in Lp.
    destruct (like_some _ _ _ _ Lc) as (cc' & Ec & _ & _ & _ & _ & Ep). destruct (like_some _ _ _ _ Lp) as (pc' & Ep' & F & X & R & _).
    eapply seg_more with (cc := cc') (pc := pc'); try congruence; [rewrite (Ep N); exact Hp|].
    apply IH. intros n Hn. apply H. right. exact Hn.
  Qed.
  Lemma seg_last cs r a b fs ids : seg cs r a b fs ids -> In b (a :: ids).
  Proof. induction 1; [left; reflexivity|]. right. assumption. Qed.

  (* what is left of a stack of suspended coroutines *)
  Fixpoint rest (k : prog) (fs : frames) : list event * option E :=
    match fs with
    | [] => told k
    | (k', h) :: fs =>
        let d := rest (match snd (told k) with None => k' | Some e => h e end) fs in (fst (told k) ++ fst d, snd d)
    end.
  Lemma rest_snoc fs : forall k k' h, rest k (fs ++ [(k', h)]) =
    (fst (rest k fs) ++ fst (told (match snd (rest k fs) with None => k' | Some e => h e end)),
     snd (told (match snd (rest k fs) with None => k' | Some e => h e end))).
  Proof.
    induction fs as [|[k1 h1] fs IH]; intros k k' h; [reflexivity|]. cbn [app rest]. rewrite IH. cbn [fst snd]. rewrite app_assoc. reflexivity.
  Qed.
  Lemma values_app (l1 l2 : list event) : values (l1 ++ l2) = values l1 ++ values l2.
  Proof. unfold values. apply flat_map_app. Qed.

  Lemma nodup_snoc {B} (l : list B) x : NoDup l -> ~ In x l -> NoDup (l ++ [x]).
  Proof.
    induction 1 as [|y l N _ IH]; intros H; cbn [app]; [constructor; [intros []|constructor]|]. constructor.
    - rewrite in_app_iff. intros [I|[->|[]]]; [contradiction|]. apply H. left. reflexivity.
    - apply IH. intros I. apply H. right. exact I.
  Qed.

  (* ---- running the body of a coroutine ---- *)
  Definition ended (r p : nat) (pc : promise) (b : prog) (s s' : heap) : Prop :=
    values (fst (told b)) = [] /\ h_trace s' = h_trace s ++ fst (told b) /\
    (forall n, h_next s <= n -> cells s' n = None) /\
    exists pc' rc', cells s' p = Some pc' /\ frm pc' = f_done A V E /\ exc pc' = snd (told b) /\ root pc' = r /\
      (p <> r -> pol pc' = pol pc) /\ cells s' r = Some rc' /\ pol rc' = p.
  Definition stopped (r p : nat) (pc : promise) (b : prog) (s s' : heap) : Prop :=
    exists ev leaf v k fs ids lc rc',
      fst (told b) = ev ++ inr v :: fst (rest k fs) /\ values ev = [] /\ snd (told b) = snd (rest k fs) /\ h_trace s' = h_trace s ++ ev /\
      cells s' leaf = Some lc /\ frm lc = f_yielded A V E k /\ val lc = Some v /\ exc lc = None /\ root lc = r /\
      cells s' r = Some rc' /\ pol rc' = leaf /\ seg (cells s') r leaf p fs ids /\
      (forall n, h_next s <= n -> cells s' n <> None -> In n (leaf :: ids)) /\
      (forall n, In n (leaf :: ids) -> n = p \/ h_next s <= n < h_next s') /\ NoDup (leaf :: ids) /\
      (p <> r -> exists pc', cells s' p = Some pc' /\ pol pc' = pol pc).
  Definition runs_to (r p : nat) (pc : promise) (b : prog) (s s' : heap) : Prop :=
    h_next s <= h_next s' /\ (forall n, h_next s' <= n -> cells s' n = None) /\
    (forall n, n < h_next s -> n <> p -> like r n (cells s n) (cells s' n)) /\
    (ended r p pc b s s' \/ stopped r p pc b s s').

  Lemma run_spec b : forall p s pc rc,
    cells s p = Some pc -> frm pc = f_running A V E -> exc pc = None -> cells s (root pc) = Some rc -> pol rc = p ->
    p < h_next s -> root pc < h_next s -> (forall n, h_next s <= n -> cells s n = None) ->
    exists s', run A V E p b s = Ok s' /\ runs_to (root pc) p pc b s s'.
  Proof.
    induction b as [|e|a k IH|v k IH|g IHg k IHk h IHh]; intros p s pc rc Hp Hf He Hr Hl Lp Lr Hn; cbn [run].
    - rewrite (upd_ok _ _ _ _ Hp). eexists. split; [reflexivity|]. split; [cbn; lia|]. split.
      { intros n Ln. cbn [h_next put] in Ln. rewrite put_other by lia. apply Hn, Ln. }
      split; [intros n Ln N; rewrite put_other by exact N; apply like_refl|]. left. split; [reflexivity|].
      split; [cbn; rewrite app_nil_r; reflexivity|]. split; [intros n Ln; rewrite put_other by lia; apply Hn, Ln|].
      exists (with_frame A V E (f_done A V E) pc), (if Nat.eqb (root pc) p then with_frame A V E (f_done A V E) pc else rc).
      rewrite put_same. split; [reflexivity|]. split; [reflexivity|]. split; [exact He|]. split; [reflexivity|]. split; [reflexivity|].
      destruct (Nat.eqb_spec (root pc) p) as [Q|Q].
      + rewrite Q, put_same. split; [reflexivity|]. cbn. rewrite Q, Hp in Hr. injection Hr as <-. exact Hl.
      + rewrite put_other by exact Q. auto.
    - rewrite (upd_ok _ _ _ _ Hp). cbn [bind]. rewrite (upd_ok _ _ _ _ (put_same _ _ _)). eexists. split; [reflexivity|]. split; [cbn; lia|]. split.
      { intros n Ln. cbn [h_next put] in Ln. rewrite !put_other by lia. apply Hn, Ln. }
      split; [intros n Ln N; rewrite !put_other by exact N; apply like_refl|]. left. split; [reflexivity|].
      split; [cbn; rewrite app_nil_r; reflexivity|]. split; [intros n Ln; rewrite !put_other by lia; apply Hn, Ln|].
      exists (with_frame A V E (f_done A V E) (with_exc A V E e pc)),
        (if Nat.eqb (root pc) p then with_frame A V E (f_done A V E) (with_exc A V E e pc) else rc).
      rewrite put_same. do 5 (split; [reflexivity|]).
      destruct (Nat.eqb_spec (root pc) p) as [Q|Q].
      + rewrite Q, put_same. split; [reflexivity|]. cbn. rewrite Q, Hp in Hr. injection Hr as <-. exact Hl.
      + rewrite !put_other by exact Q. auto.
    - destruct (IH p (emit A V E s (inl a)) pc rc Hp Hf He Hr Hl Lp Lr Hn) as (s' & R & B & C & D & F).
      exists s'. split; [exact R|]. split; [exact B|]. split; [exact C|]. split; [exact D|].
      destruct F as [(F1 & F2 & F3)|(ev & leaf & v & k0 & fs & ids & lc & rc' & F1 & F2 & F3 & F4 & F5)].
      + left. split; [exact F1|]. split; [|exact F3]. rewrite F2. cbn. rewrite <- app_assoc. reflexivity.
      + right. exists (inl a :: ev), leaf, v, k0, fs, ids, lc, rc'. cbn [told fst snd app]. split; [rewrite F1; reflexivity|].
        split; [exact F2|]. split; [exact F3|]. split; [|exact F5]. rewrite F4. cbn. rewrite <- app_assoc. reflexivity.
    - rewrite (upd_ok _ _ _ _ Hp). cbn [bind]. rewrite (upd_ok _ _ _ _ (put_same _ _ _)). eexists. split; [reflexivity|]. split; [cbn; lia|]. split.
      { intros n Ln. cbn [h_next put] in Ln. rewrite !put_other by lia. apply Hn, Ln. }
      split; [intros n Ln N; rewrite !put_other by exact N; apply like_refl|]. right.
      exists [], p, v, k, [], [], (with_frame A V E (f_yielded A V E k) (with_value A V E v pc)),
        (if Nat.eqb (root pc) p then with_frame A V E (f_yielded A V E k) (with_value A V E v pc) else rc).
      split; [reflexivity|]. split; [reflexivity|]. split; [reflexivity|]. split; [cbn; rewrite app_nil_r; reflexivity|].
      rewrite put_same. split; [reflexivity|]. split; [reflexivity|]. split; [reflexivity|]. split; [exact He|]. split; [reflexivity|].
      assert (Q : cells (put A V E (put A V E s p (Some (with_value A V E v pc))) p (Some (with_frame A V E (f_yielded A V E k) (with_value A V E v pc)))) (root pc) =
                  Some (if Nat.eqb (root pc) p then with_frame A V E (f_yielded A V E k) (with_value A V E v pc) else rc) /\
                  pol (if Nat.eqb (root pc) p then with_frame A V E (f_yielded A V E k) (with_value A V E v pc) else rc) = p).
      { destruct (Nat.eqb_spec (root pc) p) as [Q|Q].
        - rewrite Q, put_same. split; [reflexivity|]. cbn. rewrite Q, Hp in Hr. injection Hr as <-. exact Hl.
        - rewrite !put_other by exact Q. auto. }
      split; [exact (proj1 Q)|]. split; [exact (proj2 Q)|]. split; [constructor|]. split.
      { intros n Ln Nn. exfalso. apply Nn. rewrite !put_other by lia. apply Hn, Ln. }
      split; [intros n [<-|[]]; left; reflexivity|]. split; [constructor; [intros []|constructor]|].
      intros N. eexists. split; reflexivity.
    - set (r := root pc) in *. set (c := h_next s) in *. set (s0 := snd (create A V E s g)).
      change (fst (create A V E s g)) with c.
      assert (C0 : forall n, n <> c -> cells s0 n = cells s n).
      { intros n N. unfold s0, create. cbn. fold c. rewrite (proj2 (Nat.eqb_neq n c) N). reflexivity. }
      assert (Cc : cells s0 c = Some (mk_promise A V E (f_start A V E g) None None c c)).
      { unfold s0, create. cbn. fold c. rewrite Nat.eqb_refl. reflexivity. }
      assert (Hp0 : cells s0 p = Some pc) by (rewrite C0 by (unfold c; lia); exact Hp).
      assert (Hr0 : cells s0 r = Some rc) by (rewrite C0 by (unfold c; lia); exact Hr).
      rewrite (get_ok _ _ _ Hp0). cbn [bind]. fold r. rewrite (upd_ok _ _ _ _ Hr0). cbn [bind].
      set (s1 := put A V E s0 r (Some (with_pol A V E c rc))).
      assert (Cc1 : cells s1 c = Some (mk_promise A V E (f_start A V E g) None None c c)) by (unfold s1; rewrite put_other by (unfold c; lia); exact Cc).
      rewrite (upd_ok _ _ _ _ Cc1). cbn [bind]. rewrite (upd_ok _ _ _ _ (put_same _ _ _)). cbn [bind].
      rewrite (upd_ok _ _ _ _ (put_same _ _ _)). cbn [bind].
      set (cc := with_frame A V E (f_running A V E) (with_pol A V E p (with_root A V E r (mk_promise A V E (f_start A V E g) None None c c)))).
      match goal with |- context [run A V E c g ?x] => set (s2 := x) end.
      assert (S2n : forall n, n <> c -> cells s2 n = cells s1 n) by (intros n N; unfold s2; rewrite !put_other by exact N; reflexivity).
      assert (S2c : cells s2 c = Some cc) by (unfold s2; apply put_same).
      assert (S2r : cells s2 r = Some (with_pol A V E c rc)) by (rewrite S2n by (unfold c; lia); unfold s1; apply put_same).
      assert (S1n : forall n, n <> r -> n <> c -> cells s2 n = cells s n).
      { intros n N N'. rewrite S2n by exact N'. unfold s1. rewrite put_other by exact N. apply C0, N'. }
      assert (S2x : h_next s2 = S c) by reflexivity.
      assert (S2t : h_trace s2 = h_trace s) by reflexivity.
      assert (L2 : forall n, n < c -> like r n (cells s n) (cells s2 n)).
      { intros n Ln. destruct (Nat.eq_dec n r) as [->|N].
        - right. split; [reflexivity|]. exists rc, c. auto.
        - left. apply S1n; lia. }
      destruct (IHg c s2 cc (with_pol A V E c rc) S2c eq_refl eq_refl S2r eq_refl) as (s3 & R3 & N3 & U3 & K3 & G3).
      { lia. }
      { change (root cc) with r. rewrite S2x. unfold c. lia. }
      { intros n Ln. rewrite S2x in Ln. rewrite S1n; [apply Hn; unfold c in *; lia|unfold c in *; lia|lia]. }
      change (root cc) with r in *. rewrite S2x in *.
      rewrite R3. cbn [bind].
      assert (K : forall n, n < c -> like r n (cells s n) (cells s3 n)).
      { intros n Ln. eapply like_trans; [apply L2, Ln|]. apply K3; lia. }
      assert (Kp := K p Lp). rewrite Hp in Kp. destruct (like_some _ _ _ _ Kp) as (pc3 & Hp3 & Fp3 & Ep3 & Rp3 & Vp3 & Lp3).
      destruct G3 as [(G1 & G2 & G3 & cc3 & rc3 & Hc3 & Fc3 & Ec3 & Rc3 & Pc3 & Hr3 & Pr3)|
                      (ev & leaf & v & kl & fs & ids & lc & rc3 & G1 & G2 & G3 & G4 & Hl3 & Fl3 & Vl3 & El3 & Rl3 & Hr3 & Pr3 & Sg & On & Rg & Nd & Pc)].
      + rewrite (get_ok _ _ _ Hc3). cbn [bind]. unfold is_complete. rewrite Fc3.
        rewrite (get_ok _ _ _ Hp3). cbn [bind]. rewrite Rp3. fold r. rewrite (upd_ok _ _ _ _ Hr3). cbn [bind].
        assert (Hc4 : cells (put A V E s3 r (Some (with_pol A V E p rc3))) c = Some cc3) by (rewrite put_other by (unfold c; lia); exact Hc3).
        rewrite (free_ok _ _ _ Hc4). cbn [bind].
        set (s4 := put A V E (put A V E s3 r (Some (with_pol A V E p rc3))) c None).
        assert (S4 : forall n, n <> r -> n <> c -> cells s4 n = cells s3 n) by (intros n N N'; unfold s4; rewrite !put_other by assumption; reflexivity).
        assert (S4r : cells s4 r = Some (with_pol A V E p rc3)) by (unfold s4; rewrite put_other by (unfold c; lia); apply put_same).
        assert (S4c : cells s4 c = None) by (unfold s4; apply put_same).
        set (pc4 := if Nat.eqb p r then with_pol A V E p rc3 else pc3).
        assert (Hp4 : cells s4 p = Some pc4 /\ frm pc4 = f_running A V E /\ exc pc4 = None /\ root pc4 = r /\ (p <> r -> pol pc4 = pol pc)).
        { unfold pc4. destruct (Nat.eqb_spec p r) as [Q|Q].
          - rewrite Q in *. rewrite Hp3 in Hr3. injection Hr3 as <-. split; [exact S4r|]. cbn. split; [exact (eq_trans Fp3 Hf)|]. split; [exact (eq_trans Ep3 He)|]. split; [exact Rp3|]. intros Q'. destruct (Q' eq_refl).
          - split; [rewrite S4 by (unfold c; lia); exact Hp3|]. split; [exact (eq_trans Fp3 Hf)|]. split; [exact (eq_trans Ep3 He)|]. split; [exact Rp3|]. intros _. apply Lp3, Q. }
        destruct Hp4 as (Hp4 & Fp4 & Ep4 & Rp4 & Pp4).
        assert (X4 : h_next s4 = h_next s3) by reflexivity.
        assert (T4 : h_trace s4 = h_trace s ++ fst (told g)) by (change (h_trace s4) with (h_trace s3); rewrite G2, S2t; reflexivity).
        assert (N4 : forall n, c <= n -> cells s4 n = None).
        { intros n Ln. destruct (Nat.eq_dec n c) as [->|Q]; [exact S4c|]. rewrite S4; [apply G3; lia|unfold c in *; lia|exact Q]. }
        rewrite <- Rp4 in S4r.
        destruct (IHk p s4 pc4 _ Hp4 Fp4 Ep4 S4r eq_refl) as (s5 & R5 & N5 & U5 & K5 & G5).
        { rewrite X4. lia. }
        { rewrite X4, Rp4. unfold c in *. lia. }
        { intros n Ln. apply N4. lia. }
        rewrite Rp4 in *.
        assert (M : forall n, n < c -> n <> p -> like r n (cells s n) (cells s5 n)).
        { intros n Ln N. eapply like_trans; [apply K, Ln|]. eapply like_trans; [|apply K5; [lia|exact N]].
          destruct (Nat.eq_dec n r) as [->|Q]; [right; split; [reflexivity|]; exists rc3, p; auto|]. left. apply S4; lia. }
        exists s5. split; [exact R5|]. split; [lia|]. split; [exact U5|]. split; [exact M|].
        assert (Td : told (p_sub g k h) = (fst (told g) ++ fst (told k), snd (told k))).
        { cbn [told]. rewrite G1. destruct (snd (told g)); reflexivity. }
        destruct G5 as [(G5a & G5b & G5c & pc5 & rc5 & G5d & G5e & G5f & G5g & G5h & G5i)|
                        (ev & leaf & v & kl & fs & ids & lc & rc5 & G5a & G5b & G5c & G5d & Hl5 & Fl5 & Vl5 & El5 & Rl5 & Hr5 & Pr5 & Sg & On & Rg & Nd & Pc)].
        * left. rewrite X4 in *. split; [rewrite Td; cbn [fst]; rewrite values_app, G1, G5a; reflexivity|].
          split; [rewrite G5b, T4, Td; cbn [fst]; rewrite app_assoc; reflexivity|]. split.
          { intros n Ln. destruct (Nat.lt_ge_cases n (h_next s3)) as [Q|Q]; [|apply G5c, Q].
            assert (Lk := K5 n ltac:(lia) ltac:(unfold c in *; lia)). rewrite N4 in Lk by exact Ln. destruct Lk as [Lk|(_ & x & l & Lk & _)]; [exact Lk|discriminate]. }
          exists pc5, rc5. split; [exact G5d|]. split; [exact G5e|]. split; [rewrite Td; exact G5f|]. split; [exact G5g|]. split; [|exact G5i].
          intros Q. rewrite (G5h Q). apply Pp4, Q.
        * right. rewrite X4 in *. exists (fst (told g) ++ ev), leaf, v, kl, fs, ids, lc, rc5. rewrite Td. cbn [fst snd].
          split; [rewrite G5a, app_assoc; reflexivity|]. split; [rewrite values_app, G1, G5b; reflexivity|]. split; [exact G5c|].
          split; [rewrite G5d, T4, app_assoc; reflexivity|]. do 8 (split; [assumption|]). split.
          { intros n Ln Nn. destruct (Nat.lt_ge_cases n (h_next s3)) as [Q|Q]; [|apply On; assumption]. exfalso. apply Nn.
            assert (Lk := K5 n ltac:(lia) ltac:(unfold c in *; lia)). rewrite N4 in Lk by exact Ln. destruct Lk as [Lk|(_ & x & l & Lk & _)]; [exact Lk|discriminate]. }
          split; [intros n I; destruct (Rg n I) as [->|Q]; [left; reflexivity|right; lia]|]. split; [exact Nd|].
          intros Q. destruct (Pc Q) as (pc5 & P1 & P2). exists pc5. split; [exact P1|]. rewrite P2. apply Pp4, Q.
      + assert (Ic : In c (leaf :: ids)) by (eapply seg_last; exact Sg).
        assert (Hc3 : exists cc3, cells s3 c = Some cc3 /\ pol cc3 = p /\ is_complete A V E cc3 = false).
        { destruct (Pc ltac:(unfold c in *; lia)) as (cc3 & P1 & P2). exists cc3. split; [exact P1|]. split; [exact P2|].
          unfold is_complete. destruct (Nat.eq_dec leaf c) as [->|Q].
          - rewrite Hl3 in P1. injection P1 as <-. rewrite Fl3. reflexivity.
          - clear - Sg P1 Q. revert P1. induction Sg as [x|c0 p0 q k0 h0 fs ids cx px N Hx Hpx Hp0 Hf He Hr G IH]; intros P1; [congruence|].
            destruct (Nat.eq_dec p0 q) as [->|Q']; [|exact (IH Q' P1)]. rewrite Hp0 in P1. injection P1 as <-. rewrite Hf. reflexivity. }
        destruct Hc3 as (cc3 & Hc3 & Pc3 & Cm). rewrite (get_ok _ _ _ Hc3). cbn [bind]. rewrite Cm.
        rewrite (upd_ok _ _ _ _ Hp3). set (pc5 := with_frame A V E (f_await A V E c k h) pc3). set (s5 := put A V E s3 p (Some pc5)).
        assert (S5 : forall n, n <> p -> cells s5 n = cells s3 n) by (intros n N; unfold s5; apply put_other, N).
        assert (S5p : cells s5 p = Some pc5) by (unfold s5; apply put_same).
        assert (Big : forall n, In n (leaf :: ids) -> c <= n < h_next s3) by (intros n I; destruct (Rg n I) as [->|Q]; lia).
        exists s5. split; [reflexivity|]. split; [cbn; lia|]. split.
        { intros n Ln. change (h_next s5) with (h_next s3) in Ln. rewrite S5 by lia. apply U3, Ln. }
        split; [intros n Ln N; rewrite S5 by exact N; apply K, Ln|]. right.
        assert (Vg : values (fst (told g)) <> []).
        { rewrite G1, values_app, G2. cbn. discriminate. }
        assert (Td : told (p_sub g k h) = (fst (told g) ++ fst (told (match snd (told g) with None => k | Some e => h e end)), snd (told (match snd (told g) with None => k | Some e => h e end)))).
        { cbn [told]. destruct (values (fst (told g))) as [|w l]; [congruence|]. destruct (snd (told g)); reflexivity. }
        exists ev, leaf, v, kl, (fs ++ [(k, h)]), (ids ++ [p]), lc, (if Nat.eqb r p then pc5 else rc3).
        rewrite Td, rest_snoc. cbn [fst snd]. rewrite <- G3. split; [rewrite G1, <- app_assoc; reflexivity|]. split; [exact G2|]. split; [reflexivity|].
        split; [change (h_trace s5) with (h_trace s3); rewrite G4, S2t; reflexivity|].
        assert (Lf := Big leaf (or_introl eq_refl)).
        split; [rewrite S5 by lia; exact Hl3|]. do 4 (split; [assumption|]).
        assert (Q : cells s5 r = Some (if Nat.eqb r p then pc5 else rc3) /\ pol (if Nat.eqb r p then pc5 else rc3) = leaf).
        { destruct (Nat.eqb_spec r p) as [Q|Q].
          - rewrite Q. split; [exact S5p|]. rewrite Q, Hp3 in Hr3. injection Hr3 as <-. exact Pr3.
          - rewrite S5 by exact Q. auto. }
        split; [exact (proj1 Q)|]. split; [exact (proj2 Q)|]. split.
        { apply seg_app with (b := c).
          - eapply seg_ext; [|exact Sg]. intros n I. left. apply S5. specialize (Big n I). lia.
          - eapply seg_more with (cc := cc3) (pc := pc5); [unfold c in *; lia|rewrite S5 by (unfold c; lia); exact Hc3|exact Pc3|exact S5p|reflexivity| | |constructor].
            + exact (eq_trans Ep3 He).
            + exact Rp3. }
        split.
        { intros n Ln Nn. rewrite S5 in Nn by lia. rewrite app_comm_cons. apply in_or_app. left.
          destruct (Nat.eq_dec n c) as [->|Qn]; [exact Ic|]. apply On; [lia|exact Nn]. }
        split.
        { intros n I. rewrite app_comm_cons in I. apply in_app_or in I. destruct I as [I|[<-|[]]]; [right; exact (Big n I)|left; reflexivity]. }
        split.
        { rewrite app_comm_cons. apply nodup_snoc; [exact Nd|]. intros I. specialize (Big p I). lia. }
        intros Q'. exists pc5. split; [exact S5p|]. unfold pc5. cbn. apply Lp3, Q'.
  Qed.

  (* ---- pulling ---- *)
  Definition after (o : option E) (fs : frames) : list event * option E :=
    match fs with [] => ([], o) | (k, h) :: fs => rest (match o with None => k | Some e => h e end) fs end.
  Lemma rest_after k fs : rest k fs = (fst (told k) ++ fst (after (snd (told k)) fs), snd (after (snd (told k)) fs)).
  Proof. destruct fs as [|[k' h] fs]; [|reflexivity]. cbn [rest after fst snd]. rewrite app_nil_r. apply surjective_pairing. Qed.
  Lemma rest_app f1 f2 : forall k, rest k (f1 ++ f2) = (fst (rest k f1) ++ fst (after (snd (rest k f1)) f2), snd (after (snd (rest k f1)) f2)).
  Proof.
    induction f1 as [|[k' h] f1 IH]; intros k; [apply rest_after|]. cbn [app rest]. rewrite IH. cbn [fst snd]. rewrite app_assoc. reflexivity.
  Qed.

  (* live promises *)
  Definition live (s : heap) (l : list nat) : Prop :=
    (forall n, cells s n <> None -> In n l) /\ (forall n, In n l -> n < h_next s) /\ NoDup l.
  Lemma live_next s l : live s l -> forall n, h_next s <= n -> cells s n = None.
  Proof.
    intros (L & B & _) n Ln. destruct (cells s n) eqn:Q; [|reflexivity]. exfalso. assert (I : In n l) by (apply L; congruence). apply B in I. lia.
  Qed.

  (* suspended after the value v *)
  Definition waiting (r : nat) (s : heap) (v : V) (k : prog) (fs : frames) : Prop :=
    exists leaf ids lc rc, cells s leaf = Some lc /\ frm lc = f_yielded A V E k /\ val lc = Some v /\ exc lc = None /\ root lc = r /\
      cells s r = Some rc /\ pol rc = leaf /\ seg (cells s) r leaf r fs ids /\ live s (leaf :: ids).
  Definition finished (r : nat) (s : heap) (o : option E) : Prop :=
    exists rc, cells s r = Some rc /\ frm rc = f_done A V E /\ exc rc = o /\ live s [r].
  Definition leads_to (r : nat) (s s' : heap) (d : list event * option E) : Prop :=
    (values (fst d) = [] /\ h_trace s' = h_trace s ++ fst d /\ finished r s' (snd d)) \/
    (exists ev v k fs, fst d = ev ++ inr v :: fst (rest k fs) /\ values ev = [] /\ snd d = snd (rest k fs) /\
       h_trace s' = h_trace s ++ ev /\ waiting r s' v k fs).

  Lemma seg_head cs cs' r p q fs ids pc : seg cs r p q fs ids -> ~ In p ids -> cs p = Some pc ->
    (forall n, In n ids -> like r n (cs n) (cs' n)) -> (p <> r -> exists pc', cs' p = Some pc' /\ pol pc' = pol pc) -> seg cs' r p q fs ids.
  Proof.
    intros G Ni Hp H X. destruct G as [p|c p q k h fs ids cc pc0 N Hc Hpp Hpc Hf He Hr G]; [constructor|].
    rewrite Hc in Hp. injection Hp as <-. destruct (X N) as (cc' & Hc' & Pc').
    assert (Lp := H p (or_introl eq_refl)). rewrite Hpc in Lp. destruct (like_some _ _ _ _ Lp) as (pc' & Ep' & F & Y & R & _).
    eapply seg_more with (cc := cc') (pc := pc'); try congruence. eapply seg_ext; [|exact G]. exact H.
  Qed.

  Lemma nodup_app {B} (l1 l2 : list B) : NoDup l1 -> NoDup l2 -> (forall n, In n l1 -> ~ In n l2) -> NoDup (l1 ++ l2).
  Proof.
    intros N1 N2. induction N1 as [|y l Ny _ IH]; intros D; [exact N2|]. cbn [app]. constructor.
    - rewrite in_app_iff. intros [I|I]; [contradiction|]. exact (D y (or_introl eq_refl) I).
    - apply IH. intros n I. apply D. right. exact I.
  Qed.
  Lemma back r p s s1 : (forall n, n < h_next s -> n <> p -> like r n (cells s n) (cells s1 n)) ->
    forall n, n < h_next s -> n <> p -> cells s1 n <> None -> cells s n <> None.
  Proof.
    intros K1 n Ln N Q. destruct (K1 n Ln N) as [Y|(_ & y & l & Y & _)]; [rewrite <- Y; exact Q|rewrite Y; discriminate].
  Qed.

  Lemma go_stop r fs p x s s1 ids pc : cells s p = Some pc -> seg (cells s) r p r fs ids -> live s (p :: ids) ->
    h_next s <= h_next s1 -> (forall n, n < h_next s -> n <> p -> like r n (cells s n) (cells s1 n)) -> stopped r p pc x s s1 ->
    exists N s', leads_to r s s' (rest x fs) /\ forall fuel, N <= fuel -> pull_loop A V E fuel r s1 = Ok s'.
  Proof.
    intros Hp Sg Lv N1 K1 (ev & leaf & v & kl & fsn & idsn & lc & rc1 & G2 & G3 & G4 & G5 & Hl1 & Fl1 & Vl1 & El1 & Rl1 & Hr1 & Pr1 & Sg1 & On & Rg & Nd & Pc).
    assert (Bp : p < h_next s) by (apply (proj1 (proj2 Lv)); left; reflexivity).
    assert (Npi : ~ In p ids) by (destruct Lv as (_ & _ & Nd0); inversion_clear Nd0; assumption).
    assert (Bi : forall n, In n ids -> n < h_next s /\ n <> p) by
      (intros n I; split; [apply (proj1 (proj2 Lv)); right; exact I|intros ->; contradiction]).
    assert (Back := back _ _ _ _ K1).
    exists 1, s1. apply and_comm. split.
    { intros [|fuel] Lf; [lia|]. cbn [pull_loop]. rewrite (get_ok _ _ _ Hr1). cbn [bind]. rewrite Pr1. destruct (Nat.eqb_spec leaf r) as [Q|Q]; [reflexivity|].
      rewrite (get_ok _ _ _ Hl1). cbn [bind]. unfold is_complete. rewrite Fl1. reflexivity. }
    right. exists ev, v, kl, (fsn ++ fs). rewrite rest_app, rest_after, G2, G4. cbn [fst snd]. rewrite <- app_assoc.
    split; [reflexivity|]. split; [exact G3|]. split; [reflexivity|]. split; [exact G5|].
    exists leaf, (idsn ++ ids), lc, rc1. do 7 (split; [assumption|]). split.
    - apply seg_app with (b := p); [exact Sg1|]. eapply seg_head; [exact Sg|exact Npi|exact Hp| |exact Pc].
      intros n I. apply K1; apply Bi, I.
    - rewrite app_comm_cons. split; [|split].
      + intros n Q. apply in_or_app. destruct (Nat.lt_ge_cases n (h_next s)) as [Ln|Ln]; [|left; apply On; assumption].
        destruct (Nat.eq_dec n p) as [->|Np]; [left; eapply seg_last; exact Sg1|].
        destruct (proj1 Lv n (Back n Ln Np Q)) as [<-|I]; [congruence|right; exact I].
      + intros n I. apply in_app_or in I. destruct I as [I|I]; [destruct (Rg n I) as [->|Q]; lia|destruct (Bi n I); lia].
      + apply nodup_app; [exact Nd|destruct Lv as (_ & _ & Nd0); inversion_clear Nd0; assumption|].
        intros n I J. destruct (Bi n J). destruct (Rg n I) as [->|Q]; [congruence|lia].
  Qed.

  Lemma go r fs : forall p x s ids pc rc,
    cells s p = Some pc -> frm pc = f_running A V E -> exc pc = None -> root pc = r -> cells s r = Some rc -> pol rc = p ->
    seg (cells s) r p r fs ids -> live s (p :: ids) ->
    exists N s', leads_to r s s' (rest x fs) /\ forall fuel, N <= fuel -> bind (run A V E p x s) (pull_loop A V E fuel r) = Ok s'.
  Proof.
    induction fs as [|[k h] fs IH]; intros p x s ids pc rc Hp Hf He Hroot Hr Hl Sg Lv; subst r;
      assert (Bp : p < h_next s) by (apply (proj1 (proj2 Lv)); left; reflexivity);
      assert (Br : root pc < h_next s) by (apply (proj1 (proj2 Lv)); eapply seg_last; exact Sg);
      destruct (run_spec x p s pc rc Hp Hf He Hr Hl Bp Br (live_next _ _ Lv)) as (s1 & R1 & N1 & U1 & K1 & G1); rewrite R1; cbn [bind].
    all: assert (Npi : ~ In p ids) by (destruct Lv as (_ & _ & Nd); inversion_clear Nd; assumption).
    all: assert (Bi : forall n, In n ids -> n < h_next s /\ n <> p) by
      (intros n I; split; [apply (proj1 (proj2 Lv)); right; exact I|intros ->; contradiction]).
    all: assert (Ki : forall n, In n ids -> like (root pc) n (cells s n) (cells s1 n)) by (intros n I; apply K1; apply Bi, I).
    all: assert (Back := back _ _ _ _ K1).
    all: destruct G1 as [G1|G1]; [|exact (go_stop _ _ _ _ _ _ _ _ Hp Sg Lv N1 K1 G1)].
    all: destruct G1 as (G1 & G2 & G3 & pc1 & rc1 & Hp1 & Fp1 & Ep1 & Rp1 & Pp1 & Hr1 & Pr1).
    - (* the root has ended *)
      assert (Q0 : p = root pc /\ ids = []) by (inversion Sg; auto). destruct Q0 as (Q0 & ->). exists 1, s1. apply and_comm.
      split; [intros [|fuel] Lf; [lia|]; cbn [pull_loop]; rewrite (get_ok _ _ _ Hr1); cbn [bind]; rewrite Pr1, Q0, Nat.eqb_refl; reflexivity|].
      left. cbn [rest]. split; [exact G1|]. split; [exact G2|]. exists pc1. rewrite <- Q0, Hp1. do 3 (split; [auto|]).
      split; [|split].
      + intros n Q. destruct (Nat.eq_dec n p) as [->|Np]; [left; reflexivity|]. exfalso.
        destruct (Nat.lt_ge_cases n (h_next s)) as [Ln|Ln]; [|apply Q, G3, Ln].
        destruct (proj1 Lv n (Back n Ln Np Q)) as [I|[]]. congruence.
      + intros n [<-|[]]. lia.
      + constructor; [intros []|constructor].
    - (* the waiting coroutine goes on *)
      inversion Sg as [|c0 p' q0 k0 h0 fs0 ids' cc pc' Np Hc Hpol Hpc' Ff Ee Rr Sg']; subst c0 q0 k0 h0 fs0 ids.
      rewrite Hp in Hc. injection Hc as <-.
      assert (Lk := Ki p' (or_introl eq_refl)). rewrite Hpc' in Lk. destruct (like_some _ _ _ _ Lk) as (q1 & Hq1 & Fq1 & Eq1 & Rq1 & _).
      set (sa := put A V E s1 (root pc) (Some (with_pol A V E p' rc1))).
      assert (Hqa : exists qa, cells sa p' = Some qa /\ frm qa = f_await A V E p k h /\ exc qa = None /\ root qa = root pc).
      { destruct (Nat.eq_dec p' (root pc)) as [Q|Q].
        - exists (with_pol A V E p' rc1). rewrite Q. unfold sa. rewrite put_same. split; [rewrite Q; reflexivity|].
          rewrite Q, Hr1 in Hq1. injection Hq1 as <-. cbn. split; [congruence|]. split; congruence.
        - exists q1. unfold sa. rewrite put_other by exact Q. split; [exact Hq1|]. split; [congruence|]. split; congruence. }
      destruct Hqa as (qa & Hqa & Fqa & Eqa & Rqa).
      assert (Hpa : cells sa p = Some pc1) by (unfold sa; rewrite put_other by exact Np; exact Hp1).
      set (sb := put A V E (put A V E sa p' (Some (with_frame A V E (f_running A V E) qa))) p None).
      assert (Npp : p <> p') by (intros ->; apply Npi; left; reflexivity).
      assert (Hqb : cells sb p' = Some (with_frame A V E (f_running A V E) qa)) by (unfold sb; rewrite put_other by congruence; apply put_same).
      assert (Ob : forall n, n <> root pc -> n <> p' -> n <> p -> cells sb n = cells s1 n).
      { intros n Q1 Q2 Q3. unfold sb, sa. rewrite !put_other by assumption. reflexivity. }
      assert (Hrb : exists rb, cells sb (root pc) = Some rb /\ pol rb = p' /\ (root pc <> p' -> rb = with_pol A V E p' rc1)).
      { destruct (Nat.eq_dec (root pc) p') as [Q|Q].
        - exists (with_frame A V E (f_running A V E) qa). rewrite Q. split; [exact Hqb|]. split; [|congruence].
          rewrite <- Q in Hqa. unfold sa in Hqa. rewrite put_same in Hqa. injection Hqa as <-. reflexivity.
        - exists (with_pol A V E p' rc1). unfold sb. rewrite !put_other by congruence. unfold sa. rewrite put_same. auto. }
      destruct Hrb as (rb & Hrb & Prb & Rb).
      assert (Nd' : NoDup (p' :: ids')) by (destruct Lv as (_ & _ & Nd); inversion_clear Nd; assumption).
      destruct (IH p' (match exc pc1 with None => k | Some e => h e end) sb ids' (with_frame A V E (f_running A V E) qa) rb Hqb eq_refl Eqa Rqa Hrb Prb) as (N & s' & Ld & HN).
      + eapply seg_head; [exact Sg'|inversion_clear Nd'; assumption|exact Hpc'| |].
        * intros n I. eapply like_trans; [apply Ki; right; exact I|]. destruct (Nat.eq_dec n (root pc)) as [->|Q].
          -- assert (Q : root pc <> p') by (intros Q; inversion_clear Nd'; congruence). right. split; [reflexivity|].
             exists rc1, p'. split; [exact Hr1|]. rewrite Hrb, (Rb Q). reflexivity.
          -- left. apply Ob; [exact Q|intros ->; inversion_clear Nd'; contradiction|intros ->; apply Npi; right; exact I].
        * intros Q. exists (with_frame A V E (f_running A V E) qa). split; [exact Hqb|]. cbn.
          unfold sa in Hqa. rewrite put_other in Hqa by exact Q. rewrite Hq1 in Hqa. injection Hqa as <-.
          destruct (like_some _ _ _ _ Lk) as (q2 & Hq2 & _ & _ & _ & _ & P2). rewrite Hq1 in Hq2. injection Hq2 as <-. apply P2, Q.
      + split; [|split; [|exact Nd']].
        * intros n Q. destruct (Nat.eq_dec n p) as [->|Q3]; [unfold sb in Q; rewrite put_same in Q; congruence|].
          destruct (Nat.eq_dec n p') as [->|Q2]; [left; reflexivity|].
          destruct (Nat.eq_dec n (root pc)) as [->|Q1]; [eapply seg_last; exact Sg'|].
          rewrite Ob in Q by assumption. destruct (Nat.lt_ge_cases n (h_next s)) as [Ln|Ln]; [|exfalso; apply Q, G3, Ln].
          destruct (proj1 Lv n (Back n Ln Q3 Q)) as [I|I]; [congruence|exact I].
        * intros n I. change (h_next sb) with (h_next s1). destruct (Bi n I). lia.
      + exists (S N), s'. apply and_comm. split.
        * intros [|fuel] Lf; [lia|]. assert (Es := HN fuel ltac:(lia)). cbn [pull_loop]. rewrite (get_ok _ _ _ Hr1). cbn [bind]. rewrite Pr1, (proj2 (Nat.eqb_neq _ _) Np).
          rewrite (get_ok _ _ _ Hp1). cbn [bind]. unfold is_complete. rewrite Fp1, (Pp1 Np), Hpol. rewrite (upd_ok _ _ _ _ Hr1). cbn [bind]. fold sa.
          unfold resume. rewrite (get_ok _ _ _ Hqa). cbn [bind]. rewrite Fqa, (get_ok _ _ _ Hpa). cbn [bind].
          rewrite (upd_ok _ _ _ _ Hqa). cbn [bind].
          rewrite (free_ok _ p pc1) by (rewrite put_other by exact Npp; exact Hpa). cbn [bind]. exact Es.
        * rewrite rest_after. cbn [after]. rewrite <- Ep1.
          change (h_trace sb) with (h_trace s1) in Ld. unfold leads_to in *. change (h_trace sb) with (h_trace s1) in Ld. rewrite G2 in Ld. cbn [fst snd].
          destruct Ld as [(A1 & A2 & A3)|(ev & v & kl & fs' & A1 & A2 & A3 & A4 & A5)].
          -- left. split; [rewrite values_app, G1, A1; reflexivity|]. split; [rewrite A2, app_assoc; reflexivity|exact A3].
          -- right. exists (fst (told x) ++ ev), v, kl, fs'. split; [rewrite A1, app_assoc; reflexivity|].
             split; [rewrite values_app, G1, A2; reflexivity|]. split; [exact A3|]. split; [rewrite A4, app_assoc; reflexivity|exact A5].
  Qed.

  Lemma live_same s s' l : (forall n, cells s' n <> None -> cells s n <> None) -> h_next s' = h_next s -> live s l -> live s' l.
  Proof. intros H N (L & B & D). split; [intros n Q; apply L, H, Q|]. split; [rewrite N; exact B|exact D]. Qed.

  Lemma pull_leads r fs p x s ids pc rc :
    cells s p = Some pc -> (frm pc = f_start A V E x \/ frm pc = f_yielded A V E x) -> exc pc = None -> root pc = r -> cells s r = Some rc -> pol rc = p ->
    seg (cells s) r p r fs ids -> live s (p :: ids) ->
    exists N s', leads_to r s s' (rest x fs) /\ forall fuel, N <= fuel -> pull A V E fuel r s = Ok s'.
  Proof.
    intros Hp Hf He Hroot Hr Hl Sg Lv.
    set (s1 := put A V E s p (Some (with_frame A V E (f_running A V E) pc))).
    assert (Npi : ~ In p ids) by (destruct Lv as (_ & _ & Nd0); inversion_clear Nd0; assumption).
    assert (Hp1 : cells s1 p = Some (with_frame A V E (f_running A V E) pc)) by apply put_same.
    assert (O1 : forall n, n <> p -> cells s1 n = cells s n) by (intros n Q; apply put_other, Q).
    assert (Hr1 : exists rc1, cells s1 r = Some rc1 /\ pol rc1 = p).
    { destruct (Nat.eq_dec r p) as [Q|Q].
      - exists (with_frame A V E (f_running A V E) pc). rewrite Q. split; [exact Hp1|]. cbn. rewrite Q, Hp in Hr. congruence.
      - exists rc. rewrite O1 by exact Q. auto. }
    destruct Hr1 as (rc1 & Hr1 & Pr1).
    destruct (go r fs p x s1 ids (with_frame A V E (f_running A V E) pc) rc1 Hp1 eq_refl He Hroot Hr1 Pr1) as (N & s' & Ld & HN).
    - eapply seg_head; [exact Sg|exact Npi|exact Hp| |].
      + intros n I. left. apply O1. intros ->. contradiction.
      + intros _. eexists. split; [exact Hp1|reflexivity].
    - apply (live_same s s1); [|reflexivity|exact Lv]. intros n Q. destruct (Nat.eq_dec n p) as [->|Np]; [congruence|]. rewrite <- O1 by exact Np. exact Q.
    - exists N, s'. split; [exact Ld|]. intros fuel Lf. assert (Es := HN fuel Lf).
      unfold pull. rewrite (get_ok _ _ _ Hr). cbn [bind]. rewrite Hl. unfold resume. rewrite (get_ok _ _ _ Hp). cbn [bind].
      destruct Hf as [-> | ->]; rewrite (upd_ok _ _ _ _ Hp); cbn [bind]; exact Es.
  Qed.

  Lemma seg_top cs r a b fs ids : seg cs r a b fs ids -> a <> b -> exists c pc k h, cs b = Some pc /\ frm pc = f_await A V E c k h.
  Proof.
    induction 1 as [p|c p q k h fs ids cc pc N Hc Hp Hpc Hf He Hr G IH]; [congruence|]. intros _.
    destruct (Nat.eq_dec p q) as [<-|Q]; [|exact (IH Q)]. eauto 6.
  Qed.

  Definition pos_of (o : option E) : position E := match o with None => at_end | Some e => thrown e end.
  Definition moves_to (r : nat) (s s' : heap) (pos : position E) (d : list event * option E) : Prop :=
    (values (fst d) = [] /\ h_trace s' = h_trace s ++ fst d /\ finished r s' (snd d) /\ pos = pos_of (snd d)) \/
    (exists ev v k fs, fst d = ev ++ inr v :: fst (rest k fs) /\ values ev = [] /\ snd d = snd (rest k fs) /\
       h_trace s' = h_trace s ++ ev /\ waiting r s' v k fs /\ pos = at_value).
  Lemma advance_leads N r s s' d : (forall fuel, N <= fuel -> pull A V E fuel r s = Ok s') -> leads_to r s s' d ->
    exists pos, moves_to r s s' pos d /\ forall fuel, N <= fuel -> advance A V E fuel r s = Ok (pos, s').
  Proof.
    intros P [(H1 & H2 & H3)|(ev & v & k & fs & H1 & H2 & H3 & H4 & H5)].
    - exists (pos_of (snd d)). split; [left; auto|]. intros fuel Lf. unfold advance. rewrite (P fuel Lf). cbn [bind].
      destruct H3 as (rc & Hr & Hf & He & _). rewrite (get_ok _ _ _ Hr). cbn [bind]. unfold is_complete. rewrite Hf, He.
      destruct (snd d); reflexivity.
    - exists at_value. split; [right; exists ev, v, k, fs; auto 8|]. intros fuel Lf. unfold advance. rewrite (P fuel Lf). cbn [bind].
      destruct H5 as (leaf & ids & lc & rc & Hl & Fl & _ & _ & _ & Hr & Pl & Sg & _). rewrite (get_ok _ _ _ Hr). cbn [bind].
      assert (Q : is_complete A V E rc = false); [|rewrite Q; reflexivity]. unfold is_complete.
      destruct (Nat.eq_dec leaf r) as [->|Nl]; [rewrite Hr in Hl; injection Hl as ->; rewrite Fl; reflexivity|].
      destruct (seg_top _ _ _ _ _ _ Sg Nl) as (c & rc' & k' & h & Hr' & Fr). rewrite Hr in Hr'. injection Hr' as ->. rewrite Fr. reflexivity.
  Qed.
  Lemma advance_waiting r s v k fs : waiting r s v k fs ->
    exists N pos s', moves_to r s s' pos (rest k fs) /\ forall fuel, N <= fuel -> advance A V E fuel r s = Ok (pos, s').
  Proof.
    intros (leaf & ids & lc & rc & Hl & Fl & _ & El & Rl & Hr & Pl & Sg & Lv).
    destruct (pull_leads r fs leaf k s ids lc rc Hl (or_intror Fl) El Rl Hr Pl Sg Lv) as (N & s' & Ld & HN).
    destruct (advance_leads _ _ _ _ _ HN Ld) as (pos & M & Ea). eauto 6.
  Qed.
  Lemma value_waiting r s v k fs : waiting r s v k fs -> value A V E r s = Ok v.
  Proof.
    intros (leaf & ids & lc & rc & Hl & Fl & Vl & _ & _ & Hr & Pl & _). unfold value. rewrite (get_ok _ _ _ Hr). cbn [bind].
    rewrite Pl, (get_ok _ _ _ Hl). cbn [bind]. rewrite Vl. reflexivity.
  Qed.
  Lemma emit_waiting r s x v k fs : waiting r s v k fs -> waiting r (emit A V E s x) v k fs.
  Proof. intros H. exact H. Qed.

  (* ---- destruction ---- *)
  Definition stack (r : nat) (s : heap) : Prop :=
    exists leaf fs ids lc, cells s leaf = Some lc /\ (forall c k h, frm lc <> f_await A V E c k h) /\ seg (cells s) r leaf r fs ids /\ live s (leaf :: ids).
  Lemma waiting_stack r s v k fs : waiting r s v k fs -> stack r s.
  Proof. intros (leaf & ids & lc & rc & Hl & Fl & _ & _ & _ & _ & _ & Sg & Lv). exists leaf, fs, ids, lc. rewrite Fl. split; [exact Hl|]. split; [discriminate|]. auto. Qed.
  Lemma finished_stack r s o : finished r s o -> stack r s.
  Proof. intros (rc & Hr & Fr & _ & Lv). exists r, [], [], rc. rewrite Fr. split; [exact Hr|]. split; [discriminate|]. split; [constructor|exact Lv]. Qed.

  Lemma seg_unsnoc cs r a b fs ids : seg cs r a b fs ids -> NoDup (a :: ids) -> a <> b ->
    exists c fs' ids' pc k h, seg cs r a c fs' ids' /\ a :: ids = (a :: ids') ++ [b] /\ cs b = Some pc /\ frm pc = f_await A V E c k h.
  Proof.
    induction 1 as [p|c p q k h fs ids cc pc N Hc Hp Hpc Hf He Hr G IH]; [congruence|]. intros Nd _.
    assert (Nd' : NoDup (p :: ids)) by (inversion_clear Nd; assumption).
    destruct (Nat.eq_dec p q) as [<-|Q].
    - exists c, [], [], pc, k, h. split; [constructor|].
      assert (X : ids = []).
      { clear - G Nd'. inversion G as [|? p0 ? ? ? ? ids0 ? ? ? ? ? ? ? ? ? G0]; subst; [reflexivity|].
        exfalso. inversion_clear Nd' as [|? ? Ni _]. apply Ni. eapply seg_last. exact G0. }
      subst ids. auto.
    - destruct (IH Nd' Q) as (c' & fs' & ids' & pc' & k' & h' & G' & E' & Hq & Fq).
      exists c', ((k, h) :: fs'), (p :: ids'), pc', k', h'. split; [econstructor; eauto|]. cbn [app] in E' |- *. rewrite E'. auto.
  Qed.
  Lemma destroy_seg r m : forall s leaf top fs ids lc, length ids = m -> cells s leaf = Some lc -> (forall c k h, frm lc <> f_await A V E c k h) ->
    seg (cells s) r leaf top fs ids -> NoDup (leaf :: ids) ->
    exists s', (forall fuel, m < fuel -> destroy A V E fuel top s = Ok s') /\ h_trace s' = h_trace s /\ (forall n, In n (leaf :: ids) -> cells s' n = None) /\
      (forall n, ~ In n (leaf :: ids) -> cells s' n = cells s n).
  Proof.
    induction m as [|m IH]; intros s leaf top fs ids lc Hm Hl Fl Sg Nd.
    - destruct ids; [|discriminate]. assert (Q : leaf = top) by (inversion Sg; auto). subst top.
      exists (put A V E s leaf None). split.
      { intros [|fuel] Lf; [lia|]. cbn [destroy]. rewrite (get_ok _ _ _ Hl). cbn [bind].
        assert (Z : match frm lc with f_await _ _ _ c _ _ => destroy A V E fuel c s | _ => Ok s end = Ok s).
        { destruct (frm lc) eqn:Q; try reflexivity. exfalso. eapply Fl. reflexivity. }
        rewrite Z. cbn [bind]. rewrite (free_ok _ _ _ Hl). reflexivity. }
      split; [reflexivity|]. split.
      + intros n [<-|[]]. apply put_same.
      + intros n Q. apply put_other. intros ->. apply Q. left. reflexivity.
    - assert (Q : leaf <> top).
      { intros <-. inversion Sg as [|? p0 ? ? ? ? ids0 ? ? ? ? ? ? ? ? ? G0]; subst; [discriminate|]. inversion_clear Nd as [|? ? Ni _]. apply Ni. eapply seg_last. exact G0. }
      destruct (seg_unsnoc _ _ _ _ _ _ Sg Nd Q) as (c & fs' & ids' & pc & k & h & Sg' & Ei & Ht & Ft).
      assert (Lm : length ids' = m). { apply (f_equal (@length nat)) in Ei. rewrite app_length in Ei. cbn [length] in Ei. lia. }
      rewrite Ei in Nd. assert (Nt : ~ In top (leaf :: ids')).
      { intros I. apply NoDup_remove_2 in Nd. apply Nd. rewrite app_nil_r. exact I. }
      assert (Nd' : NoDup (leaf :: ids')) by (apply NoDup_remove_1 in Nd; rewrite app_nil_r in Nd; exact Nd).
      destruct (IH s leaf c fs' ids' lc Lm Hl Fl Sg' Nd') as (s' & Es & Et & Fr & Ot).
      exists (put A V E s' top None). split.
      { intros [|fuel] Lf; [lia|]. cbn [destroy]. rewrite (get_ok _ _ _ Ht). cbn [bind]. rewrite Ft, (Es fuel) by lia. cbn [bind].
        apply (free_ok s' top pc). rewrite (Ot _ Nt). exact Ht. }
      split; [exact Et|]. split.
      + intros n I. rewrite Ei in I. destruct (Nat.eq_dec n top) as [->|Nn]; [apply put_same|]. rewrite put_other by exact Nn. apply Fr.
        apply in_app_or in I. destruct I as [I|[I|[]]]; [exact I|congruence].
      + intros n I. rewrite Ei in I. rewrite put_other by (intros ->; apply I, in_or_app; right; left; reflexivity). apply Ot.
        intros J. apply I, in_or_app. left. exact J.
  Qed.
  Lemma destroy_stack r s : stack r s -> exists N s', nothing_left s' /\ h_trace s' = h_trace s /\ forall fuel, N <= fuel -> destroy A V E fuel r s = Ok s'.
  Proof.
    intros (leaf & fs & ids & lc & Hl & Fl & Sg & Lv).
    destruct (destroy_seg r (length ids) s leaf r fs ids lc eq_refl Hl Fl Sg (proj2 (proj2 Lv))) as (s' & D & T & Fr & Ot).
    exists (S (length ids)), s'. split; [|split; [exact T|intros fuel Lf; apply D; lia]]. intros n.
    destruct (in_dec Nat.eq_dec n (leaf :: ids)) as [I|I]; [apply Fr, I|]. rewrite (Ot n I).
    destruct (cells s n) eqn:Q; [|reflexivity]. exfalso. apply I, (proj1 Lv). congruence.
  Qed.

  (* ---- reading ---- *)
  Lemma up_to_quiet n (ev l : list event) : values ev = [] -> up_to n (ev ++ l) = ev ++ up_to n l.
  Proof. induction ev as [|[a|v] ev IH]; cbn; [reflexivity| |discriminate]. intros H. rewrite IH by exact H. reflexivity. Qed.
  Lemma reads_quiet (ev l : list event) (o : option E) n t e : values ev = [] -> reads (l, o) n t e -> reads (ev ++ l, o) n (ev ++ t) e.
  Proof.
    intros Q [(H1 & H2 & H3)|(H1 & H2 & H3)]; [left|right]; cbn [fst snd] in *; rewrite values_app, Q; cbn [app]; rewrite ?(up_to_quiet _ _ _ Q), H2; auto.
  Qed.
  Lemma reads_next v (l : list event) (o : option E) n t e : reads (l, o) n t e -> reads (inr v :: l, o) (S n) (inr v :: t) e.
  Proof.
    intros [(H1 & H2 & H3)|(H1 & H2 & H3)]; [left|right]; cbn [fst snd] in *; subst t e;
      change (values (inr v :: l)) with (v :: values l); cbn [length up_to]; (split; [lia|auto]).
  Qed.

  Lemma for_reads r n : forall s v k fs, waiting r s v k fs ->
    exists N e s' t, (forall fuel, N <= fuel -> for_loop A V E fuel r n at_value s = Ok (e, s')) /\ h_trace s' = h_trace s ++ t /\
      reads (inr v :: fst (rest k fs), snd (rest k fs)) n t e /\ stack r s'.
  Proof.
    induction n as [|n IH]; intros s v k fs W.
    - exists 0, left_early, (emit A V E s (inr v)), [inr v]. split; [intros fuel _; cbn [for_loop]; rewrite (value_waiting _ _ _ _ _ W); reflexivity|].
      split; [reflexivity|]. split; [|exact (waiting_stack _ _ _ _ _ W)]. right. cbn [fst snd up_to]. change (values (inr v :: ?l)) with (v :: values l).
      cbn [length]. split; [lia|auto].
    - destruct (advance_waiting _ _ _ _ _ (emit_waiting r s (inr v) v k fs W)) as (N & pos & s1 & M & Ea).
      destruct M as [(M1 & M2 & M3 & M4)|(ev & v' & k' & fs' & M1 & M2 & M3 & M4 & M5 & M6)]; subst pos.
      + exists N, (end_of (snd (rest k fs))), s1, (inr v :: fst (rest k fs)). split.
        { intros fuel Lf. cbn [for_loop]. rewrite (value_waiting _ _ _ _ _ W). cbn [bind]. rewrite (Ea fuel Lf). cbn [bind].
          destruct (snd (rest k fs)), n; reflexivity. }
        split; [rewrite M2; cbn [emit h_trace]; rewrite <- app_assoc; reflexivity|]. split; [|exact (finished_stack _ _ _ M3)].
        left. cbn [fst snd]. change (values (inr v :: ?l)) with (v :: values l). rewrite M1. cbn [length]. split; [lia|auto].
      + destruct (IH s1 v' k' fs' M5) as (N' & e & s' & t & Ef & Et & Rd & St).
        exists (N + N'), e, s', (inr v :: ev ++ t). split.
        { intros fuel Lf. cbn [for_loop]. rewrite (value_waiting _ _ _ _ _ W). cbn [bind]. rewrite (Ea fuel) by lia. cbn [bind]. apply Ef. lia. }
        split; [rewrite Et, M4; cbn [emit h_trace]; rewrite <- !app_assoc; reflexivity|]. split; [|exact St].
        rewrite M1, M3. apply reads_next, reads_quiet; assumption.
  Qed.

  Lemma start_moves (b : prog) : let rs := create A V E (empty_heap A V E) b in
    exists N pos s', moves_to (fst rs) (snd rs) s' pos (told b) /\ forall fuel, N <= fuel -> advance A V E fuel (fst rs) (snd rs) = Ok (pos, s').
  Proof.
    cbv zeta. set (rs := create A V E (empty_heap A V E) b).
    destruct (pull_leads 0 [] 0 b (snd rs) [] (mk_promise A V E (f_start A V E b) None None 0 0) (mk_promise A V E (f_start A V E b) None None 0 0))
      as (N & s' & Ld & HN); try reflexivity.
    - left. reflexivity.
    - constructor.
    - split; [|split].
      + intros [|n] Q; [left; reflexivity|]. exfalso. apply Q. reflexivity.
      + intros n [<-|[]]. cbn. lia.
      + constructor; [intros []|constructor].
    - destruct (advance_leads _ _ _ _ _ HN Ld) as (pos & M & Ea). exists N, pos, s'. split; [exact M|exact Ea].
  Qed.

  Theorem iterate_reads (b : prog) n : exists N e s, reads (told b) n (h_trace s) e /\ nothing_left s /\ forall fuel, N <= fuel -> iterate fuel b n = Ok (e, s).
  Proof.
    destruct (start_moves b) as (N & pos & s1 & M & Ea).
    assert (L : exists N e s', (forall fuel, N <= fuel -> for_loop A V E fuel 0 n pos s1 = Ok (e, s')) /\ reads (told b) n (h_trace s') e /\ stack 0 s').
    { destruct M as [(M1 & M2 & M3 & M4)|(ev & v' & k' & fs' & M1 & M2 & M3 & M4 & M5 & M6)]; subst pos.
      - exists 0, (end_of (snd (told b))), s1. split; [intros fuel _; destruct (snd (told b)); cbn [pos_of end_of]; destruct n; reflexivity|].
        split; [|exact (finished_stack _ _ _ M3)]. left. rewrite M1, M2. cbn. split; [lia|auto].
      - destruct (for_reads 0 n s1 v' k' fs' M5) as (N' & e & s' & t & Ef & Et & Rd & St).
        exists N', e, s'. split; [exact Ef|]. split; [|exact St]. rewrite Et, M4, (surjective_pairing (told b)), M1, M3. cbn [create empty_heap snd h_trace app].
        apply reads_quiet; assumption. }
    destruct L as (N' & e & s' & Ef & Rd & St). destruct (destroy_stack _ _ St) as (N'' & s2 & Nl & Et & Ed).
    exists (N + N' + N''), e, s2. rewrite Et. split; [exact Rd|]. split; [exact Nl|]. intros fuel Lf. unfold iterate. rewrite (Ea fuel) by lia. cbn [bind].
    change (fst (create A V E (empty_heap A V E) b)) with 0. rewrite (Ef fuel) by lia. cbn [bind]. rewrite (Ed fuel) by lia. reflexivity.
  Qed.

  Lemma told_meant (b : prog) : fails_late b -> told b = meant b.
  Proof.
    induction b as [|e|a k IH|v k IH|g IHg k IHk h IHh]; cbn [fails_late told meant]; intros H; try reflexivity; try (rewrite (IH H); reflexivity).
    destruct H as (Hg & Hk & Hh & Hn). rewrite (IHg Hg), (IHk Hk). destruct (snd (meant g)) as [e|]; [|reflexivity].
    destruct (values (fst (meant g))) eqn:Q; [exfalso; apply Hn; [discriminate|reflexivity]|]. rewrite (IHh e (Hh e)). reflexivity.
  Qed.

  (* ---- through a function ---- *)
  Context {W : Type} (fn : V -> W).
  Lemma values_up_to n (l : list event) : values (up_to n l) = firstn (S n) (values l).
  Proof.
    revert n. induction l as [|[a|v] l IH]; intros n; [reflexivity|apply IH|]. cbn [up_to]. change (values (inr v :: ?l)) with (v :: values l).
    cbn [firstn]. destruct n as [|n]; [reflexivity|]. rewrite (IH n). reflexivity.
  Qed.
  Lemma map_reads r n : forall s v k fs out, waiting r s v k fs ->
    exists N e s' t, (forall fuel, N <= fuel -> map_loop A V E W fn fuel r n at_value out s = Ok (out ++ map fn (values t), s')) /\ h_trace s' = h_trace s ++ t /\
      reads (inr v :: fst (rest k fs), snd (rest k fs)) n t e /\ stack r s'.
  Proof.
    induction n as [|n IH]; intros s v k fs out Wt.
    - exists 0, left_early, (emit A V E s (inr v)), [inr v]. split; [intros fuel _; cbn [map_loop]; rewrite (value_waiting _ _ _ _ _ Wt); reflexivity|].
      split; [reflexivity|]. split; [|exact (waiting_stack _ _ _ _ _ Wt)]. right. cbn [fst snd up_to]. change (values (inr v :: ?l)) with (v :: values l).
      cbn [length]. split; [lia|auto].
    - destruct (advance_waiting _ _ _ _ _ (emit_waiting r s (inr v) v k fs Wt)) as (N & pos & s1 & M & Ea).
      destruct M as [(M1 & M2 & M3 & M4)|(ev & v' & k' & fs' & M1 & M2 & M3 & M4 & M5 & M6)]; subst pos.
      + exists N, (end_of (snd (rest k fs))), s1, (inr v :: fst (rest k fs)). split.
        { intros fuel Lf. cbn [map_loop]. rewrite (value_waiting _ _ _ _ _ Wt). cbn [bind]. rewrite (Ea fuel Lf). cbn [bind].
          change (values (inr v :: ?l)) with (v :: values l). rewrite M1. destruct (snd (rest k fs)), n; reflexivity. }
        split; [rewrite M2; cbn [emit h_trace]; rewrite <- app_assoc; reflexivity|]. split; [|exact (finished_stack _ _ _ M3)].
        left. cbn [fst snd]. change (values (inr v :: ?l)) with (v :: values l). rewrite M1. cbn [length]. split; [lia|auto].
      + destruct (IH s1 v' k' fs' (out ++ [fn v]) M5) as (N' & e & s' & t & Ef & Et & Rd & St).
        exists (N + N'), e, s', (inr v :: ev ++ t). split.
        { intros fuel Lf. cbn [map_loop]. rewrite (value_waiting _ _ _ _ _ Wt). cbn [bind]. rewrite (Ea fuel) by lia. cbn [bind].
          rewrite (Ef fuel) by lia. change (values (inr v :: ?l)) with (v :: values l). rewrite values_app, M2, <- app_assoc. reflexivity. }
        split; [rewrite Et, M4; cbn [emit h_trace]; rewrite <- !app_assoc; reflexivity|]. split; [|exact St].
        rewrite M1, M3. apply reads_next, reads_quiet; assumption.
  Qed.
  Lemma reads_values (d : list event * option E) n t e : reads d n t e -> values t = firstn (S n) (values (fst d)).
  Proof.
    intros [(H & -> & _)|(_ & -> & _)]; [symmetry; apply firstn_all2; lia|]. apply values_up_to.
  Qed.
  Theorem collect_reads (b : prog) n : exists N e s, reads (told b) n (h_trace s) e /\ nothing_left s /\
    forall fuel, N <= fuel -> collect_mapped fn fuel b n = Ok (map fn (firstn (S n) (values (fst (told b)))), s).
  Proof.
    destruct (start_moves b) as (N & pos & s1 & M & Ea).
    assert (L : exists N e s', (forall fuel, N <= fuel -> map_loop A V E W fn fuel 0 n pos [] s1 = Ok (map fn (firstn (S n) (values (fst (told b)))), s')) /\
      reads (told b) n (h_trace s') e /\ stack 0 s').
    { destruct M as [(M1 & M2 & M3 & M4)|(ev & v' & k' & fs' & M1 & M2 & M3 & M4 & M5 & M6)]; subst pos.
      - exists 0, (end_of (snd (told b))), s1. split; [intros fuel _; rewrite M1; destruct (snd (told b)); cbn [pos_of]; destruct n; reflexivity|].
        split; [|exact (finished_stack _ _ _ M3)]. left. rewrite M1, M2. cbn. split; [lia|auto].
      - destruct (map_reads 0 n s1 v' k' fs' [] M5) as (N' & e & s' & t & Ef & Et & Rd & St).
        assert (Rd' : reads (told b) n (ev ++ t) e) by (rewrite (surjective_pairing (told b)), M1, M3; apply reads_quiet; assumption).
        exists N', e, s'. split; [|split; [|exact St]].
        + intros fuel Lf. rewrite (Ef fuel Lf), <- (reads_values _ _ _ _ Rd'), values_app, M2. reflexivity.
        + rewrite Et, M4. exact Rd'. }
    destruct L as (N' & e & s' & Ef & Rd & St). destruct (destroy_stack _ _ St) as (N'' & s2 & Nl & Et & Ed).
    exists (N + N' + N''), e, s2. rewrite Et. split; [exact Rd|]. split; [exact Nl|]. intros fuel Lf. unfold collect_mapped. rewrite (Ea fuel) by lia. cbn [bind].
    change (fst (create A V E (empty_heap A V E) b)) with 0. rewrite (Ef fuel) by lia. cbn [bind]. rewrite (Ed fuel) by lia. reflexivity.
  Qed.
End Proofs.
