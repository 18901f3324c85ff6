(* Trains, ids, interval and the parallel parsing of files. *)
From Verif Require Import Base BitfieldModel BitfieldProofs TrainModel TrainProofs PropsBitfield TextModel AlgoModel RouteModel
  RouteProofs RouteSpec RouteIter RouteIndex PropsRoute TransformModel TransformProofs PropsTransform KssModel KssSpec.
From Coq Require Import Ascii Permutation ZifyBool ZifyNat ZifyN.
Open Scope nat_scope.

(* ---- interleavings ---- *)
Lemma interleaves_perm {A} (ths : list (list A)) tr : interleaves ths tr -> Permutation (concat ths) tr.
Proof.
  induction 1 as [ths F|ths1 s t ths2 tr H IH].
  - induction F as [|t ths -> F IH]; cbn; auto.
  - rewrite concat_app in IH |- *. cbn [concat] in IH |- *. cbn [app].
    etransitivity; [symmetry; apply Permutation_middle|]. constructor. exact IH.
Qed.

(* running one worker after the other is one of the interleavings *)
Lemma interleaves_seq {A} (ths : list (list A)) : interleaves ths (concat ths).
Proof.
  assert (H : forall done (l : list (list A)), Forall (fun t => t = []) done -> interleaves (done ++ l) (concat l)).
  { intros done l. revert done. induction l as [|t l IH]; intros done D.
    - rewrite app_nil_r. now constructor.
    - induction t as [|s t IHt].
      + cbn [concat app]. replace (done ++ [] :: l) with ((done ++ [[]]) ++ l) by (rewrite <- app_assoc; reflexivity).
        apply IH. apply Forall_app. auto.
      + cbn [concat app]. constructor. exact IHt. }
  exact (H [] ths (Forall_nil _)).
Qed.

Definition is_count (e : kss_error) (s : wstep) : bool :=
  match s with Count e' => if kss_error_dec e e' then true else false | Store _ _ => false end.
Lemma run_errors tr : forall m e, sh_errors (run_steps tr m) e = (sh_errors m e + N.of_nat (length (filter (is_count e) tr)))%N.
Proof.
  unfold run_steps. induction tr as [|s tr IH]; intros m e; cbn [fold_left filter]; [cbn; lia|].
  rewrite IH. destruct s as [e'|i r]; cbn [do_step sh_errors is_count].
  - destruct (kss_error_dec e e'); cbn [length]; lia.
  - lia.
Qed.
Lemma perm_filter {A} (f : A -> bool) l l' : Permutation l l' -> length (filter f l) = length (filter f l').
Proof.
  induction 1; cbn; try destruct (f x); try destruct (f y); cbn; lia.
Qed.

Lemma store_length i r m : length (sh_results (do_step (Store i r) m)) = length (sh_results m).
Proof.
  cbn [do_step sh_results]. rewrite app_length.
  assert (E : length (sh_results m) = length (firstn i (sh_results m)) + length (skipn i (sh_results m))).
  { rewrite <- app_length, firstn_skipn. reflexivity. }
  destruct (skipn i (sh_results m)); cbn [length] in *; lia.
Qed.
Lemma store_nth i r m k : nth_error (sh_results (do_step (Store i r) m)) k =
  if Nat.eqb i k then (match nth_error (sh_results m) k with Some _ => Some r | None => None end)
  else nth_error (sh_results m) k.
Proof.
  cbn [do_step sh_results]. generalize (sh_results m) as l. clear m. intros l. revert i k.
  induction l as [|x l IH]; intros [|i] [|k]; cbn; try reflexivity.
  - now destruct (Nat.eqb i k).
  - apply IH.
Qed.

Lemma run_results tr : forall m i r, i < length (sh_results m) ->
  (forall r', In (Store i r') tr -> r' = r) ->
  (In (Store i r) tr \/ nth_error (sh_results m) i = Some r) ->
  nth_error (sh_results (run_steps tr m)) i = Some r.
Proof.
  unfold run_steps. induction tr as [|s tr IH]; intros m i r L U O; cbn [fold_left].
  - destruct O as [[]|O]. exact O.
  - apply IH.
    + destruct s; [exact L|]. rewrite store_length. exact L.
    + intros r' I. apply U. now right.
    + destruct s as [e|j q].
      * destruct O as [[D|O]|O]; [discriminate|now left|right; exact O].
      * rewrite store_nth. destruct (Nat.eqb_spec j i) as [->|NE].
        -- right. assert (q = r) by (apply U; now left). subst q.
           destruct (nth_error (sh_results m) i) eqn:E; [reflexivity|]. apply nth_error_None in E. lia.
        -- destruct O as [[D|O]|O]; [injection D as -> ->; congruence|now left|now right].
Qed.
Lemma run_length tr : forall m, length (sh_results (run_steps tr m)) = length (sh_results m).
Proof.
  unfold run_steps. induction tr as [|s tr IH]; intros m; cbn [fold_left]; [reflexivity|].
  rewrite IH. destruct s; [reflexivity|apply store_length].
Qed.

(* the workers of all files *)
Definition workers (files : list (list (kss_error + list ktrain))) : list (list wstep) :=
  map (fun x => file_steps (fst x) (snd x)) (combine (seq 0 (length files)) files).

Lemma combine_seq_nth {A} (l : list A) : forall k i x, In (i, x) (combine (seq k (length l)) l) <->
  (k <= i /\ nth_error l (i - k) = Some x).
Proof.
  induction l as [|a l IH]; intros k i x; cbn [length seq combine].
  - split; [intros []|]. intros [_ H]. destruct (i - k); discriminate.
  - cbn [In]. rewrite IH. split.
    + intros [[= <- <-]|[L H]]; [rewrite Nat.sub_diag; split; [lia|reflexivity]|].
      split; [lia|]. replace (i - k) with (S (i - S k)) by lia. exact H.
    + intros [L H]. destruct (i - k) as [|n] eqn:E; [left; cbn in H; injection H as <-; f_equal; lia|].
      right. split; [lia|]. replace (i - S k) with n by lia. exact H.
Qed.

Lemma stores_in files i r : In (Store i r) (concat (workers files)) <->
  exists rs, nth_error files i = Some rs /\ r = file_result rs.
Proof.
  unfold workers. rewrite in_concat. split.
  - intros [th [IT IS]]. apply in_map_iff in IT as [[j rs] [<- IC]]. apply combine_seq_nth in IC as [_ IC].
    rewrite Nat.sub_0_r in IC. cbn [fst snd] in IS. unfold file_steps in IS. apply in_app_iff in IS as [IS|IS].
    + apply in_concat in IS as [x [IX IS]]. apply in_map_iff in IX as [[e|ts] [<- _]]; [|destruct IS].
      destruct IS as [D|[]]; discriminate.
    + destruct IS as [[= <- <-]|[]]. eauto.
  - intros [rs [E ->]]. exists (file_steps i rs). split.
    + apply in_map_iff. exists (i, rs). split; [reflexivity|]. apply combine_seq_nth. rewrite Nat.sub_0_r. auto with arith.
    + unfold file_steps. apply in_app_iff. right. now left.
Qed.

Lemma nth_error_ext {A} (a b : list A) : (forall i, nth_error a i = nth_error b i) -> a = b.
Proof.
  revert b. induction a as [|x a IH]; intros [|y b] H; auto.
  - specialize (H 0). discriminate.
  - specialize (H 0). discriminate.
  - assert (x = y) by (specialize (H 0); cbn in H; congruence). subst y. f_equal. apply IH. intros i. exact (H (S i)).
Qed.

Lemma parallel_results files tr : interleaves (workers files) tr ->
  sh_results (run_steps tr (initial (length files))) = map file_result files.
Proof.
  intros H. apply interleaves_perm in H. apply nth_error_ext. intros i.
  destruct (Nat.lt_ge_cases i (length files)) as [L|L].
  - destruct (nth_error files i) as [rs|] eqn:E; [|apply nth_error_None in E; lia].
    rewrite nth_error_map, E. cbn [option_map]. apply run_results.
    + unfold initial. cbn [sh_results]. rewrite repeat_length. exact L.
    + intros r' I. apply (Permutation_in _ (Permutation_sym H)) in I. apply stores_in in I as [rs' [E' ->]]. congruence.
    + left. apply (Permutation_in _ H), stores_in. eauto.
  - rewrite (proj2 (nth_error_None _ _)), (proj2 (nth_error_None _ _)); [reflexivity|now rewrite map_length|].
    rewrite run_length. unfold initial. cbn [sh_results]. now rewrite repeat_length.
Qed.

Definition failed (e : kss_error) (r : kss_error + list ktrain) : bool :=
  match r with inl e' => if kss_error_dec e e' then true else false | inr _ => false end.
Lemma parallel_errors files tr e : interleaves (workers files) tr ->
  sh_errors (run_steps tr (initial (length files))) e = N.of_nat (length (filter (failed e) (concat files))).
Proof.
  intros H. apply interleaves_perm in H. rewrite run_errors. cbn [initial sh_errors]. rewrite N.add_0_l. f_equal.
  rewrite <- (perm_filter _ _ _ H). unfold workers. clear H tr. generalize 0 as k.
  assert (FS : forall i rs, length (filter (is_count e) (file_steps i rs)) = length (filter (failed e) rs)).
  { intros i rs. unfold file_steps. rewrite filter_app, app_length. cbn [filter is_count length]. rewrite Nat.add_0_r.
    induction rs as [|[e'|ts] rs IH]; cbn [map concat app filter is_count failed]; [reflexivity| |exact IH].
    destruct (kss_error_dec e e'); cbn [length]; rewrite IH; reflexivity. }
  induction files as [|rs files IH]; intros k; cbn [length seq combine map concat]; [reflexivity|].
  rewrite !filter_app, !app_length, IH. cbn [fst snd]. rewrite FS. reflexivity.
Qed.

(* ---- ids, interval ---- *)
Lemma set_ids_nth l i : nth_error (set_ids l) i =
  match nth_error l i with
  | Some t => Some (mktrain (w32 (N.of_nat i)) (tr_days t) (tr_first_departure t) (tr_last_arrival t))
  | None => None
  end.
Proof.
  unfold set_ids. rewrite nth_error_map.
  assert (G : forall k, option_map (fun x : nat * train => mktrain (w32 (N.of_nat (fst x))) (tr_days (snd x)) (tr_first_departure (snd x)) (tr_last_arrival (snd x)))
     (nth_error (combine (seq k (length l)) l) i) =
     match nth_error l i with Some t => Some (mktrain (w32 (N.of_nat (k + i))) (tr_days t) (tr_first_departure t) (tr_last_arrival t)) | None => None end).
  { revert i. induction l as [|a l IH]; intros [|i] k; cbn [length seq combine nth_error option_map]; auto.
    - cbn [fst snd]. now rewrite Nat.add_0_r.
    - rewrite IH. now rewrite Nat.add_succ_comm. }
  exact (G 0).
Qed.

Definition ivstep (acc : res interval) (t : train) : res interval :=
  do iv <- acc; do d <- first_absolute_departure t; do a <- last_absolute_arrival t;
  Ok (mkint (N.min (iv_start iv) d) (N.max (iv_end iv) a)).
Lemma interval_fold l : forall iv0 ds as_, Forall2 (fun t d => first_absolute_departure t = Ok d) l ds ->
  Forall2 (fun t a => last_absolute_arrival t = Ok a) l as_ ->
  exists iv, fold_left ivstep l (Ok iv0) = Ok iv /\
    (iv_start iv <= iv_start iv0 /\ iv_end iv0 <= iv_end iv)%N /\
    (forall d, In d ds -> iv_start iv <= d)%N /\ (forall a, In a as_ -> a <= iv_end iv)%N /\
    (iv_start iv = iv_start iv0 \/ In (iv_start iv) ds) /\ (iv_end iv = iv_end iv0 \/ In (iv_end iv) as_).
Proof.
  induction l as [|t l IH]; intros iv0 ds as_ D A.
  - inversion D; inversion A; subst. exists iv0. cbn. repeat split; try lia; auto; intros ? [].
  - inversion D as [|? d ? ds' Ed Dl]; inversion A as [|? a ? as' Ea Al]; subst. cbn [fold_left ivstep].
    unfold ivstep at 2. cbn [bind]. rewrite Ed, Ea. cbn [bind].
    destruct (IH (mkint (N.min (iv_start iv0) d) (N.max (iv_end iv0) a)) ds' as' Dl Al) as [iv [E [B [S [T [U V]]]]]].
    cbn [iv_start iv_end] in *. exists iv. split; [exact E|].
    split; [lia|]. split; [intros x [<-|I]; [lia|auto]|]. split; [intros x [<-|I]; [lia|auto]|]. split.
    + destruct U as [U|U]; [|right; now right]. destruct (N.min_spec (iv_start iv0) d) as [[_ X]|[_ X]]; rewrite X in U;
        [now left|right; left; congruence].
    + destruct V as [V|V]; [|right; now right]. destruct (N.max_spec (iv_end iv0) a) as [[_ X]|[_ X]]; rewrite X in V;
        [right; left; congruence|now left].
Qed.

(* ---- trains ---- *)
Definition offset_of (o : option (list ascii * bool)) (v : N) : Prop :=
  match o with Some (t, nl) => parse_time_offset t nl = Ok v | None => v = TIME_INVALID end.
(* stop mode keys: 2 operational, 3 on request, 4 passenger stop *)
Definition stop_mode (k : list ascii) (t : stop_type) : Prop :=
  exists c r, k = c :: r /\ In (c, t) [("2", OPERATIONS); ("3", REQUEST); ("4", PASSENGER)]%char.
Lemma stop_mode_ok k t : key_to_stop_type k = Ok t <-> stop_mode k t.
Proof.
  unfold stop_mode, key_to_stop_type. split.
  - destruct k as [|c r]; [discriminate|].
    destruct (Ascii.eqb_spec c "2"%char) as [->|]; [intros [= <-]; exists "2"%char, r; cbn; auto|].
    destruct (Ascii.eqb_spec c "3"%char) as [->|]; [intros [= <-]; exists "3"%char, r; cbn; auto|].
    destruct (Ascii.eqb_spec c "4"%char) as [->|]; [intros [= <-]; exists "4"%char, r; cbn; auto 6|discriminate].
  - intros [c [r [-> [[= <- <-]|[[= <- <-]|[[= <- <-]|[]]]]]]]; reflexivity.
Qed.
Record point_of (inf : kinfra) (x : xpoint) (p : seqpoint) : Prop := mkpo {
  po_route : exists routes, ki_station inf (xp_ds100 x) = Some routes /\ routes (xp_track x) = Some (sp_sr p);
  po_arrival : offset_of (xp_arrival x) (sp_arrival p);
  po_departure : offset_of (xp_departure x) (sp_departure p);
  po_type : match xp_stop_mode x with Some k => stop_mode k (sp_type p) | None => sp_type p = TRANSIT end;
  po_min_stop : match xp_min_stop x with Some d => parse_duration d = Ok (sp_min_stop p) | None => sp_min_stop p = 0%N end }.

Lemma parse_point_ok inf x p : parse_point inf x = Ok (inr p) -> point_of inf x p /\
  (has_transit_time p = true -> exists i, ki_checkpoint inf (sp_sr p) = Some i).
Proof.
  unfold parse_point. intros E. destruct (ki_station inf (xp_ds100 x)) as [routes|] eqn:S; [|discriminate].
  destruct (routes (xp_track x)) as [sr|] eqn:R; [|discriminate].
  apply bind_Ok in E as [arr [A E]]. apply bind_Ok in E as [dep [D E]]. apply bind_Ok in E as [ty [T E]].
  apply bind_Ok in E as [mst [M E]]. apply bind_Ok in E as [u [C E]]. injection E as <-.
  split; [constructor; cbn [sp_sr sp_arrival sp_departure sp_type sp_min_stop]|].
  - eauto.
  - destruct (xp_arrival x) as [[t nl]|]; [exact A|]. injection A as <-. reflexivity.
  - destruct (xp_departure x) as [[t nl]|]; [exact D|]. injection D as <-. reflexivity.
  - destruct (xp_stop_mode x); [now apply stop_mode_ok|]. injection T as <-. reflexivity.
  - destruct (xp_min_stop x); [exact M|]. injection M as <-. reflexivity.
  - intros HT. unfold has_transit_time in HT. rewrite HT in C. cbn [sp_sr] in *.
    destruct (ki_checkpoint inf sr) as [i|]; [eauto|discriminate].
Qed.
Lemma parse_points_ok inf : forall l ps, parse_points inf l = Ok (inr ps) -> Forall2 (point_of inf) l ps /\
  (forall p, In p ps -> has_transit_time p = true -> exists i, ki_checkpoint inf (sp_sr p) = Some i).
Proof.
  induction l as [|x l IH]; intros ps E; cbn [parse_points] in E.
  - injection E as <-. split; [constructor|intros ? []].
  - apply bind_Ok in E as [r [E1 E]]. destruct r as [e|p]; [discriminate|].
    apply bind_Ok in E as [t [E2 E]]. destruct t as [e|t]; [discriminate|]. injection E as <-.
    apply parse_point_ok in E1 as [A B]. destruct (IH _ E2) as [C D]. split; [now constructor|].
    intros q [<-|I]; auto.
Qed.
Lemma points_supported_ok inf fr : forall l, points_supported inf fr l = Ok None ->
  forall p, In p l -> exists sr, nth_error (ki_srs inf) (sp_sr p) = Some sr /\
    (sp_halt p = true -> exists i, halt_idx fr sr = Some i).
Proof.
  induction l as [|p l IH]; intros E q I; [destruct I|]. cbn [points_supported] in E.
  apply bind_Ok in E as [sr [A E]]. apply at_nth in A.
  destruct (sp_halt p && negb (some (halt_idx fr sr))) eqn:H1; [discriminate|].
  destruct (has_transit_time p && negb (some (ki_checkpoint inf (sp_sr p)))); [discriminate|].
  destruct I as [<-|I]; [|now apply IH]. exists sr. split; [exact A|]. intros H. rewrite H in H1.
  destruct (halt_idx fr sr); [eauto|discriminate].
Qed.
(* a transit time without a checkpoint is never reported as an error *)
Lemma points_supported_never inf fr : forall l,
  (forall p, In p l -> has_transit_time p = true -> exists i, ki_checkpoint inf (sp_sr p) = Some i) ->
  points_supported inf fr l <> Ok (Some TRANSIT_TIME_BUT_NO_RUNTIME_CHECKPOINT).
Proof.
  induction l as [|p l IH]; intros H E; cbn [points_supported] in E; [discriminate|].
  apply bind_Ok in E as [sr [A E]]. destruct (_ && _); [discriminate|].
  destruct (has_transit_time p) eqn:T.
  - destruct (H p (or_introl eq_refl) T) as [i Hi]. rewrite Hi in E. cbn in E. apply IH in E; auto.
    intros q I. apply H. now right.
  - cbn [andb] in E. apply IH in E; auto. intros q I. apply H. now right.
Qed.

Lemma constructions_ok fuel inf : forall l ts, parse_constructions fuel inf l = Ok (inr ts) <->
  Forall2 (fun x t => parse_construction_train fuel inf x = Ok (inr t)) l ts.
Proof.
  induction l as [|x l IH]; intros ts; cbn [parse_constructions].
  - split; [intros [= <-]; constructor|intros H; inversion H; reflexivity].
  - split.
    + intros E. apply bind_Ok in E as [r [E1 E]]. destruct r as [e|t]; [discriminate|].
      apply bind_Ok in E as [r2 [E2 E]]. destruct r2 as [e|ts']; [discriminate|]. injection E as <-.
      constructor; [exact E1|]. now apply IH.
    + intros H. inversion H as [|? t ? ts' H1 H2]; subst. rewrite H1. cbn [bind]. apply IH in H2. rewrite H2. reflexivity.
Qed.
Lemma constructions_err fuel inf : forall l e, parse_constructions fuel inf l = Ok (inl e) <->
  exists l1 x l2 ts, l = l1 ++ x :: l2 /\
    Forall2 (fun x t => parse_construction_train fuel inf x = Ok (inr t)) l1 ts /\
    parse_construction_train fuel inf x = Ok (inl e).
Proof.
  induction l as [|x l IH]; intros e; cbn [parse_constructions].
  - split; [discriminate|]. intros [[|? ?] [? [? [? [? _]]]]]; discriminate.
  - split.
    + intros E. apply bind_Ok in E as [r [E1 E]]. destruct r as [e'|t].
      * injection E as ->. exists [], x, l, []. split; [reflexivity|]. split; [constructor|exact E1].
      * apply bind_Ok in E as [r2 [E2 E]]. destruct r2 as [e'|ts']; [|discriminate]. injection E as ->.
        apply IH in E2 as [l1 [y [l2 [ts [-> [F H]]]]]]. exists (x :: l1), y, l2, (t :: ts).
        split; [reflexivity|]. split; [now constructor|exact H].
    + intros [l1 [y [l2 [ts [EQ [F H]]]]]]. destruct l1 as [|z l1]; cbn [app] in EQ; injection EQ as -> ->.
      * rewrite H. reflexivity.
      * inversion F as [|? t ? ts' F1 F2]; subst. rewrite F1. cbn [bind].
        rewrite (proj2 (IH e)); [reflexivity|]. exists l1, y, l2, ts'. auto.
Qed.
