(* Proofs about the sidebar of the client. *)
From Verif Require Import Base ClientStoreModel ClientStoreSpec.
Local Open Scope list_scope.
Local Open Scope nat_scope.

Lemma use_app srv es1 es2 c : use srv (es1 ++ es2) c = use srv es2 (use srv es1 c).
Proof. apply fold_left_app. Qed.

(* the requests of one kind, by their content *)
Definition pick {A} (g : request -> option A) (l : list request) : list A :=
  flat_map (fun r => match g r with Some a => [a] | None => [] end) l.
Lemma pick_app {A} (g : request -> option A) l1 l2 : pick g (l1 ++ l2) = pick g l1 ++ pick g l2.
Proof. apply flat_map_app. Qed.
Lemma pick_drop_other {A} (g : request -> option A) l : forall k r, nth_error l k = Some r -> g r = None -> pick g (drop_nth k l) = pick g l.
Proof.
  induction l as [|r0 l IH]; intros [|k] r E N; try discriminate; cbn [drop_nth].
  - cbn in E. injection E as ->. unfold pick. cbn [flat_map]. rewrite N. reflexivity.
  - change (pick g (r0 :: drop_nth k l)) with (match g r0 with Some a => [a] | None => [] end ++ pick g (drop_nth k l)).
    rewrite (IH k r E N). reflexivity.
Qed.
Lemma pick_drop_first {A} (g : request -> option A) a l : forall k r, nth_error l k = Some r -> g r = Some a ->
  (forall j r', j < k -> nth_error l j = Some r' -> g r' = None) -> pick g l = a :: pick g (drop_nth k l).
Proof.
  induction l as [|r0 l IH]; intros [|k] r E N B; try discriminate; cbn [drop_nth].
  - cbn in E. injection E as ->. unfold pick. cbn [flat_map]. rewrite N. reflexivity.
  - change (pick g (r0 :: l)) with (match g r0 with Some a => [a] | None => [] end ++ pick g l).
    change (pick g (r0 :: drop_nth k l)) with (match g r0 with Some a => [a] | None => [] end ++ pick g (drop_nth k l)).
    rewrite (B 0 r0 ltac:(lia) eq_refl). cbn [app]. apply (IH k r E N). intros j r' L H. apply (B (S j) r'); [lia|exact H].
Qed.
Lemma pick_nil {A} (g : request -> option A) l : pick g l = [] <-> forall r, In r l -> g r = None.
Proof.
  induction l as [|r l IH].
  - split; [intros _ r []|reflexivity].
  - change (pick g (r :: l)) with (match g r with Some a => [a] | None => [] end ++ pick g l). split.
    + intros E r' [<-|H].
      * destruct (g r); [discriminate|reflexivity].
      * apply app_eq_nil in E. apply IH; [apply E|exact H].
    + intros H. rewrite (H r (or_introl eq_refl)). apply IH. intros r' H'. apply H. right. exact H'.
Qed.

Definition g_timetables (r : request) : option string := match r with AskTimetables i => Some i | _ => None end.
Definition g_timetable (r : request) : option (string * string) := match r with AskTimetable i t => Some (i, t) | _ => None end.
Definition g_search (r : request) : option (string * string) := match r with AskSearch i q => Some (i, q) | _ => None end.

Lemma in_turn_cons P srv e es c : in_turn P srv (e :: es) c ->
  ((forall r, fails c e = Some r -> ~ P r) /\
   (forall k r, e = Answer k -> nth_error (pending c) k = Some r -> P r -> forall j r', j < k -> nth_error (pending c) j = Some r' -> ~ P r'))
  /\ in_turn P srv es (on_event srv c e).
Proof. intros H. split; [apply H, step_here|]. intros c' e' S. apply H, step_later, S. Qed.
Lemma in_turn_app P srv es1 es2 c : in_turn P srv (es1 ++ es2) c -> in_turn P srv es2 (use srv es1 c).
Proof.
  revert c. induction es1 as [|e es1 IH]; intros c H; [exact H|]. apply in_turn_cons in H. apply (IH _ (proj2 H)).
Qed.

(* the value of a kind: what the last request of this kind will bring, or has brought *)
Definition due {A V} (g : request -> option A) (val : client -> V) (bring : A -> V) (a : A) (c : client) : Prop :=
  (exists l, pick g (pending c) = l ++ [a]) \/ (pick g (pending c) = [] /\ val c = bring a).
Section Due.
Context {A V : Type} (g : request -> option A) (val : client -> V) (bring : server -> A -> V) (P : request -> Prop) (srv : server).
Hypothesis kind : forall r, P r <-> g r <> None.
Hypothesis pend_val : forall c l, val (set_pending c l) = val c.
Hypothesis bring_val : forall c r, val (receive srv c r) = match g r with Some a => bring srv a | None => val c end.
Lemma receive_pending c r : pending (receive srv c r) = pending c.
Proof. destruct r; reflexivity. Qed.
Lemma due_answer a c e : due g val (bring srv) a c ->
  (forall r, fails c e = Some r -> ~ P r) ->
  (forall k r, e = Answer k -> nth_error (pending c) k = Some r -> P r -> forall j r', j < k -> nth_error (pending c) j = Some r' -> ~ P r') ->
  (exists k, e = Answer k \/ e = Fail k) -> due g val (bring srv) a (on_event srv c e).
Proof.
  intros D F O [k [->| ->]]; cbn [on_event].
  - destruct (nth_error (pending c) k) as [r|] eqn:E; [|exact D].
    unfold due. rewrite receive_pending, bring_val, pend_val. cbn [pending set_pending].
    destruct (g r) as [b|] eqn:G.
    + destruct D as [(l & D)|(D & _)].
      * assert (B : forall j r', j < k -> nth_error (pending c) j = Some r' -> g r' = None).
        { intros j r' L H. destruct (g r') eqn:G'; [|reflexivity]. exfalso. apply (O k r eq_refl E) with (j := j) (r' := r'); [|exact L|exact H|].
          - apply kind. congruence.
          - apply kind. congruence. }
        assert (PD' := pick_drop_first g b (pending c) k r E G B). rewrite D in PD'.
        destruct l as [|b0 l]; cbn [app] in PD'; injection PD' as -> PD'.
        -- right. split; [symmetry; exact PD'|reflexivity].
        -- left. exists l. symmetry. exact PD'.
      * exfalso. rewrite pick_nil in D. rewrite (D r (nth_error_In _ _ E)) in G. discriminate.
    + rewrite (pick_drop_other g (pending c) k r E G). exact D.
  - unfold due. rewrite pend_val. cbn [pending set_pending]. destruct (nth_error (pending c) k) as [r|] eqn:E.
    + assert (G : g r = None). { destruct (g r) eqn:G; [|reflexivity]. exfalso. apply (F r); [cbn [fails]; exact E|]. apply kind. congruence. }
      rewrite (pick_drop_other g (pending c) k r E G). exact D.
    + assert (Z : drop_nth k (pending c) = pending c); [|rewrite Z; exact D]. clear - E. revert k E.
      induction (pending c) as [|r l IH]; intros [|k] E; try reflexivity; try discriminate. cbn [drop_nth]. rewrite IH by exact E. reflexivity.
Qed.
End Due.

Lemma kind_timetables r : for_timetables r <-> g_timetables r <> None.
Proof. split; [intros (i & ->); discriminate|]. destruct r; cbn; try congruence. intros _. eexists. reflexivity. Qed.
Lemma kind_timetable r : for_timetable r <-> g_timetable r <> None.
Proof. split; [intros (i & t & ->); discriminate|]. destruct r; cbn; try congruence. intros _. do 2 eexists. reflexivity. Qed.
Lemma kind_search r : for_search r <-> g_search r <> None.
Proof. split; [intros (i & t & ->); discriminate|]. destruct r; cbn; try congruence. intros _. do 2 eexists. reflexivity. Qed.
Lemma idle_nil {A} (g : request -> option A) P c : (forall r, P r <-> g r <> None) -> idle P c <-> pick g (pending c) = [].
Proof.
  intros K. rewrite pick_nil. split; intros H r I.
  - destruct (g r) eqn:E; [|reflexivity]. exfalso. apply (H r I), K. congruence.
  - intros C. apply K in C. apply C, H, I.
Qed.

(* the pending requests of a kind after something the user does *)
Lemma due_same {A V} (g : request -> option A) (val : client -> V) bring a c c' :
  pick g (pending c') = pick g (pending c) -> val c' = val c -> due g val bring a c -> due g val bring a c'.
Proof. intros E1 E2. unfold due. rewrite E1, E2. auto. Qed.
Lemma due_new {A V} (g : request -> option A) (val : client -> V) bring a c r : g r = Some a -> due g val bring a (ask c r).
Proof. intros E. left. exists (pick g (pending c)). cbn [pending ask]. rewrite pick_app. unfold pick at 2. cbn [flat_map]. rewrite E. reflexivity. Qed.
Lemma ask_other {A} (g : request -> option A) c r : g r = None -> pick g (pending (ask c r)) = pick g (pending c).
Proof. intros E. cbn [pending ask]. rewrite pick_app. unfold pick at 2. cbn [flat_map]. rewrite E. apply app_nil_r. Qed.

Local Ltac other := match goal with |- pick _ (pending (ask ?x _)) = _ => exact (ask_other _ x _ eq_refl) end.

(* ---- the list of timetables ---- *)
Lemma timetables_step srv c e :
  (forall r, fails c e = Some r -> ~ for_timetables r) ->
  (forall k r, e = Answer k -> nth_error (pending c) k = Some r -> for_timetables r ->
     forall j r', j < k -> nth_error (pending c) j = Some r' -> ~ for_timetables r') ->
  (forall i, truthy (infra c) = Some i -> due g_timetables timetables (srv_timetables srv) i c) ->
  forall i, truthy (infra (on_event srv c e)) = Some i -> due g_timetables timetables (srv_timetables srv) i (on_event srv c e).
Proof.
  intros F O D i. destruct e; cbn [on_event].
  - unfold load_infrastructure. destruct (truthy name) as [n|] eqn:N; cbn [infra set_timetable set_infra ask]; rewrite N; [|discriminate].
    intros [= ->]. apply due_new. reflexivity.
  - unfold load_timetable. destruct (truthy (infra c)) as [n|] eqn:N; [|rewrite N; discriminate].
    cbn [infra set_timetable ask]. rewrite N. intros [= ->]. apply (due_same _ _ _ _ c); [|reflexivity|apply D; reflexivity].
    change (pending (set_timetable (ask c (AskTimetable i (shown name))) name)) with (pending (ask c (AskTimetable i (shown name)))).
    apply ask_other. reflexivity.
  - apply D.
  - unfold add_station_route. destruct (truthy (infra c)) as [n|] eqn:N; [|rewrite N; discriminate].
    cbn [infra ask]. rewrite N. intros [= ->]. apply (due_same _ _ _ _ c); [other|reflexivity|apply D; reflexivity].
  - apply D.
  - unfold add_interlocking_route. destruct (truthy (infra c)) as [n|] eqn:N; [|rewrite N; discriminate].
    cbn [infra ask]. rewrite N. intros [= ->]. apply (due_same _ _ _ _ c); [other|reflexivity|apply D; reflexivity].
  - apply D.
  - unfold type_query. destruct (String.eqb q (query c)); [apply D|]. destruct (String.length q <? 3); [apply D|].
    intros T. apply (due_same _ _ _ _ c); [other|reflexivity|]. apply (D i T).
  - intros T. apply (due_answer g_timetables timetables (fun srv => srv_timetables srv) for_timetables srv kind_timetables (fun _ _ => eq_refl) ltac:(intros c0 r; destruct r; reflexivity) i c (Answer k)); try assumption.
    + apply D. destruct (nth_error (pending c) k) as [r|]; [|exact T]. destruct r; exact T.
    + eauto.
  - intros T. apply (due_answer g_timetables timetables (fun srv => srv_timetables srv) for_timetables srv kind_timetables (fun _ _ => eq_refl) ltac:(intros c0 r; destruct r; reflexivity) i c (Fail k)); try assumption.
    + apply D. exact T.
    + eauto.
Qed.
Lemma timetables_due srv es : forall c, in_turn for_timetables srv es c ->
  (forall i, truthy (infra c) = Some i -> due g_timetables timetables (srv_timetables srv) i c) ->
  forall i, truthy (infra (use srv es c)) = Some i -> due g_timetables timetables (srv_timetables srv) i (use srv es c).
Proof.
  induction es as [|e es IH]; intros c T D; [exact D|]. apply in_turn_cons in T. destruct T as ((F & O) & T).
  apply (IH _ T). apply timetables_step; assumption.
Qed.

(* ---- the range of a timetable ---- *)
Lemma range_step srv a c e :
  (forall r, fails c e = Some r -> ~ for_timetable r) ->
  (forall k r, e = Answer k -> nth_error (pending c) k = Some r -> for_timetable r ->
     forall j r', j < k -> nth_error (pending c) j = Some r' -> ~ for_timetable r') ->
  (forall n, e <> ChooseTimetable n) -> (forall x y, e <> ChooseRange x y) ->
  due g_timetable range (fun a => Some (srv_interval srv (fst a) (snd a))) a c ->
  due g_timetable range (fun a => Some (srv_interval srv (fst a) (snd a))) a (on_event srv c e).
Proof.
  intros F O N1 N2 D. destruct e; cbn [on_event]; try exact D.
  - unfold load_infrastructure. destruct (truthy name) as [n|]; [|exact D].
    apply (due_same _ _ _ _ c); [other|reflexivity|]. exact D.
  - destruct (N1 _ eq_refl).
  - destruct (N2 _ _ eq_refl).
  - unfold add_station_route. destruct (truthy (infra c)); [|exact D]. apply (due_same _ _ _ _ c); [other|reflexivity|]. exact D.
  - unfold add_interlocking_route. destruct (truthy (infra c)); [|exact D]. apply (due_same _ _ _ _ c); [other|reflexivity|]. exact D.
  - unfold type_query. destruct (String.eqb q (query c)); [exact D|]. destruct (String.length q <? 3); [exact D|].
    apply (due_same _ _ _ _ c); [other|reflexivity|]. exact D.
  - apply (due_answer g_timetable range (fun srv a => Some (srv_interval srv (fst a) (snd a))) for_timetable srv kind_timetable (fun _ _ => eq_refl) ltac:(intros c0 r; destruct r; reflexivity) a c (Answer k)); try assumption. eauto.
  - apply (due_answer g_timetable range (fun srv a => Some (srv_interval srv (fst a) (snd a))) for_timetable srv kind_timetable (fun _ _ => eq_refl) ltac:(intros c0 r; destruct r; reflexivity) a c (Fail k)); try assumption. eauto.
Qed.
Lemma range_due srv a es : forall c, in_turn for_timetable srv es c ->
  (forall n, ~ In (ChooseTimetable n) es) -> (forall x y, ~ In (ChooseRange x y) es) ->
  due g_timetable range (fun a => Some (srv_interval srv (fst a) (snd a))) a c ->
  due g_timetable range (fun a => Some (srv_interval srv (fst a) (snd a))) a (use srv es c).
Proof.
  induction es as [|e es IH]; intros c T N1 N2 D; [exact D|]. apply in_turn_cons in T. destruct T as ((F & O) & T).
  apply (IH _ T).
  - intros n H. apply (N1 n). right. exact H.
  - intros x y H. apply (N2 x y). right. exact H.
  - apply range_step; try assumption.
    + intros n ->. apply (N1 n). left. reflexivity.
    + intros x y ->. apply (N2 x y). left. reflexivity.
Qed.

(* ---- the results of a search ---- *)
Lemma search_step srv a c e :
  (forall r, fails c e = Some r -> ~ for_search r) ->
  (forall k r, e = Answer k -> nth_error (pending c) k = Some r -> for_search r ->
     forall j r', j < k -> nth_error (pending c) j = Some r' -> ~ for_search r') ->
  (forall q, e <> Type_ q) ->
  due g_search results (fun a => srv_search srv (fst a) (snd a)) a c ->
  due g_search results (fun a => srv_search srv (fst a) (snd a)) a (on_event srv c e).
Proof.
  intros F O N1 D. destruct e; cbn [on_event]; try exact D.
  - unfold load_infrastructure. destruct (truthy name) as [n|]; [|exact D].
    apply (due_same _ _ _ _ c); [other|reflexivity|]. exact D.
  - unfold load_timetable. destruct (truthy (infra c)); [|exact D].
    apply (due_same _ _ _ _ (ask c (AskTimetable s (shown name)))); [reflexivity|reflexivity|].
    apply (due_same _ _ _ _ c); [other|reflexivity|]. exact D.
  - unfold add_station_route. destruct (truthy (infra c)); [|exact D]. apply (due_same _ _ _ _ c); [other|reflexivity|]. exact D.
  - unfold add_interlocking_route. destruct (truthy (infra c)); [|exact D]. apply (due_same _ _ _ _ c); [other|reflexivity|]. exact D.
  - destruct (N1 _ eq_refl).
  - apply (due_answer g_search results (fun srv a => srv_search srv (fst a) (snd a)) for_search srv kind_search (fun _ _ => eq_refl) ltac:(intros c0 r; destruct r; reflexivity) a c (Answer k)); try assumption. eauto.
  - apply (due_answer g_search results (fun srv a => srv_search srv (fst a) (snd a)) for_search srv kind_search (fun _ _ => eq_refl) ltac:(intros c0 r; destruct r; reflexivity) a c (Fail k)); try assumption. eauto.
Qed.
Lemma search_due srv a es : forall c, in_turn for_search srv es c -> (forall q, ~ In (Type_ q) es) ->
  due g_search results (fun a => srv_search srv (fst a) (snd a)) a c ->
  due g_search results (fun a => srv_search srv (fst a) (snd a)) a (use srv es c).
Proof.
  induction es as [|e es IH]; intros c T N1 D; [exact D|]. apply in_turn_cons in T. destruct T as ((F & O) & T).
  apply (IH _ T).
  - intros n H. apply (N1 n). right. exact H.
  - apply search_step; try assumption. intros q ->. apply (N1 q). left. reflexivity.
Qed.
