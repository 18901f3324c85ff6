(* C128: a search of the client leads the map to what was found. *)
From Verif Require Import Base ClientStoreModel ClientMenuModel ClientSearchModel.

(* ---- specification ---- *)
(* the map is at a place *)
Definition map_at (p : spage) (place : nat) : Prop := s_map p = Some (Some place).
Definition has_map (p : spage) : Prop := s_map p <> None.
(* names and places of what is listed below the field *)
Definition lines (p : spage) : list (string * nat) := map (fun h => (h_name h, h_place h)) (listed p).
(* nothing but waiting and moving the map *)
Definition waits (l : list sact) : Prop := forall a, In a l -> (exists k, a = Served k) \/ (exists v, a = Drag v).

(* ---- lemmas ---- *)
Lemma hits_lines n k l : map (fun h => (h_name h, h_place h)) (hits n k l) = l.
Proof. revert k. induction l as [|[a b] l IH]; intros k; [reflexivity|]. cbn. rewrite IH. reflexivity. Qed.
Lemma hits_answer n k l h : In h (hits n k l) -> h_answer h = n.
Proof.
  revert k. induction l as [|[a b] l IH]; intros k H; [destruct H|]. cbn in H.
  destruct H as [<-|H]; [reflexivity|apply (IH (S k)), H].
Qed.
Lemma hits_length n k l : List.length (hits n k l) = List.length l.
Proof. revert k. induction l as [|[a b] l IH]; intros k; [reflexivity|]. cbn. rewrite IH. reflexivity. Qed.
Lemma hits_nth n k l i x : nth_error l i = Some x -> nth_error (hits n k l) i = Some (mkhit n (k + i) (fst x) (snd x)).
Proof.
  revert k i. induction l as [|[a b] l IH]; intros k i H; [destruct i; discriminate|].
  destruct i as [|i]; cbn in *; [injection H as <-; rewrite Nat.add_0_r; reflexivity|].
  rewrite (IH (S k) i H), Nat.add_succ_r. reflexivity.
Qed.
Lemma same_hit_answer t h : same_hit t h = true -> exists a, t = Some a /\ h_answer a = h_answer h.
Proof.
  destruct t as [a|]; [|discriminate]. cbn. intros H. exists a. split; [reflexivity|].
  apply andb_prop in H. apply Nat.eqb_eq, (proj1 H).
Qed.

(* what is known of every page: results and target are of answers that have come *)
Record sane (p : spage) : Prop := {
  sn_results : forall h, In h (s_results p) -> h_answer h < s_served p;
  sn_target : forall h, s_target p = Some h -> h_answer h < s_served p }.
Lemma sane_aim p h : sane p -> In h (s_results p) -> sane (aim p h).
Proof. intros [A B] H. split; cbn; [exact A|]. intros g [= <-]. apply A, H. Qed.
Lemma listed_in p k h : nth_error (listed p) k = Some h -> In h (s_results p) /\ nth_error (s_results p) k = Some h.
Proof.
  unfold listed. destruct (s_field p); [|destruct k; discriminate].
  destruct (1 <? List.length (s_results p))%nat; [|destruct k; discriminate]. intros H. split; [eapply nth_error_In, H|exact H].
Qed.
Lemma sane_act find p a : sane p -> sane (on_sact find p a).
Proof.
  intros S. pose proof S as [A B]. destruct a; cbn [on_sact].
  - split; cbn; assumption.
  - destruct (s_field p); [|exact S]. destruct (truthy (s_infra p)); [|exact S].
    destruct (String.eqb q s); [exact S|]. destruct (String.length q <? 3)%nat; split; cbn; auto. intros h [].
  - destruct (s_field p); [|exact S]. destruct (s_results p) eqn:E; [exact S|].
    apply sane_aim; [exact S|rewrite E; left; reflexivity].
  - destruct (nth_error (listed p) k) eqn:E; [|exact S]. apply sane_aim; [exact S|]. apply (listed_in p k _ E).
  - destruct (s_overlay p), o; try exact S; split; cbn; assumption.
  - split; cbn; assumption.
  - destruct (nth_error (s_pending p) k) as [[i q]|]; [|exact S]. split; cbn.
    + intros h H. rewrite (hits_answer _ _ _ _ H). lia.
    + intros h H. specialize (B h H). lia.
  - split; cbn; assumption.
Qed.
Lemma sane_visit find l : sane (search_visit find l).
Proof.
  unfold search_visit. assert (H : sane sopened) by (split; cbn; [intros h []|discriminate]).
  revert H. generalize sopened. induction l as [|a l IH]; intros p H; [exact H|]. cbn [fold_left]. apply IH, sane_act, H.
Qed.
Lemma visit_snoc find l a : search_visit find (l ++ [a]) = on_sact find (search_visit find l) a.
Proof. unfold search_visit. rewrite fold_left_app. reflexivity. Qed.

(* a page on which nothing happens but waiting: the one search under way is answered, or is still under way *)
Record waiting (find : finder) (i q : string) (p0 : spage) (p : spage) : Prop := {
  wt_infra : s_infra p = s_infra p0;
  wt_field : s_field p = s_field p0;
  wt_map : s_map p <> None <-> s_map p0 <> None;
  wt_target : s_target p = s_target p0;
  wt_state : (s_pending p = [(i, q)] /\ s_served p = s_served p0) \/
             (s_pending p = [] /\ s_results p = hits (s_served p0) 0 (find i q)) }.
Lemma waiting_act find i q p0 p a : waiting find i q p0 p -> (exists k, a = Served k) \/ (exists v, a = Drag v) ->
  waiting find i q p0 (on_sact find p a).
Proof.
  intros [A B C D E] [(k & ->)|(v & ->)]; cbn [on_sact].
  - destruct E as [(E & Es)|(E & R)]; rewrite E.
    + destruct k as [|k]; cbn [nth_error]; [|destruct k; (split; [exact A|exact B|exact C|exact D|left; auto])].
      split; cbn; auto. right. rewrite Es. auto.
    + destruct k; cbn [nth_error]; (split; [exact A|exact B|exact C|exact D|right; auto]).
  - split; cbn; auto. rewrite <- C. destruct (s_map p); cbn; split; congruence.
Qed.
Lemma waiting_acts find i q p0 l : waits l -> forall p, waiting find i q p0 p -> waiting find i q p0 (fold_left (on_sact find) l p).
Proof.
  induction l as [|a l IH]; intros W p H; [exact H|]. cbn [fold_left].
  apply IH; [intros b Hb; apply W; right; exact Hb|]. apply waiting_act; [exact H|]. apply W. left. reflexivity.
Qed.

(* a text of three characters or more typed with no other search under way, and its answer *)
Lemma searched find l1 l2 i q : let p0 := search_visit find l1 in let p := search_visit find (l1 ++ Enter q :: l2) in
  s_infra p0 = Some i -> i <> ""%string -> s_field p0 <> None -> s_field p0 <> Some q -> 3 <= String.length q ->
  s_pending p0 = [] -> waits l2 -> s_pending p = [] ->
  s_field p = Some q /\ s_infra p = Some i /\ (has_map p <-> has_map p0) /\ s_target p = s_target p0 /\
  s_results p = hits (s_served p0) 0 (find i q).
Proof.
  intros p0 p I Ni F Fq L P W P'. unfold p, search_visit in *. rewrite fold_left_app in *. cbn [fold_left] in *.
  fold (search_visit find l1) in *. fold p0 in P' |- *.
  assert (E : on_sact find p0 (Enter q) =
    mksp (s_infra p0) (s_overlay p0) (Some q) (s_results p0) [(i, q)] (s_served p0) (s_target p0) (s_map p0)).
  { cbn [on_sact]. destruct (s_field p0) as [old|] eqn:Ef; [|congruence]. rewrite I.
    assert (T : truthy (Some i) = Some i) by (destruct i; [congruence|reflexivity]). rewrite T.
    destruct (String.eqb_spec q old); [congruence|]. destruct (Nat.ltb_spec (String.length q) 3); [lia|].
    rewrite P. reflexivity. }
  rewrite E in *. set (p1 := mksp _ _ _ _ _ _ _ _) in *.
  assert (H : waiting find i q p1 p1) by (split; cbn; tauto).
  destruct (waiting_acts find i q p1 l2 W p1 H) as [A B C D [(K & _)|(_ & K)]]; [congruence|].
  repeat split; auto; try apply C. rewrite A. exact I.
Qed.

(* ---- where the map goes ---- *)

(* A text is typed in an infrastructure while no other search is under way; once its answer is there, the
   button leads the map to the first thing found. *)
Theorem C128_button_partial find l1 l2 i q name place rest :
  let p0 := search_visit find l1 in
  s_infra p0 = Some i -> i <> ""%string -> s_field p0 <> None -> s_field p0 <> Some q -> 3 <= String.length q ->
  s_pending p0 = [] -> waits l2 -> s_pending (search_visit find (l1 ++ Enter q :: l2)) = [] -> has_map p0 ->
  find i q = (name, place) :: rest ->
  map_at (search_visit find ((l1 ++ Enter q :: l2) ++ [Button])) place.
Proof.
  intros p0 I Ni F Fq L P W P' M Fd.
  destruct (searched find l1 l2 i q I Ni F Fq L P W P') as (F' & _ & M' & T & R).
  rewrite visit_snoc. set (p := search_visit find (l1 ++ Enter q :: l2)) in *. cbn [on_sact].
  rewrite F', R, Fd. cbn [hits]. unfold map_at, aim. cbn [s_map h_place].
  assert (S : same_hit (s_target p) (mkhit (s_served (search_visit find l1)) 0 name place) = false).
  { destruct (same_hit _ _) eqn:E; [|reflexivity]. apply same_hit_answer in E. destruct E as (a & E1 & E2). cbn in E2.
    rewrite T in E1. pose proof (sn_target _ (sane_visit find l1) a E1). lia. }
  rewrite S. apply M' in M. unfold has_map in M. destruct (s_map p); [reflexivity|congruence].
Qed.
Print Assumptions C128_button_partial.

(* Two results or more are all listed, in the order of the server, and a line that is clicked leads the map there. *)
Theorem C128_list_partial find l1 l2 i q :
  let p0 := search_visit find l1 in let l := l1 ++ Enter q :: l2 in
  s_infra p0 = Some i -> i <> ""%string -> s_field p0 <> None -> s_field p0 <> Some q -> 3 <= String.length q ->
  s_pending p0 = [] -> waits l2 -> s_pending (search_visit find l) = [] -> has_map p0 ->
  2 <= List.length (find i q) ->
  lines (search_visit find l) = find i q /\
  forall k name place, nth_error (find i q) k = Some (name, place) ->
    map_at (search_visit find (l ++ [Click k])) place.
Proof.
  intros p0 l I Ni F Fq L P W P' M Le.
  destruct (searched find l1 l2 i q I Ni F Fq L P W P') as (F' & _ & M' & T & R). fold l in F', M', T, R.
  assert (E : listed (search_visit find l) = hits (s_served (search_visit find l1)) 0 (find i q)).
  { unfold listed. rewrite F', R, hits_length. destruct (Nat.ltb_spec 1 (List.length (find i q))); [reflexivity|lia]. }
  split; [unfold lines; rewrite E; apply hits_lines|]. intros k name place Hk.
  rewrite visit_snoc. cbn [on_sact]. rewrite E, (hits_nth _ 0 _ _ _ Hk). unfold map_at, aim. cbn [s_map h_place fst snd].
  destruct (same_hit _ _) eqn:S.
  - apply same_hit_answer in S. destruct S as (a & E1 & E2). cbn in E2. rewrite T in E1.
    pose proof (sn_target _ (sane_visit find l1) a E1). lia.
  - apply M' in M. unfold has_map in M. destruct (s_map (search_visit find l)); [reflexivity|congruence].
Qed.
Print Assumptions C128_list_partial.

(* FINDING.  A search that finds one thing lists nothing: the list is drawn for more than one result. *)
Theorem C128_one_result_refuted find l1 l2 i q name place :
  let p0 := search_visit find l1 in let l := l1 ++ Enter q :: l2 in
  s_infra p0 = Some i -> i <> ""%string -> s_field p0 <> None -> s_field p0 <> Some q -> 3 <= String.length q ->
  s_pending p0 = [] -> waits l2 -> s_pending (search_visit find l) = [] ->
  find i q = [(name, place)] -> lines (search_visit find l) = [].
Proof.
  intros p0 l I Ni F Fq L P W P' Fd.
  destruct (searched find l1 l2 i q I Ni F Fq L P W P') as (F' & _ & _ & _ & R). fold l in F', R.
  unfold lines, listed. rewrite F', R, Fd. reflexivity.
Qed.
Print Assumptions C128_one_result_refuted.

(* FINDING.  The same result a second time does not move the map: it follows changes of the result only. *)
Theorem C128_again_refuted find l v :
  map_at (search_visit find (l ++ [Drag v])) v ->
  map_at (search_visit find (l ++ [Button; Drag v; Button])) v.
Proof.
  intros H. unfold search_visit in *. rewrite fold_left_app in *. cbn [fold_left] in *. fold (search_visit find l) in *.
  set (p := search_visit find l) in *. unfold map_at in *. cbn [on_sact s_map] in H. cbn [on_sact].
  destruct (s_field p) as [f|] eqn:F; [|rewrite F; exact H]. destruct (s_results p) as [|h r] eqn:R.
  - cbn [s_field s_results]. rewrite F, R. exact H.
  - cbn [s_field s_results aim]. rewrite F, R. unfold aim. cbn [s_target s_map same_hit].
    rewrite !Nat.eqb_refl. cbn [andb]. destruct (same_hit (s_target p) h); destruct (s_map p); cbn in *; congruence.
Qed.
Print Assumptions C128_again_refuted.

(* FINDING.  The results stay when another infrastructure is chosen: the button then leads its map to a place
   of the former one. *)
Theorem C128_other_infrastructure_refuted find i j q name place rest :
  i <> ""%string -> j <> ""%string -> i <> j -> 3 <= String.length q -> find i q = (name, place) :: rest ->
  let p := search_visit find [Load (Some i); Enter q; Served 0; Load (Some j); Button] in
  s_infra p = Some j /\ map_at p place.
Proof.
  intros Ni Nj D L F.
  assert (Ti : truthy (Some i) = Some i) by (destruct i; [congruence|reflexivity]).
  assert (Tj : truthy (Some j) = Some j) by (destruct j; [congruence|reflexivity]).
  assert (Q : String.eqb q "" = false) by (destruct q; [cbn in L; lia|reflexivity]).
  assert (L' : (String.length q <? 3)%nat = false) by (apply Nat.ltb_ge; exact L).
  assert (IJ : String.eqb i j = false) by (apply String.eqb_neq, D).
  unfold search_visit, chosen, map_at. cbn [fold_left on_sact sopened s_infra s_field s_map same].
  unfold chosen. rewrite Ti, Tj, Q, L'. cbn [sopened drop_nth on_sact s_pending s_infra s_field s_results s_overlay s_served s_target s_map app nth_error].
  rewrite F. cbn [hits same]. rewrite IJ. split; reflexivity.
Qed.
Print Assumptions C128_other_infrastructure_refuted.

(* FINDING.  Another overlay brings an empty field, but the results of the former text stay below it. *)
Lemma field_there find l : s_overlay (search_visit find l) <> Station -> s_field (search_visit find l) <> None.
Proof.
  unfold search_visit. assert (H : s_overlay sopened <> Station -> s_field sopened <> None) by discriminate.
  revert H. generalize sopened. induction l as [|a l IH]; intros p H; [exact H|]. cbn [fold_left]. apply IH.
  destruct a; cbn [on_sact]; try exact H.
  - destruct (s_field p) eqn:F; [|rewrite F; exact H]. destruct (truthy (s_infra p)); [|rewrite F; exact H].
    destruct (String.eqb q s); [rewrite F; exact H|]. destruct (String.length q <? 3)%nat; cbn; discriminate.
  - destruct (s_field p) eqn:F; [|rewrite F; exact H]. destruct (s_results p); cbn; rewrite F; exact H.
  - destruct (nth_error (listed p) k); exact H.
  - destruct (s_overlay p) eqn:O, o; cbn; rewrite ?O; try exact H; intros; congruence.
  - destruct (nth_error (s_pending p) k) as [[]|]; exact H.
Qed.
Theorem C128_overlay_refuted find l : s_overlay (search_visit find l) = Menu ->
  let p := search_visit find (l ++ [Go Search]) in
  s_field p = Some ""%string /\ lines p = lines (search_visit find l).
Proof.
  intros O p. unfold p. rewrite visit_snoc. cbn [on_sact]. rewrite O. split; [reflexivity|].
  unfold lines, listed. cbn [s_field s_results].
  destruct (s_field (search_visit find l)) eqn:F; [reflexivity|]. destruct (field_there find l); congruence.
Qed.
Print Assumptions C128_overlay_refuted.

(* ---- cases ---- *)
Definition demo_find : finder := fun _ q => [(q, 7); (q ++ "x", 8)]%string.
Example C128_sat : let p0 := search_visit demo_find [Load (Some "a"%string)] in
  s_infra p0 = Some "a"%string /\ s_field p0 = Some ""%string /\ s_pending p0 = [] /\ has_map p0 /\ waits [Drag 3; Served 0] /\
  s_pending (search_visit demo_find ([Load (Some "a"%string)] ++ Enter "main"%string :: [Drag 3; Served 0])) = [] /\
  2 <= List.length (demo_find "a"%string "main"%string) /\
  lines (search_visit demo_find ([Load (Some "a"%string)] ++ Enter "main"%string :: [Drag 3; Served 0])) = [("main", 7); ("mainx", 8)]%string.
Proof.
  repeat split; try discriminate.
  - intros a [<-|[<-|[]]]; [right|left]; eauto.
  - cbn. lia.
Qed.
Example C128_one_sat : let find : finder := fun _ q => [(q, 7)] in
  lines (search_visit find ([Load (Some "a"%string)] ++ Enter "main"%string :: [Served 0])) = [] /\
  map_at (search_visit find (([Load (Some "a"%string)] ++ Enter "main"%string :: [Served 0]) ++ [Button])) 7.
Proof. split; reflexivity. Qed.
Example C128_again_sat : map_at (search_visit demo_find ([Load (Some "a"%string); Enter "main"%string; Served 0] ++ [Drag 3])) 3 /\
  map_at (search_visit demo_find ([Load (Some "a"%string); Enter "main"%string; Served 0] ++ [Button])) 7.
Proof. split; reflexivity. Qed.
