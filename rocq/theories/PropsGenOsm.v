(* The map generator: cleaning, extending and completing OSM data.
   C97-C101. *)
From Coq Require Import Ascii String List ZArith NArith Bool Sorted Permutation Lia.
From Verif Require Import Base GenOsmModel ExportSpec GenOsmSpec GenOsmProofs.
Import ListNotations.
Local Open Scope list_scope.

Definition numeric (o : osm) : Prop :=
  Forall (fun x => exists z, number (n_id x) z) (o_nodes o) /\
  Forall (fun x => exists z, number (w_id x) z) (o_ways o) /\
  Forall (fun x => exists z, number (r_id x) z) (o_rels o).

(* ---- C97 ---- *)
Theorem C97_cleaned : forall o, numeric o ->
  exists o', sort_and_remove_duplicates o = Ok o' /\
    cleaned n_id (o_nodes o) (o_nodes o') /\ cleaned w_id (o_ways o) (o_ways o') /\ cleaned r_id (o_rels o) (o_rels o').
Proof.
  intros o (H1 & H2 & H3). eexists. split; [apply sort_and_remove_ok|]. cbn [o_nodes o_ways o_rels].
  repeat split; apply clean_cleaned; assumption.
Qed.
Print Assumptions C97_cleaned.

(* whatever the ids are: the result exists, holds only entries of the input and
   no id twice *)
Theorem C97_distinct : forall o, exists o', sort_and_remove_duplicates o = Ok o' /\
  NoDup (map n_id (o_nodes o')) /\ NoDup (map w_id (o_ways o')) /\ NoDup (map r_id (o_rels o')) /\
  incl (o_nodes o') (o_nodes o) /\ incl (o_ways o') (o_ways o) /\ incl (o_rels o') (o_rels o).
Proof.
  intros o. eexists. split; [apply sort_and_remove_ok|]. cbn [o_nodes o_ways o_rels].
  repeat split; try apply clean_nodup; intros x Hx; eapply clean_incl, Hx.
Qed.
Print Assumptions C97_distinct.

(* cleaned data stay as they are *)
Theorem C97_again : forall o o', sort_and_remove_duplicates o = Ok o' -> sort_and_remove_duplicates o' = Ok o'.
Proof.
  intros o o' H. rewrite sort_and_remove_ok in H. injection H as <-. rewrite sort_and_remove_ok. cbn [o_nodes o_ways o_rels].
  rewrite (clean_fix n_id), (clean_fix w_id), (clean_fix r_id) by apply clean_sorted. reflexivity.
Qed.
Print Assumptions C97_again.

(* ids that are no numbers count as 0: of two different entries one is lost *)
Definition lettered : osm := mkosm [mknode [] "a" "1" "2"; mknode [] "b" "3" "4"] [] [].
Theorem C97_kept_refuted : ~ (forall o o', sort_and_remove_duplicates o = Ok o' ->
  forall n, In n (o_nodes o) -> In (n_id n) (map n_id (o_nodes o'))).
Proof.
  intros H. specialize (H lettered _ (sort_and_remove_ok _) (mknode [] "b" "3" "4") (or_intror (or_introl eq_refl))).
  vm_compute in H. destruct H as [H|[]]. discriminate.
Qed.
Print Assumptions C97_kept_refuted.

(* the search behind it does not find every entry of a sorted list *)
Theorem C97_search_refuted : ~ (forall arr s, StronglySorted smaller arr -> In s arr ->
  search (S (List.length arr)) (atoi s) arr 0 (List.length arr - 1) = Ok true).
Proof.
  intros H.
  assert (Hd : forall c, (48 <= N_of_ascii c <= 57)%N -> number (String c "") (Z.of_N (N_of_ascii c - 48))).
  { intros c Hc. exists [c]. repeat split; [discriminate|repeat constructor; apply Hc| |lia|lia].
    left. split; [left; reflexivity|]. cbn. reflexivity. }
  assert (H1 : number "1" 1) by (apply (Hd "1"%char); now vm_compute).
  assert (H2 : number "2" 2) by (apply (Hd "2"%char); now vm_compute).
  assert (H3 : number "3" 3) by (apply (Hd "3"%char); now vm_compute).
  assert (H4 : number "4" 4) by (apply (Hd "4"%char); now vm_compute).
  specialize (H ["1"; "2"; "3"; "4"]%string "3"%string).
  assert (Hs : StronglySorted smaller ["1"; "2"; "3"; "4"]%string).
  { repeat constructor; unfold smaller; eauto 10 using Z.ltb_lt; do 2 eexists; (split; [eassumption|]); (split; [eassumption|]); lia. }
  specialize (H Hs (or_intror (or_intror (or_introl eq_refl)))). vm_compute in H. discriminate.
Qed.
Print Assumptions C97_search_refuted.

Example C97_example :
  numeric (mkosm [mknode [] "12" "a" "a"; mknode [] "-3" "b" "b"; mknode [] "12" "c" "c"; mknode [] "+7" "d" "d"] [] []) /\
  sort_and_remove_duplicates (mkosm [mknode [] "12" "a" "a"; mknode [] "-3" "b" "b"; mknode [] "12" "c" "c"; mknode [] "+7" "d" "d"] [] [])
  = Ok (mkosm [mknode [] "-3" "b" "b"; mknode [] "+7" "d" "d"; mknode [] "12" "a" "a"] [] []).
Proof.
  split; [|vm_compute; reflexivity]. repeat split; repeat constructor; cbn [n_id];
    (eexists; apply atoi_err_number; vm_compute; reflexivity).
Qed.

(* ---- C98 ---- *)
Theorem C98_inserted : forall o new ref,
  let o' := insert_new_node o new ref in
  o_nodes o' = o_nodes o ++ [new] /\ o_rels o' = o_rels o /\
  Forall2 (fun w w' => w_id w' = w_id w /\ w_tags w' = w_tags w /\ beside (n_id new) (n_id ref) (w_nd w) (w_nd w'))
    (o_ways o) (o_ways o').
Proof.
  intros o new ref. cbn zeta. unfold insert_new_node. cbn [o_nodes o_ways o_rels]. split; [reflexivity|]. split; [reflexivity|].
  induction (o_ways o) as [|w ws IH]; cbn [map]; constructor; [|exact IH]. cbn [w_id w_tags w_nd].
  repeat split. apply insert_ref_beside.
Qed.
Print Assumptions C98_inserted.

(* no way loses a node, changes the order of its nodes or its ends *)
Theorem C98_ways_intact : forall o new ref, (forall w, In w (o_ways o) -> ~ In (n_id new) (w_nd w)) ->
  Forall2 (fun w w' => filter (fun x => negb (String.eqb x (n_id new))) (w_nd w') = w_nd w /\
     (2 <= List.length (w_nd w) -> hd_error (w_nd w') = hd_error (w_nd w) /\ hd_error (rev (w_nd w')) = hd_error (rev (w_nd w))))
    (o_ways o) (o_ways (insert_new_node o new ref)).
Proof.
  intros o new ref H. unfold insert_new_node. cbn [o_ways].
  induction (o_ways o) as [|w ws IH]; cbn [map]; constructor; [|apply IH; intros w' Hw'; apply H; now right].
  cbn [w_nd]. pose proof (insert_ref_beside (n_id new) (n_id ref) (w_nd w)) as Hb. split.
  - eapply beside_remove, Hb. apply H. now left.
  - intros Hl. destruct Hb as [nds Hr|pre post Hr Hp|pre Hr].
    + split; reflexivity.
    + split; [destruct pre; reflexivity|]. rewrite !rev_app_distr. cbn [rev].
      destruct (rev post) eqn:E; [|reflexivity]. exfalso. apply Hp. rewrite <- (rev_involutive post), E. reflexivity.
    + rewrite app_length in Hl. cbn in Hl. destruct pre as [|y pre]; [cbn in Hl; lia|]. split; [reflexivity|].
      rewrite !rev_app_distr. reflexivity.
Qed.
Print Assumptions C98_ways_intact.

(* every way through the reference node passes the new one directly next to it *)
Theorem C98_next_to : forall o new ref w', In w' (o_ways (insert_new_node o new ref)) -> In (n_id ref) (w_nd w') ->
  n_id new <> n_id ref ->
  exists pre post, w_nd w' = pre ++ n_id ref :: n_id new :: post \/ w_nd w' = pre ++ n_id new :: n_id ref :: post.
Proof.
  intros o new ref w' Hw Hr Hne. unfold insert_new_node in Hw. cbn [o_ways] in Hw. apply in_map_iff in Hw.
  destruct Hw as (w & <- & Hw). cbn [w_nd] in *. pose proof (insert_ref_beside (n_id new) (n_id ref) (w_nd w)) as Hb.
  destruct Hb as [nds Hn|pre post Hn Hp|pre Hn]; [contradiction|exists pre, post; now left|exists pre, []; now right].
Qed.
Print Assumptions C98_next_to.

Example C98_example :
  let o := mkosm [] [mkway [] "w" ["1"; "2"; "3"]%string; mkway [] "v" ["4"; "2"]%string; mkway [] "u" ["5"; "6"]%string] [] in
  map w_nd (o_ways (insert_new_node o (mknode [] "9" "" "") (mknode [] "2" "" "")))
  = [["1"; "2"; "9"; "3"]; ["4"; "9"; "2"]; ["5"; "6"]]%string /\
  (forall w, In w (o_ways o) -> ~ In "9"%string (w_nd w)).
Proof.
  cbn zeta. split; [vm_compute; reflexivity|]. cbn [o_ways]. intros w Hw.
  repeat (destruct Hw as [<-|Hw]; [cbn; intuition discriminate|]). destruct Hw.
Qed.

(* ---- C99 ---- *)
Definition stop (n : node) : Prop := stop_tags (n_tags n).
(* no two stops in a row, and a stop at the end only if it is the only one *)
Definition isolated (nodes : list node) : Prop :=
  (forall pre x y post, nodes = pre ++ x :: y :: post -> ~ (stop x /\ stop y)) /\
  (forall t x, nodes = t ++ [x] -> stop x -> Forall (fun y => ~ stop y) t).

Lemma stop_false n : ~ stop n <-> is_stop_node n = false.
Proof. unfold stop. rewrite <- is_stop_node_iff. destruct (is_stop_node n); split; congruence. Qed.
Theorem C99_removed_partial : forall nodes p, isolated nodes -> (forall n, p n = true <-> ~ stop n) ->
  remove_stops nodes = Ok (filter p nodes).
Proof.
  intros nodes p [Hi Hl] Hp.
  assert (Ep : forall n, p n = negb (is_stop_node n)).
  { intros n. specialize (Hp n). rewrite stop_false in Hp. destruct (p n), (is_stop_node n); try reflexivity; destruct Hp as [H1 H2];
      [specialize (H1 eq_refl)|specialize (H2 eq_refl)]; discriminate. }
  rewrite (filter_ext _ _ Ep). destruct nodes as [|x0 nodes0] using rev_ind; [reflexivity|]. clear IHnodes0.
  destruct (is_stop_node x0) eqn:E.
  - assert (Hf : Forall (fun y => ~ stop y) nodes0) by (eapply Hl; [reflexivity|now apply is_stop_node_iff]).
    rewrite (remove_stops_single nodes0 x0 E).
    + f_equal. rewrite filter_app. cbn [filter]. rewrite E. cbn [negb]. rewrite app_nil_r. symmetry.
      clear -Hf. induction Hf as [|y l Hy Hf IH]; [reflexivity|]. cbn [filter]. apply stop_false in Hy. rewrite Hy. cbn [negb]. now rewrite IH.
    + destruct (existsb is_stop_node nodes0) eqn:Ex; [|reflexivity]. apply existsb_exists in Ex. destruct Ex as (y & Hy & Ey).
      rewrite Forall_forall in Hf. exfalso. apply (Hf y Hy). now apply is_stop_node_iff.
  - rewrite (remove_stops_ok nodes0 x0 E), survivors_isolated; [reflexivity|].
    intros pre x y post Heq Hx. apply stop_false. intros Hy. eapply Hi; [exact Heq|]. split; [now apply is_stop_node_iff|exact Hy].
Qed.
Print Assumptions C99_removed_partial.

(* the exact condition of the crash *)
Theorem C99_panics : forall nodes, remove_stops nodes = Throw <->
  exists t x, nodes = t ++ [x] /\ stop x /\ Exists stop t.
Proof.
  intros nodes. split.
  - intros H. destruct nodes as [|x t] using rev_ind; [discriminate|]. clear IHt. exists t, x. split; [reflexivity|].
    destruct (is_stop_node x) eqn:E.
    + split; [now apply is_stop_node_iff|]. destruct (existsb is_stop_node t) eqn:Ex.
      * apply existsb_exists in Ex. destruct Ex as (y & Hy & Ey). apply Exists_exists. exists y. split; [exact Hy|now apply is_stop_node_iff].
      * rewrite (remove_stops_single t x E Ex) in H. discriminate.
    + rewrite (remove_stops_ok t x E) in H. discriminate.
  - intros (t & x & -> & Hx & Ht). apply remove_stops_panic; [now apply is_stop_node_iff|].
    apply existsb_exists. apply Exists_exists in Ht. destruct Ht as (y & Hy & Ey). exists y. split; [exact Hy|now apply is_stop_node_iff].
Qed.
Print Assumptions C99_panics.

Definition station (id : string) : node := mknode [("railway", "station"); ("name", "A")]%string id "" "".
Definition plain (id : string) : node := mknode [] id "" "".
Theorem C99_removed_refuted : ~ (forall nodes out, remove_stops nodes = Ok out -> Forall (fun n => ~ stop n) out) /\
  ~ (forall nodes, exists out, remove_stops nodes = Ok out).
Proof.
  split; intros H.
  - specialize (H [station "1"; station "2"; plain "3"] _ eq_refl). inversion H as [|? ? Hx _]; subst.
    apply Hx. left. constructor.
  - destruct (H [station "1"; plain "2"; station "3"]) as [out Ho]. vm_compute in Ho. discriminate.
Qed.
Print Assumptions C99_removed_refuted.

(* the output: the nodes that are no stops, completed by the stations *)
Theorem C99_output_partial : forall o stations p, isolated (o_nodes o) -> (forall n, p n = true <-> ~ stop n) ->
  numeric o -> Forall (fun x => exists z, number (n_id x) z) stations ->
  exists o', finish o stations = Ok o' /\ cleaned n_id (filter p (o_nodes o) ++ stations) (o_nodes o') /\
    cleaned w_id (o_ways o) (o_ways o') /\ cleaned r_id (o_rels o) (o_rels o').
Proof.
  intros o stations p Hi Hp (H1 & H2 & H3) Hs. unfold finish. rewrite (C99_removed_partial _ p Hi Hp). cbn [bind].
  apply (C97_cleaned (mkosm (filter p (o_nodes o) ++ stations) (o_ways o) (o_rels o))).
  split; [|split; assumption]. cbn [o_nodes]. apply Forall_app. split; [|exact Hs].
  rewrite Forall_forall in *. intros x Hx. apply filter_In in Hx. apply H1, Hx.
Qed.
Print Assumptions C99_output_partial.

(* of two stations in a row the second appears without its mark *)
Theorem C99_marked_refuted : ~ (forall o o', finish o (snd (generate_stations (o_nodes o))) = Ok o' ->
  forall n, In n (o_nodes o') -> stop n -> In ("type"%string, "station"%string) (n_tags n)).
Proof.
  intros H. specialize (H (mkosm [station "1"; station "2"; plain "3"] [] []) _ eq_refl (station "2")).
  assert (Hin : In ("type"%string, "station"%string) (n_tags (station "2"))).
  { apply H; [vm_compute; tauto|left; constructor]. }
  vm_compute in Hin. intuition discriminate.
Qed.
Print Assumptions C99_marked_refuted.

Example C99_example :
  isolated [plain "1"; station "2"; plain "3"] /\ stop (station "2") /\
  finish (mkosm [plain "1"; station "2"; plain "3"] [] []) (snd (generate_stations [station "2"]))
  = Ok (mkosm [plain "1"; mknode [("railway", "station"); ("name", "A"); ("type", "station")]%string "2" "" ""; plain "3"] [] []).
Proof.
  split; [|split; [left; constructor|vm_compute; reflexivity]].
  assert (Hp : forall id, ~ stop (plain id)) by (intros id [H|H]; inversion H).
  split.
  - intros [|a [|b pre]] x y post H [Hx Hy]; cbn [app] in H; injection H as; subst.
    + now apply (Hp "1"%string).
    + now apply (Hp "3"%string).
    + destruct pre as [|? [|? pre]]; discriminate.
  - intros t x H Hx. exfalso. assert (x = plain "3") by (apply (f_equal (@rev node)) in H; rewrite rev_app_distr in H; now injection H).
    subst x. now apply (Hp "3"%string).
Qed.

(* ---- C100 ---- *)
(* n is entered as k with its name and position *)
Definition named_stop (n : node) (k : string) (p : place) : Prop :=
  stop n /\ k = n_id n /\ first_tag "name" (p_name p) (n_tags n) /\ p_lat p = n_lat n /\ p_lon p = n_lon n.
Theorem C100_stations : forall nodes k p, In (k, p) (fst (generate_stations nodes)) <->
  exists pre n post, nodes = pre ++ n :: post /\ named_stop n k p /\ Forall (fun n' => forall q, ~ named_stop n' k q) post.
Proof.
  intros nodes k p. unfold generate_stations. rewrite stations_of_map, fold_entries. split.
  - intros [(pre & n & post & H1 & H2 & H3)|[_ []]]. exists pre, n, post. split; [exact H1|]. split; [now apply entry_iff|].
    eapply Forall_impl; [|exact H3]. cbn. intros n' Hn' q Hq. apply (Hn' q). now apply entry_iff.
  - intros (pre & n & post & H1 & H2 & H3). left. exists pre, n, post. split; [exact H1|]. split; [now apply entry_iff|].
    eapply Forall_impl; [|exact H3]. cbn. intros n' Hn' q Hq. apply (Hn' q). now apply entry_iff in Hq.
Qed.
Print Assumptions C100_stations.
Theorem C100_once : forall nodes, NoDup (map fst (fst (generate_stations nodes))).
Proof. intros nodes. unfold generate_stations. rewrite stations_of_map. apply fold_nodup. constructor. Qed.
Print Assumptions C100_once.

(* the nodes given out: those with a railway tag and a name, in their order, and
   stations and halts marked *)
Inductive curated : list node -> list node -> Prop :=
| cur_nil : curated [] []
| cur_skip n l out : (forall v, ~ first_tag "railway" v (n_tags n)) \/ (forall v, ~ first_tag "name" v (n_tags n)) ->
    curated l out -> curated (n :: l) out
| cur_stop n r v l out : first_tag "railway" r (n_tags n) -> first_tag "name" v (n_tags n) -> stop n ->
    curated l out -> curated (n :: l) (mknode (n_tags n ++ [("type", "station")]%string) (n_id n) (n_lat n) (n_lon n) :: out)
| cur_other n r v l out : first_tag "railway" r (n_tags n) -> first_tag "name" v (n_tags n) -> ~ stop n ->
    curated l out -> curated (n :: l) (n :: out).
Theorem C100_nodes : forall nodes, curated nodes (snd (generate_stations nodes)).
Proof.
  intros nodes. unfold generate_stations. rewrite stations_of_nodes. cbn [app].
  induction nodes as [|n nodes IH]; cbn [flat_map]; [constructor|].
  unfold curated_node. destruct (find_tag_on_node n "railway") as [r|] eqn:E1.
  - destruct (find_tag_on_node n "name") as [v|] eqn:E2.
    + apply first_tag_find in E2. pose proof (proj2 (first_tag_find _ _ _) E1) as E1'.
      assert (Hst : is_stop r = true <-> stop n).
      { unfold stop. rewrite <- is_stop_node_iff. unfold is_stop_node. now rewrite E1. }
      cbn [app]. destruct (is_stop r).
      * eapply cur_stop; [exact E1'|exact E2|now apply Hst|exact IH].
      * eapply cur_other; [exact E1'|exact E2| |exact IH]. intros H. apply Hst in H. discriminate.
    + cbn [app]. apply cur_skip; [|exact IH]. right. intros v H. apply first_tag_find in H. unfold find_tag_on_node in E2. congruence.
  - cbn [app]. apply cur_skip; [|exact IH]. left. intros v H. apply first_tag_find in H. unfold find_tag_on_node in E1. congruence.
Qed.
Print Assumptions C100_nodes.

(* the lines: the four-character numbers among the ref tags *)
Theorem C100_lines : forall o r, In r (get_ref_ids o) ->
  exists rel, In rel (o_rels o) /\ In ("ref"%string, r) (r_tags rel) /\ String.length r = 4 /\ exists z, number r z.
Proof.
  intros o r H. apply in_flat_map in H. destruct H as (rel & Hr & H). exists rel. split; [exact Hr|]. apply refs_in, H.
Qed.
Print Assumptions C100_lines.
Theorem C100_all_lines_partial : forall o rel r, In rel (o_rels o) ->
  (forall v, In ("ref"%string, v) (r_tags rel) -> String.length v = 4 -> exists z, number v z) ->
  In ("ref"%string, r) (r_tags rel) -> String.length r = 4 -> In r (get_ref_ids o).
Proof.
  intros o rel r Hr Hn Hin Hl. apply in_flat_map. exists rel. split; [exact Hr|]. now apply refs_complete.
Qed.
Print Assumptions C100_all_lines_partial.
(* "-123" passes as the number of a line; behind a ref of four letters the rest
   of a relation is not read *)
Theorem C100_lines_refuted :
  ~ (forall o r, In r (get_ref_ids o) -> Forall is_digit (list_ascii_of_string r)) /\
  ~ (forall o rel r, In rel (o_rels o) -> In ("ref"%string, r) (r_tags rel) -> String.length r = 4 ->
       (exists z, number r z) -> In r (get_ref_ids o)).
Proof.
  split; intros H.
  - specialize (H (mkosm [] [] [mkrel [] [("ref", "-123")]%string "1"]) "-123"%string (or_introl eq_refl)).
    inversion H as [|? ? Hc _]; subst. vm_compute in Hc. destruct Hc as [Hc _]. now apply Hc.
  - specialize (H (mkosm [] [] [mkrel [] [("ref", "S100"); ("ref", "3600")]%string "1"]) _ "3600"%string (or_introl eq_refl)
      (or_intror (or_introl eq_refl)) eq_refl).
    destruct H. eexists. apply atoi_err_number. vm_compute. reflexivity.
Qed.
Print Assumptions C100_lines_refuted.

(* combining the files of the lines loses nothing and adds one tag to each way *)
Theorem C100_combined : forall files,
  let o := combine_lines files in
  o_nodes o = concat (map (fun f => o_nodes (fst f)) files) /\ o_rels o = concat (map (fun f => o_rels (fst f)) files) /\
  Forall2 (fun cw w' => w_id w' = w_id (snd cw) /\ w_nd w' = w_nd (snd cw) /\
      w_tags w' = w_tags (snd cw) ++ [("color"%string, fst cw)])
    (concat (map (fun f => map (fun w => (snd f, w)) (o_ways (fst f))) files)) (o_ways o).
Proof.
  cbn zeta. induction files as [|[o color] files (IH1 & IH2 & IH3)]; cbn [combine_lines map concat fst snd o_nodes o_ways o_rels].
  - repeat constructor.
  - rewrite IH1, IH2. split; [reflexivity|]. split; [reflexivity|]. apply Forall2_app; [|exact IH3].
    induction (o_ways o) as [|w ws IHw]; cbn [map]; constructor; [repeat split|exact IHw].
Qed.
Print Assumptions C100_combined.

Example C100_example :
  generate_stations [station "7"; plain "8"; mknode [("railway", "facility"); ("name", "B")]%string "9" "" ""]
  = ([("7"%string, mkplace "A" "" "")],
     [mknode [("railway", "station"); ("name", "A"); ("type", "station")]%string "7" "" "";
      mknode [("railway", "facility"); ("name", "B")]%string "9" "" ""]) /\
  get_ref_ids (mkosm [] [] [mkrel [] [("ref", "3600"); ("route", "tracks")]%string "1"; mkrel [] [("ref", "12")]%string "2"]) = ["3600"%string].
Proof. split; vm_compute; reflexivity. Qed.

(* ---- C101 ---- *)
(* what is kept of the additional data, and what is taken from the mapped data *)
Theorem C101_partial : forall modified additional mx order o',
  (forall w r, In w (o_ways modified) -> In r (w_nd w) -> exists z, number r z) ->
  Permutation order (refs_to_copy modified additional mx) -> insert_osm modified additional order = Some o' ->
  o_rels o' = o_rels additional /\
  map w_id (o_ways o') = map w_id (o_ways additional) /\ map w_nd (o_ways o') = map w_nd (o_ways additional) /\
  exists added, o_nodes o' = o_nodes additional ++ added /\ NoDup (map n_id added) /\ incl added (o_nodes modified) /\
    forall r, In r (map n_id added) <->
      exists mw ow, In mw (o_ways modified) /\ In ow (o_ways additional) /\ w_id mw = w_id ow /\ In r (w_nd mw) /\
        exists z, number r z /\ (z <= mx)%Z.
Proof.
  intros modified additional mx order o' Hnum Ho H.
  assert (Hnd : NoDup order) by (eapply Permutation_NoDup; [symmetry; exact Ho|apply NoDup_nodup]).
  unfold insert_osm in H.
  destruct (fold_right _ _ order) as [l|] eqn:E; [|discriminate]. injection H as <-. cbn [o_nodes o_ways o_rels].
  apply insert_found in E. split; [reflexivity|]. rewrite !map_map. split; [reflexivity|]. split; [reflexivity|].
  exists l. split; [reflexivity|].
  assert (Hm : map n_id l = order).
  { clear -E. induction E as [|r n rs ns Hr E IH]; [reflexivity|]. cbn [map]. rewrite IH. f_equal. eapply get_node_in, Hr. }
  rewrite Hm. split; [exact Hnd|]. split.
  - intros n Hn. clear -E Hn. induction E as [|r n' rs ns Hr E IH]; [destruct Hn|]. destruct Hn as [<-|Hn]; [eapply get_node_in, Hr|auto].
  - intros r. split.
    + intros Hr. apply (Permutation_in _ Ho), refs_to_copy_in in Hr. destruct Hr as (mw & ow & H1 & H2 & H3 & H4 & H5).
      exists mw, ow. repeat split; try assumption. destruct (Hnum mw r H1 H4) as [z Hz]. exists z. split; [exact Hz|].
      now rewrite (number_atoi _ _ Hz) in H5.
    + intros (mw & ow & H1 & H2 & H3 & H4 & z & Hz & H5). apply (Permutation_in _ (Permutation_sym Ho)), refs_to_copy_in.
      exists mw, ow. repeat split; try assumption. now rewrite (number_atoi _ _ Hz).
Qed.
Print Assumptions C101_partial.

(* a way has the tags of the last mapped way with its id, and its own if there is none *)
Theorem C101_tags : forall modified additional order o', insert_osm modified additional order = Some o' ->
  Forall2 (fun ow w => 
    (forall pre mw post, o_ways modified = pre ++ mw :: post -> w_id mw = w_id ow -> Forall (fun x => w_id x <> w_id ow) post -> w_tags w = w_tags mw) /\
    ((forall mw, In mw (o_ways modified) -> w_id mw <> w_id ow) -> w_tags w = w_tags ow)) (o_ways additional) (o_ways o').
Proof.
  intros modified additional order o' H. unfold insert_osm in H. destruct (fold_right _ _ order) as [l|]; [|discriminate]. injection H as <-. cbn [o_ways].
  induction (o_ways additional) as [|ow ws IH]; cbn [map]; constructor; [|exact IH]. cbn [retag w_tags].
  assert (G : forall post t, Forall (fun x => w_id x <> w_id ow) post ->
    fold_left (fun t mw => if String.eqb (w_id mw) (w_id ow) then w_tags mw else t) post t = t).
  { induction post as [|x post IHp]; intros t HF; [reflexivity|]. inversion HF; subst. cbn [fold_left]. rewrite (proj2 (String.eqb_neq _ _) H1). apply IHp, H2. }
  split.
  - intros pre mw post E Ei HF. rewrite E, fold_left_app. cbn [fold_left]. rewrite Ei, String.eqb_refl. apply G, HF.
  - intros Hno. apply G, Forall_forall, Hno.
Qed.
Print Assumptions C101_tags.

(* it fails only on a way with a node that is missing *)
Theorem C101_total : forall modified additional order,
  (forall r, In r order -> exists n, In n (o_nodes modified) /\ n_id n = r) ->
  exists o', insert_osm modified additional order = Some o'.
Proof.
  intros modified additional order H. unfold insert_osm.
  assert (E : exists l, fold_right (fun r acc => match get_node_by_id modified r, acc with
     | Some n, Some l => Some (n :: l) | _, _ => None end) (Some []) order = Some l).
  { induction order as [|r order IH]; cbn [fold_right]; [eauto|].
    destruct IH as [l Hl]; [intros r' Hr'; apply H; now right|].
    destruct (H r (or_introl eq_refl)) as (n & Hn & En). destruct (get_node_some _ _ _ Hn En) as [n' Hn'].
    unfold get_node_by_id. rewrite Hn'. unfold get_node_by_id in Hl. rewrite Hl. eauto. }
  destruct E as [l Hl]. rewrite Hl. eauto.
Qed.
Print Assumptions C101_total.

(* the file name passes only if it is ".xml" and four more characters *)
Theorem C101_name : forall name, xml_name_ok name = Ok true <-> exists rest, name = String.append ".xml" rest /\ String.length rest = 4.
Proof. exact xml_name_ok_iff. Qed.
Print Assumptions C101_name.
Theorem C101_name_refuted : ~ (forall stem, xml_name_ok (String.append stem ".xml") = Ok true).
Proof. intros H. specialize (H "map"%string). vm_compute in H. discriminate. Qed.
Print Assumptions C101_name_refuted.
(* new nodes are copied but the ways do not pass them *)
Theorem C101_refuted : ~ (forall modified additional order o' mw,
  Permutation order (refs_to_copy modified additional (2 ^ 40)%Z) ->
  insert_osm modified additional order = Some o' ->
  In mw (o_ways modified) -> In (w_id mw) (map w_id (o_ways additional)) ->
  exists w', In w' (o_ways o') /\ w_id w' = w_id mw /\ incl (w_nd mw) (w_nd w')).
Proof.
  intros H. specialize (H (mkosm [plain "1"; plain "2"; plain "100000000000"] [mkway [] "5" ["1"; "100000000000"; "2"]%string] [])
    (mkosm [plain "1"; plain "2"] [mkway [] "5" ["1"; "2"]%string] []) ["1"; "100000000000"; "2"]%string
    (mkosm [plain "1"; plain "2"; plain "1"; plain "100000000000"; plain "2"] [mkway [] "5" ["1"; "2"]%string] [])
    (mkway [] "5" ["1"; "100000000000"; "2"]%string)).
  specialize (H (Permutation_refl _) eq_refl (or_introl eq_refl) (or_introl eq_refl)).
  destruct H as (w' & Hw & _ & Hi). destruct Hw as [<-|[]].
  specialize (Hi "100000000000"%string (or_intror (or_introl eq_refl))). vm_compute in Hi. intuition discriminate.
Qed.
Print Assumptions C101_refuted.
Example C101_example :
  let m := mkosm [plain "1"; plain "2"; plain "3"] [mkway [("color", "#ff0000")]%string "5" ["1"; "3"; "2"]%string] [] in
  let a := mkosm [plain "8"] [mkway [] "5" ["1"; "2"]%string; mkway [] "6" ["8"]%string] [] in
  refs_to_copy m a 3 = ["1"; "3"; "2"]%string /\
  insert_osm m a ["3"; "1"; "2"]%string =
  Some (mkosm [plain "8"; plain "3"; plain "1"; plain "2"] [mkway [("color", "#ff0000")]%string "5" ["1"; "2"]%string; mkway [] "6" ["8"]%string] []).
Proof. cbn zeta. split; vm_compute; reflexivity. Qed.
