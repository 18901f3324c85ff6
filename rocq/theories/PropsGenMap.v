(* The map generator: mapping the infrastructure data on OSM data.  C105-C109. *)
From Coq Require Import String List ZArith NArith QArith Bool Permutation Lia.
From Verif Require Import Base GenOsmModel GenOsmSpec GenFindModel GenFindSpec GenOsmProofs GenFindProofs GenMapModel GenMapSpec
  GenMapProofs GenMapProofs2 GenMapProofs3 GenMapProofs4 GenMapProofs5 GenMapProofs6 PropsGenFind.
Import ListNotations.
Local Open Scope list_scope.
Local Open Scope nat_scope.

(* ---- C105 ---- *)
Theorem C105_lines : forall K refs (l : list (station K)), exists out, parse refs l = Ok out /\ NoDup (map fst out) /\
  forall r sts, In (r, sts) out <-> In r refs /\ cut_to r l sts /\ sts <> [].
Proof. intros K refs l. apply parse_spec. Qed.
Print Assumptions C105_lines.

(* two stations on two lines, one of them with a section of a line nobody asked for *)
Definition two_stations : list (station nat) :=
  [mkst "A" [mksec "1" 10; mksec "2" 20; mksec "1" 11]; mkst "B" [mksec "2" 21; mksec "3" 30]]%string.
Example C105_example : parse ["1"; "2"; "4"]%string two_stations =
  Ok [("1", [mkst "A" [mksec "1" 10; mksec "1" 11]]); ("2", [mkst "A" [mksec "2" 20]; mkst "B" [mksec "2" 21]])]%string.
Proof. reflexivity. Qed.
Example C105_cut : cut_to "1"%string two_stations [mkst "A" [mksec "1" 10; mksec "1" 11]]%string.
Proof.
  apply cut_take; [|discriminate|].
  - repeat (first [apply of_line_take; [reflexivity|]|apply of_line_skip; [discriminate|]|apply of_line_nil]).
  - apply cut_skip; [|apply cut_nil]. repeat (apply of_line_skip; [discriminate|]). apply of_line_nil.
Qed.

(* ---- C106 ---- *)
(* what Go ranges over: the nodes of the line with the two maps of simple elements *)
Definition ranged (x : knoten * list (kind * list elem) * list (kind * list elem)) : Prop :=
  Permutation (snd (fst x)) (simple_elements (fst (fst x))) /\ Permutation (snd x) (named_elements (fst (fst x))).
(* ids of places that are not taken *)
Definition no_new_id (c : N) (l : list (string * GenOsmModel.place)) : Prop := forall id p k, In (id, p) l -> (c < k)%N -> id <> decimal k.

Theorem C106_elements : forall hav fuel st orders ks halts other r,
  2 <= List.length (a_anchors (f_state st)) -> Forall ranged ks -> List.length orders = List.length (line_requests st ks) ->
  second_pass hav fuel st orders ks halts other = Ok (Some r) ->
  exists out, Permutation (map fst out) (left_over (f_falling st) (f_rising st) (f_switches st) ++ flat_map (fun x => jobs (fst (fst x))) ks) /\
    tried hav fuel (a_osm (f_state st)) (a_id (f_state st)) (combine orders (map fst out)) out (m_osm r) /\
    m_missing r = not_placed out /\ m_id r = (a_id (f_state st) + N.of_nat (List.length (placed out)))%N /\
    (unused (a_osm (f_state st)) (a_id (f_state st)) -> 
     (forall order a n, In order orders -> In a order -> In n (snd a) -> In n (o_nodes (a_osm (f_state st)))) ->
     (no_new_id (a_id (f_state st)) halts -> entered [Halt] out halts (m_halts r)) /\
     (no_new_id (a_id (f_state st)) (a_signals (f_state st)) -> entered [MainSignal] out (a_signals (f_state st)) (m_main r)) /\
     (no_new_id (a_id (f_state st)) other -> entered [ProtectionSignal; ApproachSignal] out other (m_other r))).
Proof.
  intros hav fuel st orders ks halts other r Ha Hk Hlen H. unfold second_pass in H.
  set (st0 := mkms _ _ _ _ _ _) in H.
  assert (Hm : exists r', map_all hav fuel (combine orders (line_requests st ks)) st0 = Ok r' /\ r' = r).
  { destruct (a_anchors (f_state st)) as [|x [|y l]]; [cbn in Ha; lia|cbn in Ha; lia|]. apply bind_Ok in H. destruct H as (r' & H1 & H2). inversion H2. eauto. }
  clear H. destruct Hm as (r' & H & ->).
  assert (Hj : exists js, Forall2 makes (line_requests st ks) js /\
     Permutation js (left_over (f_falling st) (f_rising st) (f_switches st) ++ flat_map (fun x => jobs (fst (fst x))) ks)).
  { assert (G : exists js, Forall2 makes (flat_map (fun x => knoten_requests (fst (fst x)) (snd (fst x)) (snd x)) ks) js /\
      Permutation js (flat_map (fun x => jobs (fst (fst x))) ks)).
    { clear -Hk. induction ks as [|x ks IH]; [exists []; split; constructor|]. inversion Hk as [|? ? [P1 P2] Hk']; subst.
      destruct (IH Hk') as (js & F & P). destruct (knoten_requests_makes (fst (fst x)) (snd (fst x)) (snd x)) as (js1 & F1 & Q1).
      exists (js1 ++ js). cbn [flat_map]. split; [apply Forall2_app; assumption|apply Permutation_app; [apply Q1; assumption|exact P]]. }
    destruct G as (js & F & P). eexists. unfold line_requests. split; [apply Forall2_app; [apply unanchored_makes|exact F]|]. apply Permutation_app_head, P. }
  destruct Hj as (js & HF & HP). pose proof H as H'. apply map_all_tried with (js := js) in H; [|rewrite map_snd_combine by exact Hlen; exact HF].
  destruct H as (out & T & E & M & I & L1 & L2 & L3). rewrite map_fst_combine in T by exact Hlen. exists out. rewrite E.
  split; [exact HP|]. split; [exact T|]. split; [exact M|]. split; [exact I|]. intros Hu Hn.
  destruct (tried_result _ _ _ _ _ _ _ T Hu) as (_ & _ & Ids & _).
  { intros order j a m Hin. apply Hn. apply in_combine_l in Hin. exact Hin. }
  assert (ND : NoDup (map n_id (placed out))) by (rewrite Ids; apply decimals_nodup).
  assert (Hnew : forall l, no_new_id (a_id (f_state st)) l -> forall id p, In (id, p) l -> ~ In id (map n_id (placed out))).
  { intros l Hl id p Hp Hi. rewrite Ids in Hi. apply in_map_iff in Hi. destruct Hi as (k & <- & Hk'). apply in_seq in Hk'.
    eapply (Hl _ p (a_id (f_state st) + N.of_nat k)%N); [exact Hp|lia|reflexivity]. }
  split; [|split]; intros Hl; [rewrite L1|rewrite L2|rewrite L3]; (apply put_out_entered; [|exact ND|apply Hnew, Hl]); intros []; cbn; (split; [try discriminate; auto|]); intros; intuition discriminate.
Qed.
Print Assumptions C106_elements.

Theorem C106_network : forall hav fuel o c l out o', tried hav fuel o c l out o' -> unused o c ->
  (forall order j a m, In (order, j) l -> In a order -> In m (snd a) -> In m (o_nodes o)) ->
  o_nodes o' = o_nodes o ++ placed out /\ o_rels o' = o_rels o /\
  map n_id (placed out) = map (fun i => decimal (c + N.of_nat i)) (seq 1 (List.length (placed out))) /\ NoDup (map n_id (placed out)) /\
  (forall n m, In n (placed out) -> In m (o_nodes o) -> n_id n <> n_id m) /\
  Forall2 (fun w w' => w_tags w' = w_tags w /\ w_id w' = w_id w /\ grown (map n_id (placed out)) (w_nd w) (w_nd w') /\
    (2 <= List.length (w_nd w) -> same_ends (w_nd w) (w_nd w'))) (o_ways o) (o_ways o') /\
  (forall j n, In (j, Some n) out -> n_tags n = j_tags j /\
     exists ref, In ref (o_nodes o) /\ n_lat n = n_lat ref /\ n_lon n = n_lon ref /\ same_ways o' (n_id n) (n_id ref)).
Proof.
  intros hav fuel o c l out o' T Hu Ha. destruct (tried_result _ _ _ _ _ _ _ T Hu Ha) as (R1 & R2 & R3 & R4 & R5 & R6).
  split; [exact R1|]. split; [exact R2|]. split; [exact R3|]. split; [rewrite R3; apply decimals_nodup|]. split.
  { intros n m Hn Hm E. apply (in_map n_id) in Hn. rewrite R3 in Hn. apply in_map_iff in Hn. destruct Hn as (k & E' & Hk). apply in_seq in Hk.
    apply (proj1 (Hu (c + N.of_nat k)%N ltac:(lia)) m Hm). congruence. }
  split.
  { clear -R4. induction R4 as [|w w' ws ws' (A & B & C & _ & D) R4 IH]; constructor; auto. }
  intros j n Hin. split; [apply (R5 j n Hin)|]. apply R6. unfold placed. apply in_flat_map. exists (j, Some n). split; [exact Hin|left; reflexivity].
Qed.
Print Assumptions C106_network.

(* a line of five nodes, anchored at both ends; a halt and a speed limit are placed,
   and a tunnel *)
Definition el (km : Q) (text name : string) : elem := mkelem km text name.
Arguments el km%Q text%string name%string.
Definition no_elements : knoten := mkkn [] [] [] [] [] [] [] [] [] [] [] [] [] [] [] [] [] [] [] [] [] [] [] [] [] [] [] [].
Definition a_knoten : knoten := mkkn [] [] [] [] [] [] [el 20 "20,0" "H"] [] [] [] [(el 12 "12,0" "", "80"%string)] [] [] [] [] [] []
  [] [] [] [] [el 31 "31,0" "T"] [] [] [] [] [] [].
Definition anchored_state (o : osm) (m : places_map) : fstate := mkfs (mkas o m [] [] 2 100 []) [] [] [].
Definition two_ends : places_map := [(0%Q, [0]); (40%Q, [4])].
Definition full (k : knoten) := (k, simple_elements k, named_elements k).
Example C106_example : exists r,
  second_pass apart 9 (anchored_state line two_ends) (repeat (line_anchors line two_ends) 3) [full a_knoten] [] [] = Ok (Some r) /\
  m_missing r = [] /\ m_id r = 103%N /\ m_halts r = [("102", mkplace "H" (n_lat (nd "3")) (n_lon (nd "3")))]%string /\
  map w_nd (o_ways (m_osm r)) = [["1"; "2"; "103"; "3"; "102"; "4"; "101"; "5"]]%string.
Proof. eexists. split; [vm_compute; reflexivity|]. vm_compute. repeat split. Qed.
Example C106_example_hypotheses : ranged (full a_knoten) /\ unused line 100 /\
  (forall a n, In a (line_anchors line two_ends) -> In n (snd a) -> In n (o_nodes line)).
Proof.
  split; [split; apply Permutation_refl|]. split.
  - intros k Hk. split.
    + intros n Hn E. assert (Hd : exists m, (m < 100)%N /\ n_id n = decimal m).
      { cbn in Hn. destruct Hn as [<-|[<-|[<-|[<-|[<-|[]]]]]]; [exists 1%N|exists 2%N|exists 3%N|exists 4%N|exists 5%N]; (split; [lia|reflexivity]). }
      destruct Hd as (m & Hm & Em). rewrite Em in E. apply decimal_inj in E. lia.
    + intros w [<-|[]] Hi. assert (Hd : exists m, (m < 100)%N /\ decimal k = decimal m).
      { cbn in Hi. destruct Hi as [E|[E|[E|[E|[E|[]]]]]]; rewrite <- E; [exists 1%N|exists 2%N|exists 3%N|exists 4%N|exists 5%N]; (split; [lia|reflexivity]). }
      destruct Hd as (m & Hm & Em). apply decimal_inj in Em. lia.
  - intros a n [<-|[<-|[]]] [<-|[]]; cbn; tauto.
Qed.

(* with one anchor nothing is placed and nothing reported, without one nothing is
   written *)
Theorem C106_few_anchors_refuted : forall hav fuel st orders ks halts other,
  (a_anchors (f_state st) = [] -> second_pass hav fuel st orders ks halts other = Ok None) /\
  (List.length (a_anchors (f_state st)) = 1 -> exists r, second_pass hav fuel st orders ks halts other = Ok (Some r) /\
     m_osm r = a_osm (f_state st) /\ m_missing r = []).
Proof.
  intros hav fuel st orders ks halts other. unfold second_pass. split; intros H.
  - rewrite H. reflexivity.
  - destruct (a_anchors (f_state st)) as [|x [|]]; try discriminate. eexists. split; [reflexivity|]. auto.
Qed.
Print Assumptions C106_few_anchors_refuted.
Example C106_few_anchors_example : jobs a_knoten <> [] /\ exists st, List.length (a_anchors (f_state st)) = 1 /\ a_osm (f_state st) = line.
Proof. split; [discriminate|]. exists (anchored_state line [(0%Q, [0])]). auto. Qed.

(* ---- C107 ---- *)
Theorem C107_fit_partial : forall hav fuel o c l out o', tried hav fuel o c l out o' -> unused o c ->
  (forall order j a m, In (order, j) l -> In a order -> In m (snd a) -> In m (o_nodes o)) ->
  (forall n, In n (placed out) -> on_one_way o' (n_id n)) -> clean_network o -> clean_network o'.
Proof. intros hav fuel o c l out o' T Hu Ha H1 HC. exact (tried_clean _ _ _ _ _ _ _ T Hu Ha H1 HC). Qed.
Print Assumptions C107_fit_partial.

(* in particular if no two ways share a node *)
Theorem C107_disjoint_partial : forall hav fuel o c l out o', tried hav fuel o c l out o' -> unused o c ->
  (forall order j a m, In (order, j) l -> In a order -> In m (snd a) -> In m (o_nodes o)) ->
  (forall n, In n (o_nodes o) -> on_one_way o (n_id n)) -> clean_network o ->
  clean_network o' /\ forall n, In n (o_nodes o') -> on_one_way o' (n_id n).
Proof.
  intros hav fuel o c l out o' T Hu Ha H1 HC. destruct (C106_network _ _ _ _ _ _ _ T Hu Ha) as (R1 & _ & R3 & _ & _ & R6 & R7).
  assert (Hnew : forall id, In id (map n_id (placed out)) -> exists k, (c < k)%N /\ id = decimal k).
  { intros id Hi. rewrite R3 in Hi. apply in_map_iff in Hi. destruct Hi as (k & <- & Hk). apply in_seq in Hk. exists (c + N.of_nat k)%N. split; [lia|reflexivity]. }
  assert (Hold : forall ref, In ref (o_nodes o) -> on_one_way o' (n_id ref)).
  { intros ref Hr i j wi wj Hi Hj Ii Ij.
    assert (Hn : ~ In (n_id ref) (map n_id (placed out))) by (intros Hc; destruct (Hnew _ Hc) as (k & Hk & E); exact (proj1 (Hu k Hk) ref Hr E)).
    destruct (Forall2_nth _ _ _ R6 i wi Hi) as (vi & Vi & _ & _ & Gi & _). destruct (Forall2_nth _ _ _ R6 j wj Hj) as (vj & Vj & _ & _ & Gj & _).
    apply (H1 ref Hr i j vi vj Vi Vj); [apply (grown_in _ _ _ _ Gi Hn), Ii|apply (grown_in _ _ _ _ Gj Hn), Ij]. }
  assert (Hpl : forall n, In n (placed out) -> on_one_way o' (n_id n)).
  { intros n Hn. unfold placed in Hn. apply in_flat_map in Hn. destruct Hn as ([j [m|]] & Hin & Hm); [|contradiction]. destruct Hm as [<-|[]].
    destruct (R7 j m Hin) as (_ & ref & Hr & _ & _ & Hs). intros a b wa wb Ha' Hb Ia Ib. apply (Hold ref Hr a b wa wb Ha' Hb).
    - apply Hs; [eapply nth_error_In, Ha'|exact Ia].
    - apply Hs; [eapply nth_error_In, Hb|exact Ib]. }
  split; [exact (C107_fit_partial _ _ _ _ _ _ _ T Hu Ha Hpl HC)|]. intros n Hn. rewrite R1 in Hn. apply in_app_or in Hn. destruct Hn as [Hn|Hn]; [apply Hold, Hn|apply Hpl, Hn].
Qed.
Print Assumptions C107_disjoint_partial.

(* a node at which one way ends and another one begins: the new node is put into
   both, and the piece of track between the two is there twice *)
Definition joined : osm := mkosm [nd "1"; nd "2"; nd "3"] [mkway [] "11" ["1"; "2"]; mkway [] "12" ["2"; "3"]]%string [].
Lemma joined_clean : clean_network joined.
Proof.
  split; [|split; [|split]].
  - intros w H. cbn [joined o_ways] in H. in_cases H; cbn [w_nd]; (split; [solve_nodup|cbn; lia]).
  - intros i j wi wj a b Hij Hi Hj. cbn [joined o_ways] in Hi, Hj. split_ways; try congruence; cbn [w_nd]; apply share_one; try solve_nodup;
      intros x y Hx Hy Hx' Hy'; cbn [In] in *; intuition congruence.
  - intros w id H Hid. cbn [joined o_ways] in H. exists (nd id). apply get_node_of. in_cases H; cbn [w_nd] in Hid; in_cases Hid; reflexivity.
  - intros i j wi wj id Hij Hi Hj H1 H2. cbn [joined o_ways] in Hi, Hj. split_ways; try congruence; cbn [w_nd] in *; in_cases H1; in_cases H2; try discriminate.
    all: first [exists ["1"]%string; right; reflexivity|exists ["3"]%string; left; reflexivity].
Qed.
Definition one_border : knoten := mkkn [] [] [] [] [] [] [] [] [] [] [] [] [] [] [] [] [] [] [] [el 12 "12,0" ""] [] [] [] [] [] [] [] [].
Definition joined_ends : places_map := [(0%Q, [0]); (20%Q, [2])].
Theorem C107_joint_refuted : clean_network joined /\ exists r,
  second_pass apart 9 (anchored_state joined joined_ends) [line_anchors joined joined_ends] [full one_border] [] [] = Ok (Some r) /\
  m_missing r = [] /\ map w_nd (o_ways (m_osm r)) = [["1"; "101"; "2"]; ["2"; "101"; "3"]]%string /\
  ~ separate_ways (m_osm r) /\ ~ meet_at_ends (m_osm r) /\ ~ usable (m_osm r) "101".
Proof.
  split; [exact joined_clean|]. eexists. split; [vm_compute; reflexivity|]. split; [reflexivity|]. split; [reflexivity|].
  split; [|split].
  - intros H. refine (H 0 1 _ _ "101"%string "2"%string _ eq_refl eq_refl _ _); [discriminate| |].
    + exists ["1"]%string, []. left. reflexivity.
    + exists [], ["3"]%string. right. reflexivity.
  - intros H. destruct (H 0 1 _ _ "101"%string ltac:(discriminate) eq_refl eq_refl) as (l & [E|E]).
    + cbn. tauto.
    + cbn. tauto.
    + discriminate.
    + apply (f_equal (@rev _)) in E. rewrite rev_app_distr in E. discriminate.
  - intros [(ps & Hnd & Hl & Hi)|(_ & i & j & wi & wj & l1 & l2 & Hij & Hi & Hj & E1 & E2)].
    + destruct ps as [|p [|]]; try discriminate. assert (H0 : In 0 [p]) by (apply Hi; eexists; split; [reflexivity|cbn; tauto]).
      assert (H1 : In 1 [p]) by (apply Hi; eexists; split; [reflexivity|cbn; tauto]). cbn in H0, H1. intuition lia.
    + destruct j as [|[|[|]]]; cbn in Hj; inversion Hj; subst; discriminate.
Qed.
Print Assumptions C107_joint_refuted.

(* ---- C108 ---- *)
Theorem C108_count : forall l o c sig st, Forall ordered l -> first_pass l (first_state o c sig) = Ok st ->
  a_count (f_state st) = Z.of_nat (anchor_total (a_anchors (f_state st))).
Proof. intros l o c sig st Ho H. apply (first_pass_counted _ _ _ Ho (proj2 (first_state_ok o c sig)) H). Qed.
Print Assumptions C108_count.

Definition named_signals (l : list (elem * bool)) : Prop := forall s f, In (s, f) l -> e_name s <> ""%string.
Definition dir_tag (falling : bool) : tag := if falling then falling_tag else rising_tag.

(* what is anchored is a main signal of the line, at its kilometrage and beside the
   only node of that name *)
Theorem C108_anchors_partial : forall l o c sig, Forall ordered l -> Forall (fun x => no_switches (knoten_of x)) l -> named_signals (signals_of l) ->
  exists st, first_pass l (first_state o c sig) = Ok st /\
    consistent (a_osm (f_state st)) (a_anchors (f_state st)) /\ (exists extra, o_nodes (a_osm (f_state st)) = o_nodes o ++ extra) /\
    forall km n, anchored (a_osm (f_state st)) (a_anchors (f_state st)) km n ->
      exists s f n0, In (s, f) (signals_of l) /\ (km == e_km s)%Q /\ n_tags n = element_tags "ms" [dir_tag f; name_tag s] /\
        identified o s n0 /\ n_lat n = n_lat n0 /\ n_lon n = n_lon n0.
Proof.
  intros l o c sig Ho Hk Hn. destruct (first_pass_signals o l (first_state o c sig) Ho Hk (proj1 (first_state_ok o c sig))) as (st & E & Hok & _).
  exists st. split; [exact E|]. destruct Hok as (Hp & _ & _ & _ & Hc). split; [exact Hc|]. split; [exact Hp|]. intros km n A.
  pose proof (first_pass_sound o l [] _ _ Ho Hk (proj1 (first_state_snd o c sig)) E) as (_ & _ & Hs). destruct (Hs km n A) as (s & f & H1 & H2 & H3 & n0 & H4 & H5).
  rewrite app_nil_r in H1. exists s, f, n0. split; [exact H1|]. split; [exact H2|]. split; [exact H3|]. split; [|exact H5]. apply ident_iff; [apply (Hn s f H1)|exact H4].
Qed.
Print Assumptions C108_anchors_partial.

(* no signal is lost *)
Theorem C108_accounted_partial : forall l o c sig, Forall ordered l -> Forall (fun x => no_switches (knoten_of x)) l ->
  exists st, first_pass l (first_state o c sig) = Ok st /\
    forall x s, In x l -> one_signal (knoten_of x) -> In s (k_main_f (knoten_of x) ++ k_main_s (knoten_of x)) ->
      (exists n, anchored (a_osm (f_state st)) (a_anchors (f_state st)) (e_km s) n /\ is_main_signal s n) \/ reported s (f_falling st ++ f_rising st).
Proof.
  intros l o c sig Ho Hk. destruct (first_pass_signals o l (first_state o c sig) Ho Hk (proj1 (first_state_ok o c sig))) as (st & E & _ & _ & H).
  exists st. split; [exact E|]. exact H.
Qed.
Print Assumptions C108_accounted_partial.

(* if no place has signals of two kilometrages, the signals with one node of their
   name are anchored, and the others reported *)
Theorem C108_identified_partial : forall l o c sig, Forall ordered l -> Forall (fun x => no_switches (knoten_of x) /\ one_signal (knoten_of x)) l ->
  named_signals (signals_of l) -> agreeing o (signals_of l) ->
  exists st, first_pass l (first_state o c sig) = Ok st /\
    (forall e, In e (f_falling st) <-> In (e, true) (signals_of l) /\ ~ exists n, identified o e n) /\
    (forall e, In e (f_rising st) <-> In (e, false) (signals_of l) /\ ~ exists n, identified o e n) /\
    forall s f n0, In (s, f) (signals_of l) -> identified o s n0 -> exists n, anchored (a_osm (f_state st)) (a_anchors (f_state st)) (e_km s) n /\
      n_tags n = element_tags "ms" [dir_tag f; name_tag s] /\ n_lat n = n_lat n0 /\ n_lon n = n_lon n0.
Proof.
  intros l o c sig Ho Hk Hn Hag.
  assert (Hk' : Forall (fun x => no_switches (knoten_of x)) l) by (eapply Forall_impl; [|exact Hk]; cbn; tauto).
  destruct (first_pass_signals o l (first_state o c sig) Ho Hk' (proj1 (first_state_ok o c sig))) as (st & E & _).
  exists st. split; [exact E|]. destruct (first_state_snd o c sig) as (S1 & S2).
  assert (Hi : forall s f n, In (s, f) (signals_of l) -> (ident o s n <-> identified o s n)) by (intros s f n Hs; apply ident_iff, (Hn s f Hs)).
  assert (F : found_all o ([] ++ signals_of l) st).
  { refine (first_pass_complete o l [] _ _ Ho Hk S1 _ S2 E).
    cbn [app]. intros s f s' f' n n' H1 H2 I1 I2. apply (Hag s f s' f' n n' H1 H2); [apply (Hi s f), I1|apply (Hi s' f'), I2]; assumption. }
  destruct F as (F1 & F2 & F3). cbn [app] in *. split; [|split].
  - intros e. rewrite F1. split; intros (A & B); (split; [exact A|]); intros (n & C); apply B; exists n; apply (Hi e true n A), C.
  - intros e. rewrite F2. split; intros (A & B); (split; [exact A|]); intros (n & C); apply B; exists n; apply (Hi e false n A), C.
  - intros s f n0 Hs Hid. apply (F3 s f n0 Hs). apply (Hi s f n0 Hs), Hid.
Qed.
Print Assumptions C108_identified_partial.

(* the list of main signals gets an entry for every anchored one, under the id of
   the only node of that name, and only such entries *)
Theorem C108_listed_partial : forall l o c sig, Forall ordered l -> Forall (fun x => no_switches (knoten_of x)) l -> named_signals (signals_of l) ->
  exists st, first_pass l (first_state o c sig) = Ok st /\
    (forall id, In id (map fst sig) -> In id (map fst (a_signals (f_state st)))) /\
    (forall id p, In (id, p) (a_signals (f_state st)) -> In (id, p) sig \/
       exists s f n, In (s, f) (signals_of l) /\ identified o s n /\ id = n_id n /\ p = mkplace (e_name s) (n_lat n) (n_lon n)) /\
    forall km n, anchored (a_osm (f_state st)) (a_anchors (f_state st)) km n ->
      exists s f n0, In (s, f) (signals_of l) /\ n_tags n = element_tags "ms" [dir_tag f; name_tag s] /\
        identified o s n0 /\ In (n_id n0) (map fst (a_signals (f_state st))).
Proof.
  intros l o c sig Ho Hk Hn. destruct (first_pass_signals o l (first_state o c sig) Ho Hk (proj1 (first_state_ok o c sig))) as (st & E & _).
  exists st. split; [exact E|].
  pose proof (first_pass_listed o (fun x => In x (signals_of l)) sig l _ _ Ho Hk (fun x H => H) (first_state_listed o c _ sig) E) as (D & Hok & L1 & L2 & L3).
  assert (Hi : forall s f n, In (s, f) (signals_of l) -> (ident o s n <-> identified o s n)) by (intros s f n Hs; apply ident_iff, (Hn s f Hs)).
  split; [exact L3|]. split.
  - intros id p Hp. destruct (L2 id p Hp) as [H|(s & f & n & H1 & H2 & H3)]; [left; exact H|]. right. exists s, f, n. split; [exact H1|]. split; [apply (Hi s f n H1), H2|exact H3].
  - intros km n A. destruct Hok as (_ & _ & Hs). destruct (Hs km n A) as (s & f & H1 & H2 & H3 & _). destruct (L1 s f H1) as (H4 & n0 & H5 & H6).
    exists s, f, n0. split; [exact H4|]. split; [exact H3|]. split; [apply (Hi s f n0 H4), H5|exact H6].
Qed.
Print Assumptions C108_listed_partial.

(* the hypotheses are met: a signal that is there, one that is not, and one that is
   there twice *)
Definition sg (id ref lat : string) : node := mknode [("railway", "signal"); ("ref", ref)]%string id lat "0".
Definition signals_osm : osm := mkosm [sg "1" "A 1" "5"; sg "2" "C" "6"; sg "3" "C" "7"] [mkway [] "11" ["1"; "2"; "3"]]%string [].
Definition main_knoten (f r : list elem) : knoten := mkkn f r [] [] [] [] [] [] [] [] [] [] [] [] [] [] [] [] [] [] [] [] [] [] [] [] [] [].
Definition sw_knoten (f : list elem) (w : list elem) : knoten := mkkn f [] [] [] [] [] [] [] [] [] [] [] [] [] [] [] [] [] [] [] [] [] [] [] w [] [] [].
Definition as_is : shuffle := fun m => m.
Definition plain_order (k : knoten) : knoten * list shuffle * list shuffle := (k, repeat as_is (List.length (k_main_f k)), repeat as_is (List.length (k_main_s k))).
Lemma plain_ordered k : ordered (plain_order k).
Proof.
  assert (G : forall j, Forall reorders (repeat as_is j)) by (intros j; apply Forall_forall; intros x Hx; apply repeat_spec in Hx; subst; intros m; apply Permutation_refl).
  unfold plain_order, ordered. rewrite !repeat_length. auto.
Qed.
Lemma all_ordered l : Forall ordered (map plain_order l).
Proof. apply Forall_forall. intros x Hx. apply in_map_iff in Hx. destruct Hx as (k & <- & _). apply plain_ordered. Qed.
Definition signals_line := map plain_order [main_knoten [el 1 "1,0" "A1"] [el 2 "2,0" "B"]; main_knoten [el 3 "3,0" "C"] []].
Example C108_example : Forall ordered signals_line /\ Forall (fun x => no_switches (knoten_of x) /\ one_signal (knoten_of x)) signals_line /\
  named_signals (signals_of signals_line) /\ agreeing signals_osm (signals_of signals_line) /\
  identified signals_osm (el 1 "1,0" "A1") (sg "1" "A 1" "5") /\
  exists st, first_pass signals_line (first_state signals_osm 100 []) = Ok st /\
    f_falling st = [el 3 "3,0" "C"] /\ f_rising st = [el 2 "2,0" "B"] /\ a_anchors (f_state st) = [(1%Q, [3])] /\
    a_signals (f_state st) = [("1", mkplace "A1" "5" "0")]%string /\
    map w_nd (o_ways (a_osm (f_state st))) = [["1"; "101"; "2"; "3"]]%string.
Proof.
  split; [apply all_ordered|]. split; [repeat constructor|]. split.
  { intros s f H. cbn in H. destruct H as [H|[H|[H|[]]]]; inversion H; discriminate. }
  split.
  { assert (Hc : forall s n, identified signals_osm s n -> e_name s <> ""%string -> exists i, positions (signal_matches (e_name s)) 0 (o_nodes signals_osm) = [i]).
    { intros s n H Hn. apply ident_iff in H; [|exact Hn]. destruct H as (i & H & _). eauto. }
    intros s f s' f' n n' H1 H2 I1 I2 _ _. cbn in H1, H2.
    destruct H1 as [H1|[H1|[H1|[]]]]; inversion H1; subst; destruct H2 as [H2|[H2|[H2|[]]]]; inversion H2; subst; try reflexivity;
      apply Hc in I1; apply Hc in I2; try discriminate; destruct I1 as (i & I1); destruct I2 as (j & I2); cbn in I1, I2; discriminate. }
  split. { apply ident_iff; [discriminate|]. exists 0. split; reflexivity. }
  eexists. split; [vm_compute; reflexivity|]. repeat split.
Qed.

(* of two signals of a direction at one node of the plan the second one is lost *)
Definition two_osm : osm := mkosm [sg "1" "A" "5"; sg "2" "B" "6"] [mkway [] "11" ["1"; "2"]]%string [].
Theorem C108_second_signal_refuted : exists k s n st, In s (k_main_f k) /\ identified two_osm s n /\ no_switches k /\
  first_pass [plain_order k] (first_state two_osm 100 []) = Ok st /\ f_falling st = [] /\ f_rising st = [] /\
  forall m, ~ anchored (a_osm (f_state st)) (a_anchors (f_state st)) (e_km s) m.
Proof.
  exists (main_knoten [el 1 "1,0" "A"; el 2 "2,0" "B"] []), (el 2 "2,0" "B"), (sg "2" "B" "6"). eexists. split; [cbn; tauto|].
  split; [apply ident_iff; [discriminate|]; exists 1; split; reflexivity|]. split; [repeat constructor|]. split; [vm_compute; reflexivity|].
  split; [reflexivity|]. split; [reflexivity|]. intros m (k & l & i & [E|[]] & Ek & _). inversion E; subst. discriminate Ek.
Qed.
Print Assumptions C108_second_signal_refuted.

(* two signals at one place, of two kilometrages: the falling one is reported as a
   rising one *)
Definition same_osm : osm := mkosm [sg "1" "A" "5"; sg "2" "B" "5"] [mkway [] "11" ["1"; "2"]]%string [].
Theorem C108_direction_refuted : exists l st, Forall ordered l /\ Forall (fun x => no_switches (knoten_of x) /\ one_signal (knoten_of x)) l /\
  signals_of l = [(el 1 "1,0" "A", true); (el 2 "2,0" "B", false)] /\
  first_pass l (first_state same_osm 100 []) = Ok st /\ f_falling st = [] /\ map e_name (f_rising st) = ["A"; "B"]%string.
Proof.
  exists (map plain_order [main_knoten [el 1 "1,0" "A"] []; main_knoten [] [el 2 "2,0" "B"]]). eexists.
  split; [apply all_ordered|]. split; [repeat constructor|]. split; [reflexivity|]. split; [vm_compute; reflexivity|]. split; reflexivity.
Qed.
Print Assumptions C108_direction_refuted.

(* with a switch anchored at the kilometrage of a signal that turns out to be in
   conflict the program crashes ... *)
Definition switch_tags (ref name : string) : list tag := [("railway", "switch"); ("ref", ref); ("name", name)]%string.
Definition crash_osm : osm := mkosm [sg "1" "A" "5"; mknode (switch_tags "W" "W") "2" "6" "0"] [mkway [] "11" ["1"; "2"]]%string [].
Theorem C108_crash_refuted : exists l, Forall ordered l /\ Forall (fun x => one_signal (knoten_of x)) l /\
  first_pass l (first_state crash_osm 100 []) = Throw.
Proof.
  exists (map plain_order [sw_knoten [el 1 "1,0" "A"] [el 1 "1,0" "W"]; main_knoten [el 2 "2,0" "A"] []]).
  split; [apply all_ordered|]. split; [repeat constructor|]. vm_compute. reflexivity.
Qed.
Print Assumptions C108_crash_refuted.
(* ... and if the node of the switch has four tags, it loses them *)
Definition four_tags : list tag := switch_tags "W" "W" ++ [("note", "N")]%string.
Definition loss_osm : osm := mkosm [sg "1" "A" "5"; mknode four_tags "2" "6" "0"] [mkway [] "11" ["1"; "2"]]%string [].
Theorem C108_tags_refuted : exists l st, Forall ordered l /\ Forall (fun x => one_signal (knoten_of x)) l /\
  first_pass l (first_state loss_osm 100 []) = Ok st /\
  nth_error (o_nodes loss_osm) 1 = Some (mknode four_tags "2" "6" "0")%string /\
  nth_error (o_nodes (a_osm (f_state st))) 1 = Some (mknode [] "2" "6" "0")%string /\ In "N"%string (map e_name (f_falling st)) /\ f_switches st = [].
Proof.
  exists (map plain_order [sw_knoten [el 1 "1,0" "A"] [el 1 "1,0" "W"]; main_knoten [el 2 "2,0" "A"] []]). eexists.
  split; [apply all_ordered|]. split; [repeat constructor|]. split; [vm_compute; reflexivity|]. repeat split. cbn. tauto.
Qed.
Print Assumptions C108_tags_refuted.

(* switches are not checked: one node, two kilometrages *)
Definition double_osm : osm := mkosm [mknode (switch_tags "W1" "W2") "2" "6" "0"] []%string [].
Theorem C108_consistent_refuted : exists l st, Forall ordered l /\ first_pass l (first_state double_osm 100 []) = Ok st /\
  ~ consistent (a_osm (f_state st)) (a_anchors (f_state st)).
Proof.
  exists (map plain_order [sw_knoten [] [el 1 "1,0" "W1"; el 2 "2,0" "W2"]]). eexists. split; [apply all_ordered|]. split; [vm_compute; reflexivity|].
  intros H. assert (C : (1 == 2)%Q); [|discriminate C].
  eapply (H 1%Q 2%Q (mknode (switch_tags "W1" "W2") "2" "6" "0") (mknode (switch_tags "W1" "W2") "2" "6" "0")); [| |reflexivity|reflexivity].
  - exists 1%Q, [0], 0. split; [left; reflexivity|]. split; [reflexivity|]. split; [left; reflexivity|reflexivity].
  - exists 2%Q, [0], 0. split; [right; left; reflexivity|]. split; [reflexivity|]. split; [left; reflexivity|reflexivity].
Qed.
Print Assumptions C108_consistent_refuted.

(* ---- C109 ---- *)
Definition switches_of (k : knoten) : list elem := k_switch k ++ k_stem k ++ k_left k ++ k_right k.
Definition named_switches (k : knoten) : Prop := forall s, In s (switches_of k) -> e_name s <> ""%string.
Definition valid (o : osm) (m : places_map) : Prop := forall k l i, In (k, l) m -> In i l -> nth_error (o_nodes o) i <> None.

Theorem C109_switches : forall k st, named_switches k -> unused (a_osm st) (a_id st) -> valid (a_osm st) (a_anchors st) ->
  exists st', find_and_map_anchor_switches k st = Ok st' /\
    (exists extra, o_nodes (a_osm st') = o_nodes (a_osm st) ++ extra) /\
    (forall km n, anchored (a_osm st) (a_anchors st) km n -> anchored (a_osm st') (a_anchors st') km n) /\
    (forall km n, anchored (a_osm st') (a_anchors st') km n -> anchored (a_osm st) (a_anchors st) km n \/
       exists s, In s (switches_of k) /\ (km == e_km s)%Q /\ switch_node (e_name s) n) /\
    (forall s n, In s (k_switch k) -> In n (o_nodes (a_osm st)) -> switch_node (e_name s) n -> placed_switch (a_osm st') (a_anchors st') s) /\
    (forall s n, In s (k_stem k ++ k_left k ++ k_right k) -> In n (o_nodes (a_osm st)) -> switch_node (e_name s) n ->
       exists n', anchored (a_osm st') (a_anchors st') (e_km s) n') /\
    (forall e, In e (a_missing st) -> In e (a_missing st')) /\
    (forall e, In e (a_missing st') -> In e (a_missing st) \/ In e (k_switch k) /\ forall n, In n (o_nodes (a_osm st)) -> ~ switch_node (e_name e) n) /\
    (List.length (k_switch k) <= 1 -> forall s, In s (k_switch k) -> (forall n, In n (o_nodes (a_osm st)) -> ~ switch_node (e_name s) n) -> In s (a_missing st')).
Proof.
  intros k st Hn Hu Hv. destruct (switches_spec (k_switch k) false st Hu) as (st1 & I0 & I1 & (ex & Ex & Hex) & I3 & I4 & I5 & I6 & I7 & I8 & I9).
  unfold find_and_map_anchor_switches. rewrite I0. cbn [bind]. eexists. split; [reflexivity|].
  destruct (partners_spec (k_stem k ++ k_left k ++ k_right k) st1) as (P1 & P2 & P3 & P4 & P5 & P6). cbv zeta in P1, P2, P3, P4, P5, P6.
  set (st' := fold_left _ _ st1) in *.
  assert (N1 : forall s, In s (k_switch k) -> e_name s <> ""%string) by (intros s Hs; apply Hn; apply in_or_app; left; exact Hs).
  assert (N2 : forall s, In s (k_stem k ++ k_left k ++ k_right k) -> e_name s <> ""%string) by (intros s Hs; apply Hn; apply in_or_app; right; exact Hs).
  assert (Hno : forall s, e_name s <> ""%string -> no_match (a_osm st) s <-> forall n, In n (o_nodes (a_osm st)) -> ~ switch_node (e_name s) n).
  { intros s Hs. unfold no_match. split; intros H n Hi.
    - intros C. apply switch_matches_iff in C; [|exact Hs]. rewrite (H n Hi) in C. discriminate.
    - destruct (switch_matches (e_name s) n) eqn:E; [|reflexivity]. apply switch_matches_iff in E; [|exact Hs]. elim (H n Hi E). }
  split; [exists ex; rewrite P1; exact Ex|]. split; [intros km n A; apply P4, I3, A|]. split.
  { intros km n A. destruct (P5 km n A) as [B|(s & B1 & B2 & B3)].
    - destruct (I4 km n B) as [C|[(kk & ls & i & C1 & C2 & C3)|(s & C1 & C2 & C3)]]; [left; exact C|elim (Hv kk ls i C1 C2 C3)|].
      right. exists s. split; [apply in_or_app; left; exact C1|]. split; [exact C2|]. apply switch_matches_iff; [apply N1, C1|exact C3].
    - right. exists s. split; [apply in_or_app; right; exact B1|]. split; [exact B2|]. apply switch_matches_iff; [apply N2, B1|exact B3]. }
  split.
  { intros s n Hs Hi Hm. apply placed_sw_iff; [apply N1, Hs|]. rewrite P1. apply (placed_sw_more _ (a_anchors st1)); [intros km m A; rewrite <- P1; apply P4; exact A|].
    apply I5; [exact Hs|]. exists n. split; [exact Hi|apply switch_matches_iff; [apply N1, Hs|exact Hm]]. }
  split.
  { intros s n Hs Hi Hm. apply P6; [exact Hs| |].
    - exists n. split; [rewrite Ex; apply in_or_app; left; exact Hi|apply switch_matches_iff; [apply N2, Hs|exact Hm]].
    - intros i Hin. apply in_flat_map in Hin. destruct Hin as ([kk ls] & C1 & C2). cbn in C2.
      destruct (nth_error (o_nodes (a_osm st1)) i) eqn:Ei; [discriminate|]. exfalso.
      revert C1 C2 Ei. clear -I0 Hv. intros C1 C2 Ei.
      assert (G : forall l b s0 s1, valid (a_osm s0) (a_anchors s0) -> anchor_switches l b s0 = Ok s1 -> valid (a_osm s1) (a_anchors s1)).
      { induction l as [|s l IH]; intros b s0 s1 V H; cbn [anchor_switches] in H; [inversion H; subst; exact V|].
        destruct (positions (switch_matches (e_name s)) 0 (o_nodes (a_osm s0))) as [|j r].
        - refine (IH _ _ _ _ H). destruct b; exact V.
        - destruct (nth_error (o_nodes (a_osm s0)) j) as [n|] eqn:En; [|discriminate]. cbn [create_named_simple_node create_simple_node] in H.
          refine (IH _ _ _ _ H). cbn [a_osm a_anchors insert_new_node]. intros k1 l1 i1 A B. cbn [insert_new_node o_nodes].
          assert (Hlt : nth_error (o_nodes (a_osm s0)) i1 <> None).
          { apply (flat_in _ _ _ _ A) in B. apply (Permutation_in _ (anchor_add_flat _ _ _)) in B. destruct B as [<-|B]; [congruence|].
            apply in_flat_map in B. destruct B as ([k2 l2] & B1 & B2). exact (V k2 l2 i1 B1 B2). }
          rewrite nth_error_app1 by (apply nth_error_Some, Hlt). exact Hlt. }
      exact (G _ _ _ _ Hv I0 kk ls i C1 C2 Ei). }
  rewrite P2. split; [exact I8|]. split.
  { intros e He. destruct (I9 e He) as [B|[B C]]; [left; exact B|]. right. split; [exact B|]. apply Hno; [apply N1, B|exact C]. }
  intros Hl s Hs Hnn. destruct (k_switch k) as [|x [|]] eqn:Ek; [contradiction| |cbn in Hl; lia]. destruct Hs as [<-|[]].
  apply (I7 [] x [] eq_refl eq_refl). intros s' [<-|[]]. apply Hno; [apply N1; left; reflexivity|exact Hnn].
Qed.
Print Assumptions C109_switches.

Definition switch_osm : osm := mkosm [mknode (switch_tags "W1" "") "1" "6" "0"; mknode (switch_tags "" "W2") "2" "7" "0"] [mkway [] "11" ["1"; "2"]]%string [].
Definition partner_knoten : knoten := mkkn [] [] [] [] [] [] [] [] [] [] [] [] [] [] [] [] [] [] [] [] [] [] [] [] [el 1 "1,0" "W1"] [el 2 "2,0" "W2"] [] [].
Definition empty_state (o : osm) : astate := mkas o [] [] [] 0 100 [].
Example C109_example : named_switches partner_knoten /\ valid switch_osm [] /\ exists st',
  find_and_map_anchor_switches partner_knoten (empty_state switch_osm) = Ok st' /\ a_anchors st' = [(1%Q, [0]); (2%Q, [1])] /\
  map w_nd (o_ways (a_osm st')) = [["1"; "101"; "2"]]%string /\ a_missing st' = [] /\ a_count st' = 2%Z.
Proof.
  split. { intros s [<-|[<-|[]]]; discriminate. } split. { intros k l i []. }
  eexists. split; [vm_compute; reflexivity|]. repeat split.
Qed.

(* the same for all nodes of a line that has no main signals *)
Theorem C109_line_partial : forall l o c sig, Forall (fun x => k_main_f (knoten_of x) = [] /\ k_main_s (knoten_of x) = []) l ->
  Forall (fun x => named_switches (knoten_of x)) l -> unused o c ->
  exists st, first_pass l (first_state o c sig) = Ok st /\ f_falling st = [] /\ f_rising st = [] /\
    (exists extra, o_nodes (a_osm (f_state st)) = o_nodes o ++ extra) /\
    (forall x s n, In x l -> In s (k_switch (knoten_of x)) -> In n (o_nodes o) -> switch_node (e_name s) n -> placed_switch (a_osm (f_state st)) (a_anchors (f_state st)) s) /\
    (forall e, In e (f_switches st) -> (exists x, In x l /\ In e (k_switch (knoten_of x))) /\ forall n, In n (o_nodes o) -> ~ switch_node (e_name e) n) /\
    (forall x s, In x l -> List.length (k_switch (knoten_of x)) <= 1 -> In s (k_switch (knoten_of x)) ->
       (forall n, In n (o_nodes o) -> ~ switch_node (e_name s) n) -> In s (f_switches st)).
Proof.
  intros l o c sig Hm Hn Hu. destruct (first_pass_switches l (first_state o c sig) Hm Hu) as (st & R0 & (ex & R1 & _) & R2 & R3 & _ & R5 & _ & R7 & R8).
  cbn [first_state f_state f_falling f_rising f_switches a_osm a_anchors] in *. rewrite Forall_forall in Hn.
  assert (N : forall x s, In x l -> In s (k_switch (knoten_of x)) -> e_name s <> ""%string) by (intros x s Hx Hs; apply (Hn x Hx); apply in_or_app; left; exact Hs).
  assert (Hno : forall x s, In x l -> In s (k_switch (knoten_of x)) -> no_match o s <-> forall n, In n (o_nodes o) -> ~ switch_node (e_name s) n).
  { intros x s Hx Hs. specialize (N x s Hx Hs). unfold no_match. split; intros H n Hi.
    - intros C. apply switch_matches_iff in C; [|exact N]. rewrite (H n Hi) in C. discriminate.
    - destruct (switch_matches (e_name s) n) eqn:E; [|reflexivity]. apply switch_matches_iff in E; [|exact N]. elim (H n Hi E). }
  exists st. split; [exact R0|]. split; [exact R2|]. split; [exact R3|]. split; [exists ex; exact R1|]. split; [|split].
  - intros x s n Hx Hs Hi Hsw. apply placed_sw_iff; [exact (N x s Hx Hs)|]. apply (R5 x s Hx Hs). exists n. split; [exact Hi|]. apply switch_matches_iff; [exact (N x s Hx Hs)|exact Hsw].
  - intros e He. destruct (R7 e He) as [[]|((x & Hx & Hs) & Hno')]. split; [eauto|]. apply (Hno x e Hx Hs), Hno'.
  - intros x s Hx Hl Hs H. apply (R8 x s Hx Hl Hs). apply (Hno x s Hx Hs), H.
Qed.
Print Assumptions C109_line_partial.
Example C109_line_example : exists st,
  first_pass (map plain_order [sw_knoten [] [el 1 "1,0" "X"]; sw_knoten [] [el 2 "2,0" "W2"]; sw_knoten [] [el 3 "3,0" "Y"]]) (first_state switch_osm 100 []) = Ok st /\
  f_switches st = [el 1 "1,0" "X"; el 3 "3,0" "Y"] /\ a_anchors (f_state st) = [(2%Q, [1])].
Proof. eexists. split; [vm_compute; reflexivity|]. split; reflexivity. Qed.

(* after a switch that was found the ones that are not are not reported *)
Theorem C109_missing_refuted : exists k s st', In s (k_switch k) /\ (forall n, In n (o_nodes switch_osm) -> ~ switch_node (e_name s) n) /\
  find_and_map_anchor_switches k (empty_state switch_osm) = Ok st' /\ a_missing st' = [] /\
  forall m, ~ anchored (a_osm st') (a_anchors st') (e_km s) m.
Proof.
  exists (sw_knoten [] [el 1 "1,0" "W1"; el 2 "2,0" "X"]), (el 2 "2,0" "X"). eexists. split; [cbn; tauto|]. split.
  { intros n Hn C. apply switch_matches_iff in C; [|discriminate]. cbn in Hn. destruct Hn as [<-|[<-|[]]]; discriminate C. }
  split; [vm_compute; reflexivity|]. split; [reflexivity|]. intros m (k & l & i & [E|[]] & Ek & _). inversion E; subst. discriminate Ek.
Qed.
Print Assumptions C109_missing_refuted.
