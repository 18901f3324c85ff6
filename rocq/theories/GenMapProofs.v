From Coq Require Import String List QArith ZArith NArith Bool Lia Permutation DecimalString DecimalPos DecimalN.
From Verif Require Import Base GenOsmModel GenOsmSpec GenOsmProofs GenFindModel GenFindSpec GenFindProofs GenFindProofs2 GenMapModel GenMapSpec.
Import ListNotations.
Local Open Scope list_scope.
Local Open Scope nat_scope.

(* ---- cutting the data into lines ---- *)
Section Parse.
Context {K : Type}.
Definition pick (r : string) (l : list (section K)) : list (section K) := filter (fun s => String.eqb (sc_line s) r) l.
Definition sof (name : string) (d : list (station K)) (p : list (section K)) : book K :=
  match p with [] => mkbook d (List.length d) false | _ => mkbook (d ++ [mkst name p]) (List.length d) true end.
Definition as_map (keys : list string) (f : string -> book K) : line_map K := map (fun r => (r, f r)) keys.

Lemma lookup_as_map keys f k : lookup (as_map keys f) k = if existsb (String.eqb k) keys then Some (f k) else None.
Proof.
  induction keys as [|x keys IH]; cbn; [reflexivity|]. rewrite (String.eqb_sym k x). destruct (String.eqb_spec x k) as [->|]; [reflexivity|].
  cbn. exact IH.
Qed.
Lemma store_as_map keys f k b : NoDup keys -> In k keys ->
  store (as_map keys f) k b = as_map keys (fun r => if String.eqb r k then b else f r).
Proof.
  induction keys as [|x keys IH]; intros Hn Hi; [contradiction|]. inversion Hn; subst. cbn.
  destruct (String.eqb_spec x k) as [->|Hx].
  - f_equal. apply map_ext_in. intros a Ha. destruct (String.eqb_spec a k) as [->|]; [contradiction|reflexivity].
  - destruct Hi as [->|Hi]; [congruence|]. f_equal. apply IH; assumption.
Qed.
Lemma store_as_map_new keys f k b : ~ In k keys ->
  store (as_map keys f) k b = as_map (keys ++ [k]) (fun r => if String.eqb r k then b else f r).
Proof.
  induction keys as [|x keys IH]; intros Hi; cbn; [rewrite String.eqb_refl; reflexivity|].
  destruct (String.eqb_spec x k) as [->|Hx]; [exfalso; apply Hi; left; reflexivity|].
  f_equal. apply IH. intro. apply Hi. right. assumption.
Qed.
Lemma as_map_ext keys f g : (forall r, In r keys -> f r = g r) -> as_map keys f = as_map keys g.
Proof. intros H. apply map_ext_in. intros a Ha. rewrite H by exact Ha. reflexivity. Qed.
Lemma init_lines_spec refs : exists keys, init_lines (K:=K) refs = as_map keys (fun _ => mkbook [] 0 false) /\ NoDup keys /\
  forall r, In r keys <-> In r refs.
Proof.
  unfold init_lines.
  assert (G : forall refs keys, NoDup keys -> exists keys', fold_left (fun m r => store m r (mkbook [] 0 false)) refs (as_map keys (fun _ => mkbook [] 0 false))
     = as_map keys' (fun _ => mkbook (K:=K) [] 0 false) /\ NoDup keys' /\ forall r, In r keys' <-> In r keys \/ In r refs).
  { induction refs0 as [|x refs0 IH]; intros keys Hn.
    - exists keys. cbn. repeat split; intuition.
    - cbn [fold_left]. destruct (in_dec string_dec x keys) as [Hi|Hi].
      + rewrite store_as_map by assumption.
        rewrite (as_map_ext keys _ (fun _ => mkbook [] 0 false)) by (intros r _; destruct (String.eqb r x); reflexivity).
        destruct (IH keys Hn) as (keys' & E & N & H). exists keys'. rewrite E. split; [reflexivity|]. split; [exact N|].
        intros r. rewrite H. cbn. split; [tauto|]. intros [|[->|]]; auto.
      + rewrite store_as_map_new by assumption.
        rewrite (as_map_ext (keys ++ [x]) _ (fun _ => mkbook [] 0 false)) by (intros r _; destruct (String.eqb r x); reflexivity).
        destruct (IH (keys ++ [x])) as (keys' & E & N & H).
        { apply (Permutation_NoDup (Permutation_cons_append _ _)). constructor; assumption. }
        exists keys'. rewrite E. split; [reflexivity|]. split; [exact N|].
        intros r. rewrite H, in_app_iff. cbn. tauto. }
  destruct (G refs [] (NoDup_nil _)) as (keys & E & N & H). exists keys. split; [exact E|]. split; [exact N|].
  intros r. rewrite H. cbn. tauto.
Qed.

Lemma set_nth_app {A} (l : list A) x f : set_nth (l ++ [x]) (List.length l) f = Some (l ++ [f x]).
Proof. induction l as [|y l IH]; cbn; [reflexivity|]. rewrite IH. reflexivity. Qed.

Lemma add_section_spec keys name D p s : NoDup keys ->
  add_section name (as_map keys (fun r => sof name (D r) (pick r p))) s =
  Ok (as_map keys (fun r => sof name (D r) (pick r (p ++ [s])))).
Proof.
  intros Hn. unfold add_section. rewrite lookup_as_map.
  assert (Epick : forall r, pick r (p ++ [s]) = if String.eqb (sc_line s) r then pick r p ++ [s] else pick r p).
  { intros r. unfold pick. rewrite filter_app. cbn. destruct (String.eqb (sc_line s) r); [reflexivity|apply app_nil_r]. }
  destruct (existsb (String.eqb (sc_line s)) keys) eqn:Ex.
  - set (r0 := sc_line s) in *.
    assert (Hin : In r0 keys). { apply existsb_exists in Ex. destruct Ex as (x & Hx & E). apply String.eqb_eq in E. subst x. exact Hx. }
    assert (G : forall b', b' = sof name (D r0) (pick r0 (p ++ [s])) -> store (as_map keys (fun r => sof name (D r) (pick r p))) r0 b' =
        as_map keys (fun r => sof name (D r) (pick r (p ++ [s])))).
    { intros b' ->. rewrite store_as_map by assumption. apply as_map_ext. intros r _.
      destruct (String.eqb_spec r r0) as [->|Hr]; [reflexivity|]. rewrite (Epick r).
      destruct (String.eqb_spec r0 r); [congruence|reflexivity]. }
    specialize (Epick r0). rewrite String.eqb_refl in Epick.
    destruct (pick r0 p) as [|s0 p'] eqn:Ep; cbn [sof].
    + cbn [b_data b_num b_used]. rewrite Nat.eqb_refl. cbn [b_data b_num b_used]. rewrite set_nth_app. cbn [st_name st_secs]. f_equal. apply G.
      rewrite Epick. cbn. reflexivity.
    + cbn [b_data b_num b_used]. rewrite app_length. cbn [List.length]. rewrite (proj2 (Nat.eqb_neq _ _)) by lia.
      cbn [b_data b_num b_used]. rewrite set_nth_app. cbn [st_name st_secs]. f_equal. apply G. rewrite Epick. cbn. reflexivity.
  - f_equal. apply as_map_ext. intros r Hr. rewrite Epick. destruct (String.eqb_spec (sc_line s) r) as [<-|]; [|reflexivity].
    exfalso. assert (existsb (String.eqb (sc_line s)) keys = true) by (apply existsb_exists; exists (sc_line s); split; [exact Hr|apply String.eqb_refl]).
    congruence.
Qed.
Lemma add_sections_spec keys name D : NoDup keys -> forall l p,
  add_sections name (as_map keys (fun r => sof name (D r) (pick r p))) l = Ok (as_map keys (fun r => sof name (D r) (pick r (p ++ l)))).
Proof.
  intros Hn. induction l as [|s l IH]; intros p; cbn [add_sections].
  - rewrite app_nil_r. reflexivity.
  - rewrite add_section_spec by exact Hn. cbn [bind]. rewrite IH, <- app_assoc. reflexivity.
Qed.
Definition cut1 (r : string) (st : station K) : list (station K) :=
  match pick r (st_secs st) with [] => [] | p => [mkst (st_name st) p] end.
Definition cutf (r : string) (l : list (station K)) : list (station K) := flat_map (cut1 r) l.
Lemma parse_stations_spec keys : NoDup keys -> forall l done,
  parse_stations (as_map keys (fun r => mkbook (cutf r done) (List.length (cutf r done)) false)) l =
  Ok (as_map keys (fun r => mkbook (cutf r (done ++ l)) (List.length (cutf r (done ++ l))) false)).
Proof.
  intros Hn. induction l as [|st l IH]; intros done; cbn [parse_stations].
  - rewrite app_nil_r. reflexivity.
  - change (fun r => mkbook (cutf r done) (List.length (cutf r done)) false) with (fun r => sof (st_name st) (cutf r done) (pick r [])).
    rewrite add_sections_spec by exact Hn. cbn [bind app].
    replace (close_station (as_map keys (fun r => sof (st_name st) (cutf r done) (pick r (st_secs st)))))
      with (as_map keys (fun r => mkbook (cutf r (done ++ [st])) (List.length (cutf r (done ++ [st]))) false)).
    + rewrite IH, <- app_assoc. reflexivity.
    + unfold close_station, as_map. rewrite map_map. apply map_ext. intros r. cbn [fst snd]. f_equal.
      unfold cutf at 1 2. rewrite flat_map_app. cbn [flat_map]. rewrite app_nil_r. fold (cutf r done). unfold cut1.
      destruct (pick r (st_secs st)) as [|s p]; cbn [sof b_used b_data b_num]; [rewrite app_nil_r; reflexivity|].
      rewrite app_length. cbn [List.length]. f_equal. lia.
Qed.

Lemma of_line_pick r (l l' : list (section K)) : of_line r l l' <-> l' = pick r l.
Proof.
  split.
  - induction 1; cbn.
    + reflexivity.
    + rewrite (proj2 (String.eqb_eq _ _) H). f_equal. exact IHof_line.
    + rewrite (proj2 (String.eqb_neq _ _) H). exact IHof_line.
  - intros ->. induction l as [|s l IH]; cbn; [constructor|]. destruct (String.eqb_spec (sc_line s) r); constructor; assumption.
Qed.
Lemma cut_to_cutf r (l l' : list (station K)) : cut_to r l l' <-> l' = cutf r l.
Proof.
  split.
  - induction 1 as [|st secs l l' Ho Hne Hc IH|st l l' Ho Hc IH]; [reflexivity| |]; cbn [cutf flat_map]; fold (cutf r l); unfold cut1; rewrite <- IH.
    + apply of_line_pick in Ho. rewrite <- Ho. destruct secs; [contradiction|reflexivity].
    + apply of_line_pick in Ho. rewrite <- Ho. reflexivity.
  - intros ->. induction l as [|st l IH]; [constructor|]. cbn [cutf flat_map]. fold (cutf r l). unfold cut1. destruct (pick r (st_secs st)) as [|s p] eqn:E; cbn [app].
    + apply cut_skip; [apply of_line_pick; symmetry; exact E|exact IH].
    + apply cut_take; [apply of_line_pick; symmetry; exact E|discriminate|exact IH].
Qed.
Lemma parse_spec refs (l : list (station K)) : exists out, parse refs l = Ok out /\ NoDup (map fst out) /\
  forall r sts, In (r, sts) out <-> In r refs /\ cut_to r l sts /\ sts <> [].
Proof.
  unfold parse. destruct (init_lines_spec refs) as (keys & E & Hn & Hk). rewrite E.
  assert (P : parse_stations (as_map keys (fun _ => mkbook [] 0 false)) l =
    Ok (as_map keys (fun r => mkbook (cutf r l) (List.length (cutf r l)) false))) by exact (parse_stations_spec keys Hn l []).
  rewrite P. cbn [bind].
  eexists. split; [reflexivity|]. unfold as_map. rewrite map_map. cbn [fst snd b_data].
  split.
  - clear -Hn. induction Hn as [|x keys Hx Hn IH]; cbn; [constructor|].
    destruct (cutf x l) eqn:Ec; cbn [negb]; [exact IH|]. cbn [map fst]. constructor; [|exact IH].
    intros Hi. apply Hx. clear -Hi. apply in_map_iff in Hi. destruct Hi as ((r, sts) & <- & Hi). apply filter_In in Hi. destruct Hi as [Hi _].
    apply in_map_iff in Hi. destruct Hi as (r' & Er & Hr). inversion Er. subst. exact Hr.
  - intros r sts. rewrite filter_In, in_map_iff. rewrite cut_to_cutf, <- Hk. split.
    + intros ((r' & Er & Hr) & Hne). inversion Er; subst. cbn in Hne. split; [exact Hr|]. split; [reflexivity|].
      destruct (cutf r l); [discriminate|discriminate].
    + intros (Hr & -> & Hne). split; [exists r; split; [reflexivity|exact Hr]|]. cbn. destruct (cutf r l); [contradiction|reflexivity].
Qed.
End Parse.

(* ---- placing elements ---- *)
Lemma to_uint_nonnil n : N.to_uint n <> Decimal.Nil.
Proof. destruct n as [|p]; [discriminate|]. apply DecimalPos.Unsigned.to_uint_nonnil. Qed.
Lemma decimal_inj a b : decimal a = decimal b -> a = b.
Proof.
  intros H. unfold decimal in H. apply (f_equal NilZero.uint_of_string) in H.
  rewrite !NilZero.usu in H by apply to_uint_nonnil. inversion H as [H']. apply (f_equal N.of_uint) in H'.
  rewrite !DecimalN.Unsigned.of_to in H'. exact H'.
Qed.

Lemma insert_pair_in x l p : In p (insert_pair x l) -> p = x \/ In p l.
Proof.
  induction l as [|y l IH]; cbn [insert_pair]; [cbn; intuition|]. destruct (Qle_bool (p_dist x) (p_dist y)); cbn; [intuition|].
  intros [|H]; [auto|]. destruct (IH H); auto.
Qed.
Lemma sort_pairs_in l p : In p (sort_pairs l) -> In p l.
Proof.
  induction l as [|x l IH]; cbn [sort_pairs fold_right]; [tauto|]. intros H. apply insert_pair_in in H. cbn. destruct H; auto.
Qed.
Lemma closest_match_in hav o u1 u2 d1 d2 a b c d n : find_closest_match hav o u1 u2 d1 d2 a b c d = Some n -> In n (o_nodes o).
Proof.
  unfold find_closest_match, get_node_by_id.
  destruct (get_node (o_nodes o) u1) as [nu1|] eqn:E1; [|discriminate].
  destruct (get_node (o_nodes o) u2) as [nu2|] eqn:E2; [|discriminate].
  destruct (get_node (o_nodes o) d1) as [nd1|] eqn:E3; [|discriminate].
  destruct (get_node (o_nodes o) d2) as [nd2|] eqn:E4; [|discriminate].
  apply get_node_in in E1, E2, E3, E4. destruct E1 as [E1 _], E2 as [E2 _], E3 as [E3 _], E4 as [E4 _].
  match goal with |- match sort_pairs ?l with _ => _ end = _ -> _ => set (ps := l); destruct (sort_pairs ps) as [|p rest] eqn:Es end; [discriminate|].
  assert (Hp : In p ps) by (apply sort_pairs_in; rewrite Es; left; reflexivity).
  intros H. cbn in Hp. destruct Hp as [<-|[<-|[<-|[<-|[]]]]]; cbn in H; destruct (Qle_bool _ _); inversion H; subst; assumption.
Qed.
Lemma find_new_node_in hav fuel o n1 n2 d1 d2 n : find_new_node hav fuel o n1 n2 d1 d2 = Ok (Found n) -> n = n1 \/ In n (o_nodes o).
Proof.
  unfold find_new_node. destruct (Qeq_bool d1 0); [intros H; inversion H; auto|].
  intros H. apply bind_Ok in H. destruct H as (r1 & _ & H). apply bind_Ok in H. destruct H as (r2 & _ & H).
  destruct r1 as [[[[up1 ud1] down1] dd1]|]; [|discriminate]. destruct r2 as [[[[up2 ud2] down2] dd2]|]; [|discriminate].
  right. destruct (String.eqb up1 up2 || String.eqb up1 down2).
  { unfold get_node_by_id in H. destruct (get_node (o_nodes o) up1) eqn:E; inversion H; subst. apply get_node_in in E. apply E. }
  destruct (String.eqb down1 up2 || String.eqb down1 down2).
  { unfold get_node_by_id in H. destruct (get_node (o_nodes o) down1) eqn:E; inversion H; subst. apply get_node_in in E. apply E. }
  match type of H with Ok (match ?x with _ => _ end) = _ => destruct x eqn:E end; inversion H; subst. eapply closest_match_in, E.
Qed.
Lemma insert_anchor_in km x l a : In a (insert_anchor km x l) -> a = x \/ In a l.
Proof.
  induction l as [|y l IH]; cbn [insert_anchor]; [cbn; intuition|]. destruct (Qle_bool _ _); cbn; [intuition|].
  intros [|H]; [auto|]. destruct (IH H); auto.
Qed.
Lemma sort_anchors_in km l a : In a (sort_anchors l km) -> In a l.
Proof.
  induction l as [|x l IH]; cbn [sort_anchors fold_right]; [tauto|]. intros H. apply insert_anchor_in in H. cbn. destruct H; auto.
Qed.
Lemma anchor_node_in km a n d : anchor_node km a = Ok (n, d) -> In n (snd a).
Proof. unfold anchor_node. destruct (snd a); [discriminate|]. intros H. inversion H. left. reflexivity. Qed.
Lemma try_anchors_in hav fuel o km (P : node -> Prop) : (forall n, In n (o_nodes o) -> P n) ->
  forall rest a1 a2 err n, P (fst a1) -> P (fst a2) -> (forall a, In a rest -> forall m, In m (snd a) -> P m) ->
  (forall m, err = Found m -> P m) -> try_anchors hav fuel o km a1 a2 rest err = Ok (Some n) -> P n.
Proof.
  intros Ho. induction rest as [|a rest IH]; intros a1 a2 err n H1 H2 Hr He; cbn [try_anchors].
  - destruct err; intros H; inversion H; subst. apply He. reflexivity.
  - destruct err as [m|id| |]; intros H; [inversion H; subst; apply He; reflexivity| | |discriminate].
    all: apply bind_Ok in H; destruct H as ((na, da) & Ha & H); apply anchor_node_in in Ha;
      apply bind_Ok in H; destruct H as (r & Hf & H); refine (IH _ _ _ _ _ _ _ _ H).
    all: try (intros b Hb; apply Hr; right; exact Hb).
    all: try (destruct (String.eqb _ _); cbn [fst snd]; first [assumption|exact (Hr a (or_introl eq_refl) na Ha)]).
    all: try (cbn [fst snd]; first [assumption|exact (Hr a (or_introl eq_refl) na Ha)]).
    all: intros m ->; apply find_new_node_in in Hf; destruct Hf as [->|Hf]; [|apply Ho; exact Hf].
    + destruct (String.eqb _ _); cbn [fst snd]; [exact (Hr a (or_introl eq_refl) na Ha)|assumption].
    + assumption.
Qed.
Lemma find_best_in hav fuel o order km n (P : node -> Prop) : (forall n, In n (o_nodes o) -> P n) ->
  (forall a, In a order -> forall m, In m (snd a) -> P m) -> find_best_osm_node hav fuel o order km = Ok (Some n) -> P n.
Proof.
  intros Ho Ha. unfold find_best_osm_node. pose proof (sort_anchors_in km order) as Hs. destruct (sort_anchors order km) as [|b1 [|b2 rest]]; [discriminate|discriminate|].
  intros H. apply bind_Ok in H. destruct H as ((n1, d1) & E1 & H). apply bind_Ok in H. destruct H as ((n2, d2) & E2 & H).
  apply bind_Ok in H. destruct H as (r & Hf & H). apply anchor_node_in in E1, E2.
  assert (P1 : P n1) by (apply (Ha b1); [apply Hs; left; reflexivity|exact E1]).
  refine (try_anchors_in _ _ _ _ P Ho rest (n1, d1) (n2, d2) r n P1 _ _ _ H).
  - apply (Ha b2); [apply Hs; right; left; reflexivity|exact E2].
  - intros a Hi. apply Ha, Hs. right. right. exact Hi.
  - intros m ->. apply find_new_node_in in Hf. destruct Hf as [->|Hf]; [exact P1|apply Ho, Hf].
Qed.

(* what a request is for *)
Definition makes (r : request) (j : job) : Prop :=
  rq_kind r = j_kind j /\ rq_km r = j_km j /\ rq_text r = j_text j /\
  forall c n, rq_make r c n = ((c + 1)%N, mknode (j_tags j) (decimal (c + 1)) (n_lat n) (n_lon n)).
Definition to_main (k : kind) : bool := match k with MainSignal => true | _ => false end.
Definition to_other (k : kind) : bool := match k with ProtectionSignal | ApproachSignal => true | _ => false end.
Definition to_halts (k : kind) : bool := match k with Halt => true | _ => false end.
Definition put_if (b : bool) (l : list (string * place)) (id : string) (p : place) := if b then put_place l id p else l.
Fixpoint put_out (sel : kind -> bool) (out : outcome) (l : list (string * place)) : list (string * place) :=
  match out with
  | [] => l
  | (j, None) :: out => put_out sel out l
  | (j, Some n) :: out => put_out sel out (put_if (sel (j_kind j)) l (n_id n) (mkplace (j_text j) (n_lat n) (n_lon n)))
  end.

Lemma put_lists_eq k new name st : put_lists k new name st =
  mkms (m_osm st) (m_id st) (m_missing st) (put_if (to_halts k) (m_halts st) (n_id new) (mkplace name (n_lat new) (n_lon new)))
    (put_if (to_main k) (m_main st) (n_id new) (mkplace name (n_lat new) (n_lon new)))
    (put_if (to_other k) (m_other st) (n_id new) (mkplace name (n_lat new) (n_lon new))).
Proof. destruct k, st; reflexivity. Qed.

Lemma map_all_tried hav fuel : forall l js st st', Forall2 makes (map snd l) js -> map_all hav fuel l st = Ok st' ->
  exists out, tried hav fuel (m_osm st) (m_id st) (combine (map fst l) js) out (m_osm st') /\ map fst out = js /\
    m_missing st' = m_missing st ++ not_placed out /\ m_id st' = (m_id st + N.of_nat (List.length (placed out)))%N /\
    m_halts st' = put_out to_halts out (m_halts st) /\ m_main st' = put_out to_main out (m_main st) /\ m_other st' = put_out to_other out (m_other st).
Proof.
  induction l as [|[order r] l IH]; intros js st st' HF H; cbn [map] in HF; inversion HF as [|? j ? js' Hr HF']; subst.
  - cbn [map_all] in H. inversion H; subst. exists []. cbn. rewrite app_nil_r, N.add_0_r. split; [constructor|]. auto 10.
  - cbn [map_all] in H. apply bind_Ok in H. destruct H as (st1 & Hm & H). unfold map_one in Hm.
    apply bind_Ok in Hm. destruct Hm as (best & Hb & Hm). destruct Hr as (Ek & Ekm & Et & Em).
    cbn [map fst combine] in *. rewrite Ekm in Hb. destruct best as [ref|].
    + rewrite Em in Hm. inversion Hm; subst st1; clear Hm. specialize (IH _ _ _ HF' H).
      destruct IH as (out & Ht & Ef & Emi & Ei & Eh & Emn & Eo).
      rewrite put_lists_eq in *. cbn [m_osm m_id m_missing m_halts m_main m_other n_id n_lat n_lon] in *.
      exists ((j, Some (mknode (j_tags j) (decimal (m_id st + 1)) (n_lat ref) (n_lon ref))) :: out).
      split.
      { eapply tried_placed; [exact Hb|reflexivity|reflexivity|reflexivity|reflexivity| | | |exact Ht]; cbn [insert_new_node o_nodes o_ways o_rels n_id]; try reflexivity.
        clear. induction (o_ways (m_osm st)) as [|w ws IHw]; cbn [map]; constructor; [|exact IHw]. cbn [w_tags w_id w_nd].
        split; [reflexivity|]. split; [reflexivity|]. apply insert_ref_beside. }
      cbn [map fst put_out n_id n_lat n_lon placed not_placed flat_map snd app List.length]. fold (placed out). fold (not_placed out).
      rewrite Ef, <- Ek, <- Et. repeat split; try assumption. rewrite Ei. lia.
    + inversion Hm; subst st1; clear Hm. specialize (IH _ _ _ HF' H).
      destruct IH as (out & Ht & Ef & Emi & Ei & Eh & Emn & Eo). cbn [m_osm m_id m_missing m_halts m_main m_other] in *.
      exists ((j, None) :: out). split; [apply tried_missing; assumption|].
      cbn [map fst put_out placed not_placed flat_map snd app List.length]. fold (placed out). fold (not_placed out).
      rewrite Ef, <- Ek, <- Et. repeat split; try assumption. rewrite Emi, <- app_assoc. reflexivity.
Qed.

Lemma Forall2_in_right {A B} (R : A -> B -> Prop) l l' b : Forall2 R l l' -> In b l' -> exists a, In a l /\ R a b.
Proof. induction 1 as [|x y l l' H HF IH]; cbn; [tauto|]. intros [->|Hi]; [exists x; auto|]. destruct (IH Hi) as (a & Ha & HR). exists a. auto. Qed.
Lemma Forall2_trans {A} (R S T : A -> A -> Prop) : (forall a b c, R a b -> S b c -> T a c) -> forall l1 l2 l3, Forall2 R l1 l2 -> Forall2 S l2 l3 -> Forall2 T l1 l3.
Proof.
  intros H. induction l1 as [|a l1 IH]; intros l2 l3 H1 H2; inversion H1; subst; inversion H2; subst; constructor; eauto.
Qed.
Lemma grown_refl new l : grown new l l.
Proof. induction l; constructor; assumption. Qed.
Lemma grown_trans n1 n2 l1 l2 l3 : grown n1 l1 l2 -> grown n2 l2 l3 -> grown (n1 ++ n2) l1 l3.
Proof.
  intros H1 H2. revert l1 H1. induction H2; intros l1 H1.
  - inversion H1; subst. constructor.
  - inversion H1; subst; [apply grown_keep; auto|apply grown_new; [apply in_or_app; auto|auto]].
  - apply grown_new; [apply in_or_app; auto|auto].
Qed.
Lemma grown_in new l l' x : grown new l l' -> ~ In x new -> (In x l' <-> In x l).
Proof. intros H Hx. induction H; cbn; [tauto| |]; [tauto|]. split; [|tauto]. intros [->|]; [contradiction|tauto]. Qed.
Lemma grown_app new l1 l1' l2 l2' : grown new l1 l1' -> grown new l2 l2' -> grown new (l1 ++ l2) (l1' ++ l2').
Proof. intros H1 H2. induction H1; cbn; [assumption|apply grown_keep; assumption|apply grown_new; assumption]. Qed.
Lemma beside_grown new ref l l' : beside new ref l l' -> grown [new] l l'.
Proof.
  intros H. destruct H as [nds|pre post|pre].
  - apply grown_refl.
  - apply grown_app; [apply grown_refl|]. apply grown_keep, grown_new; [left; reflexivity|apply grown_refl].
  - apply grown_app; [apply grown_refl|]. apply grown_new; [left; reflexivity|apply grown_refl].
Qed.
Lemma beside_ends new ref l l' : beside new ref l l' -> 2 <= List.length l -> same_ends l l'.
Proof.
  intros H Hl. destruct H as [nds|pre post Hp Hne|pre Hp].
  - split; reflexivity.
  - split; [destruct pre; reflexivity|]. rewrite !rev_app_distr. cbn [rev]. rewrite <- !app_assoc.
    destruct (rev post) eqn:E; [|reflexivity]. apply (f_equal (@rev _)) in E. rewrite rev_involutive in E. contradiction.
  - destruct pre as [|x pre]; [cbn in Hl; lia|]. split; [reflexivity|]. rewrite !rev_app_distr. reflexivity.
Qed.
Lemma beside_longer new ref l l' : beside new ref l l' -> List.length l <= List.length l'.
Proof. intros H. destruct H; rewrite ?app_length; cbn; lia. Qed.
Lemma beside_same new ref l l' : beside new ref l l' -> ~ In new l -> (In new l' <-> In ref l').
Proof.
  intros H Hn. destruct H as [nds Hr|pre post Hp Hne|pre Hp]; [tauto| |].
  - rewrite !in_app_iff. cbn. tauto.
  - rewrite !in_app_iff. cbn. tauto.
Qed.
Lemma same_ends_trans a b c : same_ends a b -> same_ends b c -> same_ends a c.
Proof. intros (H1 & H2) (H3 & H4). split; congruence. Qed.

Definition way_grown (new : list string) (w w' : way) : Prop :=
  w_tags w' = w_tags w /\ w_id w' = w_id w /\ grown new (w_nd w) (w_nd w') /\ List.length (w_nd w) <= List.length (w_nd w') /\
  (2 <= List.length (w_nd w) -> same_ends (w_nd w) (w_nd w')).

Lemma unused_step o o1 c new ref : unused o c -> n_id new = decimal (c + 1) -> o_nodes o1 = o_nodes o ++ [new] ->
  Forall2 (fun w w1 => w_tags w1 = w_tags w /\ w_id w1 = w_id w /\ beside (n_id new) ref (w_nd w) (w_nd w1)) (o_ways o) (o_ways o1) ->
  unused o1 (c + 1).
Proof.
  intros Hu En Eo HF k Hk. destruct (Hu k ltac:(lia)) as [U1 U2]. split.
  - intros n Hn. rewrite Eo in Hn. apply in_app_or in Hn. destruct Hn as [Hn|[<-|[]]]; [apply U1, Hn|].
    rewrite En. intros E. apply decimal_inj in E. lia.
  - intros w1 Hw1. destruct (Forall2_in_right _ _ _ _ HF Hw1) as (w & Hw & _ & _ & Hb). intros Hi.
    apply (grown_in _ _ _ _ (beside_grown _ _ _ _ Hb)) in Hi; [exact (U2 w Hw Hi)|].
    intros [E|[]]. rewrite En in E. apply decimal_inj in E. lia.
Qed.

Lemma tried_result hav fuel o c l out o' : tried hav fuel o c l out o' -> unused o c ->
  (forall order j a m, In (order, j) l -> In a order -> In m (snd a) -> In m (o_nodes o)) ->
  o_nodes o' = o_nodes o ++ placed out /\ o_rels o' = o_rels o /\
  map n_id (placed out) = map (fun i => decimal (c + N.of_nat i)) (seq 1 (List.length (placed out))) /\
  Forall2 (way_grown (map n_id (placed out))) (o_ways o) (o_ways o') /\
  (forall j n, In (j, Some n) out -> n_tags n = j_tags j) /\
  (forall n, In n (placed out) -> exists ref, In ref (o_nodes o) /\ n_lat n = n_lat ref /\ n_lon n = n_lon ref /\ same_ways o' (n_id n) (n_id ref)).
Proof.
  intros H. induction H as [o c|o c order j l out o' Hf H IH|o c order j l out o1 o' ref new Hf Et Ei Ela Elo En Er HF H IH]; intros Hu Ha.
  - cbn. rewrite app_nil_r. split; [reflexivity|]. split; [reflexivity|]. split; [reflexivity|]. split; [|split; [tauto|tauto]].
    clear. induction (o_ways o); constructor; [|assumption]. unfold way_grown. split; [reflexivity|]. split; [reflexivity|].
    split; [apply grown_refl|]. split; [lia|]. split; reflexivity.
  - destruct (IH Hu ltac:(intros order' j' a m Hin; apply (Ha order' j' a m (or_intror Hin)))) as (I1 & I2 & I3 & I4 & I5 & I6). cbn [placed flat_map snd app]. fold (placed out).
    split; [exact I1|]. split; [exact I2|]. split; [exact I3|]. split; [exact I4|]. split; [|exact I6].
    intros j' n [E|Hin]; [discriminate|]. exact (I5 _ _ Hin).
  - pose proof (unused_step _ _ _ _ _ Hu Ei En HF) as Hu1.
    assert (Ha1 : forall order' j' a m, In (order', j') l -> In a order' -> In m (snd a) -> In m (o_nodes o1)).
    { intros order' j' a m Hin H1 H2. rewrite En. apply in_or_app. left. apply (Ha order' j' a m); [right; exact Hin|exact H1|exact H2]. }
    destruct (IH Hu1 Ha1) as (I1 & I2 & I3 & I4 & I5 & I6). clear IH.
    assert (Href : In ref (o_nodes o)).
    { refine (find_best_in hav fuel o order (j_km j) ref (fun n => In n (o_nodes o)) _ _ Hf); [auto|].
      intros a Hin m Hm. apply (Ha order j a m); [left; reflexivity|exact Hin|exact Hm]. }
    cbn [placed flat_map snd app]. fold (placed out).
    assert (Hfresh : forall x, x = n_id new \/ In x (map n_id (o_nodes o)) -> ~ In x (map n_id (placed out))).
    { intros x Hx Hi. rewrite I3 in Hi. apply in_map_iff in Hi. destruct Hi as (i & <- & Hi). apply in_seq in Hi.
      destruct Hx as [Hx|Hx].
      - rewrite Ei in Hx. apply decimal_inj in Hx. lia.
      - apply in_map_iff in Hx. destruct Hx as (n & En' & Hn). apply (proj1 (Hu (c + 1 + N.of_nat i)%N ltac:(lia)) n Hn En'). }
    assert (Hnew : same_ways o' (n_id new) (n_id ref)).
    { intros w' Hw'. destruct (Forall2_in_right _ _ _ _ I4 Hw') as (w1 & Hw1 & _ & _ & Hg & _).
      rewrite (grown_in _ _ _ _ Hg) by (apply Hfresh; left; reflexivity).
      rewrite (grown_in _ _ _ _ Hg) by (apply Hfresh; right; apply in_map, Href).
      destruct (Forall2_in_right _ _ _ _ HF Hw1) as (w & Hw & _ & _ & Hb). apply (beside_same _ _ _ _ Hb).
      rewrite Ei. apply (proj2 (Hu (c + 1)%N ltac:(lia)) w Hw). }
    split; [rewrite I1, En, <- app_assoc; reflexivity|]. split; [congruence|].
    split.
    { cbn [map List.length seq]. rewrite Ei. f_equal. rewrite I3, <- (seq_shift _ 1), map_map. apply map_ext. intros i. f_equal. lia. }
    split.
    { refine (Forall2_trans _ _ _ _ _ _ _ HF I4). intros w w1 w' (T1 & T2 & Hb) (T3 & T4 & Hg & Hlen & He).
      split; [congruence|]. split; [congruence|]. split.
      - cbn [map]. apply (grown_trans [n_id new] _ _ (w_nd w1)); [eapply beside_grown, Hb|exact Hg].
      - pose proof (beside_longer _ _ _ _ Hb). split; [lia|]. intros Hl. eapply same_ends_trans; [eapply beside_ends; [exact Hb|exact Hl]|apply He; lia]. }
    split.
    { intros j' n [E|Hin]; [inversion E; subst; exact Et|exact (I5 _ _ Hin)]. }
    intros n [<-|Hn].
    + exists ref. auto.
    + destruct (I6 n Hn) as (r & Hr & E1 & E2 & Hs). rewrite En in Hr. apply in_app_or in Hr. destruct Hr as [Hr|[<-|[]]].
      * exists r. auto.
      * exists ref. split; [exact Href|]. split; [congruence|]. split; [congruence|]. intros w Hw. rewrite (Hs w Hw). apply Hnew, Hw.
Qed.

(* the lists of halts and signals *)
Lemma put_out_entered sel kinds out : (forall k, sel k = true <-> In k kinds) -> NoDup (map n_id (placed out)) -> forall l,
  (forall id p, In (id, p) l -> ~ In id (map n_id (placed out))) -> entered kinds out l (put_out sel out l).
Proof.
  intros Hsel. unfold entered. induction out as [|[j [n|]] out IH]; intros Hn l Hl.
  - intros id p. cbn. split; [tauto|]. intros [|(j & n & [] & _)]; assumption.
  - cbn [placed flat_map snd app map] in Hn, Hl. fold (placed out) in Hn, Hl. inversion Hn as [|? ? Hnot Hn']; subst.
    cbn [put_out]. intros id p. rewrite (IH Hn').
    + assert (E : In (id, p) (put_if (sel (j_kind j)) l (n_id n) (mkplace (j_text j) (n_lat n) (n_lon n))) <->
        In (id, p) l \/ In (j_kind j) kinds /\ id = n_id n /\ p = mkplace (j_text j) (n_lat n) (n_lon n)).
      { rewrite <- Hsel. unfold put_if. destruct (sel (j_kind j)).
        - rewrite put_place_in. split; [tauto|]. intros [H|H]; [|tauto]. right. split; [|exact H]. intros ->. apply (Hl _ _ H). left. reflexivity.
        - split; [tauto|]. intros [H|(H & _)]; [exact H|discriminate]. }
      rewrite E. split.
      * intros [[H|H]|(j' & n' & H)]; [tauto| |]; right.
        -- exists j, n. split; [left; reflexivity|exact H].
        -- exists j', n'. split; [right; apply H|apply H].
      * intros [H|(j' & n' & [H0|H0] & H)]; [tauto| |].
        -- inversion H0; subst. left. right. exact H.
        -- right. exists j', n'. split; [exact H0|exact H].
    + intros id' p' H. unfold put_if in H. destruct (sel (j_kind j)).
      * apply put_place_in in H. destruct H as [(-> & _)|(_ & H)]; [exact Hnot|]. intros Hi. apply (Hl _ _ H). right. exact Hi.
      * intros Hi. apply (Hl _ _ H). right. exact Hi.
  - cbn [placed flat_map snd app map] in Hn, Hl. fold (placed out) in Hn, Hl. cbn [put_out]. intros id p. rewrite (IH Hn l Hl).
    split; (intros [H|(j' & n' & H0 & H)]; [left; exact H|right; exists j', n'; split; [|exact H]]).
    + right. exact H0.
    + destruct H0 as [H0|H0]; [discriminate|exact H0].
Qed.
Lemma decimals_nodup c k : NoDup (map (fun i => decimal (c + N.of_nat i)) (seq 1 k)).
Proof.
  apply FinFun.Injective_map_NoDup; [|apply seq_NoDup]. intros a b E. apply decimal_inj in E. lia.
Qed.

(* the requests of a line *)
Lemma makes_named_dir kd e sub f : makes (mkreq kd (e_km e) (e_name e) (fun c n => create_named_directional_node c n sub (e_name e) f))
  (named kd sub [if f then falling_tag else rising_tag] e).
Proof. repeat split. intros c n. destruct f; reflexivity. Qed.
Lemma Forall2_map2 {A B C} (R : B -> C -> Prop) (f : A -> B) (g : A -> C) l : (forall a, R (f a) (g a)) -> Forall2 R (map f l) (map g l).
Proof. intros H. induction l; cbn; constructor; auto. Qed.
Lemma signal_requests_makes kd l (f : bool) : Forall2 makes (signal_requests kd l f) (map (named kd (signal_subtype kd) [if f then falling_tag else rising_tag]) l).
Proof. apply Forall2_map2. intros e. apply makes_named_dir. Qed.
Definition simple_jobs (x : kind * list elem) : list job := map (plain (fst x) (simple_subtype (fst x)) []) (snd x).
Definition named_jobs (x : kind * list elem) : list job :=
  map (named (fst x) (match fst x with TrackEnd => "track_end" | _ => "tunnel" end)%string []) (snd x).
Lemma flat_map_F2 {A B C} (R : B -> C -> Prop) (f : A -> list B) (g : A -> list C) l : (forall a, Forall2 R (f a) (g a)) -> Forall2 R (flat_map f l) (flat_map g l).
Proof. intros H. induction l; cbn; [constructor|]. apply Forall2_app; auto. Qed.
Lemma flat_map_perm {A B} (f : A -> list B) l l' : Permutation l l' -> Permutation (flat_map f l) (flat_map f l').
Proof. intros H. rewrite !flat_map_concat_map. induction H; cbn; [constructor|apply Permutation_app_head; assumption| |eapply perm_trans; eassumption].
  rewrite !app_assoc. apply Permutation_app_tail, Permutation_app_comm. Qed.
Definition rest_jobs (k : knoten) : list job :=
  map (named ProtectionSignal "ps" [falling_tag]) (k_prot_f k) ++
  map (named ProtectionSignal "ps" [rising_tag]) (k_prot_s k) ++
  map (named ApproachSignal "as" [falling_tag]) (k_app_f k) ++
  map (named ApproachSignal "as" [rising_tag]) (k_app_s k) ++
  map (named Crosses "cross" []) (k_cross k) ++
  map (named Halt "hlt" [falling_tag]) (k_gz_f k ++ k_rz_f k) ++
  map (named Halt "hlt" [rising_tag]) (k_gz_s k ++ k_rz_s k) ++
  map (fun e => plain SpeedLimits "spl" [falling_tag; ("speed"%string, snd e)] (fst e)) (k_speed_f k) ++
  map (fun e => plain SpeedLimits "spl" [rising_tag; ("speed"%string, snd e)] (fst e)) (k_speed_s k) ++
  map (plain Eotds "eotd" [falling_tag]) (k_route_end_f k ++ k_signal_end_f k) ++
  map (plain Eotds "eotd" [rising_tag]) (k_route_end_s k ++ k_signal_end_s k) ++
  map (fun e => plain Slopes "slope" [("rising"%string, snd (fst e)); ("falling"%string, snd e)] (fst (fst e))) (k_slope k).
Lemma jobs_split k : jobs k = flat_map simple_jobs (simple_elements k) ++ flat_map named_jobs (named_elements k) ++ rest_jobs k.
Proof. cbn [flat_map simple_elements named_elements]. rewrite !app_nil_r, <- !app_assoc. reflexivity. Qed.
Lemma knoten_requests_makes k simple named_ : exists js, Forall2 makes (knoten_requests k simple named_) js /\
  (Permutation simple (simple_elements k) -> Permutation named_ (named_elements k) -> Permutation js (jobs k)).
Proof.
  exists (flat_map simple_jobs simple ++ flat_map named_jobs named_ ++ rest_jobs k). split.
  - unfold knoten_requests, rest_jobs. repeat apply Forall2_app; try (apply Forall2_map2; intros; repeat split; fail).
    + apply flat_map_F2. intros [kd l]. apply Forall2_map2. intros e. repeat split.
    + apply flat_map_F2. intros [kd l]. apply Forall2_map2. intros e. repeat split.
  - intros P1 P2. rewrite jobs_split. apply Permutation_app; [apply flat_map_perm, P1|]. apply Permutation_app_tail, flat_map_perm, P2.
Qed.
Lemma unanchored_makes f s w : Forall2 makes (unanchored_requests f s w) (left_over f s w).
Proof. unfold unanchored_requests, left_over. repeat apply Forall2_app; apply Forall2_map2; intros; repeat split. Qed.
