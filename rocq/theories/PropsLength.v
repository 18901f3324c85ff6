(* C71: the length of a route is the distance drawn *)
From Coq Require Import List Bool NArith QArith Qabs String Sorted Permutation Arith Lia Lqa.
From Verif Require Import Base TextModel InfraModel InfraSpec InfraAdd StationModel StationSpec StationPath StationRoute
  StationProofs StationNet StationWay StationDrawn StationLength PropsInfra PropsStation PropsDrawn.
Import ListNotations.
Local Open Scope nat_scope.

Lemma follows_valid l xcourse ws : forall k w, follows l xcourse k w ws -> (exists x, section_at l (fst w) x) ->
  forall v, In v (w :: ws) -> exists x, section_at l (fst v) x.
Proof.
  induction ws as [|w' ws IH]; intros k w Fo V v [<-|Hv]; auto; [destruct Hv|].
  assert (exists m k', node_at l (enters w') m /\ follows l xcourse k' w' ws) as (m & k' & (x & Hx & _) & Fo').
  { inversion Fo; subst; eauto. }
  apply (IH k' w' Fo'); [exists x; exact Hx|exact Hv].
Qed.

Section ENDS.
  Variables (l : list xstation) (g : graph) (ls : list links) (run : nat -> bool -> list node) (arrive : nat -> bool -> node).
  Hypothesis F : net_facts l g ls run arrive.
  Lemma track_device w id t n m : at_track l w id t -> is_device g n m -> sn_id n = id -> False.
  Proof.
    intros T (R & e & He & Ty) Id.
    destruct (nf_elem _ _ _ _ _ F w id t T) as (x & i & e' & k & _ & N & He' & _ & _ & (_ & e2 & He2 & Ty2 & _) & _).
    unfold names in N. rewrite Id in R. assert (i = fst m) by congruence. subst i. cbn [fst] in He2.
    destruct T as (_ & _ & _ & _ & Dt & _).
    assert (tn_type t = stype (sn_name n)) as X by congruence. rewrite X in Dt. destruct (sn_name n); discriminate.
  Qed.
  Lemma track_same w id t t' m : at_track l w id t -> at_track l w id t' -> stands_for g t m -> stands_for g t' m.
  Proof.
    intros T T' (R & _). destruct (nf_elem _ _ _ _ _ F w id t' T') as (x & i & e' & k & _ & N & _ & _ & _ & (R' & S') & _).
    cbn [fst] in *. destruct T as (_ & _ & _ & Id & _). destruct T' as (_ & _ & _ & Id' & _).
    assert (i = fst m) by congruence. subst i. split; [exact R'|exact S'].
  Qed.
  Lemma node_one p n m : node_at l p n -> node_at l p m -> n = m.
  Proof. intros (x1 & (s1 & A1) & ->) (x2 & (s2 & A2) & ->). assert (x1 = x2) by congruence. subst. reflexivity. Qed.

  Lemma goes_length start stop w ws nodes k xcourse a b d len :
    follows l xcourse k w ws -> (exists x, section_at l (fst w) x) ->
    goes l g run arrive start stop w ws nodes ->
    (forall v, In v (w :: ws) -> between_ends l (fst v)) ->
    starts_km l w start a -> ends_km l (last ws w) stop b -> distance l w ws a b d ->
    path_length g nodes = Ok len -> (len == d)%Q.
  Proof.
    intros Fo V (dep & pre & post & Eq & St & En) Bt Sa Eb Di Pl.
    pose proof (follows_valid _ _ _ _ _ Fo V) as Vs.
    assert (Dv := fun p n => dr_arrive _ _ _ _ _ (nf_drawn _ _ _ _ _ F) p n).
    assert (Ln : from arrive w :: map fst (line_of run arrive (w :: ws)) =
                 elems_of run arrive w ++ map fst (line_of run arrive ws)).
    { rewrite line_cons, map_app. unfold elems_of. cbn [map app]. rewrite <- app_assoc. reflexivity. }
    assert (exists i, starting l g run w i a /\
       skipn i (elems_of run arrive w) ++ map fst (line_of run arrive ws) = map fst nodes ++ map fst post) as (i & Si & Ei).
    { destruct St as [(n & m & Hn & Id & Dm & -> & ->)|(t & m & T & -> & Lp & Hm & Sm)].
      - exists 0. split.
        + left. split; [reflexivity|]. destruct Sa as [(n' & Hn' & Id' & ->)|(t & T & ->)].
          * exists n'. auto.
          * exfalso. exact (track_device w start t n m T Dm Id).
        + cbn [skipn]. rewrite <- Ln, <- map_app. cbn [app] in Eq. refine (eq_trans _ (f_equal (map fst) Eq)).
          cbn [map]. f_equal. destruct (Dv _ _ Hn) as (R & _). destruct Dm as (R' & _). rewrite R in R'. injection R' as R'. exact R'.
      - exists (S (List.length pre)). cbn [app] in Eq.
        assert (Hd : nth_error (rn run w) (List.length pre) = Some m).
        { assert (X : nth_error (line_of run arrive (w :: ws)) (List.length pre) = Some m).
          { rewrite Eq, nth_error_app2, Nat.sub_diag by lia. destruct nodes; [discriminate|]. exact Hm. }
          rewrite line_cons, nth_error_app1 in X by exact Lp. exact X. }
        split.
        + right. exists (List.length pre), m. destruct Sa as [(n' & Hn' & Id' & ->)|(t' & T' & ->)].
          * exfalso. exact (track_device w start t n' _ T (Dv _ _ Hn') Id').
          * exists t'. split; [reflexivity|]. split; [exact Hd|]. split; [|reflexivity]. exact (track_same w start t t' m T T' Sm).
        + assert (X : skipn (S (List.length pre)) (elems_of run arrive w ++ map fst (line_of run arrive ws)) = map fst nodes ++ map fst post).
          { rewrite <- Ln, Eq, !map_app. cbn [skipn]. rewrite skipn_app, map_length, Nat.sub_diag.
            rewrite skipn_all2 by (rewrite map_length; lia). reflexivity. }
          rewrite skipn_app in X. rewrite <- X. f_equal.
          replace (S (List.length pre) - List.length (elems_of run arrive w)) with 0; [reflexivity|].
          rewrite elems_len. unfold rn, node in *. lia. }
    assert (stopping l g run (last ws w) (map fst nodes) (map fst post) b) as Sb.
    { destruct En as [((n & Hn & Id & Wh) & ->)|(t & m & p & T & Lp & -> & Sm)].
      - left. split; [reflexivity|]. destruct Eb as [(n' & Hn' & Id' & ->)|(t & T & ->)].
        + exists n'. auto.
        + exfalso. exact (track_device _ stop t n _ T (Dv _ _ Hn) Id).
      - right. split; [rewrite map_length; exact Lp|]. exists (map fst p), m.
        destruct Eb as [(n' & Hn' & Id' & ->)|(t' & T' & ->)].
        + exfalso. exact (track_device _ stop t n' _ T (Dv _ _ Hn') Id').
        + exists t'. split; [apply map_app|]. split; [|reflexivity]. exact (track_same _ stop t t' m T T' Sm). }
    destruct (way_sum l g ls run arrive F xcourse ws k w i (map fst nodes) (map fst post) a b d Fo) as (s & S1 & S2); auto.
    unfold path_length in Pl. destruct (map fst nodes) as [|j q]; [discriminate|].
    rewrite (length_sum g q 0%Q j len s Pl S1), S2. ring.
  Qed.
End ENDS.

Theorem C71_route_length l inf : well_drawn (map fst l) -> import_routes l = Ok inf ->
  forall k st x r w ws a b d,
    nth_error (routes_of l) k = Some (st, x) -> nth_error (inf_routes inf) k = Some r ->
    any_route_drawn (map fst l) x w ws -> (forall v, In v (w :: ws) -> between_ends (map fst l) (fst v)) ->
    starts_km (map fst l) w (xr_start x) a -> ends_km (map fst l) (last ws w) (xr_end x) b ->
    distance (map fst l) w ws a b d -> (ro_length r == d)%Q.
Proof.
  intros WD I k st x r w ws a b d X R Rd0 Bt Sa Eb Di. destruct (import_spec l inf I) as (I1 & I2 & _ & _ & B & _).
  destruct (C70_routes_run_as_drawn l inf WD I) as (run0 & arr0 & _ & C70).
  destruct (C70 k st x r w ws X R Rd0) as [Rd _]. clear C70 Rd0 run0 arr0.
  destruct (network_facts _ WD) as (g & ls & run & arrive & H1 & H2 & F).
  assert (g = inf_graph inf) by congruence. subst g. assert (ls = inf_links inf) by congruence. subst ls.
  destruct (B k st x r X R) as (_ & P & _ & Pl). pose proof Rd as (Fo & St & En).
  destruct P as (i & j & a' & b' & course & N1 & N2 & S1 & E1 & Ad & Dr).
  destruct (drawn_drive _ _ _ _ _ F _ _ Ad _ _ w ws Fo St En) as (i' & j' & a'' & b'' & Q & N1' & N2' & S1' & E1' & Dr' & G).
  unfold names in *. assert (i' = i) by congruence. assert (j' = j) by congruence. subst i' j'.
  rewrite (starts_at_fun _ _ _ _ S1' S1), (ends_at_fun _ _ _ _ E1' E1) in Dr'.
  rewrite (drive_to_unique _ _ _ _ _ _ _ Dr Dr') in Pl.
  refine (goes_length _ _ _ _ _ F _ _ w ws Q 0 _ a b d _ Fo _ G Bt Sa Eb Di Pl).
  destruct St as [(n & (y & Hy & _) & _)|(t & y & Hy & _)]; exists y; exact Hy.
Qed.
Print Assumptions C71_route_length.

(* the second route of the example: half a kilometre to the switch, one to the end *)
Example C71_sat :
  (forall v, In v [(0, true); (2, true)] -> between_ends ex_plan (fst v)) /\
  starts_km ex_plan (0, true) 10 (1 # 2) /\ ends_km ex_plan (2, true) 6 2 /\
  distance ex_plan (0, true) [(2, true)] (1 # 2) 2 (Qabs (1 - (1 # 2)) + Qabs (2 - 1)) /\
  (Qabs (1 - (1 # 2)) + Qabs (2 - 1) == 3 # 2)%Q.
Proof.
  split; [|split; [|split; [|split]]].
  - intros v Hv x Hx. destruct Hv as [<-|[<-|[]]]; cbn [fst] in Hx; destruct Hx as (st & Hx); cbn in Hx; injection Hx as <- <-;
      cbn [xs_start xs_end xs_track ex_node sn_km]; (split; [cbn; lra|]); intros t Ht; cbn in Ht.
    + destruct Ht as [<-|[<-|[<-|[]]]]; cbn; lra.
    + destruct Ht.
  - right. exists (mktnode MAIN_SIGNAL true 10 (1#2)). split; [|reflexivity]. eexists. split; [eexists; reflexivity|]. cbn. auto.
  - left. eexists. split; [eapply ex_at; reflexivity|]. split; reflexivity.
  - refine (di_more ex_plan (0, true) (2, true) [] (ex_node N_SWITCH_START 2 0 1 "") (ex_node N_SWITCH_BRANCH_LEFT 5 2 1 "") _ _ _ _ _ _);
      [eexists; split; [eexists|]; reflexivity|eexists; split; [eexists|]; reflexivity|]. apply di_one.
  - reflexivity.
Qed.
