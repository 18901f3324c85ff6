From Coq Require Import Ascii String List QArith ZArith NArith Bool Lia Permutation.
From Verif Require Import Base GenOsmModel GenOsmSpec GenOsmProofs GenFindModel GenFindSpec GenMapModel GenMapSpec GenMapProofs GenMapProofs2 GenMapProofs3 GenMapProofs4.
Import ListNotations.
Local Open Scope list_scope.
Local Open Scope nat_scope.

(* ---- identifying main signals ---- *)
Lemma no_blanks_cons c s : no_blanks (String.String c s) = if Ascii.eqb c " " then no_blanks s else String.String c (no_blanks s).
Proof. unfold no_blanks. cbn [list_ascii_of_string filter]. destruct (Ascii.eqb c " "); reflexivity. Qed.
Lemma no_blanks_iff s : forall t, no_blanks s = t <-> without_blanks s t.
Proof.
  induction s as [|c s IH]; intros t.
  - cbn. split; [intros <-; constructor|]. intros H. inversion H. reflexivity.
  - rewrite no_blanks_cons. destruct (Ascii.eqb_spec c " ") as [->|Hc].
    + rewrite IH. split; [apply wb_blank|]. intros H. inversion H; subst; [assumption|congruence].
    + split.
      * intros <-. apply wb_char; [exact Hc|apply IH; reflexivity].
      * intros H. inversion H; subst; [congruence|]. f_equal. apply IH. assumption.
Qed.
Lemma signal_matches_iff name n : name <> ""%string -> (signal_matches name n = true <-> signal_node name n).
Proof.
  intros Hn. unfold signal_matches, signal_node. rewrite <- tag_value_first by discriminate.
  assert (R : no_blanks (tag_value n "ref") = name <-> exists v, first_tag "ref" v (n_tags n) /\ without_blanks v name).
  { unfold tag_value, find_tag_on_node. split.
    - destruct (find_tag (n_tags n) "ref") as [v|] eqn:E.
      + intros H. exists v. split; [apply first_tag_find, E|apply no_blanks_iff, H].
      + intros <-. contradiction.
    - intros (v & H1 & H2). apply first_tag_find in H1. rewrite H1. apply no_blanks_iff, H2. }
  rewrite <- R. destruct (n_tags n) as [|t l] eqn:E.
  - split; [discriminate|]. intros [H _]. unfold tag_value, find_tag_on_node in H. rewrite E in H. discriminate.
  - rewrite andb_true_iff, !String.eqb_eq. reflexivity.
Qed.
Lemma positions_app {A} (p : A -> bool) l l' : forall b, positions p b (l ++ l') = positions p b l ++ positions p (b + List.length l) l'.
Proof.
  induction l as [|x l IH]; intros b; cbn [app positions List.length]; [rewrite Nat.add_0_r; reflexivity|].
  rewrite IH, Nat.add_succ_comm. destruct (p x); reflexivity.
Qed.
Lemma positions_none {A} (p : A -> bool) l : forall b, (forall x, In x l -> p x = false) -> positions p b l = [].
Proof. induction l as [|x l IH]; intros b H; cbn [positions]; [reflexivity|]. rewrite (H x (or_introl eq_refl)). apply IH. intros y Hy. apply H. right. exact Hy. Qed.
Lemma positions_none_iff {A} (p : A -> bool) l b : positions p b l = [] -> forall x, In x l -> p x = false.
Proof.
  revert b. induction l as [|y l IH]; intros b H x; cbn [positions] in H; [contradiction|]. destruct (p y) eqn:E; [discriminate|].
  intros [<-|Hx]; [exact E|exact (IH _ H x Hx)].
Qed.
Lemma positions_one {A} (p : A -> bool) l : forall b i, positions p b l = [i] -> exists pre x post, l = pre ++ x :: post /\ i = b + List.length pre /\ p x = true /\ Forall (fun y => p y = false) (pre ++ post).
Proof.
  induction l as [|y l IH]; intros b i H; cbn [positions] in H; [discriminate|]. destruct (p y) eqn:E.
  - inversion H; subst. exists [], y, l. split; [reflexivity|]. split; [cbn; lia|]. split; [exact E|]. apply Forall_forall. apply (positions_none_iff _ _ _ H2).
  - destruct (IH _ _ H) as (pre & x & post & -> & -> & Hx & HF). exists (y :: pre), x, post. split; [reflexivity|]. split; [cbn; lia|]. split; [exact Hx|]. constructor; assumption.
Qed.
Definition ident (o : osm) (s : elem) (n : node) : Prop :=
  exists i, positions (signal_matches (e_name s)) 0 (o_nodes o) = [i] /\ nth_error (o_nodes o) i = Some n.
Lemma ident_iff o s n : e_name s <> ""%string -> (ident o s n <-> identified o s n).
Proof.
  intros Hs. unfold ident, identified. split.
  - intros (i & Hp & Hn). apply positions_one in Hp. destruct Hp as (pre & x & post & E & -> & Hx & HF). rewrite E, nth_error_app2, Nat.add_0_l, Nat.sub_diag in Hn by lia. inversion Hn; subst.
    exists pre, post. split; [exact E|]. split; [apply signal_matches_iff; assumption|]. eapply Forall_impl; [|exact HF]. cbn. intros m Hm C. apply signal_matches_iff in C; [congruence|exact Hs].
  - intros (pre & post & E & Hn & HF). exists (List.length pre). rewrite E. split; [|rewrite nth_error_app2, Nat.sub_diag by lia; reflexivity].
    assert (G : forall m, In m (pre ++ post) -> signal_matches (e_name s) m = false).
    { intros m Hm. rewrite Forall_forall in HF. specialize (HF m Hm). destruct (signal_matches (e_name s) m) eqn:Em; [|reflexivity]. apply signal_matches_iff in Em; [contradiction|exact Hs]. }
    rewrite positions_app. cbn [positions]. rewrite (proj2 (signal_matches_iff _ _ Hs) Hn).
    rewrite !positions_none; [reflexivity| |]; intros m Hm; apply G, in_or_app; auto.
Qed.

Lemma drop_tags km : forall l st st', drop_anchors km l st = Ok st' -> forall j n', nth_error (o_nodes (a_osm st')) j = Some n' ->
  exists n k, nth_error (o_nodes (a_osm st)) j = Some n /\ n_tags n' = firstn k (n_tags n).
Proof.
  induction l as [|i l IH]; intros st st' H j n' Hj; cbn [drop_anchors] in H.
  - inversion H; subst. exists n', (List.length (n_tags n')). split; [exact Hj|]. rewrite firstn_all. reflexivity.
  - destruct (nth_error (o_nodes (a_osm st)) i) as [n|] eqn:En; [|discriminate].
    destruct (nth_error (n_tags n) 3) as [[t v]|] eqn:Et; [|discriminate].
    destruct (set_nth_some (o_nodes (a_osm st)) i (fun n => mknode (firstn (List.length (n_tags n) - 4) (n_tags n)) (n_id n) (n_lat n) (n_lon n)) n En)
      as (nodes & Es & Hlen & Hi & Hjj). rewrite Es in H. destruct (IH _ _ H j n' Hj) as (m & k & Hm & Ek). cbn [a_osm o_nodes] in Hm.
    destruct (Nat.eq_dec j i) as [->|Hne].
    + rewrite Hi in Hm. inversion Hm; subst. cbn [n_tags] in Ek. rewrite firstn_firstn in Ek. exists n, (Nat.min k (List.length (n_tags n) - 4)). auto.
    + exists m, k. rewrite Hjj in Hm by exact Hne. auto.
Qed.
Lemma find_tag_firstn k v : forall l j, find_tag (firstn j l) k = Some v -> find_tag l k = Some v.
Proof.
  induction l as [|[a b] l IH]; intros j H; [rewrite firstn_nil in H; discriminate|]. destruct j as [|j]; [discriminate|]. cbn [firstn find_tag] in *.
  destruct (String.eqb a k); [exact H|exact (IH _ H)].
Qed.

Definition dir (f : bool) : tag := if f then falling_tag else rising_tag.
Definition stands (o0 : osm) (D : list (elem * bool)) (km : Q) (n : node) : Prop :=
  exists s f, In (s, f) D /\ (km == e_km s)%Q /\ n_tags n = element_tags "ms" [dir f; name_tag s] /\
    exists n0, ident o0 s n0 /\ n_lat n = n_lat n0 /\ n_lon n = n_lon n0.
Definition snd_ok (o0 : osm) (D : list (elem * bool)) (st : astate) : Prop :=
  sig_ok o0 st /\
  (forall j n, List.length (o_nodes o0) <= j -> nth_error (o_nodes (a_osm st)) j = Some n -> find_tag (n_tags n) "railway" <> Some "signal"%string) /\
  (forall km n, anchored (a_osm st) (a_anchors st) km n -> stands o0 D km n).

Lemma stands_more o0 D D' km n : (forall x, In x D -> In x D') -> stands o0 D km n -> stands o0 D' km n.
Proof. intros H (s & f & H1 & H2). exists s, f. split; [apply H, H1|exact H2]. Qed.
Lemma snd_ok_more o0 D D' st : (forall x, In x D -> In x D') -> snd_ok o0 D st -> snd_ok o0 D' st.
Proof. intros H (H1 & H2 & H3). split; [exact H1|]. split; [exact H2|]. intros km n A. eapply stands_more; [exact H|apply H3, A]. Qed.
Lemma positions_state o0 D st s : snd_ok o0 D st -> positions (signal_matches (e_name s)) 0 (o_nodes (a_osm st)) = positions (signal_matches (e_name s)) 0 (o_nodes o0).
Proof.
  intros (((extra & E) & _) & H2 & _). rewrite E, positions_app, (positions_none _ extra), app_nil_r; [reflexivity|].
  intros n Hn. apply In_nth_error in Hn. destruct Hn as (j & Hj).
  assert (F : find_tag (n_tags n) "railway" <> Some "signal"%string).
  { apply (H2 (List.length (o_nodes o0) + j)); [lia|]. rewrite E, nth_error_app2 by lia. replace (_ + j - _) with j by lia. exact Hj. }
  unfold signal_matches. destruct (n_tags n) eqn:Et; [reflexivity|]. apply andb_false_intro1. apply String.eqb_neq. unfold tag_value, find_tag_on_node. rewrite Et.
  destruct (find_tag (t :: l) "railway"); [congruence|discriminate].
Qed.
Lemma nodes_prefix o0 st i n : (exists extra, o_nodes (a_osm st) = o_nodes o0 ++ extra) -> nth_error (o_nodes o0) i = Some n -> nth_error (o_nodes (a_osm st)) i = Some n.
Proof. intros (extra & ->) H. rewrite nth_error_app1; [exact H|]. apply nth_error_Some. congruence. Qed.

Lemma insert_sound o0 D order n s f st b st' : reorders order -> snd_ok o0 D st -> ident o0 s n ->
  insert_new_hauptsignal (order (a_anchors st)) n s f st = Ok (b, st') -> snd_ok o0 ((s, f) :: D) st' /\ a_conflicts st' = a_conflicts st /\
  ((forall s' f' n', In (s', f') D -> ident o0 s' n' -> n_lat n' = n_lat n -> n_lon n' = n_lon n -> (e_km s' == e_km s)%Q) -> ~ In (e_name s) (a_conflicts st) ->
   b = true /\ a_missing st' = a_missing st /\ (forall km m, anchored (a_osm st) (a_anchors st) km m -> anchored (a_osm st') (a_anchors st') km m) /\
   exists new, anchored (a_osm st') (a_anchors st') (e_km s) new /\ n_tags new = element_tags "ms" [dir f; name_tag s] /\ n_lat new = n_lat n /\ n_lon new = n_lon n).
Proof.
  intros Ho Hok Hid H. pose proof Hok as (Hsig & Hrail & Hst). pose proof Hid as (i & _ & Hi0). pose proof Hsig as (Hpre & Hd & Hnd & Han & _).
  pose proof (nodes_prefix _ _ _ _ Hpre Hi0) as Hi.
  destruct (insert_signal o0 order n i s f st Ho Hsig Hi) as (b' & st2 & E & Hsig' & _ & Hnew). rewrite E in H. inversion H; subst b' st2. clear H.
  unfold insert_new_hauptsignal in E. destruct (existsb (String.eqb (e_name s)) (a_conflicts st)) eqn:Ex.
  { inversion E; subst. split; [eapply snd_ok_more; [|exact Hok]; intros x Hx; right; exact Hx|]. split; [reflexivity|].
    intros _ Hn. exfalso. apply Hn. apply existsb_exists in Ex. destruct Ex as (x & Hx & Ee). apply String.eqb_eq in Ee. subst. exact Hx. }
  destruct (find_conflict (a_osm st) n (e_km s) (order (a_anchors st))) as [[k l]|] eqn:Ef.
  - pose proof (find_conflict_in _ _ _ _ _ _ Ef) as (Hin & Hne & Hsame). apply (Permutation_in _ (Ho _)) in Hin.
    apply bind_Ok in E. destruct E as (st1 & H1 & E). inversion E; subst b st'. clear E. pose proof (drop_tags _ _ _ _ H1) as HT.
    pose proof (anchor_delete_flat _ _ _ Hd Hin) as P. pose proof (Permutation_NoDup P Hnd) as Hnd'.
    apply drop_anchors_spec in H1. destruct H1 as (E1 & E2 & E3 & E4 & E5 & E6 & E7 & E8 & E9 & E10 & _).
    cbn [a_osm a_anchors a_conflicts] in *. split; [|split; [exact E2|]].
    + split; [exact Hsig'|]. split.
      * cbn [a_osm]. intros j m Hj Hm C. destruct (HT j m Hm) as (m0 & kk & H0 & Ek). rewrite Ek in C. apply find_tag_firstn in C. exact (Hrail j m0 Hj H0 C).
      * cbn [a_osm a_anchors]. intros km m (k1 & l1 & j & A1 & A2 & A3 & A4). rewrite E1 in A1. eapply stands_more; [|apply Hst]; [intros x Hx; right; exact Hx|].
        rewrite E10 in A4. { apply anchor_delete_in in A1. exists k1, l1, j. tauto. }
        intros Hjl. apply (nodup_app_disj _ _ _ Hnd' Hjl). eapply flat_in; eassumption.
    + intros Hag _. exfalso. apply existsb_exists in Hsame. destruct Hsame as (j & Hj & Hp). unfold same_place in Hp.
      destruct (nth_error (o_nodes (a_osm st)) j) as [m|] eqn:Em; [|discriminate]. apply andb_true_iff in Hp. rewrite !String.eqb_eq in Hp. destruct Hp as [L1 L2].
      destruct (Hst k m) as (s' & f' & D1 & D2 & D3 & n0 & D4 & D5 & D6); [exists k, l, j; split; [exact Hin|]; split; [reflexivity|auto]|].
      apply Hne. rewrite D2. apply (Hag s' f' n0 D1 D4); congruence.
  - cbn [create_named_directional_node create_directional_node create_simple_node] in E.
    set (new := add_tag _ "id" (e_name s)) in E.
    assert (Tnew : n_tags new = element_tags "ms" [dir f; name_tag s]) by (unfold new; destruct f; reflexivity).
    assert (Lnew : n_lat new = n_lat n /\ n_lon new = n_lon n) by (split; reflexivity).
    clearbody new. inversion E; subst b st'. clear E. cbn [a_osm a_anchors a_conflicts a_missing] in *. split; [|split; [reflexivity|]].
    + split; [exact Hsig'|]. split; cbn [a_osm a_anchors insert_new_node o_nodes].
      * intros j m Hj Hm. destruct (Nat.lt_ge_cases j (List.length (o_nodes (a_osm st)))) as [Hlt|Hge].
        -- rewrite nth_error_app1 in Hm by exact Hlt. exact (Hrail j m Hj Hm).
        -- rewrite nth_error_app2 in Hm by exact Hge. destruct (j - _) as [|[|]]; cbn in Hm; inversion Hm; subst. rewrite Tnew. destruct f; discriminate.
      * intros km m A. apply anchored_add_inv in A. destruct A as [(k1 & l1 & j & A1 & A2 & A3 & A4)|[A1 A2]].
        -- cbn [insert_new_node o_nodes] in A4. eapply stands_more; [|apply Hst]; [intros x Hx; right; exact Hx|]. exists k1, l1, j. split; [exact A1|]. split; [exact A2|]. split; [exact A3|].
           rewrite nth_error_app1 in A4; [exact A4|]. destruct (Han j (flat_in _ _ _ _ A1 A3)) as (_ & m' & s' & Hm' & _). apply nth_error_Some. congruence.
        -- cbn [insert_new_node o_nodes] in A2. rewrite nth_error_app2, Nat.sub_diag in A2 by lia. inversion A2; subst m. exists s, f. split; [left; reflexivity|]. split; [exact A1|]. split; [exact Tnew|].
           exists n. split; [exact Hid|]. exact Lnew.
    + intros _ _. split; [reflexivity|]. split; [reflexivity|]. split.
      * intros km m A. apply anchored_add. refine (anchored_app _ _ _ _ _ _ A). exists [new]. reflexivity.
      * destruct (Hnew eq_refl) as (new' & A1 & A2 & A3 & A4). exists new'. split; [exact A1|]. split; [exact A3|exact A4].
Qed.

Lemma ident_dec o s : (exists n, ident o s n) \/ ~ exists n, ident o s n.
Proof.
  unfold ident. destruct (positions (signal_matches (e_name s)) 0 (o_nodes o)) as [|i [|]] eqn:E.
  - right. intros (n & j & H & _). discriminate.
  - destruct (nth_error (o_nodes o) i) as [n|] eqn:En; [left; exists n, i; auto|]. right. intros (n & j & H & H'). inversion H; subst. congruence.
  - right. intros (n' & j & H & _). discriminate.
Qed.
Lemma ident_fun o s n n' : ident o s n -> ident o s n' -> n = n'.
Proof. intros (i & A & B) (j & C & D). rewrite A in C. inversion C; subst. congruence. Qed.

(* one signal of the list *)
Definition attempt (order : shuffle) (s : elem) (f : bool) (st : astate) : res (bool * astate) :=
  match positions (signal_matches (e_name s)) 0 (o_nodes (a_osm st)) with
  | [i] => match nth_error (o_nodes (a_osm st)) i with None => UB | Some n =>
             do ' (ok, st) <- insert_new_hauptsignal (order (a_anchors st)) n s f st;
             if ok : bool
             then Ok (true, mkas (a_osm st) (a_anchors st) (a_missing st) (a_conflicts st) (a_count st + 1) (a_id st)
                        (put_place (a_signals st) (n_id n) (GenOsmModel.mkplace (e_name s) (n_lat n) (n_lon n))))
             else Ok (false, st)
           end
  | _ => Ok (false, st)
  end.
Definition next (s : elem) (st : astate) : astate :=
  mkas (a_osm st) (a_anchors st) (a_missing st ++ [s]) (e_name s :: a_conflicts st) (a_count st) (a_id st) (a_signals st).
Lemma process_cons order s l f st : process_hauptsignal ((order, s) :: l) f st =
  (do ' (ok, st) <- attempt order s f st; if ok : bool then Ok st else process_hauptsignal l f (next s st)).
Proof. reflexivity. Qed.
Definition barred (o0 : osm) (st : astate) : Prop := forall s n, In (e_name s) (a_conflicts st) -> ~ ident o0 s n.
Lemma attempt_spec o0 D order s f st b st' : reorders order -> snd_ok o0 D st -> attempt order s f st = Ok (b, st') ->
  snd_ok o0 ((s, f) :: D) st' /\ a_conflicts st' = a_conflicts st /\
  ((forall s' f' n' n, In (s', f') D -> ident o0 s' n' -> ident o0 s n -> n_lat n' = n_lat n -> n_lon n' = n_lon n -> (e_km s' == e_km s)%Q) -> barred o0 st ->
   (forall km m, anchored (a_osm st) (a_anchors st) km m -> anchored (a_osm st') (a_anchors st') km m) /\ a_missing st' = a_missing st /\
   (b = true -> exists n new, ident o0 s n /\ anchored (a_osm st') (a_anchors st') (e_km s) new /\ n_tags new = element_tags "ms" [dir f; name_tag s] /\ n_lat new = n_lat n /\ n_lon new = n_lon n) /\
   (b = false -> forall n, ~ ident o0 s n)).
Proof.
  intros Ho Hok H. unfold attempt in H. pose proof (positions_state _ _ _ s Hok) as Ep. rewrite Ep in H.
  assert (Skip : snd_ok o0 ((s, f) :: D) st) by (eapply snd_ok_more; [|exact Hok]; intros x Hx; right; exact Hx).
  assert (Hno : (forall n, ~ ident o0 s n) -> Ok (false, st) = Ok (b, st') -> snd_ok o0 ((s, f) :: D) st' /\ a_conflicts st' = a_conflicts st /\
    ((forall s' f' n' n, In (s', f') D -> ident o0 s' n' -> ident o0 s n -> n_lat n' = n_lat n -> n_lon n' = n_lon n -> (e_km s' == e_km s)%Q) -> barred o0 st ->
   (forall km m, anchored (a_osm st) (a_anchors st) km m -> anchored (a_osm st') (a_anchors st') km m) /\ a_missing st' = a_missing st /\
   (b = true -> exists n new, ident o0 s n /\ anchored (a_osm st') (a_anchors st') (e_km s) new /\ n_tags new = element_tags "ms" [dir f; name_tag s] /\ n_lat new = n_lat n /\ n_lon new = n_lon n) /\
   (b = false -> forall n, ~ ident o0 s n))).
  { intros Hn E. inversion E; subst. split; [exact Skip|]. split; [reflexivity|]. intros _ _. split; [auto|]. split; [reflexivity|]. split; [discriminate|auto]. }
  destruct (positions (signal_matches (e_name s)) 0 (o_nodes o0)) as [|i [|]] eqn:E0.
  - apply Hno; [|exact H]. intros n (j & C & _). rewrite E0 in C. discriminate.
  - assert (Hi : exists n, nth_error (o_nodes o0) i = Some n).
    { destruct (proj1 (positions_spec (signal_matches (e_name s)) (o_nodes o0) 0 i)) as (n & _ & Hn & _); [rewrite E0; left; reflexivity|]. rewrite Nat.sub_0_r in Hn. eauto. }
    destruct Hi as (n & Hi). rewrite (nodes_prefix _ _ _ _ (proj1 (proj1 Hok)) Hi) in H. assert (Hid : ident o0 s n) by (exists i; auto).
    apply bind_Ok in H. destruct H as ((ok & st1) & H1 & H). destruct (insert_sound _ _ _ _ _ _ _ _ _ Ho Hok Hid H1) as (S1 & S2 & S3).
    destruct ok; inversion H; subst b st'; clear H.
    + split; [exact S1|]. split; [exact S2|]. cbn [a_osm a_anchors a_missing a_conflicts]. intros Hag Hb. destruct S3 as (_ & M & A & N).
      * intros s' f' n' H1' H2'. apply (Hag s' f' n' n H1' H2' Hid).
      * intros C. exact (Hb s n C Hid).
      * split; [exact A|]. split; [exact M|]. split; [|discriminate]. intros _. destruct N as (new & N). exists n, new. auto.
    + split; [exact S1|]. split; [exact S2|]. intros Hag Hb. exfalso. destruct S3 as (C & _); [|intros C; exact (Hb s n C Hid)|discriminate].
      intros s' f' n' H1' H2'. apply (Hag s' f' n' n H1' H2' Hid).
  - apply Hno; [|exact H]. intros m (j & C & _). rewrite E0 in C. discriminate.
Qed.
Lemma next_ok o0 D s st : snd_ok o0 D st -> snd_ok o0 D (next s st).
Proof. intros H. exact H. Qed.
Lemma process_sound o0 f : forall l D st st', Forall reorders (map fst l) -> snd_ok o0 D st -> process_hauptsignal l f st = Ok st' ->
  snd_ok o0 (map (fun s => (s, f)) (map snd l) ++ D) st'.
Proof.
  induction l as [|[order s] l IH]; intros D st st' Ho Hok H.
  - inversion H; subst. exact Hok.
  - cbn [map fst snd] in *. inversion Ho as [|? ? Ho1 Ho2]; subst. rewrite process_cons in H. apply bind_Ok in H. destruct H as ((ok & st1) & H1 & H).
    apply (attempt_spec _ _ _ _ _ _ _ _ Ho1 Hok) in H1. destruct H1 as (S1 & _ & _). destruct ok.
    + inversion H; subst. eapply snd_ok_more; [|exact S1]. intros x [<-|Hx]; [left; reflexivity|]. right. apply in_or_app. right. exact Hx.
    + apply (IH _ _ _ Ho2 (next_ok _ _ s _ S1)) in H. eapply snd_ok_more; [|exact H]. intros x Hx. cbn. rewrite in_app_iff in *. cbn in Hx. tauto.
Qed.
Lemma process_complete o0 f : forall l D st st', Forall reorders (map fst l) -> List.length l <= 1 -> snd_ok o0 D st -> barred o0 st ->
  (forall s' f' s n' n, In (s', f') D -> In s (map snd l) -> ident o0 s' n' -> ident o0 s n -> n_lat n' = n_lat n -> n_lon n' = n_lon n -> (e_km s' == e_km s)%Q) ->
  process_hauptsignal l f st = Ok st' ->
  barred o0 st' /\ (forall km m, anchored (a_osm st) (a_anchors st) km m -> anchored (a_osm st') (a_anchors st') km m) /\
  (forall e, In e (a_missing st') <-> In e (a_missing st) \/ In e (map snd l) /\ ~ exists n, ident o0 e n) /\
  forall s n, In s (map snd l) -> ident o0 s n -> exists new, anchored (a_osm st') (a_anchors st') (e_km s) new /\
    n_tags new = element_tags "ms" [dir f; name_tag s] /\ n_lat new = n_lat n /\ n_lon new = n_lon n.
Proof.
  intros [|[order s] [|]] D st st' Ho Hl Hok Hb Hag H; [| |cbn in Hl; lia].
  - inversion H; subst. split; [exact Hb|]. split; [auto|]. split; [cbn; tauto|]. intros s n [].
  - cbn [map fst snd] in *. inversion Ho as [|? ? Ho1 Ho2]; subst. rewrite process_cons in H. apply bind_Ok in H. destruct H as ((ok & st1) & H1 & H).
    apply (attempt_spec _ _ _ _ _ _ _ _ Ho1 Hok) in H1. destruct H1 as (S1 & S2 & S3). destruct S3 as (A & M & Y & N); [|exact Hb|].
    { intros s' f' n' n A1 A2 A3. apply (Hag s' f' s n' n A1); [left; reflexivity|assumption|assumption]. }
    destruct ok.
    + inversion H; subst. destruct (Y eq_refl) as (n & new & Y1 & Y2). split; [intros x m; rewrite S2; apply Hb|]. split; [exact A|]. split.
      * intros e. rewrite M. split; [auto|]. intros [He|[[<-|[]] Hn]]; [exact He|]. exfalso. apply Hn. eauto.
      * intros x m [<-|[]] Hm. rewrite (ident_fun _ _ _ _ Hm Y1). exists new. exact Y2.
    + cbn in H. inversion H; subst. cbn [a_osm a_anchors a_missing a_conflicts next]. split.
      * intros x m [E|Hx] Hm.
        -- apply (N eq_refl m). unfold ident in *. cbn [e_name] in *. rewrite E. exact Hm.
        -- rewrite S2 in Hx. exact (Hb x m Hx Hm).
      * split; [exact A|]. split.
        -- intros e. rewrite M, in_app_iff. cbn. split; [intros [He|[<-|[]]]; [auto|]|intros [He|[[<-|[]] _]]; auto].
           right. split; [auto|]. intros (n & Hn). exact (N eq_refl n Hn).
        -- intros x m [<-|[]] Hm. exfalso. exact (N eq_refl m Hm).
Qed.

(* a line without switches *)
Lemma first_pass_sound o0 : forall l D st st', Forall ordered l -> Forall (fun x => no_switches (knoten_of x)) l -> snd_ok o0 D (f_state st) ->
  first_pass l st = Ok st' -> snd_ok o0 (signals_of l ++ D) (f_state st').
Proof.
  induction l as [|[[k of_f] of_s] l IH]; intros D st st' Ho Hk Hok H; cbn [first_pass] in H.
  - inversion H; subst. exact Hok.
  - inversion Ho as [|? ? Ho1 Ho']; subst. destruct Ho1 as (O1 & O2 & L1 & L2). inversion Hk as [|? ? Hk1 Hk']; subst. apply bind_Ok in H. destruct H as (st1 & H1 & H).
    unfold anchor_knoten, anchor_main_signals in H1. apply bind_Ok in H1. destruct H1 as (((a & mf) & ms) & H1 & H2).
    apply bind_Ok in H1. destruct H1 as (a1 & P1 & H1). apply bind_Ok in H1. destruct H1 as (a2 & P2 & H1). inversion H1; subst a mf ms. clear H1.
    rewrite (switches_none k _ Hk1) in H2. cbn [bind] in H2. inversion H2; subst st1. clear H2.
    apply (process_sound o0 true _ D) in P1; [|rewrite map_fst_combine; assumption|exact Hok]. rewrite map_snd_combine in P1 by exact L1.
    apply (process_sound o0 false _ (map (fun s => (s, true)) (k_main_f k) ++ D)) in P2; [|rewrite map_fst_combine; assumption|exact P1]. rewrite map_snd_combine in P2 by exact L2.
    apply (IH (map (fun s => (s, false)) (k_main_s k) ++ map (fun s => (s, true)) (k_main_f k) ++ D) _ _ Ho' Hk') in H; [|exact P2].
    refine (snd_ok_more _ _ _ _ _ H). intros x Hx. cbn [signals_of flat_map knoten_of fst]. fold (signals_of l). rewrite !in_app_iff in *. tauto.
Qed.
Definition found_all (o0 : osm) (D : list (elem * bool)) (st : fstate) : Prop :=
  (forall e, In e (f_falling st) <-> In (e, true) D /\ ~ exists n, ident o0 e n) /\
  (forall e, In e (f_rising st) <-> In (e, false) D /\ ~ exists n, ident o0 e n) /\
  forall s f n, In (s, f) D -> ident o0 s n -> exists new, anchored (a_osm (f_state st)) (a_anchors (f_state st)) (e_km s) new /\
    n_tags new = element_tags "ms" [dir f; name_tag s] /\ n_lat new = n_lat n /\ n_lon new = n_lon n.
Lemma in_pairs (s : elem) (f f' : bool) l : In (s, f) (map (fun x => (x, f')) l) <-> In s l /\ f = f'.
Proof. rewrite in_map_iff. split; [intros (x & E & H); inversion E; subst; auto|intros (H & ->); eauto]. Qed.
Lemma first_pass_complete o0 : forall l D st st', Forall ordered l -> Forall (fun x => no_switches (knoten_of x) /\ one_signal (knoten_of x)) l -> snd_ok o0 D (f_state st) ->
  (forall s f s' f' n n', In (s, f) (D ++ signals_of l) -> In (s', f') (D ++ signals_of l) ->
    ident o0 s n -> ident o0 s' n' -> n_lat n = n_lat n' -> n_lon n = n_lon n' -> (e_km s == e_km s')%Q) ->
  found_all o0 D st -> first_pass l st = Ok st' -> found_all o0 (D ++ signals_of l) st'.
Proof.
  induction l as [|[[k of_f] of_s] l IH]; intros D st st' Ho Hk Hok Hag Hall H; cbn [first_pass] in H.
  - inversion H; subst. cbn. rewrite app_nil_r. exact Hall.
  - inversion Ho as [|? ? Ho1 Ho']; subst. destruct Ho1 as (O1 & O2 & L1 & L2). inversion Hk as [|? ? Hk0 Hk']; subst. destruct Hk0 as (Hk1 & N1 & N2). apply bind_Ok in H. destruct H as (st1 & H1 & H).
    unfold anchor_knoten, anchor_main_signals in H1. apply bind_Ok in H1. destruct H1 as (((a & mf) & ms) & H1 & H2).
    apply bind_Ok in H1. destruct H1 as (a1 & P1 & H1). apply bind_Ok in H1. destruct H1 as (a2 & P2 & H1). inversion H1; subst a mf ms. clear H1.
    rewrite (switches_none k _ Hk1) in H2. cbn [bind] in H2. inversion H2; subst st1. clear H2.
    unfold knoten_of in N1, N2. cbn [fst] in N1, N2.
    assert (Hsub : forall s f, In (s, f) D \/ In s (k_main_f k) /\ f = true \/ In s (k_main_s k) /\ f = false -> In (s, f) (D ++ signals_of ((k, of_f, of_s) :: l))).
    { intros s f Hs. cbn [signals_of flat_map knoten_of fst]. rewrite !in_app_iff, !in_pairs. tauto. }
    pose proof P1 as P1c. apply (process_complete o0 true _ D) in P1c; [|rewrite map_fst_combine; assumption|rewrite combine_length; lia|exact Hok|intros s n []|].
    2:{ rewrite map_snd_combine by exact L1. intros s' f' s n' n A1 A2. apply (Hag s' f' s true); apply Hsub; auto. }
    apply (process_sound o0 true _ D) in P1; [|rewrite map_fst_combine; assumption|exact Hok]. rewrite map_snd_combine in P1, P1c by exact L1.
    destruct P1c as (B1 & A1 & M1 & F1). cbn [a_osm a_anchors a_missing a_conflicts] in *.
    pose proof P2 as P2c. apply (process_complete o0 false _ (map (fun s => (s, true)) (k_main_f k) ++ D)) in P2c; [|rewrite map_fst_combine; assumption|rewrite combine_length; lia|exact P1|exact B1|].
    2:{ rewrite map_snd_combine by exact L2. intros s' f' s n' n C1 C2. apply (Hag s' f' s false); apply Hsub; [|auto]. rewrite in_app_iff, in_pairs in C1. tauto. }
    apply (process_sound o0 false _ (map (fun s => (s, true)) (k_main_f k) ++ D)) in P2; [|rewrite map_fst_combine; assumption|exact P1]. rewrite map_snd_combine in P2, P2c by exact L2.
    destruct P2c as (B2 & A2 & M2 & F2). cbn [a_osm a_anchors a_missing a_conflicts] in *.
    assert (E : D ++ signals_of ((k, of_f, of_s) :: l) = (D ++ map (fun s => (s, true)) (k_main_f k) ++ map (fun s => (s, false)) (k_main_s k)) ++ signals_of l).
    { cbn [signals_of flat_map knoten_of fst]. rewrite <- !app_assoc. reflexivity. }
    rewrite E in *. refine (IH _ _ _ Ho' Hk' _ Hag _ H); cbn [f_state].
    + refine (snd_ok_more _ _ _ _ _ P2). intros x Hx. rewrite !in_app_iff in *. tauto.
    + destruct Hall as (G1 & G2 & G3). split; [|split]; cbn [f_falling f_rising f_state a_osm a_anchors with_missing].
      * intros e. rewrite M1, G1, !in_app_iff, !in_pairs. intuition discriminate.
      * intros e. rewrite M2, G2, !in_app_iff, !in_pairs. intuition discriminate.
      * intros s f n Hs Hn. rewrite !in_app_iff, !in_pairs in Hs. destruct Hs as [Hs|[[Hs ->]|[Hs ->]]].
        -- destruct (G3 s f n Hs Hn) as (new & C1 & C2). exists new. split; [apply A2, A1, C1|exact C2].
        -- destruct (F1 s n Hs Hn) as (new & C1 & C2). exists new. split; [apply A2, C1|exact C2].
        -- exact (F2 s n Hs Hn).
Qed.
Lemma first_state_snd o c sig : snd_ok o [] (f_state (first_state o c sig)) /\ found_all o [] (first_state o c sig).
Proof.
  split.
  - split; [apply (first_state_ok o c sig)|]. split; cbn.
    + intros j n Hj Hn. apply nth_error_None in Hj. congruence.
    + intros km n (k & l & i & [] & _).
  - split; [|split]; cbn; [tauto|tauto|tauto].
Qed.
