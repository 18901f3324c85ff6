(* Proofs about the start of the web server: a small program logic for `proc`,
   then one invariant per phase. *)
From Coq Require Import Ascii String Permutation.
From Verif Require Import Base StockModel StartModel StartSpec.

(* ---- maps ---- *)
Lemma text_eqb_spec a b : reflect (a = b) (text_eqb a b).
Proof. unfold text_eqb. destruct (list_eq_dec _ a b); constructor; assumption. Qed.

Lemma lookup_In {C} n c (l : list (text * C)) : lookup n l = Some c -> In (n, c) l.
Proof.
  induction l as [|[m d] l IH]; cbn [lookup]; [discriminate|].
  destruct (text_eqb_spec n m) as [->|]; [intros [= ->]; left; reflexivity|]. intros H. right. auto.
Qed.
Lemma lookup_None {C} n (l : list (text * C)) : lookup n l = None <-> ~ In n (map fst l).
Proof.
  induction l as [|[m d] l IH]; cbn [lookup map fst In]; [split; auto|].
  destruct (text_eqb_spec n m) as [->|N]; [split; [discriminate|intros H; destruct H; left; reflexivity]|].
  rewrite IH. split; [intros H [E|E]; [congruence|auto]|auto].
Qed.
Lemma In_lookup {C} n c (l : list (text * C)) : NoDup (map fst l) -> In (n, c) l -> lookup n l = Some c.
Proof.
  induction l as [|[m d] l IH]; cbn [lookup map fst In]; [contradiction|]. intros ND [E|H].
  - injection E as -> ->. destruct (text_eqb_spec n n); [reflexivity|contradiction].
  - inversion_clear ND. destruct (text_eqb_spec n m) as [->|]; [|auto].
    destruct H0. apply (in_map fst) in H. exact H.
Qed.
Lemma lookup_put {C} n (c : C) l m : lookup m (put_entry n c l) = if text_eqb m n then Some c else lookup m l.
Proof.
  induction l as [|[k d] l IH]; cbn [put_entry lookup].
  - destruct (text_eqb m n); reflexivity.
  - destruct (text_eqb_spec n k) as [->|N]; cbn [lookup].
    + destruct (text_eqb_spec m k); reflexivity.
    + rewrite IH. destruct (text_eqb_spec m k) as [->|]; [|reflexivity].
      destruct (text_eqb_spec k n) as [->|]; [contradiction|reflexivity].
Qed.
Lemma lookup_app {C} n (l1 l2 : list (text * C)) :
  lookup n (l1 ++ l2) = match lookup n l1 with Some c => Some c | None => lookup n l2 end.
Proof.
  induction l1 as [|[m d] l1 IH]; cbn [app lookup]; [reflexivity|]. destruct (text_eqb n m); [reflexivity|exact IH].
Qed.
Lemma lookup_emplace {C} (l : list (text * C)) n c m :
  lookup m (emplace_ l n c) =
  match lookup m l with Some d => Some d | None => if text_eqb m n then Some c else None end.
Proof.
  unfold emplace_. destruct (lookup n l) eqn:E.
  - destruct (lookup m l) eqn:F; [reflexivity|]. destruct (text_eqb_spec m n) as [->|]; [congruence|reflexivity].
  - rewrite lookup_app. destruct (lookup m l); reflexivity.
Qed.
Lemma emplace_NoDup {C} (l : list (text * C)) n c : NoDup (map fst l) -> NoDup (map fst (emplace_ l n c)).
Proof.
  intros ND. unfold emplace_. destruct (lookup n l) eqn:E; [exact ND|].
  apply lookup_None in E. rewrite map_app. apply (Permutation_NoDup (Permutation_app_comm [n] (map fst l))).
  constructor; [exact E|exact ND].
Qed.
Lemma lookup_perm {C} n (l l' : list (text * C)) : NoDup (map fst l) -> Permutation l l' -> lookup n l' = lookup n l.
Proof.
  intros ND P. destruct (lookup n l) as [c|] eqn:E.
  - apply In_lookup; [eapply Permutation_NoDup; [apply Permutation_map; exact P|exact ND]|].
    apply lookup_In in E. apply (Permutation_in _ P E).
  - apply lookup_None in E. apply lookup_None. intros H. apply E.
    apply (Permutation_in _ (Permutation_sym (Permutation_map fst P)) H).
Qed.

(* ---- the names of map files ---- *)
Lemma before_last_dot_Some s p : before_last_dot s = Some p -> exists q, s = p ++ "."%char :: q /\ ~ In "."%char q.
Proof.
  revert p. induction s as [|c s IH]; cbn [before_last_dot]; intros p H; [discriminate|].
  destruct (before_last_dot s) as [r|] eqn:E.
  - injection H as <-. destruct (IH r eq_refl) as (q & -> & Q). exists q. split; [reflexivity|exact Q].
  - destruct (Ascii.eqb_spec c ".") as [->|]; [|discriminate]. injection H as <-. exists s. split; [reflexivity|].
    clear IH. revert E. induction s as [|c s IH]; cbn [before_last_dot]; intros E; [auto|].
    destruct (before_last_dot s); [discriminate|]. destruct (Ascii.eqb_spec c "."); [discriminate|].
    intros [->|H]; [contradiction|]. exact (IH eq_refl H).
Qed.
Lemma before_last_dot_None s : before_last_dot s = None -> ~ In "."%char s.
Proof.
  induction s as [|c s IH]; cbn [before_last_dot]; intros E; [auto|].
  destruct (before_last_dot s); [discriminate|]. destruct (Ascii.eqb_spec c "."); [discriminate|].
  intros [->|H]; [contradiction|]. exact (IH eq_refl H).
Qed.
Lemma replace_stem n ext : exists p, stem n p /\ replace_extension n ext = p ++ ext.
Proof.
  unfold replace_extension. destruct (before_last_dot n) as [[|c p]|] eqn:E.
  - exists n. split; [left|reflexivity]. apply before_last_dot_Some in E. destruct E as (q & -> & Q). split; [reflexivity|exact Q].
  - exists (c :: p). split; [right|reflexivity]. apply before_last_dot_Some in E. destruct E as (q & -> & Q).
    exists q. repeat split; [discriminate|exact Q].
  - exists n. split; [left|reflexivity]. split; [reflexivity|]. apply before_last_dot_None in E. intros H. apply E.
    destruct n; [exact H|right; exact H].
Qed.
Lemma replace_distinct n m ext :
  (forall p, stem n p -> stem m p -> n = m) -> replace_extension n ext = replace_extension m ext -> n = m.
Proof.
  intros H E. destruct (replace_stem n ext) as (p & P & Ep), (replace_stem m ext) as (q & Q & Eq).
  rewrite Ep, Eq in E. apply app_inv_tail in E. subst q. exact (H p P Q).
Qed.

Section Logic.
  Context {IS TS I T OSM DB : Type}.
  Notation world := (StartModel.world IS TS I T OSM DB).
  Notation proc := (StartModel.proc IS TS I T OSM DB).

  (* started in P, the program ends in Q with a result, in R when it does not
     serve, and anywhere when it is cut short *)
  Definition triple {A} (P : world -> Prop) (p : proc A) (Q : A -> world -> Prop) (R : world -> Prop) : Prop :=
    forall w k w' k' e, P w -> p w k = ((w', k'), e) ->
      match e with Runs a => Q a w' | Cut => True | _ => R w' end.

  Lemma t_ret {A} (a : A) (P : world -> Prop) (Q : A -> world -> Prop) R :
    (forall w, P w -> Q a w) -> triple P (ret _ _ _ _ _ _ a) Q R.
  Proof. intros H w k w' k' e Pw E. injection E as <- <- <-. exact (H w Pw). Qed.
  Lemma t_then {A B} P (p : proc A) (M : A -> world -> Prop) (q : A -> proc B) Q R :
    triple P p M R -> (forall a, triple (M a) (q a) Q R) -> triple P (andThen _ _ _ _ _ _ p q) Q R.
  Proof.
    intros Hp Hq w k w' k' e Pw E. unfold andThen in E. destruct (p w k) as [[w1 k1] [a| | |]] eqn:E1;
      specialize (Hp w k w1 k1 _ Pw E1); cbv beta iota in Hp.
    - exact (Hq a w1 k1 w' k' e Hp E).
    - injection E as <- <- <-. exact Hp.
    - injection E as <- <- <-. exact Hp.
    - injection E as <- <- <-. exact Hp.
  Qed.
  Lemma t_get (P : world -> Prop) (Q : world -> world -> Prop) R :
    (forall w, P w -> Q w w) -> triple P (get _ _ _ _ _ _) Q R.
  Proof. intros H w k w' k' e Pw E. injection E as <- <- <-. exact (H w Pw). Qed.
  Lemma t_lift {A} (r : res A) (P : world -> Prop) (Q : A -> world -> Prop) (R : world -> Prop) :
    (forall a w, r = Ok a -> P w -> Q a w) -> (forall w, P w -> R w) -> triple P (lift _ _ _ _ _ _ r) Q R.
  Proof.
    intros H HR w k w' k' e Pw E. unfold lift in E. destruct r; injection E as <- <- <-; auto.
  Qed.
  Lemma t_content {C} (f : option (file C)) (P : world -> Prop) (Q : C -> world -> Prop) (R : world -> Prop) :
    (forall c g w, f = Some g -> f_content g = Some c -> P w -> Q c w) -> (forall w, P w -> R w) ->
    triple P (content _ _ _ _ _ _ f) Q R.
  Proof.
    intros H HR w k w' k' e Pw E. unfold content in E.
    destruct f as [g|]; [destruct (f_content g) as [c|] eqn:Ec|]; injection E as <- <- <-; eauto.
  Qed.
  Lemma t_write {C} (set : file C -> world -> world) now c (P : world -> Prop) (Q : unit -> world -> Prop) R :
    (forall w, P w -> Q tt (set (mk_file (Some c) now) (set (mk_file None now) w))) ->
    triple P (write _ _ _ _ _ _ set now c) Q R.
  Proof.
    intros H w k w' k' e Pw E. unfold write, andThen, change in E.
    destruct k as [|[|k]]; injection E as <- <- <-; try exact Logic.I. exact (H w Pw).
  Qed.
  Lemma t_dies {A} (P : world -> Prop) (Q : A -> world -> Prop) (R : world -> Prop) :
    (forall w, P w -> R w) -> triple P (fun w k => ((w, k), Dies)) Q R.
  Proof. intros H w k w' k' e Pw E. injection E as <- <- <-. auto. Qed.
  Lemma t_conseq {A} (P P' : world -> Prop) (p : proc A) (Q Q' : A -> world -> Prop) (R R' : world -> Prop) :
    triple P p Q R -> (forall w, P' w -> P w) -> (forall a w, Q a w -> Q' a w) -> (forall w, R w -> R' w) ->
    triple P' p Q' R'.
  Proof.
    intros H HP HQ HR w k w' k' e Pw E. specialize (H w k w' k' e (HP w Pw) E). destruct e; auto.
  Qed.
  Lemma t_each {A S} (f : S -> A -> proc S) (J : list A -> S -> world -> Prop) R l : forall s0,
    (forall d a r s, l = d ++ a :: r -> triple (J d s) (f s a) (J (d ++ [a])) R) ->
    triple (J [] s0) (each _ _ _ _ _ _ f s0 l) (J l) R.
  Proof.
    intros s0 H.
    assert (G : forall r d s, l = d ++ r -> triple (J d s) (each _ _ _ _ _ _ f s r) (J l) R).
    { induction r as [|a r IH]; intros d s E; cbn [each].
      - rewrite app_nil_r in E. subst d. apply t_ret. auto.
      - eapply t_then; [apply (H d a r s E)|]. intros s'. cbv beta. apply (IH (d ++ [a])).
        rewrite <- app_assoc. exact E. }
    exact (G l [] s0 eq_refl).
  Qed.
  (* a fact about the result *)
  Lemma t_pre {A} (P : world -> Prop) (p : proc A) Q R : (forall w, P w -> triple (fun v => v = w) p Q R) -> triple P p Q R.
  Proof. intros H w k w' k' e Pw E. exact (H w Pw w k w' k' e eq_refl E). Qed.
End Logic.

Section Phases.
  Context {IS TS I T OSM DB : Type}.
  Notation world := (StartModel.world IS TS I T OSM DB).
  Variable load_infra : IS -> res I.
  Variable load_timetable : TS -> I -> res (option T).
  Variable export_osm : I -> res OSM.
  Variable import_tiles : OSM -> res DB.
  Variable order : list (text * I) -> list (text * I).
  Hypothesis order_perm : forall l, Permutation l (order l).

  Definition iname {X} (it : item X) : text := match it with Source n _ => n | Raw n => n end.

  Lemma todo_In {X C} s (raws : list (text * file C)) (l : list (text * entry X)) it :
    In it (flat_map (todo s raws) l) ->
    exists x t, In (iname it, Directory x t) l /\
      match it with
      | Source _ y => y = x /\ (regenerate s = true \/ serialization_possible s = false \/
                                forall f, lookup (iname it) raws = Some f -> (f_time f < t)%N)
      | Raw _ => regenerate s = false /\ serialization_possible s = true /\
                 exists f, lookup (iname it) raws = Some f /\ (t <= f_time f)%N
      end.
  Proof.
    intros H. apply in_flat_map in H. destruct H as ([n e] & He & H). unfold todo in H. cbn [fst snd] in H.
    destruct e as [x t|]; [|contradiction].
    destruct (regenerate s) eqn:Er; cbn [orb] in H.
    { destruct H as [<-|[]]. exists x, t. split; [exact He|]. split; [reflexivity|left; reflexivity]. }
    destruct (serialization_possible s) eqn:Es; cbn [orb negb] in H.
    2:{ destruct H as [<-|[]]. exists x, t. split; [exact He|]. split; [reflexivity|right; left; reflexivity]. }
    destruct (lookup n raws) as [f|] eqn:El.
    - destruct (N.ltb_spec (f_time f) t) as [L|L].
      + destruct H as [<-|[]]. exists x, t. split; [exact He|]. split; [reflexivity|right; right].
        cbn [iname]. rewrite El. intros g [= <-]. exact L.
      + destruct H as [<-|[]]. exists x, t. split; [exact He|]. split; [reflexivity|]. split; [reflexivity|].
        exists f. split; [exact El|exact L].
    - destruct H as [<-|[]]. exists x, t. split; [exact He|]. split; [reflexivity|right; right].
      cbn [iname]. rewrite El. intros g [=].
  Qed.
  Lemma In_todo {X C} s (raws : list (text * file C)) (l : list (text * entry X)) n x t :
    In (n, Directory x t) l ->
    In (Source n x) (flat_map (todo s raws) l) \/ In (Raw n) (flat_map (todo s raws) l).
  Proof.
    intros H. destruct (regenerate s || negb (serialization_possible s) ||
      match lookup n raws with None => true | Some f => (f_time f <? t)%N end) eqn:E; [left|right];
      apply in_flat_map; exists (n, Directory x t); split; auto; unfold todo; cbn [fst snd]; rewrite E; left; reflexivity.
  Qed.
  Lemma In_todo_due {X C} s (raws : list (text * file C)) (l : list (text * entry X)) n x t :
    In (n, Directory x t) l ->
    regenerate s = true \/ serialization_possible s = false \/ (forall f, lookup n raws = Some f -> (f_time f < t)%N) ->
    In (Source n x) (flat_map (todo s raws) l).
  Proof.
    intros H D. apply in_flat_map. exists (n, Directory x t). split; [exact H|]. unfold todo. cbn [fst snd].
    destruct D as [-> |[-> |D]]; cbn [orb negb]; [left; reflexivity|rewrite orb_true_r; left; reflexivity|].
    destruct (lookup n raws) as [f|]; [|rewrite orb_true_r; left; reflexivity].
    apply (fun H => proj2 (N.ltb_lt _ _) H) in D || specialize (D f eq_refl).
    rewrite (proj2 (N.ltb_lt _ _) D), orb_true_r. left. reflexivity.
  Qed.

  Definition rest_same (w0 w : world) : Prop :=
    w_infras w = w_infras w0 /\ w_timetables w = w_timetables w0 /\ w_raw_timetables w = w_raw_timetables w0 /\
    w_osm w = w_osm w0 /\ w_tiles w = w_tiles w0.

  (* ---- the infrastructures ---- *)
  Section Infras.
    Variable s : settings.
    Variable now : N.
    Variable w0 : world.
    Variable Wok : world -> Prop.
    Variable good : text -> I -> Prop.
    Hypothesis ND : NoDup (map fst (w_infras w0)).
    Hypothesis H1 : forall n x t i, In (n, Directory x t) (w_infras w0) -> load_infra x = Ok i -> good n i.
    Hypothesis H2 : forall n x t i w, In (n, Directory x t) (w_infras w0) -> load_infra x = Ok i ->
      rest_same w0 w -> Wok w ->
      Wok (set_raw_infra _ _ _ _ _ _ n (mk_file (Some (n, i)) now) (set_raw_infra _ _ _ _ _ _ n (mk_file None now) w)).
    Hypothesis H3 : forall n f c w, In (Raw n) (get_infrastructure_todo_list _ _ _ _ _ _ s w0) ->
      rest_same w0 w -> Wok w -> lookup n (w_raw_infras w) = Some f -> f_content f = Some c ->
      fst c = n /\ good n (snd c).

    Definition saved (w : world) (n : text) (x : IS) : Prop :=
      exists f i, lookup n (w_raw_infras w) = Some f /\ f_content f = Some (n, i) /\ load_infra x = Ok i.
    Definition infra_J (d : list (item IS)) (l : list (text * I)) (w : world) : Prop :=
      rest_same w0 w /\ Wok w /\ NoDup (map fst l) /\
      (forall n i, lookup n l = Some i -> good n i /\ exists it, In it d /\ iname it = n) /\
      (forall it, In it d -> lookup (iname it) l <> None) /\
      (serialization_possible s = true -> forall n x, In (Source n x) d -> saved w n x).

    Lemma infra_J_emplace d it l w i :
      infra_J d l w -> good (iname it) i ->
      (serialization_possible s = true -> forall n x, it = Source n x -> saved w n x) -> infra_J (d ++ [it]) (emplace_ l (iname it) i) w.
    Proof.
      intros (S & W & NDl & A & B & C) G Sv. repeat split; try apply S; try apply W; try (apply emplace_NoDup; exact NDl).
      - rewrite lookup_emplace in H. destruct (lookup n l) as [j|] eqn:E.
        + injection H as <-. exact (proj1 (A n j E)).
        + destruct (text_eqb_spec n (iname it)) as [->|]; [|discriminate]. injection H as <-. exact G.
      - rewrite lookup_emplace in H. destruct (lookup n l) as [j|] eqn:E.
        + destruct (proj2 (A n j E)) as (it' & Hi & Hn). exists it'. split; [apply in_or_app; left; exact Hi|exact Hn].
        + destruct (text_eqb_spec n (iname it)) as [->|]; [|discriminate]. exists it. split; [apply in_or_app; right; left; reflexivity|reflexivity].
      - intros it' Hi. rewrite lookup_emplace. apply in_app_or in Hi. destruct Hi as [Hi|[<-|[]]].
        + specialize (B it' Hi). destruct (lookup (iname it') l); [discriminate|congruence].
        + destruct (lookup (iname it) l); [discriminate|]. destruct (text_eqb_spec (iname it) (iname it)); [discriminate|contradiction].
      - intros Se n x Hi. apply in_app_or in Hi. destruct Hi as [Hi|[Hi|[]]]; [exact (C Se n x Hi)|exact (Sv Se n x Hi)].
    Qed.

    Lemma infras_phase :
      triple (fun w => w = w0 /\ Wok w) (get_infrastructure_module _ _ _ _ _ _ load_infra s now)
        (infra_J (get_infrastructure_todo_list _ _ _ _ _ _ s w0)) (fun w => rest_same w0 w /\ Wok w).
    Proof.
      unfold get_infrastructure_module. eapply t_then with (M := fun v w => v = w0 /\ w = w0 /\ Wok w).
      { apply t_get. intros w (-> & W). auto. }
      intros v. apply t_pre. intros w (-> & -> & W).
      eapply t_conseq; [apply (t_each _ infra_J)| | |]; cbv beta.
      2:{ intros v ->. split; [repeat split|]. split; [exact W|]. split; [constructor|]. split; [discriminate|]. split; [contradiction|intros _ n x []]. }
      2:{ intros a v H. exact H. }
      2:{ intros v H. exact H. }
      intros d it r l E. unfold infra_item.
      assert (Hin : In it (get_infrastructure_todo_list _ _ _ _ _ _ s w0)) by (rewrite E; apply in_or_app; right; left; reflexivity).
      destruct (todo_In _ _ _ _ Hin) as (x & t & Hd & Hit). destruct it as [n y|n]; cbn [iname] in *.
      - destruct Hit as [-> _].
        eapply t_then with (M := fun i w => load_infra x = Ok i /\ infra_J d l w).
        { apply t_lift; [auto|]. intros w' J. split; apply J. }
        intros i. eapply t_then with (M := fun _ w => load_infra x = Ok i /\ infra_J d l w /\ (serialization_possible s = true -> saved w n x)).
        { destruct (serialization_possible s) eqn:Es.
          - apply t_write. intros w' (L & S & Wk & NDl & A & B & C).
            assert (Sn : saved (set_raw_infra _ _ _ _ _ _ n (mk_file (Some (n, i)) now) (set_raw_infra _ _ _ _ _ _ n (mk_file None now) w')) n x).
            { exists (mk_file (Some (n, i)) now), i. cbn. rewrite !lookup_put. destruct (text_eqb_spec n n); [auto|contradiction]. }
            split; [exact L|]. split; [|intros _; exact Sn]. split; [|split; [|split; [exact NDl|split; [exact A|split; [exact B|]]]]].
            + unfold rest_same in *. cbn. exact S.
            + apply (H2 n x t i w'); auto.
            + intros _ m y Hm. destruct (text_eqb_spec m n) as [->|Nm].
              * assert (Hm' : In (Source n y) (get_infrastructure_todo_list _ _ _ _ _ _ s w0)) by (rewrite E; apply in_or_app; left; exact Hm).
                destruct (todo_In _ _ _ _ Hm') as (y' & u & Hy & -> & _). cbn [iname] in Hy.
                apply (In_lookup _ _ _ ND) in Hy. apply (In_lookup _ _ _ ND) in Hd. rewrite Hd in Hy. injection Hy as -> _. exact Sn.
              * destruct (C Es m y Hm) as (f & j & F1 & F2). exists f, j. split; [|exact F2]. cbn. rewrite !lookup_put.
                destruct (text_eqb_spec m n); [contradiction|exact F1].
          - apply t_ret. intros w' H. split; [apply H|]. split; [apply H|]. discriminate. }
        intros _. apply t_ret. intros w' (L & J & Sn). apply (infra_J_emplace d (Source n x)); [exact J|exact (H1 _ _ _ _ Hd L)|].
        intros Se n' x' [= <- <-]. exact (Sn Se).
      - eapply t_then with (M := fun v w => v = w /\ infra_J d l w).
        { apply t_get. auto. }
        intros v. eapply t_then with (M := fun c w => infra_J d l w /\ fst c = n /\ good n (snd c)).
        { apply t_content.
          - intros c g w' Hl Hc (-> & J). split; [exact J|]. destruct J as (S & Wk & _).
            exact (H3 n g c w' Hin S Wk Hl Hc).
          - intros w' (-> & J). split; apply J. }
        intros c. apply t_ret. intros w' (J & Ec & G). rewrite Ec. apply (infra_J_emplace d (Raw n) l w' _ J G). discriminate.
    Qed.
  End Infras.

  (* ---- the maps ---- *)
  Definition osm_path (n : text) := replace_extension n (list_ascii_of_string ".osm").
  Definition db_path (n : text) := replace_extension n (list_ascii_of_string ".mdb").

  Definition maps_same (w0 w : world) : Prop :=
    w_infras w = w_infras w0 /\ w_timetables w = w_timetables w0 /\ w_raw_infras w = w_raw_infras w0 /\
    w_raw_timetables w = w_raw_timetables w0.

  Section Maps.
    Variable s : settings.
    Variable now : N.
    Variable w0 : world.
    Variable infras : list (text * I).
    Variable U : Prop.
    Variable names : text -> Prop.
    Variable Good : text -> OSM -> Prop.
    Hypothesis HU : regenerate s = false -> U.
    Hypothesis Hnames : forall n, In n (map fst infras) -> names n.
    Hypothesis Hosm : forall n m, names n -> names m -> osm_path n = osm_path m -> n = m.
    Hypothesis Hdb : forall n m, names n -> names m -> db_path n = db_path m -> n = m.
    Hypothesis Hexp : forall n i o, In (n, i) infras ->
      regenerate s = true \/ lookup (osm_path n) (w_osm w0) = None -> export_osm i = Ok o -> Good n o.
    Hypothesis NDi : NoDup (map fst infras).

    Definition GoodDb (n : text) (d : DB) : Prop := exists o, Good n o /\ import_tiles o = Ok d.
    Definition good_osm (w : world) (n : text) : Prop :=
      exists f o, lookup (osm_path n) (w_osm w) = Some f /\ f_content f = Some o /\ Good n o.
    Definition good_db (w : world) (n : text) : Prop :=
      exists f d, lookup (db_path n) (w_tiles w) = Some f /\ f_content f = Some d /\ GoodDb n d.
    Definition map_inv (w : world) : Prop :=
      U -> forall n, names n ->
        (lookup (osm_path n) (w_osm w) <> None -> good_osm w n) /\
        (lookup (db_path n) (w_tiles w) <> None -> good_db w n).

    (* done: the items drawn so far, d: the items with a context *)
    Definition map_K (done d : list (text * I)) (ctx : list (text * text)) (w : world) : Prop :=
      maps_same w0 w /\ map_inv w /\
      (forall n, In n (map fst d) -> good_osm w n /\ good_db w n) /\
      (forall n, In n (map fst infras) -> ~ In n (map fst done) -> lookup (osm_path n) (w_osm w) = lookup (osm_path n) (w_osm w0)) /\
      (forall n, In n (map fst d) -> lookup n ctx = Some (db_path n)) /\
      (forall n, ~ In n (map fst d) -> lookup n ctx = None).
    Definition map_J d := map_K d d.
    Definition map_R (w : world) : Prop := maps_same w0 w /\ map_inv w.

    Lemma put_osm_good w n m o f g : names n -> names m -> Good n o -> f_content f = Some o ->
      (m <> n -> good_osm w m) ->
      good_osm (set_osm _ _ _ _ _ _ (osm_path n) f (set_osm _ _ _ _ _ _ (osm_path n) g w)) m.
    Proof.
      intros Nn Nm G Ef H. unfold good_osm. cbn. rewrite !lookup_put. destruct (text_eqb_spec (osm_path m) (osm_path n)) as [E|E].
      - apply Hosm in E; auto. subst m. exists f, o. auto.
      - apply H. intros ->. contradiction.
    Qed.
    Lemma put_db_good w n m d f g : names n -> names m -> GoodDb n d -> f_content f = Some d ->
      (m <> n -> good_db w m) ->
      good_db (set_tiles _ _ _ _ _ _ (db_path n) f (set_tiles _ _ _ _ _ _ (db_path n) g w)) m.
    Proof.
      intros Nn Nm G Ef H. unfold good_db. cbn. rewrite !lookup_put. destruct (text_eqb_spec (db_path m) (db_path n)) as [E|E].
      - apply Hdb in E; auto. subst m. exists f, d. auto.
      - apply H. intros ->. contradiction.
    Qed.

    Lemma maps_phase :
      triple (fun w => w = w0 /\ map_inv w) (get_tile_module _ _ _ _ _ _ export_osm import_tiles order s now infras)
        (fun ctx w => maps_same w0 w /\ map_inv w /\
           (forall n, In n (map fst infras) -> good_osm w n /\ good_db w n /\ lookup n ctx = Some (db_path n)) /\
           (forall n, ~ In n (map fst infras) -> lookup n ctx = None))
        map_R.
    Proof.
      unfold get_tile_module.
      assert (Pi := Permutation_map fst (order_perm infras)).
      eapply t_conseq; [apply (t_each _ map_J)| | |]; cbv beta.
      2:{ intros w (-> & M). split; [repeat split|]. split; [exact M|]. split; [contradiction|]. split; [reflexivity|].
          split; [contradiction|reflexivity]. }
      2:{ intros ctx w (S & M & A & B & C1 & C2). split; [exact S|]. split; [exact M|]. split.
          - intros n H. assert (H' := Permutation_in _ Pi H). destruct (A n H') as [X Y]. split; [exact X|split; [exact Y|]].
            exact (C1 n H').
          - intros n H. apply C2. intros H'. destruct H.
            exact (Permutation_in _ (Permutation_sym Pi) H'). }
      2:{ intros w H. exact H. }
      intros d [n i] r ctx E.
      assert (Hin : In (n, i) infras).
      { apply (Permutation_in _ (Permutation_sym (order_perm infras))). rewrite E. apply in_or_app. right. left. reflexivity. }
      assert (Hn : In n (map fst infras)) by (apply (in_map fst) in Hin; exact Hin).
      assert (Nn := Hnames n Hn).
      assert (Nd : ~ In n (map fst d)).
      { assert (ND := Permutation_NoDup Pi NDi). rewrite E, map_app in ND. cbn [map fst] in ND.
        apply NoDup_remove_2 in ND. intros H. apply ND. apply in_or_app. left. exact H. }
      assert (Hd : forall m, In m (map fst d) -> names m).
      { intros m Hm. apply Hnames. apply (Permutation_in _ (Permutation_sym Pi)).
        rewrite E, map_app. apply in_or_app. left. exact Hm. }
      unfold tile_item. cbn [fst snd].
      eapply t_then with (M := fun p w => p = osm_path n /\ map_K (d ++ [(n, i)]) d ctx w /\ good_osm w n).
      { unfold create_osm_file. cbn [fst snd]. fold (osm_path n).
        eapply t_then with (M := fun v w => v = w /\ map_J d ctx w); [apply t_get; auto|].
        intros v. apply t_pre. intros w1 (-> & J).
        eapply t_then with (M := fun _ w => map_K (d ++ [(n, i)]) d ctx w /\ good_osm w n).
        2:{ intros _. apply t_ret. auto. }
        destruct (regenerate s || match lookup (osm_path n) (w_osm w1) with Some _ => false | None => true end) eqn:Ec.
        - eapply t_then with (M := fun o w => export_osm i = Ok o /\ w = w1).
          { apply t_lift; [auto|]. intros w ->. split; apply J. }
          intros o. apply t_write. intros w (Eo & ->).
          destruct J as (S & M & A & B & C).
          assert (Go : Good n o).
          { apply (Hexp n i o Hin); [|exact Eo]. destruct (regenerate s); [left; reflexivity|right]. cbn [orb] in Ec.
            rewrite <- (B n Hn Nd). destruct (lookup (osm_path n) (w_osm w1)); [discriminate|reflexivity]. }
          split; [|apply (put_osm_good w1 n n o); auto; contradiction].
          split; [exact S|]. split.
          + intros u m Nm. destruct (M u m Nm) as [M1 M2]. split; [|exact M2].
            cbn. rewrite !lookup_put. intros X. apply (put_osm_good w1 n m o); auto.
            intros Dm. apply M1. destruct (text_eqb_spec (osm_path m) (osm_path n)) as [Y|Y]; [|exact X].
            apply Hosm in Y; auto; contradiction.
          + split; [|split; [|exact C]].
            * intros m Hm. destruct (A m Hm) as [A1 A2]. split; [|exact A2].
              apply (put_osm_good w1 n m o); auto.
            * intros m Hm Dm. rewrite map_app in Dm. cbn. rewrite !lookup_put. destruct (text_eqb_spec (osm_path m) (osm_path n)) as [Y|Y].
              -- apply Hosm in Y; auto. destruct Dm. apply in_or_app. right. left. auto.
              -- apply (B m Hm). intros X. apply Dm. apply in_or_app. left. exact X.
        - apply t_ret. intros w ->. destruct J as (S & M & A & B & C). split.
          + split; [exact S|]. split; [exact M|]. split; [exact A|]. split; [|exact C]. intros m Hm Dm. apply (B m Hm).
            intros X. apply Dm. rewrite map_app. apply in_or_app. left. exact X.
          + destruct (regenerate s) eqn:Er; [discriminate|]. cbn [orb] in Ec.
            apply (M (HU eq_refl) n Nn). destruct (lookup _ _); [discriminate|discriminate]. }
      intros p. apply t_pre. intros w1 (-> & K & G1).
      eapply t_then with (M := fun p w => p = db_path n /\ map_K (d ++ [(n, i)]) d ctx w /\ good_osm w n /\ good_db w n).
      { unfold create_tiles_db. cbn [fst snd]. fold (db_path n).
        eapply t_then with (M := fun v w => v = w /\ w = w1); [apply t_get; auto|].
        intros v. apply t_pre. intros w2 (-> & ->).
        eapply t_then with (M := fun _ w => map_K (d ++ [(n, i)]) d ctx w /\ good_osm w n /\ good_db w n).
        2:{ intros _. apply t_ret. auto. }
        destruct (regenerate s || match lookup (db_path n) (w_tiles w1) with Some _ => false | None => true end || _) eqn:Ec.
        - eapply t_then with (M := fun o w => Good n o /\ w = w1).
          { apply t_content.
            - intros o f w Hl Hc ->. destruct G1 as (f' & o' & El & Eo & Go). split; [|reflexivity].
              rewrite El in Hl. injection Hl as ->. rewrite Eo in Hc. injection Hc as ->. exact Go.
            - intros w ->. split; apply K. }
          intros o. eapply t_then with (M := fun t w => GoodDb n t /\ w = w1).
          { apply t_lift.
            - intros t w Et (Go & ->). split; [exists o; auto|reflexivity].
            - intros w (_ & ->). split; apply K. }
          intros t. apply t_write. intros w (Gt & ->).
          destruct K as (S & M & A & B & C).
          split; [|split; [exact G1|apply (put_db_good w1 n n t); auto; contradiction]].
          split; [exact S|]. split.
          + intros u m Nm. destruct (M u m Nm) as [M1 M2]. split; [exact M1|].
            cbn. rewrite !lookup_put. intros X. apply (put_db_good w1 n m t); auto.
            intros Dm. apply M2. destruct (text_eqb_spec (db_path m) (db_path n)) as [Y|Y]; [|exact X].
            apply Hdb in Y; auto; contradiction.
          + split; [|split; [exact B|exact C]].
            intros m Hm. destruct (A m Hm) as [A1 A2]. split; [exact A1|].
            apply (put_db_good w1 n m t); auto.
        - apply t_ret. intros w ->. split; [exact K|]. split; [exact G1|].
          destruct (regenerate s) eqn:Er; [discriminate|]. cbn [orb] in Ec. apply orb_false_iff in Ec. destruct Ec as [Ec _].
          destruct K as (S & M & _). apply (M (HU eq_refl) n Nn). destruct (lookup _ _); [discriminate|discriminate]. }
      intros p. apply t_pre. intros w2 (-> & K2 & G2 & G3). destruct K2 as (S & M & A & B & C1 & C2).
      rewrite (C2 n Nd). apply t_ret. intros w ->.
      split; [exact S|]. split; [exact M|]. split; [|split; [exact B|]].
      - intros m Hm. rewrite map_app in Hm. apply in_app_or in Hm. destruct Hm as [Hm|[<-|[]]]; [exact (A m Hm)|split; assumption].
      - split; intros m Hm; rewrite map_app in Hm; rewrite lookup_app; cbn [lookup].
        + destruct (in_dec (list_eq_dec ascii_dec) m (map fst d)) as [X|X]; [rewrite (C1 m X); reflexivity|].
          rewrite (C2 m X). apply in_app_or in Hm. destruct Hm as [Hm|[<-|[]]]; [contradiction|]. cbn [fst].
          destruct (text_eqb_spec n n); [reflexivity|contradiction].
        + rewrite (C2 m) by (intros X; apply Hm; apply in_or_app; left; exact X).
          destruct (text_eqb_spec m n) as [->|]; [|reflexivity]. destruct Hm. apply in_or_app. right. left. reflexivity.
    Qed.
  End Maps.

  (* ---- the timetables ---- *)
  Definition all_but_raw_timetables (w0 w : world) : Prop :=
    w_infras w = w_infras w0 /\ w_timetables w = w_timetables w0 /\ w_raw_infras w = w_raw_infras w0 /\
    w_osm w = w_osm w0 /\ w_tiles w = w_tiles w0.

  Section Timetables.
    Variable s : settings.
    Variable now : N.
    Variable w0 : world.
    Hypothesis ND : NoDup (map fst (w_timetables w0)).
    Notation todos := (get_timetable_todo_list IS TS I T OSM DB s w0).

    Lemma todos_unique n x y : In (Source n x) todos -> In (Source n y) todos -> x = y.
    Proof.
      intros Hx Hy. apply todo_In in Hx. apply todo_In in Hy. cbn [iname] in *.
      destruct Hx as (x' & t & Ix & -> & _), Hy as (y' & u & Iy & -> & _).
      apply (In_lookup _ _ _ ND) in Ix. apply (In_lookup _ _ _ ND) in Iy. congruence.
    Qed.

    Definition ctx_of (d : list (item TS)) (i : I) (ctx : list (text * T)) : Prop :=
      forall n t, lookup n ctx = Some t <-> exists x, In (Source n x) d /\ load_timetable x i = Ok (Some t).

    Lemma ctx_of_emplace d n x i ctx t : (forall y, In (Source n y) d -> y = x) ->
      ctx_of d i ctx -> load_timetable x i = Ok (Some t) -> ctx_of (d ++ [Source n x]) i (emplace_ ctx n t).
    Proof.
      intros Un C L m u. rewrite lookup_emplace. split.
      - destruct (lookup m ctx) as [v|] eqn:E.
        + intros [= <-]. apply C in E. destruct E as (y & Hy & Ly). exists y. split; [apply in_or_app; left; exact Hy|exact Ly].
        + destruct (text_eqb_spec m n) as [->|]; [|discriminate]. intros [= <-]. exists x.
          split; [apply in_or_app; right; left; reflexivity|exact L].
      - intros (y & Hy & Ly). apply in_app_or in Hy. destruct Hy as [Hy|[Hy|[]]].
        + assert (E : lookup m ctx = Some u) by (apply C; eauto). rewrite E. reflexivity.
        + injection Hy as <- <-. rewrite L in Ly. injection Ly as <-. destruct (lookup n ctx) as [v|] eqn:E.
          * apply C in E. destruct E as (z & Hz & Lz). rewrite (Un z Hz) in Lz. congruence.
          * destruct (text_eqb_spec n n); [reflexivity|contradiction].
    Qed.
    Lemma ctx_of_skip d it i ctx : (forall n x t, it = Source n x -> load_timetable x i <> Ok (Some t)) ->
      ctx_of d i ctx -> ctx_of (d ++ [it]) i ctx.
    Proof.
      intros H C m u. rewrite (C m u). split; intros (y & Hy & Ly); exists y; split; auto.
      - apply in_or_app. left. exact Hy.
      - apply in_app_or in Hy. destruct Hy as [Hy|[Hy|[]]]; [exact Hy|]. destruct (H m y u Hy Ly).
    Qed.

    Lemma timetables_of i :
      triple (all_but_raw_timetables w0) (each _ _ _ _ _ _ (timetable_item _ _ _ _ _ _ load_timetable s now i) [] todos)
        (fun ctx w => all_but_raw_timetables w0 w /\ ctx_of todos i ctx) (all_but_raw_timetables w0).
    Proof.
      eapply t_conseq; [apply (t_each _ (fun d ctx w => all_but_raw_timetables w0 w /\ ctx_of d i ctx))| | |]; cbv beta.
      2:{ intros w S. split; [exact S|]. intros n t. split; [discriminate|]. intros (x & [] & _). }
      2:{ auto. } 2:{ intros w H. exact H. }
      intros d it r ctx E. unfold timetable_item.
      eapply t_then with (M := fun o w => try_parsing_timetable _ _ _ load_timetable it i = Ok o /\ all_but_raw_timetables w0 w /\ ctx_of d i ctx).
      { apply t_lift; [auto|]. intros w H. apply H. }
      intros [t|].
      - eapply t_then with (M := fun _ w => try_parsing_timetable _ _ _ load_timetable it i = Ok (Some t) /\ all_but_raw_timetables w0 w /\ ctx_of d i ctx).
        { destruct it as [n x|n]; [|apply t_ret; auto]. destruct (serialization_possible s); [|apply t_ret; auto].
          apply t_write. intros w H. exact H. }
        intros _. apply t_ret. intros w (L & S & C). split; [exact S|]. destruct it as [n x|n]; [|discriminate L].
        apply ctx_of_emplace; auto. intros y Hy. apply (todos_unique n); rewrite E; apply in_or_app; [left; exact Hy|right; left; reflexivity].
      - apply t_ret. intros w (L & S & C). split; [exact S|]. apply ctx_of_skip; [|exact C].
        intros n x t -> Lx. cbn [try_parsing_timetable] in L. congruence.
    Qed.

    Variable infras : list (text * I).
    Hypothesis NDi : NoDup (map fst infras).

    Lemma timetables_phase :
      triple (fun w => w = w0) (get_timetable_module _ _ _ _ _ _ load_timetable order s now infras)
        (fun ctxs w => all_but_raw_timetables w0 w /\
           (forall m i, In (m, i) infras -> exists ctx, lookup m ctxs = Some ctx /\ ctx_of todos i ctx) /\
           (forall m, ~ In m (map fst infras) -> lookup m ctxs = None))
        (all_but_raw_timetables w0).
    Proof.
      unfold get_timetable_module. eapply t_then with (M := fun v w => v = w0 /\ w = w0); [apply t_get; auto|].
      intros v. apply t_pre. intros w (-> & ->).
      assert (Pi := order_perm infras). assert (NDo := Permutation_NoDup (Permutation_map fst Pi) NDi).
      eapply t_conseq; [apply (t_each _ (fun d ctxs w => all_but_raw_timetables w0 w /\
           (forall m i, In (m, i) d -> exists ctx, lookup m ctxs = Some ctx /\ ctx_of todos i ctx) /\
           (forall m, ~ In m (map fst d) -> lookup m ctxs = None)))| | |]; cbv beta.
      2:{ intros w ->. split; [repeat split|]. split; [contradiction|reflexivity]. }
      2:{ intros ctxs w (S & A & B). split; [exact S|]. split.
          - intros m i H. apply A. exact (Permutation_in _ Pi H).
          - intros m H. apply B. intros H'. apply H. exact (Permutation_in _ (Permutation_sym (Permutation_map fst Pi)) H'). }
      2:{ intros w H. exact H. }
      intros d [m i] r ctxs E. apply t_pre. intros w1 (S & A & B). cbn [fst snd].
      eapply t_then.
      { eapply t_conseq; [apply (timetables_of i)| | |]; cbv beta.
        - intros w ->. exact S.
        - intros ctx w H. exact H.
        - auto. }
      intros ctx. apply t_ret. intros w (S' & C). split; [exact S'|].
      assert (Nm : lookup m ctxs = None).
      { apply B. rewrite E, map_app in NDo. cbn [map fst] in NDo. apply NoDup_remove_2 in NDo. intros H. apply NDo.
        apply in_or_app. left. exact H. }
      split.
      - intros m' i' H. apply in_app_or in H. rewrite lookup_emplace. destruct H as [H|[H|[]]].
        + destruct (A m' i' H) as (ctx' & L & C'). rewrite L. exists ctx'. auto.
        + injection H as <- <-. rewrite Nm. destruct (text_eqb_spec m m); [|contradiction]. exists ctx. auto.
      - intros m' H. rewrite map_app in H. rewrite lookup_emplace, B by (intros X; apply H; apply in_or_app; left; exact X).
        destruct (text_eqb_spec m' m) as [->|]; [|reflexivity]. destruct H. apply in_or_app. right. left. reflexivity.
    Qed.
  End Timetables.
End Phases.
