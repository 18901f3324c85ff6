(* Proofs about the ordering graph request: the texts of the request, the index
   of the trips, the answer. *)
From Coq Require Import Ascii String Permutation Sorting.Sorted.
From Verif Require Import Base TextModel TextProofs PropsText KssDates BitfieldModel TrainModel GraphModel GraphProofs
  OrderingModel OrderingSpec OrderingBuild OrderingProofs OgServeModel OgServeSpec.
From Verif Require ServeModel.
Open Scope nat_scope.

(* ---- the texts ---- *)
Lemma try_parse_iff lo hi s v : try_parse_int lo hi s = inl v <-> parse_int lo hi s = Ok v.
Proof.
  unfold try_parse_int, parse_int. destruct (parse_int_impl lo hi s) as [[[| |] [|c p]] x]; cbn; split; intros H;
    try discriminate; injection H as ->; reflexivity.
Qed.
Lemma says_iff s v : str_to_u32 s = Some v <-> says s v.
Proof.
  unfold str_to_u32, says. split.
  - destruct (try_parse_int 0 4294967295 s) as [x|] eqn:E; [|discriminate]. intros [= <-]. apply try_parse_iff in E.
    apply parse_unsigned in E as [N L]. destruct (numeral_digits _ _ N) as (_ & F & P).
    assert (0 <= x)%Z. { rewrite <- P. apply digits_val_nonneg, F. }
    rewrite Z2N.id by assumption. split; [exact N|lia].
  - intros [N L]. assert (E : parse_int 0 4294967295 s = Ok (Z.of_N v)) by (apply parse_unsigned; split; [exact N|lia]).
    apply try_parse_iff in E. rewrite E, N2Z.id. reflexivity.
Qed.
Lemma all_ids_iff l : forall ids, all_ids l = Some ids <-> Forall2 says l ids.
Proof.
  induction l as [|s l IH]; intros ids; cbn [all_ids].
  - split; [intros [= <-]; constructor|intros H; inversion H; reflexivity].
  - split.
    + destruct (str_to_u32 s) as [v|] eqn:E; [|discriminate]. destruct (all_ids l) as [vs|]; [|discriminate]. intros [= <-].
      constructor; [apply says_iff, E|apply IH; reflexivity].
    + intros H. inversion H as [|? v ? vs Hs Hl]; subst. apply says_iff in Hs. apply IH in Hl. rewrite Hs, Hl. reflexivity.
Qed.

Lemma commas_join l : commas l = join [","%char] l.
Proof. induction l as [|s [|s2 l] IH]; [reflexivity|reflexivity|]. change (commas (s :: s2 :: l)) with (s ++ ","%char :: commas (s2 :: l)). rewrite IH. reflexivity. Qed.
Lemma occurs_comma (s : list ascii) k : occurs_at [","%char] s k -> In ","%char s.
Proof. intros [l [r [-> _]]]. rewrite !in_app_iff. right. left. left. reflexivity. Qed.
Lemma comma_pieces toks : toks <> [] -> (forall t, In t toks -> ~ In ","%char t) -> pieces [","%char] (join [","%char] toks) toks.
Proof.
  induction toks as [|t toks IH]; intros NE H; [congruence|].
  destruct toks as [|t2 toks].
  - cbn. apply pieces_last. intros j O. apply occurs_comma in O. exact (H t (or_introl eq_refl) O).
  - change (join [","%char] (t :: t2 :: toks)) with (t ++ [","%char] ++ join [","%char] (t2 :: toks)).
    apply pieces_more; [|apply IH; [discriminate|intros u I; apply H; right; exact I]].
    intros j [l [r [E L]]]. subst j. destruct (Nat.le_gt_cases (List.length t) (List.length l)) as [L'|L']; [exact L'|exfalso].
    apply (H t (or_introl eq_refl)).
    assert (N0 : nth_error (t ++ [","%char] ++ join [","%char] (t2 :: toks)) (List.length l) = Some ","%char).
    { rewrite E. rewrite nth_error_app2 by lia. rewrite Nat.sub_diag. reflexivity. }
    rewrite nth_error_app1 in N0 by exact L'. apply nth_error_In in N0. exact N0.
Qed.
Lemma split_sep csv : exists l, TextModel.split csv [","%char] = Ok l /\ separated csv l /\ forall l', separated csv l' -> l' = l.
Proof.
  destruct csv as [|c csv].
  - exists []. split; [reflexivity|]. split; [split; [reflexivity|split; [intros s []|discriminate]]|].
    intros [|s [|s2 l]] (E & _ & N); [reflexivity| |].
    + cbn in E. subst s. congruence.
    + exfalso. cbn [commas] in E. destruct s; discriminate.
  - destruct (C31_split (c :: csv) [","%char]) as (l & E & P & J & F & U); [discriminate|discriminate|].
    exists l. split; [exact E|]. split.
    + split; [rewrite commas_join; symmetry; exact J|]. split.
      * rewrite Forall_forall in F. intros s Hs Hc. apply in_split in Hc as (a & b & Hc). apply (F s Hs (List.length a)).
        exists a, b. split; [exact Hc|reflexivity].
      * intros ->. discriminate J.
    + intros l' (E' & H & N). apply U. rewrite E', commas_join. apply comma_pieces; [|exact H]. intros ->. discriminate.
Qed.

Lemma filter_ok from to ids a b is :
  (says from a /\ says to b /\ (a <= b)%N /\ exists l, separated ids l /\ Forall2 says l is) <->
  params_to_filter from to ids = Ok (Some (mkint a b, is)).
Proof.
  unfold params_to_filter, comma_values_to_train_ids. destruct (split_sep ids) as (l & E & S & U). rewrite E. cbn [bind].
  split.
  - intros (A & B & L & l' & S' & F). rewrite (U _ S') in F. apply says_iff in A, B. apply all_ids_iff in F. rewrite A, B.
    unfold iv_valid. cbn [iv_start iv_end]. rewrite (proj2 (N.leb_le a b) L), F. reflexivity.
  - intros H. destruct (str_to_u32 from) as [a'|] eqn:A; [|discriminate]. destruct (str_to_u32 to) as [b'|] eqn:B; [|discriminate].
    destruct (iv_valid (mkint a' b')) eqn:V; [|discriminate]. destruct (all_ids l) as [is'|] eqn:F; [|discriminate].
    injection H as -> -> ->. unfold iv_valid in V. cbn in V. apply N.leb_le in V. apply says_iff in A, B. apply all_ids_iff in F. eauto 8.
Qed.
Lemma filter_total from to ids : exists o, params_to_filter from to ids = Ok o.
Proof.
  unfold params_to_filter, comma_values_to_train_ids. destruct (split_sep ids) as (l & E & _). rewrite E. cbn [bind].
  destruct (str_to_u32 from); [|eauto]. destruct (str_to_u32 to); [|eauto]. destruct (iv_valid _); eauto.
Qed.

(* ---- lists ---- *)
Lemma mapM_map {A B} (f : A -> res B) (g : A -> B) l : (forall a, In a l -> f a = Ok (g a)) -> ServeModel.mapM f l = Ok (map g l).
Proof.
  induction l as [|a l IH]; intros H; cbn [ServeModel.mapM map]; [reflexivity|].
  rewrite (H a (or_introl eq_refl)). cbn [bind]. rewrite IH by (intros x Hx; apply H; right; exact Hx). reflexivity.
Qed.

(* ---- entries for things that follow each other ---- *)
Section Tagged.
  Context {A : Type}.
  Variable len : A -> nat.
  Fixpoint tagged (cur : nat) (l : list A) : list (A * (nat * nat)) :=
    match l with
    | [] => []
    | x :: l => (x, (cur, cur + len x)) :: tagged (cur + len x) l
    end.
  Definition span (v : nat * nat) : list nat := seq (fst v) (snd v - fst v).

  Lemma tagged_fst l : forall cur, map fst (tagged cur l) = l.
  Proof. induction l as [|x l IH]; intros cur; cbn; [reflexivity|]. rewrite IH. reflexivity. Qed.
  Lemma tagged_app l1 l2 : forall cur, tagged cur (l1 ++ l2) = tagged cur l1 ++ tagged (cur + list_sum (map len l1)) l2.
  Proof.
    induction l1 as [|x l1 IH]; intros cur; cbn [app tagged map list_sum fold_right].
    - rewrite Nat.add_0_r. reflexivity.
    - rewrite IH. cbn [app]. do 3 f_equal. unfold list_sum. lia.
  Qed.
  Lemma tagged_span l : forall cur, flat_map (fun e => span (snd e)) (tagged cur l) = seq cur (list_sum (map len l)).
  Proof.
    induction l as [|x l IH]; intros cur; cbn [tagged flat_map snd map list_sum fold_right]; [reflexivity|].
    rewrite IH. unfold span. cbn [fst snd]. replace (cur + len x - cur) with (len x) by lia.
    change (fold_right Nat.add 0 (map len l)) with (list_sum (map len l)). rewrite seq_app. reflexivity.
  Qed.
  Lemma tagged_in {B} (U : A -> list B) l : (forall x, In x l -> List.length (U x) = len x) ->
    forall cur x v, In (x, v) (tagged cur l) -> In x l /\ cur <= fst v /\ snd v = fst v + len x /\
      forall p, p < len x -> nth_error (flat_map U l) (fst v - cur + p) = nth_error (U x) p.
  Proof.
    induction l as [|y l IH]; intros H cur x v I; [destruct I|]. cbn [tagged] in I. destruct I as [[= <- <-]|I].
    - cbn [fst snd]. split; [left; reflexivity|]. split; [lia|]. split; [reflexivity|]. intros p Hp. rewrite Nat.sub_diag. cbn [plus flat_map].
      apply nth_error_app1. rewrite (H y (or_introl eq_refl)). exact Hp.
    - destruct (IH (fun z Hz => H z (or_intror Hz)) _ _ _ I) as (I' & C & S & N). split; [right; exact I'|]. split; [lia|]. split; [exact S|].
      intros p Hp. cbn [flat_map]. rewrite nth_error_app2; rewrite (H y (or_introl eq_refl)); [|lia]. rewrite <- (N p Hp). f_equal. lia.
  Qed.
End Tagged.

(* ---- the index of the trips ---- *)
Section Index.
  Variable conv : ttrain -> otrain.
  Hypothesis Cp : forall t, ot_path (conv t) = tt_path t.
  Hypothesis Ca : forall t, ot_arrivals (conv t) = tt_arrivals t.
  Variable flt : list nat.
  Definition len (x : ttrain * N) : nat := List.length (tt_path (fst x)).
  Definition entry (e : (ttrain * N) * (nat * nat)) : tentry := ((ot_id (conv (fst (fst e))), snd (fst e)), snd e).
  Definition train_trips (t : ttrain) : list (ttrain * N) :=
    match tt_arrivals t with [] => [] | _ => map (pair t) (ot_anchors (conv t)) end.
  Definition all_trips (trains : list ttrain) : list (ttrain * N) :=
    flat_map train_trips (filter (fun t => selected flt (conv t)) trains).
  Definition trip_uses_of (x : ttrain * N) : list route_use := trip_uses (conv (fst x)) (snd x).

  Lemma uses_of_trips trains : all_uses flt (map conv trains) = flat_map trip_uses_of (all_trips trains).
  Proof.
    unfold all_uses, all_trips. induction trains as [|t l IH]; [reflexivity|]. cbn [map filter].
    destruct (selected flt (conv t)); [|exact IH]. cbn [flat_map]. rewrite flat_map_app, IH. f_equal.
    unfold train_trips. destruct (tt_arrivals t) as [|x r] eqn:E.
    - induction (ot_anchors (conv t)) as [|a as_ IHa]; [reflexivity|]. cbn [flat_map]. rewrite IHa. unfold trip_uses. rewrite Ca, E. reflexivity.
    - clear. induction (ot_anchors (conv t)) as [|a as_ IHa]; [reflexivity|]. cbn [flat_map map]. rewrite IHa. reflexivity.
  Qed.

  Definition fresh (m : list tentry) (id : nat) (a : N) : Prop := forall v, ~ In ((id, a), v) m.
  Lemma emplace_fresh m id a v : fresh m id a -> emplace m (id, a) v = m ++ [((id, a), v)].
  Proof.
    intros F. unfold emplace. destruct (existsb (fun e => trip_eqb (fst e) (id, a)) m) eqn:E; [|reflexivity]. exfalso. apply existsb_exists in E as ([k w] & I & E).
    cbn in E. apply trip_eqb_eq in E. subst k. exact (F _ I).
  Qed.

  Lemma gen_anchors_index t : List.length (tt_path t) = S (List.length (tt_arrivals t)) -> tt_arrivals t <> [] ->
    forall anchors ns m, NoDup anchors -> (forall a, In a anchors -> fresh m (ot_id (conv t)) a) ->
    exists ns', gen_anchors (conv t) anchors (ns, m) =
        Ok (ns', m ++ map entry (tagged len (List.length ns) (map (pair t) anchors))) /\
      List.length ns' = List.length ns + list_sum (map len (map (pair t) anchors)).
  Proof.
    intros L Ne. induction anchors as [|a anchors IH]; intros ns m ND F; cbn [gen_anchors map tagged].
    - exists ns. rewrite app_nil_r. split; [reflexivity|cbn; lia].
    - rewrite sassert_true by (apply Nat.eqb_eq; rewrite Cp, Ca; lia). cbn [bind].
      destruct (ot_arrivals (conv t)) as [|x l] eqn:E; [rewrite Ca in E; congruence|]. cbn [fst snd].
      inversion_clear ND as [|? ? N1 N2].
      assert (Lp : List.length (ot_path (conv t)) = S (List.length (ot_arrivals (conv t)))) by (rewrite Cp, Ca; exact L).
      assert (Nn : ot_arrivals (conv t) <> []) by (rewrite Ca; exact Ne).
      rewrite (trip_nodes_gen_ok (conv t) a _ Lp Nn), (emplace_fresh m _ a _ (F a (or_introl eq_refl))).
      destruct (IH (ns ++ imap (List.length ns) (trip_uses (conv t) a))
                   (m ++ [((ot_id (conv t), a), (List.length ns, List.length ns + List.length (ot_path (conv t))))]) N2) as (ns' & E' & L').
      { intros b Hb v I. apply in_app_or in I. destruct I as [I|[[= -> _]|[]]]; [exact (F b (or_intror Hb) v I)|contradiction]. }
      assert (Ln : List.length (ns ++ imap (List.length ns) (trip_uses (conv t) a)) = List.length ns + List.length (tt_path t)).
      { rewrite app_length, imap_length, (trip_uses_length _ _ Lp Nn), Cp. reflexivity. }
      exists ns'. split.
      + etransitivity; [exact E'|]. rewrite Ln. rewrite <- app_assoc. cbn [app map]. unfold entry at 2, len at 2 4. cbn [fst snd]. rewrite Cp. reflexivity.
      + rewrite L', Ln. cbn [list_sum fold_right]. unfold len at 2. cbn [fst]. unfold list_sum. lia.
  Qed.

  Lemma in_train_trips t u a : In (u, a) (train_trips t) -> u = t /\ In a (ot_anchors (conv t)) /\ tt_arrivals t <> [].
  Proof.
    unfold train_trips. destruct (tt_arrivals t) eqn:E; [intros []|]. rewrite in_map_iff. intros (b & [= <- <-] & I). split; [reflexivity|]. split; [exact I|discriminate].
  Qed.
  Lemma in_all_trips trains t a : In (t, a) (all_trips trains) <->
    In t trains /\ selected flt (conv t) = true /\ tt_arrivals t <> [] /\ In a (ot_anchors (conv t)).
  Proof.
    unfold all_trips. rewrite in_flat_map. split.
    - intros (u & Hu & I). apply filter_In in Hu as [Hu S]. apply in_train_trips in I as (-> & I & N). auto.
    - intros (Ht & S & N & I). exists t. split; [apply filter_In; auto|]. unfold train_trips. destruct (tt_arrivals t); [congruence|]. apply in_map, I.
  Qed.

  Lemma gen_trains_index trains : (forall t, In t trains -> List.length (tt_path t) = S (List.length (tt_arrivals t))) ->
    NoDup (map (fun t => ot_id (conv t)) trains) -> (forall t, In t trains -> NoDup (ot_anchors (conv t))) ->
    forall ns m, (forall t a, In t trains -> fresh m (ot_id (conv t)) a) ->
    exists ns', gen_trains flt (map conv trains) (ns, m) =
        Ok (ns', m ++ map entry (tagged len (List.length ns) (all_trips trains))) /\
      List.length ns' = List.length ns + list_sum (map len (all_trips trains)).
  Proof.
    unfold all_trips. induction trains as [|t l IH]; intros W ND NA ns m F; cbn [map gen_trains filter].
    - exists ns. cbn. rewrite app_nil_r. split; [reflexivity|lia].
    - cbn [map] in ND. inversion_clear ND as [|? ? N1 N2].
      assert (Es : negb (match flt with [] => true | _ => false end) && negb (existsb (Nat.eqb (ot_id (conv t))) flt)
                 = negb (selected flt (conv t))) by (unfold selected; destruct flt; reflexivity).
      rewrite Es. destruct (selected flt (conv t)) eqn:S; cbn [negb].
      2:{ apply IH; auto; intros; [apply W|apply NA|apply F]; right; assumption. }
      cbn [flat_map]. rewrite tagged_app, map_app.
      destruct (tt_arrivals t) as [|x r] eqn:Ea.
      + assert (G : gen_anchors (conv t) (ot_anchors (conv t)) (ns, m) = Ok (ns, m)).
        { destruct (ot_anchors (conv t)) as [|a as_]; [reflexivity|]. cbn [gen_anchors].
          rewrite sassert_true by (apply Nat.eqb_eq; rewrite Cp, Ca, (W t (or_introl eq_refl)), Ea; reflexivity).
          rewrite Ca, Ea. reflexivity. }
        assert (T : train_trips t = []) by (unfold train_trips; rewrite Ea; reflexivity).
        rewrite G, T. cbn [bind]. cbn [map tagged app list_sum fold_right].
        rewrite Nat.add_0_r. apply IH; auto; intros; [apply W|apply NA|apply F]; right; assumption.
      + destruct (gen_anchors_index t (W t (or_introl eq_refl)) ltac:(congruence) (ot_anchors (conv t)) ns m
                    (NA t (or_introl eq_refl)) (fun a _ => F t a (or_introl eq_refl))) as (ns1 & E1 & L1).
        rewrite E1. cbn [bind].
        destruct (IH (fun u Hu => W u (or_intror Hu)) N2 (fun u Hu => NA u (or_intror Hu)) ns1
                    (m ++ map entry (tagged len (List.length ns) (map (pair t) (ot_anchors (conv t)))))) as (ns2 & E2 & L2).
        { intros u a Hu v I. apply in_app_or in I. destruct I as [I|I]; [exact (F u a (or_intror Hu) v I)|].
          apply in_map_iff in I as ([[w b] v'] & Ew & I). unfold entry in Ew. cbn [fst snd] in Ew. injection Ew as Ei _ _.
          apply (in_map fst) in I. rewrite tagged_fst in I. cbn [fst] in I. apply in_map_iff in I as (c & [= <- _] & _).
          apply N1. rewrite Ei. apply (in_map (fun t => ot_id (conv t))), Hu. }
        assert (T : train_trips t = map (pair t) (ot_anchors (conv t))) by (unfold train_trips; rewrite Ea; reflexivity).
        exists ns2. rewrite T, L2, L1. rewrite app_assoc. split; [rewrite E2, L1; reflexivity|].
        rewrite map_app. unfold list_sum. rewrite fold_right_app.
        assert (X : forall (a : list nat) b, fold_right Nat.add b a = fold_right Nat.add 0 a + b).
        { clear. induction a as [|x a IHa]; intros b; cbn; [reflexivity|]. rewrite (IHa b). lia. }
        rewrite (X _ (fold_right Nat.add 0 _)). lia.
  Qed.
End Index.
