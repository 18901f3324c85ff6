(* Proofs about the answers of the web server. *)
From Coq Require Import Ascii String QArith.
From Verif Require Import Base TextModel StockModel LineModel KssDates StartModel StartProofs ServeModel ServeSpec PropsLine.

(* ---- lists ---- *)
Lemma th_within {A} (l : list A) v : within l v <-> exists x, th l v x.
Proof.
  unfold within, th. split.
  - intros H. destruct (nth_error l (N.to_nat v)) eqn:E; [eauto|]. apply nth_error_None in E. lia.
  - intros [x H]. assert (nth_error l (N.to_nat v) <> None) as H' by congruence. apply nth_error_Some in H'. lia.
Qed.
Lemma vec_at_iff {A} (l : list A) v x : vec_at l v = Ok x <-> th l v x.
Proof. unfold vec_at, th. destruct (nth_error l (N.to_nat v)); split; congruence. Qed.
Lemma vec_at_out {A} (l : list A) v : ~ within l v -> vec_at l v = UB.
Proof.
  unfold vec_at, within. intros H. destruct (nth_error l (N.to_nat v)) eqn:E; [|reflexivity].
  exfalso. apply H. apply th_within. eexists. exact E.
Qed.
Lemma th_In {A} (l : list A) v x : th l v x -> In x l.
Proof. apply nth_error_In. Qed.
Lemma In_th {A} (l : list A) x : In x l -> exists v, th l v x.
Proof.
  intros H. apply In_nth_error in H as [k H]. exists (N.of_nat k). unfold th. rewrite Nat2N.id. exact H.
Qed.
Lemma th_same {A} (l : list A) v x y : th l v x -> th l v y -> x = y.
Proof. unfold th. congruence. Qed.

Lemma mapM_cons {A B} (f : A -> res B) a l bs : mapM f (a :: l) = Ok bs <->
  exists b bs', bs = b :: bs' /\ f a = Ok b /\ mapM f l = Ok bs'.
Proof.
  cbn [mapM]. split.
  - intros H. destruct (f a) as [b| | |]; try discriminate. cbn [bind] in H.
    destruct (mapM f l) as [bs'| | |]; try discriminate. cbn [bind] in H. injection H as <-. eauto 6.
  - intros (b & bs' & -> & H1 & H2). rewrite H1. cbn [bind]. rewrite H2. reflexivity.
Qed.
Lemma mapM_F2 {A B} (f : A -> res B) l : forall bs, mapM f l = Ok bs <-> Forall2 (fun a b => f a = Ok b) l bs.
Proof.
  induction l as [|a l IH]; intros bs.
  - cbn [mapM]. split; intros H; [injection H as <-; constructor|inversion H; reflexivity].
  - rewrite mapM_cons. split.
    + intros (b & bs' & -> & H1 & H2). constructor; [exact H1|]. apply IH, H2.
    + intros H. inversion H; subst. exists y, l'. split; [reflexivity|]. split; [assumption|]. apply IH. assumption.
Qed.
Lemma mapM_total {A B} (f : A -> res B) l : (forall a, In a l -> exists b, f a = Ok b) -> exists bs, mapM f l = Ok bs.
Proof.
  induction l as [|a l IH]; intros H; [exists []; reflexivity|].
  destruct (H a (or_introl eq_refl)) as [b Hb]. destruct (IH (fun x Hx => H x (or_intror Hx))) as [bs Hbs].
  exists (b :: bs). apply mapM_cons. eauto 6.
Qed.
Lemma F2_In_l {A B} (R : A -> B -> Prop) l m : Forall2 R l m -> forall a, In a l -> exists b, In b m /\ R a b.
Proof.
  induction 1 as [|x y l m H _ IH]; intros a Ha; [destruct Ha|]. destruct Ha as [->|Ha]; [exists y; split; [left; reflexivity|exact H]|].
  destruct (IH a Ha) as (b & Hb & Hr). exists b. split; [right; exact Hb|exact Hr].
Qed.
Lemma F2_In_r {A B} (R : A -> B -> Prop) l m : Forall2 R l m -> forall b, In b m -> exists a, In a l /\ R a b.
Proof.
  induction 1 as [|x y l m H _ IH]; intros b Hb; [destruct Hb|]. destruct Hb as [->|Hb]; [exists x; split; [left; reflexivity|exact H]|].
  destruct (IH b Hb) as (a & Ha & Hr). exists a. split; [right; exact Ha|exact Hr].
Qed.
(* the members of the concatenation of what a loop produced *)
Lemma concat_mapM {A B} (f : A -> res (list B)) l bs : mapM f l = Ok bs ->
  forall b, In b (concat bs) <-> exists a c, In a l /\ f a = Ok c /\ In b c.
Proof.
  intros H b. apply mapM_F2 in H. rewrite in_concat. split.
  - intros (c & Hc & Hb). destruct (F2_In_r _ _ _ H c Hc) as (a & Ha & E). eauto 6.
  - intros (a & c & Ha & E & Hb). destruct (F2_In_l _ _ _ H a Ha) as (c' & Hc' & E'). rewrite E in E'. injection E' as <-. eauto.
Qed.
Lemma enumerate_In {A} (l : list A) k x : In (k, x) (enumerate l) <-> nth_error l k = Some x.
Proof.
  unfold enumerate. assert (G : forall l s, In (k, x) (combine (seq s (List.length l)) l) <-> (s <= k)%nat /\ nth_error l (k - s) = Some x).
  { clear l. intros l. induction l as [|a l IH]; intros s.
    - cbn. split; [contradiction|]. intros [_ H]. destruct (k - s)%nat; discriminate.
    - cbn [List.length seq combine In]. rewrite (IH (S s)). split.
      + intros [E|[L H]]; [injection E as -> ->; split; [lia|]; rewrite Nat.sub_diag; reflexivity|].
        split; [lia|]. replace (k - s)%nat with (S (k - S s)) by lia. exact H.
      + intros [L H]. destruct (Nat.eq_dec s k) as [->|N]; [left; rewrite Nat.sub_diag in H; injection H as ->; reflexivity|].
        right. split; [lia|]. replace (k - s)%nat with (S (k - S s)) in H by lia. exact H. }
  rewrite (G l 0%nat), Nat.sub_0_r. split; [tauto|]. split; [lia|assumption].
Qed.

(* ---- numbers as texts ---- *)
Lemma digit_char_digit k : (k < 10)%N -> digit (digit_char k) (Z.of_N k).
Proof. intros H. unfold digit, digit_char. split; [lia|]. rewrite N2Z.id. reflexivity. Qed.
Lemma to_digits_ok fuel : forall n, (n < 2 ^ N.of_nat fuel)%N -> (0 < fuel)%nat ->
  numeral (to_digits fuel n) (Z.of_N n) /\ (n <> 0%N -> hd_error (to_digits fuel n) <> Some "0"%char).
Proof.
  induction fuel as [|fuel IH]; intros n H F; [lia|]. cbn [to_digits].
  destruct (N.ltb_spec n 10) as [L|L].
  - split; [apply num_one, digit_char_digit, L|]. intros NZ. cbn [hd_error]. intros E. injection E as E.
    assert (n = 1 \/ n = 2 \/ n = 3 \/ n = 4 \/ n = 5 \/ n = 6 \/ n = 7 \/ n = 8 \/ n = 9)%N as C by lia.
    repeat destruct C as [->|C]; try (vm_compute in E; discriminate). subst n. vm_compute in E. discriminate.
  - assert (D : n = (10 * (n / 10) + n mod 10)%N) by (apply N.div_mod; lia).
    assert (M : (n mod 10 < 10)%N) by (apply N.mod_lt; lia).
    assert (Q : (n / 10 < 2 ^ N.of_nat fuel)%N).
    { apply N.div_lt_upper_bound; [lia|]. replace (N.of_nat (S fuel)) with (N.succ (N.of_nat fuel)) in H by lia. rewrite N.pow_succ_r' in H. lia. }
    assert (F' : (0 < fuel)%nat). { destruct fuel; [|lia]. change (2 ^ N.of_nat 0)%N with 1%N in Q. assert (1 <= n / 10)%N; [|lia]. apply N.div_le_lower_bound; lia. }
    destruct (IH _ Q F') as [I1 I2].
    split.
    + replace (Z.of_N n) with (10 * Z.of_N (n / 10) + Z.of_N (n mod 10)) by lia. apply num_snoc; [exact I1|]. apply digit_char_digit, M.
    + intros _. assert (NZ : (n / 10)%N <> 0%N). { assert (1 <= n / 10)%N; [apply N.div_le_lower_bound; lia|lia]. }
      specialize (I2 NZ). destruct (to_digits fuel (n / 10)) as [|c t]; [|exact I2].
      exfalso. destruct (numeral_digits _ _ I1) as [C _]. apply C. reflexivity.
Qed.
Lemma to_string_ok n : numeral (to_string n) (Z.of_N n) /\ (n <> 0%N -> hd_error (to_string n) <> Some "0"%char).
Proof.
  unfold to_string. apply to_digits_ok; [|lia].
  replace (N.of_nat (S (N.to_nat (N.log2 n)))) with (N.succ (N.log2 n)) by lia.
  destruct (N.eq_dec n 0) as [->|NZ]; [vm_compute; reflexivity|]. apply N.log2_spec. lia.
Qed.
Lemma numeral_zeros k : forall l v, numeral l v -> numeral (repeat "0"%char k ++ l) v.
Proof.
  intros l v H. destruct (numeral_digits _ _ H) as (NE & F & V). subst v.
  assert (E : digits_val (repeat "0"%char k ++ l) = digits_val l).
  { induction k as [|k IH]; [reflexivity|]. cbn [repeat app]. rewrite <- IH. unfold digits_val. cbn [fold_left].
    change (digit_val "0"%char) with 0. reflexivity. }
  rewrite <- E. apply digits_numeral.
  - destruct k; [exact NE|discriminate].
  - apply Forall_app. split; [|exact F]. apply Forall_forall. intros c Hc. apply repeat_spec in Hc. subst c. reflexivity.
Qed.
Lemma pad_ok n : number_text (left_pad_to_3_digits n) n.
Proof.
  unfold left_pad_to_3_digits. destruct (to_string_ok n) as [H1 H2]. split; [apply numeral_zeros, H1|].
  rewrite app_length, repeat_length. set (t := to_string n) in *.
  destruct (Nat.le_gt_cases (List.length t) 3) as [L|L]; [left; lia|]. right.
  replace (3 - Nat.min 3 (List.length t))%nat with 0%nat by lia. cbn [repeat app]. split; [lia|]. apply H2. intros ->.
  unfold t in L. vm_compute in L. lia.
Qed.
(* the two readings of a numeral determine it *)
Lemma numeral_inj_len : forall l m v, numeral l v -> numeral m v -> List.length l = List.length m -> l = m.
Proof.
  assert (B : forall l v, numeral l v -> 0 <= v).
  { intros l v H. destruct (numeral_digits _ _ H) as (_ & F & <-). apply digits_val_nonneg, F. }
  intros l m v H. revert m. induction H as [c k D|l v c k H IH D]; intros m M L.
  - inversion M as [c' k' D'|l' v' c' k' M' D']; subst.
    + destruct D as [_ ->], D' as [_ ->]. reflexivity.
    + rewrite app_length in L. cbn in L. destruct (numeral_digits _ _ M') as (NE & _). destruct l'; [congruence|]. cbn in L. lia.
  - inversion M as [c' k' D'|l' v' c' k' M' D']; subst.
    + rewrite app_length in L. cbn in L. destruct (numeral_digits _ _ H) as (NE & _). destruct l; [congruence|]. cbn in L. lia.
    + match goal with E : _ + k' = _ + k |- _ => change (10 * v' + k' = 10 * v + k) in E end.
      destruct D as [Dk ->], D' as [Dk' ->]. assert (v' = v /\ k' = k) as [-> ->] by lia.
      rewrite !app_length in L. rewrite (IH l' M'); [reflexivity|]. cbn in L. lia.
Qed.
Lemma numeral_head l v : numeral l v -> hd_error l <> Some "0"%char -> 10 ^ Z.of_nat (List.length l - 1) <= v.
Proof.
  induction 1 as [c k D|l v c k H IH D]; intros NZ.
  - cbn. destruct D as [Dk ->]. destruct (Z.eq_dec k 0) as [->|]; [exfalso; apply NZ; reflexivity|lia].
  - destruct (numeral_digits _ _ H) as (NE & _). destruct l as [|a l]; [congruence|]. specialize (IH NZ).
    rewrite app_length. cbn [List.length] in *. destruct D as [Dk _].
    replace (S (List.length l) + 1 - 1)%nat with (S (List.length l)) by lia. replace (S (List.length l) - 1)%nat with (List.length l) in IH by lia.
    rewrite Nat2Z.inj_succ, Z.pow_succ_r by lia. lia.
Qed.
Lemma numeral_bound l v : numeral l v -> v < 10 ^ Z.of_nat (List.length l).
Proof.
  induction 1 as [c k D|l v c k H IH D]; destruct D as [Dk _]; [cbn; lia|].
  rewrite app_length. cbn [List.length]. rewrite Nat.add_1_r, Nat2Z.inj_succ, Z.pow_succ_r by lia. lia.
Qed.
Lemma number_text_unique t u v : number_text t v -> number_text u v -> t = u.
Proof.
  assert (G : forall t u, number_text t v -> number_text u v -> (List.length t <= List.length u)%nat -> t = u).
  { intros t' u' [T1 T2] [U1 U2] L. apply (numeral_inj_len _ _ _ T1 U1).
    destruct U2 as [U2|[U2 U3]]; [lia|]. destruct (Nat.eq_dec (List.length t') (List.length u')) as [E|NE]; [exact E|exfalso].
    pose proof (numeral_head _ _ U1 U3) as A. pose proof (numeral_bound _ _ T1) as B.
    assert (10 ^ Z.of_nat (List.length t') <= 10 ^ Z.of_nat (List.length u' - 1)) by (apply Z.pow_le_mono_r; lia). lia. }
  intros T U. destruct (Nat.le_ge_cases (List.length t) (List.length u)); [apply G; assumption|symmetry; apply G; assumption].
Qed.

(* ---- boxes ---- *)
Lemma smallest ps : ps <> [] -> (forall p, In p ps -> valid_position p) -> smallest_box (get_bounding_box ps) ps.
Proof. intros NE V. exact (C48_bounding_box ps NE V). Qed.

Section Index.
  Variable i : infra.
  Hypothesis S : sound i.

  Lemma places_ok es : Forall (within (in_elements i)) es -> exists ps, mapM (vec_at (in_positions i)) es = Ok ps /\ places i es ps.
  Proof.
    intros F. destruct (mapM_total (vec_at (in_positions i)) es) as [ps H].
    - intros e He. rewrite Forall_forall in F. specialize (F e He). unfold within in F. rewrite <- (so_positions _ S) in F.
      apply th_within in F as [p Hp]. exists p. apply vec_at_iff, Hp.
    - exists ps. split; [exact H|]. apply mapM_F2 in H. unfold places. clear F. induction H as [|e p es ps H _ IH]; constructor; [apply vec_at_iff, H|exact IH].
  Qed.
  Lemma places_valid es ps : places i es ps -> forall p, In p ps -> valid_position p.
  Proof.
    intros P p Hp. destruct (F2_In_r _ _ _ P p Hp) as (e & _ & T). apply (so_valid _ S). exact (th_In _ _ _ T).
  Qed.
  Lemma box_ok es : es <> [] -> Forall (within (in_elements i)) es ->
    exists b ps, box_of (in_positions i) es = Ok b /\ places i es ps /\ smallest_box b ps.
  Proof.
    intros NE F. destruct (places_ok es F) as (ps & H & P). exists (get_bounding_box ps), ps.
    unfold box_of. rewrite H. split; [reflexivity|]. split; [exact P|]. apply smallest; [|exact (places_valid _ _ P)].
    intros ->. inversion P. congruence.
  Qed.

  (* what a result says is true *)
  Definition true_of (k : kind) (v : N) (b : box) : Prop :=
    exists es ps, made_of i k v es /\ places i es ps /\ smallest_box b ps.
  Definition good (r : result) : Prop :=
    (named i (rs_kind r) (rs_id r) (rs_name r) \/ rs_kind r = ELEMENT /\ rs_name r = [] /\ one_sided i (rs_id r)) /\
    true_of (rs_kind r) (rs_id r) (rs_box r) /\
    (labelled i (rs_kind r) (rs_id r) (rs_element_type r) \/ rs_kind r = ELEMENT /\ rs_element_type r = [] /\ operational i (rs_id r) (rs_name r)).
  Definition has (rs : list result) (k : kind) (v : N) (t : text) : Prop :=
    exists r, In r rs /\ rs_kind r = k /\ rs_id r = v /\ rs_name r = t.

  Lemma station_ok s v : th (in_stations i) v s -> exists rs, station_result i s = Ok rs /\
    Forall good rs /\ has rs STATION v (st_ds100 s).
  Proof.
    intros T. destruct (so_station _ S s (th_In _ _ _ T)) as (NE & F & _). destruct (box_ok _ NE F) as (b & ps & B & P & SB).
    unfold station_result. rewrite B. cbn [bind]. eexists. split; [reflexivity|].
    pose proof (so_stations _ S _ _ T) as Id.
    split; [constructor; [|constructor]|].
    - split; [left|split; [|left]]; cbn [rs_kind rs_id rs_name rs_box rs_element_type].
      + rewrite Id. apply by_ds100, T.
      + rewrite Id. exists (st_elements s), ps. split; [apply station_of, T|auto].
      + reflexivity.
    - eexists. split; [left; reflexivity|]. cbn. auto.
  Qed.

  Lemma full_ok k t : nth_error (in_full_names i) k = Some t -> exists rs, full_name_result i (k, t) = Ok rs /\
    Forall good rs /\ (has rs STATION (N.of_nat k) t \/ exists s, th (in_stations i) (N.of_nat k) s /\ st_ds100 s = t).
  Proof.
    intros E. assert (W : within (in_stations i) (N.of_nat k)).
    { unfold within. rewrite <- (so_full _ S). assert (nth_error (in_full_names i) k <> None) as H by congruence. apply nth_error_Some in H. lia. }
    apply th_within in W as [s T]. destruct (so_station _ S s (th_In _ _ _ T)) as (NE & F & _). destruct (box_ok _ NE F) as (b & ps & B & P & SB).
    unfold full_name_result. cbn [fst snd]. rewrite (proj2 (vec_at_iff _ _ _) T). cbn [bind].
    destruct (text_eqb_spec (st_ds100 s) t) as [<-|N].
    - eexists. split; [reflexivity|]. split; [constructor|]. right. eauto.
    - rewrite B. cbn [bind]. eexists. split; [reflexivity|]. split; [constructor; [|constructor]|].
      + split; [left|split; [|left]]; cbn [rs_kind rs_id rs_name rs_box rs_element_type].
        * apply by_full_name. unfold th. rewrite Nat2N.id. exact E.
        * exists (st_elements s), ps. split; [apply station_of, T|auto].
        * reflexivity.
      + left. eexists. split; [left; reflexivity|]. cbn. auto.
  Qed.

  Lemma sroute_ok r v : th (in_sroutes i) v r -> exists rs, sroute_result i r = Ok rs /\
    Forall good rs /\ has rs STATION_ROUTE v (sr_name r).
  Proof.
    intros T. destruct (so_sroute _ S r (th_In _ _ _ T)) as (NE & F & _). destruct (box_ok _ NE F) as (b & ps & B & P & SB).
    unfold sroute_result. rewrite B. cbn [bind]. eexists. split; [reflexivity|].
    pose proof (so_sroutes _ S _ _ T) as Id.
    split; [constructor; [|constructor]|].
    - split; [left|split; [|left]]; cbn [rs_kind rs_id rs_name rs_box rs_element_type].
      + rewrite Id. apply by_route_name, T.
      + rewrite Id. exists (sr_nodes r), ps. split; [apply sroute_of, T|auto].
      + reflexivity.
    - eexists. split; [left; reflexivity|]. cbn. auto.
  Qed.

  Lemma iroute_ok r v : th (in_iroutes i) v r -> exists rs, iroute_result i r = Ok rs /\
    Forall good rs /\ (forall t, number_text t v -> has rs INTERLOCKING_ROUTE v t).
  Proof.
    intros T. destruct (so_iroute _ S r (th_In _ _ _ T)) as (NE & F). destruct (box_ok _ NE F) as (b & ps & B & P & SB).
    unfold iroute_result. rewrite B. cbn [bind]. eexists. split; [reflexivity|].
    pose proof (so_iroutes _ S _ _ T) as Id.
    split; [constructor; [|constructor]|].
    - split; [left|split; [|left]]; cbn [rs_kind rs_id rs_name rs_box rs_element_type].
      + rewrite Id. apply (by_route_number _ _ r); [exact T|]. apply pad_ok.
      + rewrite Id. exists (ir_nodes r), ps. split; [apply iroute_of, T|auto].
      + reflexivity.
    - intros t Ht. eexists. split; [left; reflexivity|]. cbn. rewrite Id. split; [reflexivity|]. split; [reflexivity|].
      symmetry. apply (number_text_unique _ _ v Ht), pad_ok.
  Qed.

  Lemma element_box v e : th (in_elements i) v e -> exists b, box_of (in_positions i) [el_id e] = Ok b /\ true_of ELEMENT v b.
  Proof.
    intros T. rewrite (so_elements _ S _ _ T). destruct (box_ok [v]) as (b & ps & B & P & SB).
    - discriminate.
    - constructor; [|constructor]. apply th_within. eauto.
    - exists b. split; [exact B|]. exists [v], ps. split; [exact (element_of _ _ _ T)|auto].
  Qed.

  Lemma is_empty_spec t : is_empty t = true <-> t = [].
  Proof. destruct t; cbn; split; congruence. Qed.

  Lemma element_ok e v : th (in_elements i) v e -> exists rs, element_results i e = Ok rs /\
    Forall good rs /\ (forall t, named i ELEMENT v t -> ~ one_sided i v -> has rs ELEMENT v t).
  Proof.
    intros T. destruct (element_box v e T) as (b & B & TB). unfold element_results. rewrite B. cbn [bind].
    pose proof (so_elements _ S _ _ T) as Id. rewrite Id in *. clear Id.
    set (ts := list_ascii_of_string (get_type_str (el_type e))).
    assert (L : labelled i ELEMENT v ts) by (exists e; split; [exact T|reflexivity]).
    assert (Num : forall rs, has (mk_result ELEMENT (left_pad_to_3_digits v) b v ts :: rs) ELEMENT v (left_pad_to_3_digits v)).
    { intros rs. eexists. split; [left; reflexivity|]. cbn. auto. }
    assert (GN : good (mk_result ELEMENT (left_pad_to_3_digits v) b v ts)).
    { split; [left; exact (by_number _ _ _ _ T (pad_ok v))|]. split; [exact TB|left; exact L]. }
    assert (Plain : forall rs t, named i ELEMENT v t -> el_type e <> MAIN_SIGNAL -> el_type e <> SIMPLE_SWITCH -> el_type e <> HALT ->
              has (mk_result ELEMENT (left_pad_to_3_digits v) b v ts :: rs) ELEMENT v t).
    { intros rs t H N1 N2 N3. inversion H; subst;
        match goal with T' : th (in_elements i) v ?x |- _ => assert (x = e) as -> by exact (th_same _ _ _ _ T' T) end; try congruence.
      replace t with (left_pad_to_3_digits v) by (apply (number_text_unique _ _ v); [apply pad_ok|assumption]). apply Num. }
    assert (One : forall t, th (in_elements i) v e -> named i ELEMENT v t -> number_text t v -> t = left_pad_to_3_digits v).
    { intros t _ _ H. apply (number_text_unique _ _ v); [exact H|apply pad_ok]. }
    destruct (el_type e) eqn:ET;
      try (cbn [bind app]; eexists; split; [reflexivity|]; split; [constructor; [exact GN|constructor]|intros t Ht _; apply Plain; [exact Ht|congruence..]]).
    - (* switch *)
      destruct (so_switch _ S _ _ T ET) as [n D]. cbn [bind]. rewrite (proj2 (vec_at_iff _ _ _) D). cbn [bind as_switch app].
      eexists. split; [reflexivity|]. split.
      + constructor; [exact GN|]. constructor; [|constructor]. split; [left; exact (by_switch_name _ _ _ _ T ET D)|]. split; [exact TB|left; exact L].
      + intros t Ht _. inversion Ht; subst;
          match goal with T' : th (in_elements i) v ?x |- _ => assert (x = e) as -> by exact (th_same _ _ _ _ T' T) end; try congruence.
        * rewrite (One t T Ht) by assumption. apply Num.
        * match goal with D' : th (in_data i) v (D_switch t) |- _ => pose proof (th_same _ _ _ _ D' D) as Q; injection Q as -> end.
          eexists. split; [right; left; reflexivity|]. cbn. auto.
    - (* main signal *)
      destruct (so_signal _ S _ _ T ET) as [n D]. cbn [bind]. rewrite (proj2 (vec_at_iff _ _ _) D). cbn [bind as_main_signal app].
      eexists. split; [reflexivity|]. split.
      + constructor; [exact GN|]. constructor; [|constructor]. split; [left; exact (by_signal_name _ _ _ _ T ET D)|]. split; [exact TB|left; exact L].
      + intros t Ht _. inversion Ht; subst;
          match goal with T' : th (in_elements i) v ?x |- _ => assert (x = e) as -> by exact (th_same _ _ _ _ T' T) end; try congruence.
        * rewrite (One t T Ht) by assumption. apply Num.
        * match goal with D' : th (in_data i) v (D_main_signal t) |- _ => pose proof (th_same _ _ _ _ D' D) as Q; injection Q as -> end.
          eexists. split; [right; left; reflexivity|]. cbn. auto.
    - (* halt *)
      destruct (so_halt _ S _ _ T ET) as (n & op & ex & p & D). cbn [bind]. rewrite (proj2 (vec_at_iff _ _ _) D). cbn [bind as_halt app].
      eexists. split; [reflexivity|].
      assert (OS : (op = [] /\ ex <> [] \/ op <> [] /\ ex = []) -> one_sided i v) by (intros X; exists e, n, op, ex, p; auto).
      assert (Op : operational i v op) by (exists e, n, ex, p; auto).
      split.
      + constructor; [exact GN|]. apply Forall_app. split; [|apply Forall_app; split].
        * destruct (is_empty n) eqn:En; constructor; [|constructor].
          split; [left|split; [exact TB|left; exact L]]. apply (by_halt_name _ _ _ _ _ _ _ T ET D). intros ->. discriminate.
        * destruct (is_empty ex) eqn:Ex; constructor; [|constructor]. cbn.
          split; [|split; [exact TB|right; auto]]. destruct op as [|c op].
          -- right. split; [reflexivity|]. split; [reflexivity|]. apply OS. left. split; [reflexivity|]. intros ->. discriminate.
          -- left. apply (by_operational _ _ _ _ _ _ _ T ET D). discriminate.
        * destruct (is_empty op) eqn:Eo; constructor; [|constructor]. cbn.
          split; [|split; [exact TB|left; exact L]]. destruct ex as [|c ex].
          -- right. split; [reflexivity|]. split; [reflexivity|]. apply OS. right. split; [|reflexivity]. intros ->. discriminate.
          -- left. apply (by_extern _ _ _ _ _ _ _ T ET D). discriminate.
      + intros t Ht NO. inversion Ht; subst;
          match goal with T' : th (in_elements i) v ?x |- _ => assert (x = e) as -> by exact (th_same _ _ _ _ T' T) end; try congruence.
        * rewrite (One t T Ht) by assumption. apply Num.
        * match goal with D' : th (in_data i) v (D_halt t _ _ _) |- _ => pose proof (th_same _ _ _ _ D' D) as Q; injection Q as -> -> -> -> end.
          destruct n; [congruence|]. cbn [is_empty app]. eexists. split; [right; left; reflexivity|]. cbn. auto.
        * match goal with D' : th (in_data i) v (D_halt _ t _ _) |- _ => pose proof (th_same _ _ _ _ D' D) as Q; injection Q as -> -> -> -> end.
          destruct ex as [|c ex]; [exfalso; apply NO, OS; auto|]. cbn [is_empty].
          eexists. split; [right; apply in_or_app; right; apply in_or_app; left; left; reflexivity|]. cbn. auto.
        * match goal with D' : th (in_data i) v (D_halt _ _ t _) |- _ => pose proof (th_same _ _ _ _ D' D) as Q; injection Q as -> -> -> -> end.
          destruct op as [|c op]; [exfalso; apply NO, OS; auto|]. cbn [is_empty].
          eexists. split; [right; apply in_or_app; right; apply in_or_app; right; left; reflexivity|]. cbn. auto.
  Qed.

  Theorem index_ok : exists rs, get_search_context i = Ok rs /\ Forall good rs /\
    (forall k v t, named i k v t -> ~ (k = ELEMENT /\ one_sided i v) -> has rs k v t).
  Proof.
    destruct (mapM_total (station_result i) (in_stations i)) as [a Ha].
    { intros s Hs. apply In_th in Hs as [v T]. destruct (station_ok _ _ T) as (rs & E & _). eauto. }
    destruct (mapM_total (full_name_result i) (enumerate (in_full_names i))) as [b Hb].
    { intros [k t] Hk. apply enumerate_In in Hk. destruct (full_ok _ _ Hk) as (rs & E & _). eauto. }
    destruct (mapM_total (element_results i) (in_elements i)) as [c Hc].
    { intros s Hs. apply In_th in Hs as [v T]. destruct (element_ok _ _ T) as (rs & E & _). eauto. }
    destruct (mapM_total (sroute_result i) (in_sroutes i)) as [d Hd].
    { intros s Hs. apply In_th in Hs as [v T]. destruct (sroute_ok _ _ T) as (rs & E & _). eauto. }
    destruct (mapM_total (iroute_result i) (in_iroutes i)) as [e He].
    { intros s Hs. apply In_th in Hs as [v T]. destruct (iroute_ok _ _ T) as (rs & E & _). eauto. }
    exists (concat a ++ concat b ++ concat c ++ concat d ++ concat e).
    unfold get_search_context. rewrite Ha. cbn [bind]. rewrite Hb. cbn [bind]. rewrite Hc. cbn [bind]. rewrite Hd. cbn [bind]. rewrite He. cbn [bind].
    split; [reflexivity|].
    pose proof (concat_mapM _ _ _ Ha) as Ma. pose proof (concat_mapM _ _ _ Hb) as Mb. pose proof (concat_mapM _ _ _ Hc) as Mc.
    pose proof (concat_mapM _ _ _ Hd) as Md. pose proof (concat_mapM _ _ _ He) as Me. clear Ha Hb Hc Hd He.
    split.
    - apply Forall_forall. intros r Hr. repeat (apply in_app_or in Hr as [Hr|Hr]).
      + apply Ma in Hr as (s & rs & Hs & E & Hr). apply In_th in Hs as [v T]. destruct (station_ok _ _ T) as (rs' & E' & G & _).
        rewrite E in E'. injection E' as <-. rewrite Forall_forall in G. auto.
      + apply Mb in Hr as ([k t] & rs & Hs & E & Hr). apply enumerate_In in Hs. destruct (full_ok _ _ Hs) as (rs' & E' & G & _).
        rewrite E in E'. injection E' as <-. rewrite Forall_forall in G. auto.
      + apply Mc in Hr as (s & rs & Hs & E & Hr). apply In_th in Hs as [v T]. destruct (element_ok _ _ T) as (rs' & E' & G & _).
        rewrite E in E'. injection E' as <-. rewrite Forall_forall in G. auto.
      + apply Md in Hr as (s & rs & Hs & E & Hr). apply In_th in Hs as [v T]. destruct (sroute_ok _ _ T) as (rs' & E' & G & _).
        rewrite E in E'. injection E' as <-. rewrite Forall_forall in G. auto.
      + apply Me in Hr as (s & rs & Hs & E & Hr). apply In_th in Hs as [v T]. destruct (iroute_ok _ _ T) as (rs' & E' & G & _).
        rewrite E in E'. injection E' as <-. rewrite Forall_forall in G. auto.
    - assert (Up : forall A (f : A -> res (list result)) l ms x rs k v t,
                (forall r, In r (concat ms) <-> exists y c, In y l /\ f y = Ok c /\ In r c) -> In x l -> f x = Ok rs -> has rs k v t -> has (concat ms) k v t).
      { intros A f l ms x rs k v t M Hx E (r & Hr & R). exists r. split; [apply M; eauto|exact R]. }
      assert (Inc : forall l m k v t, has l k v t -> incl l m -> has m k v t).
      { intros l m k v t (r & Hr & R) I. exists r. split; [apply I, Hr|exact R]. }
      intros k v t Hn NO.
      assert (EL : forall e, th (in_elements i) v e -> named i ELEMENT v t -> ~ one_sided i v -> has (concat c) ELEMENT v t).
      { intros x T Hx NO'. destruct (element_ok _ _ T) as (rs & E & _ & H). apply (Up _ _ _ _ x rs _ _ _ Mc); [exact (th_In _ _ _ T)|exact E|auto]. }
      assert (DS : forall s, th (in_stations i) v s -> has (concat a) STATION v (st_ds100 s)).
      { intros s T. destruct (station_ok _ _ T) as (rs & E & _ & H). apply (Up _ _ _ _ s rs _ _ _ Ma); [exact (th_In _ _ _ T)|exact E|auto]. }
      destruct k.
      + inversion Hn as [? s T|? ? T| | | | | | | |]; subst.
        * apply (Inc (concat a)); [apply DS, T|]. apply incl_appl, incl_refl.
        * destruct (full_ok (N.to_nat v) t T) as (rs & E & _ & [H|(s & T' & <-)]).
          -- rewrite N2Nat.id in H. apply (Inc (concat b)); [|apply incl_appr, incl_appl, incl_refl].
             apply (Up _ _ _ _ (N.to_nat v, t) rs _ _ _ Mb); [apply enumerate_In, T|exact E|exact H].
          -- rewrite N2Nat.id in T'. apply (Inc (concat a)); [apply DS, T'|]. apply incl_appl, incl_refl.
      + assert (exists e, th (in_elements i) v e) as [x T] by (inversion Hn; eauto).
        apply (Inc (concat c)); [|apply incl_appr, incl_appr, incl_appl, incl_refl]. apply (EL x T Hn). intros O. apply NO. auto.
      + inversion Hn as [| | | | | | | |? s T|]; subst. destruct (sroute_ok _ _ T) as (rs & E & _ & H).
        apply (Inc (concat d)); [|apply incl_appr, incl_appr, incl_appr, incl_appl, incl_refl].
        apply (Up _ _ _ _ s rs _ _ _ Md); [exact (th_In _ _ _ T)|exact E|auto].
      + inversion Hn as [| | | | | | | | |? s ? T Ht]; subst. destruct (iroute_ok _ _ T) as (rs & E & _ & H).
        apply (Inc (concat e)); [|apply incl_appr, incl_appr, incl_appr, incl_appr, incl_refl].
        apply (Up _ _ _ _ s rs _ _ _ Me); [exact (th_In _ _ _ T)|exact E|auto].
  Qed.
End Index.
