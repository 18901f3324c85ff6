(* The day numbers of calendar dates, and date, time and duration parsing. *)
From Verif Require Import Base BitfieldModel BitfieldProofs TrainModel TextModel TextProofs AlgoModel RouteModel
  TransformModel KssModel.
From Coq Require Import Ascii ZifyBool ZifyNat ZifyN.
Open Scope Z_scope.
#[local] Ltac Zify.zify_post_hook ::= Z.div_mod_to_equations.

(* days before the year Y (March based) *)
Definition before (Y : Z) : Z := 365 * Y + Y / 4 - Y / 100 + Y / 400.

Lemma era_before Y : Y / 400 * 146097 + ((Y - Y / 400 * 400) * 365 + (Y - Y / 400 * 400) / 4 - (Y - Y / 400 * 400) / 100)
  = before Y.
Proof. unfold before. lia. Qed.

Lemma before_step y : before y = before (y - 1) + (if leap y then 366 else 365).
Proof.
  unfold before, leap.
  destruct (Z.eqb_spec (y mod 4) 0), (Z.eqb_spec (y mod 100) 0), (Z.eqb_spec (y mod 400) 0); cbn [andb orb negb]; lia.
Qed.

Lemma civil_eq y m d : days_from_civil y m d =
  before (if m <=? 2 then y - 1 else y) + (153 * (if m <=? 2 then m + 9 else m - 3) + 2) / 5 + d - 1 - 719468.
Proof. unfold days_from_civil. rewrite <- era_before. lia. Qed.

Definition next_day (y m d : Z) : Z * Z * Z :=
  if d <? month_days y m then (y, m, d + 1) else if m <? 12 then (y, m + 1, 1) else (y + 1, 1, 1).

Lemma civil_next y m d : date_okb y m d = true ->
  let '(y', m', d') := next_day y m d in
  date_okb y' m' d' = true /\ days_from_civil y' m' d' = days_from_civil y m d + 1.
Proof.
  intros H. unfold date_okb in H. apply andb_true_iff in H as [H H4]. apply andb_true_iff in H as [H H3].
  apply andb_true_iff in H as [H1 H2].
  unfold next_day. destruct (Z.ltb_spec d (month_days y m)) as [L|L].
  - split; [unfold date_okb; lia|]. rewrite !civil_eq. lia.
  - assert (d = month_days y m) by lia. clear H3 H4 L.
    assert (C : m = 1 \/ m = 2 \/ m = 3 \/ m = 4 \/ m = 5 \/ m = 6 \/ m = 7 \/ m = 8 \/ m = 9 \/ m = 10 \/ m = 11 \/ m = 12)
      by lia.
    assert (B := before_step y).
    repeat (destruct C as [->|C]); [..|subst m]; cbn [Z.ltb Z.compare Pos.compare Pos.compare_cont];
      (split; [unfold date_okb, month_days; cbn; try (destruct (leap y)); reflexivity|]); rewrite !civil_eq; subst d;
      unfold month_days; cbn; try lia.
    + destruct (leap y); lia.
    + replace (y + 1 - 1) with y by lia. lia.
Qed.

Lemma civil_bounds y m d : -1000 <= y <= 9999 -> date_okb y m d = true -> -1100000 <= days_from_civil y m d <= 2940000.
Proof.
  intros Y H. rewrite civil_eq. unfold before, date_okb, month_days in *.
  destruct (Z.leb_spec m 2); destruct (Z.eqb_spec m 2); destruct (leap y);
    destruct (Z.eqb_spec m 4), (Z.eqb_spec m 6), (Z.eqb_spec m 9), (Z.eqb_spec m 11); cbn [orb] in H; lia.
Qed.

Lemma before_mono a b : a <= b -> before a <= before b.
Proof. unfold before. lia. Qed.

Definition date_lt (a b : Z * Z * Z) : Prop :=
  let '(y1, m1, d1) := a in let '(y2, m2, d2) := b in
  y1 < y2 \/ (y1 = y2 /\ (m1 < m2 \/ (m1 = m2 /\ d1 < d2))).

(* within the year, from the first of January *)
Definition in_year (y m d : Z) : Z := days_from_civil y m d - days_from_civil y 1 1.
Lemma in_year_bounds y m d : date_okb y m d = true -> 0 <= in_year y m d < (if leap y then 366 else 365).
Proof.
  intros H. unfold in_year. rewrite !civil_eq. assert (B := before_step y). unfold date_okb in H.
  assert (C : m = 1 \/ m = 2 \/ m = 3 \/ m = 4 \/ m = 5 \/ m = 6 \/ m = 7 \/ m = 8 \/ m = 9 \/ m = 10 \/ m = 11 \/ m = 12)
    by lia.
  unfold month_days in H.
  repeat (destruct C as [->|C]); [..|subst m]; cbn in H |- *; destruct (leap y);
    generalize dependent (before (y - 1)); generalize (before y); intros; lia.
Qed.

Lemma civil_month_mono y m1 m2 d1 d2 : date_okb y m1 d1 = true -> date_okb y m2 d2 = true -> m1 < m2 ->
  days_from_civil y m1 d1 < days_from_civil y m2 d2.
Proof.
  intros H1 H2 L. rewrite !civil_eq. assert (B := before_step y). unfold date_okb in H1, H2.
  assert (D2 : 1 <= d2) by lia. assert (M2 : 1 <= m2 <= 12) by lia. clear H2.
  assert (C : m1 = 1 \/ m1 = 2 \/ m1 = 3 \/ m1 = 4 \/ m1 = 5 \/ m1 = 6 \/ m1 = 7 \/ m1 = 8 \/ m1 = 9 \/ m1 = 10 \/ m1 = 11)
    by lia.
  unfold month_days in H1.
  repeat (destruct C as [->|C]); [..|subst m1]; destruct (Z.leb_spec m2 2); cbn - [Z.mul Z.div] in H1 |- *; destruct (leap y);
    generalize dependent (before (y - 1)); generalize (before y); intros; lia.
Qed.

Lemma civil_lt y1 m1 d1 y2 m2 d2 : date_okb y1 m1 d1 = true -> date_okb y2 m2 d2 = true ->
  date_lt (y1, m1, d1) (y2, m2, d2) -> days_from_civil y1 m1 d1 < days_from_civil y2 m2 d2.
Proof.
  intros H1 H2 [L|[-> [L|[-> L]]]].
  - assert (B1 := in_year_bounds _ _ _ H1). assert (B2 := in_year_bounds _ _ _ H2).
    unfold in_year in *.
    assert (S1 : days_from_civil y1 1 1 + (if leap y1 then 366 else 365) <= days_from_civil y2 1 1); [|lia].
    rewrite !civil_eq. cbn [Z.leb Z.compare Pos.compare Pos.compare_cont]. assert (B := before_step y1).
    assert (M := before_mono y1 (y2 - 1)). lia.
  - now apply civil_month_mono.
  - rewrite !civil_eq. lia.
Qed.

(* ---- numerals ---- *)
Definition digit (c : ascii) (k : Z) : Prop := 0 <= k <= 9 /\ c = ascii_of_N (48 + Z.to_N k).
(* l is a non-empty string of digits and v the number it denotes *)
Inductive numeral : list ascii -> Z -> Prop :=
| num_one c k : digit c k -> numeral [c] k
| num_snoc l v c k : numeral l v -> digit c k -> numeral (l ++ [c]) (10 * v + k).

Lemma digit_is c k : digit c k -> is_digit c = true /\ digit_val c = k.
Proof.
  intros [H ->].
  assert (C : k = 0 \/ k = 1 \/ k = 2 \/ k = 3 \/ k = 4 \/ k = 5 \/ k = 6 \/ k = 7 \/ k = 8 \/ k = 9) by lia.
  repeat (destruct C as [->|C]); [..|subst k]; split; reflexivity.
Qed.
Lemma is_digit_digit c : is_digit c = true -> digit c (digit_val c).
Proof.
  unfold is_digit, digit, digit_val. intros H. split; [lia|].
  replace (48 + Z.to_N (Z.of_N (N_of_ascii c) - 48))%N with (N_of_ascii c) by lia.
  symmetry. apply ascii_N_embedding.
Qed.

Lemma digits_val_snoc l c : digits_val (l ++ [c]) = 10 * digits_val l + digit_val c.
Proof. unfold digits_val. rewrite fold_left_app. reflexivity. Qed.

Lemma numeral_digits l v : numeral l v -> l <> [] /\ Forall (fun c => is_digit c = true) l /\ digits_val l = v.
Proof.
  induction 1 as [c k D|l v c k H [IH1 [IH2 IH3]] D].
  - destruct (digit_is _ _ D) as [A B]. split; [discriminate|]. split; [auto|].
    unfold digits_val. cbn [fold_left]. rewrite B. reflexivity.
  - destruct (digit_is _ _ D) as [A B]. split; [destruct l; discriminate|].
    split; [apply Forall_app; auto|]. rewrite digits_val_snoc, IH3, B. reflexivity.
Qed.
Lemma digits_numeral l : l <> [] -> Forall (fun c => is_digit c = true) l -> numeral l (digits_val l).
Proof.
  induction l as [|c l IH] using rev_ind; [congruence|]. intros _ F.
  apply Forall_app in F as [F1 F2]. apply Forall_cons_iff in F2 as [F2 _].
  destruct l as [|c' l].
  - cbn [app]. replace (digits_val [c]) with (digit_val c) by (unfold digits_val; cbn [fold_left]; lia).
    constructor. now apply is_digit_digit.
  - rewrite digits_val_snoc. constructor; [apply IH; [discriminate|exact F1]|now apply is_digit_digit].
Qed.
Lemma digits_val_nonneg l : Forall (fun c => is_digit c = true) l -> 0 <= digits_val l.
Proof.
  induction l as [|c l IH] using rev_ind; intros F; [unfold digits_val; cbn; lia|].
  apply Forall_app in F as [F1 F2]. apply Forall_cons_iff in F2 as [F2 _].
  rewrite digits_val_snoc. specialize (IH F1). destruct (is_digit_digit c F2). lia.
Qed.

Lemma take_digits_eq s : forall a b, take_digits s = (a, b) ->
  s = a ++ b /\ Forall (fun c => is_digit c = true) a /\
  match b with [] => True | c :: _ => is_digit c = false end.
Proof.
  induction s as [|c s IH]; intros a b E; cbn [take_digits] in E.
  - injection E as <- <-. auto.
  - destruct (is_digit c) eqn:D.
    + destruct (take_digits s) as [a' b'] eqn:E'. injection E as <- <-.
      destruct (IH a' b' eq_refl) as [-> [F H]]. cbn [app]. auto.
    + injection E as <- <-. cbn [app]. auto.
Qed.
Lemma take_digits_all a b : Forall (fun c => is_digit c = true) a ->
  match b with [] => True | c :: _ => is_digit c = false end -> take_digits (a ++ b) = (a, b).
Proof.
  induction 1 as [|c a D F IH]; intros H; cbn [app take_digits].
  - destruct b as [|c b]; cbn [take_digits]; [reflexivity|]. now rewrite H.
  - rewrite D, IH by exact H. reflexivity.
Qed.

Lemma parse_unsigned hi s v : parse_int 0 hi s = Ok v <-> numeral s v /\ v <= hi.
Proof.
  unfold parse_int, parse_int_impl, from_chars.
  assert (E : (match s with c :: t => if (0 <? 0) && Ascii.eqb c "-" then (true, t) else (false, s) | [] => (false, s) end)
              = (false, s)) by (destruct s; reflexivity).
  rewrite E. clear E. destruct (take_digits s) as [ds rest] eqn:T.
  destruct (take_digits_eq _ _ _ T) as [-> [F R]].
  destruct ds as [|c ds].
  - cbn [app]. split; [cbn; discriminate|]. intros [N _]. destruct (numeral_digits _ _ N) as [A [B _]].
    destruct rest as [|c r]; [congruence|]. apply Forall_cons_iff in B as [B _]. congruence.
  - assert (P := digits_val_nonneg _ F).
    destruct (Z.leb_spec 0 (digits_val (c :: ds))) as [_|]; [|lia].
    destruct (Z.leb_spec (digits_val (c :: ds)) hi) as [L|L]; cbn [andb].
    + destruct rest as [|c' rest]; cbn [sassert bind].
      * rewrite app_nil_r. split.
        -- intros [= <-]. split; [now apply digits_numeral|exact L].
        -- intros [N _]. destruct (numeral_digits _ _ N) as [_ [_ ->]]. reflexivity.
      * split; [discriminate|]. intros [N _]. destruct (numeral_digits _ _ N) as [_ [B _]].
        apply Forall_app in B as [_ B]. apply Forall_cons_iff in B as [B _]. congruence.
    + split; [cbn; discriminate|]. intros [N V]. destruct (numeral_digits _ _ N) as [_ [B C]].
      apply Forall_app in B as [_ B]. destruct rest as [|c' rest]; [rewrite app_nil_r in C; lia|].
      apply Forall_cons_iff in B as [B _]. congruence.
Qed.
Lemma parse_int_total lo hi s : (exists v, parse_int lo hi s = Ok v) \/ parse_int lo hi s = Throw.
Proof.
  unfold parse_int. destruct (parse_int_impl lo hi s) as [[ec ptr] v]. destruct ec, ptr; cbn; eauto.
Qed.

(* a numeral, possibly with a minus sign *)
Definition signed_numeral (s : list ascii) (v : Z) : Prop :=
  numeral s v \/ exists t w, s = "-"%char :: t /\ numeral t w /\ v = - w.
Lemma parse_signed lo hi s v : lo < 0 <= hi -> parse_int lo hi s = Ok v <-> signed_numeral s v /\ lo <= v <= hi.
Proof.
  intros B. unfold signed_numeral, parse_int, parse_int_impl, from_chars.
  assert (NN : forall t w, numeral ("-"%char :: t) w -> False).
  { intros t w N. destruct (numeral_digits _ _ N) as [_ [F _]]. apply Forall_cons_iff in F as [F _]. discriminate. }
  assert (L0 : (lo <? 0) = true) by lia. rewrite L0.
  assert (G : forall (neg : bool) r,
    (let '(ds, rest) := take_digits r in
     match ds with
     | [] => (EcInvalid, s, None)
     | _ => let v := if neg then - digits_val ds else digits_val ds in
            if (lo <=? v) && (v <=? hi) then (EcOk, rest, Some v) else (EcRange, rest, None)
     end) = (EcOk, [], Some v) <-> (exists w, numeral r w /\ v = (if neg then - w else w) /\ lo <= v <= hi)).
  { intros neg r. destruct (take_digits r) as [ds rest] eqn:T.
    destruct (take_digits_eq _ _ _ T) as [-> [F R]]. destruct ds as [|c ds].
    - cbn [app]. split; [discriminate|]. intros [w [N _]]. destruct (numeral_digits _ _ N) as [A [B' _]].
      destruct rest as [|c r]; [congruence|]. apply Forall_cons_iff in B' as [B' _]. congruence.
    - cbv zeta. destruct ((lo <=? (if neg then - digits_val (c :: ds) else digits_val (c :: ds))) &&
        ((if neg then - digits_val (c :: ds) else digits_val (c :: ds)) <=? hi)) eqn:C.
      + split.
        * intros [= -> <-]. exists (digits_val (c :: ds)). rewrite app_nil_r.
          split; [now apply digits_numeral|]. split; [reflexivity|lia].
        * intros [w [N [-> _]]]. destruct (numeral_digits _ _ N) as [_ [B' E]].
          apply Forall_app in B' as [_ B']. destruct rest as [|c' rest].
          -- rewrite app_nil_r in E. rewrite E. reflexivity.
          -- apply Forall_cons_iff in B' as [B' _]. congruence.
      + split; [discriminate|]. intros [w [N [-> H]]]. destruct (numeral_digits _ _ N) as [_ [B' E]].
        apply Forall_app in B' as [_ B']. destruct rest as [|c' rest].
        * rewrite app_nil_r in E. rewrite E in C. lia.
        * apply Forall_cons_iff in B' as [B' _]. congruence. }
  assert (OKs : forall x : errc * list ascii * option Z, (let '(ec, ptr, val) := (let '(ec, ptr, v0) := x in (ec, ptr, match v0 with Some v0 => v0 | None => hi end)) in
      sassert (match ec with EcOk => true | _ => false end) ;; sassert (match ptr with [] => true | _ => false end) ;; Ok val) = Ok v <->
      x = (EcOk, [], Some v) \/ (x = (EcOk, [], None) /\ v = hi)).
  { intros [[ec ptr] val]. destruct ec, ptr, val; cbn; split; intros H; try discriminate; try congruence;
      try (injection H as <-; auto); destruct H as [H|[H ?]]; try discriminate; congruence. }
  destruct s as [|c s].
  - cbn [take_digits]. split; [cbn; discriminate|]. intros [[N|[t [w [E _]]]] _]; [|discriminate].
    destruct (numeral_digits _ _ N) as [A _]. congruence.
  - destruct (Ascii.eqb_spec c "-"%char) as [->|NE]; cbn [andb].
    + rewrite OKs, (G true s). split.
      * intros [[w [N [-> H]]]|[H _]]; [split; [right; eauto|exact H]|].
        exfalso. destruct (take_digits s) as [[|x xs] r]; [discriminate|]. cbv zeta in H. destruct (_ && _); discriminate.
      * intros [[N|[t [w [E [N E2]]]]] HH]; [exfalso; eauto|]. injection E as <-. left. eauto.
    + rewrite OKs, (G false (c :: s)). split.
      * intros [[w [N [-> H]]]|[H _]]; [split; [left; assumption|exact H]|].
        exfalso. destruct (take_digits (c :: s)) as [[|x xs] r]; [discriminate|]. cbv zeta in H. destruct (_ && _); discriminate.
      * intros [[N|[t [w [E _]]]] HH]; [left; eauto|congruence].
Qed.

(* ---- dates and times ---- *)
Lemma parse_date_ok s r : parse_date s = Ok r <->
  exists y m d y1 y2 y3 y4 c1 m1 m2 c2 d1 d2,
    s = [y1; y2; y3; y4; c1; m1; m2; c2; d1; d2] /\
    signed_numeral [y1; y2; y3; y4] y /\ numeral [m1; m2] m /\ numeral [d1; d2] d /\
    date_okb y m d = true /\ r = days_from_civil y m d.
Proof.
  assert (YB : forall y1 y2 y3 y4 y, signed_numeral [y1; y2; y3; y4] y -> -1000 <= y <= 9999).
  { intros y1 y2 y3 y4 y [N|[t [w [E [N ->]]]]].
    - destruct (numeral_digits _ _ N) as [_ [F <-]]. repeat (apply Forall_cons_iff in F as [? F]).
      apply is_digit_digit in H, H0, H1, H2. destruct H, H0, H1, H2. unfold digits_val. cbn [fold_left]. lia.
    - injection E as -> <-. destruct (numeral_digits _ _ N) as [_ [F <-]]. repeat (apply Forall_cons_iff in F as [? F]).
      apply is_digit_digit in H, H0, H1. destruct H, H0, H1. unfold digits_val. cbn [fold_left]. lia. }
  assert (NB : forall a b v, numeral [a; b] v -> 0 <= v <= 99).
  { intros a b v N. destruct (numeral_digits _ _ N) as [_ [F <-]]. repeat (apply Forall_cons_iff in F as [? F]).
    apply is_digit_digit in H, H0. destruct H, H0. unfold digits_val. cbn [fold_left]. lia. }
  unfold parse_date. split.
  - intros H. destruct (Nat.eqb_spec (length s) 10) as [L|]; [|discriminate]. cbn [sassert bind] in H.
    do 10 (destruct s as [|? s]; [discriminate|]). destruct s; [|discriminate].
    unfold slice in H. cbn [Nat.sub skipn firstn] in H.
    apply bind_Ok in H as [y [H1 H]]. apply bind_Ok in H as [m [H2 H]]. apply bind_Ok in H as [d [H3 H]].
    apply parse_signed in H1; [|unfold INT_MIN, INT_MAX; lia]. apply parse_unsigned in H2, H3.
    destruct (date_okb y m d) eqn:D; [|discriminate]. injection H as <-.
    exists y, m, d. do 10 eexists. split; [reflexivity|]. intuition.
  - intros [y [m [d [y1 [y2 [y3 [y4 [c1 [m1 [m2 [c2 [d1 [d2 [-> [Y [M [D [V ->]]]]]]]]]]]]]]]]]].
    cbn [length Nat.eqb sassert bind]. unfold slice. cbn [Nat.sub skipn firstn].
    assert (B := YB _ _ _ _ _ Y). assert (B1 := NB _ _ _ M). assert (B2 := NB _ _ _ D).
    rewrite (proj2 (parse_signed INT_MIN INT_MAX _ y ltac:(unfold INT_MIN, INT_MAX; lia)))
      by (split; [exact Y|unfold INT_MIN, INT_MAX; lia]). cbn [bind].
    rewrite (proj2 (parse_unsigned U32_MAX _ m)) by (split; [exact M|unfold U32_MAX; lia]). cbn [bind].
    rewrite (proj2 (parse_unsigned U32_MAX _ d)) by (split; [exact D|unfold U32_MAX; lia]). cbn [bind].
    rewrite V. reflexivity.
Qed.

Lemma parse_date_bounds s r : parse_date s = Ok r -> -1100000 <= r <= 2940000.
Proof.
  intros H. apply parse_date_ok in H.
  destruct H as [y [m [d [y1 [y2 [y3 [y4 [c1 [m1 [m2 [c2 [d1 [d2 [-> [Y [M [D [V ->]]]]]]]]]]]]]]]]]].
  apply civil_bounds; [|exact V]. destruct Y as [N|[t [w [E [N ->]]]]].
  - destruct (numeral_digits _ _ N) as [_ [F <-]]. repeat (apply Forall_cons_iff in F as [? F]).
    apply is_digit_digit in H, H0, H1, H2. destruct H, H0, H1, H2. unfold digits_val. cbn [fold_left]. lia.
  - injection E as -> <-. destruct (numeral_digits _ _ N) as [_ [F <-]]. repeat (apply Forall_cons_iff in F as [? F]).
    apply is_digit_digit in H, H0, H1. destruct H, H0, H1. unfold digits_val. cbn [fold_left]. lia.
Qed.

Lemma parse_date_total s : (exists r, parse_date s = Ok r) \/ parse_date s = Throw.
Proof.
  unfold parse_date. destruct (Nat.eqb _ _); [|now right]. cbn [sassert bind].
  repeat (match goal with |- context [parse_int ?a ?b ?c] =>
    destruct (parse_int_total a b c) as [[? ->]| ->]; [cbn [bind]|now right] end).
  destruct (date_okb _ _ _); [left; eexists; reflexivity|now right].
Qed.

Lemma two_digits a b v : numeral [a; b] v -> 0 <= v <= 99.
Proof.
  intros N. destruct (numeral_digits _ _ N) as [_ [F <-]]. repeat (apply Forall_cons_iff in F as [? F]).
  apply is_digit_digit in H, H0. destruct H, H0. unfold digits_val. cbn [fold_left]. lia.
Qed.

Lemma time_offset_ok s nl r : parse_time_offset s nl = Ok r <->
  exists h m sec h1 h2 c1 m1 m2 c2 s1 s2 t1 t2 t3,
    s = [h1; h2; c1; m1; m2; c2; s1; s2; t1; t2; t3] /\
    numeral [h1; h2] h /\ numeral [m1; m2] m /\ numeral [s1; s2] sec /\
    Z.of_N r = 3600 * h + 60 * m + sec + (if nl then 86400 else 0).
Proof.
  assert (V : forall h m sec, 0 <= h <= 99 -> 0 <= m <= 99 -> 0 <= sec <= 99 ->
    Z.of_N (let r := add32 (add32 (mul32 (w32 (Z.to_N h)) 3600) (mul32 (w32 (Z.to_N m)) 60)) (w32 (Z.to_N sec)) in
       if nl then add32 r 86400 else r) = 3600 * h + 60 * m + sec + (if nl then 86400 else 0)).
  { intros h m sec H1 H2 H3. cbv zeta. unfold add32, mul32, w32, M32.
    rewrite (N.mod_small (Z.to_N h)), (N.mod_small (Z.to_N m)), (N.mod_small (Z.to_N sec)) by lia.
    rewrite (N.mod_small (Z.to_N h * 3600)), (N.mod_small (Z.to_N m * 60)) by lia.
    rewrite (N.mod_small (Z.to_N h * 3600 + Z.to_N m * 60)) by lia.
    rewrite (N.mod_small (Z.to_N h * 3600 + Z.to_N m * 60 + Z.to_N sec)) by lia.
    destruct nl; [rewrite N.mod_small by lia|]; lia. }
  unfold parse_time_offset. split.
  - intros H. destruct (Nat.eqb_spec (length s) 11) as [L|]; [|discriminate]. cbn [sassert bind] in H.
    do 11 (destruct s as [|? s]; [discriminate|]). destruct s; [|discriminate].
    unfold slice in H. cbn [Nat.sub skipn firstn] in H.
    apply bind_Ok in H as [h [H1 H]]. apply bind_Ok in H as [m [H2 H]]. apply bind_Ok in H as [sec [H3 H]].
    apply parse_unsigned in H1, H2, H3. destruct H1 as [H1 _], H2 as [H2 _], H3 as [H3 _].
    exists h, m, sec. do 11 eexists. split; [reflexivity|]. split; [exact H1|]. split; [exact H2|].
    split; [exact H3|]. injection H as <-. apply V; eapply two_digits; eauto.
  - intros [h [m [sec [h1 [h2 [c1 [m1 [m2 [c2 [s1 [s2 [t1 [t2 [t3 [-> [H [M [S0 R]]]]]]]]]]]]]]]]]].
    cbn [length Nat.eqb sassert bind]. unfold slice. cbn [Nat.sub skipn firstn].
    assert (B1 := two_digits _ _ _ H). assert (B2 := two_digits _ _ _ M). assert (B3 := two_digits _ _ _ S0).
    rewrite (proj2 (parse_unsigned U64_MAX _ h)) by (split; [exact H|unfold U64_MAX; lia]). cbn [bind].
    rewrite (proj2 (parse_unsigned U64_MAX _ m)) by (split; [exact M|unfold U64_MAX; lia]). cbn [bind].
    rewrite (proj2 (parse_unsigned U64_MAX _ sec)) by (split; [exact S0|unfold U64_MAX; lia]). cbn [bind].
    f_equal. apply N2Z.inj. rewrite V by assumption. symmetry. exact R.
Qed.
Lemma time_offset_total s nl : (exists r, parse_time_offset s nl = Ok r) \/ parse_time_offset s nl = Throw.
Proof.
  unfold parse_time_offset. destruct (Nat.eqb _ _); [|now right]. cbn [sassert bind].
  repeat (match goal with |- context [parse_int ?a ?b ?c] =>
    destruct (parse_int_total a b c) as [[? ->]| ->]; [cbn [bind]|now right] end).
  left; eexists; reflexivity.
Qed.
