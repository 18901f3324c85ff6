(* Durations such as PT15M54.99S. *)
From Verif Require Import Base TextModel AlgoModel RouteModel TransformModel KssModel KssDates.
From Coq Require Import Ascii ZifyBool ZifyNat ZifyN.
Open Scope Z_scope.

(* the seconds field n, an integer or a decimal fraction, rounded to the nearest
   integer (halves up) *)
Definition seconds_field (n : list ascii) (v : Z) : Prop :=
  numeral n v \/
  exists i f w, n = i ++ "."%char :: f /\ numeral (i ++ f) w /\
    let ten := 10 ^ Z.of_nat (length f) in (2 * v - 1) * ten <= 2 * w < (2 * v + 1) * ten.
Definition capitals : list ascii :=
  ["A"; "B"; "C"; "D"; "E"; "F"; "G"; "H"; "I"; "J"; "K"; "L"; "M"; "N"; "O"; "P"; "Q"; "R"; "S"; "T"; "U"; "V"; "W"; "X"; "Y"; "Z"]%char.
Definition no_capital (s : list ascii) : Prop := forall c, In c s -> ~ In c capitals.
(* the text after PT and the seconds it stands for; other capital letters are
   skipped together with the text before them *)
Inductive duration : list ascii -> Z -> Prop :=
| dur_end : duration [] 0
| dur_H n v s t : numeral n v -> v <= 4294967295 -> duration s t -> duration (n ++ "H"%char :: s) (3600 * v + t)
| dur_M n v s t : numeral n v -> v <= 4294967295 -> duration s t -> duration (n ++ "M"%char :: s) (60 * v + t)
| dur_S n v s t : seconds_field n v -> v <= 4294967295 -> duration s t -> duration (n ++ "S"%char :: s) (v + t)
| dur_other n u s t : no_capital n -> In u capitals -> ~ In u ["H"; "M"; "S"]%char ->
    duration s t -> duration (n ++ u :: s) t.

Lemma is_upper_exists c : is_upper c = existsb (Ascii.eqb c) capitals.
Proof. destruct c as [[] [] [] [] [] [] [] []]; reflexivity. Qed.
Lemma is_upper_spec c : is_upper c = true <-> In c capitals.
Proof.
  rewrite is_upper_exists, existsb_exists. split.
  - intros [x [I E]]. apply Ascii.eqb_eq in E. now subst x.
  - intros I. exists c. split; [exact I|]. apply Ascii.eqb_refl.
Qed.
Lemma is_upper_false c : is_upper c = false <-> ~ In c capitals.
Proof. rewrite <- is_upper_spec. now destruct (is_upper c). Qed.

Lemma until_upper_eq s : forall a b, until_upper s = (a, b) ->
  s = a ++ b /\ no_capital a /\ match b with [] => True | c :: _ => is_upper c = true end.
Proof.
  induction s as [|c s IH]; intros a b E; cbn [until_upper] in E.
  - injection E as <- <-. split; [reflexivity|]. split; [intros c []|exact I].
  - destruct (is_upper c) eqn:D.
    + injection E as <- <-. split; [reflexivity|]. split; [intros x []|exact D].
    + destruct (until_upper s) as [a' b'] eqn:E'. injection E as <- <-.
      destruct (IH a' b' eq_refl) as [-> [F H]]. split; [reflexivity|]. split; [|exact H].
      intros x [<-|I]; [now apply is_upper_false|auto].
Qed.
Lemma until_upper_app a u b : no_capital a -> is_upper u = true -> until_upper (a ++ u :: b) = (a, u :: b).
Proof.
  induction a as [|c a IH]; intros N U; cbn [app until_upper].
  - now rewrite U.
  - rewrite (proj2 (is_upper_false c)) by (apply N; now left). rewrite IH; [reflexivity| |exact U]. intros x I. apply N. now right.
Qed.
Lemma digit_no_upper c : is_digit c = true -> is_upper c = false.
Proof. unfold is_digit, is_upper. lia. Qed.
Lemma numeral_no_capital n v : numeral n v -> no_capital n.
Proof.
  intros N c I. destruct (numeral_digits _ _ N) as [_ [F _]]. rewrite Forall_forall in F. now apply is_upper_false, digit_no_upper, F.
Qed.
Lemma seconds_no_capital n v : seconds_field n v -> no_capital n.
Proof.
  intros [N|[i [f [w [-> [N _]]]]]]; [eapply numeral_no_capital; eauto|].
  intros c I. apply numeral_no_capital in N. apply in_app_iff in I as [I|[<-|I]]; [|now apply is_upper_false|];
    apply N; apply in_app_iff; auto.
Qed.

Lemma rounding_unique ten w v : 0 < ten -> (2 * v - 1) * ten <= 2 * w < (2 * v + 1) * ten <-> v = (2 * w + ten) / (2 * ten).
Proof.
  intros T. split.
  - intros H. apply Z.div_unique with (r := 2 * w + ten - 2 * ten * v); [left; nia|lia].
  - intros ->. assert (E := Z.div_mod (2 * w + ten) (2 * ten) ltac:(lia)).
    assert (B := Z.mod_pos_bound (2 * w + ten) (2 * ten) ltac:(lia)). nia.
Qed.

Lemma digits_val_app i f : digits_val (i ++ f) = digits_val i * 10 ^ Z.of_nat (length f) + digits_val f.
Proof.
  induction f as [|c f IH] using rev_ind; [rewrite app_nil_r; cbn; unfold digits_val; cbn; lia|].
  rewrite app_assoc, !digits_val_snoc, IH, app_length. cbn [length].
  replace (Z.of_nat (length f + 1)) with (Z.succ (Z.of_nat (length f))) by lia. rewrite Z.pow_succ_r by lia. lia.
Qed.
Lemma pow_pos f : 0 < 10 ^ Z.of_nat (@length ascii f).
Proof. apply Z.pow_pos_nonneg; lia. Qed.

Lemma round_seconds_ok n r : round_seconds n = Ok r <->
  seconds_field n (Z.of_N r) /\ Z.of_N r <= 4294967295.
Proof.
  assert (Dot : is_digit "."%char = false) by reflexivity.
  split.
  - intros H. destruct n as [|c n0] eqn:En; [discriminate|]. unfold round_seconds in H. rewrite <- En in *.
    destruct (Ascii.eqb c "-"%char); [discriminate|].
    destruct (take_digits n) as [i rr] eqn:T. destruct (take_digits_eq _ _ _ T) as [E [F R]].
    destruct rr as [|p rr].
    + destruct (Z.leb_spec (digits_val i) U32_MAX); [|discriminate]. injection H as <-.
      assert (P := digits_val_nonneg _ F). rewrite Z2N.id by exact P. split; [|exact H0].
      left. rewrite app_nil_r in E. subst n. subst i. apply digits_numeral; [discriminate|exact F].
    + destruct (Ascii.eqb_spec p "."%char) as [->|]; [|discriminate].
      destruct (take_digits rr) as [f r'] eqn:T'. destruct (take_digits_eq _ _ _ T') as [E' [F' R']].
      destruct r' as [|? ?]; [|discriminate]. destruct (i ++ f)%list as [|x xs] eqn:IF; [discriminate|].
      rewrite <- digits_val_app in H.
      assert (FF : Forall (fun c => is_digit c = true) (i ++ f)) by now apply Forall_app.
      assert (P := digits_val_nonneg _ FF). assert (PP := pow_pos f).
      cbv zeta in H. set (v := (2 * digits_val (i ++ f) + 10 ^ Z.of_nat (length f)) / (2 * 10 ^ Z.of_nat (length f))) in *.
      destruct (Z.leb_spec v U32_MAX); [|discriminate]. injection H as <-.
      assert (VP : 0 <= v) by (apply Z.div_pos; lia).
      rewrite Z2N.id by exact VP. split; [|exact H0]. right. exists i, f, (digits_val (i ++ f)).
      split; [rewrite E, E', app_nil_r; reflexivity|].
      split; [apply digits_numeral; [rewrite IF; discriminate|exact FF]|].
      cbv zeta. now apply rounding_unique.
  - intros [[N|[i [f [w [-> [N RD]]]]]] L].
    + destruct (numeral_digits _ _ N) as [NE [F V]]. destruct n as [|c n]; [congruence|].
      unfold round_seconds. assert (Ascii.eqb c "-"%char = false) as ->.
      { apply Forall_cons_iff in F as [F _]. destruct (Ascii.eqb_spec c "-"%char); [subst; discriminate|reflexivity]. }
      assert (T := take_digits_all (c :: n) [] F I). rewrite app_nil_r in T. rewrite T, V.
      unfold U32_MAX. replace (Z.of_N r <=? 4294967295) with true by lia. now rewrite N2Z.id.
    + destruct (numeral_digits _ _ N) as [NE [F V]]. cbv zeta in RD.
      apply rounding_unique in RD; [|apply pow_pos].
      apply Forall_app in F as [F1 F2].
      assert (T := take_digits_all i ("."%char :: f) F1 Dot).
      assert (T2 := take_digits_all f [] F2 I). rewrite app_nil_r in T2.
      destruct (i ++ "."%char :: f)%list as [|c n] eqn:EN; [destruct i; discriminate|].
      unfold round_seconds. assert (Ascii.eqb c "-"%char = false) as ->.
      { destruct (Ascii.eqb_spec c "-"%char); [|reflexivity]. subst c. destruct i as [|c i]; cbn in EN; injection EN as EN1 EN2;
          [discriminate|]. subst c. apply Forall_cons_iff in F1 as [F1 _]. discriminate. }
      rewrite T. cbn [Ascii.eqb Bool.eqb]. rewrite T2.
      destruct (i ++ f)%list as [|x xs] eqn:IF; [congruence|]. rewrite <- IF in *.
      rewrite <- digits_val_app, V. cbv zeta. rewrite <- RD. unfold U32_MAX.
      replace (Z.of_N r <=? 4294967295) with true by lia. now rewrite N2Z.id.
Qed.

Lemma add32_mod a b : Z.of_N (add32 a b) = (Z.of_N a + Z.of_N b) mod 2 ^ 32.
Proof. unfold add32, w32, M32. rewrite N2Z.inj_mod, N2Z.inj_add. reflexivity. Qed.
Lemma mul32_mod a b : Z.of_N (mul32 a b) = (Z.of_N a * Z.of_N b) mod 2 ^ 32.
Proof. unfold mul32, w32, M32. rewrite N2Z.inj_mod, N2Z.inj_mul. reflexivity. Qed.

Lemma duration_nonneg s t : duration s t -> 0 <= t.
Proof.
  assert (NN : forall n v, numeral n v -> 0 <= v).
  { intros n v N. destruct (numeral_digits _ _ N) as [_ [F <-]]. now apply digits_val_nonneg. }
  induction 1 as [|n v s t N L D IH|n v s t N L D IH|n v s t N L D IH|]; try lia.
  - apply NN in N. lia.
  - apply NN in N. lia.
  - assert (0 <= v); [|lia]. destruct N as [N|[i [f [w [-> [N R]]]]]]; [eauto|]. apply NN in N. cbv zeta in R.
    assert (P := pow_pos f). nia.
Qed.

Lemma dur_loop_ok : forall fuel s acc r, (Z.of_N acc < 2 ^ 32) ->
  (parse_duration_loop fuel s acc = Ok r ->
     exists t, duration s t /\ Z.of_N r = (Z.of_N acc + t) mod 2 ^ 32).
Proof.
  induction fuel as [|fuel IH]; intros s acc r LA E.
  - destruct s; [|discriminate]. injection E as <-. exists 0. split; [constructor|].
    rewrite Z.add_0_r, Z.mod_small; lia.
  - destruct s as [|c s0]; [injection E as <-; exists 0; split; [constructor|rewrite Z.add_0_r, Z.mod_small; lia]|].
    cbn [parse_duration_loop] in E. destruct (until_upper (c :: s0)) as [num rest] eqn:U.
    destruct (until_upper_eq _ _ _ U) as [-> [NC UP]]. destruct rest as [|u rest]; [discriminate|].
    apply bind_Ok in E as [acc' [E1 E2]].
    assert (BA : forall a b, Z.of_N (add32 a b) < 2 ^ 32) by (intros a b; rewrite add32_mod; apply Z.mod_pos_bound; lia).
    destruct (Ascii.eqb_spec u "H"%char) as [->|N1]; [|destruct (Ascii.eqb_spec u "M"%char) as [->|N2];
      [|destruct (Ascii.eqb_spec u "S"%char) as [->|N3]]].
    + apply bind_Ok in E1 as [v [E1 E3]]. injection E3 as <-. apply parse_unsigned in E1 as [E1 L].
      assert (0 <= v) by (destruct (numeral_digits _ _ E1) as [_ [F <-]]; now apply digits_val_nonneg).
      apply IH in E2; [|apply BA]. destruct E2 as [t [D R]]. exists (3600 * v + t).
      split; [constructor; auto|]. rewrite R, add32_mod, mul32_mod, Z2N.id by lia.
      rewrite Zplus_mod_idemp_l, <- Z.add_assoc, (Z.add_comm _ t), Z.add_assoc, Zplus_mod_idemp_r. f_equal. lia.
    + apply bind_Ok in E1 as [v [E1 E3]]. injection E3 as <-. apply parse_unsigned in E1 as [E1 L].
      assert (0 <= v) by (destruct (numeral_digits _ _ E1) as [_ [F <-]]; now apply digits_val_nonneg).
      apply IH in E2; [|apply BA]. destruct E2 as [t [D R]]. exists (60 * v + t).
      split; [constructor; auto|]. rewrite R, add32_mod, mul32_mod, Z2N.id by lia.
      rewrite Zplus_mod_idemp_l, <- Z.add_assoc, (Z.add_comm _ t), Z.add_assoc, Zplus_mod_idemp_r. f_equal. lia.
    + apply bind_Ok in E1 as [v [E1 E3]]. injection E3 as <-. apply round_seconds_ok in E1 as [E1 L].
      apply IH in E2; [|apply BA]. destruct E2 as [t [D R]]. exists (Z.of_N v + t).
      split; [constructor; auto|]. rewrite R, add32_mod, Zplus_mod_idemp_l. f_equal. lia.
    + injection E1 as <-. apply IH in E2; [|exact LA]. destruct E2 as [t [D R]]. exists t. split; [|exact R].
      apply dur_other; auto; [now apply is_upper_spec|]. intros [<-|[<-|[<-|[]]]]; congruence.
Qed.

Lemma dur_loop_complete s t : duration s t -> forall fuel acc, (length s <= fuel)%nat -> (Z.of_N acc < 2 ^ 32) ->
  exists r, parse_duration_loop fuel s acc = Ok r /\ Z.of_N r = (Z.of_N acc + t) mod 2 ^ 32.
Proof.
  assert (BA : forall a b, Z.of_N (add32 a b) < 2 ^ 32) by (intros a b; rewrite add32_mod; apply Z.mod_pos_bound; lia).
  assert (ST : forall fuel n u s acc, no_capital n -> is_upper u = true ->
    parse_duration_loop (S fuel) (n ++ u :: s) acc =
    (do acc' <- (if Ascii.eqb u "H"%char then do v <- parse_int 0 U32_MAX n; Ok (add32 acc (mul32 (Z.to_N v) 3600))
                 else if Ascii.eqb u "M"%char then do v <- parse_int 0 U32_MAX n; Ok (add32 acc (mul32 (Z.to_N v) 60))
                 else if Ascii.eqb u "S"%char then do v <- round_seconds n; Ok (add32 acc v) else Ok acc);
     parse_duration_loop fuel s acc')).
  { intros fuel n u s0 acc N U. cbn [parse_duration_loop].
    destruct (n ++ u :: s0)%list as [|c l] eqn:E; [destruct n; discriminate|]. rewrite <- E.
    rewrite until_upper_app by assumption. reflexivity. }
  induction 1 as [|n v s t N L D IH|n v s t N L D IH|n v s t N L D IH|n u s t N U O D IH]; intros fuel acc LF LA.
  - exists acc. split; [destruct fuel; reflexivity|]. rewrite Z.add_0_r, Z.mod_small; lia.
  - rewrite app_length in LF. cbn [length] in LF. destruct fuel as [|fuel]; [lia|].
    rewrite ST; [|eapply numeral_no_capital; eauto|reflexivity]. cbn [Ascii.eqb Bool.eqb].
    rewrite (proj2 (parse_unsigned U32_MAX n v) (conj N L)). cbn [bind].
    assert (0 <= v) by (destruct (numeral_digits _ _ N) as [_ [F <-]]; now apply digits_val_nonneg).
    destruct (IH fuel (add32 acc (mul32 (Z.to_N v) 3600))) as [r [E R]]; [lia|apply BA|].
    exists r. split; [exact E|]. rewrite R, add32_mod, mul32_mod, Z2N.id by lia.
    rewrite Zplus_mod_idemp_l, <- Z.add_assoc, (Z.add_comm _ t), Z.add_assoc, Zplus_mod_idemp_r. f_equal. lia.
  - rewrite app_length in LF. cbn [length] in LF. destruct fuel as [|fuel]; [lia|].
    rewrite ST; [|eapply numeral_no_capital; eauto|reflexivity]. cbn [Ascii.eqb Bool.eqb].
    rewrite (proj2 (parse_unsigned U32_MAX n v) (conj N L)). cbn [bind].
    assert (0 <= v) by (destruct (numeral_digits _ _ N) as [_ [F <-]]; now apply digits_val_nonneg).
    destruct (IH fuel (add32 acc (mul32 (Z.to_N v) 60))) as [r [E R]]; [lia|apply BA|].
    exists r. split; [exact E|]. rewrite R, add32_mod, mul32_mod, Z2N.id by lia.
    rewrite Zplus_mod_idemp_l, <- Z.add_assoc, (Z.add_comm _ t), Z.add_assoc, Zplus_mod_idemp_r. f_equal. lia.
  - rewrite app_length in LF. cbn [length] in LF. destruct fuel as [|fuel]; [lia|].
    rewrite ST; [|eapply seconds_no_capital; eauto|reflexivity]. cbn [Ascii.eqb Bool.eqb].
    assert (V0 : 0 <= v).
    { destruct N as [N|[i [f [w [-> [N R]]]]]].
      - destruct (numeral_digits _ _ N) as [_ [F <-]]. now apply digits_val_nonneg.
      - destruct (numeral_digits _ _ N) as [_ [F E]]. assert (P := digits_val_nonneg _ F). cbv zeta in R.
        assert (PP := pow_pos f). nia. }
    rewrite (proj2 (round_seconds_ok n (Z.to_N v))) by (rewrite Z2N.id by lia; auto). cbn [bind].
    destruct (IH fuel (add32 acc (Z.to_N v))) as [r [E R]]; [lia|apply BA|].
    exists r. split; [exact E|]. rewrite R, add32_mod, Z2N.id, Zplus_mod_idemp_l by lia. f_equal. lia.
  - rewrite app_length in LF. cbn [length] in LF. destruct fuel as [|fuel]; [lia|].
    rewrite ST by (try assumption; now apply is_upper_spec).
    destruct (Ascii.eqb_spec u "H"%char) as [->|_]; [exfalso; apply O; cbn; auto|].
    destruct (Ascii.eqb_spec u "M"%char) as [->|_]; [exfalso; apply O; cbn; auto|].
    destruct (Ascii.eqb_spec u "S"%char) as [->|_]; [exfalso; apply O; cbn; auto|].
    cbn [bind]. apply IH; [lia|exact LA].
Qed.

(* text without a unit at its end runs past the end of the string *)
Lemma dur_loop_truncated s t n : duration s t -> n <> [] -> no_capital n -> forall fuel acc,
  (length s < fuel)%nat -> (Z.of_N acc < 2 ^ 32) -> parse_duration_loop fuel (s ++ n) acc = UB.
Proof.
  intros D NE NC.
  assert (BA : forall a b, Z.of_N (add32 a b) < 2 ^ 32) by (intros a b; rewrite add32_mod; apply Z.mod_pos_bound; lia).
  assert (ST : forall fuel n u s acc, no_capital n -> is_upper u = true ->
    parse_duration_loop (S fuel) (n ++ u :: s) acc =
    (do acc' <- (if Ascii.eqb u "H"%char then do v <- parse_int 0 U32_MAX n; Ok (add32 acc (mul32 (Z.to_N v) 3600))
                 else if Ascii.eqb u "M"%char then do v <- parse_int 0 U32_MAX n; Ok (add32 acc (mul32 (Z.to_N v) 60))
                 else if Ascii.eqb u "S"%char then do v <- round_seconds n; Ok (add32 acc v) else Ok acc);
     parse_duration_loop fuel s acc')).
  { intros fuel n0 u s0 acc N U. cbn [parse_duration_loop].
    destruct (n0 ++ u :: s0)%list as [|c l] eqn:E; [destruct n0; discriminate|]. rewrite <- E.
    rewrite until_upper_app by assumption. reflexivity. }
  induction D as [|m v s t N L D IH|m v s t N L D IH|m v s t N L D IH|m u s t N U O D IH]; intros fuel acc LF LA.
  - cbn [app]. destruct fuel as [|fuel]; [cbn in LF; lia|]. destruct n as [|c n]; [congruence|].
    cbn [parse_duration_loop].
    assert (E : until_upper (c :: n) = (c :: n, [])).
    { clear - NC. revert NC. generalize (c :: n). intros l H. induction l as [|x l IH]; [reflexivity|].
      cbn [until_upper]. rewrite (proj2 (is_upper_false x)) by (apply H; now left). rewrite IH; [reflexivity|]. intros y I. apply H. now right. }
    rewrite E. reflexivity.
  - rewrite app_length in LF. cbn [length] in LF. destruct fuel as [|fuel]; [lia|]. rewrite <- app_assoc. cbn [app].
    rewrite ST; [|eapply numeral_no_capital; eauto|reflexivity]. cbn [Ascii.eqb Bool.eqb].
    rewrite (proj2 (parse_unsigned U32_MAX m v) (conj N L)). cbn [bind]. apply IH; [lia|apply BA].
  - rewrite app_length in LF. cbn [length] in LF. destruct fuel as [|fuel]; [lia|]. rewrite <- app_assoc. cbn [app].
    rewrite ST; [|eapply numeral_no_capital; eauto|reflexivity]. cbn [Ascii.eqb Bool.eqb].
    rewrite (proj2 (parse_unsigned U32_MAX m v) (conj N L)). cbn [bind]. apply IH; [lia|apply BA].
  - rewrite app_length in LF. cbn [length] in LF. destruct fuel as [|fuel]; [lia|]. rewrite <- app_assoc. cbn [app].
    rewrite ST; [|eapply seconds_no_capital; eauto|reflexivity]. cbn [Ascii.eqb Bool.eqb].
    assert (V0 : 0 <= v) by (apply dur_S with (s := []) (t := 0) in N; [apply duration_nonneg in N; lia|exact L|constructor]).
    rewrite (proj2 (round_seconds_ok m (Z.to_N v))) by (rewrite Z2N.id by lia; auto). cbn [bind]. apply IH; [lia|apply BA].
  - rewrite app_length in LF. cbn [length] in LF. destruct fuel as [|fuel]; [lia|]. rewrite <- app_assoc. cbn [app].
    rewrite ST by (try assumption; now apply is_upper_spec).
    destruct (Ascii.eqb_spec u "H"%char) as [->|_]; [exfalso; apply O; cbn; auto|].
    destruct (Ascii.eqb_spec u "M"%char) as [->|_]; [exfalso; apply O; cbn; auto|].
    destruct (Ascii.eqb_spec u "S"%char) as [->|_]; [exfalso; apply O; cbn; auto|].
    cbn [bind]. apply IH; [lia|exact LA].
Qed.
