(* C118: the search results; C119: the filter for trains; C120: the view of the ordering graph.

   Reading guide: ClientViewSpec.v; `numeral`, `commas`, `request` are those of the server
   (KssDates.v, OgServeSpec.v, PropsOgServe.v). *)
From Coq Require Import Ascii String DecimalString.
From Verif Require Import Base KssDates OgServeSpec PropsOgServe ClientViewModel ClientViewSpec.
From Verif Require ExportSpec ExportProofs ExportModel.
Local Open Scope list_scope.
Local Open Scope nat_scope.

(* ---- C118: a result and its emphasised part ---- *)
Lemma skip_skip {A} b : forall a (s : list A), skipn a (skipn b s) = skipn (b + a) s.
Proof. induction b as [|b IH]; intros a s; [reflexivity|]. destruct s as [|c s]; [cbn [plus skipn]; apply skipn_nil|]. apply IH. Qed.
Lemma sub_cut s x y : (x <= y)%Z -> js_substring s 0 x ++ js_substring s x y ++ js_substring s y (slen s) = s.
Proof.
  intros L. unfold js_substring, slen. set (n := Z.of_nat (List.length s)).
  replace (Z.max 0 (Z.min n 0)) with 0%Z by lia. replace (Z.max 0 (Z.min n n)) with n by lia.
  set (x' := Z.max 0 (Z.min n x)). set (y' := Z.max 0 (Z.min n y)).
  replace (Z.max 0 x' - Z.min 0 x')%Z with x' by lia. replace (Z.max x' y' - Z.min x' y')%Z with (y' - x')%Z by lia.
  replace (Z.max y' n - Z.min y' n)%Z with (n - y')%Z by lia. replace (Z.min 0 x') with 0%Z by lia.
  replace (Z.min x' y') with x' by lia. replace (Z.min y' n) with y' by lia. cbn [Z.to_nat skipn].
  replace (Z.to_nat (n - y')) with (List.length (skipn (Z.to_nat y') s)) by (rewrite skipn_length; lia). rewrite firstn_all.
  replace (skipn (Z.to_nat y') s) with (skipn (Z.to_nat (y' - x')) (skipn (Z.to_nat x') s)); [rewrite firstn_skipn; apply firstn_skipn|].
  rewrite skip_skip. f_equal. lia.
Qed.
(* Whatever toLowerCase does, the three parts together are the name. *)
Theorem C118_in_full lower query name before strong after :
  highlighted_name lower query name = (before, strong, after) -> before ++ strong ++ after = name.
Proof. unfold highlighted_name. intros [= <- <- <-]. apply sub_cut. unfold slen. lia. Qed.
Print Assumptions C118_in_full.
Lemma begins_iff p s : begins_with p s = true <-> exists v, s = p ++ v.
Proof.
  revert s. induction p as [|a p IH]; intros s; cbn [begins_with].
  - split; [exists s; reflexivity|reflexivity].
  - destruct s as [|b s]; [split; [discriminate|intros (v & E); discriminate]|].
    rewrite andb_true_iff, IH, Ascii.eqb_eq. split.
    + intros (-> & v & ->). exists v. reflexivity.
    + intros (v & [= -> ->]). split; [reflexivity|exists v; reflexivity].
Qed.
Lemma index_range s p : (-1 <= index_of s p)%Z.
Proof. induction s as [|a s IH]; cbn [index_of]; destruct (begins_with p _); try lia. destruct (Z.ltb_spec (index_of s p) 0); lia. Qed.
Lemma index_found s p : (exists k, stands_at p s k) ->
  exists k, index_of s p = Z.of_nat k /\ stands_at p s k /\ forall k', stands_at p s k' -> k <= k'.
Proof.
  induction s as [|a s IH]; intros (k & u & v & E & Lu); cbn [index_of].
  - destruct u; [|discriminate]. destruct p; [|discriminate]. cbn [begins_with]. exists 0. split; [reflexivity|]. split; [exists [], []; auto|lia].
  - destruct (begins_with p (a :: s)) eqn:B.
    + apply begins_iff in B. destruct B as (w & B). exists 0. split; [reflexivity|]. split; [exists [], w; auto|lia].
    + assert (NB : forall w, a :: s <> p ++ w). { intros w W. rewrite (proj2 (begins_iff p (a :: s))) in B; [discriminate|exists w; exact W]. }
      destruct u as [|b u]; [destruct (NB _ E)|]. injection E as <- E.
      destruct IH as (j & J & (u1 & v1 & E1 & L1) & M); [exists (List.length u), u, v; auto|].
      cbv zeta. rewrite J. destruct (Z.ltb_spec (Z.of_nat j) 0); [lia|]. exists (S j). split; [lia|]. split.
      * exists (a :: u1), v1. rewrite E1. cbn. auto.
      * intros k' (u2 & v2 & E2 & L2). destruct u2 as [|c u2]; [destruct (NB _ E2)|]. injection E2 as <- E2. cbn in L2. subst k'.
        apply le_n_S, M. exists u2, v2. auto.
Qed.
(* If upper and lower case letters correspond one to one and the text stands in the name,
   the emphasised part is the text up to case, at its first place in the name.
   Missing: names the text does not stand in (below). *)
Theorem C118_emphasis_partial f query name before strong after :
  highlighted_name (map f) query name = (before, strong, after) ->
  (exists k, stands_at (map f query) (map f name) k) ->
  map f strong = map f query /\ forall k, stands_at (map f query) (map f name) k -> List.length before <= k.
Proof.
  intros H X. destruct (index_found _ _ X) as (k & E & (u & v & Ek & Lu) & M). unfold highlighted_name in H. rewrite E in H. injection H as <- <- _.
  assert (Ln : List.length name = k + List.length query + List.length v).
  { rewrite <- (map_length f name), Ek, !app_length, map_length. lia. }
  unfold js_substring, slen. rewrite Ln.
  replace (Z.max 0 (Z.min _ 0)) with 0%Z by lia. replace (Z.max 0 (Z.min (Z.of_nat (k + List.length query + List.length v)) (Z.of_nat k))) with (Z.of_nat k) by lia.
  replace (Z.max 0 (Z.min (Z.of_nat (k + List.length query + List.length v)) (Z.of_nat k + Z.of_nat (List.length query)))) with (Z.of_nat k + Z.of_nat (List.length query))%Z by lia.
  split.
  - replace (Z.max _ _ - Z.min _ _)%Z with (Z.of_nat (List.length query)) by lia. replace (Z.min _ _) with (Z.of_nat k) by lia. rewrite !Nat2Z.id.
    rewrite <- firstn_map, <- skipn_map, Ek, <- Lu, skipn_app, skipn_all, Nat.sub_diag. cbn [skipn app].
    rewrite <- (map_length f query), firstn_app, firstn_all, Nat.sub_diag. cbn [firstn]. apply app_nil_r.
  - intros k' S. rewrite firstn_length. apply Nat.min_le_iff. left. apply M in S. lia.
Qed.
Print Assumptions C118_emphasis_partial.
(* FINDING.  The server also returns names that only resemble the text.  In them the first
   letters are emphasised, all but one as many as the text has. *)
Theorem C118_emphasis_refuted f query name : (forall k, ~ stands_at (map f query) (map f name) k) -> 2 <= List.length query -> List.length query <= List.length name ->
  exists after, highlighted_name (map f) query name = ([], firstn (List.length query - 1) name, after) /\ firstn (List.length query - 1) name <> [].
Proof.
  intros N L1 L2. assert (E : index_of (map f name) (map f query) = (-1)%Z).
  { clear L1 L2. revert N. generalize (map f query), (map f name). intros p s N. induction s as [|a s IH]; cbn [index_of].
    - destruct (begins_with p []) eqn:B; [|reflexivity]. apply begins_iff in B. destruct B as (v & B). destruct (N 0). exists [], v. auto.
    - destruct (begins_with p (a :: s)) eqn:B; [apply begins_iff in B; destruct B as (v & B); destruct (N 0); exists [], v; auto|].
      rewrite IH; [reflexivity|]. intros k (u & v & E & L). apply (N (S k)). exists (a :: u), v. rewrite E. cbn. auto. }
  unfold highlighted_name. rewrite E. eexists. split.
  - f_equal. f_equal.
    + unfold js_substring, slen. replace (Z.max 0 (Z.min _ 0)) with 0%Z by lia. replace (Z.max 0 (Z.min _ (-1))) with 0%Z by lia. reflexivity.
    + unfold js_substring, slen. replace (Z.max 0 (Z.min _ (-1))) with 0%Z by lia.
      replace (Z.max 0 (Z.min _ _)) with (Z.of_nat (List.length query - 1)) by lia.
      replace (Z.min 0 _) with 0%Z by lia. cbn [Z.to_nat skipn]. f_equal. lia.
  - destruct name as [|a name]; cbn [List.length] in *; [lia|]. destruct (List.length query - 1) eqn:D; [lia|]. discriminate.
Qed.
Print Assumptions C118_emphasis_refuted.
Definition t_ := list_ascii_of_string.
Definition low (c : ascii) : ascii := if (65 <=? N_of_ascii c)%N && (N_of_ascii c <=? 90)%N then ascii_of_N (N_of_ascii c + 32) else c.
Example ex_C118_emphasis : highlighted_name (map low) (t_ "DARM") (t_ "Bf Darmstadt") = (t_ "Bf ", t_ "Darm", t_ "stadt") /\
  highlighted_name (map low) (t_ "damr") (t_ "Darmstadt") = ([], t_ "Dar", t_ "mstadt").
Proof. split; reflexivity. Qed.

(* ---- C119: the filter for trains ---- *)
Lemma digit_val_some c k : KssDates.digit c k -> digit_value c = Some k /\ c <> comma.
Proof.
  intros (R & ->). assert (C : (k = 0 \/ k = 1 \/ k = 2 \/ k = 3 \/ k = 4 \/ k = 5 \/ k = 6 \/ k = 7 \/ k = 8 \/ k = 9)%Z) by lia.
  repeat (destruct C as [->|C]); [..|subst k]; (split; [reflexivity|discriminate]).
Qed.
Lemma digit_val_digit c k : digit_value c = Some k -> KssDates.digit c k.
Proof.
  unfold digit_value. destruct (_ && _) eqn:E; [|discriminate]. intros [= <-]. unfold KssDates.digit. split; [lia|].
  replace (48 + Z.to_N (Z.of_N (N_of_ascii c) - 48))%N with (N_of_ascii c) by lia. symmetry. apply ascii_N_embedding.
Qed.
Lemma comma_no_digit : digit_value comma = None.
Proof. reflexivity. Qed.
Definition all_digits (s : list ascii) : Prop := Forall (fun c => digit_value c <> None) s.
Lemma parse_snoc s c : forall acc, all_digits s -> all_digits [c] ->
  parse_int_js acc (s ++ [c]) = match digit_value c with Some d => Some (match parse_int_js acc s with Some a => 10 * a + d | None => d end)%Z | None => None end.
Proof.
  induction s as [|a s IH]; intros acc D Dc; cbn [app parse_int_js].
  - inversion Dc as [|? ? H]; subst. destruct (digit_value c); [reflexivity|congruence].
  - inversion D as [|? ? H D']; subst. destruct (digit_value a) as [d|]; [|congruence]. apply IH; assumption.
Qed.
Lemma numeral_parse s v : numeral s v -> all_digits s /\ parse_int_js None s = Some v.
Proof.
  induction 1 as [c k D|s v c k H (IH1 & IH2) D]; destruct (digit_val_some _ _ D) as (E & _).
  - split; [constructor; [congruence|constructor]|]. cbn. rewrite E. reflexivity.
  - assert (Dc : all_digits [c]) by (constructor; [congruence|constructor]).
    split; [apply Forall_app; auto|]. rewrite parse_snoc by assumption. rewrite E, IH2. reflexivity.
Qed.
Lemma parse_numeral s : s <> [] -> all_digits s -> exists v, numeral s v /\ parse_int_js None s = Some v.
Proof.
  induction s as [|c s IH] using rev_ind; [congruence|]. intros _ D. apply Forall_app in D as (D & Dc).
  assert (Dc' := Dc). inversion Dc' as [|? ? H _]; subst. destruct (digit_value c) as [k|] eqn:E; [|congruence].
  destruct s as [|a s].
  - exists k. split; [constructor; apply digit_val_digit, E|]. cbn. rewrite E. reflexivity.
  - destruct IH as (v & N & P); [discriminate|exact D|]. exists (10 * v + k)%Z. split; [constructor; [exact N|apply digit_val_digit, E]|].
    rewrite parse_snoc by assumption. rewrite E, P. reflexivity.
Qed.
Lemma split_join w ws : Forall (fun s => ~ In comma s) (w :: ws) -> split_comma (commas (w :: ws)) = w :: ws.
Proof.
  revert w. induction ws as [|w2 ws IH]; intros w F.
  - cbn [commas]. inversion F as [|? ? H _]; subst. clear F. induction w as [|c w IHw]; [reflexivity|]. cbn [split_comma].
    destruct (Ascii.eqb_spec c comma) as [->|N]; [destruct H; left; reflexivity|]. rewrite IHw; [reflexivity|intros I; apply H; right; exact I].
  - change (commas (w :: w2 :: ws)) with (w ++ comma :: commas (w2 :: ws)). inversion F as [|? ? H F']; subst. specialize (IH w2 F'). clear F F'.
    induction w as [|c w IHw]; cbn [app split_comma].
    + rewrite Ascii.eqb_refl, IH. reflexivity.
    + destruct (Ascii.eqb_spec c comma) as [->|N]; [destruct H; left; reflexivity|]. rewrite IHw; [reflexivity|intros I; apply H; right; exact I].
Qed.
Lemma split_inv s : exists w ws, split_comma s = w :: ws /\ s = commas (w :: ws) /\ Forall (fun s => ~ In comma s) (w :: ws).
Proof.
  induction s as [|c s (w & ws & E & -> & F)]; [exists [], []; repeat split; constructor; [intros []|constructor]|].
  cbn [split_comma]. rewrite E. destruct (Ascii.eqb_spec c comma) as [->|N].
  - exists [], (w :: ws). split; [reflexivity|]. split; [reflexivity|]. constructor; [intros []|exact F].
  - exists (c :: w), ws. split; [reflexivity|]. split; [destruct ws; reflexivity|]. inversion F; subst. constructor; [|assumption].
    intros [H|H]; [congruence|contradiction].
Qed.
Lemma matches_first p w : p <> BehindComma -> matches p w = true -> ~ In comma w -> all_digits w.
Proof.
  revert p. induction w as [|c w IH]; intros p Np M NI; [constructor|]. cbn [matches] in M. destruct (digit_value c) eqn:E.
  - constructor; [congruence|]. apply (IH (match p with InFirst => InFirst | _ => InLater end)); [destruct p; congruence|exact M|intros I; apply NI; right; exact I].
  - destruct (Ascii.eqb_spec c comma) as [->|]; [destruct NI; left; reflexivity|discriminate].
Qed.
Lemma matches_cut w rest p : all_digits w -> (p = BehindComma -> w <> []) ->
  matches p (w ++ comma :: rest) = matches BehindComma rest.
Proof.
  revert p. induction w as [|c w IH]; intros p D N; cbn [app matches].
  - rewrite comma_no_digit, Ascii.eqb_refl. destruct p; [reflexivity|destruct (N eq_refl); reflexivity|reflexivity].
  - inversion D as [|? ? H D']; subst. destruct (digit_value c); [|congruence]. apply IH; [exact D'|destruct p; discriminate].
Qed.
Lemma matches_digits w p : all_digits w -> (p = BehindComma -> w <> []) -> matches p w = true.
Proof.
  revert p. induction w as [|c w IH]; intros p D N; cbn [matches]; [destruct p; [reflexivity|destruct (N eq_refl); reflexivity|reflexivity]|].
  inversion D as [|? ? H D']; subst. destruct (digit_value c); [|congruence]. apply IH; [exact D'|destruct p; discriminate].
Qed.
Lemma matches_words ws : forall w p, Forall (fun s => ~ In comma s) (w :: ws) ->
  matches p (commas (w :: ws)) = true <-> all_digits w /\ (p = BehindComma -> w <> []) /\ Forall (fun s => all_digits s /\ s <> []) ws.
Proof.
  induction ws as [|w2 ws IH]; intros w p F; inversion F as [|? ? NI F']; subst.
  - cbn [commas]. split.
    + intros M. assert (Np : p = BehindComma -> w <> []) by (intros -> ->; discriminate).
      split; [|auto]. destruct w as [|c w]; [constructor|]. cbn [matches] in M. destruct (digit_value c) eqn:E.
      * constructor; [congruence|]. eapply matches_first; [|exact M|intros I; apply NI; right; exact I]. destruct p; discriminate.
      * destruct (Ascii.eqb_spec c comma) as [->|]; [destruct NI; left; reflexivity|discriminate].
    + intros (D & N & _). apply matches_digits; assumption.
  - change (commas (w :: w2 :: ws)) with (w ++ comma :: commas (w2 :: ws)). split.
    + intros M. assert (D : all_digits w /\ (p = BehindComma -> w <> [])).
      { clear F F' IH. revert p M. induction w as [|c w IHw]; intros p M.
        - split; [constructor|]. intros ->. cbn [app matches] in M. rewrite comma_no_digit, Ascii.eqb_refl in M. discriminate.
        - split; [|discriminate]. cbn [app matches] in M. destruct (digit_value c) eqn:E.
          + constructor; [congruence|]. eapply (IHw (fun I => NI (or_intror I))), M.
          + destruct (Ascii.eqb_spec c comma) as [->|]; [destruct NI; left; reflexivity|discriminate]. }
      destruct D as (D & N). rewrite matches_cut in M by assumption. apply IH in M; [|exact F']. destruct M as (D2 & N2 & F2). auto 6.
    + intros (D & N & F2). inversion F2 as [|? ? (D2 & N2) F2']; subst. rewrite matches_cut by assumption. apply IH; auto.
Qed.
Lemma digits_no_comma s : all_digits s -> ~ In comma s.
Proof. intros D I. apply (proj1 (Forall_forall _ _) D comma I). reflexivity. Qed.
(* Numbers separated by commas are emitted as these numbers. *)
Theorem C119_typed texts ids : texts <> [] -> Forall2 numeral texts ids -> emit_enter (commas texts) = Some (map Some ids).
Proof.
  intros N F. destruct texts as [|w ws]; [congruence|].
  assert (D : Forall (fun s => all_digits s /\ s <> []) (w :: ws) /\ map (parse_int_js None) (w :: ws) = map Some ids).
  { clear N. revert F. generalize (w :: ws). intros l F. induction F as [|s v l vs H F (IH1 & IH2)]; [split; [constructor|reflexivity]|].
    destruct (numeral_parse _ _ H) as (D & P). split; [constructor; [split; [exact D|]|exact IH1]|cbn [map]; rewrite P, IH2; reflexivity].
    inversion H; [discriminate|]. intros E. destruct l0; discriminate. }
  destruct D as (D & P). assert (NC : Forall (fun s => ~ In comma s) (w :: ws)).
  { eapply Forall_impl; [|exact D]. intros s (Ds & _). apply digits_no_comma, Ds. }
  unfold emit_enter. inversion D as [|? ? (Dw & Nw) Dws]; subst.
  assert (M : matches InFirst (commas (w :: ws)) = true) by (apply matches_words; [exact NC|]; split; [exact Dw|]; split; [discriminate|exact Dws]).
  destruct (commas (w :: ws)) as [|c r] eqn:E; [destruct w as [|a w]; [congruence|destruct ws; discriminate]|].
  rewrite M, <- E, split_join, P by exact NC. reflexivity.
Qed.
Print Assumptions C119_typed.
(* And nothing else is emitted, but for texts that begin with a comma. *)
Theorem C119_emitted s out : emit_enter s = Some out ->
  exists first rest ids, s = commas (first :: rest) /\ Forall2 numeral rest ids /\
    ((exists id, numeral first id /\ out = map Some (id :: ids)) \/ (first = [] /\ rest <> [] /\ out = None :: map Some ids)).
Proof.
  intros E. assert (Ns : s <> []) by (intros ->; discriminate). destruct (split_inv s) as (w & ws & S & J & NC). unfold emit_enter in E.
  assert (X : matches InFirst s = true /\ out = map (parse_int_js None) (split_comma s)).
  { destruct s; [congruence|]. destruct (matches InFirst _); [|discriminate]. injection E as <-. auto. }
  destruct X as (M & ->). rewrite S. rewrite J in M. apply matches_words in M; [|exact NC]. destruct M as (Dw & _ & Dws).
  assert (R : exists ids, Forall2 numeral ws ids /\ map (parse_int_js None) ws = map Some ids).
  { clear - Dws. induction Dws as [|a l (D & N) _ (ids & F & P)]; [exists []; split; [constructor|reflexivity]|].
    destruct (parse_numeral a N D) as (v & Nv & Pv). exists (v :: ids). split; [constructor; assumption|]. cbn [map]. rewrite Pv, P. reflexivity. }
  destruct R as (ids & F & P). exists w, ws, ids. split; [exact J|]. split; [exact F|]. cbn [map]. rewrite P.
  destruct w as [|a w].
  - right. split; [reflexivity|]. split; [|reflexivity]. intros ->. apply Ns. rewrite J. reflexivity.
  - left. destruct (parse_numeral (a :: w)) as (v & Nv & Pv); [discriminate|exact Dw|]. exists v. split; [exact Nv|]. rewrite Pv. reflexivity.
Qed.
Print Assumptions C119_emitted.
Lemma spelled_numeral s : s <> [] -> Forall ExportSpec.is_digit s -> numeral s (Z.of_N (ExportSpec.digits_value s)).
Proof.
  induction s as [|c s IH] using rev_ind; [congruence|]. intros _ F. apply Forall_app in F as (F & Fc). inversion Fc as [|? ? H _]; subst.
  assert (D : KssDates.digit c (Z.of_N (N_of_ascii c - 48))).
  { unfold ExportSpec.is_digit in H. split; [lia|]. replace (48 + Z.to_N (Z.of_N (N_of_ascii c - 48)))%N with (N_of_ascii c) by lia. symmetry. apply ascii_N_embedding. }
  destruct s as [|a s]; [change (ExportSpec.digits_value ([] ++ [c])) with (10 * 0 + (N_of_ascii c - 48))%N; constructor; exact D|].
  unfold ExportSpec.digits_value in *. rewrite fold_left_app. cbn [fold_left].
  set (x := fold_left _ s _) in *. replace (Z.of_N (10 * x + (N_of_ascii c - 48))) with (10 * Z.of_N x + Z.of_N (N_of_ascii c - 48))%Z by lia.
  constructor; [apply IH; [discriminate|exact F]|exact D].
Qed.
Lemma number_numeral z : (0 <= z)%Z -> numeral (number_text z) z.
Proof.
  intros P. destruct (ExportProofs.put_number_spells (Z.to_N z)) as (N & F & V & _).
  change (ExportModel.put_number (Z.to_N z)) with (number_text z) in *. rewrite <- (Z2N.id z P) at 2. rewrite <- V. apply spelled_numeral; assumption.
Qed.
Lemma array_commas l : array_text l = commas l.
Proof. induction l as [|s [|s2 l] IH]; [reflexivity|reflexivity|]. change (commas (s :: s2 :: l)) with (s ++ comma :: commas (s2 :: l)). rewrite <- IH. reflexivity. Qed.
(* From the field to the server: after the ids were typed, and with a time range from a to b,
   the parameters of the request say these ids and this range to the server (see C92). *)
Theorem C119_request earlier texts (ids : list N) a b : Forall2 says texts ids -> (texts = [] -> earlier = []) ->
  (a <= b)%N -> (b < 2 ^ 32)%N ->
  request (number_text (Z.of_N a)) (number_text (Z.of_N b))
    (ids_text (entered (earlier ++ match texts with [] => [] | _ => [commas texts] end))) a b ids.
Proof.
  intros F E L1 L2.
  assert (S : forall n, (n < 2 ^ 32)%N -> says (number_text (Z.of_N n)) n) by (intros n L; split; [apply number_numeral; lia|exact L]).
  split; [apply S; lia|]. split; [apply S; lia|]. split; [exact L1|].
  assert (X : entered (earlier ++ match texts with [] => [] | _ => [commas texts] end) = map Some (map Z.of_N ids)).
  { destruct texts as [|t ts].
    - rewrite E by reflexivity. inversion F; subst. reflexivity.
    - unfold entered. rewrite fold_left_app. cbn [fold_left]. unfold enter at 1.
      rewrite (C119_typed (t :: ts) (map Z.of_N ids)); [reflexivity|discriminate|].
      revert F. generalize (t :: ts). intros l F. induction F as [|s v l vs (H & _) F IH]; constructor; assumption. }
  rewrite X. unfold ids_text. rewrite !map_map, array_commas. cbn [id_text].
  exists (map (fun n => number_text (Z.of_N n)) ids). assert (FS : Forall2 says (map (fun n => number_text (Z.of_N n)) ids) ids).
  { clear X E L1 L2 earlier. induction F as [|s v l vs (H & L) F IH]; constructor; [apply S, L|exact IH]. }
  split; [|exact FS]. split; [reflexivity|]. split.
  - intros s I. apply in_map_iff in I as (n & <- & _). apply digits_no_comma. exact (proj1 (numeral_parse _ _ (number_numeral (Z.of_N n) (N2Z.is_nonneg n)))).
  - intros K. rewrite K in FS. inversion FS as [|? ? ? ? (H & _) _]; subst. inversion H as [|l ? ? ? ? ? K4]. destruct l; discriminate.
Qed.
Print Assumptions C119_request.
(* A range of dates becomes the seconds they lie in; a range of seconds shown in the field is unchanged. *)
Theorem C119_range ms u : (date_to_unix ms * 1000 <= ms < (date_to_unix ms + 1) * 1000)%Z /\ date_to_unix (unix_to_date u) = u.
Proof. unfold date_to_unix, unix_to_date. split; [|apply Z.div_mul; lia]. assert (H := Z.div_mod ms 1000). assert (B := Z.mod_pos_bound ms 1000). lia. Qed.
Print Assumptions C119_range.
(* FINDING.  With a comma in front the first id is NaN, which the server does not understand. *)
Theorem C119_comma_refuted t id : numeral t id -> (0 <= id)%Z ->
  emit_enter (comma :: t) = Some [None; Some id] /\
  forall from to a b ids, ~ request from to (ids_text (entered [comma :: t])) a b ids.
Proof.
  intros N P. assert (E : emit_enter (comma :: t) = Some [None; Some id]).
  { destruct (numeral_parse _ _ N) as (D & Pa). assert (Nt : t <> []) by (inversion N; [discriminate|]; intros K; destruct l; discriminate).
    assert (NC : Forall (fun s => ~ In comma s) [[]; t]) by (repeat constructor; [intros []|apply digits_no_comma, D]).
    assert (M : matches InFirst (commas [[]; t]) = true). { apply matches_words; [exact NC|]. split; [constructor|]. split; [discriminate|repeat constructor; assumption]. }
    change (commas [[]; t]) with (comma :: t) in M. unfold emit_enter. rewrite M. change (comma :: t) with (commas [[]; t]). rewrite split_join by exact NC. cbn [map]. rewrite Pa. reflexivity. }
  split; [exact E|]. intros from to a b ids (_ & _ & _ & l & (Ec & Nl & _) & F).
  unfold entered in Ec. cbn [fold_left] in Ec. unfold enter in Ec. rewrite E in Ec.
  change (ids_text [None; Some id]) with (("N" :: "a" :: "N" :: [comma] ++ number_text id)%char) in Ec.
  inversion F as [K1 K2|s v l' vs (H & _) F' K1 K2]; subst l; [discriminate|].
  destruct (numeral_parse _ _ H) as (D & _). inversion H as [|l0 v0 c0 k0 H0 D0 K K3]; subst.
  - cbn [commas] in Ec. assert (X : c = "N"%char) by (destruct l'; injection Ec as -> _; reflexivity). subst c.
    inversion D as [|? ? Q _]; subst. apply Q. reflexivity.
  - assert (X : exists r, l0 ++ [c0] = "N"%char :: r).
    { destruct l0 as [|x l0]; [inversion H0; [destruct l; discriminate]|]. exists (l0 ++ [c0]). cbn [app]. f_equal.
      cbn [commas app] in Ec. destruct l'; injection Ec as -> _; reflexivity. }
    destruct X as (r & X). rewrite X in D. inversion D as [|? ? Q _]; subst. apply Q. reflexivity.
Qed.
Print Assumptions C119_comma_refuted.
(* FINDING.  Emptying the field does not remove the filter. *)
Theorem C119_cleared_refuted t id : numeral t id -> entered [t; []] = [Some id].
Proof.
  intros N. unfold entered. cbn [fold_left]. unfold enter at 1. cbn [emit_enter]. unfold enter.
  change t with (commas [t]). rewrite (C119_typed [t] [id]); [reflexivity|discriminate|repeat constructor; exact N].
Qed.
Print Assumptions C119_cleared_refuted.
Example ex_C119 : emit_enter (t_ "3,14,0") = Some [Some 3; Some 14; Some 0]%Z /\ emit_enter (t_ "3,,4") = None /\ emit_enter (t_ "3 4") = None /\
  ids_text (entered [t_ "7"; t_ "3,014"]) = t_ "3,14" /\
  Forall2 says [t_ "3"; t_ "014"] [3; 14]%N /\ request (number_text 5) (number_text 100) (ids_text (entered [t_ "7"; t_ "3,014"])) 5 100 [3; 14]%N.
Proof.
  assert (F : Forall2 says [t_ "3"; t_ "014"] [3; 14]%N).
  { assert (A : numeral (t_ "3") 3) by exact (spelled_numeral (t_ "3") ltac:(discriminate) ltac:(repeat constructor; unfold ExportSpec.is_digit; cbn; lia)).
    assert (B : numeral (t_ "014") 14) by exact (spelled_numeral (t_ "014") ltac:(discriminate) ltac:(repeat constructor; unfold ExportSpec.is_digit; cbn; lia)).
    constructor; [split; [exact A|lia]|]. constructor; [split; [exact B|lia]|constructor]. }
  split; [reflexivity|]. split; [reflexivity|]. split; [reflexivity|]. split; [reflexivity|]. split; [exact F|].
  exact (C119_request [t_ "7"] [t_ "3"; t_ "014"] [3; 14]%N 5 100 F ltac:(discriminate) ltac:(lia) ltac:(lia)).
Qed.

(* ---- C120: the view of the ordering graph ---- *)
Lemma watch_app srv es1 es2 v : watch srv (es1 ++ es2) v = watch srv es2 (watch srv es1 v).
Proof. apply fold_left_app. Qed.
Lemma has_node_iff g n : has_node g n = true <-> In n (o_nodes g).
Proof. unfold has_node. rewrite existsb_exists. split; [intros (x & I & E); apply Nat.eqb_eq in E; subst; exact I|intros I; exists n; split; [exact I|apply Nat.eqb_refl]]. Qed.
Lemma has_edge_iff g e : has_edge g e = true <-> In e (o_edges g).
Proof.
  unfold has_edge. rewrite existsb_exists. split.
  - intros (x & I & E). apply andb_true_iff in E as (E1 & E2). apply Nat.eqb_eq in E1, E2. destruct x, e. cbn in *. subst. exact I.
  - intros I. exists e. split; [exact I|]. rewrite !Nat.eqb_refl. reflexivity.
Qed.
Lemma import_nodes_ok l : forall g, NoDup l -> (forall n, In n l -> ~ In n (o_nodes g)) -> import_nodes g l = (mko (o_nodes g ++ l) (o_edges g), true).
Proof.
  induction l as [|n l IH]; intros g N D; cbn [import_nodes]; [rewrite app_nil_r; destruct g; reflexivity|].
  inversion N as [|? ? Nn N']; subst. destruct (has_node g n) eqn:E; [apply has_node_iff in E; destruct (D n (or_introl eq_refl) E)|].
  rewrite IH; [cbn [o_nodes o_edges]; rewrite <- app_assoc; reflexivity|exact N'|].
  intros m I J. cbn [o_nodes] in J. apply in_app_iff in J as [J|[<-|[]]]; [exact (D m (or_intror I) J)|contradiction].
Qed.
Lemma import_edges_ok l : forall g, NoDup l -> (forall e, In e l -> ~ In e (o_edges g)) -> (forall a b, In (a, b) l -> In a (o_nodes g) /\ In b (o_nodes g)) ->
  import_edges g l = (mko (o_nodes g) (o_edges g ++ l), true).
Proof.
  induction l as [|e l IH]; intros g N D T; cbn [import_edges]; [rewrite app_nil_r; destruct g; reflexivity|].
  inversion N as [|? ? Ne N']; subst. destruct e as [a b]. destruct (T a b (or_introl eq_refl)) as (Ta & Tb).
  apply has_node_iff in Ta, Tb. cbn [fst snd]. rewrite Ta, Tb. cbn [negb orb].
  destruct (has_edge g (a, b)) eqn:E; [apply has_edge_iff in E; destruct (D _ (or_introl eq_refl) E)|].
  rewrite IH; [cbn [o_nodes o_edges]; rewrite <- app_assoc; reflexivity|exact N'| |].
  - intros f I J. cbn [o_edges] in J. apply in_app_iff in J as [J|[<-|[]]]; [exact (D f (or_intror I) J)|contradiction].
  - intros x y I. cbn [o_nodes]. apply T. right. exact I.
Qed.
Lemma import_ok g og : simple og -> (forall n, In n (o_nodes og) -> ~ In n (o_nodes g)) ->
  (forall a b, In (a, b) (o_edges g) -> In a (o_nodes g)) ->
  import g og = (mko (o_nodes g ++ o_nodes og) (o_edges g ++ o_edges og), true).
Proof.
  intros (N & E & T) D G. unfold import. rewrite import_nodes_ok by assumption. rewrite import_edges_ok; cbn [o_nodes o_edges]; [reflexivity|exact E| |].
  - intros [a b] I J. apply (D a); [apply (T a b I)|apply (G a b J)].
  - intros a b I. destruct (T a b I). split; apply in_or_app; right; assumption.
Qed.
Lemma complete_iff s : complete s = true <-> filled_in s.
Proof.
  unfold complete, filled_in. destruct s as [[|? ?] [|? ?] [?|] ids]; cbn; split; try discriminate; try (intros (A & B & C); contradiction); try reflexivity.
  intros _. repeat split; discriminate.
Qed.
Lemma complete_not s : complete s = false <-> ~ filled_in s.
Proof. rewrite <- complete_iff. destruct (complete s); split; try discriminate; auto. intros H. destruct H; reflexivity. Qed.
(* If no other request is under way when the graph is asked for, and none is made or lost until
   it is answered, the graph of exactly these settings is shown.  Before the answer there is none. *)
Theorem C120_shown_partial srv es1 s es2 : filled_in s -> simple (srv s) ->
  v_pending (watch srv es1 no_view) = [] -> (forall e, In e es2 -> ~ requests e /\ ~ fails e) ->
  let v := watch srv (es1 ++ Create s :: es2) no_view in
  (v_pending v = [s] /\ v_graph v = mko [] []) \/ (v_pending v = [] /\ v_graph v = srv s).
Proof.
  intros C S I N v. apply complete_iff in C. unfold v. clear v. rewrite watch_app. change (watch srv (Create s :: es2) (watch srv es1 no_view)) with (watch srv es2 (view_step srv (watch srv es1 no_view) (Create s))).
  cbn [view_step]. rewrite C, I. cbn [app]. clear I es1.
  assert (K : forall v, (v_pending v = [s] /\ v_graph v = mko [] []) \/ (v_pending v = [] /\ v_graph v = srv s) ->
    (v_pending (watch srv es2 v) = [s] /\ v_graph (watch srv es2 v) = mko [] []) \/ (v_pending (watch srv es2 v) = [] /\ v_graph (watch srv es2 v) = srv s)); [|apply K; left; split; reflexivity].
  induction es2 as [|e es2 IH]; intros v H; [exact H|]. change (watch srv (e :: es2) v) with (watch srv es2 (view_step srv v e)).
  apply IH; [intros e' I; apply N; right; exact I|]. destruct (N e (or_introl eq_refl)) as (Nr & Nf). destruct e as [s'|k|k].
  - cbn [view_step]. destruct (complete s') eqn:Cs; [apply complete_iff in Cs; destruct Nr; exists s'; auto|exact H].
  - cbn [view_step]. destruct H as [(P & G)|(P & G)]; rewrite P.
    + destruct k as [|k]; [|left; destruct k; cbn; auto]. right. cbn [nth_error v_pending v_graph remove_nth]. split; [reflexivity|].
      rewrite G, import_ok; [cbn [fst o_nodes o_edges app]; destruct (srv s); reflexivity|exact S|cbn; auto|intros a b []].
    + right. destruct k; cbn; auto.
  - destruct Nf. exists k. reflexivity.
Qed.
Print Assumptions C120_shown_partial.
Lemma import_nodes_sub l : forall g n, In n (o_nodes (fst (import_nodes g l))) -> In n (o_nodes g) \/ In n l.
Proof.
  induction l as [|m l IH]; intros g n H; cbn [import_nodes] in H; [left; exact H|].
  destruct (has_node g m); [left; exact H|]. apply IH in H as [H|H]; [|right; right; exact H].
  cbn [o_nodes] in H. apply in_app_iff in H as [H|[<-|[]]]; [left; exact H|right; left; reflexivity].
Qed.
Lemma import_edges_nodes l : forall g, o_nodes (fst (import_edges g l)) = o_nodes g.
Proof. induction l as [|e l IH]; intros g; cbn [import_edges]; [reflexivity|]. destruct (_ || _); [reflexivity|]. rewrite IH. reflexivity. Qed.
Lemma import_sub g og n : In n (o_nodes (fst (import g og))) -> In n (o_nodes g) \/ In n (o_nodes og).
Proof.
  unfold import. destruct (import_nodes g (o_nodes og)) as [g' ok] eqn:E. intros H.
  assert (X : In n (o_nodes g')). { destruct ok; [rewrite import_edges_nodes in H|]; exact H. }
  apply (import_nodes_sub (o_nodes og) g n). rewrite E. exact X.
Qed.
(* In any case a node that is shown belongs to an answer that came after the last request. *)
Theorem C120_origin srv es1 s es2 n : filled_in s ->
  In n (o_nodes (v_graph (watch srv (es1 ++ Create s :: es2) no_view))) ->
  exists s', In s' (arrived srv es2 (watch srv (es1 ++ [Create s]) no_view)) /\ In n (o_nodes (srv s')).
Proof.
  intros C. apply complete_iff in C. rewrite !watch_app. change (watch srv (Create s :: es2) (watch srv es1 no_view)) with (watch srv es2 (view_step srv (watch srv es1 no_view) (Create s))).
  change (watch srv [Create s] (watch srv es1 no_view)) with (view_step srv (watch srv es1 no_view) (Create s)).
  assert (K : forall v, In n (o_nodes (v_graph (watch srv es2 v))) -> In n (o_nodes (v_graph v)) \/ exists s', In s' (arrived srv es2 v) /\ In n (o_nodes (srv s'))).
  { induction es2 as [|e es2 IH]; intros v H; [left; exact H|].
    destruct (IH (view_step srv v e) H) as [H'|(s' & I & J)]; [|right; exists s'; split; [cbn [arrived]; apply in_or_app; right; exact I|exact J]].
    destruct e as [s'|k|k]; cbn [view_step] in H'.
    - destruct (complete s'); [destruct H'|left; exact H'].
    - cbn [arrived]. destruct (nth_error (v_pending v) k) as [s'|]; [|left; exact H']. cbn [v_graph] in H'.
      apply import_sub in H' as [H'|H']; [left; exact H'|]. right. exists s'. split; [left; reflexivity|exact H'].
    - left. exact H'. }
  intros H. apply K in H as [H|H]; [|exact H]. cbn [view_step] in H. rewrite C in H. destruct H.
Qed.
Print Assumptions C120_origin.
(* FINDING.  The settings are changed while a request is under way.  Its answer and the next one
   go into the same graph: both are shown together, or, if they have a node in common that comes
   first in the second one, only the outdated one. *)
Theorem C120_overlap_refuted srv s1 s2 : filled_in s1 -> filled_in s2 -> simple (srv s1) -> simple (srv s2) ->
  let v := watch srv [Create s1; Create s2; Arrive 0; Arrive 0] no_view in
  v_pending v = [] /\
  ((forall n, In n (o_nodes (srv s2)) -> ~ In n (o_nodes (srv s1))) ->
    v_graph v = mko (o_nodes (srv s1) ++ o_nodes (srv s2)) (o_edges (srv s1) ++ o_edges (srv s2))) /\
  ((exists n l, o_nodes (srv s2) = n :: l /\ In n (o_nodes (srv s1))) -> v_graph v = srv s1).
Proof.
  intros C1 C2 S1 S2 v. apply complete_iff in C1, C2. unfold v, watch. cbn [fold_left]. cbn [view_step no_view v_graph v_pending]. rewrite C1. cbn [v_graph v_pending]. rewrite C2. cbn [v_graph v_pending app nth_error remove_nth].
  rewrite (import_ok empty_graph (srv s1) S1); [|intros n _ []|intros a b []]. cbn [fst o_nodes o_edges empty_graph app].
  split; [reflexivity|]. split.
  - intros D. rewrite import_ok; [reflexivity|exact S2|exact D|]. intros a b I. destruct S1 as (_ & _ & T). exact (proj1 (T a b I)).
  - intros (n & l & E & I). unfold import. rewrite E. cbn [import_nodes]. destruct (srv s1) as [ns es]. cbn [o_nodes o_edges] in *.
    replace (has_node (mko ns es) n) with true by (symmetry; apply has_node_iff; exact I). reflexivity.
Qed.
Print Assumptions C120_overlap_refuted.
(* FINDING.  With the settings incomplete the graph of the earlier ones stays. *)
Theorem C120_stale_refuted srv s s' : filled_in s -> ~ filled_in s' -> simple (srv s) ->
  v_graph (watch srv [Create s; Arrive 0; Create s'] no_view) = srv s.
Proof.
  intros C C' S. apply complete_iff in C. apply complete_not in C'. unfold watch. cbn [fold_left]. cbn [view_step no_view v_graph v_pending]. rewrite C, C'. cbn [v_graph v_pending app nth_error].
  rewrite import_ok; [cbn [fst o_nodes o_edges empty_graph app]; destruct (srv s); reflexivity|exact S|intros n _ []|intros a b []].
Qed.
Print Assumptions C120_stale_refuted.
Example ex_C120 : let s := mkset (t_ "i") (t_ "t") (Some (0, 9)%Z) [] in
  let srv := fun x : settings => mko [1; 2; 3] [(1, 2); (1, 3)] in
  filled_in s /\ simple (srv s) /\
  v_graph (watch srv [Create s; Arrive 0; Create s; Arrive 1; Arrive 0] no_view) = srv s /\ v_pending (watch srv [Create s; Arrive 0] no_view) = [].
Proof.
  cbn zeta. split; [repeat split; discriminate|]. split; [|split; reflexivity]. split; [|split]; cbn [o_nodes o_edges].
  - repeat constructor; cbn; lia.
  - repeat constructor; cbn; intros H; repeat destruct H as [H|H]; try discriminate; try exact H.
  - intros a b [[= <- <-]|[[= <- <-]|[]]]; cbn; auto.
Qed.
