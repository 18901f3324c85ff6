(* Numbers in texts: parse_fp and stoul against their specification. *)
From Coq Require Import Ascii.
From Verif Require Import Base TextModel TextProofs PhysModel KssModel KssDates StockModel StockSpec.
Local Open Scope Q_scope.

Definition digits (l : text) : Prop := Forall (fun c => is_digit c = true) l.
Definition no_digit (b : text) : Prop := match b with [] => True | c :: _ => is_digit c = false end.
Lemma is_digit_not c d : is_digit c = true -> is_digit d = false -> Ascii.eqb c d = false.
Proof. intros H K. destruct (Ascii.eqb_spec c d) as [->|]; congruence. Qed.

Lemma numeral_iff l m : numeral l m <-> l <> [] /\ digits l /\ digits_val l = m.
Proof.
  split; [apply numeral_digits|]. intros (A & B & <-). apply digits_numeral; auto.
Qed.

Lemma exp_nodigit ex e : exponent ex e -> no_digit ex.
Proof. intros [(-> & _)|(c & n & [-> | ->] & [(-> & _)|[(-> & _)|(-> & _)]])]; exact I || reflexivity. Qed.

Lemma fp_exponent_of ex e : exponent ex e -> fp_exponent ex = (e, []).
Proof.
  intros [(-> & ->)|(c & n & C & D)]; [reflexivity|].
  assert (T : forall n, numeral n e -> take_digits n = (n, [])).
  { intros n' N. apply numeral_iff in N. destruct N as (_ & N & _).
    rewrite <- (app_nil_r n') at 1. apply take_digits_all; [exact N|exact I]. }
  assert (IE : is_exp c = true) by (destruct C as [-> | ->]; reflexivity).
  destruct D as [(-> & N)|[(-> & N)|(-> & N)]]; unfold fp_exponent; rewrite IE.
  - pose proof (proj1 (numeral_iff _ _) N) as (NE & Dg & V). destruct n as [|d n]; [congruence|].
    pose proof (Forall_inv Dg) as Hd. cbn beta in Hd.
    rewrite (is_digit_not d "-"%char Hd eq_refl), (is_digit_not d "+"%char Hd eq_refl), (T _ N), V. reflexivity.
  - pose proof (proj1 (numeral_iff _ _) N) as (NE & Dg & V).
    change (Ascii.eqb "+" "-") with false. cbv iota. change (Ascii.eqb "+" "+") with true. cbv iota.
    rewrite (T _ N), V. destruct n as [|d n]; [congruence|]. reflexivity.
  - change (Ascii.eqb "-" "-") with true. cbv iota.
    pose proof (proj1 (numeral_iff _ _) N) as (NE & Dg & V).
    assert (T' : take_digits n = (n, [])).
    { rewrite <- (app_nil_r n) at 1. apply take_digits_all; [exact Dg|exact I]. }
    rewrite T', V. destruct n as [|d n]; [congruence|]. rewrite Z.opp_involutive. reflexivity.
Qed.
Lemma is_exp_iff c : is_exp c = true <-> c = "e"%char \/ c = "E"%char.
Proof.
  unfold is_exp. rewrite orb_true_iff, !Ascii.eqb_eq. tauto.
Qed.
Lemma fp_exponent_ok r e : fp_exponent r = (e, []) -> exponent r e.
Proof.
  unfold fp_exponent. destruct r as [|c t]; [intros [= <-]; left; auto|].
  destruct (is_exp c) eqn:IE; [|discriminate]. apply is_exp_iff in IE.
  assert (K : forall (neg : bool) t', (let '(ds, rest) := take_digits t' in
      match ds with [] => (0%Z, c :: t) | _ => ((if neg then - digits_val ds else digits_val ds)%Z, rest) end) = (e, []) ->
      if (neg : bool) then numeral t' (- e) else numeral t' e).
  { intros neg t' H. destruct (take_digits t') as [ds rest] eqn:T.
    destruct ds as [|d ds]; [discriminate|]. injection H as H1 H2. subst rest.
    destruct (take_digits_eq _ _ _ T) as (-> & D & _). rewrite app_nil_r.
    assert (NN : numeral (d :: ds) (digits_val (d :: ds))) by (apply digits_numeral; [discriminate|exact D]).
    destruct neg; subst e; [rewrite Z.opp_involutive|]; exact NN. }
  intros H. right. destruct t as [|d t'].
  - specialize (K false [] H). cbv iota in K. apply numeral_iff in K. destruct K as (K & _). congruence.
  - destruct (Ascii.eqb_spec d "-"%char) as [->|].
    + specialize (K true t' H). exists c, t'. split; [exact IE|]. right; right. auto.
    + destruct (Ascii.eqb_spec d "+"%char) as [->|].
      * specialize (K false t' H). exists c, t'. split; [exact IE|]. right; left. auto.
      * specialize (K false (d :: t') H). exists c, (d :: t'). split; [exact IE|]. left. auto.
Qed.

(* the part after the sign *)
Definition fp_body (r : text) : option (Q * text) :=
  let '(i, r) := take_digits r in
  let '(f, r) := match r with
                 | c :: t => if Ascii.eqb c "."%char then take_digits t else ([], r)
                 | [] => ([], r)
                 end in
  match (i ++ f)%list with
  | [] => None
  | ds => let '(e, r) := fp_exponent r in
          Some (inject_Z (digits_val ds) * Qpower 10 (e - Z.of_nat (List.length f))%Z, r)
  end.
Lemma from_chars_body s : from_chars_fp s =
  match s with
  | c :: t => if Ascii.eqb c "-"%char then match fp_body t with Some (v, r) => Some (- v, r) | None => None end
              else fp_body s
  | [] => fp_body s
  end.
Proof.
  unfold from_chars_fp, fp_body.
  assert (K : forall (neg : bool) r, (let '(i, r0) := take_digits r in
    let '(f, r1) := match r0 with
                 | c :: t => if Ascii.eqb c "."%char then take_digits t else ([], r0)
                 | [] => ([], r0)
                 end in
    match (i ++ f)%list with
    | [] => None
    | ds => let '(e, r) := fp_exponent r1 in
          Some ((if neg then - (inject_Z (digits_val ds) * Qpower 10 (e - Z.of_nat (List.length f))%Z)
                 else inject_Z (digits_val ds) * Qpower 10 (e - Z.of_nat (List.length f))%Z), r)
    end) = match fp_body r with Some (v, r) => Some ((if neg then - v else v), r) | None => None end).
  { intros neg r. unfold fp_body. destruct (take_digits r) as [i r0].
    destruct (match r0 with c :: t => if Ascii.eqb c "."%char then take_digits t else ([], r0) | [] => ([], r0) end) as [f r1].
    destruct (i ++ f)%list; [reflexivity|]. destruct (fp_exponent r1). reflexivity. }
  destruct s as [|c t].
  - reflexivity.
  - destruct (Ascii.eqb c "-"%char).
    + exact (K true t).
    + transitivity (match fp_body (c :: t) with Some (v, r) => Some (v, r) | None => None end);
        [exact (K false (c :: t))|]. fold (fp_body (c :: t)). destruct (fp_body (c :: t)) as [[]|]; reflexivity.
Qed.

(* the unsigned number r has the value v *)
Definition fp_unsigned (r : text) (v : Q) : Prop :=
  exists whole point fraction ex m e,
    r = (whole ++ point ++ fraction ++ ex)%list /\ numeral (whole ++ fraction) m /\
    (point = [] /\ fraction = [] \/ point = ["."%char]) /\ exponent ex e /\
    v = inject_Z m * 10 ^ (e - Z.of_nat (length fraction)).
Lemma fp_body_iff r v : fp_body r = Some (v, []) <-> fp_unsigned r v.
Proof.
  split.
  - unfold fp_body. destruct (take_digits r) as [i r0] eqn:Ti.
    destruct (take_digits_eq _ _ _ Ti) as (-> & Di & Ni).
    assert (C : exists point f r1, r0 = (point ++ f ++ r1)%list /\ digits f /\
              (point = [] /\ f = [] \/ point = ["."%char]) /\
              match r0 with c :: t => if Ascii.eqb c "."%char then take_digits t else ([], r0) | [] => ([], r0) end = (f, r1)).
    { destruct r0 as [|c t]; [exists [], [], []; split; [reflexivity|split; [constructor|split; auto]]|].
      destruct (Ascii.eqb_spec c "."%char) as [->|].
      - destruct (take_digits t) as [f r1] eqn:Tf. destruct (take_digits_eq _ _ _ Tf) as (-> & Df & _).
        exists ["."%char], f, r1. auto.
      - exists [], [], (c :: t). split; [reflexivity|]. split; [constructor|]. auto. }
    destruct C as (point & f & r1 & E & Df & P & ->). 
    destruct (i ++ f)%list as [|d ds] eqn:Eif; [discriminate|].
    destruct (fp_exponent r1) as [e r2] eqn:Ex. intros [= <- ->]. apply fp_exponent_ok in Ex.
    exists i, point, f, r1, (digits_val (d :: ds)), e. subst r0.
    split; [rewrite ?app_assoc; reflexivity|]. split; [|auto].
    rewrite Eif. apply digits_numeral; [discriminate|]. rewrite <- Eif. apply Forall_app. auto.
  - intros (w & p & f & ex & m & e & -> & N & P & E & ->).
    apply numeral_iff in N. destruct N as (NE & D & V). apply Forall_app in D. destruct D as (Dw & Df).
    unfold fp_body. destruct P as [(-> & ->)| ->].
    + cbn [app]. rewrite take_digits_all by (auto; exact (exp_nodigit _ _ E)).
      assert (ND : match ex with c :: t => if Ascii.eqb c "."%char then take_digits t else ([], ex) | [] => ([], ex) end = (@nil ascii, ex)).
      { destruct E as [(-> & _)|(c & n & C & X)]; [reflexivity|].
        assert (H : exists t, ex = c :: t) by (destruct X as [(-> & _)|[(-> & _)|(-> & _)]]; eauto).
        destruct H as (t & ->). destruct C as [-> | ->]; reflexivity. }
      rewrite ND. rewrite app_nil_r in *. destruct w as [|d w]; [congruence|].
      rewrite (fp_exponent_of _ _ E), V. reflexivity.
    + change (w ++ ["."%char] ++ f ++ ex)%list with (w ++ "."%char :: (f ++ ex))%list.
      rewrite take_digits_all by (auto; reflexivity).
      change (Ascii.eqb "." ".") with true. cbv iota.
      rewrite take_digits_all by (auto; exact (exp_nodigit _ _ E)).
      destruct (w ++ f)%list as [|d ds] eqn:Ewf; [congruence|].
      rewrite (fp_exponent_of _ _ E), V. reflexivity.
Qed.
Lemma unsigned_head r v : fp_unsigned r v -> match r with c :: _ => Ascii.eqb c "-"%char = false | [] => False end.
Proof.
  intros (w & p & f & ex & m & e & -> & N & P & E & ->).
  apply numeral_iff in N. destruct N as (NE & D & V). apply Forall_app in D. destruct D as (Dw & Df).
  destruct w as [|d w].
  - destruct P as [(-> & ->)| ->]; [cbn in NE; congruence|]. reflexivity.
  - cbn [app]. apply is_digit_not; [exact (Forall_inv Dw)|reflexivity].
Qed.

Lemma detail_iff s v : (exists v', detail_parse_fp s = Ok v' /\ v' == v) <-> fp_text false s v.
Proof.
  assert (R : forall v', detail_parse_fp s = Ok v' <-> from_chars_fp s = Some (v', [])).
  { intros v'. unfold detail_parse_fp. destruct (from_chars_fp s) as [[q r]|]; [|split; discriminate].
    destruct r; cbn [sassert bind]; split; try discriminate; intros [= ->]; reflexivity. }
  split.
  - intros (v' & H & E). apply R in H. rewrite from_chars_body in H.
    assert (K : fp_unsigned s v' -> fp_text false s v).
    { intros (w & p & f & ex & m & e & A & B & C & D & F). exists [], w, p, f, ex, m, e. cbn [app].
      split; [exact A|]. split; [exact B|]. split; [tauto|]. split; [exact D|]. left. split; [reflexivity|].
      subst v'. symmetry. exact E. }
    destruct s as [|c t]; [apply K; apply fp_body_iff; exact H|].
    destruct (Ascii.eqb_spec c "-"%char) as [->|]; [|apply K; apply fp_body_iff; exact H].
    destruct (fp_body t) as [[q r]|] eqn:B; [|discriminate]. injection H as Hq ->.
    apply fp_body_iff in B. destruct B as (w & p & f & ex & m & e & A & B & C & D & F).
    exists ["-"%char], w, p, f, ex, m, e. split; [cbn [app]; rewrite A; reflexivity|]. split; [exact B|].
    split; [tauto|]. split; [exact D|]. right. split; [reflexivity|]. rewrite <- F, Hq. symmetry. exact E.
  - intros (sg & w & p & f & ex & m & e & -> & B & C & D & F).
    assert (U : fp_unsigned (w ++ p ++ f ++ ex)%list (inject_Z m * 10 ^ (e - Z.of_nat (length f)))).
    { exists w, p, f, ex, m, e. split; [reflexivity|]. split; [exact B|]. split; [|auto].
      destruct C as [C|[C|(C & _)]]; [auto..|discriminate]. }
    destruct F as [(-> & F)|(-> & F)].
    + exists (inject_Z m * 10 ^ (e - Z.of_nat (length f))). split; [|symmetry; exact F].
      apply R. rewrite from_chars_body. cbn [app]. pose proof (unsigned_head _ _ U) as Hd.
      destruct (w ++ p ++ f ++ ex)%list as [|c t]; [contradiction|]. rewrite Hd. apply fp_body_iff. exact U.
    + exists (- (inject_Z m * 10 ^ (e - Z.of_nat (length f)))). split; [|symmetry; exact F].
      apply R. rewrite from_chars_body. cbn [app]. change (Ascii.eqb "-" "-") with true. cbv iota.
      apply fp_body_iff in U. rewrite U. reflexivity.
Qed.

Lemma parse_fp_total comma s : (exists v, parse_fp comma s = Ok v) \/ parse_fp comma s = Throw.
Proof.
  assert (K : forall s, (exists v, detail_parse_fp s = Ok v) \/ detail_parse_fp s = Throw).
  { intros s0. unfold detail_parse_fp. destruct (from_chars_fp s0) as [[q [|c r]]|]; cbn [sassert bind]; eauto. }
  unfold parse_fp. destruct comma; [apply K|]. destruct (negb (contains_char s ",")); cbn [sassert bind]; auto.
Qed.

Definition dot (c : ascii) : ascii := if Ascii.eqb c ","%char then "."%char else c.
Lemma dot_id l : (forall c, In c l -> Ascii.eqb c ","%char = false) -> map dot l = l.
Proof.
  induction l as [|c l IH]; intros H; [reflexivity|]. cbn [map]. unfold dot at 1.
  rewrite (H c) by (left; reflexivity). rewrite IH; [reflexivity|]. intros; apply H; now right.
Qed.
Lemma dot_inv l : forall k, map dot l = k -> (forall c, In c k -> Ascii.eqb c "."%char = false) -> l = k.
Proof.
  induction l as [|c l IH]; intros k E H; destruct k as [|d k]; try discriminate; [reflexivity|].
  cbn [map] in E. injection E as E1 E2. f_equal.
  - unfold dot in E1. destruct (Ascii.eqb c ","); [|exact E1]. subst d. specialize (H _ (or_introl eq_refl)). discriminate.
  - apply IH; [exact E2|]. intros; apply H; now right.
Qed.
Lemma digits_no l d : digits l -> is_digit d = false -> forall c, In c l -> Ascii.eqb c d = false.
Proof. intros D N c H. apply is_digit_not; [|exact N]. exact (proj1 (Forall_forall _ _) D c H). Qed.
Lemma exponent_no ex e d : exponent ex e -> is_digit d = false -> d <> "e"%char -> d <> "E"%char -> d <> "+"%char -> d <> "-"%char ->
  forall c, In c ex -> Ascii.eqb c d = false.
Proof.
  intros E N N1 N2 N3 N4 c H. destruct (Ascii.eqb_spec c d) as [->|]; [exfalso|reflexivity].
  destruct E as [(-> & _)|(x & n & C & X)]; [contradiction|].
  assert (K : forall n z, numeral n z -> ~ In d n).
  { intros n' z Nu I. apply numeral_iff in Nu. destruct Nu as (_ & D & _).
    pose proof (proj1 (Forall_forall _ _) D d I) as Q. cbn beta in Q. congruence. }
  destruct X as [(-> & Nu)|[(-> & Nu)|(-> & Nu)]]; specialize (K _ _ Nu); cbn [In] in H;
    repeat (destruct H as [H|H]); try contradiction; subst; destruct C; subst; congruence.
Qed.

Lemma numeral_split w f m : numeral (w ++ f) m -> digits w /\ digits f.
Proof. intros N. apply numeral_iff in N. destruct N as (_ & D & _). apply Forall_app in D. exact D. Qed.

Lemma fp_text_no_comma s v : fp_text false s v -> forall c, In c s -> Ascii.eqb c ","%char = false.
Proof.
  intros (sg & w & p & f & ex & m & e & -> & N & C & E & F) c H.
  apply numeral_split in N. destruct N as (Dw & Df).
  apply in_app_or in H. destruct H as [H|H].
  - destruct F as [(-> & _)|(-> & _)]; [contradiction|]. destruct H as [<-|[]]. reflexivity.
  - apply in_app_or in H. destruct H as [H|H]; [exact (digits_no _ ","%char Dw eq_refl _ H)|].
    apply in_app_or in H. destruct H as [H|H].
    + destruct C as [(-> & _)|[-> |(K & _)]]; [contradiction| |discriminate]. destruct H as [<-|[]]. reflexivity.
    + apply in_app_or in H. destruct H as [H|H]; [exact (digits_no _ ","%char Df eq_refl _ H)|].
      apply (exponent_no _ _ _ E); try discriminate; [reflexivity|exact H].
Qed.

Lemma fp_text_dot s v : fp_text true s v <-> fp_text false (map dot s) v.
Proof.
  split.
  - intros (sg & w & p & f & ex & m & e & -> & N & C & E & F).
    pose proof (numeral_split _ _ _ N) as (Dw & Df).
    exists sg, w, (map dot p), f, ex, m, e. rewrite !map_app.
    assert (Esg : map dot sg = sg) by (destruct F as [(-> & _)|(-> & _)]; reflexivity).
    rewrite Esg, (dot_id w (digits_no _ ","%char Dw eq_refl)), (dot_id f (digits_no _ ","%char Df eq_refl)).
    rewrite (dot_id ex) by (intros c; apply (exponent_no _ _ _ E); try discriminate; reflexivity).
    split; [reflexivity|]. split; [exact N|]. split; [|auto].
    destruct C as [(-> & ->)|[-> |(_ & ->)]]; [left; auto|right; left; reflexivity|right; left; reflexivity].
  - intros (sg & w & p & f & ex & m & e & H & N & C & E & F).
    pose proof (numeral_split _ _ _ N) as (Dw & Df).
    apply map_eq_app in H. destruct H as (s1 & r & -> & H1 & H).
    apply map_eq_app in H. destruct H as (w' & r1 & -> & H2 & H).
    apply map_eq_app in H. destruct H as (p' & r2 & -> & H3 & H).
    apply map_eq_app in H. destruct H as (f' & ex' & -> & H4 & H5).
    assert (s1 = sg).
    { apply (dot_inv s1 sg H1). destruct F as [(-> & _)|(-> & _)]; intros c I; [contradiction|destruct I as [<-|[]]; reflexivity]. }
    assert (w' = w) by (apply dot_inv; [exact H2|apply digits_no; [exact Dw|reflexivity]]).
    assert (f' = f) by (apply dot_inv; [exact H4|apply digits_no; [exact Df|reflexivity]]).
    assert (ex' = ex) by (apply dot_inv; [exact H5|intros c; apply (exponent_no _ _ _ E); try discriminate; reflexivity]).
    subst s1 w' f' ex'. exists sg, w, p', f, ex, m, e.
    split; [reflexivity|]. split; [exact N|]. split; [|auto].
    destruct C as [(-> & ->)|[-> |(K & _)]]; [| |discriminate].
    + left. destruct p'; [auto|discriminate].
    + right. destruct p' as [|c [|]]; try discriminate. injection H3 as H3. unfold dot in H3.
      destruct (Ascii.eqb c ","%char) eqn:X; [|left; congruence].
      apply Ascii.eqb_eq in X. subst c. right. auto.
Qed.

Theorem parse_fp_iff comma s v : (exists v', parse_fp comma s = Ok v' /\ v' == v) <-> fp_text comma s v.
Proof.
  unfold parse_fp. destruct comma.
  - rewrite fp_text_dot. apply detail_iff.
  - rewrite <- detail_iff. split.
    + intros (v' & H & E). destruct (negb (contains_char s ",")); [|discriminate]. exists v'. auto.
    + intros (v' & H & E). exists v'. split; [|exact E].
      assert (F : fp_text false s v) by (apply detail_iff; eauto).
      assert (K : contains_char s "," = false).
      { unfold contains_char. destruct (existsb (fun d => Ascii.eqb d ",") s) eqn:X; [|reflexivity].
        apply existsb_exists in X. destruct X as (c & I & X). rewrite (fp_text_no_comma _ _ F c I) in X. discriminate. }
      rewrite K. exact H.
Qed.
Lemma parse_fp_reads comma s v : parse_fp comma s = Ok v -> fp_text comma s v.
Proof. intros H. apply parse_fp_iff. exists v. split; [exact H|reflexivity]. Qed.
Lemma fp_text_eq comma s v w : fp_text comma s v -> v == w -> fp_text comma s w.
Proof. intros H E. apply parse_fp_iff in H. destruct H as (v' & H & E'). apply parse_fp_iff. exists v'. split; [exact H|]. rewrite E'. exact E. Qed.
Lemma fp_text_det comma s v w : fp_text comma s v -> fp_text comma s w -> v == w.
Proof.
  intros H K. apply parse_fp_iff in H. apply parse_fp_iff in K. destruct H as (v' & H & E). destruct K as (w' & K & E').
  rewrite H in K. injection K as <-. rewrite <- E. exact E'.
Qed.

(* ---- stoul ---- *)
Lemma blank_iff c : is_space c = true <-> blank c.
Proof.
  unfold is_space, blank. cbn [In]. generalize (N_of_ascii c). intros n. split.
  - intros H. apply orb_true_iff in H. destruct H as [H|H].
    + apply N.eqb_eq in H. lia.
    + apply andb_true_iff in H. destruct H as (A & B). apply N.leb_le in A. apply N.leb_le in B. lia.
  - intros H. lia.
Qed.
Lemma skip_space_eq s : exists sp, s = (sp ++ skip_space s)%list /\ (forall c, In c sp -> blank c) /\
  match skip_space s with [] => True | c :: _ => is_space c = false end.
Proof.
  induction s as [|c s IH]; [exists []; cbn; intuition|]. cbn [skip_space]. destruct (is_space c) eqn:E.
  - destruct IH as (sp & A & B & C). exists (c :: sp). split; [cbn [app]; rewrite <- A; reflexivity|]. split; [|exact C].
    intros d [<-|H]; [apply blank_iff; exact E|apply B; exact H].
  - exists []. cbn [app]. split; [reflexivity|]. split; [intros d []|exact E].
Qed.
Lemma skip_space_app sp s : (forall c, In c sp -> blank c) ->
  match s with [] => True | c :: _ => is_space c = false end -> skip_space (sp ++ s) = s.
Proof.
  intros B H. induction sp as [|c sp IH]; cbn [app].
  - destruct s as [|d s]; [reflexivity|]. cbn [skip_space]. rewrite H. reflexivity.
  - cbn [skip_space]. rewrite (proj2 (blank_iff c)) by (apply B; left; reflexivity). apply IH. intros; apply B; now right.
Qed.
Lemma not_digit_iff rest : no_digit rest <-> forall c r k, rest = c :: r -> ~ digit c k.
Proof.
  split.
  - intros H c r k -> D. apply digit_is in D. cbn in H. destruct D. congruence.
  - intros H. destruct rest as [|c r]; [exact I|]. cbn. destruct (is_digit c) eqn:E; [|reflexivity].
    exfalso. exact (H c r _ eq_refl (is_digit_digit c E)).
Qed.
Lemma digit_not_space c : is_digit c = true -> is_space c = false.
Proof. unfold is_digit, is_space. intros H. lia. Qed.

(* what stoul and the conversion to 32 bits give *)
Definition id_text (s : text) (id : N) : Prop :=
  exists space sign n rest m,
    s = (space ++ sign ++ n ++ rest)%list /\
    (forall c, In c space -> blank c) /\
    numeral n m /\ (m < 2 ^ 64)%Z /\
    (forall c r k, rest = c :: r -> ~ digit c k) /\
    ((sign = [] \/ sign = ["+"%char]) /\ Z.of_N id = (m mod 2 ^ 32)%Z \/
     sign = ["-"%char] /\ Z.of_N id = ((- m) mod 2 ^ 32)%Z).

Lemma neg_wrap m : (0 <= m < 2 ^ 64)%Z ->
  Z.of_N (w32 ((M64 - Z.to_N m) mod M64)) = ((- m) mod 2 ^ 32)%Z.
Proof.
  intros H. unfold w32. rewrite !N2Z.inj_mod. change (Z.of_N M64) with (2 ^ 64)%Z. change (Z.of_N M32) with (2 ^ 32)%Z.
  rewrite N2Z.inj_sub by (unfold M64; lia). rewrite Z2N.id by lia. change (Z.of_N M64) with (2 ^ 64)%Z.
  rewrite <- Znumtheory.Zmod_div_mod; [|lia|lia|exists (2 ^ 32)%Z; reflexivity].
  replace (2 ^ 64 - m)%Z with (- m + 2 ^ 32 * 2 ^ 32)%Z by lia. apply Z_mod_plus_full.
Qed.
Lemma stoul_body (neg : bool) r id :
  (do v <- (let '(ds, _) := take_digits r in
   match ds with [] => Throw
   | _ => let v := Z.to_N (digits_val ds) in
         if (v <? M64)%N then Ok (if (neg : bool) then ((M64 - v) mod M64)%N else v) else Throw end); Ok (w32 v)) = Ok id <->
  exists n rest m, r = (n ++ rest)%list /\ numeral n m /\ (m < 2 ^ 64)%Z /\
    (forall c r k, rest = c :: r -> ~ digit c k) /\
    Z.of_N id = ((if neg then - m else m) mod 2 ^ 32)%Z.
Proof.
  destruct (take_digits r) as [ds rest] eqn:T. destruct (take_digits_eq _ _ _ T) as (-> & D & ND).
  assert (NN := digits_val_nonneg ds D).
  assert (V : forall b, (0 <= digits_val ds < 2 ^ 64)%Z ->
     Z.of_N (w32 (if (b : bool) then ((M64 - Z.to_N (digits_val ds)) mod M64)%N else Z.to_N (digits_val ds))) =
     ((if b then - digits_val ds else digits_val ds) mod 2 ^ 32)%Z).
  { intros [] H; [apply neg_wrap; exact H|]. unfold w32. rewrite N2Z.inj_mod, Z2N.id by lia. reflexivity. }
  split.
  - destruct ds as [|d ds]; [discriminate|]. cbv zeta.
    destruct (N.ltb_spec (Z.to_N (digits_val (d :: ds))) M64) as [L|]; [|discriminate].
    assert (L' : (digits_val (d :: ds) < 2 ^ 64)%Z) by (unfold M64 in L; lia).
    cbn [bind]. intros [= <-]. exists (d :: ds), rest, (digits_val (d :: ds)). split; [reflexivity|].
    split; [apply digits_numeral; [discriminate|exact D]|]. split; [exact L'|]. split; [apply not_digit_iff; exact ND|].
    apply (V neg). lia.
  - intros (n & rest' & m & E & N & L & ND' & Eid).
    pose proof (proj1 (numeral_iff _ _) N) as (NE & Dn & Vn).
    assert (T' : take_digits (ds ++ rest) = (n, rest')).
    { rewrite E. apply take_digits_all; [exact Dn|]. apply not_digit_iff in ND'. exact ND'. }
    rewrite take_digits_all in T' by auto. injection T' as -> ->. subst m.
    destruct n as [|d n]; [congruence|]. cbv zeta.
    assert (L' : (Z.to_N (digits_val (d :: n)) <? M64)%N = true) by (apply N.ltb_lt; unfold M64; lia).
    rewrite L'. cbn [bind]. f_equal. apply N2Z.inj. rewrite Eid. apply (V neg). lia.
Qed.
Lemma stoul_iff s id : (do v <- stoul s; Ok (w32 v)) = Ok id <-> id_text s id.
Proof.
  unfold stoul. destruct (skip_space_eq s) as (sp & E & B & H).
  assert (U : forall (neg : bool) r rest', (exists n rest m, r = (n ++ rest)%list /\ numeral n m /\ (m < 2 ^ 64)%Z /\
    (forall c r k, rest = c :: r -> ~ digit c k) /\ Z.of_N id = ((if (neg : bool) then - m else m) mod 2 ^ 32)%Z) ->
    s = (sp ++ rest' ++ r)%list -> (if neg then rest' = ["-"%char] else rest' = [] \/ rest' = ["+"%char]) -> id_text s id).
  { intros neg r sg (n & rest & m & Er & N & L & ND & Eid) Es Sg. exists sp, sg, n, rest, m.
    split; [rewrite Es, Er; reflexivity|]. split; [exact B|]. split; [exact N|]. split; [exact L|]. split; [exact ND|].
    destruct neg; auto. }
  split.
  - destruct (skip_space s) as [|c t] eqn:Es; [discriminate|].
    destruct (Ascii.eqb_spec c "-"%char) as [->|N1].
    + intros X. apply (stoul_body true t) in X. exact (U true _ ["-"%char] X E eq_refl).
    + destruct (Ascii.eqb_spec c "+"%char) as [->|N2].
      * intros X. apply (stoul_body false t) in X. exact (U false _ ["+"%char] X E (or_intror eq_refl)).
      * intros X. apply (stoul_body false (c :: t)) in X. exact (U false _ [] X E (or_introl eq_refl)).
  - intros (sp' & sg & n & rest & m & Es & B' & N & L & ND & Eid).
    pose proof (proj1 (numeral_iff _ _) N) as (NE & Dn & Vn). destruct n as [|d n]; [congruence|].
    pose proof (Forall_inv Dn) as Hd. cbn beta in Hd.
    assert (K : skip_space s = (sg ++ (d :: n) ++ rest)%list).
    { rewrite Es. apply skip_space_app; [exact B'|].
      destruct Eid as [([-> | ->] & _)|(-> & _)]; cbn [app]; [apply digit_not_space; exact Hd|reflexivity|reflexivity]. }
    rewrite K.
    destruct Eid as [([-> | ->] & Eid)|(-> & Eid)]; cbn [app].
    + rewrite (is_digit_not d "-"%char Hd eq_refl), (is_digit_not d "+"%char Hd eq_refl).
      apply (stoul_body false (d :: n ++ rest)). exists (d :: n), rest, m. auto.
    + apply (stoul_body false (d :: n ++ rest)). exists (d :: n), rest, m. auto.
    + apply (stoul_body true (d :: n ++ rest)). exists (d :: n), rest, m. auto.
Qed.
Lemma stoul_total s : (exists v, stoul s = Ok v) \/ stoul s = Throw.
Proof.
  unfold stoul. cbv zeta.
  set (p := match skip_space s with [] => _ | _ => _ end). destruct p as [neg r].
  destruct (take_digits r) as [ds rest]. destruct ds; [right; reflexivity|].
  match goal with |- context [N.ltb ?a ?b] => destruct (N.ltb a b) end; eauto.
Qed.
Lemma numbered_iff x id : numbered x id <-> (do v <- stoul (xv_id x); Ok (w32 v)) = Ok id.
Proof. rewrite stoul_iff. reflexivity. Qed.
