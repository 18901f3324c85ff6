(* Proofs about TextModel.v. *)
From Verif Require Import Base TextModel.
From Coq Require Import Ascii String Decimal DecimalString DecimalFacts DecimalPos DecimalN DecimalZ.
From Coq Require Import List ZifyBool ZifyNat ZifyN.
Open Scope Z_scope.

(* ---- numerals ---- *)

(* value of a sequence of digits read after the value acc *)
Fixpoint uval (acc : N) (d : uint) : N :=
  match d with
  | Nil => acc
  | D0 d => uval (10 * acc) d
  | D1 d => uval (10 * acc + 1) d
  | D2 d => uval (10 * acc + 2) d
  | D3 d => uval (10 * acc + 3) d
  | D4 d => uval (10 * acc + 4) d
  | D5 d => uval (10 * acc + 5) d
  | D6 d => uval (10 * acc + 6) d
  | D7 d => uval (10 * acc + 7) d
  | D8 d => uval (10 * acc + 8) d
  | D9 d => uval (10 * acc + 9) d
  end.

Lemma of_uint_acc_uval d : forall p, N.pos (Pos.of_uint_acc d p) = uval (N.pos p) d.
Proof.
  induction d; intros p; cbn [Pos.of_uint_acc uval]; try reflexivity;
    rewrite IHd; f_equal; lia.
Qed.

Lemma of_uint_uval d : N.of_uint d = uval 0 d.
Proof.
  unfold N.of_uint. induction d; cbn [Pos.of_uint uval]; try reflexivity;
    try (rewrite of_uint_acc_uval; reflexivity). exact IHd.
Qed.

Lemma is_digit_cases c : is_digit c = true ->
  c = "0"%char \/ c = "1"%char \/ c = "2"%char \/ c = "3"%char \/ c = "4"%char \/
  c = "5"%char \/ c = "6"%char \/ c = "7"%char \/ c = "8"%char \/ c = "9"%char.
Proof.
  destruct c as [[] [] [] [] [] [] [] []]; vm_compute; intros H; try discriminate H; tauto.
Qed.

Lemma uint_of_char_None c d : is_digit c = false -> uint_of_char c (Some d) = None.
Proof.
  destruct c as [[] [] [] [] [] [] [] []]; vm_compute; intros H; try discriminate H; reflexivity.
Qed.

Lemma uint_of_char_none c : uint_of_char c None = None.
Proof. reflexivity. Qed.

Definition of_list := string_of_list_ascii.

Lemma fold_digits ds : forall acc,
  fold_left (fun a c => 10 * a + digit_val c) ds acc =
  fold_left (fun a c => 10 * a + digit_val c) ds 0 + acc * 10 ^ Z.of_nat (List.length ds).
Proof.
  induction ds as [|c ds IH]; intros acc; cbn [fold_left List.length].
  - change (Z.of_nat 0) with 0. rewrite Z.pow_0_r. lia.
  - rewrite IH, (IH (10 * 0 + digit_val c)).
    rewrite Nat2Z.inj_succ, Z.pow_succ_r by lia. ring.
Qed.

(* reading a string of digits *)
Lemma uint_of_digits s : forall acc,
  match NilEmpty.uint_of_string (of_list s) with
  | Some d => take_digits s = (s, []) /\
              fold_left (fun a c => 10 * a + digit_val c) s (Z.of_N acc) = Z.of_N (uval acc d)
  | None => snd (take_digits s) <> []
  end.
Proof.
  induction s as [|c s IH]; intros acc.
  - cbn. split; reflexivity.
  - unfold of_list. cbn [string_of_list_ascii NilEmpty.uint_of_string]. fold (of_list s).
    cbn [take_digits]. destruct (is_digit c) eqn:D.
    + destruct (NilEmpty.uint_of_string (of_list s)) as [d|] eqn:E.
      * apply is_digit_cases in D.
        repeat (destruct D as [->|D]; [cbn [uint_of_char];
          destruct (IH (10 * acc + 0)%N) as [T _]; rewrite T; split; [reflexivity|];
          cbn [fold_left uval]; unfold digit_val at 2;
          match goal with |- fold_left _ _ ?a = Z.of_N (uval ?b _) =>
            destruct (IH b) as [_ V]; rewrite <- V; f_equal; vm_compute N_of_ascii; lia end|]).
        subst c. cbn [uint_of_char];
          destruct (IH (10 * acc + 0)%N) as [T _]; rewrite T; split; [reflexivity|];
          cbn [fold_left uval]; unfold digit_val at 2;
          match goal with |- fold_left _ _ ?a = Z.of_N (uval ?b _) =>
            destruct (IH b) as [_ V]; rewrite <- V; f_equal; vm_compute N_of_ascii; lia end.
      * rewrite uint_of_char_none. specialize (IH acc).
        destruct (take_digits s) as [ds r]. exact IH.
    + assert (N0 : uint_of_char c (NilEmpty.uint_of_string (of_list s)) = None).
      { destruct (NilEmpty.uint_of_string (of_list s)); [apply uint_of_char_None, D|reflexivity]. }
      rewrite N0. cbn. discriminate.
Qed.

Lemma Z_of_N_of_uint d : Z.of_N (uval 0 d) = Z.of_uint d.
Proof. rewrite <- of_uint_uval. reflexivity. Qed.

(* what NilZero.uint_of_string says about from_chars' digit run *)
Lemma nilzero_uint s :
  match NilZero.uint_of_string (of_list s) with
  | Some d => take_digits s = (s, []) /\ s <> [] /\ digits_val s = Z.of_uint d
  | None => fst (take_digits s) = [] \/ snd (take_digits s) <> []
  end.
Proof.
  destruct s as [|c s]; [left; reflexivity|].
  assert (U : NilZero.uint_of_string (of_list (c :: s)) = NilEmpty.uint_of_string (of_list (c :: s))).
  { reflexivity. }
  rewrite U. assert (H := uint_of_digits (c :: s) 0).
  destruct (NilEmpty.uint_of_string (of_list (c :: s))) as [d|].
  - destruct H as [T V]. split; [exact T|]. split; [discriminate|].
    unfold digits_val. change 0 with (Z.of_N 0) at 1. rewrite V. apply Z_of_N_of_uint.
  - right. exact H.
Qed.

Lemma minus_not_digit : is_digit "-" = false.
Proof. reflexivity. Qed.

(* ---- split ---- *)
Lemma starts_with_spec d : forall s, starts_with d s = true <-> exists t, s = d ++ t.
Proof.
  induction d as [|a d IH]; intros s; cbn [starts_with app].
  - split; [exists s; reflexivity|reflexivity].
  - destruct s as [|b s]; [split; [discriminate|intros [t E]; discriminate]|].
    rewrite andb_true_iff, Ascii.eqb_eq, IH. split.
    + intros [-> [t ->]]. exists t. reflexivity.
    + intros [t E]. injection E as -> ->. split; [reflexivity|exists t; reflexivity].
Qed.

(* the token occurs in s at offset k *)
Definition occurs_at (d s : list ascii) (k : nat) : Prop :=
  exists l r, s = l ++ d ++ r /\ List.length l = k.

Lemma str_find_spec d s :
  match str_find d s with
  | Some k => occurs_at d s k /\ forall j, occurs_at d s j -> (k <= j)%nat
  | None => forall j, ~ occurs_at d s j
  end.
Proof.
  induction s as [|a s IH]; cbn [str_find]; destruct (starts_with d _) eqn:E.
  - apply starts_with_spec in E as [t E]. split; [|lia]. exists [], t. split; [exact E|reflexivity].
  - intros j [l [r [H L]]]. assert (starts_with d [] = true); [|congruence].
    apply starts_with_spec. destruct l; [|discriminate]. exists r. exact H.
  - apply starts_with_spec in E as [t E]. split; [|lia]. exists [], t. split; [exact E|reflexivity].
  - assert (O : forall j, occurs_at d (a :: s) j -> exists j', j = S j' /\ occurs_at d s j').
    { intros j [l [r [H L]]]. destruct l as [|b l].
      - exfalso. assert (starts_with d (a :: s) = true); [|congruence].
        apply starts_with_spec. exists r. exact H.
      - injection H as -> H. exists (List.length l). split; [symmetry; exact L|].
        exists l, r. split; [exact H|reflexivity]. }
    destruct (str_find d s) as [k|].
    + destruct IH as [[l [r [H L]]] M]. split.
      * exists (a :: l), r. split; [rewrite H; reflexivity|cbn; lia].
      * intros j Oj. destruct (O j Oj) as [j' [-> O']]. specialize (M j' O'). lia.
    + intros j Oj. destruct (O j Oj) as [j' [_ O']]. exact (IH j' O').
Qed.

(* ps are the pieces of s between leftmost non-overlapping occurrences of d *)
Inductive pieces (d : list ascii) : list ascii -> list (list ascii) -> Prop :=
| pieces_last : forall s, (forall j, ~ occurs_at d s j) -> pieces d s [s]
| pieces_more : forall p r ps,
    (forall j, occurs_at d (p ++ d ++ r) j -> (List.length p <= j)%nat) ->
    pieces d r ps -> pieces d (p ++ d ++ r) (p :: ps).

Lemma split_loop_ok d : d <> [] -> forall fuel cur, (List.length cur <= fuel)%nat ->
  exists ps, split_loop fuel d cur = Ok ps /\ pieces d cur ps.
Proof.
  intros ND. assert (LD : (0 < List.length d)%nat) by (destruct d; [congruence|cbn; lia]).
  induction fuel as [|fuel IH]; intros cur L.
  - assert (H := str_find_spec d cur). cbn [split_loop].
    destruct (str_find d cur) as [k|].
    + destruct H as [[l [r [H Lk]]] _]. destruct cur; [|cbn in L; lia].
      exfalso. apply (f_equal (@List.length ascii)) in H. rewrite !app_length in H. cbn in H. lia.
    + exists [cur]. split; [reflexivity|]. constructor. exact H.
  - assert (H := str_find_spec d cur). cbn [split_loop]. destruct (str_find d cur) as [k|].
    + destruct H as [[l [r [H Lk]]] M]. subst k.
      assert (E1 : skipn (List.length l + List.length d) cur = r).
      { rewrite H, app_assoc, <- app_length, skipn_app, skipn_all, Nat.sub_diag. reflexivity. }
      assert (E2 : firstn (List.length l) cur = l).
      { rewrite H, firstn_app, firstn_all, Nat.sub_diag. cbn. apply app_nil_r. }
      rewrite E1, E2. destruct (IH r) as [ps [E P]].
      { rewrite H, !app_length in L. lia. }
      rewrite E. exists (l :: ps). split; [reflexivity|]. rewrite H. constructor; [|exact P].
      rewrite <- H. exact M.
    + exists [cur]. split; [reflexivity|]. constructor. exact H.
Qed.

Fixpoint join (d : list ascii) (ps : list (list ascii)) : list ascii :=
  match ps with
  | [] => []
  | [p] => p
  | p :: ps => p ++ d ++ join d ps
  end.

Lemma pieces_join d s ps : pieces d s ps -> join d ps = s /\ ps <> [].
Proof.
  induction 1 as [s H|p r ps H P [IH NE]]; [split; [reflexivity|discriminate]|].
  split; [|discriminate]. destruct ps as [|q ps]; [congruence|].
  change (join d (p :: q :: ps)) with (p ++ d ++ join d (q :: ps)). rewrite IH. reflexivity.
Qed.

Lemma pieces_no_token d s ps : d <> [] -> pieces d s ps ->
  Forall (fun p => forall j, ~ occurs_at d p j) ps.
Proof.
  intros ND. induction 1 as [s H|p r ps H P IH]; [repeat constructor; exact H|].
  constructor; [|exact IH]. intros j [l [q [E L]]].
  specialize (H j). assert (O : occurs_at d (p ++ d ++ r) j).
  { exists l, (q ++ d ++ r). split; [|exact L]. rewrite E, <- !app_assoc. reflexivity. }
  specialize (H O). rewrite E, !app_length in H.
  destruct d as [|x d]; [congruence|cbn in H; lia].
Qed.

Lemma pieces_unique d s ps : pieces d s ps -> d <> [] -> forall ps', pieces d s ps' -> ps = ps'.
Proof.
  intros P ND. induction P as [s H|p r ps H P IH]; intros ps' P'.
  - inversion P' as [|p r ps0 H0 P0]; subst; [reflexivity|].
    exfalso. apply (H (List.length p)). exists p, r. split; reflexivity.
  - inversion P' as [s' H' E1 E2|p' r' ps0 H' P0 E1 E2]; subst.
    + exfalso. apply (H' (List.length p)). exists p, r. split; reflexivity.
    + assert (L : List.length p = List.length p').
      { apply Nat.le_antisymm.
        - apply H. exists p', r'. split; [symmetry; exact E1|reflexivity].
        - apply H'. rewrite E1. exists p, r. split; reflexivity. }
      assert (p = p').
      { assert (F : forall (u v : list ascii), firstn (List.length u) (u ++ v) = u).
        { intros u v. rewrite firstn_app, firstn_all, Nat.sub_diag. apply app_nil_r. }
        rewrite <- (F p (d ++ r)), <- (F p' (d ++ r')), L, E1. reflexivity. }
      subst p'. apply app_inv_head, app_inv_head in E1. subst r'. f_equal. apply IH. exact P0.
Qed.

(* an empty token is found at once everywhere *)
Lemma split_empty_token fuel : forall cur, split_loop fuel [] cur = Fuel.
Proof.
  induction fuel as [|fuel IH]; intros cur.
  - destruct cur; reflexivity.
  - assert (F : str_find [] cur = Some 0%nat) by (destruct cur; reflexivity).
    cbn [split_loop]. rewrite F, IH. reflexivity.
Qed.

(* ---- from_chars against the standard numeral reader ---- *)
Definition in_bounds (lo hi v : Z) : bool := (lo <=? v) && (v <=? hi).

Lemma from_chars_spec lo hi s :
  match NilZero.int_of_string (of_list s) with
  | Some (Pos u) =>
      from_chars lo hi s = if in_bounds lo hi (Z.of_uint u)
                           then (EcOk, [], Some (Z.of_uint u)) else (EcRange, [], None)
  | Some (Neg u) =>
      if lo <? 0
      then from_chars lo hi s = if in_bounds lo hi (- Z.of_uint u)
                                then (EcOk, [], Some (- Z.of_uint u)) else (EcRange, [], None)
      else from_chars lo hi s = (EcInvalid, s, None)
  | None => let '(ec, ptr, _) := from_chars lo hi s in ec = EcInvalid \/ ptr <> []
  end.
Proof.
  destruct s as [|c s]; [left; reflexivity|].
  assert (I : NilZero.int_of_string (of_list (c :: s)) =
    if Ascii.eqb c "-" then option_map Neg (NilZero.uint_of_string (of_list s))
    else option_map Pos (NilZero.uint_of_string (of_list (c :: s)))) by reflexivity.
  rewrite I. clear I. destruct (Ascii.eqb_spec c "-") as [E|NE].
  - subst c. assert (H := nilzero_uint s). unfold from_chars. rewrite Ascii.eqb_refl.
    destruct (NilZero.uint_of_string (of_list s)) as [u|]; cbn [option_map].
    + destruct H as [T [N0 V]]. destruct (lo <? 0); cbn [andb].
      * rewrite T. destruct s as [|c s]; [congruence|]. rewrite V. reflexivity.
      * cbn [take_digits]. rewrite minus_not_digit. reflexivity.
    + destruct (lo <? 0); cbn [andb].
      * destruct (take_digits s) as [ds r]. cbn [fst snd] in H. destruct ds as [|x ds]; [left; reflexivity|].
        destruct H as [H|H]; [discriminate|].
        destruct ((lo <=? - digits_val (x :: ds)) && (- digits_val (x :: ds) <=? hi)); right; exact H.
      * cbn [take_digits]. rewrite minus_not_digit. left. reflexivity.
  - assert (H := nilzero_uint (c :: s)). unfold from_chars.
    assert (E0 : (lo <? 0) && Ascii.eqb c "-" = false).
    { destruct (Ascii.eqb_spec c "-"); [congruence|apply andb_false_r]. }
    rewrite E0. destruct (NilZero.uint_of_string (of_list (c :: s))) as [u|]; cbn [option_map].
    + destruct H as [T [N0 V]]. rewrite T, V. reflexivity.
    + destruct (take_digits (c :: s)) as [ds r]. cbn [fst snd] in H.
      destruct ds as [|x ds]; [left; reflexivity|]. destruct H as [H|H]; [discriminate|].
      destruct ((lo <=? digits_val (x :: ds)) && (digits_val (x :: ds) <=? hi)); right; exact H.
Qed.
