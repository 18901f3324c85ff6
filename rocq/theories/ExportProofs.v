From Coq Require Import Sorted Ascii String DecimalString DecimalN DecimalFacts ZifyBool ZifyNat ZifyN.
From Coq Require Import List NArith.
From Verif Require Import Base ExportModel ExportSpec.
From Verif Require Import ExclusionSetModel.
Import ListNotations.
Local Open Scope list_scope.

(* ---- numbers ---- *)
Lemma digits_app a b : digits_value (a ++ b) = (digits_value a * 10 ^ N.of_nat (List.length b) + digits_value b)%N.
Proof.
  revert a. induction b as [|c b IH] using rev_ind; intros a.
  - rewrite app_nil_r. cbn. lia.
  - rewrite app_assoc. unfold digits_value in *. rewrite !fold_left_app. cbn [fold_left].
    rewrite <- fold_left_app, IH. rewrite app_length. cbn [List.length].
    replace (N.of_nat (List.length b + 1)) with (N.succ (N.of_nat (List.length b))) by lia.
    rewrite N.pow_succ_r'. lia.
Qed.

Fixpoint udigits (u : Decimal.uint) : list ascii :=
  match u with
  | Decimal.Nil => []
  | Decimal.D0 u => "0"%char :: udigits u
  | Decimal.D1 u => "1"%char :: udigits u
  | Decimal.D2 u => "2"%char :: udigits u
  | Decimal.D3 u => "3"%char :: udigits u
  | Decimal.D4 u => "4"%char :: udigits u
  | Decimal.D5 u => "5"%char :: udigits u
  | Decimal.D6 u => "6"%char :: udigits u
  | Decimal.D7 u => "7"%char :: udigits u
  | Decimal.D8 u => "8"%char :: udigits u
  | Decimal.D9 u => "9"%char :: udigits u
  end.
Lemma udigits_eq u : list_ascii_of_string (NilEmpty.string_of_uint u) = udigits u.
Proof. induction u; cbn; congruence. Qed.
Lemma udigits_digit u : Forall is_digit (udigits u).
Proof. induction u; cbn [udigits]; constructor; try assumption; unfold is_digit; cbn; lia. Qed.

Lemma of_uint_acc_value u : forall acc,
  N.pos (Pos.of_uint_acc u acc) = fold_left (fun v c => 10 * v + (N_of_ascii c - 48))%N (udigits u) (N.pos acc).
Proof.
  induction u; intros acc; cbn [Pos.of_uint_acc udigits fold_left]; [reflexivity|..];
    rewrite IHu; match goal with |- fold_left _ _ ?a = fold_left _ _ ?b => assert (E : a = b); [|rewrite E; reflexivity] end;
    vm_compute N_of_ascii; lia.
Qed.
Lemma of_uint_value u : N.of_uint u = digits_value (udigits u).
Proof.
  unfold N.of_uint, digits_value. induction u; cbn [Pos.of_uint udigits fold_left]; [reflexivity|exact IHu|..];
    rewrite of_uint_acc_value; reflexivity.
Qed.


Lemma put_number_spells n : spells (put_number n) n.
Proof.
  unfold put_number. pose proof (DecimalN.Unsigned.of_to n) as OT.
  assert (NF : Decimal.unorm (N.to_uint n) = N.to_uint n).
  { rewrite <- DecimalN.Unsigned.to_of, OT. reflexivity. }
  destruct (N.to_uint n) as [|u|u|u|u|u|u|u|u|u|u] eqn:E; cbn [NilZero.string_of_uint]; rewrite ?udigits_eq;
    try (split; [cbn [NilEmpty.string_of_uint list_ascii_of_string]; discriminate|]; rewrite ?udigits_eq;
         split; [apply udigits_digit|split; [rewrite <- of_uint_value; exact OT|cbn [udigits]; intros rest R; discriminate R]]).
  - discriminate NF.
  - split; [cbn [udigits]; discriminate|]. split; [apply udigits_digit|split; [rewrite <- of_uint_value; exact OT|]].
    intros rest R. cbn [udigits] in R. injection R as <-.
    destruct u; try discriminate NF; [reflexivity|..].
    all: exfalso; cbn [Decimal.unorm] in NF; unfold Decimal.unorm in NF; cbn in NF.
    all: try discriminate NF.
    all: revert NF; match goal with |- context [Decimal.nzhead ?u] => pose proof (DecimalFacts.nzhead_nonzero u) as Q; destruct (Decimal.nzhead u) eqn:EE end; intros NF; try discriminate NF; try (eapply Q; reflexivity).
Qed.

(* ---- reading is unambiguous ---- *)
Lemma digit_not_blank t : Forall is_digit t -> ~ In " "%char t /\ ~ In "010"%char t.
Proof.
  intros F. rewrite Forall_forall in F. split; intros I; apply F in I; unfold is_digit in I; cbn in I; lia.
Qed.
Lemma split_unique (sep : ascii) a : forall a' b b', ~ In sep a -> ~ In sep a' ->
  a ++ sep :: b = a' ++ sep :: b' -> a = a' /\ b = b'.
Proof.
  induction a as [|x a IH]; intros [|y a'] b b' N1 N2 E; cbn [app] in E.
  - injection E as ->. split; reflexivity.
  - injection E as -> _. exfalso. apply N2. left. reflexivity.
  - injection E as -> _. exfalso. apply N1. left. reflexivity.
  - injection E as -> E. destruct (IH a' b b') as [-> ->]; [| |exact E|split; reflexivity].
    + intros I. apply N1. right. exact I.
    + intros I. apply N2. right. exact I.
Qed.
Lemma line_no_break l row : line_of l row -> ~ In "010"%char l.
Proof.
  induction 1 as [|t n l row [_ [D _]] L IH]; [intros []|]. intros I. apply in_app_or in I as [I|[I|I]].
  - exact (proj2 (digit_not_blank t D) I).
  - discriminate I.
  - exact (IH I).
Qed.
Lemma line_unique l row : line_of l row -> forall row', line_of l row' -> row = row'.
Proof.
  induction 1 as [|t n l row S L IH]; intros row' L'; inversion L' as [|t' n' l' row'' S' L'' E]; subst.
  - reflexivity.
  - match goal with H : _ = t' ++ _ |- _ => destruct t'; discriminate H | H : t' ++ _ = _ |- _ => destruct t'; discriminate H end.
  - destruct t; discriminate.
  - destruct (split_unique " "%char t' t l' l) as [-> ->].
    + apply digit_not_blank, S'.
    + apply digit_not_blank, S.
    + assumption.
    + destruct S as [_ [_ [<- _]]], S' as [_ [_ [<- _]]]. f_equal. apply IH, L''.
Qed.
Lemma file_unique text rows : file_of text rows -> forall rows', file_of text rows' -> rows = rows'.
Proof.
  induction 1 as [|l row text rows L F IH]; intros rows' F'; inversion F' as [|l' row' text' rows'' L' F'' E]; subst.
  - reflexivity.
  - match goal with H : _ ++ _ = [] |- _ => destruct l'; discriminate H end.
  - destruct l; discriminate.
  - destruct (split_unique "010"%char l' l text' text) as [-> ->].
    + eapply line_no_break, L'.
    + eapply line_no_break, L.
    + assumption.
    + f_equal; [eapply line_unique; eassumption|apply IH, F''].
Qed.

(* ---- the writer ---- *)
Fixpoint until (x : N) (l : list N) : list N :=
  match l with
  | [] => []
  | y :: l => if N.eqb x y then [] else y :: until x l
  end.
Lemma write_node_line from node : line_of (write_node from node) (until from node).
Proof.
  induction node as [|to node IH]; cbn [write_node until]; [constructor|].
  destruct (N.eqb from to); constructor; [apply put_number_spells|exact IH].
Qed.
Lemma until_absent x l : ~ In x l -> until x l = l.
Proof.
  induction l as [|y l IH]; intros N0; [reflexivity|]. cbn [until].
  destruct (N.eqb_spec x y) as [->|D]; [exfalso; apply N0; left; reflexivity|]. f_equal. apply IH.
  intros I. apply N0. right. exact I.
Qed.
Lemma until_sorted x l : StronglySorted N.lt l -> StronglySorted N.lt (until x l) /\
  (In x l -> forall y, In y (until x l) <-> In y l /\ (y < x)%N).
Proof.
  induction 1 as [|a l S IH F]; cbn [until]; [split; [constructor|intros []]|]. rewrite Forall_forall in F.
  destruct IH as [IS IM]. destruct (N.eqb_spec x a) as [->|D].
  - split; [constructor|]. intros _ y. split; [intros []|]. intros [[<-|I] L]; [lia|]. specialize (F _ I). lia.
  - split.
    + constructor; [exact IS|]. rewrite Forall_forall. intros y Iy. apply F.
      clear -Iy. induction l as [|b l IH]; [destruct Iy|]. cbn [until] in Iy.
      destruct (N.eqb x b); [destruct Iy|]. destruct Iy as [<-|Iy]; [left; reflexivity|right; exact (IH Iy)].
    + intros [<-|I]; [congruence|]. intros y. cbn [In]. rewrite (IM I). split.
      * intros [<-|[H L]]; [split; [left; reflexivity|exact (F _ I)]|]. split; [right; exact H|exact L].
      * intros [[<-|H] L]; [left; reflexivity|right; split; assumption].
Qed.

Lemma write_nodes_file g : forall from,
  (forall k s, nth_error g k = Some s -> es_iterate s = Ok (es_expanded s)) ->
  exists text rows, write_nodes from g = Ok text /\ file_of text rows /\ List.length rows = List.length g /\
    forall k row, nth_error rows k = Some row ->
      exists s, nth_error g k = Some s /\ row = until (from + N.of_nat k) (es_expanded s).
Proof.
  induction g as [|s g IH]; intros from H.
  - exists [], []. split; [reflexivity|]. split; [constructor|]. split; [reflexivity|]. intros [|k] row E; discriminate E.
  - destruct (IH (from + 1)%N (fun k => H (S k))) as [text [rows [E [F [L R]]]]].
    exists (write_node from (es_expanded s) ++ "010"%char :: text), (until from (es_expanded s) :: rows).
    cbn [write_nodes]. rewrite (H 0%nat s eq_refl). cbn [bind]. rewrite E. cbn [bind]. split; [reflexivity|].
    split; [constructor; [apply write_node_line|exact F]|]. split; [cbn [List.length]; congruence|].
    intros [|k] row Ek; cbn [nth_error] in Ek.
    + injection Ek as <-. exists s. split; [reflexivity|]. f_equal. lia.
    + destruct (R k row Ek) as [s' [Es ->]]. exists s'. split; [exact Es|]. f_equal. lia.
Qed.
