(* C130: iterating a list of identifiers gives the things they name. *)
From Verif Require Import Base IdIterModel.

(* ---- specification ---- *)
(* x is the thing number i of the container *)
Definition names {A} (c : list (option A)) (i : nat) (x : A) : Prop := nth_error c i = Some (Some x).
(* how far a move goes *)
Definition step_of (m : move) : Z :=
  match m with Inc | PostInc => 1 | Dec | PostDec => -1 | Plus d => d | Minus d => - d end%Z.
Definition sum_of (l : list move) : Z := fold_right (fun m s => (step_of m + s)%Z) 0%Z l.
(* the iterator is never moved before the first or behind the end of n identifiers *)
Definition stays (n : nat) (p : Z) (l : list move) : Prop :=
  forall a b, l = a ++ b -> a <> [] -> (0 <= p + sum_of a <= Z.of_nat n)%Z.

(* ---- proofs ---- *)
Section PROOFS.
Context {A : Type}.
Implicit Types (c : list (option A)) (ids : list nat).

Local Lemma base_deref_app pre i post : base_deref (pre ++ i :: post) (Z.of_nat (length pre)) = Ok i.
Proof.
  unfold base_deref. destruct (Z.ltb_spec (Z.of_nat (length pre)) 0); [lia|].
  rewrite Nat2Z.id, nth_error_app2, Nat.sub_diag by lia. reflexivity.
Qed.
Local Lemma deref_names (it : id_it A) i x : names (it_c it) i x -> deref it i = Ok x.
Proof.
  intros H. unfold deref, subscript. assert (L : i < length (it_c it)) by (apply nth_error_Some; rewrite H; discriminate).
  apply Nat.ltb_lt in L. rewrite L. cbn [sassert bind]. rewrite H. reflexivity.
Qed.
Local Lemma deref_inv (it : id_it A) i x : deref it i = Ok x -> names (it_c it) i x.
Proof.
  unfold deref, subscript, names. destruct (Nat.ltb i (length (it_c it))); cbn [sassert bind]; [|discriminate].
  destruct (nth_error (it_c it) i) as [[y|]|]; cbn [bind follow]; try discriminate. intros H. injection H as ->. reflexivity.
Qed.
Local Lemma inc_ok (it : id_it A) : (0 <= it_pos it < Z.of_nat (length (it_ids it)))%Z ->
  base_move it 1 = Ok (mkit (it_pos it + 1) (it_ids it) (it_c it)).
Proof.
  intros H. unfold base_move. destruct (Z.leb_spec 0 (it_pos it + 1)); [|lia].
  destruct (Z.leb_spec (it_pos it + 1) (Z.of_nat (length (it_ids it)))); [reflexivity|lia].
Qed.

Local Lemma walk_spec c post : forall pre l fuel, (length post < fuel)%nat ->
  walk fuel (mkit (Z.of_nat (length pre)) (pre ++ post) c) (mkit (Z.of_nat (length (pre ++ post))) (pre ++ post) c) = Ok l
  <-> Forall2 (names c) post l.
Proof.
  induction post as [|i post IH]; intros pre l [|fuel] F; cbn [length] in F; try lia; cbn [walk].
  - unfold it_eq. cbn [it_pos]. rewrite app_nil_r, Z.eqb_refl. split; intros H; [injection H as <-; constructor|inversion H; reflexivity].
  - unfold it_eq. cbn [it_pos]. destruct (Z.eqb_spec (Z.of_nat (length pre)) (Z.of_nat (length (pre ++ i :: post)))) as [E|_];
      [rewrite app_length in E; cbn [length] in E; lia|].
    unfold star. cbn [it_ids it_pos]. rewrite base_deref_app. cbn [bind]. split; intros H.
    + destruct (deref _ i) as [x| | |] eqn:D; cbn [bind] in H; try discriminate. apply deref_inv in D. cbn [it_c] in D.
      cbn [apply_move] in H. rewrite inc_ok in H by (cbn [it_pos it_ids]; rewrite app_length; cbn [length]; lia).
      cbn [bind it_pos it_ids it_c] in H.
      replace (Z.of_nat (length pre) + 1)%Z with (Z.of_nat (length (pre ++ [i]))) in H by (rewrite app_length; cbn [length]; lia).
      replace (pre ++ i :: post) with ((pre ++ [i]) ++ post) in H by (rewrite <- app_assoc; reflexivity).
      destruct (walk _ _ _) as [l'| | |] eqn:W; cbn [bind] in H; try discriminate. injection H as <-.
      apply IH in W; [|lia]. constructor; assumption.
    + inversion H as [|? x ? l' N R]; subst. rewrite (deref_names (mkit _ _ c) i x N). cbn [bind apply_move].
      rewrite inc_ok by (cbn [it_pos it_ids]; rewrite app_length; cbn [length]; lia). cbn [bind it_pos it_ids it_c].
      apply (IH (pre ++ [i]) l' fuel) in R; [|lia].
      replace (Z.of_nat (length pre) + 1)%Z with (Z.of_nat (length (pre ++ [i]))) by (rewrite app_length; cbn [length]; lia).
      replace (pre ++ i :: post) with ((pre ++ [i]) ++ post) by (rewrite <- app_assoc; reflexivity).
      rewrite R. reflexivity.
Qed.

(* A loop over the range gives exactly the things named, all of them, as often and in the order they are named. *)
Theorem C130_loop ids c l : for_each ids c = Ok l <-> Forall2 (names c) ids l.
Proof. apply (walk_spec c ids [] l). lia. Qed.

Local Lemma walk_fail c post : forall pre fuel, (length post < fuel)%nat ->
  forall r, walk fuel (mkit (Z.of_nat (length pre)) (pre ++ post) c) (mkit (Z.of_nat (length (pre ++ post))) (pre ++ post) c) = r ->
  match r with
  | Ok _ => True
  | Throw => exists a i b, post = a ++ i :: b /\ (length c <= i)%nat /\ Forall (fun i => exists x, names c i x) a
  | UB => exists a i b, post = a ++ i :: b /\ nth_error c i = Some None /\ Forall (fun i => exists x, names c i x) a
  | Fuel => False
  end.
Proof.
  induction post as [|i post IH]; intros pre [|fuel] F r H; cbn [length] in F; try lia; cbn [walk] in H.
  - unfold it_eq in H. cbn [it_pos] in H. rewrite app_nil_r, Z.eqb_refl in H. subst r. exact I.
  - unfold it_eq in H. cbn [it_pos] in H.
    destruct (Z.eqb_spec (Z.of_nat (length pre)) (Z.of_nat (length (pre ++ i :: post)))) as [E|_];
      [rewrite app_length in E; cbn [length] in E; lia|].
    unfold star in H. cbn [it_ids it_pos] in H. rewrite base_deref_app in H. cbn [bind] in H.
    unfold deref, subscript in H. cbn [it_c] in H.
    destruct (Nat.ltb_spec i (length c)) as [L|L]; cbn [sassert bind] in H.
    2: { subst r. exists [], i, post. split; [reflexivity|]. split; [exact L|constructor]. }
    destruct (nth_error c i) as [[x|]|] eqn:N; cbn [bind follow] in H.
    2: { subst r. exists [], i, post. split; [reflexivity|]. split; [exact N|constructor]. }
    2: { apply nth_error_None in N. lia. }
    cbn [apply_move] in H. rewrite inc_ok in H by (cbn [it_pos it_ids]; rewrite app_length; cbn [length]; lia).
    cbn [bind it_pos it_ids it_c] in H.
    replace (Z.of_nat (length pre) + 1)%Z with (Z.of_nat (length (pre ++ [i]))) in H by (rewrite app_length; cbn [length]; lia).
    replace (pre ++ i :: post) with ((pre ++ [i]) ++ post) in H by (rewrite <- app_assoc; reflexivity).
    assert (F' : length post < fuel) by lia. specialize (IH (pre ++ [i]) fuel F' _ eq_refl).
    destruct (walk fuel _ _) as [l| | |]; cbn [bind] in H; subst r; try exact I; try exact IH;
      destruct IH as (a & k & b & -> & K & Fa); exists (i :: a), k, b;
      (split; [reflexivity|split; [exact K|constructor; [exists x; exact N|exact Fa]]]).
Qed.

(* Otherwise it ends with the assertion at the first identifier that is too large, and accesses memory outside only
   through a null pointer in the container: every loop ends in one of these ways. *)
Theorem C130_loop_ends ids c :
  (exists l, for_each ids c = Ok l) \/
  (for_each ids c = Throw /\ exists a i b, ids = a ++ i :: b /\ (length c <= i)%nat /\ Forall (fun i => exists x, names c i x) a) \/
  (for_each ids c = UB /\ exists a i b, ids = a ++ i :: b /\ nth_error c i = Some None /\ Forall (fun i => exists x, names c i x) a).
Proof.
  pose proof (walk_fail c ids [] (S (length ids)) ltac:(lia) _ eq_refl) as H.
  change (walk (S (length ids)) _ _) with (for_each ids c) in H.
  destruct (for_each ids c) as [l| | |]; [left; eauto|right; left|right; right|destruct H]; (split; [reflexivity|exact H]).
Qed.

Local Lemma apply_move_pos m (i : id_it A) :
  match apply_move m i with
  | Ok (j, _) => (0 <= it_pos i + step_of m <= Z.of_nat (length (it_ids i)))%Z /\
                 j = mkit (it_pos i + step_of m) (it_ids i) (it_c i)
  | UB => ~ (0 <= it_pos i + step_of m <= Z.of_nat (length (it_ids i)))%Z
  | _ => False
  end.
Proof.
  destruct m; cbn [apply_move step_of]; unfold base_move;
    match goal with |- context [(0 <=? ?p)%Z] =>
      destruct (Z.leb_spec 0 p); destruct (Z.leb_spec p (Z.of_nat (length (it_ids i)))) end;
    cbn [andb bind]; try lia; (split; [lia|reflexivity]).
Qed.

(* After any moves that stay within the identifiers, the iterator is where the moves lead, over the same identifiers
   and container; a move outside is undefined. *)
Theorem C130_moves l : forall (i : id_it A),
  (stays (length (it_ids i)) (it_pos i) l ->
   apply_moves l i = Ok (mkit (it_pos i + sum_of l) (it_ids i) (it_c i))) /\
  (~ stays (length (it_ids i)) (it_pos i) l -> apply_moves l i = UB).
Proof.
  induction l as [|m l IH]; intros i.
  - split; intros H; [destruct i; cbn; do 2 f_equal; lia|]. exfalso. apply H. intros a b E Na. destruct a; [congruence|discriminate].
  - cbn [apply_moves]. pose proof (apply_move_pos m i) as M. destruct (apply_move m i) as [[j k]| | |]; try contradiction; cbn [bind].
    + destruct M as (R & ->). set (j := mkit _ _ _) in *. destruct (IH j) as (I1 & I2). cbn [it_pos it_ids it_c j] in *.
      assert (E : stays (length (it_ids i)) (it_pos i) (m :: l) <-> stays (length (it_ids i)) (it_pos i + step_of m) l).
      { split; intros S a b E Na.
        - subst l. specialize (S (m :: a) b eq_refl ltac:(discriminate)). cbn [sum_of fold_right] in S. fold (sum_of a) in S. lia.
        - destruct a as [|m' a]; [congruence|]. cbn [app] in E. injection E as <- ->. cbn [sum_of fold_right]. fold (sum_of a).
          destruct a as [|m2 a]; [cbn; lia|]. specialize (S (m2 :: a) b eq_refl ltac:(discriminate)). lia. }
      rewrite E. split; intros H; [|apply I2, H]. rewrite (I1 H). cbn [sum_of fold_right]. fold (sum_of l). do 2 f_equal. lia.
    + split; intros H; [|reflexivity]. exfalso. apply M. specialize (H [m] l eq_refl ltac:(discriminate)). cbn in H. lia.
Qed.

(* At every position inside, reading gives the thing named there; `->` gives the same for identifiers of the container. *)
Theorem C130_star (pre post : list nat) i c x :
  let it := mkit (Z.of_nat (length pre)) (pre ++ i :: post) c in
  (star it = Ok x <-> names c i x) /\ (arrow it = Ok x <-> names c i x).
Proof.
  cbn. unfold star, arrow. cbn [it_ids it_pos it_c]. rewrite base_deref_app. cbn [bind]. split.
  - split; [apply (deref_inv (mkit _ _ c))|apply (deref_names (mkit _ _ c))].
  - unfold subscript, names. destruct (nth_error c i) as [[y|]|]; cbn [bind follow]; split; intros H; try discriminate; congruence.
Qed.

(* it[k] is what * gives after the iterator was moved by k, where that is allowed. *)
Theorem C130_index (i j : id_it A) k v : apply_move (Plus k) i = Ok (j, v) -> index i k = star j.
Proof.
  pose proof (apply_move_pos (Plus k) i) as M. intros E. rewrite E in M. destruct M as (_ & ->). reflexivity.
Qed.

(* Reading at the end or outside of the identifiers is undefined. *)
Theorem C130_outside (i : id_it A) k : (it_pos i + k < 0 \/ Z.of_nat (length (it_ids i)) <= it_pos i + k)%Z ->
  index i k = UB /\ (k = 0%Z -> star i = UB /\ arrow i = UB).
Proof.
  intros H. assert (E : base_deref (it_ids i) (it_pos i + k) = UB).
  { unfold base_deref. destruct (Z.ltb_spec (it_pos i + k) 0); [reflexivity|].
    destruct (nth_error (it_ids i) (Z.to_nat (it_pos i + k))) eqn:N; [|reflexivity].
    assert (L : (Z.to_nat (it_pos i + k) < length (it_ids i))%nat) by (apply nth_error_Some; rewrite N; discriminate). lia. }
  split; [unfold index; rewrite E; reflexivity|]. intros ->. rewrite Z.add_0_r in E. unfold star, arrow. rewrite E. split; reflexivity.
Qed.

(* The value of ++ and -- : the new iterator, behind the operand the old one; -- undoes ++. *)
Theorem C130_values (i j v : id_it A) :
  (apply_move Inc i = Ok (j, v) -> v = j /\ apply_move PostInc i = Ok (j, i)) /\
  (apply_move Dec i = Ok (j, v) -> v = j /\ apply_move PostDec i = Ok (j, i)) /\
  ((0 <= it_pos i <= Z.of_nat (length (it_ids i)))%Z -> apply_move Inc i = Ok (j, v) -> apply_move Dec j = Ok (i, i)).
Proof.
  cbn [apply_move]. repeat split.
  - destruct (base_move i 1); cbn [bind] in *; try discriminate. congruence.
  - destruct (base_move i 1); cbn [bind] in *; try discriminate. congruence.
  - destruct (base_move i (-1)); cbn [bind] in *; try discriminate. congruence.
  - destruct (base_move i (-1)); cbn [bind] in *; try discriminate. congruence.
  - intros B H. pose proof (apply_move_pos Inc i) as M. cbn [apply_move] in M. rewrite H in M. destruct M as (R & ->).
    unfold base_move. cbn [it_pos it_ids it_c step_of]. replace (it_pos i + 1 + -1)%Z with (it_pos i) by lia.
    destruct (Z.leb_spec 0 (it_pos i)); [|lia]. destruct (Z.leb_spec (it_pos i) (Z.of_nat (length (it_ids i)))); [|lia].
    cbn [andb bind]. destruct i; reflexivity.
Qed.

(* Distances and order: from the begin to the end it is the number of identifiers; what was moved forward is greater. *)
Theorem C130_distance ids c (i j : id_it A) l :
  distance (snd (range_of ids c)) (fst (range_of ids c)) = Z.of_nat (length ids) /\
  (apply_moves l i = Ok j -> stays (length (it_ids i)) (it_pos i) l ->
     distance j i = sum_of l /\ (it_lt i j = true <-> (0 < sum_of l)%Z) /\ (it_eq i j = true <-> sum_of l = 0%Z)).
Proof.
  split; [unfold distance, range_of; cbn [fst snd it_pos]; lia|]. intros H S.
  destruct (C130_moves l i) as (M & _). rewrite (M S) in H. injection H as <-. unfold distance, it_lt, it_eq. cbn [it_pos].
  split; [lia|]. split; [rewrite Z.ltb_lt|rewrite Z.eqb_eq]; lia.
Qed.

(* `->` does not check the identifier: where `*` ends with an assertion, it accesses memory outside. *)
Theorem C130_arrow_refuted (pre post : list nat) i c : (length c <= i)%nat ->
  star (mkit (Z.of_nat (length pre)) (pre ++ i :: post) c) = Throw /\
  arrow (mkit (Z.of_nat (length pre)) (pre ++ i :: post) c) = UB.
Proof.
  intros H. unfold star, arrow, deref, subscript. cbn [it_ids it_pos it_c]. rewrite base_deref_app. cbn [bind].
  destruct (Nat.ltb_spec i (length c)); [lia|]. apply nth_error_None in H. rewrite H. split; reflexivity.
Qed.
End PROOFS.
Print Assumptions C130_loop.
Print Assumptions C130_loop_ends.
Print Assumptions C130_moves.
Print Assumptions C130_star.
Print Assumptions C130_index.
Print Assumptions C130_outside.
Print Assumptions C130_values.
Print Assumptions C130_distance.
Print Assumptions C130_arrow_refuted.

(* ---- the hypotheses can be met ---- *)
Example C130_loop_sat : for_each [2; 0; 2] [Some 10; Some 11; Some 12] = Ok [12; 10; 12]
  /\ for_each [2; 3] [Some 10; Some 11; Some 12] = Throw /\ for_each [1] [Some 10; None] = UB.
Proof. repeat split. Qed.
Example C130_moves_sat : stays 3 0 [Plus 3; Dec; Minus 2; PostInc].
Proof.
  intros a b E Na. destruct a as [|m a]; [congruence|]. injection E as <- E. clear Na.
  do 3 (destruct a as [|m a]; [cbn; lia|injection E as <- E]). destruct a; [cbn; lia|discriminate].
Qed.
Example C130_moves_out_sat : ~ stays 3 0 [Plus 3; Inc].
Proof. intros H. specialize (H [Plus 3; Inc] [] eq_refl ltac:(discriminate)). cbn in H. lia. Qed.
Example C130_index_sat : exists j v, apply_move (Plus 2) (mkit 0 [4; 5; 6] [Some 1]) = Ok (j, v).
Proof. eexists. eexists. reflexivity. Qed.
