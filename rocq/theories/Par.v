(* Interleaved execution of workers that share memory.

   Memory is a list of cells; a worker is the list of its remaining actions, and
   an action reads and updates one cell.  A schedule says which worker moves
   next; when it is used up the workers left over finish one after the other.
   Thus every interleaving of the workers is the run of some schedule, and every
   schedule is a complete run. *)
From Verif Require Import Base.

Fixpoint upd {A} (l : list A) (i : nat) (a : A) : list A :=
  match l, i with
  | [], _ => []
  | _ :: t, O => a :: t
  | x :: t, S i => x :: upd t i a
  end.

Section PAR.
  Context {A : Type}.

  Definition action : Type := (nat * (A -> res A))%type.

  (* an access outside the memory is undefined *)
  Definition act (o : action) (mem : list A) : res (list A) :=
    match nth_error mem (fst o) with
    | None => UB
    | Some a => do a' <- snd o a; Ok (upd mem (fst o) a')
    end.

  Fixpoint run_all (tr : list action) (mem : list A) : res (list A) :=
    match tr with
    | [] => Ok mem
    | o :: tr => do mem' <- act o mem; run_all tr mem'
    end.

  Fixpoint par_run (sched : list nat) (ths : list (list action)) (mem : list A) : res (list A) :=
    match sched with
    | [] => run_all (concat ths) mem
    | i :: sched =>
        match nth_error ths i with
        | Some (o :: os) => do mem' <- act o mem; par_run sched (upd ths i os) mem'
        | _ => par_run sched ths mem
        end
    end.
End PAR.

Lemma upd_length {A} (l : list A) i a : length (upd l i a) = length l.
Proof. revert i. induction l as [|x l IH]; intros [|i]; cbn; auto. Qed.

Lemma nth_error_upd {A} (l : list A) i j a :
  nth_error (upd l i a) j =
    if Nat.eqb i j then (if Nat.ltb i (length l) then Some a else None) else nth_error l j.
Proof.
  revert i j. induction l as [|x l IH]; intros i j.
  - cbn. destruct (Nat.eqb i j); destruct j; reflexivity.
  - destruct i as [|i], j as [|j]; cbn [upd nth_error]; try reflexivity.
    rewrite IH. reflexivity.
Qed.

Lemma nth_error_upd_same {A} (l : list A) i a : i < length l -> nth_error (upd l i a) i = Some a.
Proof.
  intros H. rewrite nth_error_upd, Nat.eqb_refl. destruct (Nat.ltb_spec i (length l)); [reflexivity|lia].
Qed.
Lemma nth_error_upd_other {A} (l : list A) i j a : i <> j -> nth_error (upd l i a) j = nth_error l j.
Proof. intros H. rewrite nth_error_upd. destruct (Nat.eqb_spec i j); [contradiction|reflexivity]. Qed.

(* what one worker does to its cell when it runs alone *)
Fixpoint run_fns {A} (fs : list (nat * (A -> res A))) (a : A) : res A :=
  match fs with
  | [] => Ok a
  | f :: fs => do a' <- snd f a; run_fns fs a'
  end.

Lemma nth_ext {A} (l l' : list A) : length l = length l' ->
  (forall i x y, nth_error l i = Some x -> nth_error l' i = Some y -> x = y) -> l = l'.
Proof.
  revert l'. induction l as [|a l IH]; intros [|b l'] L H; try discriminate L; [reflexivity|].
  f_equal; [exact (H 0 a b eq_refl eq_refl)|]. apply IH; [injection L; auto|].
  intros i x y E1 E2. exact (H (S i) x y E1 E2).
Qed.

Section OWNED.
  Context {A : Type}.
  (* worker i touches only cell i, and running alone it turns mem[i] into R[i] *)
  Definition owned (ths : list (list (@action A))) (mem R : list A) : Prop :=
    length ths = length mem /\ length R = length mem /\
    forall i fs m r, nth_error ths i = Some fs -> nth_error mem i = Some m ->
      nth_error R i = Some r ->
      Forall (fun o => fst o = i) fs /\ run_fns fs m = Ok r.

  Lemma owned_step ths mem R i o os : owned ths mem R ->
    nth_error ths i = Some (o :: os) ->
    exists mem', act o mem = Ok mem' /\ owned (upd ths i os) mem' R.
  Proof.
    intros [L [LR H]] E.
    assert (Hi : i < length mem) by (rewrite <- L; apply nth_error_Some; congruence).
    destruct (nth_error mem i) as [m|] eqn:Em; [|apply nth_error_None in Em; lia].
    destruct (nth_error R i) as [r|] eqn:Er; [|apply nth_error_None in Er; lia].
    destruct (H i _ m r E Em Er) as [F G]. inversion F as [|? ? F1 F2]; subst.
    cbn [run_fns] in G. apply bind_Ok in G as [a' [Ga Gr]].
    exists (upd mem (fst o) a'). split.
    - unfold act. rewrite Em, Ga. reflexivity.
    - split; [rewrite !upd_length; exact L|]. split; [rewrite upd_length; exact LR|].
      intros j fs mj rj E1 E2 E3. destruct (Nat.eq_dec (fst o) j) as [EQ|NE].
      + subst j. rewrite nth_error_upd_same in E1 by lia. rewrite nth_error_upd_same in E2 by lia.
        injection E1 as <-. injection E2 as <-. split; [exact F2|]. congruence.
      + rewrite nth_error_upd_other in E1 by exact NE. rewrite nth_error_upd_other in E2 by exact NE.
        exact (H j fs mj rj E1 E2 E3).
  Qed.

  Lemma run_fns_nth fs : forall (mem : list A) i m r, nth_error mem i = Some m ->
    Forall (fun o => fst o = i) fs -> run_fns fs m = Ok r ->
    run_all fs mem = Ok (upd mem i r).
  Proof.
    induction fs as [|o fs IH]; intros mem i m r E F G.
    - cbn in G. injection G as ->. cbn. f_equal. apply nth_ext; [rewrite upd_length; reflexivity|].
      intros j x y E1 E2. rewrite nth_error_upd in E2. destruct (Nat.eqb_spec i j).
      + subst j. assert (i < length mem) by (apply nth_error_Some; congruence).
        destruct (Nat.ltb_spec i (length mem)); [congruence|lia].
      + congruence.
    - inversion F as [|? ? F1 F2]; subst. cbn in G. apply bind_Ok in G as [a' [Ga Gr]].
      assert (fst o < length mem) by (apply nth_error_Some; congruence).
      cbn [run_all]. unfold act. rewrite E, Ga. cbn [bind].
      rewrite (IH _ (fst o) a' r); [|rewrite nth_error_upd_same by lia; reflexivity|exact F2|exact Gr].
      f_equal. apply nth_ext; [rewrite !upd_length; reflexivity|].
      intros j x y E1 E2. rewrite nth_error_upd in E1, E2. rewrite upd_length in E1.
      destruct (Nat.eqb (fst o) j) eqn:EQ; [congruence|].
      rewrite nth_error_upd, EQ in E1. congruence.
  Qed.

  Lemma run_all_app t1 t2 (mem : list A) :
    run_all (t1 ++ t2) mem = do m <- run_all t1 mem; run_all t2 m.
  Proof.
    revert mem. induction t1 as [|o t1 IH]; intros mem; [reflexivity|].
    cbn [app run_all]. destruct (act o mem) as [m| | |]; cbn [bind]; [apply IH|reflexivity..].
  Qed.

  Lemma owned_rest ths : forall done (mem R : list A),
    (* workers 0..done-1 have finished *)
    length ths + done = length mem -> length R = length mem ->
    (forall j m r, j < done -> nth_error mem j = Some m -> nth_error R j = Some r -> m = r) ->
    (forall i fs m r, nth_error ths i = Some fs -> nth_error mem (done + i) = Some m ->
      nth_error R (done + i) = Some r ->
      Forall (fun o => fst o = done + i) fs /\ run_fns fs m = Ok r) ->
    run_all (concat ths) mem = Ok R.
  Proof.
    induction ths as [|fs ths IH]; intros d mem R L LR D H.
    - cbn. f_equal. apply nth_ext; [lia|]. intros i x y E1 E2.
      apply (D i x y); [|exact E1|exact E2]. cbn in L.
      assert (i < length mem) by (apply nth_error_Some; congruence). lia.
    - cbn [concat]. rewrite run_all_app. cbn [length] in L.
      destruct (nth_error mem d) as [m|] eqn:Em; [|apply nth_error_None in Em; lia].
      destruct (nth_error R d) as [r|] eqn:Er; [|apply nth_error_None in Er; lia].
      assert (N0 : d + 0 = d) by lia.
      destruct (H 0 fs m r eq_refl) as [F G]; [rewrite N0; exact Em|rewrite N0; exact Er|].
      rewrite N0 in F.
      rewrite (run_fns_nth fs mem d m r Em F G). cbn [bind].
      apply (IH (S d)).
      + rewrite upd_length. lia.
      + rewrite upd_length. exact LR.
      + intros j mj rj Hj E1 E2. destruct (Nat.eq_dec d j) as [EQ|NE].
        * subst j. rewrite nth_error_upd_same in E1 by lia. congruence.
        * rewrite nth_error_upd_other in E1 by exact NE. apply (D j); [lia|assumption..].
      + intros i fs' mi ri E1 E2 E3. rewrite nth_error_upd_other in E2 by lia.
        replace (S d + i) with (d + S i) in * by lia. exact (H (S i) fs' mi ri E1 E2 E3).
  Qed.

  (* workers that own their cells give the same memory under every schedule *)
  Lemma par_run_owned sched : forall ths mem R, owned ths mem R -> par_run sched ths mem = Ok R.
  Proof.
    induction sched as [|i sched IH]; intros ths mem R O.
    - cbn. destruct O as [L [LR H]]. apply (owned_rest ths 0).
      + rewrite Nat.add_0_r. exact L.
      + exact LR.
      + intros j m r Hj. lia.
      + exact H.
    - cbn [par_run]. destruct (nth_error ths i) as [[|o os]|] eqn:E.
      + apply IH. exact O.
      + destruct (owned_step ths mem R i o os O E) as [mem' [Ea O']].
        rewrite Ea. cbn [bind]. apply IH. exact O'.
      + apply IH. exact O.
  Qed.
End OWNED.
