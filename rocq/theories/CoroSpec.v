(* Vocabulary for generators: what a program delivers when it is read as plain
   nested code. *)
From Verif Require Import Base CoroModel.

Section Spec.
  Context {A V E : Type}.
  Notation prog := (prog A V E).
  Notation event := (A + V)%type.

  (* actions and values in the order of the program, those of a yielded generator
     in its place; and the exception at the end, if any.  An exception of a yielded
     generator arrives where it is yielded. *)
  Fixpoint meant (b : prog) : list event * option E :=
    match b with
    | p_end => ([], None)
    | p_throw e => ([], Some e)
    | p_do a k => (inl a :: fst (meant k), snd (meant k))
    | p_yield v k => (inr v :: fst (meant k), snd (meant k))
    | p_sub g k h =>
        let rest := match snd (meant g) with None => meant k | Some e => meant (h e) end in
        (fst (meant g) ++ fst rest, snd rest)
    end.

  Definition values (l : list event) : list V := flat_map (fun x => match x with inl _ => [] | inr v => [v] end) l.

  (* the same, except that the exception of a generator without any value is lost *)
  Fixpoint told (b : prog) : list event * option E :=
    match b with
    | p_end => ([], None)
    | p_throw e => ([], Some e)
    | p_do a k => (inl a :: fst (told k), snd (told k))
    | p_yield v k => (inr v :: fst (told k), snd (told k))
    | p_sub g k h =>
        let rest := match snd (told g), values (fst (told g)) with
                    | Some e, _ :: _ => told (h e)
                    | _, _ => told k
                    end in
        (fst (told g) ++ fst rest, snd rest)
    end.

  (* no yielded generator fails before its first value *)
  Fixpoint fails_late (b : prog) : Prop :=
    match b with
    | p_end | p_throw _ => True
    | p_do _ k | p_yield _ k => fails_late k
    | p_sub g k h => fails_late g /\ fails_late k /\ (forall e, fails_late (h e)) /\
                     (snd (meant g) <> None -> values (fst (meant g)) <> [])
    end.

  (* everything up to the value number n (from 0) *)
  Fixpoint up_to (n : nat) (l : list event) : list event :=
    match l with
    | [] => []
    | inl a :: l => inl a :: up_to n l
    | inr v :: l => inr v :: match n with 0 => [] | S n => up_to n l end
    end.

  Definition end_of (o : option E) : ending E := match o with None => ran_out | Some e => failed e end.

  (* reading at most n + 1 values of something that delivers d *)
  Definition reads (d : list event * option E) (n : nat) (t : list event) (e : ending E) : Prop :=
    (length (values (fst d)) <= n /\ t = fst d /\ e = end_of (snd d)) \/
    (n < length (values (fst d)) /\ t = up_to n (fst d) /\ e = left_early).

  Definition nothing_left (s : heap A V E) : Prop := forall p, h_cells s p = None.
End Spec.
