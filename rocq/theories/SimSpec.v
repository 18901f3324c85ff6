(* Vocabulary for the statements about the simulation graph (PropsSim). *)
From Verif Require Import Base DpdModel DpdSpec SimModel.
Local Open Scope Z_scope.

(* the probability of a time not after x *)
Fixpoint upto (x : Z) (l : list (Z * Q)) : Q :=
  match l with
  | [] => 0
  | (t, p) :: l => if t <=? x then p + upto x l else upto x l
  end%Q.
(* the same, for times still to be rounded *)
Inductive mass_upto (g x : Z) : list (Z * Q) -> Q -> Prop :=
| upto_nil : mass_upto g x [] 0
| upto_in h p l q r : rounds g h r -> r <= x -> mass_upto g x l q -> mass_upto g x ((h, p) :: l) (p + q)
| upto_out h p l q r : rounds g h r -> x < r -> mass_upto g x l q -> mass_upto g x ((h, p) :: l) q.
(* times whose later one can still be rounded *)
Definition moderate (h : Z) : Prop := 0 <= h < 2 ^ 56.

(* b is used right after a: by the same train, or by the next train *)
Definition follows (g : list snode) (a b : nat) : Prop :=
  exists n, nth_error g a = Some n /\ (s_succ n = Some b \/ In b (s_order_out n)).
Inductive leads_to (g : list snode) : nat -> nat -> Prop :=
| leads_one a b : follows g a b -> leads_to g a b
| leads_more a b c : follows g a b -> leads_to g b c -> leads_to g a c.
Definition complete (g : list snode) : Prop := forall a b, follows g a b -> (b < length g)%nat.
(* the trains are numbered from 0 on, in any order *)
Definition numbered_trains (trains : list nat) : Prop := NoDup trains /\ forall tr, In tr trains -> (tr < length trains)%nat.

(* j has to be finished before i *)
Definition waits_for (g : list snode) (i j : nat) : Prop :=
  exists n, nth_error g i = Some n /\ (s_pred n = Some j \/ In j (s_order_in n)).
(* the node has a result *)
Definition finished_node (results : list dpd1) (i : nat) : Prop := exists d, nth_error results i = Some d /\ d1_mass d <> [].
Definition well_numbered (g : list snode) : Prop :=
  (forall i n, nth_error g i = Some n -> s_id n = i) /\ forall i j, waits_for g i j -> (j < length g)%nat.
