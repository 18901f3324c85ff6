(* Shared vocabulary of all models: outcomes of a C++ call and fixed-width
   unsigned arithmetic. *)
From Coq Require Export List NArith ZArith Bool Lia.
Export ListNotations.

(* Outcome of a modelled C++ call.
   - Ok a   normal return
   - Throw  a C++ exception; this includes utls::sassert/expect/ensure
            (include/soro/utls/sassert.h), which throw std::runtime_error in
            builds without NDEBUG, and utl::verify, which always throws
   - UB     undefined behaviour / out-of-bounds access
   - Fuel   the model's loop bound was too small (excluded by the theorems) *)
Inductive res (A : Type) : Type :=
| Ok (a : A)
| Throw
| UB
| Fuel.
Arguments Ok {A} a.
Arguments Throw {A}.
Arguments UB {A}.
Arguments Fuel {A}.

Definition bind {A B : Type} (m : res A) (k : A -> res B) : res B :=
  match m with
  | Ok a => k a
  | Throw => Throw
  | UB => UB
  | Fuel => Fuel
  end.

Notation "'do' x <- m ; k" := (bind m (fun x => k))
  (at level 200, x name, m at level 100, k at level 200, right associativity).
Notation "'do' ' p <- m ; k" := (bind m (fun p => k))
  (at level 200, p pattern, m at level 100, k at level 200, right associativity).
Notation "m ;; k" := (bind m (fun _ => k))
  (at level 199, right associativity).

(* include/soro/utls/sassert.h: sassert, expect, ensure (debug builds). *)
Definition sassert (b : bool) : res unit := if b then Ok tt else Throw.

(* uint32_t arithmetic *)
Definition M32 : N := (2 ^ 32)%N.
Definition w32 (n : N) : N := (n mod M32)%N.
Definition add32 (a b : N) : N := w32 (a + b)%N.
(* a - b on uint32_t operands (both < 2^32) *)
Definition sub32 (a b : N) : N := w32 (a + (M32 - b))%N.
Definition mul32 (a b : N) : N := w32 (a * b)%N.

Lemma bind_Ok {A B} (m : res A) (k : A -> res B) b :
  bind m k = Ok b <-> exists a, m = Ok a /\ k a = Ok b.
Proof.
  split.
  - destruct m as [a| | |]; simpl; intros H; try discriminate. exists a; auto.
  - intros [a [Hm Hk]]. rewrite Hm. exact Hk.
Qed.

Lemma sassert_true b : b = true -> sassert b = Ok tt.
Proof. intros ->. reflexivity. Qed.

Lemma M32_eq : M32 = 4294967296%N.
Proof. reflexivity. Qed.

Lemma w32_small n : (n < M32)%N -> w32 n = n.
Proof. intros H. unfold w32. apply N.mod_small. exact H. Qed.

Lemma sub32_le a b : (b <= a)%N -> (a < M32)%N -> sub32 a b = (a - b)%N.
Proof.
  intros Hb Ha. unfold sub32, w32.
  replace (a + (M32 - b))%N with ((a - b) + 1 * M32)%N by lia.
  rewrite N.mod_add by discriminate. apply N.mod_small. lia.
Qed.

Lemma add32_small a b : (a + b < M32)%N -> add32 a b = (a + b)%N.
Proof. apply w32_small. Qed.

Lemma mul32_small a b : (a * b < M32)%N -> mul32 a b = (a * b)%N.
Proof. apply w32_small. Qed.
