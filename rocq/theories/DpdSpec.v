(* Vocabulary for the statements about probability distributions (PropsDpd). *)
From Verif Require Import Base DpdModel.
Local Open Scope Z_scope.

(* x is the multiple of g next to h; the smaller one if h lies in the middle *)
Definition rounds (g h x : Z) : Prop := (g | x) /\ - g < 2 * (h - x) <= g.
(* the sum of the probabilities listed for x *)
Fixpoint listed {A} (eqb : A -> A -> bool) (l : list (A * Q)) (x : A) : Q :=
  match l with
  | [] => 0
  | (y, p) :: l => if eqb y x then p + listed eqb l x else listed eqb l x
  end%Q.
(* the sum of the probabilities inserted for values that round to x *)
Inductive mass (g x : Z) : list (Z * Q) -> Q -> Prop :=
| mass_nil : mass g x [] 0
| mass_in h p l q : rounds g h x -> mass g x l q -> mass g x ((h, p) :: l) (p + q)
| mass_out h p l q : ~ rounds g h x -> mass g x l q -> mass g x ((h, p) :: l) q.
Inductive mass2 (g x v : Z) : list (Z * Z * Q) -> Q -> Prop :=
| mass2_nil : mass2 g x v [] 0
| mass2_in h p l q : rounds g h x -> mass2 g x v l q -> mass2 g x v ((h, v, p) :: l) (p + q)
| mass2_out h w p l q : ~ (rounds g h x /\ w = v) -> mass2 g x v l q -> mass2 g x v ((h, w, p) :: l) q.
(* no later value rounds to less than the first one *)
Definition first_least (g : Z) (hs : list Z) : Prop :=
  match hs with
  | [] => True
  | h0 :: hs => forall h x0 x, In h hs -> rounds g h0 x0 -> rounds g h x -> x0 <= x
  end.
(* values a 64 bit time can hold without any risk *)
Definition ordinary (h : Z) : Prop := 0 <= h < 2 ^ 57.

(* within the entries of one time, no speed is below the one inserted first *)
Definition slowest_first (g : Z) (l : list (Z * Z * Q)) : Prop :=
  forall x a h v p b h' v' p' c, l = a ++ (h, v, p) :: b ++ (h', v', p') :: c ->
    rounds g h x -> rounds g h' x -> (forall k w q, In (k, w, q) a -> ~ rounds g k x) -> v <= v'.
(* all entries, walking through both levels *)
Fixpoint walk (P : primary) (l : list (Z * dpd1)) : res (list (Z * Z * Q)) :=
  match l with
  | [] => Ok []
  | (x, d) :: l => do es <- entries1 P d; do r <- walk P l; Ok (map (fun e => (x, fst e, snd e)) es ++ r)
  end.
Definition pair_eqb (a b : Z * Z) : bool := (fst a =? fst b) && (snd a =? snd b).
(* the delays considered, in seconds, and the number given to each *)
Definition five_minutes : list Z := map Z.of_nat (seq 0 300).
Definition lateness (delay : Z) : Q := ((1#4) ^ (delay - 1) * (3#4))%Q.
(* at a halt: each delay once; when running: each delay with each of the speeds at
   most 5 km/h away, or with those from 0 to twice the speed if it is below 5 *)
Definition halt_cases : list (Z * Q) := map (fun d => (d, lateness d)) five_minutes.
Definition running_cases (arrival speed : Z) : list (Z * Z * Q) :=
  let spread := if speed <? 5 then speed else 5 in
  flat_map (fun k => map (fun d => (arrival + d, speed - spread + Z.of_nat k, (lateness d / inject_Z spread * 2)%Q)) five_minutes)
           (seq 0 (Z.to_nat (2 * spread + 1))).
