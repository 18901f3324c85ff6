(* Model of quantities with units: include/soro/utls/strong_types/type_list.h,
   fraction.h, include/soro/si/units.h.  Types are data here: a type_list of base
   unit tags is a list, the type of a fraction a pair of lists.

   Simplifications
   - values (double) are exact rationals; the second template parameter of the
     operators' results, the precision, is the same everywhere *)
From Verif Require Import Base.
From Coq Require Export QArith.
Local Open Scope nat_scope.

(* fraction.h:21-24 *)
Inductive tag : Type := Meter | Second | Kilogram | Ampere.
Definition tag_eqb (a b : tag) : bool :=
  match a, b with
  | Meter, Meter | Second, Second | Kilogram, Kilogram | Ampere, Ampere => true
  | _, _ => false
  end.
(* type_list.h:13-22 *)
Fixpoint count (needle : tag) (haystack : list tag) : nat :=
  match haystack with
  | [] => 0
  | h :: r => (if tag_eqb needle h then 1 else 0) + count needle r
  end.
(* type_list.h:41-64; the case of one element is an instance of the general one *)
Fixpoint remove_once (needle : tag) (haystack : list tag) : list tag :=
  match haystack with
  | [] => []
  | h :: r => if tag_eqb needle h then r else h :: remove_once needle r
  end.
(* type_list.h:76-93 *)
Fixpoint remove_times (n : nat) (needle : tag) (haystack : list tag) : list tag :=
  match n with
  | O => haystack
  | S n => remove_times n needle (remove_once needle haystack)
  end.
(* type_list.h:68-72, 97-99 *)
Definition concat_t (a b : list tag) : list tag := a ++ b.
(* type_list.h:103-118 *)
Fixpoint concat_times (n : nat) (l : list tag) : list tag :=
  match n with O => [] | S n => concat_t l (concat_times n l) end.

(* fraction.h:28-35 *)
Definition min_v (a b : nat) : nat := if b <? a then b else a.
(* fraction.h:39-62 *)
Definition simplify_tag_n (n d : list tag) (t : tag) : list tag :=
  if negb (count t n =? 0) && negb (count t d =? 0) then remove_times (min_v (count t n) (count t d)) t n else n.
Definition simplify_tag_d (n d : list tag) (t : tag) : list tag :=
  if negb (count t n =? 0) && negb (count t d =? 0) then remove_times (min_v (count t n) (count t d)) t d else d.
(* fraction.h:69-83 *)
Definition simplify_n (n d : list tag) : list tag :=
  simplify_tag_n (simplify_tag_n (simplify_tag_n (simplify_tag_n n d Meter) d Second) d Kilogram) d Ampere.
Definition simplify_d (n d : list tag) : list tag :=
  simplify_tag_d n (simplify_tag_d n (simplify_tag_d n (simplify_tag_d n d Meter) Second) Kilogram) Ampere.
(* fraction.h:85-96 *)
Definition is_same_type_list (a b : list tag) : bool :=
  (count Meter a =? count Meter b) && (count Second a =? count Second b) &&
  (count Kilogram a =? count Kilogram b) && (count Ampere a =? count Ampere b).

(* fraction.h:115-223 *)
Record fraction : Type := mkfr { fr_n : list tag; fr_d : list tag; fr_val : Q }.
(* fraction.h:98-111, 119-126: whether a value of the first type is accepted where
   one of the second is expected *)
Definition is_same_fraction (f g : fraction) : bool :=
  is_same_type_list (fr_n f) (fr_n g) && is_same_type_list (fr_d f) (fr_d g).
(* fraction.h:139-146 *)
Definition is_fraction (f : fraction) : bool := match fr_d f with [] => false | _ => true end.
Definition is_unitless (f : fraction) : bool :=
  match fr_n f, fr_d f with [], [] => true | _, _ => false end.
(* fraction.h:194-201 *)
Definition mul (f g : fraction) : fraction :=
  let n := concat_t (fr_n f) (fr_n g) in
  let d := concat_t (fr_d f) (fr_d g) in
  mkfr (simplify_n n d) (simplify_d n d) (fr_val f * fr_val g).
(* fraction.h:203-210 *)
Definition div (f g : fraction) : fraction :=
  let n := concat_t (fr_n f) (fr_d g) in
  let d := concat_t (fr_d f) (fr_n g) in
  mkfr (simplify_n n d) (simplify_d n d) (fr_val f / fr_val g).
(* fraction.h:212-220: the member pow<Exp>() *)
Definition pow_member (e : nat) (f : fraction) : fraction :=
  let n := concat_times e (fr_n f) in
  let d := concat_times e (fr_d f) in
  mkfr (simplify_n n d) (simplify_d n d) (Qpower (fr_val f) (Z.of_nat e)).
(* fraction.h:243-253: the function pow<Exp>(f) for Exp = S e; there is none for 0 *)
Fixpoint pow_free (e : nat) (f : fraction) : fraction :=
  match e with
  | O => f
  | S e => mul f (pow_free e f)
  end.

(* units.h:10-33 *)
Definition unitless (v : Q) : fraction := mkfr [] [] v.
Definition length_m (v : Q) : fraction := mkfr [Meter] [] v.
Definition time_s (v : Q) : fraction := mkfr [Second] [] v.
Definition weight_kg (v : Q) : fraction := mkfr [Kilogram] [] v.
Definition current_a (v : Q) : fraction := mkfr [Ampere] [] v.
Definition speed_t : fraction := div (length_m 1) (time_s 1).
Definition acceleration_t : fraction := div speed_t (time_s 1).
Definition force_t : fraction := mul (weight_kg 1) acceleration_t.
Definition area_t : fraction := mul (length_m 1) (length_m 1).
