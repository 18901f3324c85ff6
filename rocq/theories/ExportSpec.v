(* What an exported exclusion graph looks like, without reference to the writer. *)
From Coq Require Import Ascii List NArith.
Import ListNotations.

Definition is_digit (c : ascii) : Prop := (48 <= N_of_ascii c <= 57)%N.
(* the value of a sequence of decimal digits *)
Definition digits_value (t : list ascii) : N :=
  fold_left (fun v c => 10 * v + (N_of_ascii c - 48))%N t 0%N.
(* t is the number n in decimal: digits, no leading zero *)
Definition spells (t : list ascii) (n : N) : Prop :=
  t <> [] /\ Forall is_digit t /\ digits_value t = n /\
  (forall rest, t = "0"%char :: rest -> rest = []).

(* one line: every number is followed by a blank *)
Inductive line_of : list ascii -> list N -> Prop :=
| line_nil : line_of [] []
| line_cons t n l row : spells t n -> line_of l row -> line_of (t ++ " "%char :: l) (n :: row).

(* a file: every line ends with a line break *)
Inductive file_of : list ascii -> list (list N) -> Prop :=
| file_nil : file_of [] []
| file_cons l row text rows : line_of l row -> file_of text rows ->
    file_of (l ++ "010"%char :: text) (row :: rows).
