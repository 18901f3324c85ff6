(* What the map generator promises about OSM data, without reference to how it
   sorts, searches or copies. *)
From Coq Require Import Ascii String List ZArith Sorted.
From Verif Require Import ExportSpec.
Import ListNotations.
Local Open Scope list_scope.

(* s is a decimal number with an optional sign that fits in 64 bits, and z is it *)
Definition number (s : string) (z : Z) : Prop :=
  exists ds, ds <> [] /\ Forall is_digit ds /\
    ((list_ascii_of_string s = ds \/ list_ascii_of_string s = "+"%char :: ds) /\ z = Z.of_N (digits_value ds) \/
     list_ascii_of_string s = "-"%char :: ds /\ z = (- Z.of_N (digits_value ds))%Z) /\
    (- 2 ^ 63 <= z < 2 ^ 63)%Z.
Definition same_number (s t : string) : Prop := exists z, number s z /\ number t z.
Definition smaller (s t : string) : Prop := exists a b, number s a /\ number t b /\ (a < b)%Z.

(* out holds the entries of l in ascending order of their ids, of the entries
   with one id exactly the first *)
Definition cleaned {T} (id : T -> string) (l out : list T) : Prop :=
  StronglySorted (fun x y => smaller (id x) (id y)) out /\
  forall x, In x out <-> exists pre post, l = pre ++ x :: post /\ Forall (fun y => ~ same_number (id y) (id x)) pre.

(* nds' is nds with new next to the first ref: behind it, but before it if ref
   comes last; a list without ref stays *)
Inductive beside (new ref : string) : list string -> list string -> Prop :=
| beside_none nds : ~ In ref nds -> beside new ref nds nds
| beside_inner pre post : ~ In ref pre -> post <> [] -> beside new ref (pre ++ ref :: post) (pre ++ ref :: new :: post)
| beside_last pre : ~ In ref pre -> beside new ref (pre ++ [ref]) (pre ++ [new; ref]).

(* v is the value of the first tag with the key *)
Inductive first_tag (key v : string) : list (string * string) -> Prop :=
| first_here tags : first_tag key v ((key, v) :: tags)
| first_later k w tags : k <> key -> first_tag key v tags -> first_tag key v ((k, w) :: tags).

(* a station or a halt of an OSM file *)
Definition stop_tags (tags : list (string * string)) : Prop :=
  first_tag "railway" "station" tags \/ first_tag "railway" "halt" tags.
