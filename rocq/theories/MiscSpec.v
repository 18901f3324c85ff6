(* Vocabulary for the statements about smaller parts (PropsMisc). *)
From Coq Require Import Ascii String.
From Verif Require Import Base StockModel MiscModel.
Local Open Scope Z_scope.

(* the values of an integral type *)
Definition value_of (t : ity) (v : Z) : Prop :=
  if i_signed t then - 2 ^ (8 * Zpos (i_bytes t) - 1) <= v < 2 ^ (8 * Zpos (i_bytes t) - 1)
  else 0 <= v < 2 ^ (8 * Zpos (i_bytes t)).

(* the members that have a property, in their order *)
Inductive picked {A} (P : A -> Prop) : list A -> list A -> Prop :=
| picked_nil : picked P [] []
| picked_yes a l m : P a -> picked P l m -> picked P (a :: l) (a :: m)
| picked_no a l m : ~ P a -> picked P l m -> picked P (a :: l) m.
Definition index_file : text := list_ascii_of_string "Index.xml".
(* the last component of a path begins with the letters *)
Definition called (s : string) (p : path) : Prop :=
  exists front name rest, (p = front ++ [name] \/ (p = [] /\ name = [])) /\ name = list_ascii_of_string s ++ rest.
(* the kinds of files that are used *)
Definition needed (p : path) : Prop :=
  called "Spurplanbetriebsstellen" p \/ called "Stammdaten" p \/ called "Ordnungsrahmen_ORBtrst" p \/ called "Ordnungsrahmen_ORStr" p.
Definition loadable (fs : fsys) (p : path) : Prop := exists i, fs p = Some (Regular i).
(* what exists lies in a folder *)
Definition consistent (fs : fsys) : Prop := forall q n, fs (q ++ [n]) <> None -> fs q = Some Folder.
Definition ends_in (s : string) (p : path) : Prop :=
  exists front c stem, p = front ++ [c :: stem ++ list_ascii_of_string s].
