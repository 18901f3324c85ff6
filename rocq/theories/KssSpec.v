(* What service definitions mean, independent of how they are accumulated. *)
From Verif Require Import Base KssModel.
From Coq Require Import Ascii.
Open Scope Z_scope.

(* the service puts day d into the calendar: its mask, starting at its start
   date, has a character other than '0' for d, or it is a special include of d *)
Definition adds (s : service) (d : Z) : Prop :=
  match s with
  | Mask start _ mask => exists lo c, parse_date start = Ok lo /\ lo <= d /\
      nth_error mask (Z.to_nat (d - lo)) = Some c /\ c <> "0"%char
  | Special type date => type = ["i"; "n"; "c"; "l"; "u"; "d"; "e"]%char /\ parse_date date = Ok d
  end.
(* it is a special exclude of day d *)
Definition removes (s : service) (d : Z) : Prop :=
  match s with
  | Mask _ _ _ => False
  | Special type date => type = ["e"; "x"; "c"; "l"; "u"; "d"; "e"]%char /\ parse_date date = Ok d
  end.
(* d is the start or end date of a mask, or an included or excluded day *)
Definition mentions (s : service) (d : Z) : Prop :=
  match s with
  | Mask start fin _ => parse_date start = Ok d \/ parse_date fin = Ok d
  | Special _ _ => adds s d \/ removes s d
  end.
(* the last of the services that speaks about d adds it *)
Definition last_adds (l : list service) (d : Z) : Prop :=
  exists l1 s l2, l = l1 ++ s :: l2 /\ adds s d /\ forall s', In s' l2 -> ~ removes s' d.
(* dates are readable, and a mask has one character per day of its range *)
Definition proper (s : service) : Prop :=
  match s with
  | Mask start fin mask => exists lo hi, parse_date start = Ok lo /\ parse_date fin = Ok hi /\
      lo <= hi /\ Z.of_nat (length mask) = hi - lo + 1
  | Special _ date => exists d, parse_date date = Ok d
  end.
(* the service list starts with a mask, every service is proper and all dates
   lie within 512 days *)
Definition acceptable (l : list service) : Prop :=
  (exists start fin mask l', l = Mask start fin mask :: l') /\
  (forall s, In s l -> proper s) /\
  (forall s s' d e, In s l -> In s' l -> mentions s d -> mentions s' e -> d - e < 512).
(* the number of days announced by the services: '1's of the masks, plus one for
   each include, minus one for each exclude *)
Definition announced (s : service) : Z :=
  match s with
  | Mask _ _ mask => Z.of_nat (count_occ ascii_dec mask "1"%char)
  | Special type _ =>
      if list_eq_dec ascii_dec type ["i"; "n"; "c"; "l"; "u"; "d"; "e"]%char then 1
      else if list_eq_dec ascii_dec type ["e"; "x"; "c"; "l"; "u"; "d"; "e"]%char then -1 else 0
  end.
Definition tally (l : list service) : Z := fold_right (fun s n => announced s + n) 0 l.
