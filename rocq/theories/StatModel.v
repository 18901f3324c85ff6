(* Model of src/infrastructure/parsers/iss/get_infra_stats.cc and
   include/soro/infrastructure/infra_stats.h.

   Simplifications
   - the files are given as the stations they contain (see InfraModel.v), so the
     rail plan files are one list; "bad xml" is not modelled
   - a counter (std::size_t) is a natural number: it is at most the number of
     nodes in the files *)
From Coq Require Import List Bool Arith.
From Verif Require Import Base TextModel InfraModel.
Import ListNotations.
Local Open Scope nat_scope.

Definition etype_dec (a b : etype) : {a = b} + {a <> b}.
Proof. decide equality. Defined.
Definition ty_eqb (a b : etype) : bool := if etype_dec a b then true else false.

(* infra_stats.h:11-27 *)
Record stats : Type := mkstats {
  is_number : etype -> nat;
  is_sections : nat;
  is_stations : nat }.
Definition no_stats : stats := mkstats (fun _ => O) O O.
Definition set_number (t : etype) (f : nat -> nat) (is : stats) : stats :=
  mkstats (fun t' => if ty_eqb t' t then f (is_number is t') else is_number is t')
          (is_sections is) (is_stations is).

(* type.h:52-62 all_types *)
Definition all_types : list etype :=
  [BUMPER; TRACK_END; KM_JUMP; BORDER; LINE_SWITCH; SIMPLE_SWITCH; CROSS; MAIN_SIGNAL;
   PROTECTION_SIGNAL; APPROACH_SIGNAL; RUNTIME_CHECKPOINT; EOTD; SPEED_LIMIT; POINT_SPEED;
   BRAKE_PATH; LZB_START; LZB_END; LZB_BLOCK_SIGN; ETCS_START; ETCS_END; ETCS_BLOCK_SIGN;
   FORCED_HALT; META; HALT; TUNNEL; ENTRY; TRACK_NAME; RUNTIME_CHECKPOINT_UNDIRECTED;
   LEVEL_CROSSING; SLOPE].

(* infra_stats.h:17-20 total_elements *)
Definition total_elements (is : stats) : nat :=
  fold_left (fun n t => n + is_number is t) all_types O.

(* the children of a Spurplanknoten with the types of their names, get_type *)
Definition child_types (x : xsection) : list etype :=
  stype (sn_name (xs_start x)) :: map tn_type (xs_track x) ++ [stype (sn_name (xs_end x))].

(* get_infra_stats.cc:13-22 *)
Definition count_elements_in_section (x : xsection) (is : stats) : stats :=
  fold_left (fun is t => if negb (ty_eqb t INVALID) then set_number t S is else is)
            (child_types x)
            (mkstats (is_number is) (S (is_sections is)) (is_stations is)).
(* get_infra_stats.cc:24-31 *)
Definition count_elements_in_station (x : xstation) (is : stats) : stats :=
  fold_left (fun is x => count_elements_in_section x is) (st_sections x)
            (mkstats (is_number is) (is_sections is) (S (is_stations is))).

(* get_infra_stats.cc:57-71 the body of the loop over all_types *)
Definition scale (t : etype) (is : stats) : stats :=
  let is := if is_simple_element t && negb (ty_eqb t BORDER)
            then set_number t (fun n => n / 2) is else is in
  let is := if ty_eqb t SIMPLE_SWITCH then set_number t (fun n => n / 3) is else is in
  if ty_eqb t CROSS then set_number t (fun n => n / 4) is else is.
(* get_infra_stats.cc:33-74 *)
Definition get_infra_stats (l : list xstation) : stats :=
  let is := fold_left (fun is x => count_elements_in_station x is) l no_stats in
  let is := mkstats (is_number is) (is_sections is + is_number is BORDER / 2) (is_stations is) in
  fold_left (fun is t => scale t is) all_types is.
