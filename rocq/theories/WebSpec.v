(* Vocabulary for C126: a server in good order, the addresses it does not survive, what the
   answers to the questions of the client should be. *)
From Coq Require Import List NArith ZArith Ascii String.
From Verif Require Import Base OgServeModel OgServeSpec RouterModel RouterSpec WebModel.
From Verif Require KssDates ServeModel ServeSpec PropsServe PropsOgServe.
Import ListNotations.

Definition infras (w : web) : list (list ascii * ServeModel.infra) := ServeModel.sv_infras (wb_server w).

(* the search module was made for the infrastructures; they have different names and are in good
   order (ServeSpec.v); there is a list of timetables for each of them, with different names;
   there are tiles for each of them *)
Record in_order (w : web) : Prop := {
  io_search : ServeModel.get_search_module (infras w) = Ok (wb_server w);
  io_names : NoDup (map fst (infras w));
  io_sound : forall n i, In (n, i) (infras w) -> ServeSpec.sound i;
  io_tt_infras : NoDup (map fst (wb_timetables w));
  io_timetables : forall n, In n (map fst (wb_timetables w)) <-> In n (map fst (infras w));
  io_tt_names : forall n tts, In (n, tts) (wb_timetables w) -> NoDup (map fst tts);
  io_tiles : forall n, In n (wb_tiles w) <-> In n (map fst (infras w)) }.

(* the timetable t of the infrastructure i has this interval and these trains *)
Definition timetable_of (w : web) (i t : list ascii) (iv : N * N) (trains : list ttrain) : Prop :=
  exists tts, In (i, tts) (wb_timetables w) /\ In (t, (iv, trains)) tts.

(* addresses that end the server: a number of an element or of an exclusion set that does not
   exist; a number of 2^32 or more; the timetables of an infrastructure that does not exist *)
Definition fatal (w : web) (target : list ascii) : Prop :=
  (exists n i s v, In (n, i) (infras w) /\ KssDates.numeral s (Z.of_N v) /\
     (asks_for H_element [n; s] target /\ ~ ServeSpec.within (ServeModel.in_elements i) v \/
      asks_for H_exclusion_set [n; s] target /\ ~ ServeSpec.within (ServeModel.in_exclusion_sets i) v \/
      (asks_for H_station [n; s] target \/ asks_for H_station_route [n; s] target \/ asks_for H_interlocking_route [n; s] target \/
       asks_for H_element [n; s] target \/ asks_for H_exclusion_set [n; s] target) /\ (2 ^ 32 <= v)%N)) \/
  (exists n, asks_for H_timetables [n] target /\ ~ In n (map fst (infras w))).

(* an address that asks for the ordering of trains *)
Definition about_ordering (target : list ascii) : Prop := exists ps, asks_for H_ordering ps target.
