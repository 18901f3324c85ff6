(* Vocabulary for the start of the web server: what a user can have done to the
   files before, and which map belongs to an infrastructure. *)
From Coq Require Import Ascii String Permutation.
From Verif Require Import Base StockModel StartModel.

Section Spec.
  Context {IS TS I T OSM DB : Type}.
  Notation world := (StartModel.world IS TS I T OSM DB).
  Variable load_infra : IS -> res I.
  Variable load_timetable : TS -> I -> res (option T).
  Variable export_osm : I -> res OSM.
  Variable import_tiles : OSM -> res DB.
  Variable order : list (text * I) -> list (text * I).

  (* the source directories of the user: no two entries of the same name, none
     written later than now *)
  Definition sources_ok (w : world) (now : N) : Prop :=
    NoDup (map fst (w_infras w)) /\ NoDup (map fst (w_timetables w)) /\
    (forall n x t, In (n, Directory x t) (w_infras w) -> (t <= now)%N).

  (* no server has run yet *)
  Definition untouched (w : world) : Prop :=
    w_raw_infras w = [] /\ w_raw_timetables w = [] /\ w_osm w = [] /\ w_tiles w = [].

  (* the files of the server are as before *)
  Definition same_server_files (v w : world) : Prop :=
    w_raw_infras w = w_raw_infras v /\ w_raw_timetables w = w_raw_timetables v /\
    w_osm w = w_osm v /\ w_tiles w = w_tiles v.

  (* the user has put, replaced or removed source directories at the time now; a
     directory that was not replaced is the same as before *)
  Definition sources_changed (v w : world) (now : N) : Prop :=
    sources_ok w now /\ same_server_files v w /\
    forall n x t, In (n, Directory x t) (w_infras w) ->
      In (n, Directory x t) (w_infras v) \/ t = now.

  (* the files after any number of server starts that were not cut short, the
     user replacing source directories as a whole in between; the clock goes on
     from one event to the next *)
  Inductive past : world -> N -> Prop :=
  | at_first w now :
      sources_ok w now -> untouched w -> past w now
  | after_change v w t now :
      past v t -> (t < now)%N -> sources_changed v w now -> past w now
  | after_start v w s t now steps left e :
      past v t -> (t < now)%N ->
      start load_infra load_timetable export_osm import_tiles order s now v steps = ((w, left), e) ->
      e <> Cut -> past w now.

  (* the source directory of the infrastructure n, and what it says *)
  Definition infra_source (w : world) (n : text) (i : I) : Prop :=
    exists x t, In (n, Directory x t) (w_infras w) /\ load_infra x = Ok i.

  (* the map of an infrastructure *)
  Definition drawn_map (i : I) (d : DB) : Prop :=
    exists o, export_osm i = Ok o /\ import_tiles o = Ok d.

  (* the timetable directory n with time t is read again: asked for, or nothing
     is kept of it, or what is kept is older *)
  Definition due (s : settings) (w : world) (n : text) (t : N) : Prop :=
    regenerate s = true \/ serialization_possible s = false \/
    forall f, In (n, f) (w_raw_timetables w) -> (f_time f < t)%N.

  (* no two infrastructures whose names differ only behind the last dot *)
  Definition stem (n p : text) : Prop :=
    (n = p /\ ~ In "."%char (tl n)) \/
    (exists q, n = p ++ "."%char :: q /\ p <> [] /\ ~ In "."%char q).
  Definition stems_distinct (w : world) : Prop :=
    forall n m p, In n (map fst (w_infras w)) -> In m (map fst (w_infras w)) ->
      stem n p -> stem m p -> n = m.

  (* the maps were drawn from the sources as they are now: no server has run
     yet, or one that read and drew everything anew (and keeps the infrastructures,
     or none is kept); servers may have run since, but the sources have not changed *)
  Inductive maps_fresh : world -> Prop :=
  | no_map_yet w :
      NoDup (map fst (w_infras w)) -> untouched w -> maps_fresh w
  | all_drawn v w s now steps left sv :
      NoDup (map fst (w_infras v)) -> regenerate s = true ->
      serialization_possible s = true \/ w_raw_infras v = [] ->
      start load_infra load_timetable export_osm import_tiles order s now v steps = ((w, left), Runs sv) ->
      maps_fresh w
  | started_again v w s now steps left e :
      maps_fresh v ->
      start load_infra load_timetable export_osm import_tiles order s now v steps = ((w, left), e) ->
      e <> Cut -> maps_fresh w.
End Spec.
