(* C86 - C88: what the web server serves after its start.

   Reading guide.  `start ... s now w steps = ((w', left), e)`: the server is
   started at the time now on the files w, with steps writes until the machine
   stops; it leaves the files w' and ends as e (`Runs sv`: it serves).
   `load_infra`, `load_timetable`, `export_osm`, `import_tiles` stand for reading
   the sources and drawing the map, `order` for the order of the hash map; the
   theorems hold for all of them.  `past w t`: any number of starts and replaced
   source directories led to the files w at time t; `maps_fresh w`: the sources
   have not changed since the maps were drawn; `due`: see StartSpec.v. *)
From Coq Require Import Ascii String Permutation.
From Verif Require Import Base StockModel StartModel StartSpec StartProofs StartWhole StartRedraw.

(* a small server: a source is a number, everything is the number itself; a
   timetable fits every infrastructure *)
Definition name (s : string) : text := list_ascii_of_string s.
Definition ex_world (is ts : list (text * entry nat)) : world nat nat nat nat nat nat := mk_world is ts [] [] [] [].
Definition ex_start (s : settings) : N -> proc nat nat nat nat nat nat (server nat nat) :=
  start (fun x => Ok x) (fun x _ => Ok (Some x)) (fun i => Ok i) (fun o => Ok o) (fun l => l) s.
Definition plain_settings : settings := mk_settings false true.
Definition files {A} (r : (world nat nat nat nat nat nat * nat) * ending A) : world nat nat nat nat nat nat := fst (fst r).
Definition result {A} (r : (world nat nat nat nat nat nat * nat) * ending A) : ending A := snd r.
Definition net := name "net".
Definition tt_name := name "tt".
Definition w1 := ex_world [(net, Directory 1 5%N); (name "readme", Plain)] [(tt_name, Directory 7 5%N)].
(* after the first start, at time 6 *)
Definition w2 := files (ex_start plain_settings 6%N w1 100).
(* the source was replaced at time 7 *)
Definition w3 := mk_world [(net, Directory 2 7%N)] (w_timetables w2) (w_raw_infras w2) (w_raw_timetables w2) (w_osm w2) (w_tiles w2).

(* ---- C86 ---- *)
(* After every history of starts that were not cut short and source directories
   replaced as a whole, a server serves exactly the infrastructures in the
   source directories, as their sources are now.
   Missing: sources edited in place (C86_in_place_refuted), starts cut short
   (C86_cut_refuted). *)
Theorem C86_infrastructures_partial :
  forall IS TS I T OSM DB (load_infra : IS -> res I) (load_timetable : TS -> I -> res (option T))
    (export_osm : I -> res OSM) (import_tiles : OSM -> res DB) order s w t now steps w' left sv,
    (forall l, Permutation l (order l)) ->
    past load_infra load_timetable export_osm import_tiles order w t -> (t < now)%N ->
    start load_infra load_timetable export_osm import_tiles order s now w steps = ((w', left), Runs sv) ->
    (forall n i, get_infra sv n = Some i <-> infra_source load_infra w n i) /\
    (forall n, In n (infrastructure_names sv) <-> exists x tx, In (n, Directory x tx) (w_infras w)).
Proof. intros IS TS I T OSM DB li lt eo it o s w t now steps w' left sv _ P L E. exact (served_current li lt eo it o w t s now steps w' left sv P L E). Qed.
Print Assumptions C86_infrastructures_partial.

(* asked to regenerate, or compiled without serialization, it does so whatever
   happened before *)
Theorem C86_regenerate :
  forall IS TS I T OSM DB (load_infra : IS -> res I) (load_timetable : TS -> I -> res (option T))
    (export_osm : I -> res OSM) (import_tiles : OSM -> res DB) order s (w : world IS TS I T OSM DB) now steps w' left sv,
    NoDup (map fst (w_infras w)) -> regenerate s = true \/ serialization_possible s = false ->
    start load_infra load_timetable export_osm import_tiles order s now w steps = ((w', left), Runs sv) ->
    (forall n i, get_infra sv n = Some i <-> infra_source load_infra w n i) /\
    (forall n, In n (infrastructure_names sv) <-> exists x tx, In (n, Directory x tx) (w_infras w)).
Proof. intros IS TS I T OSM DB li lt eo it o s w now steps w' left sv. exact (served_regenerated li lt eo it o s now w steps w' left sv). Qed.
Print Assumptions C86_regenerate.

(* a file of the source directory was changed without writing to the directory:
   the server goes on serving the old infrastructure *)
Theorem C86_in_place_refuted :
  exists sv, result (ex_start plain_settings 9%N
      (mk_world [(net, Directory 2 5%N)] (w_timetables w2) (w_raw_infras w2) (w_raw_timetables w2) (w_osm w2) (w_tiles w2)) 100)
    = Runs sv /\ get_infra sv net = Some 1.
Proof. eexists. split; vm_compute; reflexivity. Qed.
Print Assumptions C86_in_place_refuted.

(* the machine stopped while the first infrastructure was saved: every later
   start without regeneration takes the incomplete file for the infrastructure *)
Theorem C86_cut_refuted :
  result (ex_start plain_settings 6%N w1 1) = Cut /\
  result (ex_start plain_settings 9%N (files (ex_start plain_settings 6%N w1 1)) 100) = Garbage /\
  exists sv, result (ex_start (mk_settings true true) 9%N (files (ex_start plain_settings 6%N w1 1)) 100) = Runs sv /\
    get_infra sv net = Some 1.
Proof. split; [vm_compute; reflexivity|]. split; [vm_compute; reflexivity|]. eexists. split; vm_compute; reflexivity. Qed.
Print Assumptions C86_cut_refuted.

(* a server never uses an incomplete file unless some start was cut short: a start
   serves, fails on a source, or is cut short itself *)
Theorem C86_complete_files :
  forall IS TS I T OSM DB (load_infra : IS -> res I) (load_timetable : TS -> I -> res (option T))
    (export_osm : I -> res OSM) (import_tiles : OSM -> res DB) order s w t now steps w' left e,
    past load_infra load_timetable export_osm import_tiles order w t ->
    start load_infra load_timetable export_osm import_tiles order s now w steps = ((w', left), e) ->
    e <> Garbage.
Proof.
  intros IS TS I T OSM DB li lt eo it o s w t now steps w' left e P E ->.
  exact (safe_start li lt eo it o s now w steps w' left _ (past_full li lt eo it o w t P) E).
Qed.
Print Assumptions C86_complete_files.

(* one infrastructure that cannot be read keeps the server from serving the others *)
Theorem C86_unreadable_refuted :
  result (start (fun x => match x with 1 => Ok 1 | _ => Throw end) (fun x _ => Ok (Some x)) (fun i => Ok i) (fun o => Ok o) (fun l => l)
    plain_settings 6%N (ex_world [(net, Directory 1 5%N); (name "broken", Directory 2 5%N)] []) 100) = Dies.
Proof. vm_compute. reflexivity. Qed.
Print Assumptions C86_unreadable_refuted.

(* the history: nothing, a start, the source replaced; then the server serves the
   new source *)
Lemma w2_made : exists left sv, ex_start plain_settings 6%N w1 100 = ((w2, left), Runs sv) /\
  get_infra sv net = Some 1 /\ infrastructure_names sv = [net] /\ get_timetable sv net tt_name = Some 7.
Proof. do 2 eexists. split; [vm_compute; reflexivity|]. repeat split; vm_compute; reflexivity. Qed.
Example C86_sat :
  past (fun x => Ok x) (fun x _ => Ok (Some x)) (fun i => Ok i) (fun o => Ok o) (fun l => l) w3 7 /\
  exists sv, result (ex_start plain_settings 8%N w3 100) = Runs sv /\ get_infra sv net = Some 2.
Proof.
  split; [|eexists; split; vm_compute; reflexivity].
  destruct w2_made as (left & sv & E & _).
  assert (S1 : sources_ok w1 5).
  { split; [|split].
    - apply (NoDup_cons net); [cbv; intros [H|[]]; discriminate H|]. apply NoDup_cons; [intros []|constructor].
    - apply NoDup_cons; [intros []|constructor].
    - intros n x t [[= <- <- <-]|[[=]|[]]]. lia. }
  apply after_change with (v := w2) (t := 6%N).
  - apply after_start with (v := w1) (s := plain_settings) (t := 5%N) (steps := 100) (left := left) (e := Runs sv).
    + apply at_first; [exact S1|]. repeat split.
    + lia.
    + exact E.
    + discriminate.
  - lia.
  - split; [|split].
    + split; [|split].
      * apply NoDup_cons; [intros []|constructor].
      * vm_compute. apply NoDup_cons; [intros []|constructor].
      * intros n x t [[= <- <- <-]|[]]. lia.
    + repeat split.
    + intros n x t [[= <- <- <-]|[]]. right. reflexivity.
Qed.

(* ---- C87 ---- *)
(* For any files: a timetable is served for an infrastructure exactly when its
   source directory is there, fits the infrastructure, and is due to be read.
   What is served is never outdated.
   Missing: a timetable that is not due should be served from what was kept of it
   (C87_restart_refuted). *)
Theorem C87_timetables_partial :
  forall IS TS I T OSM DB (load_infra : IS -> res I) (load_timetable : TS -> I -> res (option T))
    (export_osm : I -> res OSM) (import_tiles : OSM -> res DB) order s (w : world IS TS I T OSM DB) now steps w' left sv,
    (forall l, Permutation l (order l)) ->
    NoDup (map fst (w_timetables w)) -> NoDup (map fst (w_raw_timetables w)) ->
    start load_infra load_timetable export_osm import_tiles order s now w steps = ((w', left), Runs sv) ->
    (forall m n t, get_timetable sv m n = Some t <->
       exists i x tx, get_infra sv m = Some i /\ In (n, Directory x tx) (w_timetables w) /\
         load_timetable x i = Ok (Some t) /\ due s w n tx) /\
    (forall m, timetable_names sv m = Throw <-> get_infra sv m = None).
Proof.
  intros IS TS I T OSM DB li lt eo it o s w now steps w' left sv P. exact (start_timetables li lt eo it o P s now w w' steps left sv).
Qed.
Print Assumptions C87_timetables_partial.

(* started twice, nothing changed in between: the second server has lost the
   timetable, although its source is there and it was kept *)
Theorem C87_restart_refuted :
  exists sv sv', result (ex_start plain_settings 6%N w1 100) = Runs sv /\
    result (ex_start plain_settings 8%N w2 100) = Runs sv' /\
    get_timetable sv net tt_name = Some 7 /\ timetable_names sv net = Ok [tt_name] /\
    get_timetable sv' net tt_name = None /\ timetable_names sv' net = Ok [] /\
    lookup tt_name (w_raw_timetables w2) = Some (mk_file (Some (tt_name, 7)) 6%N) /\
    w_timetables w2 = w_timetables w1.
Proof. do 2 eexists. repeat split; vm_compute; reflexivity. Qed.
Print Assumptions C87_restart_refuted.

Example C87_sat :
  NoDup (map fst (w_timetables w2)) /\ NoDup (map fst (w_raw_timetables w2)) /\
  exists sv, result (ex_start (mk_settings true true) 8%N w2 100) = Runs sv /\ get_timetable sv net tt_name = Some 7.
Proof.
  split; [vm_compute; apply NoDup_cons; [intros []|constructor]|].
  split; [vm_compute; apply NoDup_cons; [intros []|constructor]|].
  eexists. split; vm_compute; reflexivity.
Qed.

(* ---- C88 ---- *)
(* As long as the sources are as they were when the maps were drawn, the map
   under the name of an infrastructure is the map of that infrastructure.
   Missing: changed sources (C88_changed_refuted), names that differ only behind
   the last dot (C88_names_refuted). *)
Theorem C88_map_partial :
  forall IS TS I T OSM DB (load_infra : IS -> res I) (load_timetable : TS -> I -> res (option T))
    (export_osm : I -> res OSM) (import_tiles : OSM -> res DB) order s (w : world IS TS I T OSM DB) now steps w' left sv,
    (forall l, Permutation l (order l)) ->
    maps_fresh load_infra load_timetable export_osm import_tiles order w -> stems_distinct w ->
    start load_infra load_timetable export_osm import_tiles order s now w steps = ((w', left), Runs sv) ->
    forall n i, infra_source load_infra w n i ->
      get_infra sv n = Some i /\ exists d, drawn_map export_osm import_tiles i d /\ map_of w' sv n = Some (Some d).
Proof.
  intros IS TS I T OSM DB li lt eo it o s w now steps w' left sv P. exact (map_current li lt eo it o P w s now steps w' left sv).
Qed.
Print Assumptions C88_map_partial.

(* asked to regenerate, whatever happened before *)
Theorem C88_regenerate :
  forall IS TS I T OSM DB (load_infra : IS -> res I) (load_timetable : TS -> I -> res (option T))
    (export_osm : I -> res OSM) (import_tiles : OSM -> res DB) order s (w : world IS TS I T OSM DB) now steps w' left sv,
    (forall l, Permutation l (order l)) ->
    NoDup (map fst (w_infras w)) -> stems_distinct w -> regenerate s = true ->
    start load_infra load_timetable export_osm import_tiles order s now w steps = ((w', left), Runs sv) ->
    forall n i, infra_source load_infra w n i ->
      get_infra sv n = Some i /\ exists d, drawn_map export_osm import_tiles i d /\ map_of w' sv n = Some (Some d).
Proof.
  intros IS TS I T OSM DB li lt eo it o s w now steps w' left sv P. exact (map_regenerated li lt eo it o P w s now steps w' left sv).
Qed.
Print Assumptions C88_regenerate.

(* whatever happened before: with the OSM files removed (and the names of the
   infrastructures distinct up to the last dot), the maps are drawn anew *)
Theorem C88_redrawn :
  forall IS TS I T OSM DB (load_infra : IS -> res I) (load_timetable : TS -> I -> res (option T))
    (export_osm : I -> res OSM) (import_tiles : OSM -> res DB) order s (w : world IS TS I T OSM DB) now steps w' left sv,
    (forall l, Permutation l (order l)) ->
    w_osm w = [] -> (forall n f, In (n, f) (w_tiles w) -> (f_time f < now)%N) ->
    start load_infra load_timetable export_osm import_tiles order s now w steps = ((w', left), Runs sv) ->
    (forall n m p, In n (infrastructure_names sv) -> In m (infrastructure_names sv) -> stem n p -> stem m p -> n = m) ->
    forall n i, get_infra sv n = Some i -> exists d, drawn_map export_osm import_tiles i d /\ map_of w' sv n = Some (Some d).
Proof.
  intros IS TS I T OSM DB li lt eo it o s w now steps w' left sv P. exact (map_redrawn li lt eo it o P w s now steps w' left sv).
Qed.
Print Assumptions C88_redrawn.
(* w3 without the OSM files: the map of the new source *)
Example C88_redrawn_sat :
  let w := mk_world (w_infras w3) (w_timetables w3) (w_raw_infras w3) (w_raw_timetables w3) [] (w_tiles w3) in
  (forall n f, In (n, f) (w_tiles w) -> (f_time f < 8)%N) /\ w_tiles w <> [] /\
  exists sv, result (ex_start plain_settings 8%N w 100) = Runs sv /\
    map_of (files (ex_start plain_settings 8%N w 100)) sv net = Some (Some 2).
Proof.
  split; [|split].
  - intros n f H. vm_compute in H. destruct H as [[= <- <-]|[]]. reflexivity.
  - vm_compute. discriminate.
  - eexists. split; vm_compute; reflexivity.
Qed.

(* the source was replaced: the server serves the new infrastructure with the map
   of the old one *)
Theorem C88_changed_refuted :
  exists sv, result (ex_start plain_settings 8%N w3 100) = Runs sv /\ get_infra sv net = Some 2 /\
    map_of (files (ex_start plain_settings 8%N w3 100)) sv net = Some (Some 1).
Proof. eexists. repeat split; vm_compute; reflexivity. Qed.
Print Assumptions C88_changed_refuted.

(* the infrastructures net.1 and net.2 share the map of net.1 *)
Theorem C88_names_refuted :
  exists sv w', ex_start plain_settings 6%N (ex_world [(name "net.1", Directory 1 5%N); (name "net.2", Directory 2 5%N)] []) 100
      = (w', Runs sv) /\
    get_infra sv (name "net.2") = Some 2 /\ map_of (fst w') sv (name "net.2") = Some (Some 1).
Proof. do 2 eexists. split; [vm_compute; reflexivity|]. split; vm_compute; reflexivity. Qed.
Print Assumptions C88_names_refuted.

(* stopped while the map was written: later starts without regeneration use the
   incomplete map *)
Theorem C88_cut_refuted :
  result (ex_start plain_settings 6%N w1 3) = Cut /\
  result (ex_start plain_settings 9%N (files (ex_start plain_settings 6%N w1 3)) 100) = Garbage.
Proof. split; vm_compute; reflexivity. Qed.
Print Assumptions C88_cut_refuted.

(* two starts without a change *)
Example C88_sat :
  maps_fresh (fun x => Ok x) (fun x _ => Ok (Some x)) (fun i => Ok i) (fun o => Ok o) (fun l => l) w2 /\ stems_distinct w2 /\
  exists sv, result (ex_start plain_settings 8%N w2 100) = Runs sv /\
    map_of (files (ex_start plain_settings 8%N w2 100)) sv net = Some (Some 1).
Proof.
  destruct w2_made as (left & sv & E & _). split; [|split].
  - apply started_again with (v := w1) (s := plain_settings) (now := 6%N) (steps := 100) (left := left) (e := Runs sv).
    + apply no_map_yet; [|repeat split]. apply (NoDup_cons net); [cbv; intros [H|[]]; discriminate H|]. apply NoDup_cons; [intros []|constructor].
    + exact E.
    + discriminate.
  - intros n m p Hn Hm Sn Sm. vm_compute in Hn, Hm.
    assert (D : forall q r : text, net <> q ++ "."%char :: r /\ name "readme" <> q ++ "."%char :: r).
    { assert (X : forall (a : text), ~ In "."%char a -> forall q r, a <> q ++ "."%char :: r).
      { intros a H q r ->. apply H. apply in_or_app. right. left. reflexivity. }
      intros q r. split; apply X; cbv; intuition discriminate. }
    destruct Sn as [[-> _]|(q & -> & _)].
    + destruct Sm as [[-> _]|(r & -> & _)]; [reflexivity|]. exfalso.
      destruct Hm as [Hm|[Hm|[]]]; [exact (proj1 (D p r) Hm)|exact (proj2 (D p r) Hm)].
    + exfalso. destruct Hn as [Hn|[Hn|[]]]; [exact (proj1 (D p q) Hn)|exact (proj2 (D p q) Hn)].
  - eexists. split; vm_compute; reflexivity.
Qed.
