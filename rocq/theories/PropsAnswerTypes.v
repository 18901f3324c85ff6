(* C131: answers of the server have the types the client declares for them. *)
From Verif Require Import Base AnswerModel PropsAnswer AnswerTypesModel.
From Coq Require Import QArith String.
Close Scope Q_scope.
Open Scope string_scope.
Open Scope list_scope.

(* ---- specification ---- *)
(* a value has a type: an object has every member the type names, with its type (others do no harm) *)
Inductive fits : json -> ty -> Prop :=
| ft_num q : fits (JNum q) TNumber
| ft_text s : fits (JText s) TString
| ft_bool b : fits (JBool b) TBoolean
| ft_arr l t : Forall (fun v => fits v t) l -> fits (JArr l) (TArray t)
| ft_obj k l : Forall (fun f => Exists (fun e => fst e = fst f /\ fits (snd e) (snd f)) k) l -> fits (JObj k) (TObject l).
(* the client reads from the answer a value of the type *)
Definition delivers (r : res answer) (t : ty) : Prop := exists a v, r = Ok a /\ fetch_json a = Ok v /\ fits v t.
(* it reads a value, but that is not of the type *)
Definition betrays (r : res answer) (t : ty) : Prop := exists a v, r = Ok a /\ fetch_json a = Ok v /\ ~ fits v t.

(* ---- proofs ---- *)
Local Lemma read m l k : all_named (m :: l) -> members_same (m :: l) k ->
  exists a, respond (m :: l) = Ok a /\ fetch_json a = Ok (JObj k).
Proof. intros N S. destruct (C129_read m l k N) as (a & A & _ & R). exists a. split; [exact A|apply R, S]. Qed.
Local Lemma deliver_read m l k t : all_named (m :: l) -> members_same (m :: l) k -> fits (JObj k) t -> delivers (respond (m :: l)) t.
Proof. intros N S F. destruct (read m l k N S) as (a & A & R). exists a, (JObj k). auto. Qed.
Local Lemma betray_read m l k t : all_named (m :: l) -> members_same (m :: l) k -> ~ fits (JObj k) t -> betrays (respond (m :: l)) t.
Proof. intros N S F. destruct (read m l k N S) as (a & A & R). exists a, (JObj k). auto. Qed.
Local Ltac nd := repeat first [discriminate | constructor].
Local Lemma named_map {A} (f : A -> val) (g : A -> json) l :
  (forall x, named (f x)) -> (forall x, same (f x) (g x)) ->
  named (VList (map f l)) /\ same (VList (map f l)) (JArr (map g l)).
Proof.
  intros N S. split; constructor; induction l as [|x l IH]; cbn [map]; constructor; auto.
Qed.
Local Lemma fits_map {A} (g : A -> json) t l : (forall x, fits (g x) t) -> fits (JArr (map g l)) (TArray t).
Proof. intros F. constructor. induction l as [|x l IH]; cbn [map]; constructor; auto. Qed.

Local Definition gps_json (p : Q * Q) : json := JObj [("lon", JNum (fst p)); ("lat", JNum (snd p))].
Local Lemma gps_named p : named (gps_val p). Proof. unfold gps_val. nd. Qed.
Local Lemma gps_same p : same (gps_val p) (gps_json p). Proof. repeat constructor. Qed.
Local Ltac ft := repeat first [ assumption | progress constructor | apply Exists_cons_tl ].
Local Ltac member := first [ apply Exists_cons_hd; split; [reflexivity|] | apply Exists_cons_tl; member ].
Local Lemma gps_fits p : fits (gps_json p) coordinate_t.
Proof. unfold gps_json, coordinate_t. constructor. constructor; [member; constructor|]. constructor; [member; constructor|constructor]. Qed.

(* The lists of infrastructures and of timetables, and timetables. *)
Theorem C131_names l : delivers (answer_names "infrastructures" l) infrastructure_list_t /\
  delivers (answer_names "timetables" l) timetable_list_t.
Proof.
  destruct (named_map VText JText l ltac:(intros; constructor) ltac:(intros; constructor)) as (N & S).
  assert (F : fits (JArr (map JText l)) (TArray TString)) by (apply fits_map; intros; constructor).
  unfold answer_names, infrastructure_list_t, timetable_list_t.
  split; [apply deliver_read with (k := [("infrastructures", JArr (map JText l))])
         |apply deliver_read with (k := [("timetables", JArr (map JText l))])];
    first [ solve [constructor; [split; [discriminate|exact N]|constructor]]
          | solve [constructor; [split; [reflexivity|exact S]|constructor]]
          | solve [constructor; constructor; [member; exact F|constructor]] ].
Qed.
Print Assumptions C131_names.
Theorem C131_timetable s a b : delivers (answer_timetable s a b) timetable_response_t.
Proof.
  unfold answer_timetable.
  apply deliver_read with (k := [("timetable", JObj [("source", JText s); ("interval", JObj [("start", JNum a); ("end", JNum b)])])]); [nd|repeat constructor|]. constructor. constructor; [|constructor]. member.
  constructor. constructor; [member; constructor|]. constructor; [|constructor]. member.
  constructor. constructor; [member; constructor|]. constructor; [member; constructor|constructor].
Qed.
Print Assumptions C131_timetable.

(* Interlocking routes and the box of an infrastructure. *)
Theorem C131_interlocking_route id path : delivers (answer_interlocking_route id path) interlocking_route_t.
Proof.
  destruct (named_map gps_val gps_json path gps_named gps_same) as (N & S).
  unfold answer_interlocking_route. apply deliver_read with (k := [("id", JNum id); ("path", JArr (map gps_json path))]).
  - constructor; [split; [discriminate|constructor]|]. constructor; [split; [discriminate|exact N]|constructor].
  - constructor; [split; [reflexivity|constructor]|]. constructor; [split; [reflexivity|exact S]|constructor].
  - constructor. constructor; [member; constructor|].
    constructor; [member; apply fits_map, gps_fits|constructor].
Qed.
Print Assumptions C131_interlocking_route.
Theorem C131_box b : delivers (answer_box b) bounding_box_t.
Proof.
  destruct (C129_box b) as (a & A & R). exists a. eexists. split; [exact A|]. split; [exact R|].
  constructor. constructor; [member|constructor]. constructor.
  constructor; [apply (gps_fits (fst b))|]. constructor; [apply (gps_fits (snd b))|constructor].
Qed.
Print Assumptions C131_box.

(* A station: its number, name and interlocking routes have their types, and its station routes have number and name. *)
Definition station_read_t : ty :=
  TObject [("id", TNumber); ("ds100", TString); ("stationRoutes", TArray (TObject [("id", TNumber); ("name", TString)]));
           ("interlockingRouteIds", TArray TNumber)].
Local Definition sroute_json (s : sroute_data) : json :=
  JObj [("id", JNum (sd_id s)); ("name", JText (sd_name s)); ("from_element", JNum (sd_from s)); ("to_element", JNum (sd_to s))].
Local Lemma station_read id ds routes irs : exists a, answer_station id ds routes irs = Ok a /\
  fetch_json a = Ok (JObj [("id", JNum id); ("ds100", JText ds); ("stationRoutes", JArr (map sroute_json routes));
                           ("interlockingRouteIds", JArr (map JNum irs))]).
Proof.
  destruct (named_map sroute_val sroute_json routes) as (N1 & S1); [intros; unfold sroute_val; nd|intros; repeat constructor|].
  destruct (named_map (fun i => VNum (Some i)) JNum irs) as (N2 & S2); [intros; constructor|intros; constructor|].
  apply read.
  - repeat (constructor; [split; [discriminate|first [exact N1|exact N2|constructor]]|]). constructor.
  - repeat (constructor; [split; [reflexivity|first [exact S1|exact S2|constructor]]|]). constructor.
Qed.
Theorem C131_station_partial id ds routes irs : delivers (answer_station id ds routes irs) station_read_t.
Proof.
  destruct (station_read id ds routes irs) as (a & A & R). exists a. eexists. split; [exact A|]. split; [exact R|].
  constructor. constructor; [member; constructor|]. constructor; [member; constructor|].
  constructor; [member; apply fits_map; intros s|].
  { constructor. constructor; [member; constructor|]. constructor; [member; constructor|constructor]. }
  constructor; [member; apply fits_map; intros; constructor|constructor].
Qed.
Print Assumptions C131_station_partial.

Local Lemma missing k l n t : In (n, t) l -> (forall v, ~ In (n, v) k) -> ~ fits (JObj k) (TObject l).
Proof.
  intros I M F. inversion F as [| | | |? ? G]; subst. rewrite Forall_forall in G. specialize (G _ I). cbn [fst snd] in G.
  apply Exists_exists in G. destruct G as ([n' v] & Ie & E & _). cbn [fst] in E. subst n'. exact (M v Ie).
Qed.
Local Ltac no_member := let v := fresh in let H := fresh in intros v H; cbn [In] in H;
  repeat match goal with H : _ \/ _ |- _ => destruct H as [H|H] | H : False |- _ => destruct H | H : (_, _) = (_, _) |- _ => inversion H end.

(* The elements at the ends of a station route have other names in the answer than in the type: a station with a
   station route never has its type. *)
Theorem C131_station_refuted id ds r routes irs : betrays (answer_station id ds (r :: routes) irs) station_t.
Proof.
  destruct (station_read id ds (r :: routes) irs) as (a & A & R). exists a. eexists. split; [exact A|]. split; [exact R|].
  intros F. inversion F as [| | | |? ? G]; subst. rewrite Forall_forall in G.
  specialize (G ("stationRoutes", TArray station_route_t)). cbn [In fst snd] in G.
  specialize (G ltac:(tauto)). apply Exists_exists in G. destruct G as ([n v] & Ie & E & Fv). cbn [fst snd] in *. subst n.
  cbn [In map] in Ie. destruct Ie as [Ie|[Ie|[Ie|[Ie|[]]]]]; try discriminate. injection Ie as <-.
  inversion Fv as [| | |? ? H|]; subst. inversion H as [|? ? Hr _]; subst.
  revert Hr. apply missing with (n := "fromElement") (t := TNumber); [cbn [In]; tauto|]. no_member.
Qed.
Print Assumptions C131_station_refuted.
(* A station route that is asked for itself has no elements at its ends at all. *)
Theorem C131_station_route_refuted id name ds path : betrays (answer_station_route id name ds path) station_route_t.
Proof.
  destruct (named_map gps_val gps_json path gps_named gps_same) as (N & S).
  unfold answer_station_route.
  apply betray_read with (k := [("id", JNum id); ("name", JText name); ("ds100", JText ds); ("path", JArr (map gps_json path))]).
  - repeat (constructor; [split; [discriminate|first [exact N|constructor]]|]). constructor.
  - repeat (constructor; [split; [reflexivity|first [exact S|constructor]]|]). constructor.
  - apply missing with (n := "fromElement") (t := TNumber); [cbn [In]; tauto|]. no_member.
Qed.
Print Assumptions C131_station_route_refuted.
(* The list of stations holds objects, not texts. *)
Theorem C131_stations_refuted s l : betrays (answer_stations (s :: l)) station_list_t.
Proof.
  set (g := fun s : string * Q => JObj [("ds100", JText (fst s)); ("id", JNum (snd s))]).
  destruct (named_map (fun s => VObj [(Some "ds100", VText (fst s)); (Some "id", VNum (Some (snd s)))]) g (s :: l)) as (N & S);
    [intros; nd|intros; repeat constructor|].
  unfold answer_stations. apply betray_read with (k := [("stations", JArr (map g (s :: l)))]).
  - constructor; [split; [discriminate|exact N]|constructor].
  - constructor; [split; [reflexivity|exact S]|constructor].
  - intros F.
    inversion F as [| | | |? ? G]; subst. inversion G as [|? ? E _]; subst. inversion E as [? ? [_ E']|? ? E']; subst; [|inversion E'].
    cbn [fst snd] in E'. inversion E' as [| | |? ? H|]; subst. cbn [map] in H. inversion H as [|? ? Hs _]; subst. inversion Hs.
Qed.
Print Assumptions C131_stations_refuted.

(* Elements: detectors, slopes and switches have their types; the identifiers of a halt and where a speed limit begins
   have other names in the answer. *)
Theorem C131_element_partial id track :
  element_numbers track DEmpty ->
  (forall s, delivers (answer_element id track (DEotd s)) eotd_t) /\
  (forall r f, track = None -> delivers (answer_element id track (DSlope (Some r) (Some f))) slope_t) /\
  (forall n, delivers (answer_element id track (DSwitch n)) switch_t).
Proof.
  intros (T & _). repeat split.
  - intros s. destruct (C129_element_partial id track (DEotd s)) as (a & k & A & R & _ & _ & _ & _ & _ & H); [split; [exact T|exact I]|].
    exists a. eexists. split; [exact A|]. split; [exact R|]. constructor. constructor; [|constructor].
    apply Exists_exists. exists ("signal", JBool s). split; [right; apply H; reflexivity|]. split; [reflexivity|constructor].
  - intros r f ->. destruct (C129_element_partial id None (DSlope (Some r) (Some f))) as (a & k & A & R & _ & _ & _ & H & _);
      [repeat split; discriminate|]. destruct (H r f eq_refl) as (H1 & H2).
    exists a. eexists. split; [exact A|]. split; [exact R|]. constructor. constructor; [|constructor; [|constructor]]; apply Exists_exists.
    + exists ("rising", JNum r). split; [right; exact H1|]. split; [reflexivity|constructor].
    + exists ("falling", JNum f). split; [right; exact H2|]. split; [reflexivity|constructor].
  - intros n. destruct (C129_element_partial id track (DSwitch n)) as (a & k & A & R & _ & _ & H & _); [split; [exact T|exact I]|].
    exists a. eexists. split; [exact A|]. split; [exact R|]. constructor. constructor; [|constructor].
    apply Exists_exists. exists ("name", JText n). split; [right; apply H; tauto|]. split; [reflexivity|constructor].
Qed.
Print Assumptions C131_element_partial.
Theorem C131_halt_refuted id track n p e o : element_numbers track DEmpty ->
  betrays (answer_element id track (DHalt n p e o)) halt_t.
Proof.
  intros (T & _). unfold answer_element. set (d := [("name", JText n); ("passenger", JBool p); ("id_extern", JText e); ("id_op", JText o)]).
  destruct track as [[[[km|] r] line]|]; try congruence;
    [apply betray_read with (k := ("id", JNum id) :: ("kilometrage", JNum km) :: ("rising", JBool r) :: ("line", JNum line) :: d)
    |apply betray_read with (k := ("id", JNum id) :: d)]; cbn [edata_members app]; try (nd; fail); try (repeat constructor; fail);
    (apply missing with (n := "idExtern") (t := TString); [cbn [In]; tauto|unfold d; no_member]).
Qed.
Print Assumptions C131_halt_refuted.
Theorem C131_limit_refuted id track l p : element_numbers track DEmpty ->
  betrays (answer_element id track (DLimit (Some l) p)) speed_limit_t.
Proof.
  intros (T & _). unfold answer_element. set (d := [("limit", JNum l); ("point_of_activation", JBool p)]).
  destruct track as [[[[km|] r] line]|]; try congruence;
    [apply betray_read with (k := ("id", JNum id) :: ("kilometrage", JNum km) :: ("rising", JBool r) :: ("line", JNum line) :: d)
    |apply betray_read with (k := ("id", JNum id) :: d)]; cbn [edata_members app]; try (nd; fail); try (repeat constructor; fail);
    (apply missing with (n := "pointOfActivation") (t := TNumber); [cbn [In]; tauto|unfold d; no_member]).
Qed.
Print Assumptions C131_limit_refuted.

(* Search results have the type the search uses, in which the box is the box itself; the declared type wraps it. *)
Definition search_read_t : ty :=
  TObject [("type", TString); ("id", TNumber); ("name", TString); ("boundingBox", TArray coordinate_t); ("elementType", TString)].
Theorem C131_search_partial l : delivers (answer_search l) (TArray search_read_t).
Proof.
  destruct (C129_search l) as (a & k & A & R & F). exists a. eexists. split; [exact A|]. split; [exact R|].
  constructor. clear A R. induction F as [|f j l k H F IH]; constructor; [|exact IH]. unfold found_same in H. cbn in H. subst j.
  constructor. constructor; [member; constructor|]. constructor; [member; constructor|]. constructor; [member; constructor|].
  constructor; [member|constructor; [member; constructor|constructor]].
  constructor. constructor; [apply (gps_fits (fst (fd_box f)))|]. constructor; [apply (gps_fits (snd (fd_box f)))|constructor].
Qed.
Print Assumptions C131_search_partial.
Theorem C131_search_refuted f l : betrays (answer_search (f :: l)) (TArray search_result_t).
Proof.
  destruct (C129_search (f :: l)) as (a & k & A & R & F). exists a. eexists. split; [exact A|]. split; [exact R|].
  inversion F as [|? j ? k' H _]; subst. unfold found_same in H. cbn in H. subst j. intros G.
  inversion G as [| | |? ? G'|]; subst. inversion G' as [|? ? E _]; subst. inversion E as [| | | |? ? M]; subst.
  rewrite Forall_forall in M. specialize (M ("boundingBox", bounding_box_t)). cbn [In fst snd] in M. specialize (M ltac:(tauto)).
  apply Exists_exists in M. destruct M as ([n v] & Ie & En & Fv). cbn [fst snd] in *. subst n. cbn [In] in Ie.
  destruct Ie as [Ie|[Ie|[Ie|[Ie|[Ie|[]]]]]]; try discriminate. injection Ie as <-. inversion Fv.
Qed.
Print Assumptions C131_search_refuted.

(* What is read is what the answer is about: all names, the whole path in its order, all routes of a station. *)
Definition place_json (p : Q * Q) : json := JObj [("lon", JNum (fst p)); ("lat", JNum (snd p))].
Definition reads_as (r : res answer) (v : json) : Prop := exists a, r = Ok a /\ fetch_json a = Ok v.
Theorem C131_contents :
  (forall key l, reads_as (answer_names key l) (JObj [(key, JArr (map JText l))])) /\
  (forall l, reads_as (answer_stations l)
     (JObj [("stations", JArr (map (fun s => JObj [("ds100", JText (fst s)); ("id", JNum (snd s))]) l))])) /\
  (forall id ds routes irs, reads_as (answer_station id ds routes irs)
     (JObj [("id", JNum id); ("ds100", JText ds);
            ("stationRoutes", JArr (map (fun s => JObj [("id", JNum (sd_id s)); ("name", JText (sd_name s));
               ("from_element", JNum (sd_from s)); ("to_element", JNum (sd_to s))]) routes));
            ("interlockingRouteIds", JArr (map JNum irs))])) /\
  (forall id name ds path, reads_as (answer_station_route id name ds path)
     (JObj [("id", JNum id); ("name", JText name); ("ds100", JText ds); ("path", JArr (map place_json path))])) /\
  (forall id path, reads_as (answer_interlocking_route id path) (JObj [("id", JNum id); ("path", JArr (map place_json path))])) /\
  (forall source first last, reads_as (answer_timetable source first last)
     (JObj [("timetable", JObj [("source", JText source); ("interval", JObj [("start", JNum first); ("end", JNum last)])])])).
Proof.
  repeat split.
  - intros key l. destruct (named_map VText JText l ltac:(intros; constructor) ltac:(intros; constructor)) as (N & S).
    apply read; (constructor; [split; [first [discriminate|reflexivity]|assumption]|constructor]).
  - intros l. destruct (named_map (fun s => VObj [(Some "ds100", VText (fst s)); (Some "id", VNum (Some (snd s)))])
      (fun s : string * Q => JObj [("ds100", JText (fst s)); ("id", JNum (snd s))]) l) as (N & S);
      [intros; nd|intros; repeat constructor|].
    apply read; (constructor; [split; [first [discriminate|reflexivity]|assumption]|constructor]).
  - intros id ds routes irs. apply station_read.
  - intros id name ds path. destruct (named_map gps_val gps_json path gps_named gps_same) as (N & S).
    apply read; repeat (constructor; [split; [first [discriminate|reflexivity]|first [exact N|exact S|constructor]]|]); constructor.
  - intros id path. destruct (named_map gps_val gps_json path gps_named gps_same) as (N & S).
    apply read; repeat (constructor; [split; [first [discriminate|reflexivity]|first [exact N|exact S|constructor]]|]); constructor.
  - intros source first last. apply read; [nd|repeat constructor].
Qed.
Print Assumptions C131_contents.

(* ---- the hypotheses can be met ---- *)
Example C131_sat : element_numbers (Some (Some 1%Q, true, 7%Q)) DEmpty.
Proof. split; [discriminate|exact I]. Qed.
