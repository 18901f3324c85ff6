(* C92: the ordering graph the web server shows.

   Reading guide (OgServeSpec.v): `says s v`: the text s is the number v below
   2^32; `separated csv l`: csv is the texts l with commas between; `asked`: the
   trips a request is about; `apart`: no two usages that exclude each other start
   at the same time; `shows_trips`, `shows_nodes`, `shows_edges`: what an answer
   shows. *)
From Coq Require Import Ascii String Permutation Sorting.Sorted.
From Verif Require Import Base TextModel KssDates BitfieldModel TrainModel OrderingModel OrderingSpec OrderingProofs PropsOrdering
  OgServeModel OgServeSpec OgServeProofs OgServeMore GraphProofs OrderingBuild.
From Verif Require ServeModel PropsBitfield.
Open Scope nat_scope.

(* what the three parameters of a request say *)
Definition request (from to csv : list ascii) (a b : N) (ids : list N) : Prop :=
  says from a /\ says to b /\ (a <= b)%N /\ exists l, separated csv l /\ Forall2 says l ids.

(* The answer to a valid request for a known timetable shows exactly the trips
   asked for.  Missing from the full property: trips that are under way from the
   day before, trains without main signals (both refuted below), and usages that
   start at the same time. *)
Theorem C92_graph_partial :
  forall usort tsort get_infra get_timetable infra_name timetable_name from to csv x trains a b ids,
    sorts usort -> sorts_trips tsort ->
    get_infra infra_name = Some x -> get_timetable infra_name timetable_name = Some trains ->
    (forall r, NoDup (ex_of x r)) -> timetable_ok trains ->
    request from to csv a b ids -> apart x trains a b ids ->
    exists ans trips,
      serve_ordering_graph usort tsort get_infra get_timetable infra_name timetable_name from to csv = Ok (ServeModel.Answer ans) /\
      shows_trips trains a b ids trips ans /\ shows_nodes trips ans /\ shows_edges x trips ans.
Proof.
  intros usort tsort gi gt ni nt from to csv x trains a b ids Us Ts Hi Ht Ex Tk Rq Ap.
  assert (F := proj1 (filter_ok from to csv a b ids) Rq). destruct Rq as (_ & [_ Lb] & Lab & _).
  destruct (request_shows usort tsort x trains a b ids Us Ts Ex Tk (conj Lab Lb) Ap) as (og & ans & trips & E1 & E2 & S).
  exists ans, trips. split; [|exact S]. unfold serve_ordering_graph. rewrite Hi, Ht, F. cbn [bind]. rewrite E1. cbn [bind]. rewrite E2. reflexivity.
Qed.
Print Assumptions C92_graph_partial.

(* No edge is shown twice. *)
Lemma trips_json_edges og : forall l rel a ans, trips_json og rel l a = Ok ans ->
  ja_edges a = flat_map (edges_json og) (map jn_key (ja_nodes a)) -> ja_edges ans = flat_map (edges_json og) (map jn_key (ja_nodes ans)).
Proof.
  induction l as [|e l IH]; intros rel a ans H E; cbn [trips_json] in H; [injection H as <-; exact E|].
  apply bind_Ok in H as (ns & Hn & H). apply (IH _ _ _ H). cbn [ja_edges ja_nodes]. rewrite E, map_app, flat_map_app. f_equal. f_equal.
  clear - Hn. revert ns Hn. induction (seq _ _) as [|i is IH]; intros ns Hn; cbn [mapM] in Hn; [injection Hn as <-; reflexivity|].
  apply bind_Ok in Hn as (n & H1 & Hn). apply bind_Ok in Hn as (ns' & H2 & Hn). injection Hn as <-. cbn [map]. rewrite <- (IH _ H2). f_equal.
  unfold node_json in H1. destruct (Nat.ltb _ _); [|discriminate]. injection H1 as <-. reflexivity.
Qed.
Lemma make_sorted sorter i2e E flt ts og a : make_ordering_graph sorter i2e E flt ts = Ok og -> StronglySorted lt (og_out og a).
Proof.
  unfold make_ordering_graph. intros H. apply bind_Ok in H as (g & _ & H). apply (remove_transitive_sorted _ _ _ H). apply erase_duplicates_sorted.
Qed.
Theorem C92_edges_once_partial :
  forall usort tsort get_infra get_timetable infra_name timetable_name from to csv x trains a b ids ans,
    sorts usort -> sorts_trips tsort ->
    get_infra infra_name = Some x -> get_timetable infra_name timetable_name = Some trains ->
    (forall r, NoDup (ex_of x r)) -> timetable_ok trains ->
    request from to csv a b ids -> apart x trains a b ids ->
    serve_ordering_graph usort tsort get_infra get_timetable infra_name timetable_name from to csv = Ok (ServeModel.Answer ans) ->
    NoDup (ja_edges ans).
Proof.
  intros usort tsort gi gt ni nt from to csv x trains a b ids ans Us Ts Hi Ht Ex Tk Rq Ap H.
  assert (F := proj1 (filter_ok from to csv a b ids) Rq). destruct Rq as (_ & [_ Lb] & Lab & _).
  destruct (request_shows usort tsort x trains a b ids Us Ts Ex Tk (conj Lab Lb) Ap) as (og & ans' & trips & E1 & E2 & _ & (_ & _ & N & _) & _).
  unfold serve_ordering_graph in H. rewrite Hi, Ht, F in H. cbn [bind] in H. rewrite E1 in H. cbn [bind] in H. rewrite E2 in H. injection H as <-.
  unfold serialize_ordering_graph in E2. apply bind_Ok in E2 as (keyed & _ & E2). apply trips_json_edges in E2; [|reflexivity]. rewrite E2. clear E2.
  assert (S : forall z, NoDup (og_out og z)).
  { intros z. unfold request_graph in E1. apply bind_Ok in E1 as (ts & _ & E1). apply make_sorted with (a := z) in E1.
    induction E1 as [|y l _ IH Fy]; constructor; [|exact IH]. intros I. rewrite Forall_forall in Fy. specialize (Fy _ I). lia. }
  clear - N S. induction N as [|k l Nk N IH]; cbn [flat_map]; [constructor|]. apply NoDup_app_intro; [| exact IH |].
  - unfold edges_json. apply FinFun.Injective_map_NoDup; [intros p q [= ->]; reflexivity|apply S].
  - intros [p q] I1 I2. unfold edges_json in I1. apply in_map_iff in I1 as (z & [= <- <-] & _). apply in_flat_map in I2 as (k' & I3 & I4).
    unfold edges_json in I4. apply in_map_iff in I4 as (z' & [= -> _] & _). contradiction.
Qed.
Print Assumptions C92_edges_once_partial.

(* A request is turned down exactly for an unknown infrastructure or timetable,
   or for parameters that say no interval and trains. *)
Theorem C92_turned_down :
  forall usort tsort get_infra get_timetable infra_name timetable_name from to csv,
    let answer := serve_ordering_graph usort tsort get_infra get_timetable infra_name timetable_name from to csv in
    (answer = Ok ServeModel.Not_found <-> get_infra infra_name = None \/ get_timetable infra_name timetable_name = None) /\
    (answer = Ok ServeModel.Bad_request <->
       get_infra infra_name <> None /\ get_timetable infra_name timetable_name <> None /\ ~ exists a b ids, request from to csv a b ids).
Proof.
  intros usort tsort gi gt ni nt from to csv answer. unfold answer, serve_ordering_graph. clear answer.
  destruct (gi ni) as [x|]; [|split; split; try tauto; try discriminate; intros (H & _); congruence].
  destruct (gt ni nt) as [trains|]; [|split; split; try tauto; try discriminate; intros (_ & H & _); congruence].
  destruct (filter_total from to csv) as [o F]. rewrite F. cbn [bind].
  destruct o as [[[a b] ids]|].
  - assert (Rq : request from to csv a b ids) by (apply filter_ok, F).
    assert (N : forall r, (do og <- request_graph usort x trains (mkint a b, ids);
       do a0 <- serialize_ordering_graph tsort og trains; Ok (ServeModel.Answer a0)) = Ok r -> exists q, r = ServeModel.Answer q).
    { intros r H. apply bind_Ok in H. destruct H as (og & _ & H). apply bind_Ok in H. destruct H as (q & _ & H). injection H as <-. eauto. }
    split; split; intros H.
    + destruct (N _ H) as (q & Q). discriminate.
    + destruct H; discriminate.
    + destruct (N _ H) as (q & Q). discriminate.
    + exfalso. apply (proj2 (proj2 H)). eauto.
  - split; split; intros H; try discriminate; try reflexivity; [destruct H; discriminate|].
    split; [discriminate|]. split; [discriminate|]. intros (a & b & ids & Rq). apply filter_ok in Rq. rewrite F in Rq. discriminate.
Qed.
Print Assumptions C92_turned_down.

(* ---- examples ---- *)
Fixpoint ins_trip {A} (x : N * A) (l : list (N * A)) : list (N * A) :=
  match l with
  | [] => [x]
  | y :: l' => if N.leb (fst x) (fst y) then x :: l else y :: ins_trip x l'
  end.
Definition sort_trips {A} (l : list (N * A)) : list (N * A) := fold_right ins_trip [] l.
Lemma ins_trip_perm {A} (x : N * A) l : Permutation (x :: l) (ins_trip x l).
Proof.
  induction l as [|y l IH]; cbn [ins_trip]; [reflexivity|]. destruct (N.leb _ _); [reflexivity|].
  rewrite perm_swap. apply perm_skip, IH.
Qed.
Lemma sort_trips_ok {A} : sorts_trips (@sort_trips A).
Proof.
  intros l. induction l as [|x l [P S]]; cbn [sort_trips fold_right]; [split; constructor|]. split.
  - rewrite <- ins_trip_perm. apply perm_skip, P.
  - change (fold_right ins_trip [] l) with (sort_trips l). clear P. induction S as [|y m S IH F]; cbn [ins_trip]; [constructor; constructor|].
    destruct (N.leb_spec (fst x) (fst y)) as [H|H].
    + constructor; [constructor; assumption|]. constructor; [exact H|]. rewrite Forall_forall in *. intros z Hz. specialize (F z Hz). lia.
    + constructor; [exact IH|]. rewrite Forall_forall in *. intros z Hz. apply (Permutation_in _ (Permutation_sym (ins_trip_perm x m))) in Hz.
      destruct Hz as [<-|Hz]; [lia|apply F, Hz].
Qed.

(* two trains on 2022-01-01, whose routes exclude each other crosswise *)
Definition ex_x : exclusion := mk_exclusion ex_i2e2 2.
Definition ex_day : bf := PropsBitfield.ex_cal ["1"]%char 18993.
Definition ex_trains : list ttrain :=
  [mk_ttrain (mktrain 0 ex_day 36000 36200) [0; 1; 4] [36060; 36120]%N;
   mk_ttrain (mktrain 1 ex_day 36005 36200) [2; 3; 5] [36070; 36100]%N].
Definition ex_infra (_ : list ascii) : option exclusion := Some ex_x.
Definition ex_tt (trains : list ttrain) (_ _ : list ascii) : option (list ttrain) := Some trains.
Definition ask (trains : list ttrain) (from to csv : string) : res (ServeModel.response janswer) :=
  serve_ordering_graph isort sort_trips ex_infra (ex_tt trains) [] []
    (list_ascii_of_string from) (list_ascii_of_string to) (list_ascii_of_string csv).

Lemma ex_day_built : PropsBitfield.built ex_day.
Proof.
  apply (PropsBitfield.built_make 18993 18993 ["1"]%char); [vm_compute; split; congruence|vm_compute; split; congruence|].
  vm_compute. reflexivity.
Qed.
Lemma ex_tk : timetable_ok ex_trains.
Proof.
  intros [|[|k]] t H; [| |destruct k; discriminate]; injection H as <-;
    (split; [reflexivity|]; split; [split; [exact ex_day_built|vm_compute; repeat split; congruence]|split; vm_compute; reflexivity]).
Qed.
Lemma ex_request : request (list_ascii_of_string "1640995200") (list_ascii_of_string "1641081600") [] 1640995200 1641081600 [].
Proof. apply filter_ok. vm_compute. reflexivity. Qed.
Lemma ex_apart : apart ex_x ex_trains 1640995200 1641081600 [].
Proof.
  assert (A : forall t a, asked ex_trains 1640995200 1641081600 [] t a -> (t = nth 0 ex_trains (nth 0 ex_trains (mk_ttrain (mktrain 0 ex_day 0 0) [] [])) \/
       t = nth 1 ex_trains (mk_ttrain (mktrain 0 ex_day 0 0) [] [])) /\ a = 1640995200%N).
  { intros t a H. apply (trips_asked ex_trains 1640995200 1641081600 [] ex_tk) in H; [|vm_compute; split; congruence].
    vm_compute in H. destruct H as [H|[H|[]]]; injection H as <- <-; split; auto. }
  split.
  - intros t a p ir s ir' s' H [_ (y & Hy & ->)] [H2 (y' & Hy' & ->)]. destruct (A t a H) as [[-> | ->] ->];
      destruct p as [|[|p]]; try (destruct p; discriminate); injection Hy as <-; injection Hy' as <-; vm_compute; reflexivity.
  - intros t a p ir s t' a' p' ir' s' H H' [_ (y & Hy & ->)] [_ (y' & Hy' & ->)] N _.
    destruct (A t a H) as [[-> | ->] ->], (A t' a' H') as [[-> | ->] ->];
      destruct p as [|[|[|p]]]; try (destruct p; discriminate); destruct p' as [|[|[|p']]]; try (destruct p'; discriminate);
      injection Hy as <-; injection Hy' as <-; solve [vm_compute; congruence|exfalso; apply N; reflexivity].
Qed.
(* the hypotheses of C92_graph_partial are met *)
Example C92_sat : exists ans trips, ask ex_trains "1640995200" "1641081600" "" = Ok (ServeModel.Answer ans) /\
  shows_trips ex_trains 1640995200 1641081600 [] trips ans /\ shows_nodes trips ans /\ shows_edges ex_x trips ans.
Proof.
  apply (C92_graph_partial isort sort_trips ex_infra (ex_tt ex_trains) [] []); try reflexivity.
  - exact isort_sorts.
  - exact sort_trips_ok.
  - exact ex_C22_i2e.
  - exact ex_tk.
  - exact ex_request.
  - exact ex_apart.
Qed.
Example ex_C92 : ask ex_trains "1640995200" "1641081600" "" = Ok (ServeModel.Answer (mk_janswer 2 3
  [mk_jnode 0 0 0 0 0; mk_jnode 1 0 1 0 1; mk_jnode 2 0 2 0 4; mk_jnode 3 1 0 1 2; mk_jnode 4 1 1 1 3; mk_jnode 5 1 2 1 5]
  [(0, 1); (0, 4); (1, 2); (3, 1); (3, 4); (4, 5)])) /\
  ask ex_trains "1640995200" "1641081600" "0,x" = Ok ServeModel.Bad_request.
Proof. vm_compute. split; reflexivity. Qed.

(* ---- findings ---- *)
(* The addresses the server accepts for this request have a list of trains of the
   form digits, then any number of a comma and digits (soro_server.cc:117-119). *)
Definition a_digit (c : ascii) : Prop := exists v, digit c v.
Definition ids_address (csv : list ascii) : Prop :=
  exists first rest, Forall a_digit first /\ Forall (fun r => r <> [] /\ Forall a_digit r) rest /\
    csv = first ++ flat_map (cons ","%char) rest.

(* Not every such request is understood: ",1" is turned down. *)
Theorem C92_address_refuted : exists csv,
  ids_address csv /\ ask ex_trains "1640995200" "1641081600" (string_of_list_ascii csv) = Ok ServeModel.Bad_request.
Proof.
  exists [","; "1"]%char. split; [|vm_compute; reflexivity]. exists [], [["1"%char]]. split; [constructor|]. split; [|reflexivity].
  constructor; [|constructor]. split; [discriminate|]. constructor; [|constructor]. exists 1%Z. repeat split; vm_compute; congruence.
Qed.
Print Assumptions C92_address_refuted.

(* A train that runs within the interval and is asked for is missing if it has no
   main signal on its path. *)
Definition ex_short : list ttrain := [mk_ttrain (mktrain 0 ex_day 36000 36200) [0] []].
Theorem C92_signalless_refuted : exists trains t d,
  timetable_ok trains /\ In t trains /\ PropsBitfield.runs (tr_days (tt_train t)) d /\
  (1640995200 <= d * 86400 + Z.of_N (tr_first_departure (tt_train t)))%Z /\
  (d * 86400 + Z.of_N (tr_last_arrival (tt_train t)) <= 1641081600)%Z /\
  ask trains "1640995200" "1641081600" "0" = Ok (ServeModel.Answer (mk_janswer 0 0 [] [])).
Proof.
  exists ex_short, (mk_ttrain (mktrain 0 ex_day 36000 36200) [0] []), 18993%Z. split.
  { intros [|k] t H; [|destruct k; discriminate]. injection H as <-.
    split; [reflexivity|]. split; [split; [exact ex_day_built|vm_compute; repeat split; congruence]|split; vm_compute; reflexivity]. }
  split; [left; reflexivity|]. split; [vm_compute; reflexivity|]. split; [vm_compute; congruence|]. split; [vm_compute; congruence|].
  vm_compute. reflexivity.
Qed.
Print Assumptions C92_signalless_refuted.

(* A trip that is under way during the whole interval is missing if it started the
   day before. *)
Definition ex_night : list ttrain := [mk_ttrain PropsBitfield.ex_train [0; 1] [80000]%N].
Theorem C92_overnight_refuted : exists trains t d,
  timetable_ok trains /\ In t trains /\ PropsBitfield.runs (tr_days (tt_train t)) d /\
  (d * 86400 + Z.of_N (tr_first_departure (tt_train t)) <= 1641085200)%Z /\
  (1641088800 <= d * 86400 + Z.of_N (tr_last_arrival (tt_train t)))%Z /\
  ask trains "1641085200" "1641088800" "" = Ok (ServeModel.Answer (mk_janswer 0 0 [] [])).
Proof.
  exists ex_night, (mk_ttrain PropsBitfield.ex_train [0; 1] [80000]%N), 18993%Z. split.
  { intros [|k] t H; [|destruct k; discriminate]. injection H as <-. destruct PropsBitfield.ex_train_good as [G W].
    split; [reflexivity|]. split; [exact G|]. split; [exact W|reflexivity]. }
  split; [left; reflexivity|]. split; [vm_compute; reflexivity|]. split; [vm_compute; congruence|]. split; [vm_compute; congruence|].
  vm_compute. reflexivity.
Qed.
Print Assumptions C92_overnight_refuted.
