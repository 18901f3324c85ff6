(* C89: what a search finds is true; C90: everything is found under its names;
   C91: requests for stations, routes, elements and exclusion sets. *)
From Coq Require Import Ascii String QArith.
From Verif Require Import Base TextModel StockModel LineModel KssDates StartModel StartProofs ServeModel ServeSpec ServeProofs.

(* ---- the server starts ---- *)
Lemma module_ok infras : NoDup (map fst infras) -> (forall n i, In (n, i) infras -> sound i) ->
  exists sv, get_search_module infras = Ok sv /\ sv_infras sv = infras /\
    (forall n i, In (n, i) infras -> lookup n infras = Some i /\ exists c, lookup n (sv_contexts sv) = Some c /\ get_search_context i = Ok c).
Proof.
  intros ND So. unfold get_search_module.
  destruct (mapM_total (fun i => do c <- get_search_context (snd i); Ok (fst i, c)) infras) as [cs H].
  { intros [n i] Hi. destruct (index_ok i (So _ _ Hi)) as (rs & E & _). cbn [snd fst]. rewrite E. cbn [bind]. eauto. }
  rewrite H. cbn [bind]. eexists. split; [reflexivity|]. split; [reflexivity|]. cbn [sv_contexts].
  intros n i Hi. split; [apply In_lookup; assumption|]. clear So.
  apply mapM_F2 in H. induction H as [|[m j] c l cs H _ IH]; [destruct Hi|]. cbn [fst snd] in H. inversion_clear ND as [|? ? Nm ND'].
  destruct (get_search_context j) as [rs| | |] eqn:E; try discriminate. cbn [bind] in H. injection H as <-.
  cbn [lookup]. destruct (text_eqb_spec n m) as [->|N].
  - exists rs. split; [reflexivity|]. destruct Hi as [Hi|Hi]; [injection Hi as <-; exact E|].
    exfalso. apply Nm. apply in_map_iff. exists (m, i). auto.
  - apply IH; [exact ND'|]. destruct Hi as [Hi|Hi]; [congruence|exact Hi].
Qed.

(* ---- C89 ---- *)
(* The web server starts with every list of infrastructures in good order under
   different names.  A search in an unknown infrastructure is answered with not
   found, a query of less than three characters is rejected, every other one is
   answered.  The results come in the order of the guesser.  Every result is a
   station, element or route of that infrastructure with this number, it has the
   name shown, and the box is the smallest one around the thing.  Elements are
   shown with their type.  Missing: halts with only one identifier also have a
   result without name, and results by operational identifier have no type
   (C89_nameless_refuted, C89_type_refuted). *)
Theorem C89_results_partial (guess : list text -> text -> list N) (infras : list (text * infra)) :
  guesses guess -> NoDup (map fst infras) -> (forall n i, In (n, i) infras -> sound i) ->
  exists sv, get_search_module infras = Ok sv /\ forall name query,
    (~ In name (map fst infras) -> serve_search guess sv name query = Ok Not_found) /\
    (forall i, In (name, i) infras -> (List.length query < 3)%nat -> serve_search guess sv name query = Ok Bad_request) /\
    (forall i, In (name, i) infras -> (3 <= List.length query)%nat ->
       exists rs texts, serve_search guess sv name query = Ok (Answer rs) /\
         Forall2 (fun v r => th texts v (rs_name r)) (guess texts query) rs /\
         forall r, In r rs ->
           (named i (rs_kind r) (rs_id r) (rs_name r) \/ rs_kind r = ELEMENT /\ rs_name r = [] /\ one_sided i (rs_id r)) /\
           (exists es ps, made_of i (rs_kind r) (rs_id r) es /\ places i es ps /\ smallest_box (rs_box r) ps) /\
           (labelled i (rs_kind r) (rs_id r) (rs_element_type r) \/
            rs_kind r = ELEMENT /\ rs_element_type r = [] /\ operational i (rs_id r) (rs_name r))).
Proof.
  intros G ND So. destruct (module_ok infras ND So) as (sv & E & Ei & Ec). exists sv. split; [exact E|]. intros name q.
  unfold serve_search. rewrite Ei. split; [|split].
  - intros N. apply lookup_None in N. rewrite N. reflexivity.
  - intros i Hi L. destruct (Ec _ _ Hi) as (E1 & c & E2 & E3). rewrite E1, E2. apply Nat.ltb_lt in L. rewrite L. reflexivity.
  - intros i Hi L. destruct (Ec _ _ Hi) as (E1 & c & E2 & E3). rewrite E1, E2. apply Nat.ltb_ge in L. rewrite L.
    unfold search. destruct (G (map rs_name c) q) as [Gw _].
    destruct (mapM_total (vec_at c) (guess (map rs_name c) q)) as [rs Hrs].
    { intros v Hv. rewrite Forall_forall in Gw. specialize (Gw v Hv). unfold within in Gw. rewrite map_length in Gw.
      apply th_within in Gw as [r T]. exists r. apply vec_at_iff, T. }
    rewrite Hrs. cbn [bind]. exists rs, (map rs_name c). split; [reflexivity|]. apply mapM_F2 in Hrs. split.
    + clear Gw. induction Hrs as [|v r vs rs H _ IH]; constructor; [|exact IH]. apply vec_at_iff in H. unfold th in *.
      rewrite nth_error_map, H. reflexivity.
    + intros r Hr. destruct (F2_In_r _ _ _ Hrs r Hr) as (v & _ & T). apply vec_at_iff in T. apply th_In in T.
      destruct (index_ok i (So _ _ Hi)) as (rs' & E' & Gd & _). rewrite E3 in E'. injection E' as <-. rewrite Forall_forall in Gd.
      destruct (Gd r T) as (A & B & C). auto.
Qed.
Print Assumptions C89_results_partial.

(* ---- C90 ---- *)
(* Every station is indexed under its ds100 code and its full name, every
   element under its number, every main signal, simple switch and halt under its
   name, every halt under its identifiers, every station route under its name,
   every interlocking route under its number.  Searching such a text of three
   characters or more gives a result with exactly this name; if it is the name
   of one thing only, that thing.  Numbers are written with three digits at
   least, so they can always be searched.  Missing: halts with only one of the
   two identifiers (C90_halt_refuted), names of less than three characters
   (C90_short_refuted). *)
Theorem C90_found_partial (guess : list text -> text -> list N) (infras : list (text * infra)) :
  guesses guess -> NoDup (map fst infras) -> (forall n i, In (n, i) infras -> sound i) ->
  exists sv, get_search_module infras = Ok sv /\ forall name i k v t,
    In (name, i) infras -> named i k v t -> ~ (k = ELEMENT /\ one_sided i v) ->
    (exists r c, lookup name (sv_contexts sv) = Some c /\ In r c /\ rs_kind r = k /\ rs_id r = v /\ rs_name r = t) /\
    ((3 <= List.length t)%nat -> exists rs r, serve_search guess sv name t = Ok (Answer rs) /\ In r rs /\ rs_name r = t /\
       ((forall k' v', named i k' v' t -> k' = k /\ v' = v) -> rs_kind r = k /\ rs_id r = v)).
Proof.
  intros G ND So. destruct (module_ok infras ND So) as (sv & E & Ei & Ec). exists sv. split; [exact E|].
  intros name i k v t Hi Hn NO. destruct (Ec _ _ Hi) as (E1 & c & E2 & E3).
  destruct (index_ok i (So _ _ Hi)) as (rs' & E' & Gd & Cm). rewrite E3 in E'. injection E' as <-.
  destruct (Cm k v t Hn NO) as (r & Hr & R1 & R2 & R3). split; [exists r, c; auto|].
  intros L. unfold serve_search. rewrite Ei, E1, E2. apply Nat.ltb_ge in L. rewrite L. unfold search.
  destruct (G (map rs_name c) t) as [Gw Gx].
  destruct (mapM_total (vec_at c) (guess (map rs_name c) t)) as [rs Hrs].
  { intros u Hu. rewrite Forall_forall in Gw. specialize (Gw u Hu). unfold within in Gw. rewrite map_length in Gw.
    apply th_within in Gw as [x T]. exists x. apply vec_at_iff, T. }
  rewrite Hrs. cbn [bind]. destruct Gx as (u & Hu & Tu); [rewrite <- R3; apply in_map, Hr|].
  apply mapM_F2 in Hrs. destruct (F2_In_l _ _ _ Hrs u Hu) as (x & Hx & Tx). apply vec_at_iff in Tx. exists rs, x.
  split; [reflexivity|]. split; [exact Hx|].
  assert (Nx : rs_name x = t). { unfold th in *. rewrite nth_error_map, Tx in Tu. injection Tu as ->. reflexivity. }
  split; [exact Nx|]. intros U. rewrite Forall_forall in Gd. destruct (Gd x (th_In _ _ _ Tx)) as [[A|(_ & A & _)] _].
  - rewrite Nx in A. apply (U _ _ A).
  - rewrite Nx in A. apply Nat.ltb_ge in L. rewrite A in L. cbn in L. lia.
Qed.
Print Assumptions C90_found_partial.
Theorem C90_numbers : forall t v, number_text t v -> (3 <= List.length t)%nat /\ forall u, number_text u v -> u = t.
Proof.
  intros t v H. split; [destruct H as [_ [H|[H _]]]; lia|]. intros u U. exact (number_text_unique _ _ _ U H).
Qed.
Print Assumptions C90_numbers.
Theorem C90_every_number : forall v, exists t, number_text t v.
Proof. intros v. eexists. apply pad_ok. Qed.
Print Assumptions C90_every_number.

(* ---- C91 ---- *)
Lemma parse_id_ok s v : numeral s (Z.of_N v) -> (v < 2 ^ 32)%N -> parse_id s = Ok v.
Proof.
  intros H L. unfold parse_id. rewrite (proj2 (parse_unsigned _ _ _) (conj H (ltac:(lia) : Z.of_N v <= 4294967295))).
  cbn [bind]. rewrite N2Z.id. reflexivity.
Qed.
Lemma parse_id_big s v : numeral s (Z.of_N v) -> (2 ^ 32 <= v)%N -> parse_id s = Throw.
Proof.
  intros H L. unfold parse_id. destruct (parse_int_total 0 4294967295 s) as [[u E]| ->]; [|reflexivity].
  apply parse_unsigned in E as [E L']. exfalso. destruct (numeral_digits _ _ H) as (_ & _ & E1). destruct (numeral_digits _ _ E) as (_ & _ & E2). lia.
Qed.

(* what is known about a station, a station route, ... *)
Definition station_facts (i : infra) (v : N) (a : N * text * list (N * text * N * N) * list N) : Prop :=
  let '(id, ds100, routes, irs) := a in
  id = v /\ (exists s, th (in_stations i) v s /\ ds100 = st_ds100 s /\
    Forall2 (fun nr shown => let '(rid, name, from, to) := shown in
               name = fst nr /\ rid = snd nr /\
               exists r, th (in_sroutes i) rid r /\ sr_name r = name /\ (exists m, sr_nodes r = from :: m) /\ (exists m, sr_nodes r = m ++ [to]))
            (st_routes s) routes) /\
  th (in_station_irs i) v irs.
Definition sroute_facts (i : infra) (v : N) (a : N * text * text * list gps) : Prop :=
  let '(id, name, ds100, path) := a in
  id = v /\ exists r s, th (in_sroutes i) v r /\ name = sr_name r /\ th (in_stations i) (sr_station r) s /\ ds100 = st_ds100 s /\ places i (sr_nodes r) path.
Definition iroute_facts (i : infra) (v : N) (a : N * list gps) : Prop :=
  let '(id, path) := a in id = v /\ exists r, th (in_iroutes i) v r /\ places i (ir_nodes r) path.
Definition set_facts (i : infra) (v : N) (a : N * N * list N) : Prop :=
  let '(id, size, routes) := a in id = v /\ size = N.of_nat (List.length routes) /\ th (in_exclusion_sets i) v routes.
Definition element_facts (i : infra) (v : N) (a : N * option (Q * bool * N) * list (string * value)) : Prop :=
  let '(id, track, fields) := a in
  id = v /\ exists e d, th (in_elements i) v e /\ th (in_data i) v d /\
    track = (if is_directed_track_element (el_type e) then el_track e else None) /\
    (forall n op ex p, d = D_halt n op ex p ->
       In ("name"%string, V_text n) fields /\ In ("id_op"%string, V_text op) fields /\
       In ("id_extern"%string, V_text ex) fields /\ In ("passenger"%string, V_bool p) fields) /\
    (forall n, d = D_main_signal n \/ d = D_switch n -> fields = [("name"%string, V_text n)]) /\
    (forall b, d = D_eotd b -> fields = [("signal"%string, V_bool b)]) /\
    (forall r f, d = D_slope r f -> In ("rising"%string, V_number r) fields /\ In ("falling"%string, V_number f) fields) /\
    (forall l p, d = D_speed_limit l p -> In ("point_of_activation"%string, V_bool p) fields /\
       exists q, In ("limit"%string, V_number q) fields /\ (q * 1000 == l * 3600)%Q) /\
    (d = D_empty -> fields = []).

(* a request by number about one of the things of a list: answered with what is
   known if there is one with that number, not found otherwise *)
Definition answered {A B} (l : list A) (facts : N -> B -> Prop) (ask : text -> res (response B)) : Prop :=
  forall s v, numeral s (Z.of_N v) -> (v < 2 ^ 32)%N ->
    (within l v -> exists a, ask s = Ok (Answer a) /\ facts v a) /\ (~ within l v -> ask s = Ok Not_found).

Section Requests.
  Variables (sv : server) (name : text) (i : infra).
  Hypothesis Hi : lookup name (sv_infras sv) = Some i.
  Hypothesis So : sound i.

  Lemma show_route_ok s r : In s (in_stations i) -> In r (st_routes s) -> exists a, show_route i r = Ok a /\
    let '(rid, nm, from, to) := a in nm = fst r /\ rid = snd r /\
      exists x, th (in_sroutes i) rid x /\ sr_name x = nm /\ (exists m, sr_nodes x = from :: m) /\ (exists m, sr_nodes x = m ++ [to]).
  Proof.
    intros Hs Hr. destruct (so_station _ So s Hs) as (_ & _ & F). rewrite Forall_forall in F. destruct (F r Hr) as (x & T & Nm).
    destruct (so_sroute _ So x (th_In _ _ _ T)) as (NE & _ & _). unfold show_route. rewrite (proj2 (vec_at_iff _ _ _) T). cbn [bind].
    pose proof (so_sroutes _ So _ _ T) as Id. destruct (sr_nodes x) as [|a m] eqn:EN; [congruence|]. cbn [front back bind].
    eexists. split; [reflexivity|]. cbn beta iota. split; [exact Nm|]. split; [exact Id|]. exists x. rewrite Id, EN.
    split; [exact T|]. split; [reflexivity|]. split; [eauto|]. exists (removelast (a :: m)). apply app_removelast_last. discriminate.
  Qed.

  Lemma ask_station : answered (in_stations i) (station_facts i) (serve_station sv name).
  Proof.
    intros s v H L. unfold serve_station, with_infra. rewrite Hi, (parse_id_ok _ _ H L). cbn [bind]. split; intros W.
    - unfold within in W. rewrite (proj2 (N.leb_gt _ _) W). apply th_within in W as [x T]. rewrite (proj2 (vec_at_iff _ _ _) T). cbn [bind].
      assert (W' : within (in_station_irs i) v). { unfold within. rewrite (so_irs _ So). apply th_within. eauto. }
      apply th_within in W' as [irs T']. rewrite (proj2 (vec_at_iff _ _ _) T'). cbn [bind].
      destruct (mapM_total (show_route i) (st_routes x)) as [rs Hrs].
      { intros r Hr. destruct (show_route_ok x r (th_In _ _ _ T) Hr) as (a & Ha & _). eauto. }
      rewrite Hrs. cbn [bind]. eexists. split; [reflexivity|]. unfold station_facts. split; [exact (so_stations _ So _ _ T)|].
      split; [|exact T']. exists x. split; [exact T|]. split; [reflexivity|]. apply mapM_F2 in Hrs.
      assert (All : forall r, In r (st_routes x) -> exists a, show_route i r = Ok a /\
        let '(rid, nm, from, to) := a in nm = fst r /\ rid = snd r /\
        exists y, th (in_sroutes i) rid y /\ sr_name y = nm /\ (exists m, sr_nodes y = from :: m) /\ (exists m, sr_nodes y = m ++ [to])).
      { intros r Hr. exact (show_route_ok x r (th_In _ _ _ T) Hr). }
      induction Hrs as [|r a l as_ E _ IH]; constructor; [|apply IH; intros y Hy; apply All; right; exact Hy].
      destruct (All r (or_introl eq_refl)) as (b & E' & P). rewrite E in E'. injection E' as <-. exact P.
    - unfold within in W. rewrite (proj2 (N.leb_le _ _)) by lia. reflexivity.
  Qed.
  Lemma ask_station_route : answered (in_sroutes i) (sroute_facts i) (serve_station_route sv name).
  Proof.
    intros s v H L. unfold serve_station_route, with_infra. rewrite Hi, (parse_id_ok _ _ H L). cbn [bind]. split; intros W.
    - unfold within in W. rewrite (proj2 (N.leb_gt _ _) W). apply th_within in W as [x T]. rewrite (proj2 (vec_at_iff _ _ _) T). cbn [bind].
      destruct (so_sroute _ So x (th_In _ _ _ T)) as (_ & F & Ws). apply th_within in Ws as [st Ts]. rewrite (proj2 (vec_at_iff _ _ _) Ts). cbn [bind].
      destruct (places_ok i So _ F) as (ps & E & P). rewrite E. cbn [bind]. eexists. split; [reflexivity|]. unfold sroute_facts.
      split; [exact (so_sroutes _ So _ _ T)|]. exists x, st. auto.
    - unfold within in W. rewrite (proj2 (N.leb_le _ _)) by lia. reflexivity.
  Qed.
  Lemma ask_interlocking_route : answered (in_iroutes i) (iroute_facts i) (serve_interlocking_route sv name).
  Proof.
    intros s v H L. unfold serve_interlocking_route, with_infra. rewrite Hi, (parse_id_ok _ _ H L). cbn [bind]. split; intros W.
    - unfold within in W. rewrite (proj2 (N.leb_gt _ _) W). apply th_within in W as [x T]. rewrite (proj2 (vec_at_iff _ _ _) T). cbn [bind].
      destruct (so_iroute _ So x (th_In _ _ _ T)) as (_ & F). destruct (places_ok i So _ F) as (ps & E & P). rewrite E. cbn [bind].
      eexists. split; [reflexivity|]. unfold iroute_facts. split; [exact (so_iroutes _ So _ _ T)|]. exists x. auto.
    - unfold within in W. rewrite (proj2 (N.leb_le _ _)) by lia. reflexivity.
  Qed.
  Lemma ask_element s v : numeral s (Z.of_N v) -> (v < 2 ^ 32)%N -> within (in_elements i) v ->
    exists a, serve_element sv name s = Ok (Answer a) /\ element_facts i v a.
  Proof.
    intros H L W. unfold serve_element, with_infra. rewrite Hi, (parse_id_ok _ _ H L). cbn [bind].
    assert (W' : within (in_data i) v) by (unfold within; rewrite (so_data _ So); exact W).
    apply th_within in W as [e T]. apply th_within in W' as [d D]. rewrite (proj2 (vec_at_iff _ _ _) T). cbn [bind].
    assert (Tr : (if is_directed_track_element (el_type e) then match el_track e with Some t => Ok (Some t) | None => UB end else Ok None) =
                 Ok (if is_directed_track_element (el_type e) then el_track e else None)).
    { destruct (is_directed_track_element (el_type e)) eqn:Dt; [|reflexivity]. pose proof (so_track _ So e (th_In _ _ _ T) Dt) as NN.
      destruct (el_track e); [reflexivity|congruence]. }
    rewrite Tr. cbn [bind]. rewrite (proj2 (vec_at_iff _ _ _) D). cbn [bind]. eexists. split; [reflexivity|].
    unfold element_facts. split; [reflexivity|]. exists e, d. split; [exact T|]. split; [exact D|]. split; [reflexivity|].
    split; [|split; [|split; [|split; [|split]]]].
    - intros n op ex p ->. cbn. auto 10.
    - intros n [-> | ->]; reflexivity.
    - intros b ->. reflexivity.
    - intros r f ->. cbn. auto.
    - intros l p ->. cbn. split; [auto|]. eexists. split; [left; reflexivity|]. ring.
    - intros ->. reflexivity.
  Qed.
  Lemma ask_set s v : numeral s (Z.of_N v) -> (v < 2 ^ 32)%N -> within (in_exclusion_sets i) v ->
    exists a, serve_exclusion_set sv name s = Ok (Answer a) /\ set_facts i v a.
  Proof.
    intros H L W. unfold serve_exclusion_set, with_infra. rewrite Hi, (parse_id_ok _ _ H L). cbn [bind].
    apply th_within in W as [x T]. rewrite (proj2 (vec_at_iff _ _ _) T). cbn [bind]. eexists. split; [reflexivity|]. unfold set_facts. auto.
  Qed.
End Requests.

(* Requests about an infrastructure the server does not have are answered with
   not found.  For one it has, in good order: the names of the stations are
   listed with their numbers; a request by number for a station, station route
   or interlocking route is answered with what is known of it if there is one
   with that number, with not found otherwise; requests for elements and
   exclusion sets that exist are answered.  Missing: numbers of elements and
   exclusion sets that do not exist (C91_element_refuted, C91_set_refuted),
   numbers of 2^32 and more (C91_big_refuted). *)
Theorem C91_requests_partial (infras : list (text * infra)) (sv : server) :
  get_search_module infras = Ok sv -> NoDup (map fst infras) -> forall name,
  (~ In name (map fst infras) -> forall s,
     serve_station sv name s = Ok Not_found /\ serve_station_route sv name s = Ok Not_found /\
     serve_interlocking_route sv name s = Ok Not_found /\ serve_element sv name s = Ok Not_found /\
     serve_exclusion_set sv name s = Ok Not_found /\ serve_station_names sv name = Ok Not_found /\ serve_bounding_box sv name = Ok Not_found) /\
  (forall i, In (name, i) infras -> sound i ->
     answered (in_stations i) (station_facts i) (serve_station sv name) /\
     answered (in_sroutes i) (sroute_facts i) (serve_station_route sv name) /\
     answered (in_iroutes i) (iroute_facts i) (serve_interlocking_route sv name) /\
     (forall s v, numeral s (Z.of_N v) -> (v < 2 ^ 32)%N ->
        (within (in_elements i) v -> exists a, serve_element sv name s = Ok (Answer a) /\ element_facts i v a) /\
        (within (in_exclusion_sets i) v -> exists a, serve_exclusion_set sv name s = Ok (Answer a) /\ set_facts i v a)) /\
     (exists l, serve_station_names sv name = Ok (Answer l) /\
        forall v d, In (d, v) l <-> exists s, th (in_stations i) v s /\ st_ds100 s = d) /\
     (in_elements i <> [] -> exists b, serve_bounding_box sv name = Ok (Answer b) /\ smallest_box b (in_positions i))).
Proof.
  intros E ND name. assert (Ei : sv_infras sv = infras).
  { unfold get_search_module in E. destruct (mapM _ infras); try discriminate. cbn [bind] in E. injection E as <-. reflexivity. }
  split.
  - intros N s. apply lookup_None in N. rewrite <- Ei in N.
    unfold serve_station, serve_station_route, serve_interlocking_route, serve_element, serve_exclusion_set, serve_station_names, serve_bounding_box, with_infra.
    rewrite N. auto 10.
  - intros i Hi So. apply (In_lookup _ _ _ ND) in Hi. rewrite <- Ei in Hi.
    split; [exact (ask_station sv name i Hi So)|]. split; [exact (ask_station_route sv name i Hi So)|].
    split; [exact (ask_interlocking_route sv name i Hi So)|].
    split; [intros s v H L; split; [exact (ask_element sv name i Hi So s v H L)|exact (ask_set sv name i Hi s v H L)]|].
    split.
    + unfold serve_station_names, with_infra. rewrite Hi. eexists. split; [reflexivity|]. intros v d. rewrite in_map_iff. split.
      * intros (s & Es & Hs). apply In_th in Hs as [u T]. pose proof (so_stations _ So _ _ T) as Id. injection Es as <- <-. exists s. rewrite Id. auto.
      * intros (s & T & <-). exists s. split; [|exact (th_In _ _ _ T)]. rewrite (so_stations _ So _ _ T). reflexivity.
    + intros NE. unfold serve_bounding_box, with_infra. rewrite Hi. eexists. split; [reflexivity|]. apply smallest.
      * intros C. pose proof (so_positions _ So) as L. rewrite C in L. destruct (in_elements i); [congruence|discriminate].
      * intros p Hp. exact (so_valid _ So p Hp).
Qed.
Print Assumptions C91_requests_partial.

(* FINDING.  The number of an element or an exclusion set is not compared with
   how many there are: every number that is too large is undefined behaviour. *)
Theorem C91_element_refuted (sv : server) name i s v : lookup name (sv_infras sv) = Some i ->
  numeral s (Z.of_N v) -> (v < 2 ^ 32)%N -> ~ within (in_elements i) v -> serve_element sv name s = UB.
Proof.
  intros Hi H L W. unfold serve_element, with_infra. rewrite Hi, (parse_id_ok _ _ H L). cbn [bind]. rewrite (vec_at_out _ _ W). reflexivity.
Qed.
Print Assumptions C91_element_refuted.
Theorem C91_set_refuted (sv : server) name i s v : lookup name (sv_infras sv) = Some i ->
  numeral s (Z.of_N v) -> (v < 2 ^ 32)%N -> ~ within (in_exclusion_sets i) v -> serve_exclusion_set sv name s = UB.
Proof.
  intros Hi H L W. unfold serve_exclusion_set, with_infra. rewrite Hi, (parse_id_ok _ _ H L). cbn [bind]. rewrite (vec_at_out _ _ W). reflexivity.
Qed.
Print Assumptions C91_set_refuted.
(* FINDING.  A number of 2^32 or more is not answered with not found, the
   assertion of the number parser fails. *)
Theorem C91_big_refuted (sv : server) name i s v : lookup name (sv_infras sv) = Some i ->
  numeral s (Z.of_N v) -> (2 ^ 32 <= v)%N ->
  serve_station sv name s = Throw /\ serve_station_route sv name s = Throw /\ serve_interlocking_route sv name s = Throw /\
  serve_element sv name s = Throw /\ serve_exclusion_set sv name s = Throw.
Proof.
  intros Hi H L. unfold serve_station, serve_station_route, serve_interlocking_route, serve_element, serve_exclusion_set, with_infra.
  rewrite Hi, (parse_id_big _ _ H L). auto 10.
Qed.
Print Assumptions C91_big_refuted.

(* What a search finds can be asked for: the request with the number of a result
   is answered with the thing of that number. *)
Theorem C91_results_resolve (infras : list (text * infra)) (sv : server) :
  get_search_module infras = Ok sv -> NoDup (map fst infras) -> forall name i c r s,
  In (name, i) infras -> sound i -> lookup name (sv_contexts sv) = Some c -> In r c ->
  (rs_id r < 2 ^ 32)%N -> numeral s (Z.of_N (rs_id r)) ->
  match rs_kind r with
  | STATION => exists a, serve_station sv name s = Ok (Answer a) /\ station_facts i (rs_id r) a
  | ELEMENT => exists a, serve_element sv name s = Ok (Answer a) /\ element_facts i (rs_id r) a
  | STATION_ROUTE => exists a, serve_station_route sv name s = Ok (Answer a) /\ sroute_facts i (rs_id r) a
  | INTERLOCKING_ROUTE => exists a, serve_interlocking_route sv name s = Ok (Answer a) /\ iroute_facts i (rs_id r) a
  end.
Proof.
  intros E ND name i c r s Hi So Hc Hr L H.
  destruct (C91_requests_partial infras sv E ND name) as [_ R]. destruct (R i Hi So) as (R1 & R2 & R3 & R4 & _). clear R.
  assert (M : exists es, made_of i (rs_kind r) (rs_id r) es).
  { unfold get_search_module in E. destruct (mapM _ infras) as [cs| | |] eqn:Em; try discriminate. cbn [bind] in E. injection E as <-. cbn [sv_contexts] in Hc.
    apply mapM_F2 in Em. assert (get_search_context i = Ok c) as Ec.
    { clear R1 R2 R3 R4. induction Em as [|[m j] d l cs Ed _ IH]; [destruct Hi|]. cbn [fst snd] in Ed. inversion_clear ND as [|? ? Nm ND'].
      destruct (get_search_context j) as [rs| | |] eqn:Ej; try discriminate. cbn [bind] in Ed. injection Ed as <-.
      cbn [lookup] in Hc. destruct (text_eqb_spec name m) as [->|N].
      - injection Hc as <-. destruct Hi as [Hi|Hi]; [injection Hi as <-; exact Ej|]. exfalso. apply Nm. apply in_map_iff. exists (m, i). auto.
      - apply IH; [exact ND'| |exact Hc]. destruct Hi as [Hi|Hi]; [congruence|exact Hi]. }
    destruct (index_ok i So) as (rs & E' & Gd & _). rewrite Ec in E'. injection E' as <-. rewrite Forall_forall in Gd.
    destruct (Gd r Hr) as (_ & (es & _ & Mk & _) & _). eauto. }
  destruct M as [es M]. destruct (rs_kind r) eqn:K; inversion M; subst.
  - destruct (R1 s (rs_id r) H L) as [A _]. apply A. apply th_within. eauto.
  - destruct (R4 s (rs_id r) H L) as [A _]. apply A. apply th_within. eauto.
  - destruct (R2 s (rs_id r) H L) as [A _]. apply A. apply th_within. eauto.
  - destruct (R3 s (rs_id r) H L) as [A _]. apply A. apply th_within. eauto.
Qed.
Print Assumptions C91_results_resolve.

(* ---- a server with one infrastructure ---- *)
Definition tx (s : string) : text := list_ascii_of_string s.
Definition pos (x y : Z) : gps := mkgps (inject_Z x) (inject_Z y).
(* two stations; a main signal, a halt with an operational identifier only, a
   halt with both identifiers *)
Definition small : infra :=
  mk_infra [mk_station 0 (tx "FF") [0; 1]%N [(tx "r1", 0%N)]; mk_station 1 (tx "HABC") [2]%N []]
           [tx "Frankfurt"; tx "HABC"]
           [mk_element 0 MAIN_SIGNAL (Some (inject_Z 1, true, 4%N)); mk_element 1 HALT (Some (inject_Z 2, false, 4%N)); mk_element 2 HALT (Some (inject_Z 3, true, 4%N))]
           [D_main_signal (tx "N17"); D_halt [] (tx "OP-1") [] true; D_halt (tx "Hof") (tx "OP-2") (tx "EX-2") false]
           [pos 8 50; pos 9 49; pos 10 51]
           [mk_sroute 0 (tx "r1") 0 [0; 1]%N]
           [mk_iroute 0 [0; 1; 2]%N]
           [[0%N]; [0%N]]
           [[0%N]].
Lemma th_cases {A} (l : list A) v x : th l v x -> exists k, (k < List.length l)%nat /\ v = N.of_nat k /\ nth_error l k = Some x.
Proof.
  intros H. exists (N.to_nat v). split; [apply nth_error_Some; unfold th in H; congruence|]. split; [lia|exact H].
Qed.
Ltac cases3 H := let k := fresh in let L := fresh in
  apply th_cases in H as (k & L & -> & H); cbn [List.length small in_stations in_elements in_sroutes in_iroutes in_data] in L;
  destruct k as [|[|[|k]]]; [..|lia]; try lia; cbn in H; injection H as <-.
Example small_sound : sound small.
Proof.
  constructor; try reflexivity.
  - intros v x H. cases3 H; reflexivity.
  - intros v x H. cases3 H; reflexivity.
  - intros v x H. cases3 H; reflexivity.
  - intros v x H. cases3 H; reflexivity.
  - intros p H. cbn in H. decompose [or] H; subst; try contradiction; unfold pos; cbn; repeat split; unfold Qle; cbn; lia.
  - intros s H. cbn in H. destruct H as [<-|[<-|[]]]; (split; [discriminate|]); (split; [repeat constructor|]).
    + constructor; [|constructor]. exists (mk_sroute 0 (tx "r1") 0 [0; 1]%N). split; reflexivity.
    + constructor.
  - intros r [<-|[]]. split; [discriminate|]. split; repeat constructor.
  - intros r [<-|[]]. split; [discriminate|]. repeat constructor.
  - intros v e H T. cases3 H; try discriminate. eexists. reflexivity.
  - intros v e H T. cases3 H; discriminate.
  - intros v e H T. cases3 H; try discriminate; do 4 eexists; reflexivity.
  - intros e H _. cbn in H. destruct H as [<-|[<-|[<-|[]]]]; discriminate.
Qed.
(* a guesser that finds equal texts *)
Definition equal_texts (l : list text) (q : text) : list N :=
  map (fun e => N.of_nat (fst e)) (filter (fun e => text_eqb q (snd e)) (enumerate l)).
Example equal_texts_guesses : guesses equal_texts.
Proof.
  intros l q. split.
  - apply Forall_forall. intros v H. apply in_map_iff in H as ([k t] & <- & H). apply filter_In in H as [H _]. apply enumerate_In in H.
    apply th_within. exists t. unfold th. cbn [fst]. rewrite Nat2N.id. exact H.
  - intros H. apply In_nth_error in H as [k H]. exists (N.of_nat k). split.
    + apply in_map_iff. exists (k, q). split; [reflexivity|]. apply filter_In. split; [apply enumerate_In, H|]. cbn [snd].
      destruct (text_eqb_spec q q); congruence.
    + unfold th. rewrite Nat2N.id. exact H.
Qed.
Definition one_server : list (text * infra) := [(tx "net", small)].
Example C89_sat : exists sv b, get_search_module one_server = Ok sv /\
  serve_search equal_texts sv (tx "net") (tx "Frankfurt") = Ok (Answer [mk_result STATION (tx "Frankfurt") b 0 []]) /\
  b = mkbox (pos 8 49) (pos 9 50) /\
  serve_search equal_texts sv (tx "net") (tx "Fr") = Ok Bad_request /\ serve_search equal_texts sv (tx "map") (tx "Frankfurt") = Ok Not_found.
Proof. eexists. eexists. split; [reflexivity|]. split; [reflexivity|]. split; [reflexivity|]. split; reflexivity. Qed.
Example C90_sat : exists sv b, get_search_module one_server = Ok sv /\
  serve_search equal_texts sv (tx "net") (tx "001") = Ok (Answer [mk_result ELEMENT (tx "001") b 1 (tx "hlt")]).
Proof. eexists. eexists. split; reflexivity. Qed.
(* FINDING.  The halt with an operational identifier only is not found under it
   (search_module.cc:109-117 tests one identifier and stores the other); it has
   a result without a name instead. *)
Theorem C90_halt_refuted : exists infras sv i v t,
  get_search_module infras = Ok sv /\ In (tx "net", i) infras /\ sound i /\ named i ELEMENT v t /\ (3 <= List.length t)%nat /\
  (forall c r, lookup (tx "net") (sv_contexts sv) = Some c -> In r c -> rs_name r <> t) /\
  serve_search equal_texts sv (tx "net") t = Ok (Answer []).
Proof.
  exists one_server. eexists. exists small, 1%N, (tx "OP-1"). split; [reflexivity|]. split; [left; reflexivity|]. split; [exact small_sound|].
  split; [apply (by_operational small 1 (mk_element 1 HALT (Some (inject_Z 2, false, 4%N))) (tx "OP-1") [] true []); [reflexivity..|discriminate]|].
  split; [cbn; lia|]. split; [|reflexivity].
  intros c r Hc Hr. cbn in Hc. injection Hc as <-. cbn in Hr.
  repeat (destruct Hr as [<-|Hr]; [cbn; discriminate|]). destruct Hr.
Qed.
Print Assumptions C90_halt_refuted.
Theorem C89_nameless_refuted : exists infras sv i c r,
  get_search_module infras = Ok sv /\ In (tx "net", i) infras /\ sound i /\ lookup (tx "net") (sv_contexts sv) = Some c /\ In r c /\
  rs_name r = [] /\ ~ named i (rs_kind r) (rs_id r) (rs_name r).
Proof.
  exists one_server. eexists. exists small. eexists. eexists. split; [reflexivity|]. split; [left; reflexivity|]. split; [exact small_sound|].
  split; [reflexivity|]. split; [do 6 right; left; reflexivity|]. split; [reflexivity|].
  cbn [rs_kind rs_id rs_name]. intros H. inversion H; subst; try congruence.
  - match goal with X : number_text [] _ |- _ => destruct X as [_ [X|[X _]]]; cbn in X; lia end.
  - match goal with X : th (in_data _) _ _ |- _ => vm_compute in X; discriminate end.
  - match goal with X : th (in_data _) _ _ |- _ => vm_compute in X; discriminate end.
Qed.
Print Assumptions C89_nameless_refuted.
(* FINDING.  The result by operational identifier has no element type. *)
Theorem C89_type_refuted : exists infras sv i r b,
  get_search_module infras = Ok sv /\ In (tx "net", i) infras /\ sound i /\
  serve_search equal_texts sv (tx "net") (tx "OP-2") = Ok (Answer [r]) /\ r = mk_result ELEMENT (tx "OP-2") b 2 [] /\
  ~ labelled i (rs_kind r) (rs_id r) (rs_element_type r).
Proof.
  exists one_server. eexists. exists small. eexists. eexists. split; [reflexivity|]. split; [left; reflexivity|]. split; [exact small_sound|].
  split; [reflexivity|]. split; [reflexivity|]. cbn [rs_kind rs_id rs_element_type labelled]. intros (e & T & H).
  unfold th in T. cbn in T. injection T as <-. discriminate.
Qed.
Print Assumptions C89_type_refuted.
(* FINDING.  A station with a ds100 code of two letters cannot be found under it. *)
Theorem C90_short_refuted : exists infras sv i v t,
  get_search_module infras = Ok sv /\ In (tx "net", i) infras /\ sound i /\ named i STATION v t /\
  forall guess, serve_search guess sv (tx "net") t = Ok Bad_request.
Proof.
  exists one_server. eexists. exists small, 0%N, (tx "FF"). split; [reflexivity|]. split; [left; reflexivity|]. split; [exact small_sound|].
  split; [apply (by_ds100 small 0 (mk_station 0 (tx "FF") [0; 1]%N [(tx "r1", 0%N)])); reflexivity|]. intros guess. reflexivity.
Qed.
Print Assumptions C90_short_refuted.
Example C91_sat : exists sv, get_search_module one_server = Ok sv /\
  serve_station sv (tx "net") (tx "0") = Ok (Answer (0%N, tx "FF", [(0%N, tx "r1", 0%N, 1%N)], [0%N])) /\
  serve_station sv (tx "net") (tx "2") = Ok Not_found /\
  serve_station_route sv (tx "net") (tx "0") = Ok (Answer (0%N, tx "r1", tx "FF", [pos 8 50; pos 9 49])) /\
  serve_element sv (tx "net") (tx "3") = UB /\ serve_exclusion_set sv (tx "net") (tx "1") = UB /\
  serve_element sv (tx "net") (tx "4294967296") = Throw.
Proof. eexists. split; [reflexivity|]. repeat split; vm_compute; reflexivity. Qed.
