(* C124: a request of the web client reaches the function of the server it is meant for, with
   the parameters it is about; where it does not.
   Reading guide: RouterSpec.v (asks_for: the addresses the server understands; concerns,
   spells: what a question of the client is about).  `route` is the server's table of
   routes, `address` the address the client sends (RouterModel.v). *)
From Coq Require Import List Bool NArith ZArith Lia Ascii String.
From Verif Require Import Base OgServeSpec ClientViewModel RouterModel RouterSpec RouterProofs.
From Verif Require KssDates PropsClientView ServeModel StartModel.
Import ListNotations.
Local Open Scope nat_scope.

(* Every address is understood in exactly one way: as the question it spells, or, if it spells
   none, as the name of a file. *)
Theorem C124_exact target h ps : route target = Some (h, ps) <->
  asks_for h ps target \/ h = H_static /\ ps = [] /\ forall h' ps', ~ asks_for h' ps' target.
Proof.
  split; [apply route_inv|]. intros [A|(-> & -> & N)]; [apply route_served, A|apply route_static, N].
Qed.
Print Assumptions C124_exact.
Theorem C124_total target : exists h ps, route target = Some (h, ps) /\ forall h' ps', asks_for h' ps' target -> h' = h /\ ps' = ps.
Proof.
  destruct (route target) as [(h & ps)|] eqn:E.
  - exists h, ps. split; [reflexivity|]. intros h' ps' A. apply route_served in A. split; congruence.
  - exfalso. assert (N : forall h ps, ~ asks_for h ps target) by (intros h ps A; apply route_served in A; congruence).
    rewrite (route_static _ N) in E. discriminate.
Qed.
Print Assumptions C124_total.

Lemma numeral_digits s v : KssDates.numeral s v -> digits s.
Proof.
  assert (D : forall c k, KssDates.digit c k -> In c (list_ascii_of_string "0123456789")).
  { intros c k (B & ->). apply is_digit_In. assert (O : (k = 0 \/ k = 1 \/ k = 2 \/ k = 3 \/ k = 4 \/ k = 5 \/ k = 6 \/ k = 7 \/ k = 8 \/ k = 9)%Z) by lia.
    do 9 (destruct O as [->|O]; [reflexivity|]). subst. reflexivity. }
  induction 1 as [c k H|s v c k H (N & F) Hc]; split; try discriminate.
  - constructor; [eapply D; eassumption|constructor].
  - destruct s; discriminate.
  - apply Forall_app. split; [exact F|]. constructor; [eapply D; eassumption|constructor].
Qed.
Lemma num_numeral n : KssDates.numeral (num n) (Z.of_N n).
Proof. apply PropsClientView.number_numeral. lia. Qed.
Lemma num_digits n : digits (num n).
Proof. eapply numeral_digits, num_numeral. Qed.
Lemma ids_commas l : ids_text (map (fun n => Some (Z.of_N n)) l) = commas (map num l).
Proof. unfold ids_text. rewrite PropsClientView.array_commas, map_map. reflexivity. Qed.
Lemma ids_list l : id_list (ids_text (map (fun n => Some (Z.of_N n)) l)).
Proof.
  rewrite ids_commas. destruct l as [|n l]; [exists [], []; auto|]. exists (num n), (map num l). split; [reflexivity|].
  split; [right; apply num_digits|]. apply Forall_map, Forall_forall. intros m _. apply num_digits.
Qed.
Ltac names P := repeat (apply Forall_cons_iff in P; let H := fresh "Q" in destruct P as (H & P)).
Ltac nd := repeat match goal with |- context [num ?n] => match goal with D : digits (num n) |- _ => fail 1 | _ => pose proof (num_digits n) end end.
(* If all names and texts in the question are made of letters, digits, underscore and hyphen, the
   server runs the right function on these names and numbers.  Missing: the list of stations, and
   names and texts with other characters (C124_lost_refuted). *)
Theorem C124_served_partial a h args : Forall plain (names_of a) -> concerns a h args -> (forall i, a <> Stations i) ->
  exists ps, route (address a) = Some (h, ps) /\ Forall2 spells ps args.
Proof.
  intros P C NS. destruct a as [|i|i|i n|i n|i n|i n|i q|i|i t|i t f u ids|i z x y]; cbn [names_of concerns] in *; names P; try (destruct (NS i eq_refl));
    destruct C as (-> & C); try subst args.
  - exists []. split; [apply route_served; exact (for_infrastructures [] (or_introl eq_refl))|constructor].
  - exists [i]. split; [apply route_served; pose proof (for_bounding_box i [] Q (or_introl eq_refl)) as K; close K|repeat constructor].
  - exists [i; num n]. split; [apply route_served; pose proof (for_station i (num n) Q (num_digits n)) as K; close K|repeat constructor; apply num_numeral].
  - exists [i; num n]. split; [apply route_served; pose proof (for_station_route i (num n) Q (num_digits n)) as K; close K|repeat constructor; apply num_numeral].
  - exists [i; num n]. split; [apply route_served; pose proof (for_interlocking_route i (num n) Q (num_digits n)) as K; close K|repeat constructor; apply num_numeral].
  - exists [i; num n]. split; [apply route_served; pose proof (for_element i (num n) Q (num_digits n)) as K; close K|repeat constructor; apply num_numeral].
  - exists [i; q]. split; [apply route_served; pose proof (for_search i q Q Q0) as K; close K|repeat constructor].
  - exists [i]. split; [apply route_served; pose proof (for_timetables i [] Q (or_introl eq_refl)) as K; close K|repeat constructor].
  - exists [i; t]. split; [apply route_served; pose proof (for_timetable i t [] Q Q0 (or_introl eq_refl)) as K; close K|repeat constructor].
  - destruct C as (l & -> & ->). exists [i; t; num f; num u; ids_text (map (fun n => Some (Z.of_N n)) l)].
    split; [apply route_served; pose proof (for_ordering i t _ _ _ Q Q0 (num_digits f) (num_digits u) (ids_list l)) as K; close K|].
    repeat constructor; try apply num_numeral. cbn [spells]. exists (map num l). split; [apply ids_commas|].
    clear NS. induction l as [|n l IH]; [constructor|]. constructor; [apply num_numeral|exact IH].
  - exists [i; num z; num x; num y]. split; [apply route_served; pose proof (for_tile i _ _ _ "."%char Q (num_digits z) (num_digits x) (num_digits y)) as K; close K|].
    repeat constructor; apply num_numeral.
Qed.
Print Assumptions C124_served_partial.

Lemma ids_nan ids : In None ids -> ~ id_list (ids_text ids).
Proof.
  intros I L. apply (id_list_noc _ "N"%char L); [discriminate|notin|]. unfold ids_text. rewrite PropsClientView.array_commas. clear L.
  induction ids as [|o ids IH]; [destruct I|]. destruct ids as [|o2 ids].
  - destruct I as [->|[]]. cbn. auto.
  - change (commas (map id_text (o :: o2 :: ids))) with (id_text o ++ ","%char :: commas (map id_text (o2 :: ids))).
    apply in_or_app. destruct I as [->|I]; [left; cbn; auto|right; right; apply IH, I].
Qed.
(* the parts of the address of a question *)
Definition address_parts (a : ask) : list text :=
  match a with
  | Infrastructures => [T "infrastructures"]
  | BoundingBox i => [T "infrastructure"; i; T "bounding_box"]
  | Stations i => [T "infrastructure"; i; T "stations"]
  | Station i id => [T "infrastructure"; i; T "station"; num id]
  | StationRoute i id => [T "infrastructure"; i; T "station_route"; num id]
  | InterlockingRoute i id => [T "infrastructure"; i; T "interlocking_route"; num id]
  | Element i id => [T "infrastructure"; i; T "element"; num id]
  | Search i q => [T "infrastructure"; i; T "search"; q]
  | Timetables i => [T "infrastructure"; i; T "timetables"]
  | Timetable i t => [T "infrastructure"; i; T "timetable"; t]
  | Ordering i t f u ids => [T "infrastructure"; i; T "timetable"; t; T "ordering?from=" ++ num f ++ T "&to=" ++ num u ++ T "&trainIds=" ++ ids_text ids]
  | Tile i z x y => [T "infrastructure"; i; T "tiles"; num z; num x; num y ++ T ".mvt"]
  end.
Lemma address_path a : address a = path (address_parts a).
Proof. destruct a; cbn [address address_parts path]; rewrite ?app_nil_r; reflexivity. Qed.
Lemma ids_noslash ids : noc "/" (ids_text ids).
Proof.
  unfold ids_text. rewrite PropsClientView.array_commas. apply commas_noc; [discriminate|]. apply Forall_map, Forall_forall. intros [z|] _.
  - unfold id_text. destruct (Z.le_gt_cases 0 z) as [L|L].
    + eapply digits_noc; [eapply numeral_digits, PropsClientView.number_numeral, L|notin].
    + destruct z as [|p|p]; [lia|lia|]. unfold noc. notin.
  - unfold noc. notin.
Qed.
Lemma address_noslash a : Forall (noc "/") (names_of a) -> Forall (noc "/") (address_parts a).
Proof.
  intros P. destruct a; cbn [names_of] in P; names P; cbn [address_parts]; nd; repeat first [apply ids_noslash | progress noslash].
Qed.

Definition good (h : handler) (ps : list text) : Prop :=
  match h, ps with
  | H_infrastructures, _ => True
  | (H_search | H_timetable), [i; q] => plain i /\ plain q
  | H_ordering, [i; t; f; u; d] => plain i /\ plain t /\ digits f /\ digits u /\ id_list d
  | _, i :: _ => plain i
  | _, _ => True
  end.
Lemma asks_good h ps t : asks_for h ps t -> good h ps.
Proof. intros H; inversion H; subst; cbn [good]; auto. Qed.
Lemma missed_asks a h ps : Forall (noc "/") (names_of a) -> missed a -> ~ asks_for h ps (address a).
Proof.
  intros P M A. pose proof (address_noslash a P) as PA. rewrite address_path in A. apply asks_good in A as G.
  remember (path (address_parts a)) as t eqn:E.
  destruct (asks_parts _ _ _ A) as (p & -> & Pp & H). apply path_unique in E; [|assumption|assumption]. subst p. clear A Pp PA P.
  pose proof (parts_list _ _ _ H) as L.
  destruct h; cbn iota in L; try contradiction; repeat match type of L with exists _, _ => let x := fresh "b" in destruct L as (x & L) end; subst ps;
    cbn [parts good] in H, G; open_parts H; destruct a; cbn [address_parts app] in H; try discriminate H;
    cbn [names_of] in M; destruct M as [M|[(j & M)|(j1 & j2 & j3 & j4 & j5 & M & N)]]; try discriminate M;
    try (apply M; clear M; injection H; intros; subst; repeat (apply Forall_cons; [tauto|]); apply Forall_nil).
  { apply M. constructor. }
  injection M as <- <- <- <- <-. destruct G as (_ & _ & D1 & D2 & K). apply (ids_nan _ N).
  apply (f_equal (fun l => nth 4 l [])) in H. cbn [nth] in H.
  destruct (ordering_unique _ _ _ _ _ _ (num_digits _) D1 (num_digits _) D2 H) as (_ & _ & ->). exact K.
Qed.
(* The names the server offers are names of directories: any characters but slashes.  Whoever asks for
   one with a character other than a letter, a digit, underscore or hyphen, for the list of
   stations, or searches for a text with another character (a space, an umlaut, a dot) asks for a
   file of that name. *)
Theorem C124_lost_refuted a : Forall (fun n => ~ In "/"%char n) (names_of a) -> missed a -> route (address a) = Some (H_static, []).
Proof. intros P M. apply route_static. intros h ps. apply missed_asks; assumption. Qed.
Print Assumptions C124_lost_refuted.
(* So the questions that reach their function are exactly these. *)
Theorem C124_reached a h args : Forall (fun n => ~ In "/"%char n) (names_of a) -> concerns a h args ->
  (exists ps, route (address a) = Some (h, ps)) <-> Forall plain (names_of a) /\ forall i, a <> Stations i.
Proof.
  intros P C. split.
  - intros (ps & R). assert (NM : ~ missed a).
    { intros M. rewrite (C124_lost_refuted a P M) in R. destruct a; cbn [concerns] in C; destruct C as (-> & _); discriminate. }
    split; [|intros i ->; apply NM; right; left; eauto].
    assert (D : forall l, (forall s, In s l -> plain s \/ ~ plain s) -> Forall plain l \/ ~ Forall plain l).
    { induction l as [|s l IH]; intros D; [auto|]. destruct (D s (or_introl eq_refl)) as [X|X]; [|right; intros F; inversion F; contradiction].
      destruct IH as [Y|Y]; [intros u I; apply D; right; exact I|left; auto|right; intros F; inversion F; contradiction]. }
    destruct (D (names_of a)) as [F|F]; [|exact F|exfalso; apply NM; left; exact F].
    intros s _. destruct s as [|c s]; [right; intros (N & _); congruence|]. destruct (forallb is_name (c :: s)) eqn:E.
    + left. apply plain_run. split; [discriminate|exact E].
    + right. intros X. apply plain_run in X as (_ & X). congruence.
  - intros (F & N). destruct (C124_served_partial a h args F C N) as (ps & R & _). eauto.
Qed.
Print Assumptions C124_reached.

(* ---- the timetables of an infrastructure ---- *)
Lemma lookup_In {C} n (l : list (text * C)) x : NoDup (map fst l) -> StartModel.lookup n l = Some x <-> In (n, x) l.
Proof.
  induction l as [|(m & d) l IH]; intros N; cbn [StartModel.lookup]; [split; [discriminate|intros []]|]. cbn [map fst] in N. inversion N as [|? ? N1 N2]; subst.
  unfold StartModel.text_eqb. destruct (list_eq_dec ascii_dec n m) as [->|NE].
  - split; [intros [= ->]; left; reflexivity|]. intros [[= ->]|I]; [reflexivity|]. destruct N1. apply in_map_iff. exists (m, x). auto.
  - rewrite IH by assumption. split; [intros I; right; exact I|intros [[= -> _]|I]; [congruence|exact I]].
Qed.
Lemma lookup_none {C} n (l : list (text * C)) : StartModel.lookup n l = None <-> ~ In n (map fst l).
Proof.
  induction l as [|(m & d) l IH]; cbn [StartModel.lookup map fst]; [split; auto|]. unfold StartModel.text_eqb.
  destruct (list_eq_dec ascii_dec n m) as [->|NE]; [split; [discriminate|intros H; destruct H; left; reflexivity]|].
  rewrite IH. split; [intros H [E|I]; [congruence|auto]|intros H I; apply H; right; exact I].
Qed.
(* A timetable that is offered is answered with its name and its interval, every other name with not
   found. *)
Theorem C124_timetable c i t : unique_names c ->
  (forall iv, serve_timetable c i t = Ok (ServeModel.Answer (t, iv)) <-> offers c i t iv) /\
  (serve_timetable c i t = Ok ServeModel.Not_found <-> forall iv, ~ offers c i t iv).
Proof.
  intros (U & V). unfold serve_timetable, get_timetable.
  destruct (StartModel.lookup i c) as [tts|] eqn:L.
  - apply (lookup_In _ _ _ U) in L as I. assert (W := V _ _ I).
    assert (O : forall iv, offers c i t iv <-> In (t, iv) tts).
    { intros iv. split; [|intros K; exists tts; auto]. intros (tts' & I' & K). apply (lookup_In _ _ _ U) in I'. congruence. }
    destruct (StartModel.lookup t tts) as [iv0|] eqn:K.
    + apply (lookup_In _ _ _ W) in K as J. split.
      * intros iv. rewrite O. split; [intros [= <-]; exact J|]. intros J'. apply (lookup_In _ _ _ W) in J'. congruence.
      * split; [discriminate|]. intros H. destruct (H iv0). apply O, J.
    + apply lookup_none in K. assert (Z : forall iv, ~ offers c i t iv) by (intros iv H; apply O in H; apply K, in_map_iff; exists (t, iv); auto).
      split; [|split; auto]. intros iv. split; [discriminate|]. intros H. destruct (Z _ H).
  - apply lookup_none in L. assert (Z : forall iv, ~ offers c i t iv) by (intros iv (tts & I & _); apply L, in_map_iff; exists (i, tts); auto).
    split; [|split; auto]. intros iv. split; [discriminate|]. intros H. destruct (Z _ H).
Qed.
Print Assumptions C124_timetable.
(* The names of the timetables of an infrastructure are those offered ... *)
Theorem C124_timetables_partial c i names : unique_names c -> serve_timetable_names c i = Ok (ServeModel.Answer names) ->
  NoDup names /\ forall t, In t names <-> exists iv, offers c i t iv.
Proof.
  intros (U & V). unfold serve_timetable_names. destruct (StartModel.lookup i c) as [tts|] eqn:L; [|discriminate]. intros [= <-].
  apply (lookup_In _ _ _ U) in L as I. split; [apply (V _ _ I)|]. intros t. rewrite in_map_iff. split.
  - intros ((t' & iv) & <- & J). exists iv, tts. auto.
  - intros (iv & tts' & I' & J). apply (lookup_In _ _ _ U) in I'. assert (tts' = tts) by congruence. subst. exists (t, iv). auto.
Qed.
Print Assumptions C124_timetables_partial.
(* ... but asking for those of an unknown infrastructure throws, where every other question about an
   unknown infrastructure is answered with not found. *)
Theorem C124_timetables_refuted c i : ~ In i (map fst c) <-> serve_timetable_names c i = Throw.
Proof.
  rewrite <- lookup_none. unfold serve_timetable_names. destruct (StartModel.lookup i c); split; congruence.
Qed.
Print Assumptions C124_timetables_refuted.

Local Open Scope string_scope.
Example C124_sat_ordering : route (address (Ordering (T "small-1") (T "follow_2") 0 86400 [Some 3; Some 17]%Z)) =
  Some (H_ordering, [T "small-1"; T "follow_2"; T "0"; T "86400"; T "3,17"]).
Proof. vm_compute. reflexivity. Qed.
Example C124_sat_tile : route (address (Tile (T "de_iss") 9 267 171)) = Some (H_tile, [T "de_iss"; T "9"; T "267"; T "171"]).
Proof. vm_compute. reflexivity. Qed.
Example C124_sat_stations : route (address (Stations (T "small"))) = Some (H_static, []) /\ route (T "/infrastructure/small/stations/") = Some (H_stations, [T "small"]).
Proof. split; vm_compute; reflexivity. Qed.
Example C124_sat_search : route (address (Search (T "small") (T "Bad Homburg"))) = Some (H_static, []) /\ missed (Search (T "small") (T "Bad Homburg")).
Proof.
  split; [vm_compute; reflexivity|]. left. intros F. cbn [names_of] in F. inversion F as [|? ? _ F1]; subst. inversion F1 as [|? ? F2 _]; subst.
  apply plain_run in F2 as (_ & K). discriminate.
Qed.
Example C124_sat_version : route (address (BoundingBox (T "iss-2021.1"))) = Some (H_static, []) /\ route (address (BoundingBox (T "iss-2021"))) = Some (H_bounding_box, [T "iss-2021"]).
Proof. split; vm_compute; reflexivity. Qed.
Example C124_sat_timetable : let c := [(T "small", [(T "follow", (10, 20)%N); (T "cross", (5, 7)%N)])] in
  unique_names c /\ serve_timetable c (T "small") (T "cross") = Ok (ServeModel.Answer (T "cross", (5, 7)%N)) /\
  serve_timetable c (T "large") (T "cross") = Ok ServeModel.Not_found /\ serve_timetable_names c (T "large") = Throw.
Proof.
  intros c. split; [|repeat split; vm_compute; reflexivity]. split.
  - repeat constructor. intros [].
  - intros i tts [[= <- <-]|[]]. repeat constructor; [intros [K|[]]; discriminate K|intros []].
Qed.
