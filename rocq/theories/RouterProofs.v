(* Proofs for C124: the regular expressions of the routes against the addresses of RouterSpec.v *)
From Coq Require Import List Bool NArith ZArith Lia Ascii String.
From Verif Require Import Base OgServeSpec ClientViewModel RouterModel RouterSpec.
From Verif Require KssDates PropsClientView.
Import ListNotations.
Local Open Scope nat_scope.

(* ---- characters ---- *)
Lemma is_name_In c : is_name c = true <-> In c plain_characters.
Proof.
  transitivity (existsb (Ascii.eqb c) plain_characters = true).
  - assert (E : existsb (Ascii.eqb c) plain_characters = is_name c) by (destruct c as [[] [] [] [] [] [] [] []]; reflexivity).
    rewrite E. reflexivity.
  - rewrite existsb_exists. split; [intros (x & I & E); apply Ascii.eqb_eq in E; subst; exact I|intros I; exists c; split; [exact I|apply Ascii.eqb_refl]].
Qed.
Lemma is_digit_In c : is_digit c = true <-> In c (list_ascii_of_string "0123456789").
Proof.
  transitivity (existsb (Ascii.eqb c) (list_ascii_of_string "0123456789") = true).
  - assert (E : existsb (Ascii.eqb c) (list_ascii_of_string "0123456789") = is_digit c) by (destruct c as [[] [] [] [] [] [] [] []]; reflexivity).
    rewrite E. reflexivity.
  - rewrite existsb_exists. split; [intros (x & I & E); apply Ascii.eqb_eq in E; subst; exact I|intros I; exists c; split; [exact I|apply Ascii.eqb_refl]].
Qed.
Lemma plain_run s : s <> [] /\ forallb is_name s = true <-> plain s.
Proof. unfold plain. rewrite forallb_forall, Forall_forall. split; intros (N & F); (split; [exact N|]); intros c I; apply is_name_In, F, I. Qed.
Lemma digits_run s : s <> [] /\ forallb is_digit s = true <-> digits s.
Proof. unfold digits. rewrite forallb_forall, Forall_forall. split; intros (N & F); (split; [exact N|]); intros c I; apply is_digit_In, F, I. Qed.

(* ---- what a regular expression means ---- *)
Fixpoint sem (l : list atom) (ps : list text) (s : text) : Prop :=
  match l with
  | [] => ps = [] /\ s = []
  | A_chr p :: l => exists c s', s = c :: s' /\ p c = true /\ sem l ps s'
  | A_opt c :: l => (exists s', s = c :: s' /\ sem l ps s') \/ sem l ps s
  | A_run p :: l => exists w ps' s', s = w ++ s' /\ ps = w :: ps' /\ w <> [] /\ forallb p w = true /\ sem l ps' s'
  | A_ids :: l => exists w ps' s', s = w ++ s' /\ ps = w :: ps' /\ ids_ok false w = true /\ sem l ps' s'
  | A_any :: l => exists w s', s = w ++ s' /\ sem l ps s'
  end.
Lemma give_back_sound {A} good (k : text -> option A) s least n w r :
  give_back good k s least n = Some (w, r) ->
  exists m, m <= n /\ (least <= n -> least <= m) /\ w = firstn m s /\ good w = true /\ k (skipn m s) = Some r.
Proof.
  induction n as [|n IH]; cbn [give_back]; intros H.
  - destruct (good (firstn 0 s)) eqn:G; [|discriminate]. destruct (k (skipn 0 s)) eqn:K; [|discriminate].
    injection H as <- <-. exists 0. auto.
  - destruct (good (firstn (S n) s)) eqn:G; [destruct (k (skipn (S n) s)) eqn:K|].
    + injection H as <- <-. exists (S n). auto 6.
    + destruct (least <=? n) eqn:L; [|discriminate]. apply Nat.leb_le in L. destruct (IH H) as (m & M1 & M2 & R). exists m. split; [lia|]. split; [auto|exact R].
    + destruct (least <=? n) eqn:L; [|discriminate]. apply Nat.leb_le in L. destruct (IH H) as (m & M1 & M2 & R). exists m. split; [lia|]. split; [auto|exact R].
Qed.
Lemma give_back_complete {A} good (k : text -> option A) s least n m :
  least <= m -> m <= n -> good (firstn m s) = true -> k (skipn m s) <> None -> give_back good k s least n <> None.
Proof.
  intros L. induction n as [|n IH]; cbn [give_back]; intros M G K.
  - replace m with 0 in * by lia. rewrite G. destruct (k (skipn 0 s)); [discriminate|congruence].
  - destruct (Nat.eq_dec m (S n)) as [->|N].
    + rewrite G. destruct (k (skipn (S n) s)); [discriminate|congruence].
    + destruct (if good (firstn (S n) s) then _ else _); [discriminate|].
      rewrite (proj2 (Nat.leb_le least n)) by lia. apply IH; [lia|exact G|exact K].
Qed.
Lemma cut_app (w s : text) : firstn (List.length w) (w ++ s) = w /\ skipn (List.length w) (w ++ s) = s.
Proof. split; [rewrite firstn_app, Nat.sub_diag, firstn_all; cbn; apply app_nil_r|rewrite skipn_app, Nat.sub_diag, skipn_all; reflexivity]. Qed.
Lemma re_match_sound l : forall s ps, re_match l s = Some ps -> sem l ps s.
Proof.
  induction l as [|a l IH]; intros s ps H; cbn [re_match sem] in *.
  - destruct s; [injection H as <-; auto|discriminate].
  - destruct a as [p|c|p| |].
    + destruct s as [|c s]; [discriminate|]. destruct (p c) eqn:P; [|discriminate]. exists c, s. auto.
    + destruct s as [|d s]; [right; auto|]. destruct (Ascii.eqb_spec c d) as [->|]; [|right; auto].
      destruct (re_match l s) eqn:E; [injection H as <-; left; eauto|right; auto].
    + destruct s as [|c s]; [discriminate|]. destruct (give_back _ _ _ _ _) as [(w & r)|] eqn:E; [|discriminate].
      injection H as <-. apply give_back_sound in E as (m & M & L & -> & G & K). exists (firstn m (c :: s)), r, (skipn m (c :: s)).
      assert (1 <= m) by (apply L; cbn; lia). destruct m; [lia|].
      repeat split; [symmetry; apply firstn_skipn|discriminate|exact G|apply IH, K].
    + destruct (give_back _ _ _ _ _) as [(w & r)|] eqn:E; [|discriminate].
      injection H as <-. apply give_back_sound in E as (m & M & L & -> & G & K). exists (firstn m s), r, (skipn m s).
      repeat split; [symmetry; apply firstn_skipn|exact G|apply IH, K].
    + destruct (give_back _ _ _ _ _) as [(w & r)|] eqn:E; [|discriminate].
      injection H as <-. apply give_back_sound in E as (m & M & L & -> & G & K). exists (firstn m s), (skipn m s).
      split; [symmetry; apply firstn_skipn|apply IH, K].
Qed.
Lemma re_match_complete l : forall s ps, sem l ps s -> re_match l s <> None.
Proof.
  induction l as [|a l IH]; intros s ps H; cbn [re_match sem] in *.
  - destruct H as (_ & ->). discriminate.
  - destruct a as [p|c|p| |].
    + destruct H as (c & s' & -> & P & H). rewrite P. eapply IH, H.
    + destruct H as [(s' & -> & H)|H].
      * rewrite Ascii.eqb_refl. apply IH in H. destruct (re_match l s'); [discriminate|congruence].
      * apply IH in H. destruct s as [|d s]; [exact H|]. destruct (Ascii.eqb c d); [|exact H]. destruct (re_match l s); [discriminate|exact H].
    + destruct H as (w & ps' & s' & -> & -> & N & G & H). destruct (w ++ s') as [|c s] eqn:E; [destruct w; [congruence|discriminate]|]. rewrite <- E.
      assert (X : give_back (forallb p) (re_match l) (w ++ s') 1 (List.length (w ++ s')) <> None).
      { apply (give_back_complete _ _ _ _ _ (List.length w)); [destruct w; [congruence|cbn; lia]|rewrite app_length; lia| |];
          destruct (cut_app w s') as (A1 & A2); rewrite ?A1, ?A2; [exact G|eapply IH, H]. }
      destruct (give_back _ _ _ _ _); [discriminate|congruence].
    + destruct H as (w & ps' & s' & -> & -> & G & H).
      assert (X : give_back (ids_ok false) (re_match l) (w ++ s') 0 (List.length (w ++ s')) <> None).
      { apply (give_back_complete _ _ _ _ _ (List.length w)); [lia|rewrite app_length; lia| |];
          destruct (cut_app w s') as (A1 & A2); rewrite ?A1, ?A2; [exact G|eapply IH, H]. }
      destruct (give_back _ _ _ _ _); [discriminate|congruence].
    + destruct H as (w & s' & -> & H).
      assert (X : give_back (fun _ => true) (re_match l) (w ++ s') 0 (List.length (w ++ s')) <> None).
      { apply (give_back_complete _ _ _ _ _ (List.length w)); [lia|rewrite app_length; lia| |];
          destruct (cut_app w s') as (A1 & A2); rewrite ?A1, ?A2; [reflexivity|eapply IH, H]. }
      destruct (give_back _ _ _ _ _); [discriminate|congruence].
Qed.
Lemma sem_chars w : forall l ps s, sem (map (fun c => A_chr (Ascii.eqb c)) w ++ l) ps s <-> exists s', s = w ++ s' /\ sem l ps s'.
Proof.
  induction w as [|c w IH]; intros l ps s; cbn [map app sem]; [split; [eauto|intros (s' & -> & H); exact H]|]. split.
  - intros (d & s' & -> & E & H). apply Ascii.eqb_eq in E as <-. apply IH in H as (t & -> & H). eauto.
  - intros (s' & -> & H). exists c, (w ++ s'). rewrite Ascii.eqb_refl, IH. eauto.
Qed.
Lemma sem_lit w l ps s : sem (lit w ++ l) ps s <-> exists s', s = T w ++ s' /\ sem l ps s'.
Proof. apply sem_chars. Qed.
Lemma sem_lit_end w ps s : sem (lit w) ps s <-> ps = [] /\ s = T w.
Proof.
  rewrite <- (app_nil_r (lit w)), sem_lit. cbn [sem]. split; [intros (s' & -> & -> & ->); split; [reflexivity|apply app_nil_r]|].
  intros (-> & ->). exists []. rewrite app_nil_r. auto.
Qed.
Lemma sem_name l ps s : sem ([name] ++ l) ps s <-> exists w ps' s', s = w ++ s' /\ ps = w :: ps' /\ plain w /\ sem l ps' s'.
Proof.
  cbn [app sem name]. split; intros (w & ps' & s' & -> & -> & H); exists w, ps', s'; (split; [reflexivity|]); (split; [reflexivity|]).
  - destruct H as (N & F & H). split; [apply plain_run; auto|exact H].
  - destruct H as (P & H). apply plain_run in P as (N & F). auto.
Qed.
Lemma sem_number l ps s : sem ([number] ++ l) ps s <-> exists w ps' s', s = w ++ s' /\ ps = w :: ps' /\ digits w /\ sem l ps' s'.
Proof.
  cbn [app sem number]. split; intros (w & ps' & s' & -> & -> & H); exists w, ps', s'; (split; [reflexivity|]); (split; [reflexivity|]).
  - destruct H as (N & F & H). split; [apply digits_run; auto|exact H].
  - destruct H as (P & H). apply digits_run in P as (N & F). auto.
Qed.
Lemma sem_number_end ps s : sem [number] ps s <-> ps = [s] /\ digits s.
Proof.
  change [number] with ([number] ++ []). rewrite sem_number. cbn [sem]. split.
  - intros (w & ps' & s' & -> & -> & D & -> & ->). rewrite app_nil_r. auto.
  - intros (-> & D). exists s, [], []. rewrite app_nil_r. auto.
Qed.
Lemma sem_name_end ps s : sem [name] ps s <-> ps = [s] /\ plain s.
Proof.
  change [name] with ([name] ++ []). rewrite sem_name. cbn [sem]. split.
  - intros (w & ps' & s' & -> & -> & D & -> & ->). rewrite app_nil_r. auto.
  - intros (-> & D). exists s, [], []. rewrite app_nil_r. auto.
Qed.
Lemma sem_slash_end ps s : sem [A_opt "/"] ps s <-> ps = [] /\ exists tail, (tail = [] \/ tail = [[]]) /\ s = path tail.
Proof.
  cbn [sem]. split.
  - intros [(s' & -> & -> & ->)|(-> & ->)]; (split; [reflexivity|]); [exists [[]]|exists []]; auto.
  - intros (-> & tail & [-> | ->] & ->); [right; auto|left; exists []; auto].
Qed.

(* ---- numbers separated by commas ---- *)
Lemma ids_ok_digits w : forall due rest, forallb is_digit w = true -> w <> [] -> ids_ok due (w ++ rest) = ids_ok false rest.
Proof.
  induction w as [|c w IH]; intros due rest F N; [congruence|]. cbn [forallb] in F. apply andb_prop in F as (D & F). cbn [app ids_ok]. rewrite D.
  destruct w as [|d w]; [reflexivity|]. apply IH; [exact F|discriminate].
Qed.
Lemma comma_no_digit : is_digit "," = false. Proof. reflexivity. Qed.
Lemma ids_ok_commas rest : forall first due, (first = [] /\ due = false \/ digits first) -> Forall digits rest -> ids_ok due (commas (first :: rest)) = true.
Proof.
  induction rest as [|w rest IH]; intros first due H F.
  - cbn [commas]. destruct H as [(-> & ->)|D]; [reflexivity|]. apply digits_run in D as (N & D). rewrite <- (app_nil_r first), ids_ok_digits; auto.
  - inversion F as [|? ? D F']; subst. change (commas (first :: w :: rest)) with (first ++ ","%char :: commas (w :: rest)).
    assert (E : ids_ok due (first ++ ","%char :: commas (w :: rest)) = ids_ok false (","%char :: commas (w :: rest))).
    { destruct H as [(-> & ->)|D']; [reflexivity|]. apply digits_run in D' as (N & D'). apply ids_ok_digits; assumption. }
    rewrite E. cbn [ids_ok]. rewrite comma_no_digit, Ascii.eqb_refl. cbn [negb andb]. apply IH; auto.
Qed.
Lemma digits_cons c w : is_digit c = true -> (w = [] \/ digits w) -> digits (c :: w).
Proof. intros D [->|H]; split; try discriminate; constructor; try (apply is_digit_In, D); [constructor|apply H]. Qed.
Lemma ids_ok_list s : forall due, ids_ok due s = true ->
  exists first rest, s = commas (first :: rest) /\ (first = [] /\ due = false \/ digits first) /\ Forall digits rest.
Proof.
  induction s as [|c s IH]; intros due H; cbn [ids_ok] in H.
  - exists [], []. destruct due; [discriminate|]. auto.
  - destruct (is_digit c) eqn:D.
    + destruct (IH _ H) as (first & rest & -> & O & F). exists (c :: first), rest. split; [destruct rest; reflexivity|].
      split; [|exact F]. right. apply digits_cons; [exact D|]. destruct O as [(-> & _)|O]; auto.
    + destruct (Ascii.eqb_spec c ",") as [->|]; [|discriminate]. apply andb_prop in H as (Nd & H).
      destruct (IH _ H) as (first & rest & -> & [(_ & K)|O] & F); [discriminate|]. exists [], (first :: rest).
      split; [reflexivity|]. split; [left; destruct due; [discriminate|auto]|]. constructor; assumption.
Qed.
Lemma ids_ok_iff s : ids_ok false s = true <-> id_list s.
Proof.
  split.
  - intros H. destruct (ids_ok_list _ _ H) as (first & rest & E & O & F). exists first, rest. split; [exact E|]. split; [|exact F]. destruct O as [(-> & _)|O]; auto.
  - intros (first & rest & -> & O & F). apply ids_ok_commas; [|exact F]. destruct O as [->|O]; auto.
Qed.
Lemma sem_ids_end ps s : sem [A_ids] ps s <-> ps = [s] /\ id_list s.
Proof.
  cbn [sem]. split.
  - intros (w & ps' & s' & -> & -> & D & -> & ->). rewrite app_nil_r. split; [reflexivity|apply ids_ok_iff, D].
  - intros (-> & D). exists s, [], []. rewrite app_nil_r. apply ids_ok_iff in D. auto 6.
Qed.

(* ---- slashes ---- *)
Definition noc (c : ascii) (s : text) : Prop := ~ In c s.
Lemma cut_unique c (a b r t : text) : noc c a -> noc c b -> a ++ c :: r = b ++ c :: t -> a = b /\ r = t.
Proof.
  revert b. induction a as [|x a IH]; intros [|y b] A B E; cbn [app] in E.
  - injection E as ->. auto.
  - injection E as -> _. destruct B. left. reflexivity.
  - injection E as -> _. destruct A. left. reflexivity.
  - injection E as -> E. destruct (IH b) as (-> & ->); [intros I; apply A; right; exact I|intros I; apply B; right; exact I|exact E|auto].
Qed.
Lemma path_unique ps : forall qs, Forall (noc "/") ps -> Forall (noc "/") qs -> path ps = path qs -> ps = qs.
Proof.
  induction ps as [|p ps IH]; intros [|q qs] P Q E; cbn [path] in E; try discriminate; [reflexivity|].
  inversion P as [|? ? Hp P']; subst. inversion Q as [|? ? Hq Q']; subst. injection E as E.
  assert (K : p = q /\ path ps = path qs).
  { destruct ps as [|p2 ps], qs as [|q2 qs]; cbn [path] in *.
    - rewrite !app_nil_r in E. auto.
    - exfalso. rewrite app_nil_r in E. subst p. apply Hp. apply in_or_app. right. left. reflexivity.
    - exfalso. rewrite app_nil_r in E. subst q. apply Hq. apply in_or_app. right. left. reflexivity.
    - destruct (cut_unique _ _ _ _ _ Hp Hq E) as (-> & ->). auto. }
  destruct K as (-> & K). f_equal. apply IH; assumption.
Qed.
Lemma plain_noc s c : plain s -> ~ In c plain_characters -> noc c s.
Proof. intros (_ & F) N I. apply N. rewrite Forall_forall in F. apply F, I. Qed.
Lemma digits_noc s c : digits s -> ~ In c (list_ascii_of_string "0123456789") -> noc c s.
Proof. intros (_ & F) N I. apply N. rewrite Forall_forall in F. apply F, I. Qed.
Lemma noc_app c a b : noc c a -> noc c b -> noc c (a ++ b).
Proof. intros A B I. apply in_app_or in I as [I|I]; auto. Qed.
Lemma commas_noc c l : c <> ","%char -> Forall (noc c) l -> noc c (commas l).
Proof.
  intros N F. induction F as [|s l H F IH]; [intros []|]. destruct l as [|s2 l]; [exact H|].
  change (commas (s :: s2 :: l)) with (s ++ ","%char :: commas (s2 :: l)). apply noc_app; [exact H|]. intros [E|I]; [congruence|exact (IH I)].
Qed.
Lemma id_list_noc s c : id_list s -> c <> ","%char -> ~ In c (list_ascii_of_string "0123456789") -> noc c s.
Proof.
  intros (first & rest & -> & O & F) N D. apply commas_noc; [exact N|]. constructor.
  - destruct O as [->|O]; [intros []|apply digits_noc; assumption].
  - eapply Forall_impl; [|exact F]. intros w W. apply digits_noc; assumption.
Qed.
Ltac notin := let H := fresh in intros H; cbn in H; repeat (destruct H as [H|H]; [discriminate H|]); exact H.
Ltac noslash := repeat first [ apply Forall_nil | apply Forall_cons
  | apply noc_app | (apply plain_noc; [assumption|notin]) | (apply digits_noc; [assumption|notin])
  | (apply id_list_noc; [assumption|discriminate|notin]) | assumption | (unfold noc, T; notin) ].

(* the parts of an address a question is in *)
Definition parts (h : handler) (ps : list text) (p : list text) : Prop :=
  match h, ps with
  | H_infrastructures, [] => exists tail, (tail = [] \/ tail = [[]]) /\ p = [T "infrastructures"] ++ tail
  | H_tile, [i; z; x; y] => (exists dot, p = [T "infrastructure"; i; T "tiles"; z; x; y ++ dot :: T "mvt"]) \/ p = [T "infrastructure"; i; T "tiles"; z; x; y; T "mvt"]
  | H_bounding_box, [i] => exists tail, (tail = [] \/ tail = [[]]) /\ p = [T "infrastructure"; i; T "bounding_box"] ++ tail
  | H_stations, [i] => p = [T "infrastructure"; i; T "stations"; []]
  | H_station, [i; id] => p = [T "infrastructure"; i; T "station"; id]
  | H_station_route, [i; id] => p = [T "infrastructure"; i; T "station_route"; id]
  | H_interlocking_route, [i; id] => p = [T "infrastructure"; i; T "interlocking_route"; id]
  | H_exclusion_set, [i; id] => p = [T "infrastructure"; i; T "exclusion_sets"; id]
  | H_element, [i; id] => p = [T "infrastructure"; i; T "element"; id]
  | H_search, [i; q] => p = [T "infrastructure"; i; T "search"; q]
  | H_timetables, [i] => exists tail, (tail = [] \/ tail = [[]]) /\ p = [T "infrastructure"; i; T "timetables"] ++ tail
  | H_timetable, [i; t] => exists tail, (tail = [] \/ tail = [[]]) /\ p = [T "infrastructure"; i; T "timetable"; t] ++ tail
  | H_ordering, [i; t; f; u; ids] => p = [T "infrastructure"; i; T "timetable"; t; T "ordering?from=" ++ f ++ T "&to=" ++ u ++ T "&trainIds=" ++ ids]
  | _, _ => False
  end.

Ltac tails := repeat match goal with H : _ \/ _ |- _ => destruct H as [H|H]; subst end.
Lemma asks_parts h ps t : asks_for h ps t -> exists p, t = path p /\ Forall (noc "/") p /\ parts h ps p.
Proof.
  intros H; inversion H; subst; tails;
    try (match goal with |- exists p, path ?q = path p /\ _ => exists q; (split; [reflexivity|]); cbn [parts app]; (split; [noslash|]); first [reflexivity | (eexists; split; [|reflexivity]; auto)] end).
  destruct (ascii_dec dot "/") as [->|N].
  - exists [T "infrastructure"; i; T "tiles"; z; x; y; T "mvt"]. split; [|split; [noslash|right; reflexivity]].
    cbn [path]. rewrite !app_nil_r, <- ?app_assoc. cbn [app]. reflexivity.
  - eexists. split; [reflexivity|]. split; [|left; eexists; reflexivity]. noslash. intros [K|K]; [congruence|revert K; notin].
Qed.
Lemma ends_unique (y y' : text) d d' : y ++ d :: T "mvt" = y' ++ d' :: T "mvt" -> y = y'.
Proof.
  intros E. change (d :: T "mvt") with ([d] ++ T "mvt") in E. change (d' :: T "mvt") with ([d'] ++ T "mvt") in E. rewrite !app_assoc in E. apply app_inv_tail in E.
  apply app_inj_tail in E. apply E.
Qed.
Lemma ordering_unique (f u d f' u' d' : text) : digits f -> digits f' -> digits u -> digits u' ->
  T "ordering?from=" ++ f ++ T "&to=" ++ u ++ T "&trainIds=" ++ d = T "ordering?from=" ++ f' ++ T "&to=" ++ u' ++ T "&trainIds=" ++ d' -> f = f' /\ u = u' /\ d = d'.
Proof.
  intros F F' U U' E. apply app_inv_head in E.
  apply (cut_unique "&") in E as (-> & E); [|apply digits_noc; [assumption|notin]|apply digits_noc; [assumption|notin]].
  apply (f_equal (skipn 3)) in E. change (u ++ T "&trainIds=" ++ d = u' ++ T "&trainIds=" ++ d') in E.
  apply (cut_unique "&") in E as (-> & E); [|apply digits_noc; [assumption|notin]|apply digits_noc; [assumption|notin]].
  apply (f_equal (skipn 9)) in E. cbn in E. auto.
Qed.
Definition fields (h : handler) (ps : list text) : Prop :=
  match h, ps with H_ordering, [_; _; f; u; _] => digits f /\ digits u | _, _ => True end.
Lemma asks_fields h ps t : asks_for h ps t -> fields h ps.
Proof. intros H; inversion H; subst; cbn; auto. Qed.
Definition shape (h : handler) (p : list text) : Prop := exists ps, parts h ps p /\ fields h ps.
Ltac open_parts H := repeat match type of H with
  | False => destruct H
  | exists _, _ => let d := fresh "tl" in destruct H as (d & H)
  | _ /\ _ => let K := fresh "K" in destruct H as (K & H); destruct K; subst
  | _ \/ _ => destruct H as [H|H] end.
Lemma parts_list h ps p : parts h ps p ->
  match h with
  | H_infrastructures => ps = [] | H_tile => exists i z x y, ps = [i; z; x; y] | H_bounding_box | H_stations | H_timetables => exists i, ps = [i]
  | H_ordering => exists i t f u d, ps = [i; t; f; u; d] | H_static => False | _ => exists i x, ps = [i; x] end.
Proof. destruct h; destruct ps as [|a [|b [|c [|d [|e [|g ps]]]]]]; cbn [parts]; intros H; try destruct H as []; try reflexivity; eauto 8. Qed.
Lemma parts_unique h ps h' ps' p : parts h ps p -> parts h' ps' p -> fields h ps -> fields h' ps' -> h = h' /\ ps = ps'.
Proof.
  intros H H' D D'. pose proof (parts_list _ _ _ H) as L. pose proof (parts_list _ _ _ H') as L'.
  destruct h; cbn iota in L; try contradiction; repeat match goal with K : exists _, _ |- _ => let x := fresh "a" in destruct K as (x & K) end; subst ps;
    cbn [parts] in H; open_parts H; try subst p; cbn [app] in H';
    destruct h'; cbn iota in L'; try contradiction; repeat match goal with K : exists _, _ = _ |- _ => let x := fresh "b" in destruct K as (x & K) end;
    repeat match type of L' with exists _, _ => let x := fresh "b" in destruct L' as (x & L') end; subst ps'; cbn [parts] in H'; open_parts H'; cbn [app] in H';
    try discriminate H'; try (injection H'; clear H'; intros); subst; try (split; reflexivity).
  - match goal with E : _ ++ _ = _ ++ _ |- _ => apply ends_unique in E; subst end. auto.
  - destruct D as (D1 & D2), D' as (D1' & D2').
    match goal with E : _ = _ |- H_ordering = _ /\ [_; _; ?f; ?u; ?d] = [_; _; ?f'; ?u'; ?d'] =>
      destruct (ordering_unique f u d f' u' d' D1 D1' D2 D2' (f_equal (app (T "ordering?from=")) E)) as (-> & -> & ->) end. auto.
Qed.
Lemma asks_unique h ps h' ps' t : asks_for h ps t -> asks_for h' ps' t -> h = h' /\ ps = ps'.
Proof.
  intros A A'. destruct (asks_parts _ _ _ A) as (p & -> & P & H), (asks_parts _ _ _ A') as (p' & E & P' & H').
  apply path_unique in E as <-; [|assumption|assumption]. eapply parts_unique; eauto using asks_fields.
Qed.

(* ---- the table of routes ---- *)
Definition dynamic : list (list atom * handler) := firstn 13 routes.
Ltac take H := repeat first
  [ rewrite sem_lit in H; let s := fresh "s" in destruct H as (s & -> & H)
  | rewrite sem_lit_end in H; destruct H as (-> & ->)
  | rewrite sem_number_end in H; destruct H as (-> & H)
  | rewrite sem_name_end in H; destruct H as (-> & H)
  | rewrite sem_slash_end in H; let tl := fresh "tail" in let K := fresh "K" in destruct H as (-> & tl & K & ->)
  | rewrite sem_ids_end in H; destruct H as (-> & H)
  | rewrite sem_name in H; let w := fresh "w" in let r := fresh "r" in let s := fresh "s" in let P := fresh "P" in destruct H as (w & r & s & -> & -> & P & H)
  | rewrite sem_number in H; let w := fresh "w" in let r := fresh "r" in let s := fresh "s" in let P := fresh "P" in destruct H as (w & r & s & -> & -> & P & H) ].
Lemma sem_name_cons l ps s : sem (name :: l) ps s <-> exists w ps' s', s = w ++ s' /\ ps = w :: ps' /\ plain w /\ sem l ps' s'.
Proof. apply sem_name. Qed.
Lemma sem_number_cons l ps s : sem (number :: l) ps s <-> exists w ps' s', s = w ++ s' /\ ps = w :: ps' /\ digits w /\ sem l ps' s'.
Proof. apply sem_number. Qed.
Ltac close C := cbn [path app] in C; rewrite ?app_nil_r in C; exact C.
Ltac put := repeat first
  [ rewrite sem_lit; eexists; split; [reflexivity|]
  | rewrite sem_lit_end; split; [reflexivity|reflexivity]
  | rewrite sem_number_end; split; [reflexivity|assumption]
  | rewrite sem_name_end; split; [reflexivity|assumption]
  | rewrite sem_slash_end; split; [reflexivity|eexists; split; [eassumption|reflexivity]]
  | rewrite sem_ids_end; split; [reflexivity|assumption]
  | rewrite sem_name_cons; eexists _, _, _; split; [reflexivity|]; split; [reflexivity|]; split; [assumption|]
  | rewrite sem_number_cons; eexists _, _, _; split; [reflexivity|]; split; [reflexivity|]; split; [assumption|] ].
Lemma sem_tile_end y ps s : sem ([number] ++ [A_chr (fun _ => true)] ++ lit "mvt") (y :: ps) s <-> exists dot, ps = [] /\ digits y /\ s = y ++ dot :: T "mvt".
Proof.
  rewrite sem_number. split.
  - intros (w & ps' & s' & -> & [= <- <-] & D & dot & s2 & -> & _ & H). apply sem_lit_end in H as (-> & ->). eauto.
  - intros (dot & -> & D & ->). exists y, [], (dot :: T "mvt"). repeat split; [apply D|apply D|]. exists dot, (T "mvt"). repeat split. apply sem_lit_end. auto.
Qed.
Definition exact_route (r : list atom * handler) : Prop := forall ps t, sem (fst r) ps t <-> asks_for (snd r) ps t.
Lemma dynamic_exact : Forall exact_route dynamic.
Proof.
  unfold dynamic, routes. cbn [firstn]. repeat apply Forall_cons; try apply Forall_nil; intros ps t; cbn [fst snd].
  1: { split; intros H; [take H; exact (for_infrastructures _ K)|]. inversion H; subst. rewrite sem_lit. eexists; split; [reflexivity|].
       apply sem_slash_end. eauto. }
  1: { split; intros H.
       - do 6 (first [rewrite sem_lit in H; let s := fresh "s" in destruct H as (s & -> & H)
           | rewrite sem_name in H; let w := fresh "w" in let r := fresh "r" in let s := fresh "s" in let P := fresh "P" in destruct H as (w & r & s & -> & -> & P & H)
           | rewrite sem_number in H; let w := fresh "w" in let r := fresh "r" in let s := fresh "s" in let P := fresh "P" in destruct H as (w & r & s & -> & -> & P & H)]).
         rewrite sem_lit in H. destruct H as (s9 & -> & H). assert (H0 := H). apply sem_number in H0 as (y & r9 & ? & _ & -> & _).
         apply sem_tile_end in H as (dot & -> & D & ->).
         pose proof (for_tile w w0 w1 y dot P P0 P1 D) as C. cbn [path] in C. rewrite ?app_nil_r in C. exact C.
       - inversion H; subst. cbn [path]. rewrite app_nil_r.
         do 6 (first [rewrite sem_lit; eexists; split; [reflexivity|]
           | rewrite sem_name; eexists _, _, _; split; [reflexivity|]; split; [reflexivity|]; split; [assumption|]
           | rewrite sem_number; eexists _, _, _; split; [reflexivity|]; split; [reflexivity|]; split; [assumption|]]).
         rewrite sem_lit; eexists; split; [reflexivity|]. apply sem_tile_end. exists dot. auto. }
  all: split; intros H; [take H; try subst|inversion H; subst; cbn [path app]; rewrite ?app_nil_r; put].
  - exact (for_bounding_box _ _ P K).
  - exact (for_stations _ P).
  - pose proof (for_station _ _ P H) as C. close C.
  - pose proof (for_station_route _ _ P H) as C. close C.
  - pose proof (for_interlocking_route _ _ P H) as C. close C.
  - pose proof (for_exclusion_set _ _ P H) as C. close C.
  - pose proof (for_element _ _ P H) as C. close C.
  - pose proof (for_search _ _ P H) as C. close C.
  - exact (for_timetables _ _ P K).
  - exact (for_timetable _ _ _ P P0 K).
  - pose proof (for_ordering _ _ _ _ _ P P0 P1 P2 H) as C. close C.
Qed.
Lemma route_served h ps t : asks_for h ps t -> route t = Some (h, ps).
Proof.
  intros A. unfold route. change routes with (dynamic ++ [([A_any], H_static)]).
  assert (X : exists l, In (l, h) dynamic /\ re_match l t <> None).
  { assert (I : exists l, In (l, h) dynamic) by (inversion A; subst; cbn; eauto 20). destruct I as (l & I). exists l. split; [exact I|].
    pose proof (proj1 (Forall_forall _ _) dynamic_exact _ I ps t) as E. cbn [fst snd] in E. eapply re_match_complete, E, A. }
  assert (E := dynamic_exact). revert X E. generalize dynamic. induction l as [|(l & h') d IH]; intros (l0 & I & M) E; [destruct I|].
  inversion E as [|? ? E1 E2]; subst. cbn [app first_route]. destruct (re_match l t) as [ps'|] eqn:R.
  - apply re_match_sound, E1 in R. cbn [snd] in R. destruct (asks_unique _ _ _ _ _ A R) as (-> & ->). reflexivity.
  - apply IH; [|exact E2]. exists l0. split; [|exact M]. destruct I as [[= <- <-]|I]; [congruence|exact I].
Qed.
Lemma any_matches t : re_match [A_any] t = Some [].
Proof.
  cbn [re_match]. destruct t as [|c t]; [reflexivity|]. cbn [List.length give_back].
  change (S (List.length t)) with (List.length (c :: t)). rewrite skipn_all. reflexivity.
Qed.
Lemma route_static t : (forall h ps, ~ asks_for h ps t) -> route t = Some (H_static, []).
Proof.
  intros N. unfold route. change routes with (dynamic ++ [([A_any], H_static)]).
  assert (E := dynamic_exact). revert E. generalize dynamic. induction l as [|(l & h') d IH]; intros E; cbn [app first_route].
  - rewrite any_matches. reflexivity.
  - inversion E as [|? ? E1 E2]; subst. destruct (re_match l t) as [ps'|] eqn:R; [|apply IH, E2].
    apply re_match_sound, E1 in R. destruct (N _ _ R).
Qed.
Lemma route_inv t h ps : route t = Some (h, ps) -> asks_for h ps t \/ h = H_static /\ ps = [] /\ forall h ps, ~ asks_for h ps t.
Proof.
  unfold route. change routes with (dynamic ++ [([A_any], H_static)]).
  assert (X : forall d, Forall exact_route d -> first_route (d ++ [([A_any], H_static)]) t = Some (h, ps) -> asks_for h ps t \/
    h = H_static /\ ps = [] /\ Forall (fun r => re_match (fst r) t = None) d).
  { induction d as [|(l & h') d IH]; intros E H; cbn [app first_route] in H.
    - rewrite any_matches in H. injection H as <- <-. auto.
    - inversion E as [|? ? E1 E2]; subst. destruct (re_match l t) as [ps'|] eqn:R.
      + injection H as <- <-. left. apply re_match_sound, E1 in R. exact R.
      + destruct (IH E2 H) as [A|(-> & -> & F)]; [auto|right]. auto. }
  intros H. destruct (X _ dynamic_exact H) as [A|(-> & -> & F)]; [auto|right]. split; [reflexivity|]. split; [reflexivity|].
  intros h ps A. assert (I : exists l, In (l, h) dynamic) by (inversion A; subst; cbn; eauto 20). destruct I as (l & I).
  pose proof (proj1 (Forall_forall _ _) dynamic_exact _ I ps t) as E. cbn [fst snd] in E. apply E, re_match_complete in A.
  apply A. exact (proj1 (Forall_forall _ _) F _ I).
Qed.
