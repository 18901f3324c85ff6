(* Vocabulary for the answers of the web server: names of the things of an
   infrastructure, where they lie, infrastructures in good order. *)
From Coq Require Import Ascii String QArith.
From Verif Require Import Base TextModel StockModel LineModel KssDates StartModel ServeModel.

(* t is the decimal number v, written with three digits or more *)
Definition number_text (t : text) (v : N) : Prop :=
  numeral t (Z.of_N v) /\
  (List.length t = 3%nat \/ ((3 < List.length t)%nat /\ hd_error t <> Some "0"%char)).

(* the v-th of a list, counted from 0 *)
Definition th {A} (l : list A) (v : N) (x : A) : Prop := nth_error l (N.to_nat v) = Some x.

(* the places of the elements es are ps *)
Definition places (i : infra) (es : list N) (ps : list gps) : Prop :=
  Forall2 (fun e p => th (in_positions i) e p) es ps.

(* b is the smallest box around ps *)
Definition smallest_box (b : box) (ps : list gps) : Prop :=
  (forall p, In p ps -> (g_lon (bb_sw b) <= g_lon p <= g_lon (bb_ne b))%Q /\ (g_lat (bb_sw b) <= g_lat p <= g_lat (bb_ne b))%Q) /\
  (exists p, In p ps /\ g_lon p = g_lon (bb_sw b)) /\ (exists p, In p ps /\ g_lat p = g_lat (bb_sw b)) /\
  (exists p, In p ps /\ g_lon p = g_lon (bb_ne b)) /\ (exists p, In p ps /\ g_lat p = g_lat (bb_ne b)).

(* a thing (kind and number) has a name *)
Inductive named (i : infra) : kind -> N -> text -> Prop :=
| by_ds100 v s : th (in_stations i) v s -> named i STATION v (st_ds100 s)
| by_full_name v t : th (in_full_names i) v t -> named i STATION v t
| by_number v e t : th (in_elements i) v e -> number_text t v -> named i ELEMENT v t
| by_signal_name v e t : th (in_elements i) v e -> el_type e = MAIN_SIGNAL -> th (in_data i) v (D_main_signal t) -> named i ELEMENT v t
| by_switch_name v e t : th (in_elements i) v e -> el_type e = SIMPLE_SWITCH -> th (in_data i) v (D_switch t) -> named i ELEMENT v t
| by_halt_name v e t op ex p : th (in_elements i) v e -> el_type e = HALT -> th (in_data i) v (D_halt t op ex p) -> t <> [] -> named i ELEMENT v t
| by_operational v e t ex p n : th (in_elements i) v e -> el_type e = HALT -> th (in_data i) v (D_halt n t ex p) -> t <> [] -> named i ELEMENT v t
| by_extern v e t op p n : th (in_elements i) v e -> el_type e = HALT -> th (in_data i) v (D_halt n op t p) -> t <> [] -> named i ELEMENT v t
| by_route_name v r : th (in_sroutes i) v r -> named i STATION_ROUTE v (sr_name r)
| by_route_number v r t : th (in_iroutes i) v r -> number_text t v -> named i INTERLOCKING_ROUTE v t.

(* the elements a thing consists of *)
Inductive made_of (i : infra) : kind -> N -> list N -> Prop :=
| station_of v s : th (in_stations i) v s -> made_of i STATION v (st_elements s)
| element_of v e : th (in_elements i) v e -> made_of i ELEMENT v [v]
| sroute_of v r : th (in_sroutes i) v r -> made_of i STATION_ROUTE v (sr_nodes r)
| iroute_of v r : th (in_iroutes i) v r -> made_of i INTERLOCKING_ROUTE v (ir_nodes r).

(* a halt with exactly one of the two identifiers *)
Definition one_sided (i : infra) (v : N) : Prop :=
  exists e n op ex p, th (in_elements i) v e /\ el_type e = HALT /\ th (in_data i) v (D_halt n op ex p) /\
    (op = [] /\ ex <> [] \/ op <> [] /\ ex = []).

(* t is the operational identifier of the halt v *)
Definition operational (i : infra) (v : N) (t : text) : Prop :=
  exists e n ex p, th (in_elements i) v e /\ el_type e = HALT /\ th (in_data i) v (D_halt n t ex p).

(* the type shown with a thing: that of an element, otherwise none *)
Definition labelled (i : infra) (k : kind) (v : N) (t : text) : Prop :=
  match k with
  | ELEMENT => exists e, th (in_elements i) v e /\ t = list_ascii_of_string (get_type_str (el_type e))
  | _ => t = []
  end.

(* everything is numbered in the order in which it is stored *)
Definition numbered {A} (id : A -> N) (l : list A) : Prop := forall v x, th l v x -> id x = v.

Definition within {A} (l : list A) (v : N) : Prop := (v < N.of_nat (List.length l))%N.

(* an infrastructure in good order *)
Record sound (i : infra) : Prop := {
  so_stations : numbered st_id (in_stations i);
  so_elements : numbered el_id (in_elements i);
  so_sroutes : numbered sr_id (in_sroutes i);
  so_iroutes : numbered ir_id (in_iroutes i);
  so_full : List.length (in_full_names i) = List.length (in_stations i);
  so_data : List.length (in_data i) = List.length (in_elements i);
  so_positions : List.length (in_positions i) = List.length (in_elements i);
  so_irs : List.length (in_station_irs i) = List.length (in_stations i);
  so_valid : forall p, In p (in_positions i) -> (-360 <= g_lon p <= 360)%Q /\ (-360 <= g_lat p <= 360)%Q;
  so_station : forall s, In s (in_stations i) ->
    st_elements s <> [] /\ Forall (within (in_elements i)) (st_elements s) /\
    Forall (fun r => exists sr, th (in_sroutes i) (snd r) sr /\ sr_name sr = fst r) (st_routes s);
  so_sroute : forall r, In r (in_sroutes i) ->
    sr_nodes r <> [] /\ Forall (within (in_elements i)) (sr_nodes r) /\ within (in_stations i) (sr_station r);
  so_iroute : forall r, In r (in_iroutes i) -> ir_nodes r <> [] /\ Forall (within (in_elements i)) (ir_nodes r);
  so_signal : forall v e, th (in_elements i) v e -> el_type e = MAIN_SIGNAL -> exists t, th (in_data i) v (D_main_signal t);
  so_switch : forall v e, th (in_elements i) v e -> el_type e = SIMPLE_SWITCH -> exists t, th (in_data i) v (D_switch t);
  so_halt : forall v e, th (in_elements i) v e -> el_type e = HALT -> exists n op ex p, th (in_data i) v (D_halt n op ex p);
  so_track : forall e, In e (in_elements i) -> is_directed_track_element (el_type e) = true -> el_track e <> None }.

(* what is expected of the guesser: it delivers places of the list, and a text
   that is in the list is found *)
Definition guesses (guess : list text -> text -> list N) : Prop :=
  forall l q, Forall (within l) (guess l q) /\ (In q l -> exists v, In v (guess l q) /\ th l v q).
