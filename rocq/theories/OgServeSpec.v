(* Vocabulary for the ordering graph request: the trips asked for, the usages of
   routes, the texts of the request. *)
From Coq Require Import Ascii ZArith Permutation Sorting.Sorted.
From Verif Require Import Base BitfieldModel TrainModel KssDates OgServeModel.
From Verif Require PropsBitfield.

(* texts separated by commas; nothing is no text *)
Fixpoint commas (l : list (list ascii)) : list ascii :=
  match l with
  | [] => []
  | s :: r => match r with [] => s | _ => s ++ ","%char :: commas r end
  end.
Definition separated (csv : list ascii) (l : list (list ascii)) : Prop :=
  csv = commas l /\ (forall s, In s l -> ~ In ","%char s) /\ l <> [[]].

(* the number v below 2^32 in decimal digits *)
Definition says (s : list ascii) (v : N) : Prop := numeral s (Z.of_N v) /\ (v < 2 ^ 32)%N.

(* a train that is asked for *)
Definition chosen (ids : list N) (t : ttrain) : Prop := ids = [] \/ In (tr_id (tt_train t)) ids.

(* the train t on its service day d, which is the time a, is in the answer: it is
   asked for, has main signals on its path, runs on d, is under way some time
   between from and to, and d is not before the day of from *)
Definition asked (trains : list ttrain) (from to : N) (ids : list N) (t : ttrain) (a : N) : Prop :=
  In t trains /\ chosen ids t /\ tt_arrivals t <> [] /\
  exists d : Z, a = Z.to_N (d * 86400) /\ bf_at (tr_days (tt_train t)) d = Ok true /\
    (Z.of_N from <= d * 86400 + Z.of_N (tr_last_arrival (tt_train t)))%Z /\
    (d * 86400 + Z.of_N (tr_first_departure (tt_train t)) <= Z.of_N to)%Z /\
    (Z.of_N from / 86400 <= d)%Z.

(* train t with service day a uses the route ir, the p-th of its path, from the
   time s on: the first from its departure, the others from the arrival at the
   main signal before *)
Definition uses (t : ttrain) (a : N) (p ir : nat) (s : N) : Prop :=
  nth_error (tt_path t) p = Some ir /\
  exists x, nth_error (tr_first_departure (tt_train t) :: tt_arrivals t) p = Some x /\ s = add32 a x.

(* two routes share an exclusion set *)
Definition excluding (x : exclusion) (r1 r2 : nat) : Prop :=
  exists es, (es < ex_count x)%nat /\ In es (ex_of x r1) /\ In es (ex_of x r2).

(* from x edges lead to y *)
Inductive leads (es : list (nat * nat)) : nat -> nat -> Prop :=
| lead_edge x y : In (x, y) es -> leads es x y
| lead_more x y z : In (x, y) es -> leads es y z -> leads es x z.

(* a function that sorts trips by their keys, as std::sort does *)
Definition sorts_trips {A} (tsort : list (N * A) -> list (N * A)) : Prop :=
  forall l, Permutation l (tsort l) /\ StronglySorted (fun a b => (fst a <= fst b)%N) (tsort l).

(* the trains are numbered by their places, have calendars and times that fit
   (PropsBitfield.v), and one main signal between any two routes of their paths *)
Definition timetable_ok (trains : list ttrain) : Prop :=
  forall k t, nth_error trains k = Some t ->
    tr_id (tt_train t) = N.of_nat k /\
    PropsBitfield.good_train (tt_train t) /\ PropsBitfield.in_epoch (tt_train t) /\
    List.length (tt_path t) = S (List.length (tt_arrivals t)).

(* times grow along every trip, and usages of routes that exclude each other
   start at different times *)
Definition apart (x : exclusion) (trains : list ttrain) (from to : N) (ids : list N) : Prop :=
  (forall t a p ir s ir' s', asked trains from to ids t a -> uses t a p ir s -> uses t a (S p) ir' s' -> (s < s')%N) /\
  (forall t a p ir s t' a' p' ir' s', asked trains from to ids t a -> asked trains from to ids t' a' ->
     uses t a p ir s -> uses t' a' p' ir' s' -> (t, a, p) <> (t', a', p') -> excluding x ir ir' -> s <> s').

(* ---- what an answer shows ---- *)
(* the usage a node stands for starts at s *)
Definition starts (trips : list (ttrain * N)) (n : jnode) (s : N) : Prop :=
  exists t a, nth_error trips (jn_rel n) = Some (t, a) /\ jn_train n = N.to_nat (tr_id (tt_train t)) /\
    uses t a (jn_offset n) (jn_route n) s.

(* the trips of the answer are those asked for, by their departures *)
Definition shows_trips (trains : list ttrain) (from to : N) (ids : list N) (trips : list (ttrain * N)) (ans : janswer) : Prop :=
  NoDup trips /\ (forall t a, In (t, a) trips <-> asked trains from to ids t a) /\
  StronglySorted (fun x y => (add32 (snd x) (tr_first_departure (tt_train (fst x))) <=
                              add32 (snd y) (tr_first_departure (tt_train (fst y))))%N) trips /\
  ja_total ans = List.length trips /\
  (forall t a, In (t, a) trips -> (List.length (tt_path t) <= ja_max ans)%nat) /\
  (trips = [] /\ ja_max ans = 0%nat \/ exists t a, In (t, a) trips /\ List.length (tt_path t) = ja_max ans).

(* one node for every route on the path of every trip, and no other *)
Definition shows_nodes (trips : list (ttrain * N)) (ans : janswer) : Prop :=
  (forall n, In n (ja_nodes ans) -> exists s, starts trips n s) /\
  (forall r t a p, nth_error trips r = Some (t, a) -> (p < List.length (tt_path t))%nat ->
     exists n, In n (ja_nodes ans) /\ jn_rel n = r /\ jn_offset n = p) /\
  NoDup (map jn_key (ja_nodes ans)) /\
  (forall m n, In m (ja_nodes ans) -> In n (ja_nodes ans) -> jn_rel m = jn_rel n -> jn_offset m = jn_offset n -> m = n).

(* n is the usage that follows m on the same trip *)
Definition follows (m n : jnode) : Prop := jn_rel m = jn_rel n /\ jn_offset n = S (jn_offset m).

(* edges lead from earlier to later usages; usages that follow each other and
   usages that exclude each other are connected; nothing else is, and no edge is
   a short cut *)
Definition shows_edges (x : exclusion) (trips : list (ttrain * N)) (ans : janswer) : Prop :=
  (forall k l, In (k, l) (ja_edges ans) -> exists m n, In m (ja_nodes ans) /\ In n (ja_nodes ans) /\
     jn_key m = k /\ jn_key n = l /\ (follows m n \/ excluding x (jn_route m) (jn_route n))) /\
  (forall m n, In m (ja_nodes ans) -> In n (ja_nodes ans) -> follows m n -> leads (ja_edges ans) (jn_key m) (jn_key n)) /\
  (forall m n s s', In m (ja_nodes ans) -> In n (ja_nodes ans) -> m <> n -> excluding x (jn_route m) (jn_route n) ->
     starts trips m s -> starts trips n s' ->
     (s < s')%N /\ leads (ja_edges ans) (jn_key m) (jn_key n) \/ (s' < s)%N /\ leads (ja_edges ans) (jn_key n) (jn_key m)) /\
  (forall m n s s', In m (ja_nodes ans) -> In n (ja_nodes ans) -> leads (ja_edges ans) (jn_key m) (jn_key n) ->
     starts trips m s -> starts trips n s' -> (s < s')%N) /\
  (forall k l, In (k, l) (ja_edges ans) -> ~ exists y, leads (ja_edges ans) k y /\ leads (ja_edges ans) y l).
