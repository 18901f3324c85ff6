(* Model of single components of the web client: the emphasised part of a search result, the
   field for train ids, the time range, the request for the ordering graph, and its view.
     web/client/src/components/sidebar/search/extended-search.vue
     web/client/src/components/base/soro-id-input.vue
     web/client/src/components/base/soro-datetimerange.vue
     web/client/src/components/ordering/ordering-graph.vue

   Simplifications
   - characters are bytes instead of UTF-16 units; toLowerCase is a parameter
   - numbers are exact (in the browser those up to 2^53 are)
   - the library graphology is represented by its contract: import adds the nodes, then the
     edges, and throws at a node or edge that is there already and at an edge of an unknown node *)
From Coq Require Import Ascii String DecimalString.
From Verif Require Import Base.
Local Open Scope list_scope.
Local Open Scope Z_scope.

Definition jstring : Type := list ascii.
Definition slen (s : jstring) : Z := Z.of_nat (List.length s).
(* String.prototype.substring: both ends are clamped, and exchanged if in the wrong order *)
Definition js_substring (s : jstring) (a b : Z) : jstring :=
  let a := Z.max 0 (Z.min (slen s) a) in
  let b := Z.max 0 (Z.min (slen s) b) in
  firstn (Z.to_nat (Z.max a b - Z.min a b)) (skipn (Z.to_nat (Z.min a b)) s).
(* String.prototype.indexOf *)
Fixpoint begins_with (p s : jstring) : bool :=
  match p, s with
  | [], _ => true
  | a :: p, b :: s => Ascii.eqb a b && begins_with p s
  | _, [] => false
  end.
Fixpoint index_of (s p : jstring) : Z :=
  if begins_with p s then 0
  else match s with
       | [] => -1
       | _ :: s => let i := index_of s p in if i <? 0 then -1 else i + 1
       end.
(* extended-search.vue:144-162 *)
Definition highlighted_name (lower : jstring -> jstring) (query name : jstring) : jstring * jstring * jstring :=
  let begin := index_of (lower name) (lower query) in
  (js_substring name 0 begin, js_substring name begin (begin + slen query), js_substring name (begin + slen query) (slen name)).

(* ---- soro-id-input.vue ---- *)
Definition digit_value (c : ascii) : option Z :=
  let n := Z.of_N (N_of_ascii c) in if (48 <=? n) && (n <=? 57) then Some (n - 48) else None.
Definition comma : ascii := ","%char.
(* soro-id-input.vue:38: the expression ^\d*(,\d+)*$ as an automaton: in the first group of
   digits, right behind a comma, in a later group *)
Inductive place : Type := InFirst | BehindComma | InLater.
Fixpoint matches (at_ : place) (s : jstring) : bool :=
  match s with
  | [] => match at_ with BehindComma => false | _ => true end
  | c :: s =>
      match digit_value c with
      | Some _ => matches (match at_ with InFirst => InFirst | _ => InLater end) s
      | None => if Ascii.eqb c comma then match at_ with BehindComma => false | _ => matches BehindComma s end else false
      end
  end.
(* String.prototype.split *)
Fixpoint split_comma (s : jstring) : list jstring :=
  match s with
  | [] => [[]]
  | c :: s =>
      if Ascii.eqb c comma then [] :: split_comma s
      else match split_comma s with [] => [[c]] | w :: ws => (c :: w) :: ws end
  end.
(* parseInt: the leading digits; None is NaN *)
Fixpoint parse_int_js (acc : option Z) (s : jstring) : option Z :=
  match s with
  | [] => acc
  | c :: s => match digit_value c with Some d => parse_int_js (Some (match acc with Some a => 10 * a + d | None => d end)) s | None => acc end
  end.
(* soro-id-input.vue:48-57; None: nothing is emitted *)
Definition emit_enter (s : jstring) : option (list (option Z)) :=
  match s with
  | [] => None
  | _ => if matches InFirst s then Some (map (parse_int_js None) (split_comma s)) else None
  end.
(* menu.vue:63, sidebar-store.ts:73, 135-137, 222-224: the filter after the texts entered one after the other *)
Definition enter (filter : list (option Z)) (s : jstring) : list (option Z) :=
  match emit_enter s with Some ids => ids | None => filter end.
Definition entered (texts : list jstring) : list (option Z) := fold_left enter texts [].

(* ---- soro-datetimerange.vue:20-26: dates are milliseconds ---- *)
Definition unix_to_date (u : Z) : Z := u * 1000.
Definition date_to_unix (ms : Z) : Z := ms / 1000.

(* ---- SoroClient.ts:222-242: the parameters of the request ---- *)
Definition number_text (z : Z) : jstring := list_ascii_of_string (NilZero.string_of_uint (N.to_uint (Z.to_N z))).
Definition id_text (o : option Z) : jstring := match o with Some z => number_text z | None => list_ascii_of_string "NaN" end.
(* Array.prototype.toString *)
Fixpoint array_text (l : list jstring) : jstring :=
  match l with
  | [] => []
  | [s] => s
  | s :: l => s ++ comma :: array_text l
  end.
Definition ids_text (ids : list (option Z)) : jstring := array_text (map id_text ids).

(* ---- ordering-graph.vue ---- *)
Record ordering : Type := mko { o_nodes : list nat; o_edges : list (nat * nat) }.
Definition empty_graph : ordering := mko [] [].
Definition has_node (g : ordering) (n : nat) : bool := existsb (Nat.eqb n) (o_nodes g).
Definition has_edge (g : ordering) (e : nat * nat) : bool := existsb (fun f => Nat.eqb (fst e) (fst f) && Nat.eqb (snd e) (snd f)) (o_edges g).
(* graphology import; the flag says whether it went through *)
Fixpoint import_nodes (g : ordering) (l : list nat) : ordering * bool :=
  match l with
  | [] => (g, true)
  | n :: l => if has_node g n then (g, false) else import_nodes (mko (o_nodes g ++ [n]) (o_edges g)) l
  end.
Fixpoint import_edges (g : ordering) (l : list (nat * nat)) : ordering * bool :=
  match l with
  | [] => (g, true)
  | e :: l => if negb (has_node g (fst e)) || negb (has_node g (snd e)) || has_edge g e then (g, false) else import_edges (mko (o_nodes g) (o_edges g ++ [e])) l
  end.
Definition import (g og : ordering) : ordering * bool :=
  let '(g, ok) := import_nodes g (o_nodes og) in
  if ok : bool then import_edges g (o_edges og) else (g, false).
(* what the user has set, as far as the request depends on it; a range is given or not *)
Record settings : Type := mkset { s_infra : jstring; s_timetable : jstring; s_range : option (Z * Z); s_ids : list (option Z) }.
(* ordering-graph.vue:90-92 *)
Definition complete (s : settings) : bool :=
  match s_infra s, s_timetable s, s_range s with _ :: _, _ :: _, Some _ => true | _, _, _ => false end.
(* the graph the component holds and the requests under way, oldest first *)
Record view : Type := mkv { v_graph : ordering; v_pending : list settings }.
Definition no_view : view := mkv empty_graph [].
(* createOrderingGraph is called (mounted, or the range or the filter has changed); the k-th
   request is answered; it fails *)
Inductive view_event : Type := Create (s : settings) | Arrive (k : nat) | Lose (k : nat).
Fixpoint remove_nth {A} (k : nat) (l : list A) : list A :=
  match l, k with
  | [], _ => []
  | _ :: l, O => l
  | a :: l, S k => a :: remove_nth k l
  end.
(* ordering-graph.vue:84-149: the graph is replaced at once; an answer goes into the graph the
   component has when it arrives (the sigma view shows this graph, also after a failed import
   as long as an earlier view exists) *)
Definition view_step (srv : settings -> ordering) (v : view) (e : view_event) : view :=
  match e with
  | Create s => if complete s then mkv empty_graph (v_pending v ++ [s]) else v
  | Arrive k =>
      match nth_error (v_pending v) k with
      | None => v
      | Some s => mkv (fst (import (v_graph v) (srv s))) (remove_nth k (v_pending v))
      end
  | Lose k => mkv (v_graph v) (remove_nth k (v_pending v))
  end.
Definition watch (srv : settings -> ordering) (es : list view_event) (v : view) : view := fold_left (view_step srv) es v.
