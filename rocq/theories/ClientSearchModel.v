(* Model of the search of the web client and of what the map does with a result:
   web/client/src/components/sidebar/search/extended-search.vue (one instance in the menu, one in the search
   overlay), web/client/src/components/sidebar/sidebar.vue, and the map's place of
   web/client/src/components/infrastructure/infrastructure-map.vue.

   Simplifications
   - a handler runs to completion and the watchers after it; answers come at any later moment, in any order, or fail
   - a place (bounding box) is a number; the boxes of an answer are new objects, so that a result has the
     serial number of its answer and its position there as its identity
   - one map; where it is before the user or a result moves it is None (infrastructure-map.vue:330-343 moves it to
     the whole infrastructure, before anything else happens)
   - the empty text is falsy like undefined; the types of results and their icons are left out *)
From Verif Require Import Base ClientStoreModel ClientMenuModel.

(* SoroClient.ts:77-85 *)
Record hit : Type := mkhit { h_answer : nat; h_pos : nat; h_name : string; h_place : nat }.
(* what the server finds: names and places *)
Definition finder : Type := string -> string -> list (string * nat).
(* sidebar-store.ts:62-67; s_field: currentQuery of the instance that is mounted (extended-search.vue:91-101);
   s_pending: the searches under way; s_served: answers so far; s_map: the map, if there is one *)
Record spage : Type := mksp {
  s_infra : option string; s_overlay : overlay; s_field : option string; s_results : list hit;
  s_pending : list (string * string); s_served : nat; s_target : option hit; s_map : option (option nat) }.
Definition sopened : spage := mksp None Menu (Some ""%string) [] [] 0 None None.

Inductive sact : Type :=
| Load (name : option string)                (* sidebar-store.ts:183-185, and the map *)
| Enter (q : string)                         (* the text of the field becomes q *)
| Button                                     (* the button, or enter *)
| Click (k : nat)                            (* the k-th line of the list *)
| Go (o : overlay)
| Drag (place : nat)                         (* the user moves the map *)
| Served (k : nat)                           (* the answer to the k-th search under way *)
| Failed (k : nat).

(* extended-search.vue:25-35: the list is drawn for more than one result *)
Definition listed (p : spage) : list hit :=
  match s_field p with
  | Some _ => if (1 <? List.length (s_results p))%nat then s_results p else []
  | None => []
  end.
(* the same object *)
Definition same_hit (a : option hit) (b : hit) : bool :=
  match a with
  | Some a => (h_answer a =? h_answer b)%nat && (h_pos a =? h_pos b)%nat
  | None => false
  end.
(* sidebar-store.ts:102-104 and infrastructure-map.vue:127-133: the map follows changes *)
Definition aim (p : spage) (h : hit) : spage :=
  mksp (s_infra p) (s_overlay p) (s_field p) (s_results p) (s_pending p) (s_served p) (Some h)
       (if same_hit (s_target p) h then s_map p else option_map (fun _ => Some (h_place h)) (s_map p)).
(* the boxes of the n-th answer *)
Fixpoint hits (n k : nat) (l : list (string * nat)) : list hit :=
  match l with
  | [] => []
  | (name, place) :: l => mkhit n k name place :: hits n (S k) l
  end.

Definition on_sact (find : finder) (p : spage) (a : sact) : spage :=
  match a with
  (* infrastructure-map.vue:112-125: a new map; the same name again is no change *)
  | Load n =>
      mksp n (s_overlay p) (s_field p) (s_results p) (s_pending p) (s_served p) (s_target p)
           (if same (s_infra p) n then s_map p else if chosen n then Some None else None)
  (* extended-search.vue:8-16, 112-116, 125-134; disabled without an infrastructure *)
  | Enter q =>
      match s_field p, truthy (s_infra p) with
      | Some old, Some i =>
          if String.eqb q old then p else
          if (String.length q <? 3)%nat
          then mksp (s_infra p) (s_overlay p) (Some q) [] (s_pending p) (s_served p) (s_target p) (s_map p)
          else mksp (s_infra p) (s_overlay p) (Some q) (s_results p) (s_pending p ++ [(i, q)]) (s_served p) (s_target p) (s_map p)
      | _, _ => p
      end
  (* extended-search.vue:18-22, 136-142 *)
  | Button =>
      match s_field p, s_results p with
      | Some _, h :: _ => aim p h
      | _, _ => p
      end
  (* extended-search.vue:32-37 *)
  | Click k =>
      match nth_error (listed p) k with
      | Some h => aim p h
      | None => p
      end
  (* sidebar.vue:18-27, 91-103: every overlay has its own instance, made anew *)
  | Go o =>
      match s_overlay p, o with
      | Menu, Menu | Search, Search | Station, Station => p
      | _, Station => mksp (s_infra p) o None (s_results p) (s_pending p) (s_served p) (s_target p) (s_map p)
      | _, _ => mksp (s_infra p) o (Some ""%string) (s_results p) (s_pending p) (s_served p) (s_target p) (s_map p)
      end
  | Drag v =>
      mksp (s_infra p) (s_overlay p) (s_field p) (s_results p) (s_pending p) (s_served p) (s_target p)
           (option_map (fun _ => Some v) (s_map p))
  (* extended-search.vue:114: also if the instance is gone *)
  | Served k =>
      match nth_error (s_pending p) k with
      | Some (i, q) =>
          mksp (s_infra p) (s_overlay p) (s_field p) (hits (s_served p) 0 (find i q)) (drop_nth k (s_pending p))
               (S (s_served p)) (s_target p) (s_map p)
      | None => p
      end
  | Failed k =>
      mksp (s_infra p) (s_overlay p) (s_field p) (s_results p) (drop_nth k (s_pending p)) (s_served p) (s_target p) (s_map p)
  end.
Definition search_visit (find : finder) (l : list sact) : spage := fold_left (on_sact find) l sopened.
