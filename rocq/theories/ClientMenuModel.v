(* Model of the menu of the web client's sidebar: web/client/src/components/sidebar/menu/menu.vue,
   web/client/src/components/base/soro-select.vue, web/client/src/components/base/soro-datetimerange.vue and
   the part of web/client/src/components/sidebar/sidebar.vue that mounts it, on top of the store of
   ClientStoreModel.

   Simplifications
   - a handler runs to completion and the watchers after it, before the next event (Vue's flush)
   - undefined and null are None; a box with None shows nothing
   - times picked are whole seconds; a range picked has both of its ends
   - the search field, the settings and the dev tools of the menu are left out (the search field is part of
     ClientStoreModel), and so are the drawing of the boxes and the lists of options *)
From Verif Require Import Base ClientStoreModel.

(* sidebar.vue:48-61 *)
Inductive overlay : Type := Menu | Search | Station.
(* soro-select.vue:50-54 of the two boxes, soro-datetimerange.vue:41-47 of the field *)
Record boxes : Type := mkb { b_infra : option string; b_timetable : option string; b_range : option (Z * Z) }.
Definition fresh : boxes := mkb None None None.
(* the store, the overlay selected, and the menu if it is mounted *)
Record page : Type := mkp { p_store : client; p_overlay : overlay; p_menu : option boxes }.
(* stores.ts:18-24: the menu is mounted from the beginning, sidebar.vue:18-22 *)
Definition opened : page := mkp start Menu (Some fresh).

(* what the user does in the menu and with the buttons of the sidebar, and everything else *)
Inductive act : Type :=
| PickInfra (name : option string)           (* None: "Clear selection" *)
| PickTimetable (name : option string)
| PickRange (from to : Z)
| EmptyRange                                 (* the cross of the field *)
| Open (o : overlay)
| Other (e : event).                         (* routes, search, answers of the server *)

(* only the menu makes choices *)
Definition choice (e : event) : bool :=
  match e with ChooseInfra _ | ChooseTimetable _ | ChooseRange _ _ => true | _ => false end.
(* an answer that stores a new range, sidebar-store.ts:207-212; the array is a new one, also if it has the old ends *)
Definition brings_range (c : client) (e : event) : bool :=
  match e with
  | ChooseRange _ _ => true
  | Answer k => match nth_error (pending c) k with Some (AskTimetable _ _) => true | _ => false end
  | _ => false
  end.
Definition same (a b : option string) : bool :=
  match a, b with
  | None, None => true
  | Some a, Some b => String.eqb a b
  | _, _ => false
  end.
(* soro-select.vue:56-60: the watcher of the value *)
Definition watch_value (old new : option string) (box : option string) : option string :=
  if same old new then box else new.
(* both boxes and soro-datetimerange.vue:49-53, after the store went from c to c' by e *)
Definition watchers (c c' : client) (e : event) (b : boxes) : boxes :=
  mkb (watch_value (infra c) (infra c') (b_infra b)) (watch_value (timetable c) (timetable c') (b_timetable b))
      (if brings_range c e then range c' else b_range b).
Definition commit (srv : server) (p : page) (e : event) : page :=
  let c' := on_event srv (p_store p) e in
  mkp c' (p_overlay p) (option_map (watchers (p_store p) c' e) (p_menu p)).
Definition chosen (o : option string) : bool := match truthy o with Some _ => true | None => false end.

Definition on_act (srv : server) (p : page) (a : act) : page :=
  match a with
  (* soro-select.vue:2-22, 62-66, menu.vue:28-34 *)
  | PickInfra n =>
      match p_menu p with
      | Some b => commit srv (mkp (p_store p) (p_overlay p) (Some (mkb n (b_timetable b) (b_range b)))) (ChooseInfra n)
      | None => p
      end
  (* menu.vue:35-42: disabled without an infrastructure *)
  | PickTimetable n =>
      match p_menu p with
      | Some b =>
          if chosen (infra (p_store p))
          then commit srv (mkp (p_store p) (p_overlay p) (Some (mkb (b_infra b) n (b_range b)))) (ChooseTimetable n)
          else p
      | None => p
      end
  (* soro-datetimerange.vue:2-9, 55-66, menu.vue:47-51: disabled without infrastructure and timetable *)
  | PickRange x y =>
      match p_menu p with
      | Some b =>
          if chosen (infra (p_store p)) && chosen (timetable (p_store p))
          then commit srv (mkp (p_store p) (p_overlay p) (Some (mkb (b_infra b) (b_timetable b) (Some (x, y))))) (ChooseRange x y)
          else p
      | None => p
      end
  (* soro-datetimerange.vue:56-59: an empty field is not passed on *)
  | EmptyRange =>
      match p_menu p with
      | Some b =>
          if chosen (infra (p_store p)) && chosen (timetable (p_store p))
          then mkp (p_store p) (p_overlay p) (Some (mkb (b_infra b) (b_timetable b) None))
          else p
      | None => p
      end
  (* sidebar.vue:18-27, 91-103: the menu goes with its overlay and is made anew when it comes back *)
  | Open o =>
      match p_overlay p, o with
      | Menu, Menu => p
      | _, Menu => mkp (p_store p) Menu (Some fresh)
      | _, _ => mkp (p_store p) o None
      end
  | Other e => if choice e then p else commit srv p e
  end.
Definition visit (srv : server) (l : list act) : page := fold_left (on_act srv) l opened.

(* menu.vue:5-24: the buttons that are enabled (the one for simulations never is) *)
Definition infrastructure_tab (c : client) : bool := chosen (infra c).
Definition timetable_tab (c : client) : bool := chosen (timetable c).
Definition ordering_tab (c : client) : bool := chosen (infra c) && chosen (timetable c).
