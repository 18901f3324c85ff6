(* What the theorems about settings, tabs and legend of the web client say. *)
From Coq Require Import String.
From Verif Require Import Base ClientTabsModel.
Local Open Scope list_scope.
Local Open Scope nat_scope.

(* ---- settings ---- *)
(* The theme a choice of mode asks for, when the system asks for dark (os = true) or light. *)
Definition asked (os : bool) (m : mode) : theme :=
  match m with Dark => TDark | Light => TLight | ByOs => if os then TDark else TLight end.
(* The scheme of the system after a history. *)
Definition os_after (os : bool) (es : list sev) : bool :=
  fold_left (fun o e => match e with OsTurns o' => o' | _ => o end) es os.
(* What a user does on the one page they have. *)
Inductive choice := Mode (m : mode) | Colour (c : string) | Os (o : bool).
Definition event_of (c : choice) : sev := match c with Mode m => Prefer 0 m | Colour c => Paint 0 c | Os o => OsTurns o end.
(* One page after the other: opened, used, closed. *)
Definition session (cs : list choice) : list sev := Visit 0 :: map event_of cs ++ [Leave 0].
(* The last mode and the last colour chosen. *)
Definition last_mode (cs : list choice) : mode := fold_left (fun d c => match c with Mode m => m | _ => d end) cs ByOs.
Definition last_colour (cs : list choice) : string :=
  fold_left (fun d c => match c with Colour x => x | _ => d end) cs "#2196F3"%string.
(* The event is a choice made on page k, of a mode or of a colour that is not empty. *)
Definition chooses (k : nat) (e : sev) : Prop :=
  match e with Prefer j _ => j = k | Paint j c => j = k /\ c <> ""%string | _ => False end.
(* The event leaves the local storage alone. *)
Definition quiet (e : sev) : Prop := match e with Prefer _ _ | Paint _ _ | Wipe => False | _ => True end.
(* The event is not about page k's being there. *)
Definition stays (k : nat) (e : sev) : Prop := match e with Visit j | Leave j => j <> k | _ => True end.
Definition not_prefer (k : nat) (e : sev) : Prop := match e with Prefer j _ => j <> k | _ => True end.
Definition not_paint (k : nat) (e : sev) : Prop := match e with Paint j _ => j <> k | _ => True end.

(* ---- legend ---- *)
Definition no_reset (e : lev) : Prop := match e with ResetLegend _ => False | _ => True end.
(* Only the legend of tab k0 is ever reset. *)
Definition reset_only (k0 : nat) (e : lev) : Prop := match e with ResetLegend k => k = k0 | _ => True end.
(* Tab k is neither opened nor closed, the page not loaded anew. *)
Definition keeps (k : nat) (e : lev) : Prop :=
  match e with OpenTab j | CloseTab j => j <> k | Reload _ => False | _ => True end.
(* The last thing the user did to the box of c in tab k: ticked it or not; d if they did nothing. *)
Definition last_decision (k : nat) (c : control) (d : Prop) (es : list lev) : Prop :=
  fold_left (fun d e => match e with
    | Tick j x => if andb (j =? k) (if control_dec x c then true else false) then True else d
    | Untick j x => if andb (j =? k) (if control_dec x c then true else false) then False else d
    | _ => d end) es d.
(* The layers of the map: one for stations, two for every other kind. *)
Definition exists_layer (l : layer) : Prop := match l with Icon _ => True | Circle e => e <> STATION end.
Definition kind_of (l : layer) : etype := match l with Icon e | Circle e => e end.
Definition direction_box (rising : bool) : control := if rising then RISING else FALLING.
(* The map of tab k, if an infrastructure is shown there. *)
Definition map_of (w : world) (k : nat) : option glmap := match w_tab w k with Some t => tb_map t | None => None end.
(* Neither theme, infrastructure nor tab k changes. *)
Definition same_map (k : nat) (e : lev) : Prop :=
  match e with Theme | Infra _ | Highlight _ => False | _ => keeps k e end.
