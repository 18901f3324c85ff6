(* The settings of the web client, its tabs, and the legend of its map.
   web/client/src/stores/settings-store.ts, style.ts, vuetify.ts, stores/golden-layout-store.ts,
   golden-layout/golden-layout-adapter.vue, App.vue, components/sidebar/menu/menu.vue,
   components/infrastructure/{infrastructure-map.vue,infrastructure-legend.vue,map-style.ts,element-types.ts} *)
From Coq Require Import Ascii String.
From Verif Require Import Base.
Local Open Scope list_scope.
Local Open Scope nat_scope.

(* ==================== the settings ==================== *)
(* settings-store.ts:10-14 *)
Inductive mode := Dark | Light | ByOs.
(* settings-store.ts:6: what `theme` may be *)
Inductive theme := TDark | TLight.
(* style.ts:7-9 and 18-20: the primary colour of either theme before anything is chosen *)
Definition default_primary : string := "#2196F3".
(* settings-store.ts:4-8, the state of the store of one page, and vuetify's own state (vuetify.ts:7-14):
   the theme in force and the primary colour of each theme. *)
Record page := mkPage {
  pg_mode : mode; pg_theme : theme; pg_colour : option string;
  vt_name : theme; vt_dark : string; vt_light : string }.
(* settings-store.ts:21-27, vuetify.ts:9 and style.ts *)
Definition fresh_page : page := mkPage ByOs TDark None TLight default_primary default_primary.
(* window.localStorage, shared by all pages of the browser. Simplification: only the two keys of the
   settings; the stored preference is one of the three modes (nothing else is ever stored there). *)
Record store := mkStore { ls_mode : option mode; ls_colour : option string }.
(* settings-store.ts:34-39 *)
Definition set_theme (t : theme) (p : page) : page :=
  mkPage (pg_mode p) t (pg_colour p) t (vt_dark p) (vt_light p).
(* settings-store.ts:41-49: all themes get the colour *)
Definition set_primary (c : string) (p : page) : page :=
  mkPage (pg_mode p) (pg_theme p) (Some c) (vt_name p) c c.
(* settings-store.ts:51-54 *)
Definition restore_primary (p : page) : page :=
  mkPage (pg_mode p) (pg_theme p) (Some (match vt_name p with TDark => vt_dark p | TLight => vt_light p end))
    (vt_name p) (vt_dark p) (vt_light p).
(* settings-store.ts:30-32 *)
Definition set_mode (m : mode) (p : page) : page :=
  mkPage m (pg_theme p) (pg_colour p) (vt_name p) (vt_dark p) (vt_light p).
(* settings-store.ts:109-121: os = does the system ask for a dark scheme *)
Definition apply_theme (os : bool) (p : page) : page :=
  match pg_mode p with
  | Dark => set_theme TDark p
  | Light => set_theme TLight p
  | ByOs => set_theme (if os then TDark else TLight) p
  end.
(* settings-store.ts:58-76. Simplification: the awaits in it let no user event in between, it is one step. *)
Definition load_settings (os : bool) (s : store) (p : page) : page :=
  let p := match ls_mode s with Some m => set_mode m p | None => p end in
  let p := apply_theme os p in
  match ls_colour s with
  | Some c => if String.eqb c "" then restore_primary p else set_primary c p
  | None => restore_primary p
  end.
(* settings-store.ts:78-86: the empty string counts as no colour *)
Definition save_settings (p : page) (s : store) : store :=
  mkStore (Some (pg_mode p))
    (match pg_colour p with
     | Some c => if String.eqb c "" then ls_colour s else Some c
     | None => ls_colour s
     end).
(* settings-store.ts:94-107: the listener for changes of the system's scheme *)
Definition os_changes (os : bool) (p : page) : page :=
  match pg_mode p with ByOs => set_theme (if os then TDark else TLight) p | _ => p end.
(* The browser: the system's scheme, the storage, and the open pages by number. *)
Record browser := mkBrowser { br_os : bool; br_ls : store; br_pages : nat -> option page }.
Definition put {A} (m : nat -> option A) (k : nat) (v : option A) : nat -> option A :=
  fun j => if j =? k then v else m j.
Inductive sev :=
| Visit (k : nat)                    (* page k is opened (or reloaded) *)
| Leave (k : nat)                    (* page k is closed *)
| Prefer (k : nat) (m : mode)        (* the user chooses a mode on page k *)
| Paint (k : nat) (c : string)       (* the user chooses a colour on page k *)
| OsTurns (os : bool)                (* the system's scheme changes *)
| Wipe.                              (* "Clear local storage", menu.vue:116-118 *)
(* App.vue:62 (Visit), settings-store.ts:88-92 (Prefer), 123-126 (Paint), 97-106 (OsTurns) *)
Definition sstep (b : browser) (e : sev) : browser :=
  match e with
  | Visit k => mkBrowser (br_os b) (br_ls b) (put (br_pages b) k (Some (load_settings (br_os b) (br_ls b) fresh_page)))
  | Leave k => mkBrowser (br_os b) (br_ls b) (put (br_pages b) k None)
  | Prefer k m =>
      match br_pages b k with
      | Some p => let p := apply_theme (br_os b) (set_mode m p) in
                  mkBrowser (br_os b) (save_settings p (br_ls b)) (put (br_pages b) k (Some p))
      | None => b
      end
  | Paint k c =>
      match br_pages b k with
      | Some p => let p := set_primary c p in
                  mkBrowser (br_os b) (save_settings p (br_ls b)) (put (br_pages b) k (Some p))
      | None => b
      end
  | OsTurns os => mkBrowser os (br_ls b) (fun k => option_map (os_changes os) (br_pages b k))
  | Wipe => mkBrowser (br_os b) (mkStore None None) (br_pages b)
  end.
Definition srun (es : list sev) (b : browser) : browser := fold_left sstep es b.
Definition sinit (os : bool) : browser := mkBrowser os (mkStore None None) (fun _ => None).
(* What the user sees of a page: vuetify draws it. *)
Definition shown_theme (p : page) : theme := vt_name p.
Definition shown_colour (p : page) : string := match vt_name p with TDark => vt_dark p | TLight => vt_light p end.

(* ==================== the tabs ==================== *)
(* golden-layout-adapter.vue:60-62: the tabs there are (AllComponents, by index), the indices given back
   (last one first), and the counter. Simplification: a tab is its index only. *)
Record adapter := mkAdapter { ad_all : list nat; ad_unused : list nat; ad_cur : nat }.
(* golden-layout-adapter.vue:61-62 *)
Definition ad_init : adapter := mkAdapter [] [] 0.
Definition has (l : list nat) (i : nat) : bool := existsb (Nat.eqb i) l.
(* golden-layout-adapter.vue:81-83; the fuel is one more than the number of tabs, which is enough *)
Fixpoint seek (fuel : nat) (all : list nat) (cur : nat) : nat :=
  match fuel with
  | O => cur
  | S n => if has all cur then seek n all (S cur) else cur
  end.
(* Map.set: a key that is there keeps its place *)
Definition set_key (l : list nat) (i : nat) : list nat := if has l i then l else l ++ [i].
(* golden-layout-adapter.vue:72-91: an index 0 is falsy and counts as none *)
Definition add_component (used : option nat) (a : adapter) : adapter * nat :=
  let fresh :=
    match ad_unused a with
    | i :: r => (mkAdapter (set_key (ad_all a) i) r (ad_cur a), i)
    | [] => let i := seek (S (List.length (ad_all a))) (ad_all a) (ad_cur a) in
            (mkAdapter (set_key (ad_all a) i) [] i, i)
    end in
  match used with
  | Some (S n) => (mkAdapter (set_key (ad_all a) (S n)) (ad_unused a) (ad_cur a), S n)
  | _ => fresh
  end.
(* golden-layout-adapter.vue:218-223 *)
Definition unbind (i : nat) (a : adapter) : adapter :=
  mkAdapter (filter (fun j => negb (j =? i)) (ad_all a)) (i :: ad_unused a) (ad_cur a).
(* golden-layout-adapter.vue:118-137: the components of the layout in the order of the loop *)
Fixpoint add_all (l : list (option nat)) (a : adapter) : adapter * list nat :=
  match l with
  | [] => (a, [])
  | u :: r => let '(a, i) := add_component u a in let '(a, is) := add_all r a in (a, i :: is)
  end.
(* golden-layout-adapter.vue:105-142: `shown` are the tabs of the layout shown so far; clearing it unbinds each *)
Definition load_layout (l : list (option nat)) (a : adapter) (shown : list nat) : adapter * list nat :=
  let a := fold_left (fun a i => unbind i a) shown a in
  add_all l (mkAdapter [] (ad_unused a) (ad_cur a)).
(* One window: the adapter, the tabs of the layout, and the layout in the local storage. *)
Record window := mkWindow { w_ad : adapter; w_tabs : list nat; w_saved : option (list nat) }.
Inductive tev :=
| Add                  (* golden-layout-adapter.vue:93-102, golden-layout-store.ts:52-63 *)
| Shut (i : nat)       (* the tab i is closed by the user *)
| Move (l : list nat)  (* the user drags tabs: the same tabs in another order *)
| Save                 (* golden-layout-adapter.vue:232: the layout has changed, and is stored *)
| Again.               (* the page is loaded: App.vue:61-66, golden-layout-store.ts:47-50, 30-35 *)
(* App.vue:34-52: one tab without an index *)
Definition init_layout : list (option nat) := [None].
Definition start (saved : option (list nat)) : window :=
  let '(a, ts) := load_layout init_layout ad_init [] in
  match saved with
  | None => mkWindow a ts saved
  | Some l => let '(a, ts) := load_layout (map Some l) a ts in mkWindow a ts saved
  end.
Definition same_tabs (l m : list nat) : bool :=
  (List.length l =? List.length m) && forallb (has l) m && forallb (has m) l.
Definition tstep (w : window) (e : tev) : window :=
  match e with
  | Add => let '(a, i) := add_component None (w_ad w) in mkWindow a (w_tabs w ++ [i]) (w_saved w)
  | Shut i => if has (w_tabs w) i
              then mkWindow (unbind i (w_ad w)) (filter (fun j => negb (j =? i)) (w_tabs w)) (w_saved w)
              else w
  | Move l => if same_tabs l (w_tabs w) then mkWindow (w_ad w) l (w_saved w) else w
  | Save => mkWindow (w_ad w) (w_tabs w) (Some (w_tabs w))
  | Again => start (w_saved w)
  end.
Definition trun (es : list tev) (w : window) : window := fold_left tstep es w.

(* ==================== the legend ==================== *)
(* element-types.ts:1-22 *)
Inductive etype := BUMPER | BORDER | TRACK_END | SWITCH | APPROACH_SIGNAL | MAIN_SIGNAL | PROTECTION_SIGNAL
| END_OF_TRAIN_DETECTOR | SPEED_LIMIT | TUNNEL | HALT | RTCP | KM_JUMP | LINE_SWITCH | SLOPE | CROSS | CTC | STATION.
(* infrastructure-legend.vue:56-61 *)
Inductive control := Kind (e : etype) | RISING | FALLING.
Definition etype_dec (a b : etype) : {a = b} + {a <> b}. Proof. decide equality. Defined.
Definition control_dec (a b : control) : {a = b} + {a <> b}. Proof. decide equality. apply etype_dec. Defined.
(* Array.includes *)
Definition includes (l : list control) (c : control) : bool := existsb (fun d => if control_dec d c then true else false) l.
(* infrastructure-map.vue:46-53, when the module is loaded *)
Definition initially_checked : list control :=
  [Kind STATION; Kind HALT; Kind MAIN_SIGNAL; Kind APPROACH_SIGNAL; Kind END_OF_TRAIN_DETECTOR; RISING; FALLING].
(* infrastructure-map.vue:269-276; no filter lets everything pass *)
Inductive direction_filter := NoFilter | OnlyRising | OnlyFalling | Nothing.
(* map-style.ts:140-209: a station has one layer, every other kind two *)
Inductive layer := Icon (e : etype) | Circle (e : etype).
(* The map of maplibre: for every layer whether it is visible, and its filter; the features of the source
   'station-routes'. Simplification: 'interlocking-routes' is handled in the same way and left out. *)
Record glmap := mkMap { gl_visible : layer -> bool; gl_filter : layer -> direction_filter; gl_routes : list nat }.
(* map-style.ts:156, 181, 198 and 22-28: the layers have no filter, the source is empty *)
Definition style (checked : list control) : glmap :=
  mkMap (fun l => match l with Icon e => includes checked (Kind e) | Circle e => includes checked (Kind e) end)
        (fun _ => NoFilter) [].
(* What `this.checkedControls` of a tab refers to: an array of its own, or, after a reset,
   the array `initiallyCheckedControls` of the module itself. *)
Inductive ref := Own (l : list control) | Module.
Record tab := mkTab { tb_ref : ref; tb_map : option glmap }.
(* One page: the array of the module, the stored controls by tab index, the tabs by index,
   whether an infrastructure is chosen, and the highlighted routes. *)
Record world := mkWorld {
  w_const : list control; w_store : nat -> option (list control); w_tab : nat -> option tab;
  w_infra : bool; w_routes : list nat }.
Definition deref (c : list control) (r : ref) : list control := match r with Own l => l | Module => c end.
(* infrastructure-map.vue:269-276 *)
Definition direction_of (checked : list control) : direction_filter :=
  let r := includes checked RISING in let f := includes checked FALLING in
  if andb (negb r) f then OnlyFalling
  else if andb r (negb f) then OnlyRising
  else if andb (negb r) (negb f) then Nothing else NoFilter.
(* infrastructure-map.vue:261-286: every kind but stations *)
Definition evaluate_special (checked : list control) (m : glmap) : glmap :=
  let f := direction_of checked in
  mkMap (gl_visible m)
    (fun l => match l with
              | Icon e | Circle e => if etype_dec e STATION then gl_filter m l else f
              end) (gl_routes m).
(* infrastructure-map.vue:245-259 *)
Definition set_visibility (e : etype) (v : bool) (m : glmap) : glmap :=
  mkMap (fun l => match l with
                  | Icon e' => if etype_dec e' e then v else gl_visible m l
                  | Circle e' => if etype_dec e' e then (if etype_dec e STATION then gl_visible m l else v) else gl_visible m l
                  end) (gl_filter m) (gl_routes m).
(* element-types.ts:22 *)
Definition element_types : list etype :=
  [BUMPER; BORDER; TRACK_END; SWITCH; APPROACH_SIGNAL; MAIN_SIGNAL; PROTECTION_SIGNAL; END_OF_TRAIN_DETECTOR;
   SPEED_LIMIT; TUNNEL; HALT; RTCP; KM_JUMP; LINE_SWITCH; SLOPE; CROSS; CTC; STATION].
(* infrastructure-map.vue:238-243 *)
Definition set_all (checked : list control) (m : glmap) : glmap :=
  evaluate_special checked (fold_left (fun m e => set_visibility e (includes checked (Kind e)) m) element_types m).
(* infrastructure-map.vue:288-338. Simplification: the map is there at once, with its `load` event handled. *)
Definition create_map (checked : list control) : glmap := set_all checked (style checked).
Inductive lev :=
| OpenTab (k : nat)                 (* created and mounted, 180-195 *)
| CloseTab (k : nat)
| Tick (k : nat) (c : control)      (* the box of c is ticked in tab k *)
| Untick (k : nat) (c : control)
| ResetLegend (k : nat)
| Theme                             (* the theme or its colour changes, 163-177 *)
| Infra (chosen : bool)             (* an infrastructure is chosen, or none, 112-125 *)
| Highlight (rs : list nat)         (* other routes are highlighted, 135-147 *)
| Reload (ks : list nat).           (* the page is loaded anew, with the tabs ks *)
(* infrastructure-map.vue:231-236 *)
Definition save_controls (k : nat) (l : list control) (w : nat -> option (list control)) := put w k (Some l).
(* infrastructure-map.vue:87-95, 180-195 *)
Definition open_tab (w : world) (k : nat) : world :=
  let l := match w_store w k with Some l => l | None => w_const w end in
  mkWorld (w_const w) (w_store w)
    (put (w_tab w) k (Some (mkTab (Own l) (if w_infra w then Some (create_map l) else None)))) (w_infra w) (w_routes w).
(* infrastructure-map.vue:212-223 *)
Definition after_change (c : control) (v : bool) (checked : list control) (m : glmap) : glmap :=
  match c with
  | Kind e => set_visibility e v m
  | RISING | FALLING => evaluate_special checked m
  end.
Definition over_tabs (f : tab -> tab) (w : world) : world :=
  mkWorld (w_const w) (w_store w) (fun k => option_map f (w_tab w k)) (w_infra w) (w_routes w).
Definition lstep (w : world) (e : lev) : world :=
  match e with
  | OpenTab k => open_tab w k
  | CloseTab k => mkWorld (w_const w) (w_store w) (put (w_tab w) k None) (w_infra w) (w_routes w)
  (* infrastructure-map.vue:201-223: push changes the array in place, whoever refers to it *)
  | Tick k c =>
      match w_tab w k with
      | None => w
      | Some t =>
          let l := deref (w_const w) (tb_ref t) ++ [c] in
          let m := option_map (after_change c true l) (tb_map t) in
          match tb_ref t with
          | Own _ => mkWorld (w_const w) (save_controls k l (w_store w)) (put (w_tab w) k (Some (mkTab (Own l) m))) (w_infra w) (w_routes w)
          | Module => mkWorld l (save_controls k l (w_store w)) (put (w_tab w) k (Some (mkTab Module m))) (w_infra w) (w_routes w)
          end
      end
  (* infrastructure-map.vue:205-207: filter makes a new array *)
  | Untick k c =>
      match w_tab w k with
      | None => w
      | Some t =>
          let l := filter (fun d => if control_dec d c then false else true) (deref (w_const w) (tb_ref t)) in
          let m := option_map (after_change c false l) (tb_map t) in
          mkWorld (w_const w) (save_controls k l (w_store w)) (put (w_tab w) k (Some (mkTab (Own l) m))) (w_infra w) (w_routes w)
      end
  (* infrastructure-map.vue:225-229 *)
  | ResetLegend k =>
      match w_tab w k with
      | None => w
      | Some t => mkWorld (w_const w) (save_controls k (w_const w) (w_store w))
                    (put (w_tab w) k (Some (mkTab Module (option_map (set_all (w_const w)) (tb_map t))))) (w_infra w) (w_routes w)
      end
  (* infrastructure-map.vue:164-175: the style put in place has neither filters nor routes *)
  | Theme => over_tabs (fun t => mkTab (tb_ref t) (option_map (fun _ => style (deref (w_const w) (tb_ref t))) (tb_map t))) w
  | Infra b =>
      let w' := over_tabs (fun t => mkTab (tb_ref t) (if b then Some (create_map (deref (w_const w) (tb_ref t))) else None)) w in
      mkWorld (w_const w') (w_store w') (w_tab w') b (w_routes w')
  | Highlight rs =>
      let w' := over_tabs (fun t => mkTab (tb_ref t) (option_map (fun m => mkMap (gl_visible m) (gl_filter m) rs) (tb_map t))) w in
      mkWorld (w_const w') (w_store w') (w_tab w') (w_infra w') rs
  | Reload ks => fold_left open_tab ks (mkWorld initially_checked (w_store w) (fun _ => None) false [])
  end.
Definition lrun (es : list lev) (w : world) : world := fold_left lstep es w.
Definition linit : world := mkWorld initially_checked (fun _ => None) (fun _ => None) false [].
(* What the user sees: the ticked boxes of tab k, and whether its map draws an element of kind e in a direction. *)
Definition ticked (w : world) (k : nat) : list control :=
  match w_tab w k with Some t => deref (w_const w) (tb_ref t) | None => [] end.
Definition passes (f : direction_filter) (rising : bool) : bool :=
  match f with NoFilter => true | OnlyRising => rising | OnlyFalling => negb rising | Nothing => false end.
Definition layer_shows (m : glmap) (l : layer) (rising : bool) : bool := gl_visible m l && passes (gl_filter m l) rising.
