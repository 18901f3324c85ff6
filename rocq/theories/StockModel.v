(* Model of the import of the rolling stock and of the train physics built from it:
   include/soro/utls/parse_fp.h, src/rolling_stock/parse_train_series.cc,
   src/rolling_stock/rolling_stock.cc, include/soro/rolling_stock/train_series.h,
   src/infrastructure/parsers/iss/parse_iss.cc:1085-1137 and
   src/timetable/parsers/kss/parse_kss_timetable.cc:301-347.

   Simplifications
   - quantities (double) are exact rationals; the spellings inf and nan and
     values beyond the range of double are rejected
   - the implementation of parse_fp with std::from_chars is modelled, not the
     one for libc++ (parse_fp.h:26-33)
   - an XML element is given by the texts its readers ask for; an element that
     is absent reads as the empty text, as in pugixml
   - sassert and utl::verify throw *)
From Coq Require Import Ascii String.
From Verif Require Import Base TextModel PhysModel KssModel.
Local Open Scope Q_scope.

Definition text : Type := list ascii.

(* ---- parse_fp.h ---- *)
(* std::from_chars(start, end, result) for floating point, general format: the
   value and the characters from ptr on, None for std::errc::invalid_argument *)
Definition is_exp (c : ascii) : bool := Ascii.eqb c "e"%char || Ascii.eqb c "E"%char.
Definition fp_exponent (r : text) : Z * text :=
  match r with
  | c :: t =>
      if is_exp c then
        let '(neg, t') := match t with
                          | d :: t' => if Ascii.eqb d "-"%char then (true, t')
                                       else if Ascii.eqb d "+"%char then (false, t') else (false, t)
                          | [] => (false, t)
                          end in
        let '(ds, rest) := take_digits t' in
        match ds with
        | [] => (0%Z, r)
        | _ => ((if neg then - digits_val ds else digits_val ds)%Z, rest)
        end
      else (0%Z, r)
  | [] => (0%Z, r)
  end.
Definition from_chars_fp (s : text) : option (Q * text) :=
  let '(neg, r) := match s with
                   | c :: t => if Ascii.eqb c "-"%char then (true, t) else (false, s)
                   | [] => (false, s)
                   end in
  let '(i, r) := take_digits r in
  let '(f, r) := match r with
                 | c :: t => if Ascii.eqb c "."%char then take_digits t else ([], r)
                 | [] => ([], r)
                 end in
  match (i ++ f)%list with
  | [] => None
  | ds => let '(e, r) := fp_exponent r in
          let v := inject_Z (digits_val ds) * Qpower 10 (e - Z.of_nat (List.length f))%Z in
          Some ((if neg then - v else v), r)
  end.
(* parse_fp.h:22-46 *)
Definition detail_parse_fp (s : text) : res Q :=
  match from_chars_fp s with
  | Some (v, r) => sassert (match r with [] => true | _ => false end) ;; Ok v
  | None => Throw
  end.
(* parse_fp.h:17-20 *)
Definition contains_char (s : text) (c : ascii) : bool := existsb (fun d => Ascii.eqb d c) s.
(* parse_fp.h:50-69 (71-92 call it with the whole string) *)
Definition parse_fp (replace_comma : bool) (s : text) : res Q :=
  if replace_comma then detail_parse_fp (map (fun c => if Ascii.eqb c ","%char then "."%char else c) s)
  else sassert (negb (contains_char s ","%char)) ;; detail_parse_fp s.

(* ---- std::stoul ---- *)
Definition is_space (c : ascii) : bool :=
  let n := N_of_ascii c in ((n =? 32) || ((9 <=? n) && (n <=? 13)))%N.
Fixpoint skip_space (s : text) : text :=
  match s with
  | c :: t => if is_space c then skip_space t else s
  | [] => []
  end.
Definition M64 : N := 18446744073709551616%N.
(* strtoul: leading space, a sign, digits; what follows is ignored; throws
   std::invalid_argument or std::out_of_range; a minus sign negates modulo 2^64 *)
Definition stoul (s : text) : res N :=
  let s := skip_space s in
  let '(neg, r) := match s with
                   | c :: t => if Ascii.eqb c "-"%char then (true, t)
                               else if Ascii.eqb c "+"%char then (false, t) else (false, s)
                   | [] => (false, s)
                   end in
  let '(ds, _) := take_digits r in
  match ds with
  | [] => Throw
  | _ => let v := Z.to_N (digits_val ds) in
         if (v <? M64)%N then Ok (if neg then ((M64 - v) mod M64)%N else v) else Throw
  end.

(* ---- parse_train_series.cc ---- *)
(* units.h:67-69, 75-77 *)
Definition from_km_h (x : Q) : Q := x / (36 # 10).
Definition from_ton (x : Q) : Q := x * 1000.
(* :20-33 *)
Definition from_kilo_newton (x : Q) : Q := x * 1000.
Definition from_kn_h_per_km (x : Q) : Q := x * 1000 * (36 # 10).
Definition from_kn_h2_per_km2 (x : Q) : Q := x * 1000 * (36 # 10) * (36 # 10).
(* :37-54 *)
Definition from_unitless_in_per_mille (x : Q) : Q := x / 1000.
Definition from_h_km (x : Q) : Q := (x * (36 # 10)) / 1000.
Definition from_kg_h_km (x : Q) : Q := x * ((36 # 10) * (36 # 10)).
(* constants.h:7 *)
Definition GRAVITATIONAL : Q := 981 # 100.

(* Zugkraftfaktor: GeschwindigkeitVon, GeschwindigkeitBis, Faktor1, Faktor2, Faktor3 *)
Record xfactor : Type := mkxf { xf_from : text; xf_to : text; xf_1 : text; xf_2 : text; xf_3 : text }.
(* Triebfahrzeugbaureihenvariante; xv_equip: the Zugkraftfaktor elements of each
   Stromartausruestung *)
Record xvariant : Type := mkxv {
  xv_id : text; xv_name : text; xv_weight : text; xv_speed : text;
  xv_equip : list (list xfactor); xv_r1 : text; xv_r2 : text; xv_r3 : text }.
(* Triebfahrzeugbaureihe: Nr, Eisenbahnunternehmen Nr, the variants *)
Record xseries : Type := mkxs { xs_nr : text; xs_company : text; xs_variants : list xvariant }.

(* train_series.h:41-51 *)
Record traction_vehicle : Type := mktv { tv_name : text; tv_weight : Q; tv_vehicle : vehicle }.

(* the body of the loop of :60-84 *)
Definition parse_factor (x : xfactor) : res piece :=
  do from <- parse_fp true (xf_from x);
  do to <- parse_fp true (xf_to x);
  do f1 <- parse_fp true (xf_1 x);
  do f2 <- parse_fp true (xf_2 x);
  do f3 <- parse_fp true (xf_3 x);
  Ok (mkpiece [from_kn_h2_per_km2 f3; from_kn_h_per_km f2; from_kilo_newton f1]
              (from_km_h from) (from_km_h to)).
(* a loop that pushes one result per element *)
Fixpoint map_res {A B} (f : A -> res B) (l : list A) : res (list B) :=
  match l with
  | [] => Ok []
  | a :: l => do b <- f a; do bs <- map_res f l; Ok (b :: bs)
  end.
(* :56-94 *)
Definition get_tractive_force_curve (xs : list xfactor) : res (list piece) :=
  do ps <- map_res parse_factor xs;
  if negb (is_continuous ps) then Ok []
  else make_piecewise ps.
(* :96-118; factors in descending degree *)
Definition get_running_resistance_curve (x : xvariant) (weight : Q) : res (list Q) :=
  do r1 <- parse_fp true (xv_r1 x);
  do r2 <- parse_fp true (xv_r2 x);
  do r3 <- parse_fp true (xv_r3 x);
  Ok [from_kg_h_km r3 * GRAVITATIONAL;
      from_h_km r2 * GRAVITATIONAL * weight;
      from_unitless_in_per_mille r1 * GRAVITATIONAL * weight].

(* soro::map<variant_id, traction_vehicle>: find, and emplace, which keeps what is there *)
Fixpoint find_variant (id : N) (m : list (N * traction_vehicle)) : option traction_vehicle :=
  match m with
  | (k, v) :: m => if (k =? id)%N then Some v else find_variant id m
  | [] => None
  end.
Definition emplace (m : list (N * traction_vehicle)) (id : N) (v : traction_vehicle) : list (N * traction_vehicle) :=
  match find_variant id m with Some _ => m | None => (m ++ [(id, v)])%list end.
(* the body of the loop of :126-157; xml child: the first one, if any *)
Definition parse_variant (m : list (N * traction_vehicle)) (x : xvariant) : res (list (N * traction_vehicle)) :=
  do id <- stoul (xv_id x);
  let id := w32 id in
  do ton <- parse_fp true (xv_weight x);
  let weight := from_ton ton in
  do curve <- get_tractive_force_curve (hd [] (xv_equip x));
  match curve with
  | [] => Ok m
  | _ =>
      do speed <- parse_fp true (xv_speed x);
      do resistance <- get_running_resistance_curve x weight;
      Ok (emplace m id (mktv (xv_name x) weight (mkvehicle (from_km_h speed) (- (7 # 10)) curve resistance)))
  end.
(* :120-160; the flag success is only logged *)
Fixpoint parse_variants_loop (l : list xvariant) (m : list (N * traction_vehicle)) : res (list (N * traction_vehicle)) :=
  match l with
  | [] => Ok m
  | x :: l => do m' <- parse_variant m x; parse_variants_loop l m'
  end.
(* train_series.h:53-63 *)
Record train_series : Type := mkts { ts_nr : text; ts_company : text; ts_variants : list (N * traction_vehicle) }.
Definition get_key (ts : train_series) : text := (ts_nr ts ++ "-"%char :: ts_company ts)%list.
(* :162-189 *)
Definition parse_train_series (xs : list xseries) : res (list train_series) :=
  map_res (fun x => do vs <- parse_variants_loop (xs_variants x) [];
                    Ok (mkts (xs_nr x) (xs_company x) vs)) xs.

(* ---- parse_iss.cc ---- *)
(* infrastructure_t.h:25-30; a quantity is None before it is read (si::INVALID) *)
Record default_values : Type := mkdv {
  dv_line_class : text; dv_form_time : option Q; dv_brake_path : option Q; dv_speed_limit : option Q }.
Definition no_defaults : default_values := mkdv [] None None None.
Record xdefaults : Type := mkxd { xd_class : text; xd_form_time : text; xd_brake_path : text; xd_speed : text }.
(* parse_iss.cc:1085-1097; the speed limit is read without replacing commas *)
Definition parse_default_values (x : xdefaults) : res default_values :=
  do ft <- parse_fp true (xd_form_time x);
  do bp <- parse_fp true (xd_brake_path x);
  do sl <- parse_fp false (xd_speed x);
  Ok (mkdv (xd_class x) (Some ft) (Some bp) (Some (from_km_h sl))).

(* a core data file: its first default values and its first table of series *)
Record core_file : Type := mkcore { cf_defaults : option xdefaults; cf_series : option (list xseries) }.
(* rolling_stock.h:15-21: soro::map<soro::string, train_series> *)
Definition stock : Type := list (text * train_series).
Fixpoint find_series (k : text) (m : stock) : option train_series :=
  match m with
  | (k', ts) :: m => if str_eqb k' k then Some ts else find_series k m
  | [] => None
  end.
(* parse_iss.cc:1126-1132 *)
Fixpoint add_series (m : stock) (l : list train_series) : res stock :=
  match l with
  | [] => Ok m
  | ts :: l => match find_series (get_key ts) m with
               | Some _ => Throw
               | None => add_series (m ++ [(get_key ts, ts)])%list l
               end
  end.
(* the body of the loop of parse_iss.cc:1106-1134 *)
Definition parse_core_file (st : default_values * stock) (f : core_file) : res (default_values * stock) :=
  do dv <- match cf_defaults f with Some x => parse_default_values x | None => Ok (fst st) end;
  do m <- match cf_series f with
          | Some xs => do l <- parse_train_series xs; add_series (snd st) l
          | None => Ok (snd st)
          end;
  Ok (dv, m).
Fixpoint parse_core_loop (fs : list core_file) (st : default_values * stock) : res (default_values * stock) :=
  match fs with
  | [] => Ok st
  | f :: fs => do st' <- parse_core_file st f; parse_core_loop fs st'
  end.
(* parse_iss.cc:1099-1137 *)
Definition parse_core_data (fs : list core_file) : res (default_values * stock) :=
  parse_core_loop fs (no_defaults, []).

(* ---- rolling_stock.cc ---- *)
(* a std::string_view: the characters viewed and those that follow them up to
   the terminating NUL, all of which a reader of data() sees *)
Record view : Type := mkview { vw_text : text; vw_beyond : text }.
Definition vw_data (v : view) : text := (vw_text v ++ vw_beyond v)%list.
Definition c_string (s : text) : view := mkview s [].
(* rolling_stock.cc:7-31; None: error TRACTION_VEHICLE_NOT_FOUND *)
Definition get_traction_vehicle (rs : stock) (series owner : view) (id : N) : option traction_vehicle :=
  match find_series (vw_data series ++ "-"%char :: vw_data owner)%list rs with
  | None => None
  | Some ts => find_variant id (ts_variants ts)
  end.

(* ---- parse_kss_timetable.cc ---- *)
(* one child of tractionUnits: designSeries, its attribute Nr, variante *)
Record xunit : Type := mkxu { xu_series : text; xu_owner : text; xu_variant : text }.
Record xcharacteristic : Type := mkxc {
  xc_units : list xunit; xc_length : text; xc_weight : text; xc_speed : text;
  xc_stop_mode : text; xc_protection : text }.
(* train_physics.h:42-47: physics, length, ctc, freight *)
Record train_physics : Type := mktp { tp_physics : physics; tp_length : Q; tp_ctc : bool; tp_freight : bool }.
(* the loop of :307-322; None: the error of the first unit not found *)
Fixpoint parse_units (rs : stock) (l : list xunit) : res (option (list traction_vehicle)) :=
  match l with
  | [] => Ok (Some [])
  | u :: l =>
      do id <- parse_int 0 U32_MAX (xu_variant u);
      match get_traction_vehicle rs (c_string (xu_series u)) (c_string (xu_owner u)) (Z.to_N id) with
      | None => Ok None
      | Some tv => do r <- parse_units rs l;
                   Ok (match r with None => None | Some tvs => Some (tv :: tvs) end)
      end
  end.
Definition s_G : text := ["G"%char].
(* :301-342; train_physics.cc:11-22 *)
Definition parse_characteristic (rs : stock) (x : xcharacteristic) : res (option train_physics) :=
  do us <- parse_units rs (xc_units x);
  match us with
  | None => Ok None
  | Some tvs =>
      do len <- parse_fp false (xc_length x);
      do ton <- parse_fp false (xc_weight x);
      do kmh <- parse_fp false (xc_speed x);
      Ok (Some (mktp (mkphysics (map tv_vehicle tvs) (from_ton ton) (from_km_h kmh)) len
                     (str_eqb (xc_protection x) s_true) (str_eqb (xc_stop_mode x) s_G)))
  end.
