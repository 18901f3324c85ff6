(* Model of include/soro/utls/parse_int.h, include/soro/utls/string.h,
   include/soro/utls/container/optional.h, include/soro/infrastructure/graph/type.h
   and src/infrastructure/graph/type.cc.

   Simplifications
   - characters are ascii (bytes), strings lists of them (no terminator)
   - sassert and assert throw *)
From Verif Require Import Base.
From Coq Require Import Ascii String.
Open Scope Z_scope.

(* ---- parse_int.h ---- *)
Definition is_digit (c : ascii) : bool :=
  (48 <=? N_of_ascii c)%N && (N_of_ascii c <=? 57)%N.
Definition digit_val (c : ascii) : Z := Z.of_N (N_of_ascii c) - 48.

Fixpoint take_digits (s : list ascii) : list ascii * list ascii :=
  match s with
  | c :: t => if is_digit c then let '(ds, r) := take_digits t in (c :: ds, r) else ([], s)
  | [] => ([], [])
  end.

Definition digits_val (ds : list ascii) : Z :=
  fold_left (fun acc c => 10 * acc + digit_val c) ds 0.

Inductive errc : Type := EcOk | EcInvalid | EcRange.

(* std::from_chars(first, last, val) for base 10 of an integral type with the
   range [lo, hi] (lo < 0 for signed types): error code, the characters from
   ptr on, and the value if it was written *)
Definition from_chars (lo hi : Z) (s : list ascii) : errc * list ascii * option Z :=
  let '(neg, r) := match s with
                   | c :: t => if (lo <? 0) && Ascii.eqb c "-" then (true, t) else (false, s)
                   | [] => (false, s)
                   end in
  let '(ds, rest) := take_digits r in
  match ds with
  | [] => (EcInvalid, s, None)
  | _ => let v := if neg then - digits_val ds else digits_val ds in
         if (lo <=? v) && (v <=? hi) then (EcOk, rest, Some v) else (EcRange, rest, None)
  end.

(* parse_int.h:12-18: val is max() unless from_chars writes it *)
Definition parse_int_impl (lo hi : Z) (s : list ascii) : errc * list ascii * Z :=
  let '(ec, ptr, v) := from_chars lo hi s in
  (ec, ptr, match v with Some v => v | None => hi end).

(* parse_int.h:40-52 (56-75 call it with the whole string) *)
Definition parse_int (lo hi : Z) (s : list ascii) : res Z :=
  let '(ec, ptr, val) := parse_int_impl lo hi s in
  sassert (match ec with EcOk => true | _ => false end) ;;
  sassert (match ptr with [] => true | _ => false end) ;;
  Ok val.

(* parse_int.h:20-38, 77-81: std::expected<T, std::error_code> *)
Definition try_parse_int (lo hi : Z) (s : list ascii) : Z + errc :=
  let '(ec, ptr, val) := parse_int_impl lo hi s in
  match ec with
  | EcOk => match ptr with [] => inl val | _ => inr EcInvalid end
  | e => inr e
  end.

(* parse_int in a release build (NDEBUG): the sasserts are no-ops *)
Definition parse_int_release (lo hi : Z) (s : list ascii) : Z :=
  let '(_, _, val) := parse_int_impl lo hi s in val.

(* ---- string.h split ---- *)
Fixpoint starts_with (d s : list ascii) : bool :=
  match d, s with
  | [], _ => true
  | a :: d, b :: s => Ascii.eqb a b && starts_with d s
  | _ :: _, [] => false
  end.

(* string.find(delim, start) - start, seen from the suffix at start *)
Fixpoint str_find (d s : list ascii) : option nat :=
  if starts_with d s then Some 0%nat
  else match s with
       | [] => None
       | _ :: t => match str_find d t with Some k => Some (S k) | None => None end
       end.

(* string.h:85-94; [cur] is the suffix from start on *)
Fixpoint split_loop (fuel : nat) (d cur : list ascii) : res (list (list ascii)) :=
  match str_find d cur with
  | None => Ok [cur]
  | Some k =>
      match fuel with
      | O => Fuel
      | S fuel => do l <- split_loop fuel d (skipn (k + List.length d) cur);
                  Ok (firstn k cur :: l)
      end
  end.

(* string.h:77-95 *)
Definition split_fuel (fuel : nat) (s d : list ascii) : res (list (list ascii)) :=
  match s with [] => Ok [] | _ => split_loop fuel d s end.
Definition split (s d : list ascii) : res (list (list ascii)) := split_fuel (List.length s) s d.

(* ---- string.h str_hash ---- *)
(* string.h:15-32: FNV-1a over the characters and the terminating zero *)
Definition str_hash (s : list ascii) : N :=
  fold_left (fun h c => mul32 (N.lxor h (N_of_ascii c)) 16777619)
            (s ++ [zero]) 2166136261%N.

(* ---- infrastructure/graph/type.h, type.cc ---- *)
(* type.h:11-50 *)
Inductive etype : Type :=
| BUMPER
| TRACK_END
| KM_JUMP
| BORDER
| LINE_SWITCH
| SIMPLE_SWITCH
| CROSS
| MAIN_SIGNAL
| PROTECTION_SIGNAL
| APPROACH_SIGNAL
| RUNTIME_CHECKPOINT
| EOTD
| SPEED_LIMIT
| POINT_SPEED
| BRAKE_PATH
| LZB_START
| LZB_END
| LZB_BLOCK_SIGN
| ETCS_START
| ETCS_END
| ETCS_BLOCK_SIGN
| FORCED_HALT
| META
| HALT
| TUNNEL
| ENTRY
| TRACK_NAME
| RUNTIME_CHECKPOINT_UNDIRECTED
| LEVEL_CROSSING
| SLOPE
| INVALID.

(* type.h:57-65 all_types: every enumerator but INVALID, in order *)
Definition all_types : list etype :=
  [BUMPER;
   TRACK_END;
   KM_JUMP;
   BORDER;
   LINE_SWITCH;
   SIMPLE_SWITCH;
   CROSS;
   MAIN_SIGNAL;
   PROTECTION_SIGNAL;
   APPROACH_SIGNAL;
   RUNTIME_CHECKPOINT;
   EOTD;
   SPEED_LIMIT;
   POINT_SPEED;
   BRAKE_PATH;
   LZB_START;
   LZB_END;
   LZB_BLOCK_SIGN;
   ETCS_START;
   ETCS_END;
   ETCS_BLOCK_SIGN;
   FORCED_HALT;
   META;
   HALT;
   TUNNEL;
   ENTRY;
   TRACK_NAME;
   RUNTIME_CHECKPOINT_UNDIRECTED;
   LEVEL_CROSSING;
   SLOPE].

(* type.cc:12-95: the case labels (iss_string_literals.h) with their results *)
Definition iss_names : list (string * etype) :=
  [("KmSprungEnde"%string, KM_JUMP);
   ("KmSprungAnfang"%string, KM_JUMP);
   ("Streckenwechsel0"%string, LINE_SWITCH);
   ("Streckenwechsel1"%string, LINE_SWITCH);
   ("Prellbock"%string, BUMPER);
   ("Betriebsstellengrenze"%string, BORDER);
   ("Gleisende"%string, TRACK_END);
   ("VorsignalS"%string, APPROACH_SIGNAL);
   ("VorsignalF"%string, APPROACH_SIGNAL);
   ("HauptsignalF"%string, MAIN_SIGNAL);
   ("HauptsignalS"%string, MAIN_SIGNAL);
   ("SchutzsignalF"%string, PROTECTION_SIGNAL);
   ("SchutzsignalS"%string, PROTECTION_SIGNAL);
   ("FstrZugschlussstelleF"%string, EOTD);
   ("FstrZugschlussstelleS"%string, EOTD);
   ("SignalZugschlussstelleF"%string, EOTD);
   ("SignalZugschlussstelleS"%string, EOTD);
   ("GeschwEndeSpeziellF"%string, SPEED_LIMIT);
   ("GeschwEndeSpeziellS"%string, SPEED_LIMIT);
   ("GeschwZulaessigS"%string, SPEED_LIMIT);
   ("GeschwZulaessigF"%string, SPEED_LIMIT);
   ("PunktgeschwF"%string, POINT_SPEED);
   ("PunktgeschwS"%string, POINT_SPEED);
   ("ZwangshaltS"%string, FORCED_HALT);
   ("ZwangshaltF"%string, FORCED_HALT);
   ("FahrzeitmesspunktS"%string, RUNTIME_CHECKPOINT);
   ("FahrzeitmesspunktF"%string, RUNTIME_CHECKPOINT);
   ("HalteplatzGzF"%string, HALT);
   ("HalteplatzGzS"%string, HALT);
   ("HalteplatzRzLinksS"%string, HALT);
   ("HalteplatzRzLinksF"%string, HALT);
   ("HalteplatzRzRechtsS"%string, HALT);
   ("HalteplatzRzRechtsF"%string, HALT);
   ("HalteplatzRzBeideS"%string, HALT);
   ("HalteplatzRzBeideF"%string, HALT);
   ("HalteplatzRzRechtsLinksF"%string, HALT);
   ("HalteplatzRzRechtsLinksS"%string, HALT);
   ("BremswegF"%string, BRAKE_PATH);
   ("BremswegS"%string, BRAKE_PATH);
   ("Neigung"%string, SLOPE);
   ("Tunnel"%string, TUNNEL);
   ("Gleisbezeichnung"%string, TRACK_NAME);
   ("Bahnuebergang"%string, LEVEL_CROSSING);
   ("Fahrzeitmesspunkt"%string, RUNTIME_CHECKPOINT_UNDIRECTED);
   ("Zugang"%string, ENTRY);
   ("Weichenanfang"%string, SIMPLE_SWITCH);
   ("Weichenstamm"%string, SIMPLE_SWITCH);
   ("WeichenabzweigLinks"%string, SIMPLE_SWITCH);
   ("WeichenabzweigRechts"%string, SIMPLE_SWITCH);
   ("KreuzungAnfangLinks"%string, CROSS);
   ("KreuzungEndeLinks"%string, CROSS);
   ("KreuzungAnfangRechts"%string, CROSS);
   ("KreuzungEndeRechts"%string, CROSS);
   ("KreuzungsweicheAnfangLinks"%string, CROSS);
   ("KreuzungsweicheEndeLinks"%string, CROSS);
   ("KreuzungsweicheAnfangRechts"%string, CROSS);
   ("KreuzungsweicheEndeRechts"%string, CROSS);
   ("LZBAnfangS"%string, LZB_START);
   ("LZBAnfangF"%string, LZB_START);
   ("LZBEndeS"%string, LZB_END);
   ("LZBEndeF"%string, LZB_END);
   ("LZBBlockkennzeichenS"%string, LZB_BLOCK_SIGN);
   ("LZBBlockkennzeichenF"%string, LZB_BLOCK_SIGN);
   ("ETCSAnfangS"%string, ETCS_START);
   ("ETCSAnfangF"%string, ETCS_START);
   ("ETCSEndeS"%string, ETCS_END);
   ("ETCSEndeF"%string, ETCS_END);
   ("ETCSBlockkennzeichenS"%string, ETCS_BLOCK_SIGN);
   ("ETCSBlockkennzeichenF"%string, ETCS_BLOCK_SIGN)].

(* type.cc:105-140 get_type_str; no fall through, all enumerators are covered *)
Definition get_type_str (t : etype) : string :=
  match t with
  | INVALID => "invalid"
  | BUMPER => "bumper"
  | BORDER => "border"
  | TRACK_END => "track_end"
  | SIMPLE_SWITCH => "simple_switch"
  | APPROACH_SIGNAL => "as"
  | MAIN_SIGNAL => "ms"
  | PROTECTION_SIGNAL => "ps"
  | EOTD => "eotd"
  | ENTRY => "entry"
  | SPEED_LIMIT => "spl"
  | POINT_SPEED => "point_speed"
  | BRAKE_PATH => "brake_path"
  | TUNNEL => "tunnel"
  | TRACK_NAME => "track_name"
  | HALT => "hlt"
  | FORCED_HALT => "forced_halt"
  | RUNTIME_CHECKPOINT => "rtcp"
  | RUNTIME_CHECKPOINT_UNDIRECTED => "rtcp_u"
  | KM_JUMP => "km_jump"
  | LINE_SWITCH => "line_switch"
  | SLOPE => "slope"
  | LEVEL_CROSSING => "level_crossing"
  | CROSS => "cross"
  | LZB_END => "lzb_end"
  | LZB_START => "lzb_start"
  | LZB_BLOCK_SIGN => "lzb_block_sign"
  | ETCS_END => "etcs_end"
  | ETCS_START => "etcs_start"
  | ETCS_BLOCK_SIGN => "etcs_block_sign"
  | META => "meta"
  end%string.

(* type.cc:12-101 get_type(char const* ): a switch over the hash of the name
   (labels of a switch are distinct, the order does not matter) *)
Definition get_type (s : list ascii) : etype :=
  match List.find (fun p => N.eqb (str_hash (list_ascii_of_string (fst p))) (str_hash s)) iss_names with
  | Some p => snd p
  | None => INVALID
  end.

(* type.h:54 type_to_id: the enumerators are numbered in order *)
Definition type_to_id (t : etype) : nat :=
  match t with
  | BUMPER => 0
  | TRACK_END => 1
  | KM_JUMP => 2
  | BORDER => 3
  | LINE_SWITCH => 4
  | SIMPLE_SWITCH => 5
  | CROSS => 6
  | MAIN_SIGNAL => 7
  | PROTECTION_SIGNAL => 8
  | APPROACH_SIGNAL => 9
  | RUNTIME_CHECKPOINT => 10
  | EOTD => 11
  | SPEED_LIMIT => 12
  | POINT_SPEED => 13
  | BRAKE_PATH => 14
  | LZB_START => 15
  | LZB_END => 16
  | LZB_BLOCK_SIGN => 17
  | ETCS_START => 18
  | ETCS_END => 19
  | ETCS_BLOCK_SIGN => 20
  | FORCED_HALT => 21
  | META => 22
  | HALT => 23
  | TUNNEL => 24
  | ENTRY => 25
  | TRACK_NAME => 26
  | RUNTIME_CHECKPOINT_UNDIRECTED => 27
  | LEVEL_CROSSING => 28
  | SLOPE => 29
  | INVALID => 30
  end%nat.

(* type.h:74-118 classification by enumerator order *)
Definition ty_between (lo hi t : etype) : bool :=
  Nat.leb (type_to_id lo) (type_to_id t) && Nat.leb (type_to_id t) (type_to_id hi).
Definition is_end_element (t : etype) : bool := ty_between BUMPER TRACK_END t.
Definition is_simple_element (t : etype) : bool := ty_between KM_JUMP LINE_SWITCH t.
Definition is_simple_switch (t : etype) : bool := ty_between SIMPLE_SWITCH SIMPLE_SWITCH t.
Definition is_track_element (t : etype) : bool := ty_between MAIN_SIGNAL SLOPE t.
Definition is_directed_track_element (t : etype) : bool := ty_between MAIN_SIGNAL HALT t.
Definition is_undirected_track_element (t : etype) : bool := ty_between TUNNEL SLOPE t.
Definition is_section_element (t : etype) : bool := negb (is_track_element t).
Definition is_cross (t : etype) : bool := ty_between CROSS CROSS t.

(* ---- container/optional.h ---- *)
(* optional.h:23-154: an integral value with one sentinel *)
Section OPTIONAL.
  Context {T : Type} (eqb : T -> T -> bool) (INV : T).

  (* optional.h:26-28, 154 *)
  Definition opt_none : T := INV.
  Definition opt_of (v : T) : T := v.
  (* optional.h:59-61 *)
  Definition opt_has (o : T) : bool := negb (eqb o INV).
  (* optional.h:63-81, operator* (51-57) *)
  Definition opt_value (o : T) : res T := sassert (opt_has o) ;; Ok o.
  (* optional.h:83-95 *)
  Definition opt_value_or (o d : T) : T := if opt_has o then o else d.
  (* optional.h:97 *)
  Definition opt_reset (o : T) : T := INV.
  (* optional.h:106-114 and_then, U the default of the result type *)
  Definition opt_and_then {U} (o : T) (f : T -> U) (dflt : U) : res U :=
    if opt_has o then (do v <- opt_value o; Ok (f v)) else Ok dflt.
  (* optional.h:127-135 *)
  Definition opt_or_else (o : T) (f : unit -> T) : T := if opt_has o then o else f tt.
  (* optional.h:137-149 *)
  Definition opt_swap (a b : T) : res (T * T) :=
    if opt_has a && negb (opt_has b) then Ok (opt_reset a, a)
    else if negb (opt_has a) && opt_has b then (do v <- opt_value b; Ok (v, opt_reset b))
    else if opt_has a && opt_has b then
      (do tmp <- opt_value a; do v <- opt_value b; Ok (v, tmp))
    else Ok (a, b).
End OPTIONAL.
