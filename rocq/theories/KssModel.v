(* Model of the KSS timetable parser:
   src/timetable/parsers/kss/parse_kss_timetable.cc and
   include/soro/base/error.h (stats).

   Simplifications
   - pugixml is not modelled: the parser is given the attribute and child values
     it asks for. A missing attribute is the empty string, as pugixml has it; an
     optional child is an option.
   - date::sys_days of the date library is days_from_civil below; dates are
     compared as day numbers.
   - sassert/expect throw (debug build).
   - the seconds of a duration are an exact decimal fraction, rounded half up;
     the rounding of the decimal to a double and the forms with an exponent, inf
     and nan are not modelled (they throw), a leading '-' is undefined (negative
     value cast to an unsigned type).
   - the result of parse_characteristic (rolling stock lookup) is given. *)
From Verif Require Import Base BitfieldModel TrainModel TextModel AlgoModel RouteModel TransformModel.
From Coq Require Import Ascii.
Open Scope Z_scope.

(* ---- dates ---- *)
(* date::year_month_day::ok() for four digit years *)
Definition leap (y : Z) : bool := (y mod 4 =? 0) && (negb (y mod 100 =? 0) || (y mod 400 =? 0)).
Definition month_days (y m : Z) : Z :=
  if m =? 2 then (if leap y then 29 else 28)
  else if (m =? 4) || (m =? 6) || (m =? 9) || (m =? 11) then 30 else 31.
Definition date_okb (y m d : Z) : bool :=
  (1 <=? m) && (m <=? 12) && (1 <=? d) && (d <=? month_days y m).
(* date::sys_days{year_month_day} *)
Definition days_from_civil (y0 m d : Z) : Z :=
  let y := if m <=? 2 then y0 - 1 else y0 in
  let era := y / 400 in
  let yoe := y - era * 400 in
  let doy := (153 * (if m <=? 2 then m + 9 else m - 3) + 2) / 5 + d - 1 in
  let doe := yoe * 365 + yoe / 4 - yoe / 100 + doy in
  era * 146097 + doe - 719468.

Definition slice (s : list ascii) (i j : nat) : list ascii := firstn (j - i) (skipn i s).
Definition INT_MIN : Z := -2147483648.
Definition INT_MAX : Z := 2147483647.
Definition U32_MAX : Z := 4294967295.
Definition U64_MAX : Z := 18446744073709551615.

(* parse_kss_timetable.cc:66-80 *)
Definition parse_date (c : list ascii) : res Z :=
  sassert (Nat.eqb (length c) 10) ;;
  do y <- parse_int INT_MIN INT_MAX (slice c 0 4);
  do m <- parse_int 0 U32_MAX (slice c 5 7);
  do d <- parse_int 0 U32_MAX (slice c 8 10);
  sassert (date_okb y m d) ;;
  Ok (days_from_civil y m d).

(* ---- services ---- *)
Inductive service : Type :=
| Mask (start fin mask : list ascii)         (* with a bitMask attribute *)
| Special (type date : list ascii).          (* otherwise: the child "special" *)

Definition str_eqb (a b : list ascii) : bool := if list_eq_dec ascii_dec a b then true else false.
Definition s_include : list ascii := ["i"; "n"; "c"; "l"; "u"; "d"; "e"]%char.
Definition s_exclude : list ascii := ["e"; "x"; "c"; "l"; "u"; "d"; "e"]%char.

(* bitfield.h:71-73, bitfield.cc:118-120 *)
Definition bf_default : bf := mkbf ANCHOR_MAX ANCHOR_MAX 0.
Definition bf_okb (b : bf) : bool := anchor_valid (bf_first b) && anchor_valid (bf_last b).

(* :82-99 *)
Definition parse_special (b : bf) (total : N) (type date : list ascii) : res (bf * N) :=
  do d <- parse_date date;
  if str_eqb type s_include then do b' <- bf_set b d true; Ok (b', add64 total 1)
  else if str_eqb type s_exclude then do b' <- bf_set b d false; Ok (b', sub64 total 1)
  else Ok (b, total).

(* :104-133; sasserts only run in debug builds *)
Definition parse_service (st : bf * N) (s : service) : res (bf * N) :=
  let '(acc, total) := st in
  match s with
  | Mask start fin mask =>
      do a <- parse_date start;
      do b <- parse_date fin;
      sassert (a <=? b) ;;
      sassert (Nat.eqb (length mask) (Z.to_nat (b - a) + 1)) ;;
      let total := add64 total (N.of_nat (count_occ ascii_dec mask "1"%char)) in
      do m <- make_bitfield a b mask;
      if bf_okb acc then do acc' <- bf_or acc m; Ok (acc', total) else Ok (m, total)
  | Special type date => sassert (bf_okb acc) ;; parse_special acc total type date
  end.

Fixpoint parse_services_loop (l : list service) (st : bf * N) : res (bf * N) :=
  match l with
  | [] => Ok st
  | s :: l => do st' <- parse_service st s; parse_services_loop l st'
  end.

(* :63-141 *)
Definition parse_services (l : list service) : res bf :=
  do ' (b, total) <- parse_services_loop l (bf_default, 0%N);
  sassert (bf_okb b) ;;
  sassert (N.eqb total (bf_count b)) ;;
  Ok b.

(* ---- times ---- *)
(* :143-159 *)
Definition parse_time_offset (time : list ascii) (night_leap : bool) : res N :=
  sassert (Nat.eqb (length time) 11) ;;
  do h <- parse_int 0 U64_MAX (slice time 0 2);
  do m <- parse_int 0 U64_MAX (slice time 3 5);
  do s <- parse_int 0 U64_MAX (slice time 6 8);
  let r := add32 (add32 (mul32 (w32 (Z.to_N h)) 3600) (mul32 (w32 (Z.to_N m)) 60)) (w32 (Z.to_N s)) in
  Ok (if night_leap then add32 r 86400 else r).

Definition is_upper (c : ascii) : bool := ((65 <=? N_of_ascii c) && (N_of_ascii c <=? 90))%N.
(* std::find_if(letter_it, str_end, upper) *)
Fixpoint until_upper (s : list ascii) : list ascii * list ascii :=
  match s with
  | c :: t => if is_upper c then ([], s) else let '(a, b) := until_upper t in (c :: a, b)
  | [] => ([], [])
  end.
(* std::round(parse_fp<double>(...)) cast to the unsigned 32 bit count *)
Definition round_seconds (s : list ascii) : res N :=
  match s with
  | c :: _ => if Ascii.eqb c "-"%char then UB
    else
      let '(i, r) := take_digits s in
      match r with
      | [] => let v := digits_val i in
              if v <=? U32_MAX then Ok (Z.to_N v) else UB
      | p :: r =>
          if Ascii.eqb p "."%char then
            let '(f, r') := take_digits r in
            match r', (i ++ f)%list with
            | [], _ :: _ =>
                let den := 10 ^ Z.of_nat (length f) in
                let v := (2 * (digits_val i * den + digits_val f) + den) / (2 * den) in
                if v <=? U32_MAX then Ok (Z.to_N v) else UB
            | _, _ => Throw
            end
          else Throw
      end
  | [] => Throw
  end.

(* :161-207; reading past the end of the string is UB *)
Fixpoint parse_duration_loop (fuel : nat) (s : list ascii) (acc : N) : res N :=
  match s with
  | [] => Ok acc
  | _ =>
    match fuel with
    | O => Fuel
    | S fuel =>
      let '(num, rest) := until_upper s in
      match rest with
      | [] => UB
      | u :: rest =>
          do acc' <-
            (if Ascii.eqb u "H"%char then
               do v <- parse_int 0 U32_MAX num; Ok (add32 acc (mul32 (Z.to_N v) 3600))
             else if Ascii.eqb u "M"%char then
               do v <- parse_int 0 U32_MAX num; Ok (add32 acc (mul32 (Z.to_N v) 60))
             else if Ascii.eqb u "S"%char then
               do v <- round_seconds num; Ok (add32 acc v)
             else Ok acc);
          parse_duration_loop fuel rest acc'
      end
    end
  end.
Definition parse_duration (s : list ascii) : res N :=
  match s with
  | p :: t :: r => sassert (Ascii.eqb p "P"%char) ;; sassert (Ascii.eqb t "T"%char) ;;
                   parse_duration_loop (length r) r 0%N
  | _ => Throw                     (* the terminating NUL is not 'P' / 'T' *)
  end.

(* ---- trains ---- *)
Inductive kss_error : Type :=
| STATION_NOT_FOUND | STATION_ROUTE_NOT_FOUND
| STOP_IS_HALT_BUT_STATION_ROUTE_NO_HALT | TRANSIT_TIME_BUT_NO_RUNTIME_CHECKPOINT
| CTC_NOT_SUPPORTED | FIRST_STOP_NO_HALT_NOT_SUPPORTED | LAST_STOP_NO_HALT_NOT_SUPPORTED
| WORKED_ON_TRAIN | SINGLE_STOP_NOT_SUPPORTED | BREAK_IN_NOT_SUPPORTED | BREAK_OUT_NOT_SUPPORTED
| TRANSFORM (e : rt_error) | ROLLING_STOCK (e : N).

Record xpoint : Type := mkxp {
  xp_ds100 : list ascii; xp_track : list ascii;
  xp_arrival : option (list ascii * bool);        (* time, nightLeap present *)
  xp_departure : option (list ascii * bool);
  xp_stop_mode : option (list ascii);             (* attribute Schluessel *)
  xp_min_stop : option (list ascii) }.
Record xtrain : Type := mkxt {
  xt_main : list ascii; xt_sub : list ascii;
  xt_services : list service;
  xt_points : list xpoint; xt_breakin : list ascii; xt_breakout : list ascii;
  xt_physics : N + (bool * bool) }.       (* rolling stock error or (freight, ctc) *)
(* what the parser reads of the infrastructure *)
Record kinfra : Type := mkki {
  ki_station : list ascii -> option (list ascii -> option nat);   (* ds100_to_station_, station_routes_ *)
  ki_srs : list sroute;
  ki_checkpoint : nat -> option nat;
  ki_irs : list iroute; ki_part : list (list N); ki_start : list (list N); ki_halt : list (list N) }.
(* train.h:121-131 *)
Record ktrain : Type := mkkt {
  kt_number : N * N; kt_days : bf; kt_freight : bool; kt_ctc : bool;
  kt_break_in : bool; kt_break_out : bool; kt_path : list N; kt_points : list seqpoint }.

Definition s_true : list ascii := ["t"; "r"; "u"; "e"]%char.
Definition s_freig : list ascii := ["f"; "r"; "e"; "i"; "g"]%char.

(* sequence_point.h:58-61; .at throws *)
Definition key_to_stop_type (s : list ascii) : res stop_type :=
  match s with
  | c :: _ => if Ascii.eqb c "2"%char then Ok OPERATIONS
              else if Ascii.eqb c "3"%char then Ok REQUEST
              else if Ascii.eqb c "4"%char then Ok PASSENGER else Throw
  | [] => Throw
  end.

(* the body of the loop of :241-303 *)
Definition parse_point (inf : kinfra) (x : xpoint) : res (kss_error + seqpoint) :=
  match ki_station inf (xp_ds100 x) with
  | None => Ok (inl STATION_NOT_FOUND)
  | Some routes =>
    match routes (xp_track x) with
    | None => Ok (inl STATION_ROUTE_NOT_FOUND)
    | Some sr =>
      do arr <- match xp_arrival x with Some (t, n) => parse_time_offset t n | None => Ok TIME_INVALID end;
      do dep <- match xp_departure x with Some (t, n) => parse_time_offset t n | None => Ok TIME_INVALID end;
      do ty <- match xp_stop_mode x with Some k => key_to_stop_type k | None => Ok TRANSIT end;
      do mst <- match xp_min_stop x with Some d => parse_duration d | None => Ok 0%N end;
      let p := mkpt ty arr dep mst sr in
      (if negb (sp_halt p) && sp_timed p
       then sassert (match ki_checkpoint inf sr with Some _ => true | None => false end) else Ok tt) ;;
      Ok (inr p)
    end
  end.
Fixpoint parse_points (inf : kinfra) (l : list xpoint) : res (kss_error + list seqpoint) :=
  match l with
  | [] => Ok (inr [])
  | x :: l =>
      do r <- parse_point inf x;
      match r with
      | inl e => Ok (inl e)
      | inr p => do t <- parse_points inf l;
                 Ok (match t with inl e => inl e | inr t => inr (p :: t) end)
      end
  end.
(* :234-309 *)
Definition parse_sequence (inf : kinfra) (x : xtrain) : res (kss_error + stopseq) :=
  do r <- parse_points inf (xt_points x);
  Ok (match r with
      | inl e => inl e
      | inr ps => inr (mkss ps (str_eqb (xt_breakin x) s_true) (str_eqb (xt_breakout x) s_true))
      end).

Definition some {A} (o : option A) : bool := match o with Some _ => true | None => false end.
(* the loop of :375-388 *)
Fixpoint points_supported (inf : kinfra) (freight : bool) (l : list seqpoint) : res (option kss_error) :=
  match l with
  | [] => Ok None
  | p :: l =>
      do sr <- at_ (ki_srs inf) (sp_sr p);
      if sp_halt p && negb (some (halt_idx freight sr)) then Ok (Some STOP_IS_HALT_BUT_STATION_ROUTE_NO_HALT)
      else if has_transit_time p && negb (some (ki_checkpoint inf (sp_sr p)))
      then Ok (Some TRANSIT_TIME_BUT_NO_RUNTIME_CHECKPOINT)
      else points_supported inf freight l
  end.
(* :349-391 *)
Definition is_supported (inf : kinfra) (ss : stopseq) (freight ctc : bool) : res (option kss_error) :=
  if ctc then Ok (Some CTC_NOT_SUPPORTED)
  else if Nat.ltb (length (ss_points ss)) 2 then Ok (Some SINGLE_STOP_NOT_SUPPORTED)
  else if ss_break_in ss then Ok (Some BREAK_IN_NOT_SUPPORTED)
  else if ss_break_out ss then Ok (Some BREAK_OUT_NOT_SUPPORTED)
  else match ss_points ss, rev (ss_points ss) with
       | f :: _, b :: _ =>
           if negb (sp_halt f) then Ok (Some FIRST_STOP_NO_HALT_NOT_SUPPORTED)
           else if negb (sp_halt b) then Ok (Some LAST_STOP_NO_HALT_NOT_SUPPORTED)
           else points_supported inf freight (ss_points ss)
       | _, _ => UB
       end.

(* :393-441; main_t is uint32_t, sub_t uint16_t *)
Definition parse_construction_train (fuel : nat) (inf : kinfra) (x : xtrain) : res (kss_error + ktrain) :=
  do main <- parse_int 0 U32_MAX (xt_main x);
  do sub <- parse_int 0 65535 (xt_sub x);
  do days <- parse_services (xt_services x);
  do seq <- parse_sequence inf x;
  match seq with
  | inl e => Ok (inl e)
  | inr ss =>
    match xt_physics x with
    | inl e => Ok (inl (ROLLING_STOCK e))
    | inr (freight, ctc) =>
      do sup <- is_supported inf ss freight ctc;
      match sup with
      | Some e => Ok (inl e)
      | None =>
        do t <- transform_to_interlocking (ki_srs inf) (ki_checkpoint inf) (ki_irs inf) (ki_part inf)
                  (ki_start inf) (ki_halt inf) freight fuel ss;
        Ok (match t with
            | inl e => inl (TRANSFORM e)
            | inr (path, pts) =>
                inr (mkkt (Z.to_N main, Z.to_N sub) days freight ctc (ss_break_in ss) (ss_break_out ss) path pts)
            end)
      end
    end
  end.

Fixpoint parse_constructions (fuel : nat) (inf : kinfra) (l : list xtrain) : res (kss_error + list ktrain) :=
  match l with
  | [] => Ok (inr [])
  | x :: l =>
      do r <- parse_construction_train fuel inf x;
      match r with
      | inl e => Ok (inl e)
      | inr t => do ts <- parse_constructions fuel inf l;
                 Ok (match ts with inl e => inl e | inr ts => inr (t :: ts) end)
      end
  end.
(* :443-466 *)
Definition parse_kss_train (fuel : nat) (inf : kinfra) (x : list ascii * list xtrain) : res (kss_error + list ktrain) :=
  if negb (str_eqb (fst x) s_freig) then Ok (inl WORKED_ON_TRAIN)
  else parse_constructions fuel inf (snd x).

(* ---- ids and interval ---- *)
(* :500-504; ids are uint32_t *)
Definition set_ids (l : list train) : list train :=
  map (fun x => mktrain (w32 (N.of_nat (fst x))) (tr_days (snd x)) (tr_first_departure (snd x)) (tr_last_arrival (snd x)))
      (combine (seq 0 (length l)) l).

(* :535-544 *)
Definition get_interval (l : list train) : res interval :=
  fold_left (fun acc t =>
               do iv <- acc;
               do d <- first_absolute_departure t;
               do a <- last_absolute_arrival t;
               Ok (mkint (N.min (iv_start iv) d) (N.max (iv_end iv) a)))
            l (Ok (mkint 4294967295 0)).

(* front().departure_ and back().arrival_ *)
Definition calendar_part (t : ktrain) : res train :=
  match kt_points t, rev (kt_points t) with
  | f :: _, b :: _ => Ok (mktrain 4294967295 (kt_days t) (sp_departure f) (sp_arrival b))
  | _, _ => UB
  end.

(* ---- files in parallel ---- *)
(* shared state of the workers: the work items' results and the error counts *)
Record shared : Type := mksh { sh_results : list (list ktrain); sh_errors : kss_error -> N }.
Definition kss_error_dec (a b : kss_error) : {a = b} + {a <> b}.
Proof. decide equality; [decide equality|apply N.eq_dec]. Defined.
(* one step of a worker: count an error under the lock, or store the result *)
Inductive wstep : Type := Count (e : kss_error) | Store (work : nat) (r : list ktrain).
Definition do_step (s : wstep) (m : shared) : shared :=
  match s with
  | Count e => mksh (sh_results m) (fun x => if kss_error_dec x e then (sh_errors m x + 1)%N else sh_errors m x)
  | Store i r => mksh (firstn i (sh_results m) ++
                         match skipn i (sh_results m) with [] => [] | _ :: t => r :: t end) (sh_errors m)
  end.
(* :468-498: the steps of the worker for one file; the parse results of the
   trains of the file are given (they do not depend on shared state) *)
Fixpoint file_result (rs : list (kss_error + list ktrain)) : list ktrain :=
  match rs with
  | [] => []
  | inl _ :: rs => file_result rs
  | inr ts :: rs => ts ++ file_result rs
  end.
Definition file_steps (i : nat) (rs : list (kss_error + list ktrain)) : list wstep :=
  concat (map (fun r => match r with inl e => [Count e] | inr _ => [] end) rs) ++ [Store i (file_result rs)].
(* utl::parallel_for_run: any interleaving of the workers' steps *)
Inductive interleaves {A} : list (list A) -> list A -> Prop :=
| il_done ths : Forall (fun t => t = []) ths -> interleaves ths []
| il_step ths1 s t ths2 tr : interleaves (ths1 ++ t :: ths2) tr -> interleaves (ths1 ++ (s :: t) :: ths2) (s :: tr).
Definition run_steps (tr : list wstep) (m : shared) : shared := fold_left (fun m s => do_step s m) tr m.
Definition initial (n : nat) : shared := mksh (repeat [] n) (fun _ => 0%N).
(* :582-588 *)
Definition collect (m : shared) : list ktrain := concat (sh_results m).
