(* Model of railway lines and of bounding boxes:
   src/infrastructure/line.cc, src/infrastructure/regulatory_data.cc,
   include/soro/infrastructure/line.h, include/soro/utls/coordinates/gps.h.

   Simplifications
   - kilometrages and coordinates (double) are exact rationals without NaN
   - of the XML of a line only the number, and for each segment the two kilometrages
     and the key of its type, are modelled; the strings have been parsed *)
From Verif Require Import Base.
From Coq Require Export QArith.
Local Open Scope Z_scope.

(* fraction.h:134-137: <, <= on the values *)
Definition klt (a b : Q) : bool := negb (Qle_bool b a).
Definition kle (a b : Q) : bool := Qle_bool a b.

(* line.h:11-17 *)
Record segment : Type := mkseg {
  sg_from : Q; sg_to : Q; sg_etcs : bool; sg_lzb : bool; sg_signalling : bool }.
(* line.h:8-26 *)
Record line : Type := mkline { ln_id : Z; ln_segments : list segment }.

(* std::lower_bound on random access iterators (the loop of its implementation):
   bisects the len elements behind first *)
Fixpoint lower_bound {A} (fuel : nat) (before : A -> bool) (l : list A) (first len : nat) : res nat :=
  match fuel with
  | O => Fuel
  | S fuel =>
      if (len =? 0)%nat then Ok first
      else
        let half := Nat.div len 2 in
        match nth_error l (first + half) with
        | None => UB
        | Some a =>
            if before a then lower_bound fuel before l (first + half + 1) (len - half - 1)
            else lower_bound fuel before l first half
        end
  end.

(* line.cc:7-36; utls::expect and sassert throw in debug builds *)
Definition get_segment (l : line) (km : Q) : res segment :=
  match ln_segments l with
  | [] => Throw
  | front :: _ =>
      let back := last (ln_segments l) front in
      if klt km (sg_from front) then Ok front
      else if klt (sg_to back) km then Ok back
      else
        do it <- lower_bound (S (length (ln_segments l))) (fun s => kle (sg_from s) km)
                             (ln_segments l) 0 (length (ln_segments l));
        match it with
        | O => UB
        | S it =>
            match nth_error (ln_segments l) it with
            | None => UB
            | Some s => sassert (kle (sg_from s) km && kle km (sg_to s)) ;; Ok s
            end
        end
  end.
(* line.cc:38-44 *)
Definition has_signalling (l : line) (km : Q) : res bool := do s <- get_segment l km; Ok (sg_signalling s).
Definition has_etcs (l : line) (km : Q) : res bool := do s <- get_segment l km; Ok (sg_etcs s).

(* regulatory_data.cc:45-61: the three tables *)
Definition line_types : list (Z * (bool * bool * bool)) := (* key, (signalling, lzb, etcs) *)
  [(1, (true, false, false)); (2, (true, true, false)); (3, (false, true, false)); (6, (true, false, false));
   (8, (true, false, true)); (9, (true, false, true)); (12, (true, false, true)); (13, (false, false, true));
   (14, (false, false, false)); (15, (true, false, false)); (18, (true, false, true)); (20, (true, false, false));
   (21, (true, false, false)); (23, (true, false, true)); (24, (false, false, false))].
(* std::map::at *)
Fixpoint at_key {A} (k : Z) (l : list (Z * A)) : res A :=
  match l with
  | [] => Throw
  | (k', a) :: l => if k' =? k then Ok a else at_key k l
  end.
Record xml_segment : Type := mkxs { xs_from : Q; xs_to : Q; xs_type : option Z }.
Record xml_line : Type := mkxl { xl_nr : Z; xl_segments : list xml_segment }.
(* regulatory_data.cc:80-98 *)
Definition parse_segment (x : xml_segment) : res segment :=
  match xs_type x with
  | None => Ok (mkseg (xs_from x) (xs_to x) false false false)
  | Some key =>
      do t <- at_key key line_types;
      Ok (mkseg (xs_from x) (xs_to x) (snd t) (snd (fst t)) (fst (fst t)))
  end.
Fixpoint parse_segments (l : list xml_segment) : res (list segment) :=
  match l with
  | [] => Ok []
  | x :: l => do s <- parse_segment x; do r <- parse_segments l; Ok (s :: r)
  end.
(* regulatory_data.cc:63-104 *)
Fixpoint parse_lines_from_file (l : list xml_line) : res (list line) :=
  match l with
  | [] => Ok []
  | x :: l =>
      do s <- parse_segments (xl_segments x); do r <- parse_lines_from_file l;
      Ok (mkline (xl_nr x) s :: r)
  end.
(* map::emplace: an existing entry stays; the map as a list without order *)
Fixpoint emplace (m : list (Z * line)) (k : Z) (l : line) : list (Z * line) :=
  match m with
  | [] => [(k, l)]
  | (k', l') :: m => if k' =? k then (k', l') :: m else (k', l') :: emplace m k l
  end.
(* regulatory_data.cc:106-120 *)
Fixpoint concat_files (files : list (list xml_line)) : res (list line) :=
  match files with
  | [] => Ok []
  | f :: files => do a <- parse_lines_from_file f; do b <- concat_files files; Ok (a ++ b)
  end.
Definition parse_lines (files : list (list xml_line)) : res (list (Z * line)) :=
  do ls <- concat_files files;
  Ok (fold_left (fun m l => emplace m (ln_id l) l) ls []).

(* ---- gps.h ---- *)
Record gps : Type := mkgps { g_lon : Q; g_lat : Q }.
Definition GPS_INVALID : Q := -361 # 1.
Definition GPS_MAX_INVALID : Q := 361 # 1.
Definition qmin (a b : Q) : Q := if Qle_bool a b then a else b.      (* std::min *)
Definition qmax (a b : Q) : Q := if Qle_bool b a then a else b.      (* std::max *)
(* gps.h:29-32 *)
Record box : Type := mkbox { bb_sw : gps; bb_ne : gps }.
Definition no_box : box := mkbox (mkgps GPS_MAX_INVALID GPS_MAX_INVALID) (mkgps GPS_INVALID GPS_INVALID).
(* gps.h:34-47 *)
Definition get_bounding_box (ps : list gps) : box :=
  fold_left (fun b p =>
    mkbox (mkgps (qmin (g_lon (bb_sw b)) (g_lon p)) (qmin (g_lat (bb_sw b)) (g_lat p)))
          (mkgps (qmax (g_lon (bb_ne b)) (g_lon p)) (qmax (g_lat (bb_ne b)) (g_lat p)))) ps no_box.
