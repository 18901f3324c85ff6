(* Vocabulary for the statements about numbers in texts, the rolling stock and
   the physics of trains (PropsStock). *)
From Coq Require Export QArith.
From Coq Require Import Ascii.
From Verif Require Import Base PhysModel KssDates StockModel.
Local Open Scope Q_scope.

(* ---- numbers ---- *)
(* t is nothing, or an e with a numeral, signed or not: the exponent e *)
Definition exponent (t : text) (e : Z) : Prop :=
  t = [] /\ e = 0%Z \/
  exists c n, (c = "e"%char \/ c = "E"%char) /\
    (t = c :: n /\ numeral n e \/ t = c :: "+"%char :: n /\ numeral n e \/
     t = c :: "-"%char :: n /\ numeral n (- e)%Z).
(* s is a number with decimal point, if commas are replaced also with decimal
   comma, of value v: the numeral of all digits, shifted by the digits after the
   point and by the exponent *)
Definition fp_text (comma : bool) (s : text) (v : Q) : Prop :=
  exists sign whole point fraction ex m e,
    s = (sign ++ whole ++ point ++ fraction ++ ex)%list /\
    numeral (whole ++ fraction) m /\
    (point = [] /\ fraction = [] \/ point = ["."%char] \/ comma = true /\ point = [","%char]) /\
    exponent ex e /\
    (sign = [] /\ v == inject_Z m * 10 ^ (e - Z.of_nat (length fraction)) \/
     sign = ["-"%char] /\ v == - (inject_Z m * 10 ^ (e - Z.of_nat (length fraction)))).
(* a number with decimal point or comma *)
Definition number (s : text) (v : Q) : Prop := fp_text true s v.

(* ---- data sheets of the vehicles ---- *)
(* a line of the table of tractive forces: from lo to hi km/h the vehicle pulls
   with f1 + f2 V + f3 V^2 kN *)
Definition line_reads (x : xfactor) (lo hi f1 f2 f3 : Q) : Prop :=
  number (xf_from x) lo /\ number (xf_to x) hi /\
  number (xf_1 x) f1 /\ number (xf_2 x) f2 /\ number (xf_3 x) f3.
(* the table of the first power supply system of the variant *)
Definition table (x : xvariant) : list xfactor :=
  match xv_equip x with t :: _ => t | [] => [] end.
(* where a line ends the next one begins, up to 0.01 m/s = 0.036 km/h *)
Definition lines_adjoin (t : list xfactor) : Prop :=
  forall i x y hi lo, nth_error t i = Some x -> nth_error t (S i) = Some y ->
    number (xf_to x) hi -> number (xf_from y) lo -> hi - lo < 36 # 1000 /\ lo - hi < 36 # 1000.
Definition usable (x : xvariant) : Prop := table x <> [] /\ lines_adjoin (table x).

(* by the table t the vehicle pulls with F newton at V km/h: the first line that
   ends beyond V holds *)
Definition pulls (t : list xfactor) (V F : Q) : Prop :=
  exists i x lo hi f1 f2 f3,
    nth_error t i = Some x /\ line_reads x lo hi f1 f2 f3 /\ V < hi /\
    (forall j y h, (j < i)%nat -> nth_error t j = Some y -> number (xf_to y) h -> h <= V) /\
    F == 1000 * (f1 + f2 * V + f3 * V * V).
(* resistance of R newton at V km/h: r1 and r2 count in per mille of the weight
   force of the vehicle (w tons), r3 counts for itself *)
Definition resists (x : xvariant) (V R : Q) : Prop :=
  exists w r1 r2 r3,
    number (xv_weight x) w /\ number (xv_r1 x) r1 /\ number (xv_r2 x) r2 /\ number (xv_r3 x) r3 /\
    R == (981 # 100) * (1000 * w * (r1 + r2 * V) / 1000 + r3 * V * V).

(* the vehicle does what its data sheet says; v m/s are 3.6 v km/h *)
Definition describes (x : xvariant) (tv : traction_vehicle) : Prop :=
  tv_name tv = xv_name x /\
  number (xv_weight x) (tv_weight tv / 1000) /\
  number (xv_speed x) ((36 # 10) * v_max_speed (tv_vehicle tv)) /\
  v_deacceleration (tv_vehicle tv) = - (7 # 10) /\
  (forall v,
     (forall F, piecewise (v_tractive (tv_vehicle tv)) v = Ok F -> pulls (table x) ((36 # 10) * v) F) /\
     (forall F, pulls (table x) ((36 # 10) * v) F ->
        exists F', piecewise (v_tractive (tv_vehicle tv)) v = Ok F' /\ F' == F) /\
     resists x ((36 # 10) * v) (polynomial (v_resistance (tv_vehicle tv)) v)).

(* the number of the variant: space, a sign, a numeral below 2^64 and what else
   follows; taken modulo 2^32 *)
Definition blank (c : ascii) : Prop := In (N_of_ascii c) [9; 10; 11; 12; 13; 32]%N.
Definition numbered (x : xvariant) (id : N) : Prop :=
  exists space sign n rest m,
    xv_id x = (space ++ sign ++ n ++ rest)%list /\
    (forall c, In c space -> blank c) /\
    numeral n m /\ (m < 2 ^ 64)%Z /\
    (forall c r k, rest = c :: r -> ~ digit c k) /\
    ((sign = [] \/ sign = ["+"%char]) /\ Z.of_N id = (m mod 2 ^ 32)%Z \/
     sign = ["-"%char] /\ Z.of_N id = ((- m) mod 2 ^ 32)%Z).
(* x is the variant of the series that counts for the number: the first usable one *)
Definition variant_for (xs : xseries) (id : N) (x : xvariant) : Prop :=
  exists i, nth_error (xs_variants xs) i = Some x /\ numbered x id /\ usable x /\
    forall j y, (j < i)%nat -> nth_error (xs_variants xs) j = Some y -> usable y -> ~ numbered y id.

(* ---- files ---- *)
Definition all_series (fs : list core_file) : list xseries :=
  flat_map (fun f => match cf_series f with Some l => l | None => [] end) fs.
Definition all_defaults (fs : list core_file) : list xdefaults :=
  flat_map (fun f => match cf_defaults f with Some d => [d] | None => [] end) fs.
(* the name under which a series is filed *)
Definition series_key (s o : text) : text := (s ++ ["-"%char] ++ o)%list.
Definition key_of (x : xseries) : text := series_key (xs_nr x) (xs_company x).
Definition has_dash (s : text) : Prop := In "-"%char s.

(* every text that is read is what its reader expects *)
Definition readable_line (x : xfactor) : Prop := exists lo hi f1 f2 f3, line_reads x lo hi f1 f2 f3.
Definition readable_variant (x : xvariant) : Prop :=
  (exists id, numbered x id) /\ (exists w, number (xv_weight x) w) /\
  (forall l, In l (table x) -> readable_line l) /\
  (usable x -> (exists s, number (xv_speed x) s) /\
     exists r1 r2 r3, number (xv_r1 x) r1 /\ number (xv_r2 x) r2 /\ number (xv_r3 x) r3).
Definition readable_defaults (d : xdefaults) : Prop :=
  (exists t, number (xd_form_time d) t) /\ (exists l, number (xd_brake_path d) l) /\
  (exists s, fp_text false (xd_speed d) s).
Definition readable_files (fs : list core_file) : Prop :=
  (forall xs x, In xs (all_series fs) -> In x (xs_variants xs) -> readable_variant x) /\
  (forall d, In d (all_defaults fs) -> readable_defaults d) /\
  NoDup (map key_of (all_series fs)).

(* the values read *)
Definition defaults_read (d : xdefaults) (dv : default_values) : Prop :=
  dv_line_class dv = xd_class d /\
  (exists t, number (xd_form_time d) t /\ dv_form_time dv = Some t) /\
  (exists l, number (xd_brake_path d) l /\ dv_brake_path dv = Some l) /\
  (exists s, fp_text false (xd_speed d) ((36 # 10) * s) /\ dv_speed_limit dv = Some s).

(* ---- trains ---- *)
(* the unit of a train is the variant x of a series in the files *)
Definition unit_is (fs : list core_file) (u : xunit) (x : xvariant) : Prop :=
  exists xs id, In xs (all_series fs) /\ key_of xs = series_key (xu_series u) (xu_owner u) /\
    numeral (xu_variant u) (Z.of_N id) /\ (id < 2 ^ 32)%N /\ variant_for xs id x.
(* the unit gives the number of a variant at all *)
Definition numbered_unit (u : xunit) : Prop := exists id, numeral (xu_variant u) (Z.of_N id) /\ (id < 2 ^ 32)%N.
Definition total (l : list Q) : Q := fold_right Qplus 0 l.
(* the slowest of the sheets and of the limit of the train is m m/s *)
Definition slowest_of (x : xcharacteristic) (sheets : list xvariant) (m : Q) : Prop :=
  (forall V, fp_text false (xc_speed x) V -> (36 # 10) * m <= V) /\
  (forall s V, In s sheets -> number (xv_speed s) V -> (36 # 10) * m <= V) /\
  (fp_text false (xc_speed x) ((36 # 10) * m) \/ exists s, In s sheets /\ number (xv_speed s) ((36 # 10) * m)).
