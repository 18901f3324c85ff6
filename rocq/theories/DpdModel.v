(* Model of the discretised probability distributions:
   include/soro/simulation/dpd.h, granularity.h, kilometer_per_hour.h, disruption.h,
   include/soro/utls/unixtime.h.

   Simplifications
   - probabilities (float) are exact rationals
   - a vector that would need more memory than exists is not modelled; a size above
     max_size() throws std::length_error *)
From Verif Require Import Base.
From Coq Require Export QArith.
Local Open Scope Z_scope.

(* The primary types: how results of arithmetic are represented, the granularity
   (granularity.h:18-40) and numeric_limits::max(). *)
Record primary : Type := mkprimary { pr_norm : Z -> res Z; pr_gran : Z; pr_max : Z }.
(* unixtime.h: unixtime, duration: int64, signed overflow is undefined *)
Definition INT64_MAX : Z := 9223372036854775807.
Definition int64 (z : Z) : res Z :=
  if (- INT64_MAX - 1 <=? z) && (z <=? INT64_MAX) then Ok z else UB.
Definition time_primary : primary := mkprimary int64 6 INT64_MAX.
(* kilometer_per_hour.h: uint16, wraps around *)
Definition uint16 (z : Z) : res Z := Ok (z mod 65536).
Definition speed_primary : primary := mkprimary uint16 1 65535.

(* dpd.h:21-33 *)
Definition round_to_nearest_multiple (P : primary) (num : Z) : res Z :=
  let m := pr_gran P in
  if (m =? 0) || (m =? 1) then Ok num
  else
    let r := Z.rem num m in
    if r <=? Z.quot m 2 then pr_norm P (num - r)
    else do x <- pr_norm P (num - r); pr_norm P (x + m).

(* conversion to size_t, and std::vector::resize *)
Definition M64 : Z := 18446744073709551616.
Definition size_of (z : Z) : N := Z.to_N (z mod M64).
Definition resize {A} (dflt : A) (max_size : N) (n : N) (l : list A) : res (list A) :=
  if (max_size <? n)%N then Throw
  else Ok (firstn (N.to_nat n) l ++ repeat dflt (N.to_nat n - length l)).
Fixpoint update {A} (l : list A) (i : nat) (f : A -> res A) : res (list A) :=
  match l, i with
  | [], _ => UB
  | a :: l, O => do a <- f a; Ok (a :: l)
  | a :: l, S i => do l <- update l i f; Ok (a :: l)
  end.

(* dpd.h:113-117, 178-182 *)
Definition to_idx (P : primary) (first i : Z) : res N :=
  do r <- round_to_nearest_multiple P i;
  do offset <- pr_norm P (r - first);
  Ok (size_of (Z.quot offset (pr_gran P))).

(* ---- one level: dpd.h:88-151 ---- *)
Record dpd1 : Type := mkdpd1 { d1_first : Z; d1_mass : list Q }.
Definition empty1 (P : primary) : dpd1 := mkdpd1 (pr_max P) [].
Definition FLOATS_MAX : N := 2305843009213693951.      (* vector<float>::max_size() *)
(* dpd.h:130-138: the copy into new_dpd, which is then dropped; only whether its
   accesses are inside the vectors matters *)
Definition shift_loop1 (n diff : nat) : bool :=
  forallb (fun idx => (diff <? idx)%nat || ((idx <? n)%nat && (idx + diff <? n + diff)%nat)) (seq 0 (n + diff)).
(* dpd.h:119-147 *)
Definition insert1 (P : primary) (d : dpd1) (head : Z) (p : Q) : res dpd1 :=
  do granular <- round_to_nearest_multiple P head;
  match d1_mass d with
  | [] => Ok (mkdpd1 granular [p])
  | _ =>
      do _ <-
        (if granular <? d1_first d then
           do x <- pr_norm P (d1_first d - granular);
           let diff := size_of (Z.quot x (pr_gran P)) in
           if shift_loop1 (length (d1_mass d)) (N.to_nat diff) then Ok tt else UB
         else Ok tt);
      do idx <- to_idx P (d1_first d) head;
      do mass <-
        (if (N.of_nat (length (d1_mass d)) <=? idx)%N
         then resize 0%Q FLOATS_MAX (size_of (Z.of_N idx + 1)) (d1_mass d)
         else Ok (d1_mass d));
      do mass <- (if (idx <? N.of_nat (length mass))%N
                  then update mass (N.to_nat idx) (fun q => Ok (q + p)%Q) else UB);
      Ok (mkdpd1 (d1_first d) mass)
  end.
Fixpoint inserts1 (P : primary) (d : dpd1) (l : list (Z * Q)) : res dpd1 :=
  match l with
  | [] => Ok d
  | (h, p) :: l => do d <- insert1 P d h p; inserts1 P d l
  end.
(* begin() to end(): dpd.h:35-79, 100-101 *)
Fixpoint entries_from {A} (P : primary) (t : Z) (l : list A) : res (list (Z * A)) :=
  match l with
  | [] => Ok []
  | [a] => Ok [(t, a)]
  | a :: l => do t' <- pr_norm P (t + pr_gran P); do r <- entries_from P t' l; Ok ((t, a) :: r)
  end.
Definition entries1 (P : primary) (d : dpd1) : res (list (Z * Q)) :=
  entries_from P (d1_first d) (d1_mass d).

(* ---- two levels, times and speeds: dpd.h:153-220 ---- *)
Record dpd2 : Type := mkdpd2 { d2_first : Z; d2_dpds : list dpd1 }.
Definition empty2 (P : primary) : dpd2 := mkdpd2 (pr_max P) [].
Definition DPDS_MAX : N := 288230376151711743.         (* vector<dpd>::max_size(), 32 bytes each *)
(* dpd.h:198-207, as above *)
Definition shift_loop2 (n diff : nat) : bool :=
  forallb (fun idx => (idx <? diff)%nat || (idx <? n)%nat) (seq 0 (n + diff)).
(* dpd.h:186-216 *)
Definition insert2 (P S : primary) (d : dpd2) (head tail : Z) (p : Q) : res dpd2 :=
  do granular <- round_to_nearest_multiple P head;
  if d2_first d =? pr_max P then
    do inner <- insert1 S (empty1 S) tail p;
    Ok (mkdpd2 granular (d2_dpds d ++ [inner]))
  else
    do _ <-
      (if granular <? d2_first d then
         do x <- pr_norm P (d2_first d - granular);
         let diff := size_of (Z.quot x (pr_gran P)) in
         if shift_loop2 (length (d2_dpds d)) (N.to_nat diff) then Ok tt else UB
       else Ok tt);
    do idx <- to_idx P (d2_first d) head;
    do dpds <-
      (if (N.of_nat (length (d2_dpds d)) <=? idx)%N
       then resize (empty1 S) DPDS_MAX (size_of (Z.of_N idx + 1)) (d2_dpds d)
       else Ok (d2_dpds d));
    do dpds <- (if (idx <? N.of_nat (length dpds))%N
                then update dpds (N.to_nat idx) (fun q => insert1 S q tail p) else UB);
    Ok (mkdpd2 (d2_first d) dpds).
Fixpoint inserts2 (P S : primary) (d : dpd2) (l : list (Z * Z * Q)) : res dpd2 :=
  match l with
  | [] => Ok d
  | (h, t, p) :: l => do d <- insert2 P S d h t p; inserts2 P S d l
  end.
Definition entries2 (P S : primary) (d : dpd2) : res (list (Z * dpd1)) :=
  entries_from P (d2_first d) (d2_dpds d).

(* dpd.h:222-241: the sums *)
Definition total (l : list Q) : Q := fold_left Qplus l 0%Q.
Definition subsum (d : dpd1) : Q := total (d1_mass d).
Definition sum2 (d : dpd2) : Q := fold_left (fun p d => (p + subsum d)%Q) (d2_dpds d) 0%Q.

(* fp_precision.h:15-23 *)
Definition is_zero (q : Q) : bool := negb (Qle_bool (1#100) q) && negb (Qle_bool q (- (1#100))).
Fixpoint numbered {A} (i : Z) (l : list A) : list (Z * A) :=
  match l with [] => [] | a :: l => (i, a) :: numbered (i + 1) l end.
(* dpd.h:267-282; g * p1 and the sum may overflow *)
Fixpoint iterate1_from (P : primary) (first : Z) (l : list (Z * Q)) : res (list (Z * Q)) :=
  match l with
  | [] => Ok []
  | (i, p) :: l =>
      if is_zero p then iterate1_from P first l
      else
        do x <- pr_norm P (pr_gran P * i);
        do t <- pr_norm P (first + x);
        do r <- iterate1_from P first l;
        Ok ((t, p) :: r)
  end.
Definition iterate1 (P : primary) (d : dpd1) : res (list (Z * Q)) :=
  iterate1_from P (d1_first d) (numbered 0 (d1_mass d)).
(* dpd.h:243-265; the speed is first + granularity + index *)
Fixpoint iterate_inner (P S : primary) (first i : Z) (sfirst : Z) (l : list (Z * Q)) : res (list (Z * Z * Q)) :=
  match l with
  | [] => Ok []
  | (j, p) :: l =>
      if is_zero p then iterate_inner P S first i sfirst l
      else
        do x <- pr_norm P (pr_gran P * i);
        do t <- pr_norm P (first + x);
        do y <- pr_norm S (sfirst + pr_gran S);
        do v <- pr_norm S (y + j);
        do r <- iterate_inner P S first i sfirst l;
        Ok ((t, v, p) :: r)
  end.
Fixpoint iterate2_from (P S : primary) (first : Z) (l : list (Z * dpd1)) : res (list (Z * Z * Q)) :=
  match l with
  | [] => Ok []
  | (i, d) :: l =>
      do a <- iterate_inner P S first i (d1_first d) (numbered 0 (d1_mass d));
      do b <- iterate2_from P S first l;
      Ok (a ++ b)
  end.
Definition iterate2 (P S : primary) (d : dpd2) : res (list (Z * Z * Q)) :=
  iterate2_from P S (d2_first d) (numbered 0 (d2_dpds d)).

(* ---- disruption.h ---- *)
(* disruption.h:20-21: pow(1 - p, delay - 1) * p with p = 0.75 *)
Definition delay_prob (delay : Z) : Q := (Qpower (1#4) (delay - 1) * (3#4))%Q.
Definition delays : list Z := map Z.of_nat (seq 0 300).
(* disruption.h:9-27 *)
Definition halt_distribution : res dpd1 :=
  inserts1 time_primary (empty1 time_primary) (map (fun d => (d, delay_prob d)) delays).
(* disruption.h:29-57; for speed 0 the C++ divides by 0.0, which the model does not
   represent.  The loop over speeds ends because speed + 5 is taken not to wrap. *)
Definition runtime_distribution (arrival speed : Z) : res dpd2 :=
  let variance := Z.min speed 5 in
  if (variance =? 0) || (65535 <=? speed + variance) then UB
  else
    do times <- fold_right (fun d r => do r <- r; do t <- int64 (arrival + d); Ok ((t, delay_prob d) :: r)) (Ok []) delays;
    inserts2 time_primary speed_primary (empty2 time_primary)
      (flat_map (fun k => map (fun x => (fst x, speed - variance + Z.of_nat k, (snd x / inject_Z variance * 2)%Q)) times)
                (seq 0 (Z.to_nat (2 * variance + 1)))).
