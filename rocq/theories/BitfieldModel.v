(* Model of soro::tt::bitfield: include/soro/timetable/bitfield.h and
   src/timetable/bitfield.cc, and of the time helpers it uses
   (include/soro/base/time.h).

   Simplifications
   - cista::bitset<512> (an external dependency, not in /repo) is modelled as a
     number below 2^512: test(i) is testbit and false for i >= 512, set(i) with
     i >= 512 is UB, <<= drops the bits pushed beyond 512, count() is the
     number of set bits, and the string constructor reads the last character as
     bit 0, every character but '0' being a set bit.
   - anchor_time (date::sys_days) is a signed day number, here Z; the one
     subtraction of two dates is UB when it overflows 32 bit.
   - sassert/expect/ensure throw (debug build). *)
From Verif Require Import Base.
From Coq Require Import Ascii String.
Open Scope Z_scope.

Definition BITSIZE : N := 512%N.                       (* bitfield.h:12 *)
Definition ANCHOR_MAX : Z := 2147483647.               (* bitfield.h:16, int days *)

(* bitfield.h:71-73 *)
Record bf : Type := mkbf { bf_first : Z; bf_last : Z; bf_bits : N }.

Definition bits_test (b : N) (i : N) : bool := (i <? BITSIZE)%N && N.testbit b i.
Definition bits_set (b : N) (i : N) (v : bool) : res N :=
  if (i <? BITSIZE)%N then Ok (if v then N.setbit b i else N.clearbit b i) else UB.
Definition bits_shl (b : N) (k : N) : N := (N.shiftl b k mod 2 ^ BITSIZE)%N.

(* 0, 1, ..., n-1 *)
Definition upto (n : nat) : list N := map N.of_nat (seq 0 n).

(* cista bitset::count *)
Definition bits_count (b : N) : N :=
  N.of_nat (List.length (filter (bits_test b) (upto (N.to_nat BITSIZE)))).

(* bitfield.h:18-20 *)
Definition anchor_valid (d : Z) : bool := negb (d =? ANCHOR_MAX).

(* bitfield.cc:12-22 *)
Definition distance (from to : Z) : res N :=
  sassert (anchor_valid from) ;;
  sassert (anchor_valid to) ;;
  sassert (from <=? to) ;;
  if to - from <? 2147483648 then Ok (Z.to_N (to - from)) else UB.

(* bitfield.cc:24-27, uint16_t *)
Definition get_end_idx (b : bf) : res N :=
  do d <- distance (bf_first b) (bf_last b); Ok ((d + 1) mod 65536)%N.

(* bitfield.cc:29-38 *)
Definition get_idx (first last ymd : Z) : res N :=
  sassert ((first <=? ymd) && (ymd <=? last)) ;; distance first ymd.

(* bitfield.cc:40-45 *)
Definition idx_to_date (first : Z) (idx : N) : res Z :=
  sassert (anchor_valid first) ;; Ok (first + Z.of_N idx).

(* bitfield.cc:134-143; utl::fail always throws *)
Definition bf_at (b : bf) (ymd : Z) : res bool :=
  if (bf_first b <=? ymd) && (ymd <=? bf_last b) then
    do i <- get_idx (bf_first b) (bf_last b) ymd; Ok (bits_test (bf_bits b) i)
  else Throw.

(* bitfield.cc:145-147 *)
Definition bf_sub (b : bf) (ymd : Z) : res bool :=
  do i <- get_idx (bf_first b) (bf_last b) ymd; Ok (bits_test (bf_bits b) i).

(* bitfield.cc:153-165 *)
Definition in_range (ymd first last : Z) : Z :=
  if ymd <? first then -1 else if ymd <=? last then 0 else 1.

(* bitfield.cc:167-185 *)
Definition bf_set (b : bf) (ymd : Z) (v : bool) : res bf :=
  let pos := in_range ymd (bf_first b) (bf_last b) in
  do b1 <- (if pos <? 0 then
              do d <- distance ymd (bf_first b);
              Ok (mkbf ymd (bf_last b) (bits_shl (bf_bits b) d))
            else if 0 <? pos then Ok (mkbf (bf_first b) ymd (bf_bits b))
            else Ok b);
  do d <- distance (bf_first b1) (bf_last b1);
  sassert (d <? BITSIZE)%N ;;
  do i <- get_idx (bf_first b1) (bf_last b1) ymd;
  do bits <- bits_set (bf_bits b1) i v;
  Ok (mkbf (bf_first b1) (bf_last b1) bits).

(* bitfield.h:61, defaulted *)
Definition bf_eqb (a b : bf) : bool :=
  (bf_first a =? bf_first b) && (bf_last a =? bf_last b) && (bf_bits a =? bf_bits b)%N.

(* bitfield.cc:187-201; the shifted copy of `copy.bitset_ >> ...` is discarded *)
Definition bf_equivalent (a b : bf) : res bool :=
  if bf_eqb a b then Ok true
  else if bf_first a <? bf_first b then
    (distance (bf_first a) (bf_first b) ;; Ok (bf_eqb a b))
  else
    (distance (bf_first b) (bf_first a) ;; Ok (bf_eqb a b)).

(* bitfield.cc:209-226 *)
Definition bf_or (a b : bf) : res bf :=
  do h <- distance (Z.min (bf_first a) (bf_first b)) (Z.max (bf_last a) (bf_last b));
  sassert (h <? BITSIZE)%N ;;
  if bf_first a <? bf_first b then
    do d <- distance (bf_first a) (bf_first b);
    Ok (mkbf (bf_first a) (Z.max (bf_last a) (bf_last b))
             (N.lor (bf_bits a) (bits_shl (bf_bits b) d)))
  else
    do d <- distance (bf_first b) (bf_first a);
    Ok (mkbf (bf_first b) (Z.max (bf_last a) (bf_last b))
             (N.lor (bits_shl (bf_bits a) d) (bf_bits b))).

(* bitfield.cc:228-230 *)
Definition bf_count (b : bf) : N := bits_count (bf_bits b).

(* bitfield.cc:122-132 *)
Definition bf_get_set_days (b : bf) : res (list Z) :=
  fold_right (fun i acc => do l <- acc;
                           if bits_test (bf_bits b) i
                           then (do d <- idx_to_date (bf_first b) i; Ok (d :: l))
                           else Ok l)
             (Ok []) (upto (N.to_nat BITSIZE)).

(* time.h:26,44-46: absolute_time is a uint32_t second count *)
Definition DAY : Z := 86400.
Definition midnight (t : N) : N := (t / 86400 * 86400)%N.
(* conversion sys_days -> absolute_time: int64 product, then cast to uint32_t *)
Definition day_to_abs (d : Z) : N := Z.to_N ((d * DAY) mod 4294967296).
(* time_point_cast<sys_days::duration>(midnight t) *)
Definition day_of (t : N) : Z := Z.of_N (midnight t / 86400)%N.
(* time.h:34-37 *)
Definition relative_to_absolute (anchor rel : N) : N := add32 anchor rel.

(* bitfield.cc:235-237: linear search upwards; running past the 512 bits
   never ends because test() is false there *)
Fixpoint search_up (n : nat) (b : N) (i : N) : res N :=
  match n with
  | O => Fuel
  | S n => if bits_test b i then Ok i else search_up n b (i + 1)%N
  end.
(* bitfield.cc:242-250: `--last_set_idx` below 0 wraps, modelled as Fuel *)
Fixpoint search_down (b : N) (i : nat) : res N :=
  if bits_test b (N.of_nat i) then Ok (N.of_nat i)
  else match i with O => Fuel | S i => search_down b i end.

(* bitfield.cc:232-240; bitset.any() is a non-zero value *)
Definition bf_first_set_date (b : bf) : res N :=
  sassert (negb (bf_bits b =? 0)%N) ;;
  do i <- search_up (N.to_nat BITSIZE) (bf_bits b) 0%N;
  do d <- idx_to_date (bf_first b) i;
  Ok (day_to_abs d).

(* bitfield.cc:242-250 *)
Definition bf_last_set_date (b : bf) : res N :=
  sassert (negb (bf_bits b =? 0)%N) ;;
  do k <- distance (bf_first b) (bf_last b);
  do i <- search_down (bf_bits b) (N.to_nat k);
  do d <- idx_to_date (bf_first b) i;
  Ok (day_to_abs d).

(* bitfield.cc:252-282. bit i of the bitset is read from the buffer position
   511 - i; the buffer ends with the reversed mask, so this is character i of
   the mask for i < length and '0' above. *)
Definition buffer (mask : list ascii) : list ascii :=
  repeat "0"%char (N.to_nat BITSIZE - List.length mask) ++ rev mask.

(* bitset(std::string_view) *)
Definition bits_of_view (view : list ascii) : N :=
  fold_right (fun c acc => (2 * acc + (if Ascii.eqb c "0"%char then 0 else 1))%N)
             0%N (rev view).

Definition make_bitfield (first last : Z) (mask : list ascii) : res bf :=
  do d <- distance first last;
  sassert (first <=? last) ;;
  sassert (N.of_nat (List.length mask) =? d + 1)%N ;;
  if (d + 1 <=? BITSIZE)%N (* else the copy runs out of the 512 byte buffer *)
  then Ok (mkbf first last (bits_of_view (buffer mask)))
  else UB.

(* ---- iterators: bitfield.h:22-41; an iterator is (bitfield, idx) ---- *)

(* bitfield.cc:63-65: while (idx < end && !bitset[idx]) ++idx *)
Fixpoint skip_unset (n : nat) (b : bf) (e i : N) : res N :=
  if (i <? e)%N && negb (bits_test (bf_bits b) i) then
    match n with O => Fuel | S n => skip_unset n b e (i + 1)%N end
  else Ok i.

(* bitfield.cc:59-72 *)
Definition it_inc (b : bf) (i : N) : res N :=
  do e <- get_end_idx b;
  sassert (i <? e)%N ;;
  do j <- skip_unset (N.to_nat e) b e (i + 1)%N;
  sassert (j <=? e)%N ;;
  sassert ((j =? e)%N || bits_test (bf_bits b) j) ;;
  Ok j.

(* bitfield.cc:47-57 *)
Definition it_make (b : bf) (i : N) : res N :=
  do e <- get_end_idx b;
  sassert (i <=? e)%N ;;
  do j <- (if negb (i =? e)%N then
             do d <- idx_to_date (bf_first b) i;
             do v <- bf_at b d;
             if v then Ok i else it_inc b i
           else Ok i);
  sassert (j <=? e)%N ;;
  Ok j.

(* bitfield.cc:74-78 *)
Definition it_deref (b : bf) (i : N) : res Z :=
  do v <- bf_at b (bf_first b + Z.of_N i);
  sassert v ;;
  Ok (bf_first b + Z.of_N i).

(* bitfield.cc:80-86 *)
Definition bf_begin (b : bf) : res N := it_make b 0%N.
Definition bf_end (b : bf) : res N := do e <- get_end_idx b; it_make b e.

(* bitfield.cc:88-101 *)
Definition bf_from (b : bf) (t : N) : res N :=
  let a := day_of t in
  if a <=? bf_first b then it_make b 0%N
  else
    do d <- distance (bf_first b) a;
    do m <- get_end_idx b;
    if (m <=? d)%N then it_make b m else it_make b (d mod 65536)%N.

(* bitfield.cc:103-116 *)
Definition bf_to (b : bf) (t : N) : res N :=
  let a := day_of t in
  if bf_last b <=? a then (do e <- get_end_idx b; it_make b e)
  else if a <? bf_first b then it_make b 0%N
  else do d <- distance (bf_first b) a; it_make b ((d + 1) mod 65536)%N.

(* for (auto it = from; it != to; ++it) yield *it *)
Fixpoint bf_loop (n : nat) (b : bf) (i e : N) : res (list Z) :=
  if (i =? e)%N then Ok []
  else match n with
       | O => Fuel
       | S n => do d <- it_deref b i;
                do j <- it_inc b i;
                do l <- bf_loop n b j e;
                Ok (d :: l)
       end.

Definition bf_window (b : bf) (t1 t2 : N) : res (list Z) :=
  do i <- bf_from b t1;
  do e <- bf_to b t2;
  bf_loop (N.to_nat 65536) b i e.

(* range-for over the whole bitfield *)
Definition bf_iterate (b : bf) : res (list Z) :=
  do i <- bf_begin b;
  do e <- bf_end b;
  bf_loop (N.to_nat 65536) b i e.
