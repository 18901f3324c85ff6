(* Model of include/soro/infrastructure/exclusion/exclusion_set.h and
   src/infrastructure/exclusion/exclusion_set.cc (soro::infra::exclusion_set). *)
From Verif Require Import Base.
Local Open Scope N_scope.

(* exclusion_set.h:14 bitvec_t = soro::data::bitvec, i.e. cista's
   basic_bitvec<vector<uint64_t>> with 32 bit size_type.
   Simplification: the array of 64-bit blocks is represented by one number
   (block i = bits 64*i .. 64*i+63); block accesses are still made block by
   block and are bounds checked.  Assumed library behaviour:
   - test(i)/operator[] returns false for i >= size()
   - resize(n) keeps the low bits and fills with zero
   - <<= and >>= keep the size and drop bits shifted out
   - set(i) requires i < size() (assert), count()/any() look at all bits,
     empty() is size() == 0. *)
Record bv : Type := mkbv { bsize : N; bval : N }.

Definition bits_per_block : N := 64.

Definition bv_empty : bv := mkbv 0 0.
Definition bv_test (b : bv) (i : N) : bool := (i <? bsize b) && N.testbit (bval b) i.
Definition bv_resize (b : bv) (n : N) : bv := mkbv n (bval b mod 2 ^ n).
Definition bv_shl (b : bv) (k : N) : bv := mkbv (bsize b) (N.shiftl (bval b) k mod 2 ^ bsize b).
Definition bv_shr (b : bv) (k : N) : bv := mkbv (bsize b) (N.shiftr (bval b) k).
Definition bv_set (b : bv) (i : N) : res bv :=
  if i <? bsize b then Ok (mkbv (bsize b) (N.setbit (bval b) i)) else UB.
Definition bv_nblocks (b : bv) : N := (bsize b + 63) / 64.
(* blocks_[i] *)
Definition bv_block (b : bv) (i : N) : res N :=
  if i <? bv_nblocks b then Ok (N.shiftr (bval b) (64 * i) mod 2 ^ 64) else UB.
(* blocks_[i] = w *)
Definition bv_put_block (b : bv) (i w : N) : res bv :=
  if i <? bv_nblocks b
  then Ok (mkbv (bsize b)
             (N.lor (N.ldiff (bval b) (N.shiftl (N.ones 64) (64 * i)))
                    (N.shiftl w (64 * i))))
  else UB.

(* the index range 0, 1, ..., n-1 *)
Definition nrange (n : N) : list N := map N.of_nat (seq 0 (N.to_nat n)).

Definition bv_count (b : bv) : N := N.of_nat (length (filter (bv_test b) (nrange (bsize b)))).
Definition bv_any (b : bv) : bool := existsb (bv_test b) (nrange (bsize b)).

(* exclusion_set.h:16-17 INVALID_ID, INVALID_OFFSET *)
Definition INVALID : N := M32 - 1.

(* exclusion_set.h:96-104 *)
Record es : Type := mkes {
  es_id : N;
  es_first : N;
  es_last : N;
  es_fbs : N;      (* first_bit_set_ *)
  es_lbs : N;      (* last_bit_set_ *)
  es_bits : bv
}.

(* exclusion_set.h:96-104 default member initialisers *)
Definition es_default : es := mkes INVALID INVALID INVALID INVALID INVALID bv_empty.

(* exclusion_set.cc:328-332 exclusion_set::empty *)
Definition es_empty (s : es) : bool :=
  (es_first s =? INVALID) && (es_last s =? INVALID) && (es_fbs s =? INVALID)
  && (es_lbs s =? INVALID) && (bsize (es_bits s) =? 0).

(* exclusion_set.cc:318-326 exclusion_set::clear (id_ is kept) *)
Definition es_clear (s : es) : es := mkes (es_id s) INVALID INVALID INVALID INVALID bv_empty.

(* exclusion_set.cc:7-22 compact *)
Definition es_compact (s : es) : es :=
  let old_first := es_first s in
  let first := mul32 (es_fbs s / bits_per_block) bits_per_block in
  let bits1 := bv_shr (es_bits s) (sub32 first old_first) in
  let last1 := add32 (es_last s) (sub32 first old_first) in
  let extra_blocks := sub32 last1 (es_lbs s) / bits_per_block in
  let extra_bits := mul32 extra_blocks bits_per_block in
  mkes (es_id s) first (sub32 last1 extra_bits) (es_fbs s) (es_lbs s)
       (bv_resize bits1 (sub32 (bsize bits1) extra_bits)).

(* the loop "for (; !bits[fs] && fs < size; ++fs)" (exclusion_set.cc:26);
   also the loop of iterator::operator++ (exclusion_set.h:48-50) *)
Fixpoint scan_up (fuel : nat) (b : bv) (fs : N) : res N :=
  match fuel with
  | O => Fuel
  | S fuel' =>
      if negb (bv_test b fs) && (fs <? bsize b) then scan_up fuel' b (fs + 1) else Ok fs
  end.

(* exclusion_set.cc:24-31 get_first_set *)
Definition get_first_set (s : es) : res N :=
  do fs <- scan_up (N.to_nat (bsize (es_bits s)) + 1) (es_bits s) 0;
  Ok (if fs =? bsize (es_bits s) then INVALID else add32 fs (es_first s)).

(* the loop "for (; ls != INVALID_OFFSET && !bits_[ls]; --ls)" (exclusion_set.cc:37);
   --ls wraps from 0 to INVALID_OFFSET *)
Fixpoint scan_down (fuel : nat) (b : bv) (ls : N) : res N :=
  match fuel with
  | O => Fuel
  | S fuel' =>
      if negb (ls =? INVALID) && negb (bv_test b ls)
      then scan_down fuel' b (sub32 ls 1) else Ok ls
  end.

(* exclusion_set.cc:33-41 get_last_set *)
Definition get_last_set (s : es) : res N :=
  do ls <- scan_down (N.to_nat (bsize (es_bits s)) + 1) (es_bits s)
             (sub32 (bsize (es_bits s)) 1);
  Ok (if ls =? INVALID then ls else add32 ls (es_first s)).

(* exclusion_set.cc:43-53 lower_first *)
Definition lower_first (s : es) (new_first : N) : res es :=
  sassert (new_first <? es_first s) ;;
  sassert (new_first mod bits_per_block =? 0) ;;
  let dist := sub32 (es_first s) new_first in
  let b1 := bv_resize (es_bits s) (add32 (bsize (es_bits s)) dist) in
  let b2 := bv_shl b1 dist in
  Ok (mkes (es_id s) new_first (es_last s) (es_fbs s) (es_lbs s) b2).

(* exclusion_set.cc:55-64 increase_last *)
Definition increase_last (s : es) (new_last : N) : res es :=
  sassert (es_last s <? new_last) ;;
  sassert (add32 new_last 1 mod bits_per_block =? 0) ;;
  let dist := sub32 new_last (es_last s) in
  Ok (mkes (es_id s) (es_first s) new_last (es_fbs s) (es_lbs s)
        (bv_resize (es_bits s) (add32 (bsize (es_bits s)) dist))).

(* exclusion_set.cc:90-95 block loop of contains_impl, i = list of indices left *)
Fixpoint contains_loop (a b : bv) (diff : N) (is : list N) : res bool :=
  match is with
  | [] => Ok true
  | i :: rest =>
      do bi <- bv_block b i;
      do ai <- bv_block a (i + diff);
      if negb (N.lor bi ai =? ai) then Ok false else contains_loop a b diff rest
  end.

(* exclusion_set.cc:66-98 contains_impl *)
Definition contains_impl (a b : es) : res bool :=
  sassert ((es_first a <=? es_first b) && (es_last b <=? es_last a)) ;;
  sassert (bsize (es_bits a) mod bits_per_block =? 0) ;;
  sassert (bsize (es_bits b) mod bits_per_block =? 0) ;;
  let diff_in_bits := sub32 (es_first b) (es_first a) in
  sassert (diff_in_bits mod bits_per_block =? 0) ;;
  let diff := diff_in_bits / bits_per_block in
  sassert (add32 (sub32 (bv_nblocks (es_bits b)) 1) diff <? bv_nblocks (es_bits a)) ;;
  contains_loop (es_bits a) (es_bits b) diff (nrange (bv_nblocks (es_bits b))).

(* std::partial_ordering *)
Inductive pord : Type := PEquiv | PLess | PGreater | PUnord.

(* exclusion_set.cc:119-126 block loop of contains_impl_same_size *)
Fixpoint same_size_loop (a b : bv) (is : list N) (a_sub b_sub : bool) : res (bool * bool) :=
  match is with
  | [] => Ok (a_sub, b_sub)
  | i :: rest =>
      do ai <- bv_block a i;
      do bi <- bv_block b i;
      let a_sub' := a_sub && (N.lor ai bi =? bi) in
      let b_sub' := b_sub && (N.lor bi ai =? ai) in
      if negb a_sub' && negb b_sub' then Ok (a_sub', b_sub')
      else same_size_loop a b rest a_sub' b_sub'
  end.

(* exclusion_set.cc:100-135 contains_impl_same_size *)
Definition contains_impl_same_size (a b : es) : res pord :=
  sassert ((es_first a =? es_first b) && (es_last a =? es_last b)) ;;
  sassert (bsize (es_bits a) mod bits_per_block =? 0) ;;
  sassert (bsize (es_bits b) mod bits_per_block =? 0) ;;
  sassert (bv_nblocks (es_bits a) =? bv_nblocks (es_bits b)) ;;
  do r <- same_size_loop (es_bits a) (es_bits b) (nrange (bv_nblocks (es_bits a))) true true;
  Ok (match r with
      | (true, true) => PEquiv
      | (true, false) => PLess
      | (false, true) => PGreater
      | (false, false) => PUnord
      end).

(* exclusion_set.cc:137-147 exclusion_set::expanded_set *)
Definition es_expanded (s : es) : list N :=
  map (fun i => add32 (es_first s) i)
      (filter (bv_test (es_bits s)) (nrange (bsize (es_bits s)))).

(* exclusion_set.cc:149 exclusion_set::any *)
Definition es_any (s : es) : bool := bv_any (es_bits s).

(* exclusion_set.cc:151-157 exclusion_set::operator[] *)
Definition es_index (s : es) (idx : N) : bool :=
  if (idx <? es_fbs s) || (es_lbs s <? idx) then false
  else bv_test (es_bits s) (sub32 idx (es_first s)).

(* exclusion_set.cc:390-401 the scan in ok() *)
Fixpoint ok_scan (b : bv) (first : N) (is : list N) (fs ls : N) : N * N :=
  match is with
  | [] => (fs, ls)
  | i :: rest =>
      let fs' := if (fs =? INVALID) && bv_test b i then add32 first i else fs in
      let ls' := if bv_test b i then add32 first i else ls in
      ok_scan b first rest fs' ls'
  end.

(* exclusion_set.cc:334-409 exclusion_set::ok (the sassert(false) statements in
   the failing branches make a debug build throw instead of returning false;
   callers only use ok() inside sassert/ensure, which throws as well) *)
Definition es_ok (s : es) : bool :=
  if es_empty s then true
  else
    let no_invalid := negb (es_first s =? INVALID) && negb (es_last s =? INVALID)
                      && negb (es_fbs s =? INVALID) && negb (es_lbs s =? INVALID)
                      && negb (bsize (es_bits s) =? 0) in
    if negb no_invalid then false else
    if negb ((es_first s <=? es_fbs s) && (es_lbs s <=? es_last s)) then false else
    if negb (es_first s <? es_last s) then false else
    if negb ((es_fbs s <=? add32 (es_first s) bits_per_block)
             && (sub32 (es_last s) (bits_per_block - 1) <=? es_lbs s)) then false else
    let dist := add32 (sub32 (es_lbs s) (es_fbs s)) 1 in
    if negb (dist / bits_per_block + 1 <=? bsize (es_bits s)) then false else
    if negb (bv_test (es_bits s) (sub32 (es_fbs s) (es_first s))
             && bv_test (es_bits s) (sub32 (es_lbs s) (es_first s))) then false else
    let '(fs, ls) := ok_scan (es_bits s) (es_first s) (nrange (bsize (es_bits s))) INVALID INVALID in
    (es_fbs s =? fs) && (es_lbs s =? ls).

(* exclusion_set.cc:159-175 exclusion_set::set *)
Definition es_set (s : es) (idx : N) : res es :=
  do s1 <- (if idx <? es_first s
            then lower_first s (mul32 (idx / bits_per_block) bits_per_block)
            else if es_last s <? idx
                 then increase_last s
                        (sub32 (mul32 (add32 (idx / bits_per_block) 1) bits_per_block) 1)
                 else Ok s);
  do b <- bv_set (es_bits s1) (sub32 idx (es_first s1));
  let s2 := mkes (es_id s1) (es_first s1) (es_last s1)
                 (N.min idx (es_fbs s1)) (N.max idx (es_lbs s1)) b in
  sassert (es_ok s2) ;;
  Ok s2.

(* exclusion_set.cc:208-211 block loop of operator-= *)
Fixpoint sub_loop (t : bv) (o : bv) (this_smaller : bool) (diff : N) (is : list N) : res bv :=
  match is with
  | [] => Ok t
  | i :: rest =>
      let it := if this_smaller then i + diff else i in
      let io := if this_smaller then i else i + diff in
      do bt <- bv_block t it;
      do bo <- bv_block o io;
      do t' <- bv_put_block t it (N.land bt (N.lxor bo (N.ones 64)));
      sub_loop t' o this_smaller diff rest
  end.

(* exclusion_set.cc:177-231 exclusion_set::operator-=; [same] is this == &other.
   blocks_.size() has the 32 bit size_type, so the subtractions wrap. *)
Definition es_sub_assign (same : bool) (s o : es) : res es :=
  if same then Ok (es_clear s) else
  if es_empty s || es_empty o then Ok s else
  if negb ((es_fbs o <=? es_lbs s) && (es_fbs s <=? es_lbs o)) then Ok s else
  let this_smaller := es_first s <=? es_first o in
  let bit_diff := if this_smaller then sub32 (es_first o) (es_first s)
                  else sub32 (es_first s) (es_first o) in
  sassert (bit_diff mod bits_per_block =? 0) ;;
  let diff := bit_diff / bits_per_block in
  let nt := bv_nblocks (es_bits s) in
  let no := bv_nblocks (es_bits o) in
  let to := if this_smaller then N.min (sub32 nt diff) no else N.min nt (sub32 no diff) in
  do b <- sub_loop (es_bits s) (es_bits o) this_smaller diff (nrange to);
  let s1 := mkes (es_id s) (es_first s) (es_last s) (es_fbs s) (es_lbs s) b in
  do fbs <- (if negb (bv_test b (sub32 (es_fbs s) (es_first s))) then get_first_set s1
             else Ok (es_fbs s));
  let s2 := mkes (es_id s) (es_first s) (es_last s) fbs (es_lbs s) b in
  if fbs =? INVALID then Ok (es_clear s2) else
  do lbs <- (if negb (bv_test b (sub32 (es_lbs s) (es_first s))) then get_last_set s2
             else Ok (es_lbs s));
  let s3 := es_compact (mkes (es_id s) (es_first s) (es_last s) fbs lbs b) in
  sassert (es_ok s3) ;;
  Ok s3.

(* exclusion_set.cc:254-256 block loop of operator|= *)
Fixpoint or_loop (t o : bv) (diff : N) (is : list N) : res bv :=
  match is with
  | [] => Ok t
  | i :: rest =>
      do bt <- bv_block t (i + diff);
      do bo <- bv_block o i;
      do t' <- bv_put_block t (i + diff) (N.lor bt bo);
      or_loop t' o diff rest
  end.

(* exclusion_set.cc:233-264 exclusion_set::operator|= *)
Definition es_or_assign (same : bool) (s o : es) : res es :=
  if same || es_empty o then Ok s else
  let s0 := if es_empty s then o else s in
  do s1 <- (if es_first o <? es_first s0 then lower_first s0 (es_first o) else Ok s0);
  do s2 <- (if es_last s1 <? es_last o then increase_last s1 (es_last o) else Ok s1);
  let diff_in_bits := sub32 (es_first o) (es_first s2) in
  sassert (diff_in_bits mod bits_per_block =? 0) ;;
  let diff := diff_in_bits / bits_per_block in
  do b <- or_loop (es_bits s2) (es_bits o) diff (nrange (bv_nblocks (es_bits o)));
  let s3 := mkes (es_id s2) (es_first s2) (es_last s2)
                 (N.min (es_fbs s2) (es_fbs o)) (N.max (es_lbs s2) (es_lbs o)) b in
  sassert (es_ok s3) ;;
  Ok s3.

(* exclusion_set.cc:266-270 operator- and 272-276 operator| (work on a copy, so
   never aliased) *)
Definition es_minus (a b : es) : res es := es_sub_assign false a b.
Definition es_union (a b : es) : res es := es_or_assign false a b.

(* exclusion_set.cc:278-308 exclusion_set::compare *)
Definition es_compare (same : bool) (a b : es) : res pord :=
  if es_empty a && negb (es_empty b) then Ok PLess else
  if es_empty b then Ok PGreater else
  if same then Ok PEquiv else
  if (es_first a =? es_first b) && (es_last a =? es_last b)
  then contains_impl_same_size a b else
  if (es_fbs a <=? es_fbs b) && (es_lbs b <=? es_lbs a)
  then (do c <- contains_impl a b; Ok (if c then PGreater else PUnord)) else
  if (es_fbs b <=? es_fbs a) && (es_lbs a <=? es_lbs b)
  then (do c <- contains_impl b a; Ok (if c then PLess else PUnord)) else
  Ok PUnord.

(* exclusion_set.cc:310-312 exclusion_set::contains: std::is_gteq *)
Definition es_contains (same : bool) (a b : es) : res bool :=
  do c <- es_compare same a b;
  Ok (match c with PGreater | PEquiv => true | _ => false end).

(* exclusion_set.cc:314 exclusion_set::size and 316 exclusion_set::count *)
Definition es_size (s : es) : N := sub32 (es_last s) (es_first s).
Definition es_count (s : es) : N := bv_count (es_bits s).

(* utls::is_sorted = std::is_sorted (ascending, duplicates allowed) *)
Fixpoint is_sortedb (l : list N) : bool :=
  match l with
  | a :: ((b :: _) as t) => (a <=? b) && is_sortedb t
  | _ => true
  end.

(* exclusion_set.cc:438-441 the insertion loop *)
Fixpoint set_all (b : bv) (first : N) (ids : list N) : res bv :=
  match ids with
  | [] => Ok b
  | i :: rest => do b' <- bv_set b (sub32 i first); set_all b' first rest
  end.

(* exclusion_set.cc:411-446 make_exclusion_set; 447-450 passes INVALID_ID *)
Definition make_es (id : N) (ids : list N) : res es :=
  sassert (is_sortedb ids) ;;
  match ids with
  | [] => Ok (mkes id INVALID INVALID INVALID INVALID bv_empty)
  | f :: _ =>
      let fbs := f in
      let lbs := List.last ids f in
      let first := mul32 (fbs / bits_per_block) bits_per_block in
      let last := sub32 (mul32 (add32 (lbs / bits_per_block) 1) bits_per_block) 1 in
      let b0 := bv_resize bv_empty (add32 (sub32 last first) 1) in
      do b <- set_all b0 first ids;
      let s := mkes id first last fbs lbs b in
      sassert (es_ok s) ;;
      Ok s
  end.

(* exclusion_set.h:46-53 iterator::operator++ (idx_ has 32 bit size_type) *)
Definition es_it_next (s : es) (idx : N) : res N :=
  scan_up (N.to_nat (bsize (es_bits s)) + 1) (es_bits s) (idx + 1).

(* exclusion_set.h:29-33 iterator constructor, 66-67 begin/end, 58 operator*;
   range-for over the set: collect *it until it == end() *)
Fixpoint es_iterate_from (fuel : nat) (s : es) (idx : N) : res (list N) :=
  match fuel with
  | O => Fuel
  | S fuel' =>
      if idx =? bsize (es_bits s) then Ok []
      else
        do nxt <- es_it_next s idx;
        do rest <- es_iterate_from fuel' s nxt;
        Ok (add32 (es_first s) idx :: rest)
  end.
Definition es_iterate (s : es) : res (list N) :=
  let b := sub32 (es_fbs s) (es_first s) in
  sassert (b <=? bsize (es_bits s)) ;;
  es_iterate_from (N.to_nat (bsize (es_bits s)) + 1) s b.
