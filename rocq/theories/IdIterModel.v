(* Model of iterating the things a list of identifiers names:
   include/soro/utls/container/id_iterator.h, it_range.h, and its two uses: the station routes of an interlocking route
   (src/infrastructure/interlocking/interlocking_route.cc:109-114) and the path of a train
   (include/soro/timetable/train.h:115-119).

   Simplifications
   - an iterator of a vector is its position; moving it outside of the vector or reading at its end is UB
   - identifiers are natural numbers (they are unsigned and fit into difference_type)
   - a container of pointers holds None for a null pointer; a container of values holds no None
   - the container is not changed while it is iterated
   - it + d, it - d and d + it (:97-102) are left out: nothing uses them, and they do not build the type they return
   - assertions throw *)
From Verif Require Import Base.

Section ITER.
  Context {A : Type}.

  (* id_iterator.h:32-36, 113-114 *)
  Record id_it : Type := mkit { it_pos : Z; it_ids : list nat; it_c : list (option A) }.

  (* reading a vector's iterator *)
  Definition base_deref (ids : list nat) (p : Z) : res nat :=
    if (p <? 0)%Z then UB else match nth_error ids (Z.to_nat p) with Some i => Ok i | None => UB end.
  (* moving it *)
  Definition base_move (i : id_it) (d : Z) : res id_it :=
    let p := (it_pos i + d)%Z in
    if (0 <=? p)%Z && (p <=? Z.of_nat (length (it_ids i)))%Z then Ok (mkit p (it_ids i) (it_c i)) else UB.
  (* dereferencing a pointer *)
  Definition follow (o : option A) : res A := match o with Some a => Ok a | None => UB end.
  (* vector::operator[] *)
  Definition subscript (c : list (option A)) (k : nat) : res (option A) :=
    match nth_error c k with Some o => Ok o | None => UB end.

  (* id_iterator.h:38-47 *)
  Definition deref (i : id_it) (idx : nat) : res A :=
    sassert (Nat.ltb idx (length (it_c i))) ;;
    do o <- subscript (it_c i) idx;
    follow o.
  (* :49 *)
  Definition star (i : id_it) : res A :=
    do idx <- base_deref (it_ids i) (it_pos i);
    deref i idx.
  (* :51-57, and the use of what is returned *)
  Definition arrow (i : id_it) : res A :=
    do idx <- base_deref (it_ids i) (it_pos i);
    do o <- subscript (it_c i) idx;
    follow o.
  (* :59-63 *)
  Definition index (i : id_it) (k : Z) : res A :=
    do idx <- base_deref (it_ids i) (it_pos i + k);
    deref i idx.

  (* :65-95: what the iterator is after it, and what the expression is *)
  Inductive move : Type := Inc | Dec | PostInc | PostDec | Plus (d : Z) | Minus (d : Z).
  Definition apply_move (m : move) (i : id_it) : res (id_it * id_it) :=
    match m with
    | Inc => do j <- base_move i 1; Ok (j, j)
    | Dec => do j <- base_move i (-1); Ok (j, j)
    | PostInc => do j <- base_move i 1; Ok (j, i)
    | PostDec => do j <- base_move i (-1); Ok (j, i)
    | Plus d => do j <- base_move i d; Ok (j, j)
    | Minus d => do j <- base_move i (- d); Ok (j, j)
    end.
  Fixpoint apply_moves (l : list move) (i : id_it) : res id_it :=
    match l with
    | [] => Ok i
    | m :: l => do ' (j, _) <- apply_move m i; apply_moves l j
    end.

  (* :104 and :106-111 *)
  Definition distance (i j : id_it) : Z := (it_pos i - it_pos j)%Z.
  Definition it_lt (i j : id_it) : bool := (it_pos i <? it_pos j)%Z.
  Definition it_eq (i j : id_it) : bool := (it_pos i =? it_pos j)%Z.

  (* interlocking_route.cc:109-114, train.h:115-119, it_range.h:7-20 *)
  Definition range_of (ids : list nat) (c : list (option A)) : id_it * id_it :=
    (mkit 0 ids c, mkit (Z.of_nat (length ids)) ids c).
  (* for (auto const& x : range): until the end is reached *)
  Fixpoint walk (fuel : nat) (i e : id_it) : res (list A) :=
    match fuel with
    | O => Fuel
    | S fuel =>
        if it_eq i e then Ok []
        else do x <- star i;
             do ' (j, _) <- apply_move Inc i;
             do l <- walk fuel j e;
             Ok (x :: l)
    end.
  Definition for_each (ids : list nat) (c : list (option A)) : res (list A) :=
    let '(b, e) := range_of ids c in walk (S (length ids)) b e.
End ITER.
Arguments id_it : clear implicits.
