(* Model of include/soro/utls/algo/*.h.

   Simplifications
   - The element type of the sorted ranges is an ordered integer id, here N.
   - A position inside a range is represented by the suffix starting there; a
     position equal to end() is the empty suffix.
   - std::sort is a parameter wherever ties matter (the order of equivalent
     elements is unspecified); on plain ids ties are not observable and it is
     the insertion sort below.
   - assert, sassert and utl::verify throw. *)
From Verif Require Import Base.
Local Open Scope N_scope.

(* std::is_sorted *)
Fixpoint is_sorted (l : list N) : bool :=
  match l with
  | a :: ((b :: _) as t) => (a <=? b) && is_sorted t
  | _ => true
  end.

(* std::merge: takes from the first range on ties *)
Fixpoint std_merge (l1 : list N) : list N -> list N :=
  fix go (l2 : list N) : list N :=
    match l1, l2 with
    | [], _ => l2
    | _, [] => l1
    | a :: t1, b :: t2 => if b <? a then b :: go t2 else a :: std_merge t1 l2
    end.

(* std::unique followed by erase: of consecutive equal elements the first stays *)
Fixpoint std_unique (l : list N) : list N :=
  match l with
  | [] => []
  | a :: t => a :: (fix skip (l : list N) : list N :=
                      match l with
                      | b :: t' => if a =? b then skip t' else std_unique l
                      | [] => []
                      end) t
  end.

(* merge_unique.h:16-33 *)
Definition merge_unique (c1 c2 : list N) : res (list N) :=
  sassert (is_sorted c1) ;;
  sassert (is_sorted c2) ;;
  Ok (std_unique (std_merge c1 c2)).

(* ---- multi_set_merge.h ---- *)

(* take the n-th element out of the queue *)
Fixpoint extract (n : nat) (q : list (list N)) : res (list N * list (list N)) :=
  match q, n with
  | [], _ => UB
  | r :: q, O => Ok (r, q)
  | r :: q, S n => do ' (x, q') <- extract n q; Ok (x, r :: q')
  end.

(* multi_set_merge.h:56-58: advance past everything <= the last result *)
Fixpoint skip_le (x : N) (r : list N) : list N :=
  match r with
  | a :: t => if a <=? x then skip_le x t else r
  | [] => []
  end.

Section MULTI.
  (* std::priority_queue::top(): which of the ranges with a smallest head is at
     the top is unspecified; [pick] is the position of that range *)
  Variable pick : list (list N) -> nat.

  (* multi_set_merge.h:48-63; [back] is result.back() *)
  Fixpoint msm_loop (fuel : nat) (q : list (list N)) (back : N) : res (list N) :=
    match q with
    | [] => Ok []
    | _ =>
      match fuel with
      | O => Fuel
      | S fuel =>
          do ' (cur, q') <- extract (pick q) q;
          match cur with
          | [] => UB
          | x :: _ =>
              let emit := back <? x in
              let back' := if emit then x else back in
              let cur' := skip_le back' cur in
              do l <- msm_loop fuel (match cur' with [] => q' | _ => cur' :: q' end) back';
              Ok (if emit then x :: l else l)
          end
      end
    end.

  (* multi_set_merge.h:13-66 *)
  Definition multi_set_merge (ranges : list (list N)) : res (list N) :=
    match filter (fun r => match r with [] => false | _ => true end) ranges with
    | [] => Ok []
    | [r] => Ok r
    | q =>
        do ' (top, _) <- extract (pick q) q;
        match top with
        | [] => UB
        | x :: _ =>
            do l <- msm_loop (S (length (concat q))) q x;
            Ok (x :: l)
        end
    end.
End MULTI.

(* ---- overlap.h ---- *)

(* overlap.h:84,86: while (idx != size && c[idx] < x) ++idx *)
Fixpoint skip_lt (x : N) (l : list N) : list N :=
  match l with
  | a :: t => if a <? x then skip_lt x t else l
  | [] => []
  end.

(* overlap.h:78-90 *)
Fixpoint overlap_loop (fuel : nat) (l1 l2 : list N) : res bool :=
  match l1, l2 with
  | [], _ => Ok false
  | _, [] => Ok false
  | a :: _, b :: _ =>
      match fuel with
      | O => Fuel
      | S fuel =>
          if a =? b then Ok true
          else if a <? b then overlap_loop fuel (skip_lt b l1) l2
          else overlap_loop fuel l1 (skip_lt a l2)
      end
  end.

(* overlap.h:66-91 *)
Definition overlap (assert_sort : bool) (c1 c2 : list N) : res bool :=
  (if assert_sort then sassert (is_sorted c1) ;; sassert (is_sorted c2) else Ok tt) ;;
  overlap_loop (length c1 + length c2) c1 c2.

(* overlap.h:51-63 sorted_wrapper: element i is c[perm[i]] *)
Fixpoint wrapper (c : list N) (perm : list nat) : res (list N) :=
  match perm with
  | [] => Ok []
  | i :: perm => match nth_error c i with
                 | None => UB
                 | Some x => do l <- wrapper c perm; Ok (x :: l)
                 end
  end.

(* overlap.h:93-110; perm1 and perm2 are the results of get_permutation_index
   (overlap.h:24-49), i.e. 0,1,2,... sorted by element with std::sort *)
Definition overlap_non_sorted (perm1 perm2 : list nat) (c1 c2 : list N) : res bool :=
  do w1 <- wrapper c1 perm1;
  do w2 <- wrapper c2 perm2;
  overlap false w1 w2.

(* std::set_intersection; the comparison works on the keys k1, k2 and the
   elements are taken from the first range *)
Section SETINT.
  Context {A B : Type} (k1 : A -> N) (k2 : B -> N).
  Fixpoint set_intersection (l1 : list A) : list B -> list A :=
    fix go (l2 : list B) : list A :=
      match l1, l2 with
      | a :: t1, b :: t2 =>
          if k1 a <? k2 b then set_intersection t1 l2
          else if k2 b <? k1 a then go t2
          else a :: set_intersection t1 t2
      | _, _ => []
      end.
End SETINT.

(* overlap.h:112-125 get_overlap *)
Definition get_overlap (c1 c2 : list N) : res (list N) :=
  sassert (is_sorted c1) ;;
  sassert (is_sorted c2) ;;
  Ok (set_intersection (fun x => x) (fun x => x) c1 c2).

(* insertion sort, ascending *)
Fixpoint insert_by {A} (le : A -> A -> bool) (x : A) (l : list A) : list A :=
  match l with
  | [] => [x]
  | y :: t => if le x y then x :: l else y :: insert_by le x t
  end.
Definition sort_by {A} (le : A -> A -> bool) (l : list A) : list A :=
  fold_right (insert_by le) [] l.

(* overlap.h:127-155 get_overlap_non_sorted *)
Definition get_overlap_non_sorted (perm1 perm2 : list nat) (c1 c2 : list N) : res (list N) :=
  let ov := set_intersection (fun i => nth i c1 0) (fun i => nth i c2 0) perm1 perm2 in
  wrapper c1 (sort_by Nat.leb ov).

(* sort_and_intersect.h:18-30 *)
Definition sort_and_intersect (c1 c2 : list N) : list N :=
  set_intersection (fun x => x) (fun x => x) (sort_by N.leb c1) (sort_by N.leb c2).

(* sort_and_intersect.h:32-46 *)
Definition intersect (c1 c2 : list N) : res (list N) := get_overlap c1 c2.

(* ---- slice.h, remove_after.h, remove_until.h ---- *)
Section SLICE.
  Context {A : Type}.

  (* v.erase(begin + i, begin + j) *)
  Definition erase_range (v : list A) (i j : nat) : res (list A) :=
    if Nat.leb i j && Nat.leb j (length v) then Ok (firstn i v ++ skipn j v) else UB.

  (* slice.h:12-17 *)
  Definition slice_in_place (v : list A) (from to : nat) : res (list A) :=
    do v1 <- erase_range v to (length v);
    erase_range v1 0 from.

  (* std::copy(begin + i, begin + j) *)
  Definition copy_range (v : list A) (i j : nat) : res (list A) :=
    if Nat.leb i j && Nat.leb j (length v) then Ok (firstn (j - i) (skipn i v)) else UB.

  (* slice.h:21-33; slice_range (slice.h:62-67) denotes the same elements *)
  Definition slice (v : list A) (from to : nat) : res (list A) := copy_range v from to.

  (* slice.h:42-43, 56-57, 72-73 *)
  Definition clasp_from (v : list A) (from : nat) : nat :=
    if Nat.ltb (length v) from then 0%nat else from.
  Definition clasp_to (v : list A) (to : nat) : nat :=
    if Nat.ltb (length v) to then length v else to.

  (* slice.h:39-46 *)
  Definition slice_clasp_in_place (v : list A) (from to : nat) : res (list A) :=
    slice_in_place v (clasp_from v from) (clasp_to v to).
  (* slice.h:52-60; slice_clasp_range (slice.h:69-76) denotes the same elements *)
  Definition slice_clasp (v : list A) (from to : nat) : res (list A) :=
    slice v (clasp_from v from) (clasp_to v to).

  (* std::find_if as distance from begin *)
  Fixpoint find_if (p : A -> bool) (l : list A) : nat :=
    match l with
    | [] => 0%nat
    | x :: t => if p x then 0%nat else S (find_if p t)
    end.

  (* remove_after.h:8-13 *)
  Definition remove_after (p : A -> bool) (v : list A) : res (list A) :=
    let rlast := find_if p (rev v) in
    erase_range v (length v - rlast) (length v).

  (* remove_until.h:8-12 *)
  Definition remove_until (p : A -> bool) (v : list A) : res (list A) :=
    erase_range v 0 (find_if p v).
End SLICE.
