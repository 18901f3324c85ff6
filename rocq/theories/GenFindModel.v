(* The map generator: finding the node at a given distance along the tracks.
   Models: tools/generate-osm/db-utils/find-nodes/*.go

   Simplifications
   - float64 is exact (Q); NaN does not occur.  Reading latitude and longitude and
     the haversine formula are the parameter [hav]
   - error texts are left out, except the id that FindBestOSMNode reads back from
     them; ids contain neither blanks nor colons
   - the order in which Go ranges over the map of anchors is an argument *)
From Coq Require Import String List ZArith QArith Bool.
From Verif Require Import Base GenOsmModel.
Import ListNotations.
Local Open Scope list_scope.
Local Open Scope nat_scope.

Section Find.
Variable hav : node -> node -> Q.

(* find-nodes-toolbox.go:27-42 *)
Definition at_ (nds : list string) (i : nat) : res string :=
  match nth_error nds i with Some s => Ok s | None => Throw end.
Definition first_ref (nds : list string) : res string := at_ nds 0.
Definition second_ref (nds : list string) : res string := at_ nds 1.
Definition second_last_ref (nds : list string) : res string :=
  if Nat.ltb (List.length nds) 2 then Throw else at_ nds (List.length nds - 2).
Definition last_ref (nds : list string) : res string :=
  if Nat.ltb (List.length nds) 1 then Throw else at_ nds (List.length nds - 1).

Inductive gerr : Type := EndReached | JunctionReached | OtherErr.

(* find-next-way.go:129-145: the node lists of the two ways *)
Definition get_both_correct_ways (o : osm) (id : string) : (list string * list string) + gerr :=
  match map w_nd (find_ways_by_node_id o id) with
  | [] => inr OtherErr
  | [_] => inr EndReached
  | [first; second] => inl (first, second)
  | _ => inr JunctionReached
  end.

(* find-next-way.go:16-127; the result is the node list of the way, the index and
   the direction *)
Definition find_next_way (o : osm) (up : bool) (index : nat) (running : string) (old : option node) :
    res ((list string * nat * bool) + gerr) :=
  match get_both_correct_ways o running with
  | inr e => Ok (inr e)
  | inl (first, second) =>
      do f0 <- first_ref first;
      do s0 <- first_ref second;
      do fl <- last_ref first;
      do sl <- last_ref second;
      let first_links := String.eqb f0 running && String.eqb f0 sl in
      let second_links := String.eqb s0 running && String.eqb s0 fl in
      match old with
      | None => Throw
      | Some old =>
          if up && Nat.eqb index 0
          then
            do f1 <- second_ref first;
            do s1 <- second_ref second;
            let from_first := String.eqb f0 s0 && String.eqb f0 running && String.eqb f1 (n_id old) in
            let from_second := String.eqb f0 s0 && String.eqb s0 running && String.eqb s1 (n_id old) in
            if first_links then Ok (inl (second, List.length second - 1, true))
            else if second_links then Ok (inl (first, List.length first - 1, true))
            else if from_first then Ok (inl (second, 0, false))
            else if from_second then Ok (inl (first, 0, false))
            else Ok (inr OtherErr)
          else
            do f1 <- second_last_ref first;
            do s1 <- second_last_ref second;
            let from_first := String.eqb fl sl && String.eqb fl running && String.eqb f1 (n_id old) in
            let from_second := String.eqb fl sl && String.eqb sl running && String.eqb s1 (n_id old) in
            if first_links then Ok (inl (first, 0, false))
            else if second_links then Ok (inl (second, 0, false))
            else if from_first then Ok (inl (second, List.length second - 1, true))
            else if from_second then Ok (inl (first, List.length first - 1, true))
            else Ok (inr OtherErr)
      end
  end.

(* what goDirection returns: the distance is reached; the end of the track or a
   junction comes before; another error *)
Inductive went : Type :=
| Reached (id : string) (d : Q)
| Stopped (id : string) (d : Q) (junction : bool)
| Failed.

(* find-nodes-toolbox.go:112-128: the position of the next node *)
Definition next_ref (nds : list string) (up : bool) (index : nat) : res (string * nat) :=
  if up then match index with 0 => Throw | S i => do s <- at_ nds i; Ok (s, i) end
  else do s <- at_ nds (S index); Ok (s, S index).

(* go-direction.go:33-68; one unit of fuel per node *)
Fixpoint go_loop (fuel : nat) (o : osm) (nds : list string) (index : nat) (dist : Q)
    (up : bool) (running : node) (old : option node) (total : Q) : res went :=
  match fuel with
  | O => Fuel
  | S fuel =>
      if Qle_bool dist total then Ok (Reached (n_id running) total)
      else
        do st <- (if (up && Nat.eqb index 0) || (negb up && Nat.eqb (S index) (List.length nds))
                  then find_next_way o up index (n_id running) old
                  else Ok (inl (nds, index, up)));
        match st with
        | inr EndReached => Ok (Stopped (n_id running) total false)
        | inr JunctionReached => Ok (Stopped (n_id running) total true)
        | inr OtherErr => Ok Failed
        | inl (nds, index, up) =>
            do ' (ref, i) <- next_ref nds up index;
            match get_node_by_id o ref with
            | None => Ok Failed
            | Some next =>
                let total := (total + hav running next)%Q in
                if Qeq_bool total dist then Ok (Reached (n_id next) total)
                else go_loop fuel o nds i dist up next (Some running) total
            end
        end
  end.

(* go-direction.go:12-31.  Without a node at the start the pointer is nil, which
   panics unless the next node is missing, too. *)
Definition go_direction (fuel : nat) (o : osm) (nds : list string) (index : nat) (dist : Q) (up : bool) : res went :=
  do r <- at_ nds index;
  let old := if up
             then if Nat.eqb (S index) (List.length nds) then Ok None
                  else do s <- at_ nds (S index); Ok (get_node_by_id o s)
             else match index with 0 => Ok None | S i => do s <- at_ nds i; Ok (get_node_by_id o s) end in
  do old <- old;
  match get_node_by_id o r with
  | Some running => go_loop fuel o nds index dist up running old 0
  | None =>
      if Qle_bool dist 0 then Throw
      else if (up && Nat.eqb index 0) || (negb up && Nat.eqb (S index) (List.length nds)) then Throw
      else do ' (ref, _) <- next_ref nds up index;
           match get_node_by_id o ref with None => Ok Failed | Some _ => Throw end
  end.

(* find-nodes.go:34-37, 39-42 *)
Definition result_of (w : went) : option (string * Q) :=
  match w with Reached id d => Some (id, d) | Stopped id d _ => Some (id, d) | Failed => None end.
Definition both (up down : res went) : res (option (string * Q * string * Q)) :=
  do u <- up;
  match result_of u with
  | None => Ok None
  | Some (ui, ud) =>
      do d <- down;
      match result_of d with
      | None => Ok None
      | Some (di, dd) => Ok (Some (ui, ud, di, dd))
      end
  end.
(* find-nodes.go:13-75; None is an error *)
Definition find_nodes (fuel : nat) (o : osm) (n : node) (dist : Q) : res (option (string * Q * string * Q)) :=
  match map w_nd (find_ways_by_node_id o (n_id n)) with
  | [] => Ok None
  | [nds] =>
      let index := match node_index_in_way nds (n_id n) with Some i => i | None => 0 end in
      both (go_direction fuel o nds index dist true) (go_direction fuel o nds index dist false)
  | [first; second] =>
      do f0 <- first_ref first;
      do fl <- last_ref first;
      do s0 <- first_ref second;
      do sl <- last_ref second;
      let go up_way down_way :=
        both (go_direction fuel o up_way (List.length up_way - 1) dist true) (go_direction fuel o down_way 0 dist false) in
      if String.eqb f0 (n_id n) && String.eqb sl (n_id n) then go second first
      else if String.eqb s0 (n_id n) && String.eqb fl (n_id n) then go first second
      else Ok None
  | _ => Ok None
  end.

(* find-closest-match.go:10-16 *)
Record pair_ : Type := mkpair { p1 : node; p2 : node; p_dist : Q; rem1 : Q; rem2 : Q }.
(* find-closest-match.go:54-58: sort.SliceStable *)
Fixpoint insert_pair (x : pair_) (l : list pair_) : list pair_ :=
  match l with
  | [] => [x]
  | y :: l' => if Qle_bool (p_dist x) (p_dist y) then x :: l else y :: insert_pair x l'
  end.
Definition sort_pairs (l : list pair_) : list pair_ := fold_right insert_pair [] l.

Definition Qabs_ (q : Q) : Q := if Qle_bool 0 q then q else (- q)%Q.

(* find-closest-match.go:21-64; None is an error.  The second pair holds downNode1
   where downNode2 is meant (line 50). *)
Definition find_closest_match (o : osm) (up1 up2 down1 down2 : string)
    (up_dist1 up_dist2 down_dist1 down_dist2 : Q) : option node :=
  match get_node_by_id o up1, get_node_by_id o up2, get_node_by_id o down1, get_node_by_id o down2 with
  | Some u1, Some u2, Some d1, Some d2 =>
      let pairs := [mkpair u1 u2 (hav u1 u2) up_dist1 up_dist2;
                    mkpair u1 d1 (hav u1 d2) up_dist1 down_dist2;
                    mkpair d1 u2 (hav d1 u2) down_dist1 up_dist2;
                    mkpair d1 d2 (hav d1 d2) down_dist1 down_dist2] in
      match sort_pairs pairs with
      | p :: _ => if Qle_bool (rem1 p) (rem2 p) then Some (p1 p) else Some (p2 p)
      | [] => None
      end
  | _, _, _, _ => None
  end.

(* find-new-node.go:12-41 *)
Inductive found : Type :=
| Found (n : node)
| Insufficient (id : string)      (* "insufficient anchor: " and the id *)
| NotRetrieved                    (* "failed to retrieve information ..." *)
| BareError.                      (* an error without a cause *)
Definition find_new_node (fuel : nat) (o : osm) (n1 n2 : node) (d1 d2 : Q) : res found :=
  if Qeq_bool d1 0 then Ok (Found n1)
  else
    do r1 <- find_nodes fuel o n1 d1;
    do r2 <- find_nodes fuel o n2 d2;
    match r1, r2 with
    | None, _ => Ok (Insufficient (n_id n1))
    | _, None => Ok (Insufficient (n_id n2))
    | Some (up1, ud1, down1, dd1), Some (up2, ud2, down2, dd2) =>
        if String.eqb up1 up2 || String.eqb up1 down2
        then Ok (match get_node_by_id o up1 with Some n => Found n | None => BareError end)
        else if String.eqb down1 up2 || String.eqb down1 down2
        then Ok (match get_node_by_id o down1 with Some n => Found n | None => BareError end)
        else Ok (match find_closest_match o up1 up2 down1 down2
                   (Qabs_ (ud1 - d1)) (Qabs_ (ud2 - d2)) (Qabs_ (dd1 - d1)) (Qabs_ (dd2 - d2)) with
                 | Some n => Found n | None => NotRetrieved end)
    end.

(* an anchor: a kilometrage and its nodes; a Go map has every key once *)
Definition anchors : Type := list (Q * list node).
(* find-nodes-toolbox.go:46-61: order is the order of the map *)
Fixpoint insert_anchor (km : Q) (x : Q * list node) (l : anchors) : anchors :=
  match l with
  | [] => [x]
  | y :: l' => if Qle_bool (Qabs_ (km - fst x)) (Qabs_ (km - fst y)) then x :: l else y :: insert_anchor km x l'
  end.
Definition sort_anchors (order : anchors) (km : Q) : anchors := fold_right (insert_anchor km) [] order.

(* the first node of an anchor with its distance: find-best-osm-node.go:24, 26 *)
Definition anchor_node (km : Q) (a : Q * list node) : res (node * Q) :=
  match snd a with n :: _ => Ok (n, Qabs_ (fst a - km)) | [] => Throw end.
(* find-best-osm-node.go:41-64; rest are the anchors that were not tried *)
Fixpoint try_anchors (fuel : nat) (o : osm) (km : Q) (a1 a2 : node * Q) (rest : anchors) (err : found) : res (option node) :=
  match err with
  | Found n => Ok (Some n)
  | BareError => match rest with [] => Ok None | _ => Throw end
  | _ =>
      match rest with
      | [] => Ok None
      | a :: rest =>
          do x <- anchor_node km a;
          let replace_first := match err with Insufficient id => String.eqb id (n_id (fst a1)) | _ => false end in
          let a1 := if replace_first then x else a1 in
          let a2 := if replace_first then a2 else x in
          do r <- find_new_node fuel o (fst a1) (fst a2) (snd a1) (snd a2);
          try_anchors fuel o km a1 a2 rest r
      end
  end.
(* find-best-osm-node.go:16-71; None is ErrNoSuitableAnchors *)
Definition find_best_osm_node (fuel : nat) (o : osm) (order : anchors) (km : Q) : res (option node) :=
  match sort_anchors order km with
  | b1 :: b2 :: rest =>
      do a1 <- anchor_node km b1;
      do a2 <- anchor_node km b2;
      do r <- find_new_node fuel o (fst a1) (fst a2) (snd a1) (snd a2);
      try_anchors fuel o km a1 a2 rest r
  | _ => Throw
  end.
End Find.
