(* Specification vocabulary of the railway network: what a track plan shows,
   independent of how the import works. *)
From Coq Require Import List Bool NArith QArith String Sorted Permutation.
From Verif Require Import Base TextModel InfraModel.
Import ListNotations.

(* all sections of a plan with the number of their station; a section is
   referred to by its position in this list *)
Definition plan (l : list xstation) : list (nat * xsection) :=
  concat (map (fun p => map (fun x => (fst p, x)) (st_sections (snd p)))
              (combine (seq 0 (length l)) l)).
Definition section_at (l : list xstation) (s : nat) (x : xsection) : Prop :=
  exists st, nth_error (plan l) s = Some (st, x).

(* a place is one of the two borders of a section: true its end, false its start *)
Definition place : Type := (nat * bool)%type.
Definition node_at (l : list xstation) (p : place) (n : snode) : Prop :=
  exists x, section_at l (fst p) x /\ n = (if snd p then xs_end x else xs_start x).
Definition line_at (l : list xstation) (p : place) (ln : N) : Prop :=
  exists x, section_at l (fst p) x /\ ln = xs_line x.
Definition station_at (l : list xstation) (p : place) (st : nat) : Prop :=
  exists x, nth_error (plan l) (fst p) = Some (st, x).

(* the part of a device at which a section is attached *)
Inductive part : Type :=
| Whole                    (* bumper, end of track, border of a station *)
| First | Second           (* change of kilometrage or line *)
| Toe | Stem | Branch      (* switch *)
| StartLeft | EndLeft | StartRight | EndRight (* crossing *).
Definition part_of (n : sname) : part :=
  match n with
  | N_BUMPER | N_TRACK_END | N_BORDER => Whole
  | N_KM_JUMP_START | N_LINE_SWITCH_ZERO => First
  | N_KM_JUMP_END | N_LINE_SWITCH_ONE => Second
  | N_SWITCH_START => Toe
  | N_SWITCH_STEM => Stem
  | N_SWITCH_BRANCH_LEFT | N_SWITCH_BRANCH_RIGHT => Branch
  | N_CROSS_START_LEFT | N_CROSS_SWITCH_START_LEFT => StartLeft
  | N_CROSS_END_LEFT | N_CROSS_SWITCH_END_LEFT => EndLeft
  | N_CROSS_START_RIGHT | N_CROSS_SWITCH_START_RIGHT => StartRight
  | N_CROSS_END_RIGHT | N_CROSS_SWITCH_END_RIGHT => EndRight
  end.
(* a device is named by the id of its first part *)
Definition leading (p : part) : bool :=
  match p with Whole | First | Toe | StartLeft => true | _ => false end.
Definition device (n : snode) : N :=
  if leading (part_of (sn_name n)) then sn_id n else sn_ref n.
(* the parts a device with the given leading part has *)
Definition other_parts (p : part) : list part :=
  match p with
  | First => [Second]
  | Toe => [Stem; Branch]
  | StartLeft => [EndLeft; StartRight; EndRight]
  | _ => []
  end.

(* the way straight on through a device *)
Definition straight (a b : part) : Prop :=
  match a, b with
  | First, Second | Second, First => True
  | Toe, Stem | Stem, Toe | Branch, Toe => True
  | StartLeft, EndLeft | EndLeft, StartLeft => True
  | StartRight, EndRight | EndRight, StartRight => True
  | _, _ => False
  end.
(* the diverging way: over a switch from its toe, over the arcs of a crossing
   with slip switches if the plan has them *)
Definition has_slip (n : snode) : Prop :=
  (sn_name n = N_CROSS_SWITCH_START_LEFT \/ sn_name n = N_CROSS_SWITCH_END_LEFT) /\
  sn_branch n = true.
Definition diverging (a b : snode) : Prop :=
  match part_of (sn_name a), part_of (sn_name b) with
  | Toe, Branch => True
  | StartLeft, EndRight => has_slip a
  | EndRight, StartLeft => has_slip b
  | EndLeft, StartRight => has_slip a
  | StartRight, EndLeft => has_slip b
  | _, _ => False
  end.

(* two borders that are the same point seen from two stations *)
Definition partners (l : list xstation) (p q : place) : Prop :=
  exists n m ln sp sq xp xq,
    node_at l p n /\ node_at l q m /\ sn_name n = N_BORDER /\ sn_name m = N_BORDER /\
    line_at l p ln /\ line_at l q ln /\ sn_sign n = sn_sign m /\
    station_at l p sp /\ station_at l q sq /\
    nth_error l sp = Some xp /\ nth_error l sq = Some xq /\
    sn_station n = st_ds100 xq /\ sn_station m = st_ds100 xp.

(* ---- plans that can be driven on ---- *)
Definition all_ids (l : list xstation) : list N :=
  concat (map (fun p => sn_id (xs_start (snd p)) :: sn_id (xs_end (snd p)) ::
                        map tn_id (xs_track (snd p))) (plan l)).
Definition apart (x y : Q) : Prop := (x == y \/ x + (1#100) <= y \/ y + (1#100) <= x)%Q.

Record well_drawn (l : list xstation) : Prop := {
  (* every node has its own id *)
  wd_ids : NoDup (all_ids l);
  wd_range : forall i, In i (all_ids l) -> (i < 2 ^ 64 - 1)%N;
  (* the other parts of a device refer to its leading part, which exists, and
     no part is attached twice *)
  wd_lead : forall p n, node_at l p n ->
    exists q m, node_at l q m /\ sn_id m = device n /\
                leading (part_of (sn_name m)) = true /\ stype (sn_name m) = stype (sn_name n);
  wd_once : forall p q n m, node_at l p n -> node_at l q m ->
    device n = device m -> part_of (sn_name n) = part_of (sn_name m) -> p = q;
  wd_parts : forall p n t, node_at l p n -> In t (other_parts (part_of (sn_name n))) ->
    exists q m, node_at l q m /\ device m = device n /\ part_of (sn_name m) = t;
  (* no section starts and ends at the same device *)
  wd_ends : forall s x, section_at l s x -> device (xs_start x) <> device (xs_end x);
  (* elements of a section are at the same place or a centimetre apart, and
     their ids differ in the lower 32 bits *)
  wd_apart : forall s x a b, section_at l s x -> In a (xs_track x) -> In b (xs_track x) ->
    apart (tn_km a) (tn_km b);
  wd_low_ids : forall s x, section_at l s x ->
    NoDup (map (fun n => (tn_id n mod 2 ^ 32)%N) (xs_track x));
  (* a line keeps its direction straight through a switch or a crossing, and
     from the branch of a switch to its toe *)
  wd_aligned : forall p q n m ln, node_at l p n -> node_at l q m -> device n = device m ->
    stype (sn_name n) = SIMPLE_SWITCH \/ stype (sn_name n) = CROSS ->
    straight (part_of (sn_name n)) (part_of (sn_name m)) ->
    line_at l p ln -> line_at l q ln -> snd p <> snd q;
  (* the kilometrage jumps from the end of one section to the start of the next *)
  wd_jump : forall p n, node_at l p n ->
    (sn_name n = N_KM_JUMP_START -> snd p = false) /\ (sn_name n = N_KM_JUMP_END -> snd p = true);
  (* stations have different names; a border to a station of the plan has
     exactly one partner, on the other side *)
  wd_names : NoDup (map st_ds100 l);
  wd_border : forall p n, node_at l p n -> sn_name n = N_BORDER ->
    In (sn_station n) (map st_ds100 l) ->
    exists q, partners l p q /\ snd q <> snd p /\ forall q', partners l p q' -> q' = q }.

(* ---- driving ---- *)
(* the elements of a section met in a direction, true: rising *)
Definition met (d : bool) (n : tnode) : bool :=
  is_undirected_track_element (tn_type n) ||
  (is_directed_track_element (tn_type n) && Bool.eqb (tn_rising n) d).
(* the order of elements at the same kilometrage *)
Definition ranks : list etype :=
  [TUNNEL; SLOPE; ENTRY; RUNTIME_CHECKPOINT_UNDIRECTED; RUNTIME_CHECKPOINT; HALT; MAIN_SIGNAL;
   APPROACH_SIGNAL; PROTECTION_SIGNAL; EOTD; LZB_START; LZB_BLOCK_SIGN; LZB_END; ETCS_START;
   ETCS_BLOCK_SIGN; ETCS_END; SPEED_LIMIT; FORCED_HALT; POINT_SPEED; BRAKE_PATH; TRACK_NAME;
   LEVEL_CROSSING; META].
Definition rank (t : etype) (k : nat) : Prop := nth_error ranks k = Some t.
Definition before (d : bool) (a b : tnode) : Prop :=
  (if d then tn_km a < tn_km b else tn_km b < tn_km a)%Q \/
  (tn_km a == tn_km b)%Q /\
  exists i j, rank (tn_type a) i /\ rank (tn_type b) j /\
  ((i < j)%nat \/ i = j /\ (tn_id a mod 2 ^ 32 < tn_id b mod 2 ^ 32)%N).
(* the track nodes of a section in the order a train meets them *)
Definition met_in_order (x : xsection) (d : bool) (ns : list tnode) : Prop :=
  Permutation ns (filter (met d) (xs_track x)) /\ StronglySorted (before d) ns.

(* the element made from a track node *)
Definition stands_for (g : graph) (n : tnode) (m : node) : Prop :=
  rp_find (g_rp g) (tn_id n) = Some (fst m) /\
  exists e, nth_error (g_elems g) (fst m) = Some e /\
            e_type e = tn_type n /\ (e_km e S0 == tn_km n)%Q.
Definition runs_over (g : graph) (x : xsection) (d : bool) (r : list node) : Prop :=
  exists ns, met_in_order x d ns /\
    match ns with
    | [] => exists m e, r = [m] /\ nth_error (g_elems g) (fst m) = Some e /\ e_type e = META /\
              e_km e S0 = sn_km (if d then xs_start x else xs_end x)
    | _ => Forall2 (stands_for g) ns r
    end.
Definition is_device (g : graph) (n : snode) (m : node) : Prop :=
  rp_find (g_rp g) (sn_id n) = Some (fst m) /\
  exists e, nth_error (g_elems g) (fst m) = Some e /\ e_type e = stype (sn_name n).

(* run s d: the nodes of section s in direction d; arrive s d: the node of the
   device it leads to *)
Record drives_as_drawn (l : list xstation) (g : graph) (ls : list links)
  (run : nat -> bool -> list node) (arrive : nat -> bool -> node) : Prop := {
  dr_run : forall s x d, section_at l s x -> runs_over g x d (run s d);
  dr_along : forall s x d k n, section_at l s x -> nth_error (run s d) k = Some n ->
    next_node ls n = Some (nth (S k) (run s d) (arrive s d)) /\ branch_node ls n = None;
  dr_arrive : forall p n, node_at l p n -> is_device g n (arrive (fst p) (snd p));
  (* seen from the section, the device stands where it is drawn *)
  dr_km : forall p n v, node_at l p n ->
    hd_error (rev (run (fst p) (snd p))) = Some v \/ hd_error (run (fst p) (negb (snd p))) = Some v ->
    exists e, nth_error (g_elems g) (fst (arrive (fst p) (snd p))) = Some e /\ get_km e (fst v) = Ok (sn_km n);
  dr_straight : forall p q n m, node_at l p n -> node_at l q m -> device n = device m ->
    straight (part_of (sn_name n)) (part_of (sn_name m)) ->
    next_node ls (arrive (fst p) (snd p)) = hd_error (run (fst q) (negb (snd q)));
  dr_diverge : forall p q n m, node_at l p n -> node_at l q m -> device n = device m ->
    diverging n m ->
    branch_node ls (arrive (fst p) (snd p)) = hd_error (run (fst q) (negb (snd q)));
  dr_no_diverge : forall p n, node_at l p n ->
    (forall q m, node_at l q m -> device n = device m -> ~ diverging n m) ->
    branch_node ls (arrive (fst p) (snd p)) = None;
  dr_stop : forall p n, node_at l p n -> sn_name n = N_BUMPER \/ sn_name n = N_TRACK_END ->
    next_node ls (arrive (fst p) (snd p)) = None;
  dr_border : forall p q n m, node_at l p n -> node_at l q m -> partners l p q ->
    exists b, is_device g m b /\ next_node ls (arrive (fst p) (snd p)) = Some b /\
              next_node ls b = hd_error (run (fst q) (negb (snd q))) /\ branch_node ls b = None;
  dr_edge : forall p n, node_at l p n -> sn_name n = N_BORDER ->
    ~ In (sn_station n) (map st_ds100 l) ->
    next_node ls (arrive (fst p) (snd p)) = None;
  (* from the end of a track, or a border, trains set out the other way *)
  dr_depart : forall p n, node_at l p n -> part_of (sn_name n) = Whole ->
    exists b, is_device g n b /\ b <> arrive (fst p) (snd p) /\
              next_node ls b = hd_error (run (fst p) (negb (snd p))) }.
