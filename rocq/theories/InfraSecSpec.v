(* Specification vocabulary of the sections of the railway network *)
From Coq Require Import List Bool NArith QArith Qabs String.
From Verif Require Import Base TextModel InfraModel InfraSpec.
Import ListNotations.

(* those elements of a list that are on a run *)
Definition only (r : list node) (l : list nat) : list nat :=
  filter (fun i => existsb (Nat.eqb i) (map fst r)) l.
Definition id_of (g : graph) (n : snode) (i : nat) : Prop := rp_find (g_rp g) (sn_id n) = Some i.

(* META is not the type of any name in the input, see get_type *)
Definition no_meta (l : list xstation) : Prop :=
  forall s x n, section_at l s x -> In n (xs_track x) -> tn_type n <> META.

(* run as in drives_as_drawn *)
Record sections_as_drawn (l : list xstation) (g : graph) (run : nat -> bool -> list node) : Prop := {
  (* a section of the plan: from the device at its start to that at its end, each
     element once, and the elements a train meets in the order it meets them *)
  sw_section : forall s x, section_at l s x -> exists sc a b up down,
    nth_error (g_secs g) s = Some sc /\ sc_line sc = xs_line x /\
    (sc_length sc == Qabs (sn_km (xs_end x) - sn_km (xs_start x)))%Q /\
    id_of g (xs_start x) a /\ id_of g (xs_end x) b /\
    sc_rising sc = a :: up ++ [b] /\ sc_falling sc = b :: down ++ [a] /\
    NoDup (sc_rising sc) /\ NoDup (sc_falling sc) /\
    (forall i, In i up <-> exists d, In i (map fst (run s d))) /\
    (forall i, In i down <-> exists d, In i (map fst (run s d))) /\
    only (run s true) up = map fst (run s true) /\
    only (run s false) down = map fst (run s false);
  (* a border between two stations: one section, without length, of the two
     elements, rising from the section that ends there *)
  sw_border : forall p q n m ln, node_at l p n -> node_at l q m -> partners l p q -> snd p = true ->
    line_at l p ln -> exists k a b, id_of g n a /\ id_of g m b /\ (length (plan l) <= k)%nat /\
    nth_error (g_secs g) k = Some (mksec [a; b] [b; a] 0%Q ln) /\
    forall k' sc, nth_error (g_secs g) k' = Some sc -> (length (plan l) <= k')%nat ->
      In a (sc_rising sc) \/ In b (sc_rising sc) -> k' = k;
  (* there are no other sections *)
  sw_all : forall k sc, nth_error (g_secs g) k = Some sc -> (length (plan l) <= k)%nat ->
    exists p q n m ln a b, node_at l p n /\ node_at l q m /\ partners l p q /\ snd p = true /\
      line_at l p ln /\ id_of g n a /\ id_of g m b /\ sc = mksec [a; b] [b; a] 0%Q ln;
  (* every element knows the sections it is in *)
  sw_known : forall i e, nth_error (g_elems g) i = Some e -> NoDup (e_secs e) /\
    forall k, In k (e_secs e) <-> exists sc, nth_error (g_secs g) k = Some sc /\ In i (sc_rising sc) }.
