(* Model of counting the trains that were rejected while timetable files are read in parallel:
   include/soro/base/error.h, used by src/timetable/parsers/kss/parse_kss_timetable.cc:468-499, 555-594.
   KssModel counts an error in one step; here the lock and each access of the map are steps of their own.

   Simplifications
   - a std::error_code is its position in the order of std::error_code (category, then value)
   - a worker is the list of the errors of the trains it rejects; reading the trains does not touch the shared state
   - memory is sequentially consistent; this is sound as all accesses of the map are made under the lock (C132_alone)
   - the text of the report is the list of its lines *)
From Verif Require Import Base.

(* std::map<std::error_code, std::size_t>: ascending *)
Definition emap : Type := list (nat * N).
Fixpoint eget (c : nat) (m : emap) : option N :=
  match m with [] => None | (k, n) :: t => if Nat.eqb k c then Some n else eget c t end.
Fixpoint eput (c : nat) (n : N) (m : emap) : emap :=
  match m with
  | [] => [(c, n)]
  | (k, v) :: t => if Nat.ltb c k then (c, n) :: (k, v) :: t
                   else if Nat.eqb k c then (c, n) :: t else (k, v) :: eput c n t
  end.

(* where a worker is: error.h:24 lock_guard; :25 operator[] found or made the entry; it was read; it was written;
   the lock is released at the end of the block *)
Inductive place : Type := Out | Entered | Found | Loaded (n : N) | Stored.
Definition worker : Type := (place * list nat)%type.
Record estate : Type := mkes { es_workers : list worker; es_lock : option nat; es_map : emap }.

(* the next step of worker i; None if it has nothing to do or waits for the lock *)
Definition act (i : nat) (w : worker) (lk : option nat) (m : emap) : option (worker * option nat * emap) :=
  match w with
  | (_, []) => None
  | (Out, l) => match lk with None => Some ((Entered, l), Some i, m) | Some _ => None end
  | (Entered, c :: l) => Some ((Found, c :: l), lk, match eget c m with Some _ => m | None => eput c 0%N m end)
  | (Found, c :: l) => match eget c m with Some n => Some ((Loaded n, c :: l), lk, m) | None => None end
  | (Loaded n, c :: l) => Some ((Stored, c :: l), lk, eput c ((n + 1) mod 2 ^ 64)%N m)
  | (Stored, _ :: l) => Some ((Out, l), None, m)
  end.

(* utl::parallel_for_run (parse_kss_timetable.cc:575-578): any worker makes the next step *)
Inductive estep : estate -> estate -> Prop :=
| estep_at a w b lk m w' lk' m' :
    act (length a) w lk m = Some (w', lk', m') ->
    estep (mkes (a ++ w :: b) lk m) (mkes (a ++ w' :: b) lk' m').
Inductive esteps : nat -> estate -> estate -> Prop :=
| es_none s : esteps 0 s s
| es_more n s t u : esteps n s t -> estep t u -> esteps (S n) s u.

(* parse_kss_timetable.cc:555 and the start of the workers *)
Definition estart (files : list (list nat)) : estate := mkes (map (fun l => (Out, l)) files) None [].

(* error.h:28-37 *)
Inductive line : Type := Head | Count (c : nat) (n : N).
Definition report (m : emap) : list line :=
  match m with [] => [] | _ => Head :: map (fun e => Count (fst e) (snd e)) m end.
