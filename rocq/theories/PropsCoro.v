(* C93, C94: generators that yield generators. *)
From Verif Require Import Base CoroModel CoroSpec CoroProofs.

(* C93.  Reading at most n + 1 values of a generator performs the actions and
   delivers the values of the program read as nested code, in its order, ends as the
   program ends (with the exception of the program, if any), never uses a destroyed
   coroutine and never resumes one that has ended; destroying the generator, at
   whatever value the loop was left, destroys every coroutine that is still
   suspended.  Missing: a yielded generator that fails before its first value. *)
Theorem C93_iteration_partial (A V E : Type) (b : prog A V E) (n : nat) : fails_late b ->
  exists N e s, reads (meant b) n (h_trace s) e /\ nothing_left s /\ forall fuel, N <= fuel -> iterate fuel b n = Ok (e, s).
Proof. intros H. rewrite <- (told_meant b H). apply iterate_reads. Qed.
Print Assumptions C93_iteration_partial.

(* Every program: the same, except that the exception of a yielded generator that
   has not delivered a value is lost and the program goes on behind it. *)
Theorem C93_every_program (A V E : Type) (b : prog A V E) (n : nat) :
  exists N e s, reads (told b) n (h_trace s) e /\ nothing_left s /\ forall fuel, N <= fuel -> iterate fuel b n = Ok (e, s).
Proof. apply iterate_reads. Qed.
Print Assumptions C93_every_program.

(* A yielded generator that fails before its first value looks like an empty one. *)
Theorem C93_swallowed_refuted :
  exists (b : prog nat nat nat), snd (meant b) = Some 4 /\ fst (meant b) = [inr 1] /\
    forall n, exists N s, values (h_trace s) = firstn (S n) [1; 2] /\ forall fuel, N <= fuel ->
      iterate fuel b n = Ok (if Nat.leb 2 n then ran_out else left_early, s).
Proof.
  exists (p_yield 1 (p_sub (p_throw 4) (p_yield 2 p_end) p_throw)). split; [reflexivity|]. split; [reflexivity|]. intros n.
  destruct (iterate_reads (p_yield 1 (p_sub (p_throw 4) (p_yield 2 p_end) p_throw) : prog nat nat nat) n) as (N & e & s & R & _ & H).
  exists N, s. split; [rewrite (reads_values _ _ _ _ R); reflexivity|]. intros fuel L. rewrite (H fuel L). clear - R.
  destruct R as [(R1 & _ & ->)|(R1 & _ & ->)]; cbn in R1.
  - destruct (Nat.leb_spec 2 n); [reflexivity|lia].
  - destruct (Nat.leb_spec 2 n); [lia|reflexivity].
Qed.
Print Assumptions C93_swallowed_refuted.

(* C94.  Mapping a function over a generator and collecting the results gives the
   function of every value, in order, and reads the generator as a loop does; no
   coroutine is left.  Missing: generators that fail. *)
Theorem C94_collected_partial (A V E W : Type) (fn : V -> W) (b : prog A V E) (n : nat) : fails_late b -> snd (meant b) = None ->
  exists N e s, reads (meant b) n (h_trace s) e /\ nothing_left s /\
    forall fuel, N <= fuel -> collect_mapped fn fuel b n = Ok (map fn (firstn (S n) (values (fst (meant b)))), s).
Proof. intros H _. rewrite <- (told_meant b H). apply collect_reads. Qed.
Print Assumptions C94_collected_partial.

(* In particular: all of it, with a large enough n. *)
Theorem C94_all_of_it_partial (A V E W : Type) (fn : V -> W) (b : prog A V E) : fails_late b -> snd (meant b) = None ->
  forall n, length (values (fst (meant b))) <= n ->
  exists N s, h_trace s = fst (meant b) /\ nothing_left s /\
    forall fuel, N <= fuel -> collect_mapped fn fuel b n = Ok (map fn (values (fst (meant b))), s).
Proof.
  intros H Q n L. destruct (C94_collected_partial A V E W fn b n H Q) as (N & e & s & R & Nl & Hf). exists N, s.
  destruct R as [(_ & R & _)|(R & _)]; [|lia]. split; [exact R|]. split; [exact Nl|]. intros fuel Lf. rewrite (Hf fuel Lf), firstn_all2 by lia. reflexivity.
Qed.
Print Assumptions C94_all_of_it_partial.

(* The exception of a generator that fails is forgotten: the caller gets the
   results so far as if the generator had run out. *)
Theorem C94_forgotten_refuted (A V E W : Type) (fn : V -> W) (b : prog A V E) (e : E) : fails_late b -> snd (meant b) = Some e ->
  forall n, exists N s, forall fuel, N <= fuel -> collect_mapped fn fuel b n = Ok (map fn (firstn (S n) (values (fst (meant b)))), s).
Proof.
  intros H _ n. destruct (collect_reads fn b n) as (N & e' & s & _ & _ & Hf). exists N, s. intros fuel L. rewrite (Hf fuel L), (told_meant b H). reflexivity.
Qed.
Print Assumptions C94_forgotten_refuted.

(* ---- a concrete case ---- *)
Module CoroExample.
  (* a train: two routes with an empty one between, an action, a route that fails
     after its first node; the failure is passed on *)
  Definition route (l : list nat) (last : prog nat nat nat) : prog nat nat nat := fold_right p_yield last l.
  Definition train : prog nat nat nat :=
    p_sub (p_sub (route [1; 2] p_end) (p_do 7 p_end) p_throw)
      (p_sub (p_sub p_end p_end p_throw)
         (p_yield 3 (p_sub (p_do 8 (route [4] (p_throw 9))) (p_yield 5 p_end) p_throw)) p_throw) p_throw.
  Example hypothesis : fails_late train.
  Proof. cbn. repeat split; auto; discriminate. Qed.
  Example meaning : meant train = ([inr 1; inr 2; inl 7; inr 3; inl 8; inr 4], Some 9).
  Proof. reflexivity. Qed.
  Example read_all : match iterate 10 train 9 with Ok (e, s) => e = failed 9 /\ h_trace s = fst (meant train) /\ map (h_cells s) [0; 1; 2; 3] = repeat None 4 | _ => False end.
  Proof. vm_compute. auto. Qed.
  Example left_at_2 : match iterate 10 train 1 with Ok (e, s) => e = left_early /\ h_trace s = [inr 1; inr 2] /\ map (h_cells s) [0; 1; 2; 3] = repeat None 4 | _ => False end.
  Proof. vm_compute. auto. Qed.

  Definition good : prog nat nat nat := p_sub (route [1; 2] p_end) (p_do 7 (route [3] p_end)) p_throw.
  Example good_hypothesis : fails_late good /\ snd (meant good) = None /\ length (values (fst (meant good))) <= 5.
  Proof. cbn. repeat split; auto; try discriminate; lia. Qed.
  Example good_collected : match collect_mapped S 10 good 5 with Ok (l, s) => l = [2; 3; 4] /\ h_trace s = [inr 1; inr 2; inl 7; inr 3] | _ => False end.
  Proof. vm_compute. auto. Qed.
  Example forgotten : match collect_mapped S 10 train 9 with Ok (l, _) => l = [2; 3; 4; 5] | _ => False end.
  Proof. vm_compute. auto. Qed.
End CoroExample.
