(* Model of the generators: include/soro/utls/coroutine/recursive_generator.h,
   generator.h, coro_map.h, collect.h.

   A coroutine is a program that performs actions, yields values and whole
   generators, ends or throws.  Its frame is where it is suspended.  Promises live
   in a heap, are pointed to by their numbers and are removed when their frame is
   destroyed; using a removed promise or resuming a coroutine that has ended or is
   running is UB.

   Simplifications
   - an exception is a value of E; what the program does on an exception that
     comes out of a yielded generator is part of the program
   - a yielded generator is a temporary, as everywhere in the code base: it is
     created by the expression that yields it and destroyed with it
   - the pointer to the yielded value is the value: a yielded object lives in the
     frame until the coroutine is resumed
   - actions only leave a trace; state a program keeps is part of the program
   - moved-from and default constructed generators (no promise) are left out *)
From Verif Require Import Base.

Section Coro.
  Variables A V E : Type.   (* actions, values, exceptions *)

  Inductive prog : Type :=
  | p_end
  | p_throw (e : E)
  | p_do (a : A) (k : prog)
  | p_yield (v : V) (k : prog)
  | p_sub (g : prog) (k : prog) (h : E -> prog).   (* try { co_yield g; } catch: h; then k *)

  Inductive frame : Type :=
  | f_start (b : prog)                         (* recursive_generator.h:38 initial_suspend *)
  | f_running
  | f_yielded (k : prog)                       (* :47-55 *)
  | f_await (c : nat) (k : prog) (h : E -> prog)   (* :61-93 *)
  | f_done.                                    (* :39 final_suspend *)

  (* recursive_generator.h:28-31,144-153 *)
  Record promise : Type := mk_promise {
    pr_frame : frame;
    pr_value : option V;
    pr_exc : option E;
    pr_root : nat;
    pr_pol : nat }.           (* m_parentOrLeaf *)
  Definition with_frame (f : frame) (p : promise) : promise := mk_promise f (pr_value p) (pr_exc p) (pr_root p) (pr_pol p).
  Definition with_value (v : V) (p : promise) : promise := mk_promise (pr_frame p) (Some v) (pr_exc p) (pr_root p) (pr_pol p).
  Definition with_exc (e : E) (p : promise) : promise := mk_promise (pr_frame p) (pr_value p) (Some e) (pr_root p) (pr_pol p).
  Definition with_root (r : nat) (p : promise) : promise := mk_promise (pr_frame p) (pr_value p) (pr_exc p) r (pr_pol p).
  Definition with_pol (l : nat) (p : promise) : promise := mk_promise (pr_frame p) (pr_value p) (pr_exc p) (pr_root p) l.

  Definition event : Type := (A + V)%type.
  Record heap : Type := mk_heap {
    h_next : nat;
    h_cells : nat -> option promise;
    h_trace : list event }.
  Definition get (s : heap) (p : nat) : res promise := match h_cells s p with Some c => Ok c | None => UB end.
  Definition put (s : heap) (p : nat) (o : option promise) : heap :=
    mk_heap (h_next s) (fun n => if Nat.eqb n p then o else h_cells s n) (h_trace s).
  Definition upd (s : heap) (p : nat) (f : promise -> promise) : res heap := do c <- get s p; Ok (put s p (Some (f c))).
  Definition emit (s : heap) (x : event) : heap := mk_heap (h_next s) (h_cells s) (h_trace s ++ [x]).
  (* recursive_generator.h:108-110,165-169: destruction of a generator whose coroutine is at an end *)
  Definition free (s : heap) (p : nat) : res heap := do _ <- get s p; Ok (put s p None).

  (* recursive_generator.h:118-120 *)
  Definition is_complete (c : promise) : bool := match pr_frame c with f_done => true | _ => false end.

  (* recursive_generator.h:27-31,35: a call of a coroutine *)
  Definition create (s : heap) (b : prog) : nat * heap :=
    let c := h_next s in
    (c, mk_heap (S c) (fun n => if Nat.eqb n c then Some (mk_promise (f_start b) None None c c) else h_cells s n) (h_trace s)).

  (* the body of the coroutine p from b on until it is suspended.
     recursive_generator.h:41-104; the generator yielded runs inside (:90) *)
  Fixpoint run (p : nat) (b : prog) (s : heap) : res heap :=
    match b with
    | p_end => upd s p (with_frame f_done)
    | p_throw e => do s <- upd s p (with_exc e); upd s p (with_frame f_done)          (* :41-43 *)
    | p_do a k => run p k (emit s (inl a))
    | p_yield v k => do s <- upd s p (with_value v); upd s p (with_frame (f_yielded k))   (* :47-55 *)
    | p_sub g k h =>
        let cs := create s g in
        let c := fst cs in
        do pc <- get (snd cs) p;
        do s <- upd (snd cs) (pr_root pc) (with_pol c);       (* :87 *)
        do s <- upd s c (with_root (pr_root pc));             (* :88 *)
        do s <- upd s c (with_pol p);                         (* :89 *)
        do s <- upd s c (with_frame f_running);
        do s <- run c g s;                                    (* :90 *)
        do cc <- get s c;
        if is_complete cc
        then do pc <- get s p;
             do s <- upd s (pr_root pc) (with_pol p);         (* :96 *)
             do s <- free s c;
             run p k s                                        (* :99, :68,72-76 with no child *)
        else upd s p (with_frame (f_await c k h))             (* :92-94 *)
    end.

  (* recursive_generator.h:143-145; :72-76 on the way back from a yielded generator *)
  Definition resume (p : nat) (s : heap) : res heap :=
    do pc <- get s p;
    match pr_frame pc with
    | f_start b | f_yielded b => do s <- upd s p (with_frame f_running); run p b s
    | f_await c k h =>
        do cc <- get s c;
        do s <- upd s p (with_frame f_running);
        do s <- free s c;
        run p (match pr_exc cc with None => k | Some e => h e end) s
    | f_running | f_done => UB
    end.

  (* recursive_generator.h:135-138 *)
  Fixpoint pull_loop (fuel : nat) (r : nat) (s : heap) : res heap :=
    match fuel with
    | 0 => Fuel
    | S fuel =>
        do rc <- get s r;
        if Nat.eqb (pr_pol rc) r then Ok s
        else do lc <- get s (pr_pol rc);
             if is_complete lc
             then do s <- upd s r (with_pol (pr_pol lc));
                  do s <- resume (pr_pol lc) s;
                  pull_loop fuel r s
             else Ok s
    end.
  (* recursive_generator.h:128-139 *)
  Definition pull (fuel : nat) (r : nat) (s : heap) : res heap :=
    do rc <- get s r;
    do s <- resume (pr_pol rc) s;
    pull_loop fuel r s.

  (* what begin() and operator++ deliver: an iterator to a value, the end, or an
     exception *)
  Inductive position : Type := at_value | at_end | thrown (e : E).

  (* recursive_generator.h:211-220,236-247 *)
  Definition advance (fuel : nat) (r : nat) (s : heap) : res (position * heap) :=
    do s <- pull fuel r s;
    do rc <- get s r;
    Ok (if is_complete rc then match pr_exc rc with Some e => thrown e | None => at_end end else at_value, s).

  (* recursive_generator.h:122-126 *)
  Definition value (r : nat) (s : heap) : res V :=
    do rc <- get s r;
    do lc <- get s (pr_pol rc);
    match pr_value lc with Some v => Ok v | None => UB end.

  (* recursive_generator.h:106-108,165-169: a suspended frame is destroyed with the
     generator it waits for *)
  Fixpoint destroy (fuel : nat) (p : nat) (s : heap) : res heap :=
    match fuel with
    | 0 => Fuel
    | S fuel =>
        do pc <- get s p;
        do s <- match pr_frame pc with f_await c _ _ => destroy fuel c s | _ => Ok s end;
        free s p
    end.

  (* ---- for (auto&& v : generator) ..., left by break after n + 1 values ---- *)
  Inductive ending : Type := left_early | ran_out | failed (e : E).
  Fixpoint for_loop (fuel : nat) (r : nat) (n : nat) (pos : position) (s : heap) : res (ending * heap) :=
    match pos with
    | at_end => Ok (ran_out, s)
    | thrown e => Ok (failed e, s)
    | at_value =>
        do v <- value r s;
        let s := emit s (inr v) in
        match n with
        | 0 => Ok (left_early, s)
        | S n => do ' (pos, s) <- advance fuel r s; for_loop fuel r n pos s
        end
    end.
  Definition empty_heap : heap := mk_heap 0 (fun _ => None) [].
  Definition iterate (fuel : nat) (b : prog) (n : nat) : res (ending * heap) :=
    let rs := create empty_heap b in
    do ' (pos, s) <- advance fuel (fst rs) (snd rs);
    do ' (e, s) <- for_loop fuel (fst rs) n pos s;
    do s <- destroy fuel (fst rs) s;
    Ok (e, s).

  (* ---- the values of a generator through a function, collected ---- *)
  Variable W : Type.
  Variable fn : V -> W.
  (* coro_map.h:8-14 in a generator: it runs until the first value when it is
     created and forgets an exception (generator.h:40-47,64-65); collect.h:5-14,
     left after n + 1 values *)
  Fixpoint map_loop (fuel : nat) (r : nat) (n : nat) (pos : position) (out : list W) (s : heap) : res (list W * heap) :=
    match pos with
    | at_end | thrown _ => Ok (out, s)
    | at_value =>
        do v <- value r s;
        let s := emit s (inr v) in
        match n with
        | 0 => Ok (out ++ [fn v], s)
        | S n => do ' (pos, s) <- advance fuel r s; map_loop fuel r n pos (out ++ [fn v]) s
        end
    end.
  Definition collect_mapped (fuel : nat) (b : prog) (n : nat) : res (list W * heap) :=
    let rs := create empty_heap b in
    do ' (pos, s) <- advance fuel (fst rs) (snd rs);
    do ' (out, s) <- map_loop fuel (fst rs) n pos [] s;
    do s <- destroy fuel (fst rs) s;
    Ok (out, s).
End Coro.
Arguments p_end {A V E}.
Arguments p_throw {A V E} e.
Arguments p_do {A V E} a k.
Arguments p_yield {A V E} v k.
Arguments p_sub {A V E} g k h.
Arguments left_early {E}.
Arguments ran_out {E}.
Arguments failed {E} e.
Arguments at_value {E}.
Arguments at_end {E}.
Arguments thrown {E} e.
Arguments iterate {A V E} fuel b n.
Arguments collect_mapped {A V E W} fn fuel b n.
Arguments h_trace {A V E} h.
Arguments h_cells {A V E} h.
Arguments h_next {A V E} h.
