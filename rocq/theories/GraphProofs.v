(* Proofs about has_cycle and the graph traversal. *)
From Verif Require Import Base GraphModel.
From Coq Require Import Permutation.

(* ------------------------------------------------------------------ *)
(* graphs                                                              *)

Definition edge (nbrs : nat -> list nat) (a b : nat) : Prop := In b (nbrs a).

(* a walk of at least one edge *)
Inductive walk (nbrs : nat -> list nat) : nat -> nat -> Prop :=
| walk_one a b : edge nbrs a b -> walk nbrs a b
| walk_step a b c : edge nbrs a b -> walk nbrs b c -> walk nbrs a c.

Lemma walk_trans nbrs a b c : walk nbrs a b -> walk nbrs b c -> walk nbrs a c.
Proof.
  induction 1 as [a b E|a b x E W IH]; intros V.
  - eapply walk_step; eassumption.
  - eapply walk_step; [exact E|]. apply IH, V.
Qed.

Lemma walk_snoc nbrs a b c : walk nbrs a b -> edge nbrs b c -> walk nbrs a c.
Proof. intros W E. eapply walk_trans; [exact W|]. apply walk_one, E. Qed.

Definition in_range (nbrs : nat -> list nat) (n : nat) : Prop :=
  forall a b, a < n -> edge nbrs a b -> b < n.

Lemma walk_range nbrs n a b : in_range nbrs n -> a < n -> walk nbrs a b -> b < n.
Proof.
  intros R L W. induction W as [a b E|a b x E W IH].
  - exact (R a b L E).
  - apply IH. exact (R a b L E).
Qed.

(* ------------------------------------------------------------------ *)
(* has_cycle                                                           *)

Section HC.
  Variable nbrs : nat -> list nat.
  Variable size : nat.
  Hypothesis R : in_range nbrs size.

  Definition unvis (vis : nat -> bool) : nat := length (filter (fun i => negb (vis i)) (seq 0 size)).

  Lemma filter_le {A} (f g : A -> bool) l : (forall x, In x l -> f x = true -> g x = true) ->
    length (filter f l) <= length (filter g l).
  Proof.
    induction l as [|a l IH]; cbn; intros H; [lia|].
    assert (length (filter f l) <= length (filter g l)) by (apply IH; intros x Hx; apply H; right; exact Hx).
    destruct (f a) eqn:E; destruct (g a) eqn:E'; cbn; try lia.
    rewrite H in E'; [discriminate|left; reflexivity|exact E].
  Qed.

  Lemma filter_lt {A} (f g : A -> bool) l a : (forall x, In x l -> f x = true -> g x = true) ->
    In a l -> f a = false -> g a = true -> length (filter f l) < length (filter g l).
  Proof.
    induction l as [|b l IH]; cbn; intros H Ha Fa Ga; [destruct Ha|].
    assert (L : length (filter f l) <= length (filter g l))
      by (apply filter_le; intros x Hx; apply H; right; exact Hx).
    destruct Ha as [->|Ha].
    - rewrite Fa, Ga. cbn. lia.
    - assert (length (filter f l) < length (filter g l))
        by (apply IH; [intros x Hx; apply H; right; exact Hx|assumption..]).
      destruct (f b) eqn:E; destruct (g b) eqn:E'; cbn; try lia.
      rewrite H in E'; [discriminate|left; reflexivity|exact E].
  Qed.

  (* well-foundedness of the successor relation from x *)
  Definition wf (x : nat) : Prop := Acc (fun b a => edge nbrs a b) x.

  Record inv (m : marks) : Prop := {
    inv_fv : forall x, snd m x = true -> fst m x = true;
    inv_wf : forall x, snd m x = true -> wf x }.

  Definition grey (m : marks) (x : nat) : Prop := fst m x = true /\ snd m x = false.

  (* what a call returning r promises, started in m for the nodes ns *)
  Definition post (ns : list nat) (m : marks) (r : bool * marks) : Prop :=
    if fst r then exists x, x < size /\ walk nbrs x x
    else inv (snd r) /\ (forall x, In x ns -> snd (snd r) x = true) /\
         (forall x, fst m x = true -> fst (snd r) x = true) /\
         (forall x, snd m x = true -> snd (snd r) x = true) /\
         (forall x, grey m x <-> grey (snd r) x).

  Lemma nb_loop_ok rec ns : forall m,
    inv m -> 
    (forall x m', In x ns -> inv m' -> (forall y, fst m y = true -> fst m' y = true) ->
       (forall y, grey m y <-> grey m' y) ->
       exists r, rec x m' = Ok r /\ post [x] m' r) ->
    exists r, nb_loop rec ns m = Ok r /\ post ns m r.
  Proof.
    induction ns as [|x ns IH]; intros m I H; cbn [nb_loop].
    - exists (false, m). split; [reflexivity|]. unfold post. cbn [fst snd].
      split; [exact I|]. split; [intros ? []|]. split; [tauto|]. split; [tauto|]. intros; reflexivity.
    - destruct (H x m (or_introl eq_refl) I) as [[b m1] [E P]]; [tauto|intros; reflexivity|].
      rewrite E. cbn [bind fst snd]. unfold post in P. cbn [fst snd] in P. destruct b.
      + exists (true, m1). split; [reflexivity|]. exact P.
      + destruct P as [I1 [X1 [V1 [F1 G1]]]].
        destruct (IH m1 I1) as [[b2 m2] [E2 P2]].
        { intros y m' Hy Im Vm Gm. apply H; [right; exact Hy|exact Im| |].
          - intros z Hz. apply Vm, V1, Hz.
          - intros z. rewrite G1. apply Gm. }
        exists (b2, m2). split; [exact E2|]. unfold post in P2 |- *. cbn [fst snd] in *.
        destruct b2; [exact P2|]. destruct P2 as [I2 [X2 [V2 [F2 G2]]]].
        split; [exact I2|]. split; [|split; [|split]].
        * intros y [<-|Hy]; [apply F2, X1; left; reflexivity|apply X2, Hy].
        * intros y Hy. apply V2, V1, Hy.
        * intros y Hy. apply F2, F1, Hy.
        * intros y. rewrite G1. apply G2.
  Qed.

  Lemma detect_ok fuel : forall n m,
    n < size -> inv m -> unvis (fst m) < fuel ->
    (forall x, grey m x -> walk nbrs x n) ->
    exists r, detect nbrs fuel n m = Ok r /\ post [n] m r.
  Proof.
    induction fuel as [|fuel IH]; intros n m L I Fu G; [lia|]. cbn [detect].
    destruct (snd m n) eqn:Fn.
    - exists (false, m). split; [reflexivity|]. unfold post. cbn [fst snd].
      split; [exact I|]. split; [intros x [<-|[]]; exact Fn|]. split; [tauto|]. split; [tauto|].
      intros; reflexivity.
    - destruct (fst m n) eqn:Vn.
      + exists (true, m). split; [reflexivity|]. unfold post. cbn [fst]. exists n. split; [exact L|]. apply G. split; assumption.
      + set (m1 := (upd (fst m) n true, snd m) : marks).
        assert (I1 : inv m1).
        { destruct I as [I1 I2]. constructor; cbn [m1 fst snd]; [|exact I2].
          intros x Hx. unfold upd. destruct (Nat.eqb x n); [reflexivity|]. apply I1, Hx. }
        assert (U1 : unvis (fst m1) < unvis (fst m)).
        { unfold unvis. apply (filter_lt _ _ _ n).
          - intros x _. cbn [m1 fst]. unfold upd. destruct (Nat.eqb x n); [discriminate|tauto].
          - apply in_seq. lia.
          - cbn [m1 fst]. unfold upd. rewrite Nat.eqb_refl. reflexivity.
          - rewrite Vn. reflexivity. }
        assert (G1 : forall x, grey m1 x <-> grey m x \/ x = n).
        { intros x. unfold grey. cbn [m1 fst snd]. unfold upd.
          destruct (Nat.eqb_spec x n) as [->|Ne].
          - rewrite Fn. tauto.
          - split; [tauto|]. intros [H|H]; [exact H|contradiction]. }
        destruct (nb_loop_ok (detect nbrs fuel) (nbrs n) m1 I1) as [[b m2] [E P]].
        { intros x m' Hx Im Vm Gm. apply IH; [exact (R n x L Hx)|exact Im| |].
          - assert (unvis (fst m') <= unvis (fst m1)).
            { unfold unvis. apply filter_le. intros y _ Hy. destruct (fst m1 y) eqn:Z; [|reflexivity].
              apply Vm in Z. rewrite Z in Hy. discriminate. }
            lia.
          - intros y Hy. apply Gm, G1 in Hy. destruct Hy as [Hy| ->].
            + eapply walk_snoc; [apply G, Hy|exact Hx].
            + apply walk_one, Hx. }
        rewrite E. cbn [bind fst snd]. unfold post in P. cbn [fst snd] in P. destruct b.
        * exists (true, m2). split; [reflexivity|exact P].
        * destruct P as [I2 [X2 [V2 [F2 G2]]]].
          exists (false, (fst m2, upd (snd m2) n true)). split; [reflexivity|].
          unfold post. cbn [fst snd].
          assert (Vn2 : fst m2 n = true)
            by (apply V2; cbn [m1 fst]; unfold upd; rewrite Nat.eqb_refl; reflexivity).
          split; [|split; [|split; [|split]]].
          -- destruct I2 as [J1 J2]. constructor; cbn [fst snd]; intros x; unfold upd;
               destruct (Nat.eqb_spec x n) as [->|Ne]; intros Hx; auto.
             constructor. intros y Hy. apply J2, X2, Hy.
          -- intros x [<-|[]]. unfold upd. rewrite Nat.eqb_refl. reflexivity.
          -- intros x Hx. apply V2. cbn [m1 fst]. unfold upd. destruct (Nat.eqb x n); [reflexivity|exact Hx].
          -- intros x Hx. unfold upd. destruct (Nat.eqb x n); [reflexivity|]. apply F2, Hx.
          -- intros x. pose proof (G1 x) as A. pose proof (G2 x) as B. unfold grey in *. cbn [fst snd] in *.
             unfold upd. destruct (Nat.eqb_spec x n) as [->|Ne].
             ++ rewrite Vn. split; intros [? ?]; congruence.
             ++ split.
                ** intros Hx. apply B, A. left. exact Hx.
                ** intros Hx. apply B, A in Hx. destruct Hx as [Hx|Hx]; [exact Hx|contradiction].
  Qed.

  Lemma wf_no_walk x : wf x -> ~ walk nbrs x x.
  Proof.
    intros A. induction A as [x _ IH]. intros W.
    assert (exists y, edge nbrs x y /\ walk nbrs y y) as [y [E Wy]].
    { inversion W as [a b E|a b c E V]; subst.
      - exists x. split; [exact E|exact W].
      - exists b. split; [exact E|]. eapply walk_snoc; [exact V|exact E]. }
    exact (IH y E Wy).
  Qed.

  Lemma filter_length {A} (f : A -> bool) l : length (filter f l) <= length l.
  Proof. induction l as [|a l IH]; cbn; [lia|]. destruct (f a); cbn; lia. Qed.

  Lemma has_cycle_ok : exists b, has_cycle nbrs size = Ok b /\
    (b = true -> exists x, x < size /\ walk nbrs x x) /\
    (b = false -> forall x, x < size -> wf x).
  Proof.
    unfold has_cycle.
    destruct (nb_loop_ok (detect nbrs (S size)) (seq 0 size) (fun _ => false, fun _ => false)) as [[b m] [E P]].
    - constructor; cbn; discriminate.
    - intros x m' Hx Im Vm Gm. apply detect_ok; [apply in_seq in Hx; lia|exact Im| |].
      + unfold unvis. pose proof (filter_length (fun i => negb (fst m' i)) (seq 0 size)) as H.
        rewrite seq_length in H. lia.
      + intros y Hy. apply Gm in Hy. destruct Hy as [Hy _]. discriminate.
    - rewrite E. cbn [bind fst snd]. unfold post in P. cbn [fst snd] in P. destruct b.
      + cbn [orb sassert bind]. exists true. split; [reflexivity|]. split; [intros _; exact P|discriminate].
      + destruct P as [I [X _]]. destruct m as [vis fin]; cbn [fst snd] in *.
        assert (forallb vis (seq 0 size) && forallb fin (seq 0 size) = true) as ->.
        { apply andb_true_iff. split; apply forallb_forall; intros x Hx; [apply (inv_fv _ I)|]; apply X, Hx. }
        cbn [orb sassert bind]. exists false. split; [reflexivity|]. split; [discriminate|].
        intros _ x Hx. apply (inv_wf _ I), X, in_seq. lia.
  Qed.
End HC.

(* ------------------------------------------------------------------ *)
(* traversal: events                                                   *)

(* the calls a traversal makes *)
Inductive event : Type :=
| NodeEv (to from : nat)       (* work_on_node(to, from) *)
| EdgeEv (from to : nat).      (* work_on_edge(from, to) *)

Section Run.
  Context {St : Type}.
  Variables wn we : St -> nat -> nat -> St * bool.

  (* perform the calls in order until one returns true *)
  Fixpoint run (evs : list event) (s : St) : bool * St :=
    match evs with
    | [] => (false, s)
    | e :: evs =>
        let (s', stop) := match e with NodeEv a b => wn s a b | EdgeEv a b => we s a b end in
        if stop then (true, s') else run evs s'
    end.

  Lemma run_app e1 : forall e2 s, run (e1 ++ e2) s =
    let (b, s') := run e1 s in if b then (true, s') else run e2 s'.
  Proof.
    induction e1 as [|e e1 IH]; intros e2 s; [reflexivity|]. cbn [app run].
    destruct (match e with NodeEv a b => wn s a b | EdgeEv a b => we s a b end) as [s' [|]]; [reflexivity|].
    apply IH.
  Qed.
End Run.

(* the neighbours that are pushed while cur is processed, in order *)
Fixpoint fresh (ns : list nat) (seen : list nat) : list nat :=
  match ns with
  | [] => []
  | x :: ns => if in_dec Nat.eq_dec x seen then fresh ns seen else x :: fresh ns (x :: seen)
  end.

Definition pushes (is_bfs : bool) (q : list (nat * nat)) (l : list (nat * nat)) : list (nat * nat) :=
  if is_bfs then q ++ l else rev l ++ q.

(* the calls made while node c, found from p, is processed *)
Definition visit (nbrs : nat -> list nat) (start c p : nat) : list event :=
  (if Nat.eqb c start then [] else [NodeEv c p]) ++ map (EdgeEv c) (nbrs c).

(* the nodes taken from the container, in order *)
Fixpoint pops (is_bfs : bool) (nbrs : nat -> list nat) (fuel : nat) (q : list (nat * nat)) (seen : list nat)
  : option (list (nat * nat)) :=
  match q with
  | [] => Some []
  | (c, p) :: q =>
      match fuel with
      | O => None
      | S fuel =>
          match pops is_bfs nbrs fuel
                  (pushes is_bfs q (map (fun x => (x, c)) (fresh (nbrs c) seen)))
                  (rev (fresh (nbrs c) seen) ++ seen) with
          | Some l => Some ((c, p) :: l)
          | None => None
          end
      end
  end.

Definition trace (nbrs : nat -> list nat) (start : nat) (l : list (nat * nat)) : list event :=
  flat_map (fun cp => visit nbrs start (fst cp) (snd cp)) l.

Section Fusion.
  Context {St : Type}.
  Variables wn we : St -> nat -> nat -> St * bool.
  Variable is_bfs : bool.
  Variable nbrs : nat -> list nat.
  Variable start : nat.

  Lemma edge_loop_run cur ns : forall q seen s,
    let r := edge_loop St is_bfs we cur ns q seen s in
    fst (fst (fst r)) = fst (run wn we (map (EdgeEv cur) ns) s) /\
    snd r = snd (run wn we (map (EdgeEv cur) ns) s) /\
    (fst (fst (fst r)) = false ->
       snd (fst (fst r)) = pushes is_bfs q (map (fun x => (x, cur)) (fresh ns seen)) /\
       snd (fst r) = rev (fresh ns seen) ++ seen).
  Proof.
    induction ns as [|x ns IH]; intros q seen s; cbn [edge_loop map run fresh].
    - cbn [fst snd]. split; [reflexivity|]. split; [reflexivity|]. intros _. split; [|reflexivity].
      unfold pushes. destruct is_bfs; [|reflexivity]. symmetry. apply app_nil_r.
    - destruct (we s cur x) as [s1 [|]]; cbn [fst snd].
      + split; [reflexivity|]. split; [reflexivity|discriminate].
      + destruct (in_dec Nat.eq_dec x seen) as [I|I].
        * apply IH.
        * specialize (IH (push is_bfs q (x, cur)) (x :: seen) s1). cbn zeta in IH.
          destruct IH as [A [B C]]. split; [exact A|]. split; [exact B|]. intros F. destruct (C F) as [C1 C2].
          rewrite C1, C2. cbn [map rev]. split.
          -- unfold pushes, push. destruct is_bfs.
             ++ rewrite <- app_assoc. reflexivity.
             ++ cbn [rev]. rewrite <- app_assoc. reflexivity.
          -- rewrite <- app_assoc. reflexivity.
  Qed.

  (* the traversal performs the calls of its trace until one returns true *)
  Lemma trav_run fuel : forall q seen s l,
    pops is_bfs nbrs fuel q seen = Some l ->
    trav St is_bfs nbrs wn we start fuel q seen s = Ok (snd (run wn we (trace nbrs start l) s)).
  Proof.
    induction fuel as [|fuel IH]; intros q seen s l H; destruct q as [|[c p] q]; cbn [pops trav] in *;
      try discriminate.
    - injection H as <-. reflexivity.
    - injection H as <-. reflexivity.
    - destruct (pops is_bfs nbrs fuel _ _) as [l'|] eqn:E; [|discriminate]. injection H as <-.
      cbn [trace flat_map fst snd]. unfold visit at 1. rewrite <- app_assoc, run_app.
      assert (X : run wn we (if Nat.eqb c start then [] else [NodeEv c p]) s =
                  (snd (if Nat.eqb c start then (s, false) else wn s c p),
                   fst (if Nat.eqb c start then (s, false) else wn s c p))).
      { destruct (Nat.eqb c start); [reflexivity|]. cbn [run]. destruct (wn s c p) as [s' [|]]; reflexivity. }
      rewrite X. destruct (if Nat.eqb c start then (s, false) else wn s c p) as [s1 stop]. cbn [fst snd].
      destruct stop; [reflexivity|]. rewrite run_app.
      pose proof (edge_loop_run c (nbrs c) q seen s1) as [A [B C]].
      destruct (edge_loop St is_bfs we c (nbrs c) q seen s1) as [[[b q2] seen2] s2]. cbn [fst snd] in *.
      destruct (run wn we (map (EdgeEv c) (nbrs c)) s1) as [b' s']. cbn [fst snd] in *. subst b' s'.
      destruct b; [reflexivity|]. destruct (C eq_refl) as [-> ->]. apply IH. exact E.
  Qed.
End Fusion.

(* ------------------------------------------------------------------ *)
(* traversal: which nodes are taken                                    *)

Lemma fresh_In ns : forall seen x, In x (fresh ns seen) <-> In x ns /\ ~ In x seen.
Proof.
  induction ns as [|y ns IH]; intros seen x; cbn [fresh].
  - cbn. tauto.
  - destruct (in_dec Nat.eq_dec y seen) as [I|I].
    + rewrite IH. cbn. split; [tauto|]. intros [[<-|H] N]; [contradiction|tauto].
    + cbn [In]. rewrite IH. cbn [In]. split.
      * intros [<-|[H N]]; [tauto|]. tauto.
      * intros [[<-|H] N]; [left; reflexivity|]. destruct (Nat.eq_dec y x) as [->|]; [left; reflexivity|].
        right. tauto.
Qed.

Lemma fresh_NoDup ns : forall seen, NoDup (fresh ns seen).
Proof.
  induction ns as [|y ns IH]; intros seen; cbn [fresh]; [constructor|].
  destruct (in_dec Nat.eq_dec y seen) as [I|I]; [apply IH|]. constructor; [|apply IH].
  rewrite fresh_In. cbn. tauto.
Qed.

Lemma pushes_perm b q l : Permutation (pushes b q l) (l ++ q).
Proof.
  unfold pushes. destruct b; [apply Permutation_app_comm|].
  apply Permutation_app_tail. symmetry. apply Permutation_rev.
Qed.

Lemma NoDup_app_intro {A} (l1 l2 : list A) :
  NoDup l1 -> NoDup l2 -> (forall x, In x l1 -> ~ In x l2) -> NoDup (l1 ++ l2).
Proof.
  intros N1 N2. induction N1 as [|a l1 Ha N1 IH]; intros D; [exact N2|]. cbn [app]. constructor.
  - rewrite in_app_iff. intros [H|H]; [contradiction|]. exact (D a (or_introl eq_refl) H).
  - apply IH. intros x Hx. apply D. right. exact Hx.
Qed.

Section Pops.
  Variable is_bfs : bool.
  Variable nbrs : nat -> list nat.
  Variable start size : nat.
  Hypothesis R : in_range nbrs size.
  Hypothesis Ls : start < size.

  Lemma NoDup_bound l n : NoDup l -> (forall x, In x l -> x < n) -> length l <= n.
  Proof.
    intros N H. rewrite <- (seq_length n 0). apply NoDup_incl_length; [exact N|].
    intros x Hx. apply in_seq. specialize (H x Hx). lia.
  Qed.

  (* state of the traversal after start has been taken once: done = taken since *)
  Record tinv (done q : list (nat * nat)) (seen : list nat) : Prop := {
    ti_perm : Permutation (map fst (done ++ q)) seen;
    ti_nodup : NoDup seen;
    ti_reach : forall x, In x seen -> walk nbrs start x;
    ti_closed : forall c x, c = start \/ In c (map fst done) -> In x (nbrs c) -> In x seen;
    ti_edge : forall c p, In (c, p) (done ++ q) -> edge nbrs p c /\ (p = start \/ In p (map fst done)) }.

  Lemma tinv_init :
    tinv [] (pushes is_bfs [] (map (fun x => (x, start)) (fresh (nbrs start) [])))
         (rev (fresh (nbrs start) []) ++ []).
  Proof.
    assert (PQ : Permutation (map fst (pushes is_bfs [] (map (fun x => (x, start)) (fresh (nbrs start) []))))
                             (fresh (nbrs start) [])).
    { rewrite (Permutation_map fst (pushes_perm is_bfs [] _)).
      rewrite map_app, map_map. cbn [fst map]. rewrite map_id, app_nil_r. reflexivity. }
    constructor.
    - cbn [app]. rewrite PQ, app_nil_r. apply Permutation_rev.
    - rewrite app_nil_r. apply NoDup_rev, fresh_NoDup.
    - intros x. rewrite app_nil_r, <- in_rev, fresh_In. intros [H _]. apply walk_one, H.
    - intros c x [->|[]] Hx. rewrite app_nil_r, <- in_rev, fresh_In. split; [exact Hx|intros []].
    - cbn [app]. intros c p H. apply (Permutation_in _ (pushes_perm _ _ _)) in H.
      rewrite app_nil_r in H. apply in_map_iff in H. destruct H as [x [[= <- <-] Hx]].
      apply fresh_In in Hx. split; [apply Hx|left; reflexivity].
  Qed.

  Lemma tinv_step done c p q seen : tinv done ((c, p) :: q) seen ->
    tinv (done ++ [(c, p)]) (pushes is_bfs q (map (fun x => (x, c)) (fresh (nbrs c) seen)))
         (rev (fresh (nbrs c) seen) ++ seen).
  Proof.
    intros [P N Re C E]. set (f := fresh (nbrs c) seen).
    assert (Hc : walk nbrs start c).
    { apply Re. apply (Permutation_in _ P). apply in_map_iff. exists (c, p).
      split; [reflexivity|apply in_or_app; right; left; reflexivity]. }
    constructor.
    - rewrite map_app, map_app. cbn [map fst].
      assert (PQ : Permutation (map fst (pushes is_bfs q (map (fun x => (x, c)) f))) (f ++ map fst q)).
      { rewrite (Permutation_map fst (pushes_perm is_bfs q (map (fun x => (x, c)) f))).
        rewrite map_app, map_map. cbn [fst]. rewrite map_id. reflexivity. }
      rewrite PQ. rewrite map_app in P. cbn [map fst] in P. rewrite <- P.
      rewrite <- app_assoc. cbn [app]. rewrite <- (Permutation_rev f).
      rewrite (Permutation_app_comm (map fst done)). cbn [app].
      rewrite (Permutation_app_comm (map fst done)). cbn [app].
      rewrite <- app_assoc. apply Permutation_middle.
    - apply NoDup_app_intro.
      + apply NoDup_rev, fresh_NoDup.
      + exact N.
      + intros x Hx Hs. apply in_rev in Hx. apply fresh_In in Hx. tauto.
    - intros x Hx. apply in_app_iff in Hx. destruct Hx as [Hx|Hx]; [|apply Re, Hx].
      apply in_rev, fresh_In in Hx. destruct Hx as [Hx _]. eapply walk_snoc; eassumption.
    - intros c' x Hc' Hx. apply in_app_iff. rewrite map_app in Hc'. cbn [map fst] in Hc'.
      assert (D : (c' = start \/ In c' (map fst done)) \/ c' = c).
      { destruct Hc' as [H|H]; [tauto|]. apply in_app_iff in H. cbn in H. intuition congruence. }
      destruct D as [D| ->].
      + right. eapply C; eassumption.
      + destruct (in_dec Nat.eq_dec x seen) as [I|I]; [right; exact I|left].
        rewrite <- in_rev. apply fresh_In. split; assumption.
    - intros c' p' H. rewrite map_app. cbn [map fst].
      assert (D : In (c', p') (done ++ (c, p) :: q) \/ In (c', p') (map (fun x => (x, c)) f)).
      { apply in_app_iff in H. destruct H as [H|H].
        - apply in_app_iff in H. left. apply in_or_app. destruct H as [H|[H|[]]]; [left; exact H|right; left; exact H].
        - apply (Permutation_in _ (pushes_perm _ _ _)) in H. apply in_app_iff in H.
          destruct H as [H|H]; [right; exact H|left; apply in_or_app; right; right; exact H]. }
      destruct D as [D|D].
      + destruct (E c' p' D) as [X Y]. split; [exact X|]. destruct Y as [Y|Y]; [left; exact Y|right].
        apply in_or_app. left. exact Y.
      + apply in_map_iff in D. destruct D as [x [[= <- <-] Hx]]. apply fresh_In in Hx.
        split; [apply Hx|]. right. apply in_or_app. right. left. reflexivity.
  Qed.

  Lemma pops_tinv fuel : forall done q seen, tinv done q seen ->
    length q + (size - length seen) <= fuel ->
    exists l seen', pops is_bfs nbrs fuel q seen = Some l /\ tinv (done ++ l) [] seen'.
  Proof.
    induction fuel as [|fuel IH]; intros done q seen T F; destruct q as [|[c p] q]; cbn [pops].
    - exists [], seen. split; [reflexivity|]. rewrite app_nil_r. exact T.
    - cbn in F. lia.
    - exists [], seen. split; [reflexivity|]. rewrite app_nil_r. exact T.
    - pose proof (tinv_step done c p q seen T) as T2.
      set (f := fresh (nbrs c) seen) in *.
      assert (B : length (rev f ++ seen) <= size).
      { apply NoDup_bound; [apply (ti_nodup _ _ _ T2)|]. intros x Hx.
        eapply walk_range; [exact R|exact Ls|]. apply (ti_reach _ _ _ T2), Hx. }
      destruct (IH _ _ _ T2) as [l [seen' [E T']]].
      { rewrite (Permutation_length (pushes_perm is_bfs q _)). rewrite app_length, map_length.
        rewrite app_length, rev_length in B |- *. cbn [length] in F. lia. }
      rewrite E. exists ((c, p) :: l), seen'. split; [reflexivity|].
      rewrite <- app_assoc in T'. exact T'.
  Qed.

  (* what the traversal takes from its container *)
  Lemma pops_ok fuel : S size <= fuel ->
    exists rest, pops is_bfs nbrs fuel [(start, start)] [] = Some ((start, start) :: rest) /\
      NoDup (map fst rest) /\
      (forall x, In x (map fst rest) <-> walk nbrs start x) /\
      (forall c p, In (c, p) rest -> edge nbrs p c /\ (p = start \/ In p (map fst rest))).
  Proof.
    intros F. destruct fuel as [|fuel]; [lia|]. cbn [pops].
    set (f := fresh (nbrs start) []).
    assert (B : length (rev f ++ []) <= size).
    { apply NoDup_bound; [apply (ti_nodup _ _ _ tinv_init)|]. intros x Hx.
      eapply walk_range; [exact R|exact Ls|]. apply (ti_reach _ _ _ tinv_init), Hx. }
    destruct (pops_tinv fuel _ _ _ tinv_init) as [l [seen [E T]]].
    { fold f. rewrite (Permutation_length (pushes_perm is_bfs [] _)). rewrite app_length, map_length.
      rewrite app_length, rev_length in B |- *. cbn [length] in *. lia. }
    fold f in E. cbn [app] in T. change (pushes is_bfs [] ?x) with (pushes is_bfs [] x). rewrite E.
    exists l. split; [reflexivity|]. destruct T as [P N Re C Ed]. rewrite app_nil_r in P, Ed.
    assert (K : forall x, In x (map fst l) <-> walk nbrs start x).
    { intros x. split.
      - intros H. apply Re. apply (Permutation_in _ P), H.
      - intros W. apply (Permutation_in _ (Permutation_sym P)).
        assert (G : forall a b, walk nbrs a b -> (a = start \/ In a seen) -> In b seen).
        { assert (One : forall a b, (a = start \/ In a seen) -> edge nbrs a b -> In b seen).
          { intros a b Ha Hb. eapply C; [|exact Hb]. destruct Ha as [Ha|Ha]; [left; exact Ha|right].
            apply (Permutation_in _ (Permutation_sym P)), Ha. }
          intros a b V. induction V as [a b Eb|a b z Eb V IH]; intros Ha.
          - eapply One; eassumption.
          - apply IH. right. eapply One; eassumption. }
        eapply G; [exact W|left; reflexivity]. }
    split; [|split; [exact K|exact Ed]].
    eapply Permutation_NoDup; [symmetry; exact P|exact N].
  Qed.
End Pops.
