(* Interlocking routes are exactly the signal free ways through the station routes *)
From Coq Require Import List Bool NArith Sorted Arith Lia.
From Verif Require Import Base RouteModel RouteSpec RouteIter RouteIndex RouteGen RouteProofs.
Import ListNotations.
Local Open Scope nat_scope.

Lemma sorted_consecutive (L : list nat) x y : StronglySorted lt L -> In x L -> In y L -> x < y ->
  (forall z, In z L -> ~ (x < z < y)) -> exists m1 m2, L = m1 ++ x :: y :: m2.
Proof.
  induction 1 as [|a L S IH F]; intros X Y LT N; [destruct X|].
  destruct X as [->|X].
  - destruct Y as [->|Y]; [lia|]. destruct L as [|b L]; [destruct Y|].
    destruct Y as [->|Y]; [exists [], L; reflexivity|].
    exfalso. apply (N b); [right; left; reflexivity|].
    rewrite Forall_forall in F. pose proof (F b (or_introl eq_refl)).
    inversion S as [|? ? _ Fb]; subst. rewrite Forall_forall in Fb. pose proof (Fb y Y). lia.
  - destruct Y as [->|Y].
    { rewrite Forall_forall in F. pose proof (F x X). lia. }
    destruct (IH X Y LT) as (m1 & m2 & ->); [intros z Z; apply N; right; exact Z|].
    exists (a :: m1), m2. reflexivity.
Qed.
Lemma sorted_last (L : list nat) x : StronglySorted lt L -> In x L -> (forall z, In z L -> ~ x < z) -> last L 0 = x.
Proof.
  intros S X N. destruct (@exists_last _ L) as (m & y & ->); [intros ->; destruct X|]. rewrite last_last.
  assert (A : ~ x < y) by (apply N; apply in_or_app; right; left; reflexivity).
  apply in_app_or in X. destruct X as [X|[X|[]]]; [|auto].
  exfalso. apply A. clear - S X. induction m as [|a m IH]; [destruct X|]. inversion S as [|? ? S' F]; subst.
  destruct X as [->|X]; [|exact (IH X S')]. rewrite Forall_forall in F. apply F. apply in_or_app. right. left. reflexivity.
Qed.
Lemma sorted_head (L : list nat) x : StronglySorted lt L -> In x L -> (forall z, In z L -> ~ z < x) -> exists m, L = x :: m.
Proof.
  intros S X N. destruct L as [|a L]; [destruct X|]. destruct X as [->|X]; [exists L; reflexivity|].
  exfalso. inversion S as [|? ? _ F]; subst. rewrite Forall_forall in F. exact (N a (or_introl eq_refl) (F x X)).
Qed.

Lemma slice_nth {A} a b (L : list A) k x : nth_error (skipn a (firstn b L)) k = Some x -> nth_error L (a + k) = Some x.
Proof.
  revert b L. induction a as [|a IH]; intros b L H.
  - cbn [skipn Nat.add] in *. revert b L H. induction k as [|k IHk]; intros [|b] [|y L] H; try discriminate; [exact H|exact (IHk b L H)].
  - destruct b as [|b]; [cbn in H; destruct k; discriminate|]. destruct L as [|y L]; [cbn in H; destruct k; discriminate|].
    exact (IH b L H).
Qed.

Section WAY.
  Variables (srs : list sroute) (g : srgraph).
  Hypothesis GO : graph_ok srs g.
  Hypothesis AI : all_indexable srs.
  Hypothesis MR : forall s m, In m (mains srs s) -> m < sr_len srs s.
  Hypothesis MS : forall s, StronglySorted lt (mains srs s).
  Hypothesis NZ : forall s, s < length srs -> 0 < sr_len srs s.

  Definition sig (c : cell) : Prop := In (snd c) (mains srs (fst c)).
  Definition entry (c : cell) : Prop := fst c < length srs /\ pred_of g (fst c) = [] /\ snd c = 0.
  Definition exit (c : cell) : Prop := fst c < length srs /\ succ_of g (fst c) = [] /\ S (snd c) = sr_len srs (fst c).
  Definition next_cell (c d : cell) : Prop :=
    (fst d = fst c /\ snd d = S (snd c) /\ snd d < sr_len srs (fst c)) \/
    (S (snd c) = sr_len srs (fst c) /\ In (fst d) (succ_of g (fst c)) /\ snd d = 0).
  Definition follows (cs : list cell) : Prop :=
    forall k c d, nth_error cs k = Some c -> nth_error cs (S k) = Some d -> next_cell c d.
  Definition crosses (cs : list cell) : Prop := exists k c, nth_error cs (S k) = Some c /\ snd c = 0.

  Record way (cs : list cell) : Prop := {
    wy_follows : follows cs;
    wy_first : exists c, nth_error cs 0 = Some c /\ (sig c \/ entry c);
    wy_last : exists c, nth_error cs (length cs - 1) = Some c /\ (sig c \/ exit c);
    wy_inner : forall k c, 0 < k -> S k < length cs -> nth_error cs k = Some c -> ~ sig c;
    wy_some : crosses cs \/ exists c, In c cs /\ sig c;
    wy_one : length cs = 1 -> forall c, In c cs -> entry c \/ exit c;
    wy_etcs : crosses cs -> forall c, In c cs -> ~ etcs srs (fst c) }.

  Lemma sig_dec c : sig c \/ ~ sig c.
  Proof. unfold sig. destruct (in_dec Nat.eq_dec (snd c) (mains srs (fst c))); auto. Qed.

  Lemma follows_cons c cs : follows (c :: cs) <-> (forall d, nth_error cs 0 = Some d -> next_cell c d) /\ follows cs.
  Proof.
    split.
    - intros F. split; [intros d D; exact (F 0 c d eq_refl D)|intros k a b A B; exact (F (S k) a b A B)].
    - intros [H F] [|k] a b A B; [injection A as <-; exact (H b B)|exact (F k a b A B)].
  Qed.

  Lemma pairs_nth s a n k : k < n -> nth_error (pairs s a n) k = Some (s, a + k).
  Proof.
    intros L. unfold pairs. rewrite nth_error_map, (nth_error_nth' _ 0) by (rewrite seq_length; lia).
    rewrite seq_nth by lia. reflexivity.
  Qed.

  Lemma snoc_pairs s a n : pairs s a (S n) = pairs s a n ++ [(s, a + n)].
  Proof. replace (S n) with (n + 1) by lia. apply pairs_app. Qed.

  (* ---- a sequence of consecutive cells is a stretch of one station route, or the
     tail of one, some whole ones and the head of one ---- *)
  Lemma decompose (cs : list cell) : forall s i, s < length srs -> i < sr_len srs s -> follows (@cons cell (s, i) cs) ->
    (exists n, @cons cell (s, i) cs = pairs s i (S n) /\ i + S n <= sr_len srs s) \/
    (exists mid t b, @cons cell (s, i) cs = pairs s i (sr_len srs s - i) ++ cells_of srs mid ++ pairs t 0 (S b) /\
       connected g (s :: mid ++ [t]) /\ S b <= sr_len srs t /\ t < length srs).
  Proof.
    induction cs as [|[t j] cs IH]; intros s i Ls Li F.
    - left. exists 0. split; [reflexivity|lia].
    - apply follows_cons in F. destruct F as [H F]. specialize (H _ eq_refl). destruct H as [(A & B & C)|(A & B & C)]; cbn [fst snd] in *.
      + subst t j. destruct (IH s (S i) Ls C F) as [(n & E & L)|(mid & t & b & E & Cn & L & Lt)].
        * left. exists (S n). rewrite E. split; [reflexivity|lia].
        * right. exists mid, t, b. rewrite E. split; [|auto].
          destruct (sr_len srs s - i) as [|m] eqn:M; [lia|]. replace (sr_len srs s - S i) with m by lia. reflexivity.
      + subst j. assert (Lt : t < length srs) by exact (go_range _ _ GO _ _ B).
        right. destruct (IH t 0 Lt (NZ t Lt) F) as [(n & E & L)|(mid & t' & b & E & Cn & L & Lt')].
        * exists [], t, n. rewrite E. replace (sr_len srs s - i) with 1 by lia. split; [reflexivity|].
          split; [cbn; auto|]. split; [lia|exact Lt].
        * exists (t :: mid), t', b. rewrite E. replace (sr_len srs s - i) with 1 by lia. split.
          { change (t :: mid) with ([t] ++ mid). rewrite cells_of_app, cells_of_one, Nat.sub_0_r. rewrite <- !app_assoc. reflexivity. }
          split; [|auto]. change ((t :: mid) ++ [t']) with (t :: mid ++ [t']). split; [exact B|exact Cn].
  Qed.

  Lemma last_nth {A} (L : list A) x : nth_error (L ++ [x]) (length (L ++ [x]) - 1) = Some x.
  Proof. rewrite app_length. cbn. rewrite nth_error_app2 by lia. replace (length L + 1 - 1 - length L) with 0 by lia. reflexivity. Qed.

  Theorem way_is_route cs : way cs -> exists a b l, signal_to_signal srs g a b l /\ forall id, ir_cells srs (mkir id a b l) = cs.
  Proof.
    intros [F (c0 & C0 & Fi) (d0 & D0 & La) Inn So On Et]. destruct cs as [|c cs]; [discriminate|].
    cbn in C0. injection C0 as ->. destruct c0 as [s i].
    assert (Val : s < length srs /\ i < sr_len srs s).
    { destruct Fi as [H|(A & _ & B)]; cbn [fst snd] in *.
      - unfold sig in H. cbn in H. split; [|exact (MR _ _ H)].
        unfold mains, sr_of in H. destruct (nth_error srs s) eqn:E; [|destruct H]. apply nth_error_Some. congruence.
      - subst i. auto. }
    destruct Val as [Ls Li].
    destruct (decompose cs s i Ls Li F) as [(n & E & L)|(mid & t & b & E & Cn & L & Lt)].
    - rewrite E in D0, Inn, So, On, Et |- *. clear E F.
      rewrite pairs_length in D0, Inn, On. rewrite pairs_nth in D0 by lia. injection D0 as <-. cbn [Nat.sub] in La. rewrite Nat.sub_0_r in La.
      assert (NC : ~ crosses (pairs s i (S n))).
      { intros (k & c & K & Z). assert (k < n).
        { assert (H : S k < length (pairs s i (S n))) by (apply nth_error_Some; congruence). rewrite pairs_length in H. lia. }
        rewrite pairs_nth in K by lia. injection K as <-. cbn in Z. lia. }
      assert (Inn' : forall j, i < j < i + n -> ~ In j (mains srs s)).
      { intros j J. apply (Inn (j - i) (s, j)); [lia|lia|]. rewrite pairs_nth by lia. replace (i + (j - i)) with j by lia. reflexivity. }
      assert (S1 : exists j, i <= j <= i + n /\ In j (mains srs s)).
      { destruct So as [X|(c & C & Sg)]; [contradiction|]. apply in_pairs in C. destruct C as [C1 C2].
        exists (snd c). split; [lia|]. unfold sig in Sg. rewrite C1 in Sg. exact Sg. }
      assert (RC : forall a b, a <= b -> b <= sr_len srs s -> forall id, ir_cells srs (mkir id a b [s]) = pairs s a (b - a)).
      { intros a b H1 H2 id. apply ir_cells_single; assumption. }
      destruct (Nat.eq_dec n 0) as [->|Nz].
      + destruct S1 as (j & J1 & J2). assert (j = i) by lia. subst j.
        destruct (On eq_refl (s, i)) as [(A & B & C)|(A & B & C)]; [left; reflexivity| |]; cbn [fst snd] in *.
        * subst i. destruct (sorted_head _ _ (MS s) J2) as [m M]; [intros; lia|].
          exists 0, 1, [s]. split; [|intros id; rewrite RC by lia; reflexivity].
          right. right. left. exists s, 0, m. auto 7.
        * exists i, (sr_len srs s), [s]. split; [|intros id; rewrite RC by lia; f_equal; lia].
          right. right. right. exists s. split; [reflexivity|]. split; [exact Ls|]. split; [exact B|].
          split; [intros Z; rewrite Z in J2; destruct J2|]. split; [|reflexivity]. symmetry. apply sorted_last; auto.
          intros z Z. pose proof (MR _ _ Z). lia.
      + destruct (sig_dec (s, i)) as [Sc|Sc]; destruct (sig_dec (s, i + n)) as [Sd|Sd].
        * unfold sig in Sc, Sd. cbn in Sc, Sd. 
          destruct (sorted_consecutive _ i (i + n) (MS s) Sc Sd) as (m1 & m2 & M); [lia|intros z Z J; exact (Inn' z J Z)|].
          exists i, (S (i + n)), [s]. split; [|intros id; rewrite RC by lia; f_equal; lia].
          right. left. exists s, m1, i, (i + n), m2. auto 6.
        * destruct La as [La|(_ & B & C)]; [exfalso; exact (Sd La)|]. cbn [fst snd] in *.
          exists i, (sr_len srs s), [s]. split; [|intros id; rewrite RC by lia; f_equal; lia].
          right. right. right. exists s. split; [reflexivity|]. split; [exact Ls|]. split; [exact B|].
          split; [intros Z; unfold sig in Sc; cbn in Sc; rewrite Z in Sc; destruct Sc|]. split; [|reflexivity]. symmetry. apply sorted_last; auto.
          intros z Z J. pose proof (MR _ _ Z). destruct (Nat.eq_dec z (i + n)) as [->|]; [exact (Sd Z)|]. exact (Inn' z ltac:(lia) Z).
        * destruct Fi as [Fi|(_ & B & C)]; [exfalso; exact (Sc Fi)|]. cbn [fst snd] in *. subst i.
          destruct (sorted_head _ _ (MS s) Sd) as [m M].
          { intros z Z J. destruct (Nat.eq_dec z 0) as [->|]; [exact (Sc Z)|]. cbn in J. exact (Inn' z ltac:(lia) Z). }
          exists 0, (S (0 + n)), [s]. split; [|intros id; rewrite RC by lia; f_equal; lia].
          right. right. left. exists s, (0 + n), m. auto 7.
        * destruct S1 as (j & J1 & J2). exfalso.
          destruct (Nat.eq_dec j i) as [->|]; [exact (Sc J2)|]. destruct (Nat.eq_dec j (i + n)) as [->|]; [exact (Sd J2)|].
          exact (Inn' j ltac:(lia) J2).
    - assert (E' : @cons cell (s, i) cs = @cons cell (s, i) ((pairs s (S i) (sr_len srs s - S i) ++ cells_of srs mid ++ pairs t 0 b) ++ [(t, b)])).
      { rewrite E. rewrite (snoc_pairs t 0 b). destruct (sr_len srs s - i) as [|m] eqn:M; [lia|].
        replace (sr_len srs s - S i) with m by lia. rewrite <- !app_assoc. reflexivity. }
      set (inner := pairs s (S i) (sr_len srs s - S i) ++ cells_of srs mid ++ pairs t 0 b) in *.
      assert (NI : forall c, In c inner -> ~ sig c).
      { intros c C. apply In_nth_error in C. destruct C as [k K].
        assert (Lk : k < length inner) by (apply nth_error_Some; congruence).
        apply (Inn (S k) c); [lia|rewrite E'; cbn [length]; rewrite app_length; cbn; lia|].
        rewrite E'. cbn [nth_error]. rewrite nth_error_app1 by exact Lk. exact K. }
      assert (D : d0 = (t, b)).
      { rewrite E' in D0. rewrite app_comm_cons, last_nth in D0. congruence. }
      subst d0.
      assert (Cr : crosses (@cons cell (s, i) cs)).
      { exists (length (pairs s (S i) (sr_len srs s - S i))), (hd t mid, 0). split; [|reflexivity]. rewrite E'. cbn [nth_error].
        unfold inner. rewrite <- !app_assoc, nth_error_app2 by lia. rewrite Nat.sub_diag.
        destruct mid as [|y mid]; cbn [hd].
        - change (cells_of srs []) with (@nil cell). cbn [app]. change (t, b) with (t, 0 + b). rewrite <- (snoc_pairs t 0 b). rewrite pairs_nth by lia. reflexivity.
        - change (y :: mid) with ([y] ++ mid). rewrite cells_of_app, cells_of_one, <- app_assoc.
          assert (Ly : y < length srs) by exact (go_range _ _ GO _ _ (proj1 Cn)).
          pose proof (NZ y Ly). rewrite nth_error_app1 by (rewrite pairs_length; lia). rewrite pairs_nth by lia. reflexivity. }
      assert (VL : forall x, In x (s :: mid ++ [t]) -> x < length srs).
      { clear - GO Cn Ls. revert s Ls Cn. induction (mid ++ [t]) as [|y r IH]; intros s Ls Cn x [<-|X]; auto; [destruct X|].
        destruct Cn as [C1 C2]. exact (IH y (go_range _ _ GO _ _ C1) C2 x X). }
      assert (Cv : forall x, In x (s :: mid ++ [t]) -> exists j, In (x, j) (@cons cell (s, i) cs)).
      { intros x X. destruct X as [<-|X]; [exists i; left; reflexivity|]. rewrite E. apply in_app_or in X. destruct X as [X|[<-|[]]].
        - exists 0. apply in_or_app. right. apply in_or_app. left. unfold cells_of. apply in_concat.
          eexists. split; [apply in_map; exact X|]. apply in_map_iff. exists 0. split; [reflexivity|]. apply in_seq.
          pose proof (NZ x (VL x (or_intror (in_or_app _ _ _ (or_introl X))))). lia.
        - exists 0. apply in_or_app. right. apply in_or_app. right. left. reflexivity. }
      assert (Ms : (mains srs s <> [] \/ pred_of g s = []) /\ i = last (mains srs s) 0).
      { assert (N1 : forall z, In z (mains srs s) -> ~ i < z).
        { intros z Z J. apply (NI (s, z)); [|exact Z]. unfold inner. apply in_or_app. left. apply in_pairs. cbn. pose proof (MR _ _ Z). lia. }
        destruct (sig_dec (s, i)) as [Sc|Sc].
        - split; [left; intros Z; unfold sig in Sc; cbn in Sc; rewrite Z in Sc; destruct Sc|].
          symmetry. apply sorted_last; auto.
        - destruct Fi as [Fi|(_ & B & C)]; [exfalso; exact (Sc Fi)|]. cbn [fst snd] in *. subst i. split; [right; exact B|].
          destruct (mains srs s) as [|z m] eqn:M; [reflexivity|]. exfalso.
          assert (Z : In z (mains srs s)) by (rewrite M; left; reflexivity). 
          destruct (Nat.eq_dec z 0) as [->|]; [apply Sc; exact Z|apply (N1 z); [left; reflexivity|lia]]. }
      assert (Mt : (mains srs t <> [] \/ succ_of g t = []) /\
                   S b = match mains srs t with m :: _ => S m | [] => sr_len srs t end).
      { assert (N1 : forall z, In z (mains srs t) -> ~ z < b).
        { intros z Z J. apply (NI (t, z)); [|exact Z]. unfold inner. apply in_or_app. right. apply in_or_app. right. apply in_pairs. cbn. lia. }
        destruct (sig_dec (t, b)) as [Sc|Sc].
        - unfold sig in Sc. cbn in Sc. destruct (sorted_head _ _ (MS t) Sc N1) as [m M]. rewrite M. split; [left; discriminate|reflexivity].
        - destruct La as [La|(_ & B & C)]; [exfalso; exact (Sc La)|]. cbn [fst snd] in *. split; [right; exact B|].
          destruct (mains srs t) as [|z m] eqn:M; [exact C|]. exfalso.
          assert (Z : In z (mains srs t)) by (rewrite M; left; reflexivity). pose proof (MR _ _ Z).
          destruct (Nat.eq_dec z b) as [->|]; [apply Sc; exact Z|apply (N1 z); [left; reflexivity|lia]]. }
      exists i, (S b), (s :: mid ++ [t]). split.
      + left. exists s, mid, t. split; [reflexivity|]. split; [exact Cn|]. split.
        { intros x X. destruct (Cv x X) as [j J]. exact (Et Cr (x, j) J). }
        split; [exact (proj1 Ms)|]. split; [|split; [exact (proj1 Mt)|split; [exact (proj2 Ms)|exact (proj2 Mt)]]].
        intros x X. split.
        * destruct (mains srs x) as [|z m] eqn:M; [reflexivity|]. exfalso.
          assert (Z : In z (mains srs x)) by (rewrite M; left; reflexivity).
          apply (NI (x, z)); [|exact Z]. unfold inner. apply in_or_app. right. apply in_or_app. left.
          unfold cells_of. apply in_concat. eexists. split; [apply in_map; exact X|]. apply in_map_iff. exists z. split; [reflexivity|].
          apply in_seq. pose proof (MR _ _ Z). lia.
        * clear - Cn X. revert s Cn. induction mid as [|y mid IH]; intros s Cn; [destruct X|].
          destruct Cn as [_ Cn]. destruct X as [->|X]; [|exact (IH X y Cn)].
          intros Z. destruct mid as [|y' mid]; destruct Cn as [C1 _]; rewrite Z in C1; destruct C1.
      + intros id. rewrite ir_cells_multi by lia. symmetry. exact E.
  Qed.

  (* ---- and the other way round ---- *)
  Lemma follows_app xs ys : follows xs -> follows ys ->
    (forall x y, nth_error xs (length xs - 1) = Some x -> nth_error ys 0 = Some y -> next_cell x y) -> follows (xs ++ ys).
  Proof.
    intros FX FY H k c d C D. destruct (Nat.lt_ge_cases (S k) (length xs)) as [L|L].
    - rewrite nth_error_app1 in C, D by lia. exact (FX k c d C D).
    - rewrite nth_error_app2 in D by lia. destruct (Nat.eq_dec (S k) (length xs)) as [E|E].
      + rewrite nth_error_app1 in C by lia. replace (S k - length xs) with 0 in D by lia.
        apply H; [|exact D]. replace (length xs - 1) with k by lia. exact C.
      + rewrite nth_error_app2 in C by lia. apply (FY (k - length xs)); [exact C|]. replace (S (k - length xs)) with (S k - length xs) by lia. exact D.
  Qed.
  Lemma follows_pairs s a n : a + n <= sr_len srs s -> follows (pairs s a n).
  Proof.
    intros L k c d C D.
    assert (K : S k < n). { assert (H : S k < length (pairs s a n)) by (apply nth_error_Some; congruence). rewrite pairs_length in H. exact H. }
    rewrite pairs_nth in C, D by lia. injection C as <-. injection D as <-. left. cbn. lia.
  Qed.
  Lemma cells_first r x : (forall s, In s (x :: r) -> s < length srs) -> nth_error (cells_of srs (x :: r)) 0 = Some (x, 0).
  Proof.
    intros V. change (x :: r) with ([x] ++ r). rewrite cells_of_app, cells_of_one.
    pose proof (NZ x (V x (or_introl eq_refl))). rewrite nth_error_app1 by (rewrite pairs_length; lia). rewrite pairs_nth by lia. reflexivity.
  Qed.
  Lemma follows_cells r : connected g r -> (forall s, In s r -> s < length srs) -> follows (cells_of srs r).
  Proof.
    induction r as [|x r IH]; intros C V.
    - intros k c d H. destruct k; discriminate.
    - change (x :: r) with ([x] ++ r). rewrite cells_of_app, cells_of_one. apply follows_app.
      + apply follows_pairs. lia.
      + apply IH; [destruct r; [exact I|exact (proj2 C)]|intros s S'; apply V; right; exact S'].
      + intros a b A B. pose proof (NZ x (V x (or_introl eq_refl))) as Z. rewrite pairs_length, pairs_nth in A by lia. injection A as <-.
        destruct r as [|y r]; [discriminate B|]. rewrite cells_first in B by (intros s S'; apply V; right; exact S').
        injection B as <-. right. cbn [fst snd]. destruct C as [C _]. split; [lia|]. split; [exact C|reflexivity].
  Qed.
  Lemma follows_slice a b L : follows L -> follows (skipn a (firstn b L)).
  Proof.
    intros F k c d C D. apply (F (a + k)); [|rewrite <- Nat.add_succ_r].
    - revert C. apply slice_nth.
    - revert D. apply slice_nth.
  Qed.
  Lemma valid_route a b l : signal_to_signal srs g a b l -> forall s, In s l -> s < length srs.
  Proof.
    intros H s S'. pose proof (generated_proper srs g GO AI MR MS NZ 0%N a b l H) as [W _].
    destruct (wf_srs _ _ W s S') as (sr & E & _). apply nth_error_Some. unfold sr_of in E. congruence.
  Qed.
  Lemma last_main_in s : mains srs s <> [] -> sig (s, last (mains srs s) 0).
  Proof.
    intros N. change (In (last (mains srs s) 0) (mains srs s)).
    destruct (@exists_last _ (mains srs s) N) as (m & y & E). rewrite E, last_last. apply in_or_app. right. left. reflexivity.
  Qed.
  Lemma split_ends {A} (L : list A) k c : 0 < k -> S k < length L -> nth_error L k = Some c ->
    exists c1 l1 l2 c2, L = (c1 :: l1) ++ c :: (l2 ++ [c2]).
  Proof.
    intros K1 K2 E. apply nth_error_split in E. destruct E as (u & v & -> & Lu).
    destruct u as [|c1 l1]; [cbn in Lu; lia|]. destruct (@exists_last _ v) as (l2 & c2 & ->).
    - intros ->. rewrite app_length in K2. cbn in *. lia.
    - exists c1, l1, l2, c2. reflexivity.
  Qed.

  Theorem route_is_way id a b l : signal_to_signal srs g a b l -> way (ir_cells srs (mkir id a b l)).
  Proof.
    intros H. pose proof (valid_route _ _ _ H) as V. pose proof (generated_proper srs g GO AI MR MS NZ id a b l H) as [W _].
    assert (In' : forall k c, 0 < k -> S k < length (ir_cells srs (mkir id a b l)) ->
              nth_error (ir_cells srs (mkir id a b l)) k = Some c -> ~ sig c).
    { intros k c K1 K2 K. apply (no_signal_inside srs g GO AI MR MS NZ id a b l c H).
      destruct (split_ends _ _ _ K1 K2 K) as (c1 & l1 & l2 & c2 & E). exists c1, l1, l2, c2. exact E. }
    assert (Fo : follows (ir_cells srs (mkir id a b l))).
    { unfold ir_cells. apply follows_slice. apply follows_cells; [|exact V]. cbn [ir_srs].
      destruct H as [(s & mid & t & _ & C & _)|[(s & m1 & x & y & m2 & -> & _)|[(s & x & m & -> & _)|(s & -> & _)]]];
        [exact C|exact I|exact I|exact I]. }
    assert (Single : forall s, l = [s] -> a < b -> b <= sr_len srs s ->
              (sig (s, a) \/ entry (s, a)) -> (sig (s, b - 1) \/ exit (s, b - 1)) ->
              (sig (s, a) \/ sig (s, b - 1)) -> (b = S a -> entry (s, a) \/ exit (s, a)) -> way (ir_cells srs (mkir id a b l))).
    { intros s -> L1 L2 E1 E2 E3 E4. rewrite ir_cells_single in * by lia.
      assert (NC : ~ crosses (pairs s a (b - a))).
      { intros (k & c & K & Z). assert (Lk : S k < length (pairs s a (b - a))) by (apply nth_error_Some; congruence).
        rewrite pairs_length in Lk. rewrite pairs_nth in K by lia. injection K as <-. cbn in Z. lia. }
      constructor.
      - exact Fo.
      - exists (s, a). split; [rewrite pairs_nth by lia; rewrite Nat.add_0_r; reflexivity|exact E1].
      - exists (s, b - 1). split; [rewrite pairs_length, pairs_nth by lia; replace (a + (b - a - 1)) with (b - 1) by lia; reflexivity|exact E2].
      - exact In'.
      - right. destruct E3 as [E3|E3]; [exists (s, a)|exists (s, b - 1)]; (split; [apply in_pairs; cbn; lia|exact E3]).
      - intros L c C. rewrite pairs_length in L. apply in_pairs in C. replace c with (s, a) by (destruct c as [u v]; cbn in C; f_equal; lia).
        apply E4. lia.
      - intros X. contradiction. }
    destruct H as [A|[B|[C|D]]].
    - destruct A as (s & mid & t & -> & C & NE & ST & M & EN & -> & ->).
      destruct (wf_multi _ _ _ _ _ _ _ W) as [_ [L1 L2]].
      assert (Ls : s < length srs) by (apply V; left; reflexivity).
      assert (Lt : t < length srs) by (apply V; right; apply in_or_app; right; left; reflexivity).
      pose proof (last_main_lt srs MR NZ s Ls) as LM.
      assert (EE : exists e, match mains srs t with m :: _ => S m | [] => sr_len srs t end = S e).
      { destruct (mains srs t) as [|m ms]; [|exists m; reflexivity].
        specialize (NZ t Lt). exists (sr_len srs t - 1). lia. }
      destruct EE as [e Ee]. rewrite Ee in *. rewrite ir_cells_multi in * by lia.
      constructor.
      + exact Fo.
      + exists (s, last (mains srs s) 0). split; [rewrite nth_error_app1 by (rewrite pairs_length; lia); rewrite pairs_nth by lia; rewrite Nat.add_0_r; reflexivity|].
        destruct ST as [ST|ST].
        * left. apply last_main_in. exact ST.
        * destruct (mains srs s) as [|y m] eqn:E; [right; repeat split; assumption|].
          left. rewrite <- E. apply last_main_in. rewrite E. discriminate.
      + exists (t, e). split; [rewrite (snoc_pairs t 0 e), !app_assoc, last_nth; reflexivity|].
        destruct (mains srs t) as [|m ms] eqn:E.
        * right. destruct EN as [EN|EN]; [contradiction|]. split; [exact Lt|]. split; [exact EN|]. cbn. lia.
        * left. unfold sig. cbn. rewrite E. left. lia.
      + exact In'.
      + left. exists (sr_len srs s - last (mains srs s) 0 - 1), (hd t mid, 0). split; [|reflexivity].
        rewrite nth_error_app2 by (rewrite pairs_length; lia). rewrite pairs_length.
        replace (S (sr_len srs s - last (mains srs s) 0 - 1) - (sr_len srs s - last (mains srs s) 0)) with 0 by lia.
        destruct mid as [|y mid]; [reflexivity|].
        cbn [hd]. assert (F1 : nth_error (cells_of srs (y :: mid)) 0 = Some (y, 0)).
        { apply cells_first. intros x X. apply V. right. apply in_or_app. left. exact X. }
        destruct (cells_of srs (y :: mid)); [discriminate|]. exact F1.
      + intros L c Cc. rewrite !app_length, !pairs_length in L. lia.
      + intros _ c Cc. apply NE. apply in_app_or in Cc. destruct Cc as [Cc|Cc]; [apply in_pairs in Cc; left; symmetry; exact (proj1 Cc)|].
        right. apply in_or_app. apply in_app_or in Cc. destruct Cc as [Cc|Cc]; [left|right; left; apply in_pairs in Cc; symmetry; exact (proj1 Cc)].
        unfold cells_of in Cc. apply in_concat in Cc. destruct Cc as (q & Q1 & Q2). apply in_map_iff in Q1. destruct Q1 as (x & <- & Q1).
        apply in_map_iff in Q2. destruct Q2 as (j & <- & _). exact Q1.
    - destruct B as (s & m1 & x & y & m2 & -> & E & -> & ->).
      assert (Hx : In x (mains srs s)) by (rewrite E; apply in_or_app; right; left; reflexivity).
      assert (Hy : In y (mains srs s)) by (rewrite E; apply in_or_app; right; right; left; reflexivity).
      assert (XY : x < y).
      { pose proof (MS s) as SO. rewrite E in SO. apply (SS_nth lt _ SO (length m1) (S (length m1))); [lia| |].
        - rewrite nth_error_app2 by lia. rewrite Nat.sub_diag. reflexivity.
        - rewrite nth_error_app2 by lia. replace (S (length m1) - length m1) with 1 by lia. reflexivity. }
      pose proof (MR _ _ Hy).
      apply (Single s eq_refl); try lia; [left; exact Hx| |left; exact Hx].
      left. replace (S y - 1) with y by lia. exact Hy.
    - destruct C as (s & x & m & -> & L & P & E & -> & ->).
      assert (Hx : In x (mains srs s)) by (rewrite E; left; reflexivity). pose proof (MR _ _ Hx).
      assert (EN : entry (s, 0)) by (repeat split; assumption).
      apply (Single s eq_refl); try lia; [right; exact EN| | |left; exact EN].
      + left. replace (S x - 1) with x by lia. exact Hx.
      + right. replace (S x - 1) with x by lia. exact Hx.
    - destruct D as (s & -> & L & Sc & NE & -> & ->).
      assert (Hx : In (last (mains srs s) 0) (mains srs s)).
      { destruct (@exists_last _ (mains srs s) NE) as (m & y & E). rewrite E, last_last. apply in_or_app. right. left. reflexivity. }
      pose proof (MR _ _ Hx) as Lx.
      assert (EX : exit (s, sr_len srs s - 1)) by (split; [exact L|]; split; [exact Sc|]; cbn; lia).
      apply (Single s eq_refl); try lia; [left; exact Hx|right; exact EX|left; exact Hx|].
      intros B. right. replace (last (mains srs s) 0) with (sr_len srs s - 1) by lia. exact EX.
  Qed.
End WAY.
