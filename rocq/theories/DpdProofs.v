From Verif Require Import Base DpdModel DpdSpec.
From Coq Require Import Lqa Sorting.Sorted.
Local Open Scope Z_scope.

Lemma rounds_unique g h x y : 0 < g -> rounds g h x -> rounds g h y -> x = y.
Proof.
  intros G ((a & ->) & A) ((b & ->) & B). assert (a = b) by nia. congruence.
Qed.
Lemma rounds_dec g h x : 0 < g -> {rounds g h x} + {~ rounds g h x}.
Proof.
  intros G. unfold rounds. destruct (Znumtheory.Zdivide_dec g x); [|right; tauto].
  destruct (Z_lt_dec (- g) (2 * (h - x))); [|right; tauto].
  destruct (Z_le_dec (2 * (h - x)) g); [left; tauto|right; tauto].
Qed.

(* p added at position i, the list padded with zeros if need be *)
Fixpoint bump (l : list Q) (i : nat) (p : Q) : list Q :=
  match i, l with
  | O, [] => [0 + p]%Q
  | O, q :: l => (q + p)%Q :: l
  | S i, [] => 0%Q :: bump [] i p
  | S i, q :: l => q :: bump l i p
  end.
Lemma bump_nth l : forall i p j, (nth j (bump l i p) 0 == nth j l 0 + (if Nat.eqb j i then p else 0))%Q.
Proof.
  induction l as [|q l IH].
  - induction i as [|i IH]; intros p [|j]; cbn [bump nth Nat.eqb].
    + ring.
    + destruct j; ring.
    + ring.
    + rewrite IH. destruct j; cbn [nth]; ring.
  - intros [|i] p [|j]; cbn [bump nth Nat.eqb]; [ring|ring|ring|apply IH].
Qed.
Lemma bump_length l : forall i p, length (bump l i p) = Nat.max (length l) (S i).
Proof.
  induction l as [|q l IH].
  - induction i as [|i IH]; intros p; [reflexivity|]. cbn [bump length]. rewrite IH. cbn [length]. lia.
  - intros [|i] p; cbn [bump length]; [lia|]. rewrite IH. lia.
Qed.
Lemma update_bump l : forall i p, (i < length l)%nat -> update l i (fun q => Ok (q + p)%Q) = Ok (bump l i p).
Proof.
  induction l as [|q l IH]; intros [|i] p L; cbn [length] in L; try lia; cbn [update bump bind]; [reflexivity|].
  rewrite IH by lia. reflexivity.
Qed.
Lemma bump_pad l : forall i k p, (length l + k = S i)%nat -> bump (l ++ repeat 0%Q k) i p = bump l i p.
Proof.
  induction l as [|q l IH].
  - induction i as [|i IH]; intros k p L; cbn [length] in L; (destruct k as [|k]; [lia|]); cbn [app repeat bump].
    + destruct k; [reflexivity|lia].
    + f_equal. exact (IH k p ltac:(cbn [length]; lia)).
  - intros [|i] k p L; cbn [length] in L; cbn [app bump].
    + assert (k = O) by lia. subst k. rewrite app_nil_r. reflexivity.
    + f_equal. apply IH. lia.
Qed.
Lemma resize_bump (l : list Q) mx idx p : (idx + 1 <= mx)%N -> (N.of_nat (length l) <= idx)%N ->
  resize 0%Q mx (idx + 1) l = Ok (l ++ repeat 0%Q (S (N.to_nat idx) - length l)) /\
  length (l ++ repeat 0%Q (S (N.to_nat idx) - length l)) = S (N.to_nat idx) /\
  bump (l ++ repeat 0%Q (S (N.to_nat idx) - length l)) (N.to_nat idx) p = bump l (N.to_nat idx) p.
Proof.
  intros H1 H2. unfold resize. replace (mx <? idx + 1)%N with false by (symmetry; apply N.ltb_ge; exact H1).
  replace (N.to_nat (idx + 1)) with (S (N.to_nat idx)) by lia.
  rewrite firstn_all2 by lia. split; [reflexivity|]. split; [rewrite app_length, repeat_length; lia|].
  apply bump_pad. lia.
Qed.

Definition norm_ok (P : primary) : Prop :=
  0 < pr_gran P /\ 2 * pr_gran P < pr_max P /\ forall z, 0 <= z <= pr_max P -> pr_norm P z = Ok z.
Lemma time_norm_ok : norm_ok time_primary.
Proof.
  split; [reflexivity|]. split; [reflexivity|]. intros z Hz. cbn [pr_norm time_primary] in *. unfold int64.
  cbn [pr_max time_primary] in Hz.
  replace (- INT64_MAX - 1 <=? z) with true by (symmetry; apply Z.leb_le; unfold INT64_MAX in *; lia).
  replace (z <=? INT64_MAX) with true by (symmetry; apply Z.leb_le; lia). reflexivity.
Qed.
Lemma speed_norm_ok : norm_ok speed_primary.
Proof.
  split; [reflexivity|]. split; [reflexivity|]. intros z Hz. cbn [pr_norm pr_max speed_primary] in *. unfold uint16.
  rewrite Z.mod_small by lia. reflexivity.
Qed.

Section LEVEL.
  Variable P : primary.
  Hypothesis N : norm_ok P.
  Local Notation g := (pr_gran P).
  Definition fits (h : Z) : Prop := 0 <= h < 2 ^ 57 /\ h + g <= pr_max P.

  Lemma round_ok h : 0 <= h -> h + g <= pr_max P ->
    exists r, round_to_nearest_multiple P h = Ok r /\ rounds g h r /\ 0 <= r.
  Proof.
    destruct N as (G & GM & NO). intros H0 H1. unfold round_to_nearest_multiple.
    destruct ((g =? 0) || (g =? 1)) eqn:E.
    { exists h. split; [reflexivity|]. split; [|exact H0]. apply orb_prop in E.
      assert (g = 1) by (destruct E as [E|E]; apply Z.eqb_eq in E; lia).
      split; [rewrite H; apply Z.divide_1_l|lia]. }
    apply orb_false_elim in E. destruct E as (_ & E). apply Z.eqb_neq in E.
    pose proof (Z.rem_bound_pos h g H0 G) as B. pose proof (Z.quot_rem' h g) as D.
    assert (Q2 : Z.quot g 2 = g / 2) by (apply Z.quot_div_nonneg; lia). rewrite Q2.
    pose proof (Z.div_mod g 2 ltac:(lia)) as DM. pose proof (Z.mod_pos_bound g 2 ltac:(lia)) as MB.
    assert (Q0 : 0 <= Z.quot h g) by (apply Z.quot_pos; lia).
    assert (DV : forall k, (g | g * k)) by (intros k; exists k; ring).
    destruct (Z.rem h g <=? g / 2) eqn:L.
    - apply Z.leb_le in L. rewrite NO by nia. exists (h - Z.rem h g). split; [reflexivity|].
      replace (h - Z.rem h g) with (g * Z.quot h g) by lia. split; [|nia]. split; [apply DV|nia].
    - apply Z.leb_gt in L. rewrite NO by nia. cbn [bind]. rewrite NO by nia.
      exists (h - Z.rem h g + g). split; [reflexivity|].
      replace (h - Z.rem h g + g) with (g * (Z.quot h g + 1)) by lia. split; [|nia]. split; [apply DV|nia].
  Qed.
  Lemma to_idx_ok first h r : fits h -> 0 <= first -> (g | first) -> rounds g h r -> first <= r ->
    to_idx P first h = Ok (Z.to_N ((r - first) / g)) /\ (r - first) / g <= 2 ^ 57 /\ 0 <= (r - first) / g /\
    r = first + g * ((r - first) / g).
  Proof.
    intros (F1 & F2) H0 D R L. destruct N as (G & GM & NO). unfold to_idx.
    destruct (round_ok h) as (r' & E & R' & P'); [lia|lia|]. rewrite E. rewrite (rounds_unique g h r r' G R R') in *. clear R.
    cbn [bind].
    assert (R2 : r' <= pr_max P) by (destruct R'; lia).
    rewrite NO by lia. cbn [bind]. rewrite Z.quot_div_nonneg by lia.
    assert (DV : (g | r' - first)) by (apply Z.divide_sub_r; [apply R'|exact D]).
    destruct DV as (k & K). rewrite K. rewrite Z.div_mul by lia.
    assert (0 <= k <= 2 ^ 57) by (destruct R' as (_ & R'); nia).
    unfold size_of. rewrite Z.mod_small by (unfold M64; lia). repeat split; try lia.
  Qed.

  (* inserting at or above the first bucket *)
  Lemma insert1_ok d h p r : d1_mass d <> [] -> fits h -> 0 <= d1_first d -> (g | d1_first d) ->
    rounds g h r -> d1_first d <= r ->
    insert1 P d h p = Ok (mkdpd1 (d1_first d) (bump (d1_mass d) (Z.to_nat ((r - d1_first d) / g)) p)).
  Proof.
    intros NE F H0 D R L. unfold insert1. destruct N as (G & GM & NO).
    destruct (round_ok h) as (r' & E & R' & P'); [destruct F; lia|destruct F; lia|].
    rewrite E. rewrite (rounds_unique g h r' r G R' R) in *. cbn [bind].
    destruct (d1_mass d) as [|q0 mass0] eqn:EM; [congruence|]. rewrite <- EM in *.
    replace (r <? d1_first d) with false by (symmetry; apply Z.ltb_ge; exact L). cbn [bind].
    destruct (to_idx_ok (d1_first d) h r F H0 D R L) as (T & B1 & B2 & _). rewrite T. cbn [bind].
    set (idx := (r - d1_first d) / g) in *.
    destruct (N.of_nat (length (d1_mass d)) <=? Z.to_N idx)%N eqn:LE.
    - apply N.leb_le in LE. replace (size_of (Z.of_N (Z.to_N idx) + 1)) with (Z.to_N idx + 1)%N.
      2:{ unfold size_of. rewrite Z.mod_small by (unfold M64; lia). lia. }
      destruct (resize_bump (d1_mass d) FLOATS_MAX (Z.to_N idx) p) as (RS & RL & RB); [unfold FLOATS_MAX; lia|exact LE|].
      rewrite RS. cbn [bind]. replace (Z.to_N idx <? N.of_nat _)%N with true.
      2:{ symmetry. apply N.ltb_lt. rewrite RL. lia. }
      rewrite update_bump by (rewrite RL; lia). cbn [bind]. rewrite RB. do 3 f_equal. lia.
    - apply N.leb_gt in LE. cbn [bind]. replace (Z.to_N idx <? N.of_nat _)%N with true by (symmetry; apply N.ltb_lt; lia).
      rewrite update_bump by lia. cbn [bind]. do 3 f_equal. lia.
  Qed.

  Lemma entries_from_ok {A} (l : list A) : forall t, 0 <= t -> t + g * (Z.of_nat (length l) - 1) <= pr_max P ->
    entries_from P t l = Ok (map (fun x => (t + g * fst x, snd x)) (numbered 0 l)).
  Proof.
    destruct N as (G & GM & NO).
    assert (SH : forall (l : list A) t i, map (fun x => (t + g * fst x, snd x)) (numbered (i + 1) l)
              = map (fun x => (t + g + g * fst x, snd x)) (numbered i l)).
    { clear. induction l as [|a l IH]; intros t i; cbn [numbered map fst snd]; [reflexivity|]. f_equal; [f_equal; ring|apply IH]. }
    induction l as [|a l IH]; intros t T0 T1; [reflexivity|]. cbn [entries_from].
    destruct l as [|b l]; [cbn [numbered map fst snd]; do 3 f_equal; ring|].
    cbn [length] in T1. rewrite NO by nia. cbn [bind]. rewrite IH by (cbn [length]; nia). cbn [bind].
    cbn [numbered map fst snd]. do 2 f_equal; [f_equal; ring|]. change 1 with (0 + 1).
    exact (eq_sym (SH (b :: l) t 0)).
  Qed.
  Lemma listed_numbered (l : list Q) : forall t i x : Z,
    Qeq (listed Z.eqb (map (fun y => (t + g * fst y, snd y)) (numbered i l)) x)
     (if (t + g * i <=? x) && ((x - t - g * i) mod g =? 0) then nth (Z.to_nat ((x - t - g * i) / g)) l 0%Q else 0%Q).
  Proof.
    destruct N as (G & _). induction l as [|a l IH]; intros t i x; cbn [numbered map listed fst snd].
    - destruct (_ && _); [|reflexivity]. destruct (Z.to_nat _); reflexivity.
    - specialize (IH t (i + 1) x). destruct (t + g * i =? x) eqn:E; rewrite IH; clear IH.
      + apply Z.eqb_eq in E. replace (t + g * (i + 1) <=? x) with false by (symmetry; apply Z.leb_gt; nia).
        replace (t + g * i <=? x) with true by (symmetry; apply Z.leb_le; lia).
        replace (x - t - g * i) with 0 by lia. rewrite Z.mod_0_l, Z.div_0_l by lia. cbn. ring.
      + apply Z.eqb_neq in E. replace (x - t - g * (i + 1)) with (x - t - g * i + (-1) * g) by ring.
        rewrite Z.mod_add, Z.div_add by lia.
        destruct (t + g * i <=? x) eqn:L.
        * apply Z.leb_le in L. cbn [andb]. destruct ((x - t - g * i) mod g =? 0) eqn:D; [|rewrite andb_false_r; reflexivity].
          rewrite andb_true_r. apply Z.eqb_eq in D. apply Z.div_exact in D; [|lia].
          assert (1 <= (x - t - g * i) / g) by nia. replace (t + g * (i + 1) <=? x) with true by (symmetry; apply Z.leb_le; nia).
          replace (Z.to_nat ((x - t - g * i) / g)) with (S (Z.to_nat ((x - t - g * i) / g + -1))) by lia. reflexivity.
        * apply Z.leb_gt in L. cbn [andb]. replace (t + g * (i + 1) <=? x) with false by (symmetry; apply Z.leb_gt; nia). reflexivity.
  Qed.

  (* a distribution all whose buckets are representable *)
  Record good1 (d : dpd1) : Prop := {
    g_ne : d1_mass d <> [];
    g_first : 0 <= d1_first d;
    g_div : (g | d1_first d);
    g_last : d1_first d + g * (Z.of_nat (length (d1_mass d)) - 1) <= pr_max P }.
  Definition at1 (d : dpd1) (x : Z) : Q :=
    if (d1_first d <=? x) && ((x - d1_first d) mod g =? 0) then nth (Z.to_nat ((x - d1_first d) / g)) (d1_mass d) 0%Q else 0%Q.
  Lemma entries_at d : good1 d -> exists es, entries1 P d = Ok es /\ forall x, (listed Z.eqb es x == at1 d x)%Q.
  Proof.
    intros [NE F D L]. eexists. split; [apply entries_from_ok; assumption|]. intros x. rewrite listed_numbered.
    unfold at1. replace (x - d1_first d - g * 0) with (x - d1_first d) by ring. replace (d1_first d + g * 0) with (d1_first d) by ring. reflexivity.
  Qed.
  Lemma insert1_good d h p r : good1 d -> fits h -> rounds g h r -> d1_first d <= r ->
    exists d', insert1 P d h p = Ok d' /\ good1 d' /\ d1_first d' = d1_first d /\
      forall x, (at1 d' x == at1 d x + (if r =? x then p else 0))%Q.
  Proof.
    intros [NE F D L] HF R LE. destruct N as (G & GM & _).
    eexists. split; [apply (insert1_ok d h p r); assumption|]. cbn [d1_first d1_mass].
    destruct (to_idx_ok _ _ _ HF F D R LE) as (_ & B1 & B2 & B3). set (idx := (r - d1_first d) / g) in *.
    split; [|split; [reflexivity|]].
    - constructor; cbn [d1_first d1_mass]; auto.
      + intros E. apply (f_equal (@length Q)) in E. rewrite bump_length in E. cbn [length] in E. lia.
      + rewrite bump_length. destruct (Nat.max_spec (length (d1_mass d)) (S (Z.to_nat idx))) as [(A & ->)|(A & ->)]; [|exact L].
        destruct HF as (HF1 & HF2). destruct R as (_ & R). nia.
    - intros x. unfold at1. cbn [d1_first d1_mass].
      destruct ((d1_first d <=? x) && ((x - d1_first d) mod g =? 0)) eqn:C.
      + rewrite bump_nth. apply andb_prop in C. destruct C as (C1 & C2). apply Z.leb_le in C1. apply Z.eqb_eq in C2.
        apply Z.div_exact in C2; [|lia].
        destruct (r =? x) eqn:E.
        * apply Z.eqb_eq in E. subst x. fold idx. rewrite Nat.eqb_refl. reflexivity.
        * apply Z.eqb_neq in E. replace (Nat.eqb _ _) with false; [reflexivity|]. symmetry. apply Nat.eqb_neq.
          intros K. apply E. assert ((x - d1_first d) / g = idx) by nia. nia.
      + destruct (r =? x) eqn:E; [|ring]. exfalso. apply Z.eqb_eq in E. subst x.
        replace (d1_first d <=? r) with true in C by (symmetry; apply Z.leb_le; exact LE).
        assert (DV : (g | r - d1_first d)) by (apply Z.divide_sub_r; [apply R|exact D]).
        apply Z.mod_divide in DV; [|lia]. rewrite DV in C. discriminate.
  Qed.
  Lemma insert1_empty h p r : fits h -> rounds g h r -> exists d', insert1 P (empty1 P) h p = Ok d' /\ good1 d' /\ d1_first d' = r /\
    forall x, (at1 d' x == if r =? x then p else 0)%Q.
  Proof.
    intros HF R. destruct N as (G & GM & _). unfold insert1. cbn [empty1 d1_mass].
    destruct (round_ok h) as (r' & E & R' & P'); [destruct HF; lia|destruct HF; lia|].
    rewrite E, (rounds_unique g h r' r G R' R) in *. cbn [bind]. eexists. split; [reflexivity|].
    split; [|split; [reflexivity|]].
    - constructor; cbn [d1_mass d1_first length]; [discriminate|exact P'|apply R|]. destruct HF, R. lia.
    - intros x. unfold at1. cbn [d1_mass d1_first]. destruct (r =? x) eqn:EX.
      + apply Z.eqb_eq in EX. subst x. rewrite Z.leb_refl, Z.sub_diag, Z.mod_0_l, Z.div_0_l by lia. reflexivity.
      + apply Z.eqb_neq in EX. destruct ((r <=? x) && _) eqn:C; [|reflexivity]. apply andb_prop in C. destruct C as (C1 & C2).
        apply Z.leb_le in C1. apply Z.eqb_eq in C2. apply Z.div_exact in C2; [|lia].
        assert (1 <= (x - r) / g) by nia. destruct (Z.to_nat ((x - r) / g)) as [|[|n]] eqn:EN; [lia|reflexivity|reflexivity].
  Qed.
  Lemma inserts1_good l : forall d, good1 d -> (forall h p, In (h, p) l -> fits h) ->
    (forall h p r, In (h, p) l -> rounds g h r -> d1_first d <= r) ->
    exists d', inserts1 P d l = Ok d' /\ good1 d' /\ d1_first d' = d1_first d /\
      forall x q, mass g x l q -> (at1 d' x == at1 d x + q)%Q.
  Proof.
    pose proof N as (G & _). induction l as [|[h p] l IH]; intros d GD HF HR; cbn [inserts1].
    - exists d. split; [reflexivity|]. split; [exact GD|]. split; [reflexivity|]. intros x q M. inversion M. subst. ring.
    - assert (Fh : fits h) by (apply (HF h p); left; reflexivity).
      destruct (round_ok h) as (r & _ & R & _); [destruct Fh; lia|destruct Fh; lia|].
      destruct (insert1_good d h p r GD Fh R) as (d1 & E1 & G1 & F1 & A1); [apply (HR h p r); [left; reflexivity|exact R]|].
      rewrite E1. cbn [bind].
      destruct (IH d1 G1) as (d' & E' & G' & F' & A').
      { intros. eapply HF. right. eassumption. }
      { intros. rewrite F1. eapply HR; [right; eassumption|eassumption]. }
      exists d'. split; [exact E'|]. split; [exact G'|]. split; [congruence|]. intros x q M.
      inversion M as [|? ? ? q' R1 M1|? ? ? q' R1 M1]; subst.
      + rewrite (A' x q' M1), A1. rewrite (rounds_unique g h r x G R R1), Z.eqb_refl. ring.
      + rewrite (A' x q M1), A1. replace (r =? x) with false by (symmetry; apply Z.eqb_neq; congruence). ring.
  Qed.
  Lemma inserts1_history l : l <> [] -> (forall h p, In (h, p) l -> fits h) -> first_least g (map fst l) ->
    exists d, inserts1 P (empty1 P) l = Ok d /\ good1 d /\ forall x q, mass g x l q -> (at1 d x == q)%Q.
  Proof.
    pose proof N as (G & _). destruct l as [|[h p] l]; [congruence|]. intros _ HF FL. cbn [inserts1].
    assert (Fh : fits h) by (apply (HF h p); left; reflexivity).
    destruct (round_ok h) as (r & _ & R & _); [destruct Fh; lia|destruct Fh; lia|].
    destruct (insert1_empty h p r Fh R) as (d1 & E1 & G1 & F1 & A1). rewrite E1. cbn [bind].
    destruct (inserts1_good l d1 G1) as (d' & E' & G' & F' & A').
    { intros. eapply HF. right. eassumption. }
    { intros h' p' r' I R'. rewrite F1. cbn [map fst first_least] in FL. apply (FL h' r r'); auto.
      apply (in_map fst) in I. exact I. }
    exists d'. split; [exact E'|]. split; [exact G'|]. intros x q M.
    inversion M as [|? ? ? q' R1 M1|? ? ? q' R1 M1]; subst.
    - rewrite (A' x q' M1), A1. rewrite (rounds_unique g h (d1_first d1) x G R R1), Z.eqb_refl. reflexivity.
    - rewrite (A' x q M1), A1. replace (d1_first d1 =? x) with false by (symmetry; apply Z.eqb_neq; congruence). ring.
  Qed.
  Lemma mass_exists x l : exists q, mass g x l q.
  Proof.
    pose proof N as (G & _). induction l as [|[h p] l (q & IH)]; [exists 0%Q; constructor|].
    destruct (rounds_dec g h x G); eexists; [apply mass_in|apply mass_out]; eassumption.
  Qed.
End LEVEL.

(* ---- two levels ---- *)
Fixpoint put {A} (dflt : A) (l : list A) (i : nat) (a : A) : list A :=
  match i, l with
  | O, [] => [a]
  | O, _ :: l => a :: l
  | S i, [] => dflt :: put dflt [] i a
  | S i, b :: l => b :: put dflt l i a
  end.
Lemma put_nth {A} (d : A) l : forall i a j, nth j (put d l i a) d = if Nat.eqb j i then a else nth j l d.
Proof.
  induction l as [|b l IH].
  - induction i as [|i IH]; intros a [|j]; cbn [put nth Nat.eqb]; try reflexivity; [destruct j; reflexivity|].
    rewrite IH. destruct (Nat.eqb j i); [reflexivity|]. destruct j; reflexivity.
  - intros [|i] a [|j]; cbn [put nth Nat.eqb]; try reflexivity. apply IH.
Qed.
Lemma put_length {A} (d : A) l : forall i a, length (put d l i a) = Nat.max (length l) (S i).
Proof.
  induction l as [|b l IH].
  - induction i as [|i IH]; intros a; [reflexivity|]. cbn [put length]. rewrite IH. cbn [length]. lia.
  - intros [|i] a; cbn [put length]; [lia|]. rewrite IH. lia.
Qed.
Lemma update_put {A} (d : A) l f : forall i a, (i < length l)%nat -> f (nth i l d) = Ok a -> update l i f = Ok (put d l i a).
Proof.
  induction l as [|b l IH]; intros [|i] a L F; cbn [length] in L; try lia; cbn [nth] in F; cbn [update put].
  - rewrite F. reflexivity.
  - rewrite (IH i a) by (auto; lia). reflexivity.
Qed.
Lemma put_pad {A} (d : A) l : forall i k a, (length l + k = S i)%nat -> put d (l ++ repeat d k) i a = put d l i a.
Proof.
  induction l as [|b l IH].
  - induction i as [|i IH]; intros k a L; cbn [length] in L; (destruct k as [|k]; [lia|]); cbn [app repeat put].
    + destruct k; [reflexivity|lia].
    + f_equal. exact (IH k a ltac:(cbn [length]; lia)).
  - intros [|i] k a L; cbn [length] in L; cbn [app put].
    + assert (k = O) by lia. subst k. rewrite app_nil_r. reflexivity.
    + f_equal. apply IH. lia.
Qed.

Lemma nth_nil {A} i (d : A) : nth i [] d = d.
Proof. destruct i; reflexivity. Qed.
Lemma at1_empty S v : at1 S (empty1 S) v = 0%Q.
Proof. unfold at1. cbn [empty1 d1_mass d1_first]. rewrite nth_nil. destruct (_ && _); reflexivity. Qed.

Section TWO.
  Variables P S : primary.
  Hypothesis NP : norm_ok P.
  Hypothesis NS : norm_ok S.
  Local Notation g := (pr_gran P).
  Definition cell (d : dpd2) (x : Z) : dpd1 :=
    if (d2_first d <=? x) && ((x - d2_first d) mod g =? 0) then nth (Z.to_nat ((x - d2_first d) / g)) (d2_dpds d) (empty1 S)
    else empty1 S.
  Record good2 (d : dpd2) : Prop := {
    gg_ne : d2_dpds d <> [];
    gg_first : 0 <= d2_first d < pr_max P;
    gg_div : (g | d2_first d);
    gg_last : d2_first d + g * (Z.of_nat (length (d2_dpds d)) - 1) <= pr_max P }.

  Lemma insert2_ok d h v p r inner : good2 d -> fits P h -> rounds g h r -> d2_first d <= r ->
    insert1 S (cell d r) v p = Ok inner ->
    exists d', insert2 P S d h v p = Ok d' /\ good2 d' /\ d2_first d' = d2_first d /\
      forall x, cell d' x = if r =? x then inner else cell d x.
  Proof.
    intros [NE F D L] HF R LE HI. pose proof NP as (G & GM & NO).
    destruct (to_idx_ok P NP _ _ _ HF (proj1 F) D R LE) as (T & B1 & B2 & B3).
    unfold insert2. destruct (round_ok P NP h) as (r' & E & R' & P'); [destruct HF; lia|destruct HF; lia|].
    rewrite E. rewrite (rounds_unique g h r' r G R' R) in *. cbn [bind].
    replace (d2_first d =? pr_max P) with false by (symmetry; apply Z.eqb_neq; lia).
    replace (r <? d2_first d) with false by (symmetry; apply Z.ltb_ge; exact LE). cbn [bind].
    rewrite T. cbn [bind]. set (idx := (r - d2_first d) / g) in *.
    assert (CE : cell d r = nth (Z.to_nat idx) (d2_dpds d) (empty1 S)).
    { unfold cell. replace (d2_first d <=? r) with true by (symmetry; apply Z.leb_le; exact LE).
      assert (DV : (g | r - d2_first d)) by (apply Z.divide_sub_r; [apply R|exact D]).
      apply Z.mod_divide in DV; [|lia]. rewrite DV. reflexivity. }
    rewrite CE in HI.
    assert (exists dpds, (do dpds <-
      (if (N.of_nat (length (d2_dpds d)) <=? Z.to_N idx)%N
       then resize (empty1 S) DPDS_MAX (size_of (Z.of_N (Z.to_N idx) + 1)) (d2_dpds d)
       else Ok (d2_dpds d));
      (if (Z.to_N idx <? N.of_nat (length dpds))%N
                then update dpds (N.to_nat (Z.to_N idx)) (fun q => insert1 S q v p) else UB)) = Ok dpds /\
      dpds = put (empty1 S) (d2_dpds d) (Z.to_nat idx) inner) as (dpds & U & ->).
    { eexists. split; [|reflexivity]. replace (N.to_nat (Z.to_N idx)) with (Z.to_nat idx) by lia.
      destruct (N.of_nat (length (d2_dpds d)) <=? Z.to_N idx)%N eqn:LL.
      - apply N.leb_le in LL. replace (size_of (Z.of_N (Z.to_N idx) + 1)) with (Z.to_N idx + 1)%N.
        2:{ unfold size_of. rewrite Z.mod_small by (unfold M64; lia). lia. }
        unfold resize. replace (DPDS_MAX <? Z.to_N idx + 1)%N with false by (symmetry; apply N.ltb_ge; unfold DPDS_MAX; lia).
        cbn [bind]. rewrite firstn_all2 by lia. rewrite app_length, repeat_length.
        replace (Z.to_N idx <? _)%N with true by (symmetry; apply N.ltb_lt; lia).
        rewrite (update_put (empty1 S) _ _ (Z.to_nat idx) inner).
        + f_equal. apply put_pad. lia.
        + rewrite app_length, repeat_length. lia.
        + rewrite nth_overflow in HI by lia. rewrite app_nth2 by lia. rewrite nth_repeat. exact HI.
      - apply N.leb_gt in LL. cbn [bind]. replace (Z.to_N idx <? _)%N with true by (symmetry; apply N.ltb_lt; lia).
        apply update_put; [lia|exact HI]. }
    apply bind_Ok in U. destruct U as (dp & U1 & U2). rewrite U1. cbn [bind]. rewrite U2. cbn [bind].
    eexists. split; [reflexivity|]. cbn [d2_first d2_dpds]. split; [|split; [reflexivity|]].
    - constructor; cbn [d2_first d2_dpds]; auto.
      + intros X. apply (f_equal (@length _)) in X. rewrite put_length in X. cbn [length] in X. lia.
      + rewrite put_length. destruct (Nat.max_spec (length (d2_dpds d)) (Datatypes.S (Z.to_nat idx))) as [(A & ->)|(A & ->)]; [|exact L].
        destruct HF as (HF1 & HF2). destruct R as (_ & R). nia.
    - intros x. unfold cell. cbn [d2_first d2_dpds].
      destruct ((d2_first d <=? x) && ((x - d2_first d) mod g =? 0)) eqn:C.
      + rewrite put_nth. apply andb_prop in C. destruct C as (C1 & C2). apply Z.leb_le in C1. apply Z.eqb_eq in C2.
        apply Z.div_exact in C2; [|lia].
        destruct (r =? x) eqn:EX.
        * apply Z.eqb_eq in EX. subst x. fold idx. rewrite Nat.eqb_refl. reflexivity.
        * apply Z.eqb_neq in EX. replace (Nat.eqb _ _) with false; [reflexivity|]. symmetry. apply Nat.eqb_neq.
          intros K. apply EX. assert ((x - d2_first d) / g = idx) by nia. nia.
      + destruct (r =? x) eqn:EX; [|reflexivity]. exfalso. apply Z.eqb_eq in EX. subst x.
        replace (d2_first d <=? r) with true in C by (symmetry; apply Z.leb_le; exact LE).
        assert (DV : (g | r - d2_first d)) by (apply Z.divide_sub_r; [apply R|exact D]).
        apply Z.mod_divide in DV; [|lia]. rewrite DV in C. discriminate.
  Qed.

  (* what is known about the buckets after the insertions pre *)
  Definition none (a : list (Z * Z * Q)) (x : Z) : Prop := forall k w q, In (k, w, q) a -> ~ rounds g k x.
  Definition cells_ok (pre : list (Z * Z * Q)) (d : dpd2) : Prop := forall x,
    (cell d x = empty1 S /\ none pre x) \/
    (good1 S (cell d x) /\ exists a h v p b, pre = a ++ (h, v, p) :: b /\ rounds g h x /\ none a x /\
       rounds (pr_gran S) v (d1_first (cell d x))).
  Definition masses (pre : list (Z * Z * Q)) (d : dpd2) : Prop := forall x v q, mass2 g x v pre q -> (at1 S (cell d x) v == q)%Q.

  Hypothesis G1 : pr_gran S = 1.
  Lemma rounds1 v w : rounds (pr_gran S) v w <-> v = w.
  Proof. rewrite G1. split; [intros (_ & H); lia|]. intros ->. split; [apply Z.divide_1_l|lia]. Qed.
  Lemma mass2_snoc x v pre h w p q : mass2 g x v (pre ++ [(h, w, p)]) q ->
    exists q0, mass2 g x v pre q0 /\
      ((rounds g h x /\ w = v /\ (q == q0 + p)%Q) \/ (~ (rounds g h x /\ w = v) /\ (q == q0)%Q)).
  Proof.
    revert q. induction pre as [|[[h1 w1] p1] pre IH]; intros q M; cbn [app] in M.
    - inversion M as [|? ? ? q' R1 M1|? ? ? ? q' R1 M1]; subst; inversion M1; subst; exists 0%Q; (split; [constructor|]).
      + left. split; [exact R1|]. split; [reflexivity|]. ring.
      + right. split; [exact R1|reflexivity].
    - inversion M as [|? ? ? q' R1 M1|? ? ? ? q' R1 M1]; subst; destruct (IH _ M1) as (q0 & M0 & C).
      + exists (p1 + q0)%Q. split; [apply mass2_in; assumption|]. destruct C as [(C1 & C2 & C3)|(C1 & C3)].
        * left. split; [exact C1|]. split; [exact C2|]. rewrite C3. ring.
        * right. split; [exact C1|]. rewrite C3. ring.
      + exists q0. split; [apply mass2_out; assumption|]. exact C.
  Qed.
  Lemma cells_step pre d d' h v p r : cells_ok pre d -> masses pre d -> rounds g h r -> fits S v ->
    (forall a h0 v0 p0 b, pre = a ++ (h0, v0, p0) :: b -> rounds g h0 r -> none a r -> v0 <= v) ->
    exists inner, insert1 S (cell d r) v p = Ok inner /\
      ((forall x, cell d' x = if r =? x then inner else cell d x) ->
        cells_ok (pre ++ [(h, v, p)]) d' /\ masses (pre ++ [(h, v, p)]) d').
  Proof.
    intros C M R FV SF. pose proof NP as (G & _).
    assert (HI : exists inner, insert1 S (cell d r) v p = Ok inner /\ good1 S inner /\
      (forall w, (at1 S inner w == at1 S (cell d r) w + (if v =? w then p else 0))%Q) /\
      ((none pre r /\ d1_first inner = v) \/ (exists a h0 v0 p0 b, pre = a ++ (h0, v0, p0) :: b /\ rounds g h0 r /\ none a r /\
         rounds (pr_gran S) v0 (d1_first inner)))).
    { destruct (C r) as [(E & NN)|(GI & a & h0 & v0 & p0 & b & EP & R0 & NA & F0)].
      - rewrite E. destruct (insert1_empty S NS v p v FV) as (i & I1 & I2 & I3 & I4); [apply rounds1; reflexivity|].
        exists i. split; [exact I1|]. split; [exact I2|]. split; [|left; auto]. intros w. rewrite I4.
        unfold at1. cbn [empty1 d1_mass d1_first]. destruct (_ && _); [|ring]. destruct (Z.to_nat _); cbn [nth]; ring.
      - destruct (insert1_good S NS (cell d r) v p v GI FV) as (i & I1 & I2 & I3 & I4); [apply rounds1; reflexivity| |].
        { apply rounds1 in F0. rewrite <- F0. eapply SF; eauto. }
        exists i. split; [exact I1|]. split; [exact I2|]. split; [exact I4|]. right.
        exists a, h0, v0, p0, b. rewrite I3. auto. }
    destruct HI as (inner & I1 & I2 & I3 & I4). exists inner. split; [exact I1|]. intros CE. split.
    - intros x. rewrite CE. destruct (r =? x) eqn:EX.
      + apply Z.eqb_eq in EX. subst x. right. split; [exact I2|].
        destruct I4 as [(NN & F)|(a & h0 & v0 & p0 & b & EP & R0 & NA & F0)].
        * exists pre, h, v, p, []. split; [reflexivity|]. split; [exact R|]. split; [exact NN|]. rewrite F. apply rounds1. reflexivity.
        * exists a, h0, v0, p0, (b ++ [(h, v, p)]). split; [rewrite EP, <- app_assoc; reflexivity|]. auto.
      + apply Z.eqb_neq in EX. destruct (C x) as [(E & NN)|(GI & a & h0 & v0 & p0 & b & EP & R0 & NA & F0)].
        * left. split; [exact E|]. intros k w q I RK. apply in_app_or in I. destruct I as [I|[[= <- <- <-]|[]]].
          -- exact (NN k w q I RK).
          -- apply EX. exact (rounds_unique g h r x G R RK).
        * right. split; [exact GI|]. exists a, h0, v0, p0, (b ++ [(h, v, p)]). split; [rewrite EP, <- app_assoc; reflexivity|]. auto.
    - intros x w q MQ. apply mass2_snoc in MQ. destruct MQ as (q0 & M0 & CQ). specialize (M x w q0 M0). rewrite CE.
      destruct (r =? x) eqn:EX.
      + apply Z.eqb_eq in EX. subst x. rewrite I3, M. destruct CQ as [(_ & -> & ->)|(NC & ->)].
        * rewrite Z.eqb_refl. reflexivity.
        * replace (v =? w) with false by (symmetry; apply Z.eqb_neq; tauto). ring.
      + apply Z.eqb_neq in EX. destruct CQ as [(RK & _)|(_ & ->)]; [|exact M].
        exfalso. apply EX. exact (rounds_unique g h r x G R RK).
  Qed.

  Lemma inserts2_good l : forall pre d, good2 d -> cells_ok pre d -> masses pre d ->
    (forall h v p, In (h, v, p) l -> fits P h /\ fits S v) ->
    (forall h v p r, In (h, v, p) l -> rounds g h r -> d2_first d <= r) ->
    slowest_first g (pre ++ l) ->
    exists d', inserts2 P S d l = Ok d' /\ good2 d' /\ cells_ok (pre ++ l) d' /\ masses (pre ++ l) d'.
  Proof.
    induction l as [|[[h v] p] l IH]; intros pre d GD C M HF HR SF; cbn [inserts2].
    - exists d. rewrite app_nil_r. auto.
    - destruct (HF h v p (or_introl eq_refl)) as (Fh & Fv).
      destruct (round_ok P NP h) as (r & _ & R & _); [destruct Fh; lia|destruct Fh; lia|].
      pose proof (HR h v p r (or_introl eq_refl) R) as LE.
      assert (HX : exists inner, insert1 S (cell d r) v p = Ok inner).
      { destruct (cells_step pre d d h v p r C M R Fv) as (i & I & _); [|eauto].
        intros a h0 v0 p0 b EP R0 NA. apply (SF r a h0 v0 p0 b h v p l); auto. rewrite EP, <- app_assoc. reflexivity. }
      destruct HX as (inner & HI). destruct (insert2_ok d h v p r inner GD Fh R LE HI) as (d1 & E1 & GD1 & F1 & CE).
      rewrite E1. cbn [bind].
      destruct (cells_step pre d d1 h v p r C M R Fv) as (i & I & K).
      { intros a h0 v0 p0 b EP R0 NA. apply (SF r a h0 v0 p0 b h v p l); auto. rewrite EP, <- app_assoc. reflexivity. }
      assert (i = inner) by congruence. subst i. destruct (K CE) as (C1 & M1).
      destruct (IH (pre ++ [(h, v, p)]) d1 GD1 C1 M1) as (d' & E' & G' & C' & M').
      { intros. apply (HF _ _ p0). right. assumption. }
      { intros. rewrite F1. eapply HR; [right; eassumption|eassumption]. }
      { rewrite <- app_assoc. exact SF. }
      exists d'. rewrite <- app_assoc in C', M'. auto.
  Qed.
  Lemma inserts2_history l : l <> [] -> (forall h v p, In (h, v, p) l -> fits P h /\ fits S v) ->
    first_least g (map (fun e => fst (fst e)) l) -> slowest_first g l ->
    exists d, inserts2 P S (empty2 P) l = Ok d /\ good2 d /\ cells_ok l d /\ masses l d.
  Proof.
    destruct l as [|[[h v] p] l]; [congruence|]. intros _ HF FL SF. cbn [inserts2]. pose proof NP as (G & GM & _).
    destruct (HF h v p (or_introl eq_refl)) as (Fh & Fv).
    destruct (round_ok P NP h) as (r & E & R & P0); [destruct Fh; lia|destruct Fh; lia|].
    assert (E2 : exists inner, insert1 S (empty1 S) v p = Ok inner /\ insert2 P S (empty2 P) h v p = Ok (mkdpd2 r [inner])).
    { destruct (insert1_empty S NS v p v Fv) as (i & I1 & _); [apply rounds1; reflexivity|]. exists i. split; [exact I1|].
      unfold insert2. rewrite E. cbn [bind empty2 d2_first d2_dpds]. rewrite Z.eqb_refl, I1. reflexivity. }
    destruct E2 as (inner & HI & E2). rewrite E2. cbn [bind].
    set (d0 := mkdpd2 r [empty1 S]). set (d1 := mkdpd2 r [inner]).
    assert (C0 : forall x, cell d0 x = empty1 S).
    { intros x. unfold cell, d0. cbn [d2_first d2_dpds]. destruct (_ && _); [|reflexivity]. destruct (Z.to_nat _) as [|[|n]]; reflexivity. }
    assert (OK0 : cells_ok [] d0) by (intros x; left; split; [apply C0|intros k w q []]).
    assert (MS0 : masses [] d0).
    { intros x w q MQ. inversion MQ. rewrite C0. unfold at1. cbn [empty1 d1_mass d1_first]. destruct (_ && _); [|reflexivity].
      destruct (Z.to_nat _); reflexivity. }
    destruct (cells_step [] d0 d1 h v p r OK0 MS0 R Fv) as (i & I & K).
    { intros a h0 v0 p0 b EP. destruct a; discriminate. }
    rewrite C0 in I. assert (i = inner) by congruence. subst i.
    destruct K as (C1 & M1).
    { intros x. rewrite C0. unfold cell, d1. cbn [d2_first d2_dpds]. destruct (r =? x) eqn:EX.
      - apply Z.eqb_eq in EX. subst x. rewrite Z.leb_refl, Z.sub_diag, Z.mod_0_l, Z.div_0_l by lia. reflexivity.
      - apply Z.eqb_neq in EX. destruct ((r <=? x) && _) eqn:CC; [|reflexivity]. apply andb_prop in CC. destruct CC as (CC1 & CC2).
        apply Z.leb_le in CC1. apply Z.eqb_eq in CC2. apply Z.div_exact in CC2; [|lia].
        assert (1 <= (x - r) / g) by nia. destruct (Z.to_nat ((x - r) / g)) as [|[|n]] eqn:EN; [lia|reflexivity|reflexivity]. }
    assert (GD : good2 d1).
    { constructor; cbn [d1 d2_dpds d2_first length]; [discriminate| |apply R|].
      - destruct Fh as (? & ?), R as (? & ?). lia.
      - destruct Fh as (? & ?), R as (? & ?). lia. }
    destruct (inserts2_good l [(h, v, p)] d1 GD C1 M1) as (d' & E' & G' & C' & M').
    { intros. apply (HF _ _ p0). right. assumption. }
    { intros h' v' p' r' I' R'. cbn [d1 d2_first]. cbn [map fst first_least] in FL. apply (FL h' r r'); auto.
      apply (in_map (fun e => fst (fst e))) in I'. exact I'. }
    { exact SF. }
    exists d'. auto.
  Qed.

  (* walking through both levels *)
  Lemma listed_app {A} eqb (a b : list (A * Q)) x : (listed eqb (a ++ b) x == listed eqb a x + listed eqb b x)%Q.
  Proof. induction a as [|[y p] a IH]; cbn [app listed]; [ring|]. destruct (eqb y x); rewrite IH; ring. Qed.
  Lemma listed_inner (es : list (Z * Q)) y x v :
    (listed pair_eqb (map (fun e => (y, fst e, snd e)) es) (x, v) == if y =? x then listed Z.eqb es v else 0)%Q.
  Proof.
    induction es as [|[w p] es IH]; cbn [map listed fst snd]; [destruct (y =? x); reflexivity|].
    unfold pair_eqb at 1. cbn [fst snd]. destruct (y =? x); cbn [andb]; [|exact IH].
    destruct (w =? v); rewrite IH; reflexivity.
  Qed.
  Lemma walk_ok dpds : (forall c, In c dpds -> c = empty1 S \/ good1 S c) ->
    forall t i, exists es, walk S (map (fun y => (t + g * fst y, snd y)) (numbered i dpds)) = Ok es /\
    forall x v, Qeq (listed pair_eqb es (x, v))
      (if (t + g * i <=? x) && ((x - t - g * i) mod g =? 0) then at1 S (nth (Z.to_nat ((x - t - g * i) / g)) dpds (empty1 S)) v else 0%Q).
  Proof.
    pose proof NP as (G & _). induction dpds as [|c dpds IH]; intros HC t i; cbn [numbered map walk].
    - exists []. split; [reflexivity|]. intros x v. cbn [listed]. destruct (_ && _); [|reflexivity].
      rewrite nth_nil, at1_empty. reflexivity.
    - assert (HE : exists es, entries1 S c = Ok es /\ forall x, (listed Z.eqb es x == at1 S c x)%Q).
      { destruct (HC c (or_introl eq_refl)) as [-> |GC]; [|apply entries_at; assumption].
        exists []. split; [reflexivity|]. intros x. cbn [listed]. rewrite at1_empty. reflexivity. }
      destruct HE as (es & E1 & E2). cbn [fst snd]. rewrite E1. cbn [bind].
      destruct (IH (fun c H => HC c (or_intror H)) t (i + 1)) as (r & R1 & R2). rewrite R1. cbn [bind]. eexists. split; [reflexivity|].
      intros x v. rewrite listed_app, listed_inner. specialize (R2 x v). rewrite R2. clear R1 R2 IH.
      destruct (t + g * i =? x) eqn:E.
      + apply Z.eqb_eq in E. replace (t + g * (i + 1) <=? x) with false by (symmetry; apply Z.leb_gt; nia).
        replace (t + g * i <=? x) with true by (symmetry; apply Z.leb_le; lia).
        replace (x - t - g * i) with 0 by lia. rewrite Z.mod_0_l, Z.div_0_l by lia. cbn [andb Z.eqb Z.to_nat nth]. rewrite E2. ring.
      + apply Z.eqb_neq in E. replace (x - t - g * (i + 1)) with (x - t - g * i + (-1) * g) by ring.
        rewrite Z.mod_add, Z.div_add by lia.
        destruct (t + g * i <=? x) eqn:L.
        * apply Z.leb_le in L. cbn [andb]. destruct ((x - t - g * i) mod g =? 0) eqn:D; [|rewrite andb_false_r; ring].
          rewrite andb_true_r. apply Z.eqb_eq in D. apply Z.div_exact in D; [|lia].
          assert (1 <= (x - t - g * i) / g) by nia. replace (t + g * (i + 1) <=? x) with true by (symmetry; apply Z.leb_le; nia).
          replace (Z.to_nat ((x - t - g * i) / g)) with (Datatypes.S (Z.to_nat ((x - t - g * i) / g + -1))) by lia. cbn [nth]. ring.
        * apply Z.leb_gt in L. cbn [andb]. replace (t + g * (i + 1) <=? x) with false by (symmetry; apply Z.leb_gt; nia). cbn [andb]. ring.
  Qed.
  Lemma cell_nth d i : good2 d -> (i < length (d2_dpds d))%nat -> cell d (d2_first d + g * Z.of_nat i) = nth i (d2_dpds d) (empty1 S).
  Proof.
    intros _ L. pose proof NP as (G & _). unfold cell. replace (d2_first d <=? _) with true by (symmetry; apply Z.leb_le; nia).
    replace (d2_first d + g * Z.of_nat i - d2_first d) with (Z.of_nat i * g) by ring. rewrite Z.mod_mul, Z.div_mul by lia.
    cbn [Z.eqb andb]. rewrite Nat2Z.id. reflexivity.
  Qed.
  Lemma walk_cells d pre : good2 d -> cells_ok pre d -> exists es l, entries2 P S d = Ok l /\ walk S l = Ok es /\
    forall x v, (listed pair_eqb es (x, v) == at1 S (cell d x) v)%Q.
  Proof.
    intros GD C. destruct (walk_ok (d2_dpds d)) with (t := d2_first d) (i := 0) as (es & W & L).
    { intros c Hc. destruct (In_nth _ _ (empty1 S) Hc) as (i & I1 & I2).
      destruct (C (d2_first d + g * Z.of_nat i)) as [(E & _)|(E & _)]; rewrite (cell_nth d i GD I1), I2 in E; auto. }
    exists es. eexists. split; [|split; [exact W|]].
    - unfold entries2. apply entries_from_ok; [exact NP|apply GD|apply GD].
    - intros x v. rewrite L. unfold cell. replace (x - d2_first d - g * 0) with (x - d2_first d) by ring.
      replace (d2_first d + g * 0) with (d2_first d) by ring. destruct (_ && _); [reflexivity|].
      rewrite at1_empty. reflexivity.
  Qed.
End TWO.

(* ---- iterate ---- *)
Lemma numbered_shift {A} (l : list A) i : numbered (i + 1) l = map (fun x => (fst x + 1, snd x)) (numbered i l).
Proof. revert i. induction l as [|a l IH]; intros i; cbn [numbered map fst snd]; [reflexivity|]. f_equal. apply IH. Qed.
Lemma numbered_bound {A} (l : list A) : forall i x, In x (numbered i l) -> i <= fst x < i + Z.of_nat (length l).
Proof.
  induction l as [|a l IH]; intros i x; [intros []|]. cbn [numbered length]. intros [<-|H]; [cbn [fst]; lia|].
  apply IH in H. lia.
Qed.
Definition big (p : Q) : bool := negb (is_zero p).
Lemma iterate1_from_ok P l first : norm_ok P -> 0 <= first ->
  (forall x, In x l -> 0 <= fst x /\ first + pr_gran P * fst x <= pr_max P) ->
  iterate1_from P first l = Ok (filter (fun e => big (snd e)) (map (fun x => (first + pr_gran P * fst x, snd x)) l)).
Proof.
  intros (G & GM & NO) F0. induction l as [|[i p] l IH]; intros HB; cbn [iterate1_from map filter fst snd]; [reflexivity|].
  unfold big at 1. assert (HB' := fun x H => HB x (or_intror H)). rewrite (IH HB'). cbn [snd]. destruct (is_zero p); cbn [negb]; [reflexivity|].
  destruct (HB (i, p) (or_introl eq_refl)) as (B1 & B2). cbn [fst] in *.
  rewrite NO by nia. cbn [bind]. rewrite NO by nia. reflexivity.
Qed.
Lemma iterate1_ok P d : norm_ok P -> good1 P d ->
  exists es, entries1 P d = Ok es /\ iterate1 P d = Ok (filter (fun e => big (snd e)) es).
Proof.
  intros N [NE F D L]. eexists. split; [apply entries_from_ok; assumption|]. unfold iterate1. apply iterate1_from_ok; auto.
  intros x Hx. apply numbered_bound in Hx. split; [lia|]. destruct N. nia.
Qed.
Lemma big_spec p : big p = true <-> ((1#100) <= p \/ p <= - (1#100))%Q.
Proof.
  unfold big, is_zero. destruct (Qle_bool (1#100) p) eqn:A; destruct (Qle_bool p (-(1#100))) eqn:B; cbn [negb andb];
    rewrite <- !Qle_bool_iff, ?A, ?B; intuition congruence.
Qed.

(* iterating two levels: every speed is reported one too high *)
Definition shifted (e : Z * Z * Q) : Z * Z * Q := (fst (fst e), (snd (fst e) + 1) mod 65536, snd e).
Lemma iterate_inner_ok P l first i sfirst : norm_ok P -> 0 <= first -> 0 <= i -> first + pr_gran P * i <= pr_max P ->
  iterate_inner P speed_primary first i sfirst l =
  Ok (map shifted (filter (fun e => big (snd e)) (map (fun e => (first + pr_gran P * i, fst e, snd e)) (map (fun x => (sfirst + 1 * fst x, snd x)) l)))).
Proof.
  intros (G & GM & NO) F0 I0 L. induction l as [|[j p] l IH]; cbn [iterate_inner map filter fst snd]; [reflexivity|].
  unfold big at 1. rewrite IH. cbn [snd]. destruct (is_zero p); cbn [negb map]; [reflexivity|].
  rewrite NO by nia. cbn [bind]. rewrite NO by nia. cbn [bind pr_norm speed_primary uint16 pr_gran].
  do 2 f_equal. unfold shifted. cbn [fst snd]. do 2 f_equal. rewrite Z.add_mod_idemp_l by lia. f_equal. ring.
Qed.
Lemma iterate2_ok P d pre : norm_ok P -> good2 P d -> cells_ok P speed_primary pre d ->
  exists l es, entries2 P speed_primary d = Ok l /\ walk speed_primary l = Ok es /\
    iterate2 P speed_primary d = Ok (map shifted (filter (fun e => big (snd e)) es)).
Proof.
  intros N GD C. pose proof N as (G & GM & NO).
  assert (HC : forall c, In c (d2_dpds d) -> c = empty1 speed_primary \/ good1 speed_primary c).
  { intros c Hc. destruct (In_nth _ _ (empty1 speed_primary) Hc) as (i & I1 & I2).
    destruct (C (d2_first d + pr_gran P * Z.of_nat i)) as [(E & _)|(E & _)]; rewrite (cell_nth P speed_primary N d i GD I1), I2 in E; auto. }
  assert (HB : forall x, In x (numbered 0 (d2_dpds d)) -> 0 <= fst x /\ d2_first d + pr_gran P * fst x <= pr_max P).
  { intros x Hx. apply numbered_bound in Hx. split; [lia|]. destruct GD. nia. }
  assert (IN : forall x, In x (numbered 0 (d2_dpds d)) -> In (snd x) (d2_dpds d)).
  { clear. generalize 0. induction (d2_dpds d) as [|a l IH]; intros i x; [intros []|]. cbn [numbered]. intros [<-|H]; [left; reflexivity|right; eapply IH; exact H]. }
  assert (F0 : 0 <= d2_first d) by apply GD.
  assert (X : exists es, walk speed_primary (map (fun y => (d2_first d + pr_gran P * fst y, snd y)) (numbered 0 (d2_dpds d))) = Ok es /\
     iterate2 P speed_primary d = Ok (map shifted (filter (fun e => big (snd e)) es))).
  { unfold iterate2. clear C GD. revert HB IN. generalize (numbered 0 (d2_dpds d)) as nl.
    induction nl as [|[i c] nl IH]; intros HB IN; cbn [map walk iterate2_from]; [exists []; auto|].
    destruct (IH (fun x H => HB x (or_intror H)) (fun x H => IN x (or_intror H))) as (r & R1 & R2).
    destruct (HB (i, c) (or_introl eq_refl)) as (B1 & B2). cbn [fst snd] in *.
    assert (HE : entries1 speed_primary c = Ok (map (fun x => (d1_first c + 1 * fst x, snd x)) (numbered 0 (d1_mass c)))).
    { destruct (HC c (IN (i, c) (or_introl eq_refl))) as [-> |[GN GF GD GL]]; [reflexivity|].
      apply (entries_from_ok speed_primary speed_norm_ok); assumption. }
    rewrite HE. cbn [bind]. rewrite R1. cbn [bind]. eexists. split; [reflexivity|].
    rewrite (iterate_inner_ok P _ (d2_first d) i (d1_first c) N F0 B1 B2). cbn [bind]. rewrite R2. cbn [bind].
    rewrite filter_app, map_app. reflexivity. }
  destruct X as (es & X1 & X2). eexists. exists es. split; [|split; [exact X1|exact X2]].
  apply entries_from_ok; [exact N|apply GD|apply GD].
Qed.

(* speeds that never decrease *)
Lemma sorted_slowest g l : StronglySorted (fun e f : Z * Z * Q => snd (fst e) <= snd (fst f)) l -> slowest_first g l.
Proof.
  intros S x a h v p b h' v' p' c -> _ _ _. induction a as [|e a IH]; cbn [app] in S; apply StronglySorted_inv in S; destruct S as (S1 & S2).
  - apply Forall_app in S2. destruct S2 as (_ & S2). inversion S2; subst. assumption.
  - auto.
Qed.
