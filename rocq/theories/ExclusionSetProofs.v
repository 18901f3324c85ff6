(* Proofs about the exclusion-set model. *)
From Coq Require Import Sorted ZifyBool ZifyNat ZifyN.
From Verif Require Import Base ExclusionSetModel NLists.
Local Open Scope N_scope.
Ltac Zify.zify_post_hook ::= Z.div_mod_to_equations.

Ltac bool_cases :=
  repeat match goal with
         | |- context [N.testbit ?a ?b] => destruct (N.testbit a b)
         | |- context [existsb ?f ?l] => destruct (existsb f l)
         end; reflexivity.

(* ---------- bit vector blocks ---------- *)

Lemma nblocks_mul b k : bsize b = 64 * k -> bv_nblocks b = k.
Proof. intros H. unfold bv_nblocks. lia. Qed.

Lemma block_ok b i : i < bv_nblocks b ->
  exists w, bv_block b i = Ok w /\
    forall n, N.testbit w n = (n <? 64) && N.testbit (bval b) (64 * i + n).
Proof.
  intros H. unfold bv_block. rewrite (proj2 (N.ltb_lt _ _) H).
  eexists; split; [reflexivity|]. intros n.
  destruct (N.ltb_spec n 64) as [Hn|Hn].
  - rewrite N.mod_pow2_bits_low by exact Hn. rewrite N.shiftr_spec by lia.
    replace (n + 64 * i) with (64 * i + n) by lia. reflexivity.
  - rewrite N.mod_pow2_bits_high by exact Hn. reflexivity.
Qed.

Lemma put_block_ok b i w : i < bv_nblocks b -> (forall n, 64 <= n -> N.testbit w n = false) ->
  exists b', bv_put_block b i w = Ok b' /\ bsize b' = bsize b /\
    forall n, N.testbit (bval b') n =
      if n / 64 =? i then N.testbit w (n mod 64) else N.testbit (bval b) n.
Proof.
  intros H Hw. unfold bv_put_block. rewrite (proj2 (N.ltb_lt _ _) H).
  eexists; split; [reflexivity|]. split; [reflexivity|]. intros n. cbn [bval].
  rewrite N.lor_spec, N.ldiff_spec.
  destruct (N.ltb_spec n (64 * i)) as [Hlo|Hlo].
  - rewrite !N.shiftl_spec_low by exact Hlo.
    destruct (N.eqb_spec (n / 64) i); [lia|]. simpl. rewrite andb_true_r, orb_false_r. reflexivity.
  - rewrite !N.shiftl_spec_high' by exact Hlo.
    destruct (N.eqb_spec (n / 64) i) as [He|He].
    + rewrite N.ones_spec_low by lia. cbn [negb]. rewrite andb_false_r. cbn [orb].
      replace (n - 64 * i) with (n mod 64) by lia. reflexivity.
    + rewrite N.ones_spec_high by lia. cbn [negb]. rewrite andb_true_r.
      rewrite Hw by lia. apply orb_false_r.
Qed.

(* ---------- block loops ---------- *)

Lemma or_loop_ok is : forall t o diff,
  (forall i, In i is -> i + diff < bv_nblocks t /\ i < bv_nblocks o) ->
  exists t', or_loop t o diff is = Ok t' /\ bsize t' = bsize t /\
    forall n, N.testbit (bval t') n =
      N.testbit (bval t) n ||
      (existsb (fun i => n / 64 =? i + diff) is && N.testbit (bval o) (n - 64 * diff)).
Proof.
  induction is as [|i is IH]; intros t o diff Hin.
  - exists t. split; [reflexivity|]. split; [reflexivity|]. intros n. simpl.
    rewrite orb_false_r. reflexivity.
  - destruct (Hin i (or_introl eq_refl)) as [Ht Ho].
    destruct (block_ok t (i + diff) Ht) as [wt [Ewt Hwt]].
    destruct (block_ok o i Ho) as [wo [Ewo Hwo]].
    destruct (put_block_ok t (i + diff) (N.lor wt wo) Ht) as [t1 [Et1 [Hs1 Hb1]]].
    { intros n Hn. rewrite N.lor_spec, Hwt, Hwo.
      destruct (N.ltb_spec n 64); [lia|reflexivity]. }
    destruct (IH t1 o diff) as [t' [Et' [Hs' Hb']]].
    { intros j Hj. unfold bv_nblocks in *. rewrite Hs1. apply Hin. right; exact Hj. }
    exists t'. cbn [or_loop bind]. rewrite Ewt. cbn [bind]. rewrite Ewo. cbn [bind].
    rewrite Et1. cbn [bind]. split; [exact Et'|]. split; [congruence|].
    intros n. rewrite Hb', Hb1. cbn [existsb].
    destruct (N.eqb_spec (n / 64) (i + diff)) as [He|He].
    + rewrite N.lor_spec, Hwt, Hwo.
      destruct (N.ltb_spec (n mod 64) 64); [|lia].
      replace (64 * (i + diff) + n mod 64) with n by lia.
      replace (64 * i + n mod 64) with (n - 64 * diff) by lia.
      bool_cases.
    + reflexivity.
Qed.

Lemma sub_loop_ok is : forall t o (sm : bool) diff,
  (forall i, In i is -> (if sm then i + diff else i) < bv_nblocks t /\
                        (if sm then i else i + diff) < bv_nblocks o) ->
  exists t', sub_loop t o sm diff is = Ok t' /\ bsize t' = bsize t /\
    forall n, N.testbit (bval t') n =
      N.testbit (bval t) n &&
      negb (existsb (fun i => n / 64 =? (if sm then i + diff else i)) is &&
            N.testbit (bval o) (if sm then n - 64 * diff else n + 64 * diff)).
Proof.
  induction is as [|i is IH]; intros t o sm diff Hin.
  - exists t. split; [reflexivity|]. split; [reflexivity|]. intros n. simpl.
    rewrite andb_true_r. reflexivity.
  - destruct (Hin i (or_introl eq_refl)) as [Ht Ho].
    cbn [sub_loop]. set (it := if sm then i + diff else i) in *.
    set (io := if sm then i else i + diff) in *.
    destruct (block_ok t it Ht) as [wt [Ewt Hwt]].
    destruct (block_ok o io Ho) as [wo [Ewo Hwo]].
    destruct (put_block_ok t it (N.land wt (N.lxor wo (N.ones 64))) Ht) as [t1 [Et1 [Hs1 Hb1]]].
    { intros n Hn. rewrite N.land_spec, Hwt.
      destruct (N.ltb_spec n 64); [lia|reflexivity]. }
    destruct (IH t1 o sm diff) as [t' [Et' [Hs' Hb']]].
    { intros j Hj. unfold bv_nblocks in *. rewrite Hs1. apply Hin. right; exact Hj. }
    exists t'. rewrite Ewt. cbn [bind]. rewrite Ewo. cbn [bind].
    rewrite Et1. cbn [bind]. split; [exact Et'|]. split; [congruence|].
    intros n. rewrite Hb', Hb1. cbn [existsb].
    change (if sm then i + diff else i) with it.
    destruct (N.eqb_spec (n / 64) it) as [He|He].
    + rewrite N.land_spec, N.lxor_spec, Hwt, Hwo.
      destruct (N.ltb_spec (n mod 64) 64); [|lia].
      rewrite N.ones_spec_low by lia.
      replace (64 * it + n mod 64) with n by lia.
      replace (64 * io + n mod 64) with (if sm then n - 64 * diff else n + 64 * diff)
        by (subst it io; destruct sm; lia).
      cbn [orb].
      bool_cases.
    + reflexivity.
Qed.

Lemma lor_absorb_iff x y : N.lor x y = y <-> (forall n, N.testbit x n = true -> N.testbit y n = true).
Proof.
  split.
  - intros H n Hx. rewrite <- H, N.lor_spec, Hx. reflexivity.
  - intros H. apply N.bits_inj. intros n. rewrite N.lor_spec.
    specialize (H n). destruct (N.testbit x n), (N.testbit y n); simpl; auto.
    symmetry. auto.
Qed.

Lemma contains_loop_ok is : forall a b diff,
  (forall i, In i is -> i + diff < bv_nblocks a /\ i < bv_nblocks b) ->
  exists r, contains_loop a b diff is = Ok r /\
    (r = true <-> forall i n, In i is -> n < 64 -> N.testbit (bval b) (64 * i + n) = true ->
                    N.testbit (bval a) (64 * (i + diff) + n) = true).
Proof.
  induction is as [|i is IH]; intros a b diff Hin.
  - exists true. split; [reflexivity|]. split; [|reflexivity]. intros _ i n [].
  - destruct (Hin i (or_introl eq_refl)) as [Ha Hb].
    destruct (block_ok a _ Ha) as [wa [Ea Hwa]]. destruct (block_ok b _ Hb) as [wb [Eb Hwb]].
    cbn [contains_loop]. rewrite Eb. cbn [bind]. rewrite Ea. cbn [bind].
    destruct (N.eqb_spec (N.lor wb wa) wa) as [He|He]; cbn [negb].
    + destruct (IH a b diff) as [r [Er Hr]]; [intros j Hj; apply Hin; right; exact Hj|].
      exists r. split; [exact Er|]. rewrite Hr. rewrite lor_absorb_iff in He. split.
      * intros H j n [->|Hj] Hn Hbit; [|apply H; assumption].
        specialize (He n). rewrite Hwa, Hwb in He.
        destruct (N.ltb_spec n 64); [|lia]. simpl in He. apply He. exact Hbit.
      * intros H j n Hj. apply H. right; exact Hj.
    + exists false. split; [reflexivity|]. split; [discriminate|].
      intros H. exfalso. apply He. apply lor_absorb_iff. intros n.
      rewrite Hwa, Hwb. destruct (N.ltb_spec n 64); simpl; [|discriminate].
      apply H; [left; reflexivity|assumption].
Qed.

Lemma same_size_loop_ok is : forall a b pa pb,
  (forall i, In i is -> i < bv_nblocks a /\ i < bv_nblocks b) ->
  exists ra rb, same_size_loop a b is pa pb = Ok (ra, rb) /\
    ((pa = true \/ pb = true) ->
    (ra = true <-> pa = true /\ forall i n, In i is -> n < 64 ->
        N.testbit (bval a) (64 * i + n) = true -> N.testbit (bval b) (64 * i + n) = true) /\
    (rb = true <-> pb = true /\ forall i n, In i is -> n < 64 ->
        N.testbit (bval b) (64 * i + n) = true -> N.testbit (bval a) (64 * i + n) = true)).
Proof.
  induction is as [|i is IH]; intros a b pa pb Hin.
  - exists pa, pb. split; [reflexivity|]. intros _.
    split; (split; [intros H; split; [exact H|intros i n []]|intros [H _]; exact H]).
  - destruct (Hin i (or_introl eq_refl)) as [Ha Hb].
    destruct (block_ok a _ Ha) as [wa [Ea Hwa]]. destruct (block_ok b _ Hb) as [wb [Eb Hwb]].
    cbn [same_size_loop]. rewrite Ea. cbn [bind]. rewrite Eb. cbn [bind].
    assert (Hab : (N.lor wa wb =? wb) = true <->
      forall n, n < 64 -> N.testbit (bval a) (64 * i + n) = true -> N.testbit (bval b) (64 * i + n) = true).
    { rewrite N.eqb_eq, lor_absorb_iff. split; intros H n.
      - intros Hn. specialize (H n). rewrite Hwa, Hwb in H. destruct (N.ltb_spec n 64); [|lia]. exact H.
      - rewrite Hwa, Hwb. destruct (N.ltb_spec n 64); simpl; [|discriminate]. apply H; assumption. }
    assert (Hba : (N.lor wb wa =? wa) = true <->
      forall n, n < 64 -> N.testbit (bval b) (64 * i + n) = true -> N.testbit (bval a) (64 * i + n) = true).
    { rewrite N.eqb_eq, lor_absorb_iff. split; intros H n.
      - intros Hn. specialize (H n). rewrite Hwa, Hwb in H. destruct (N.ltb_spec n 64); [|lia]. exact H.
      - rewrite Hwa, Hwb. destruct (N.ltb_spec n 64); simpl; [|discriminate]. apply H; assumption. }
    set (ea := N.lor wa wb =? wb) in *. set (eb := N.lor wb wa =? wa) in *.
    destruct (negb (pa && ea) && negb (pb && eb)) eqn:Hstop.
    + exists (pa && ea), (pb && eb). split; [reflexivity|]. intros _.
      apply andb_true_iff in Hstop. destruct Hstop as [H1 H2].
      apply negb_true_iff in H1, H2. rewrite H1, H2.
      apply andb_false_iff in H1, H2.
      split; (split; [discriminate|]); intros [Hp H]; exfalso.
      * destruct H1 as [H1|H1]; [congruence|].
        assert (ea = true) by (apply Hab; intros n Hn; apply H; [left; reflexivity|exact Hn]).
        congruence.
      * destruct H2 as [H2|H2]; [congruence|].
        assert (eb = true) by (apply Hba; intros n Hn; apply H; [left; reflexivity|exact Hn]).
        congruence.
    + destruct (IH a b (pa && ea) (pb && eb)) as [ra [rb [E H]]];
        [intros j Hj; apply Hin; right; exact Hj|].
      exists ra, rb. split; [exact E|]. intros _.
      destruct H as [Hra Hrb].
      { apply andb_false_iff in Hstop. rewrite !negb_false_iff in Hstop. exact Hstop. }
      rewrite Hra, Hrb, !andb_true_iff, Hab, Hba.
      split; split.
      * intros [[Hp H1] H2]. split; [exact Hp|]. intros j n [->|Hj] Hn; auto.
      * intros [Hp H1]. split; [split; [exact Hp|]|]; intros; apply H1; auto; [left; reflexivity|right; assumption].
      * intros [[Hp H1] H2]. split; [exact Hp|]. intros j n [->|Hj] Hn; auto.
      * intros [Hp H1]. split; [split; [exact Hp|]|]; intros; apply H1; auto; [left; reflexivity|right; assumption].
Qed.

(* ---------- representation invariant ---------- *)

Record goodne (s : es) : Prop := mkgood {
  g_le : es_fbs s <= es_lbs s;
  g_lim : es_lbs s < M32 - 64;
  g_first : es_first s = 64 * (es_fbs s / 64);
  g_last : es_last s = 64 * (es_lbs s / 64) + 63;
  g_size : bsize (es_bits s) = 64 * (es_lbs s / 64 + 1 - es_fbs s / 64);
  g_fb : N.testbit (bval (es_bits s)) (es_fbs s - es_first s) = true;
  g_lb : N.testbit (bval (es_bits s)) (es_lbs s - es_first s) = true;
  g_rng : forall i, N.testbit (bval (es_bits s)) i = true ->
            es_fbs s <= es_first s + i /\ es_first s + i <= es_lbs s
}.

Definition good (s : es) : Prop :=
  (exists id, s = mkes id INVALID INVALID INVALID INVALID bv_empty) \/ goodne s.

(* membership at the representation level *)
Definition bmem (s : es) (i : N) : bool :=
  (es_first s <=? i) && N.testbit (bval (es_bits s)) (i - es_first s).

Lemma goodne_not_empty s : goodne s -> es_empty s = false.
Proof.
  intros [? ? ? ? Hsz ? ? ?]. unfold es_empty.
  destruct (N.eqb_spec (bsize (es_bits s)) 0) as [H0|H0]; [|rewrite andb_false_r; reflexivity].
  lia.
Qed.

Lemma empty_rep_empty id : es_empty (mkes id INVALID INVALID INVALID INVALID bv_empty) = true.
Proof. reflexivity. Qed.

Lemma goodne_test s i : goodne s ->
  bv_test (es_bits s) i = N.testbit (bval (es_bits s)) i.
Proof.
  intros G. unfold bv_test. destruct (N.testbit (bval (es_bits s)) i) eqn:E.
  - apply (g_rng s G) in E. destruct G as [? ? Hf ? Hs ? ? ?].
    destruct (N.ltb_spec i (bsize (es_bits s))); [reflexivity|]. lia.
  - apply andb_false_r.
Qed.

Lemma goodne_index s i : goodne s -> i < M32 -> es_index s i = bmem s i.
Proof.
  intros G Hi. unfold es_index, bmem.
  destruct (N.ltb_spec i (es_fbs s)) as [H1|H1]; simpl.
  - destruct (N.leb_spec (es_first s) i); [|reflexivity]. simpl.
    destruct (N.testbit (bval (es_bits s)) (i - es_first s)) eqn:E; [|reflexivity].
    apply (g_rng s G) in E. lia.
  - destruct (N.ltb_spec (es_lbs s) i) as [H2|H2].
    + destruct (N.leb_spec (es_first s) i); [|reflexivity]. simpl.
      destruct (N.testbit (bval (es_bits s)) (i - es_first s)) eqn:E; [|reflexivity].
      apply (g_rng s G) in E. lia.
    + destruct (N.leb_spec (es_first s) i) as [H3|H3].
      * rewrite goodne_test by exact G. rewrite sub32_le by assumption. reflexivity.
      * destruct G as [? ? Hf ? ? ? ? ?]. lia.
Qed.

Lemma empty_index id i : es_index (mkes id INVALID INVALID INVALID INVALID bv_empty) i = false.
Proof.
  unfold es_index, bv_test, bv_empty. cbn [es_fbs es_lbs es_bits es_first bsize bval].
  destruct ((i <? INVALID) || (INVALID <? i)); [reflexivity|].
  destruct (N.ltb_spec (sub32 i INVALID) 0); [lia|reflexivity].
Qed.

(* ok_scan in terms of the filtered index list *)
Lemma ok_scan_spec b first is : forall fs ls,
  (forall i, In i is -> bv_test b i = true -> add32 first i <> INVALID) ->
  ok_scan b first is fs ls =
   (if fs =? INVALID then match filter (bv_test b) is with [] => fs | i :: _ => add32 first i end else fs,
    match filter (bv_test b) is with [] => ls | _ => add32 first (List.last (filter (bv_test b) is) 0) end).
Proof.
  induction is as [|i is IH]; intros fs ls Hinv.
  - simpl. destruct (fs =? INVALID); reflexivity.
  - cbn [ok_scan filter]. destruct (bv_test b i) eqn:E.
    + rewrite IH by (intros j Hj; apply Hinv; right; exact Hj).
      rewrite andb_true_r.
      assert (Hi : add32 first i <> INVALID) by (apply Hinv; [left; reflexivity|exact E]).
      f_equal.
      * destruct (N.eqb_spec fs INVALID) as [->|Hfs].
        -- destruct (N.eqb_spec (add32 first i) INVALID); [contradiction|reflexivity].
        -- destruct (N.eqb_spec fs INVALID); [contradiction|reflexivity].
      * destruct (filter (bv_test b) is) as [|j js] eqn:Ef; [reflexivity|].
        reflexivity.
    + rewrite andb_false_r. apply IH. intros j Hj; apply Hinv; right; exact Hj.
Qed.

Lemma goodne_filter_In s i : goodne s ->
  In i (filter (bv_test (es_bits s)) (nrange (bsize (es_bits s)))) <->
  N.testbit (bval (es_bits s)) i = true.
Proof.
  intros G. rewrite filter_In, nrange_In, goodne_test by exact G. split; [tauto|].
  intros H. split; [|exact H]. apply (g_rng s G) in H. destruct G as [? ? Hf ? Hs ? ? ?]. lia.
Qed.

Lemma goodne_ok s : goodne s -> es_ok s = true.
Proof.
  intros G. unfold es_ok. rewrite (goodne_not_empty s G).
  pose proof G as [Hle Hlim Hf Hl Hs Hfb Hlb Hr]. rewrite M32_eq in Hlim.
  assert (EI : INVALID = 4294967295) by reflexivity.
  set (kf := es_fbs s / 64) in *. set (kl := es_lbs s / 64) in *.
  assert (Kb : 64 * kf <= es_fbs s /\ es_fbs s < 64 * kf + 64 /\ 64 * kl <= es_lbs s /\
               es_lbs s < 64 * kl + 64 /\ kf <= kl /\ kl < 67108863) by (subst kf kl; clear - Hle Hlim; lia).
  clearbody kf kl. destruct Kb as [K1 [K2 [K3 [K4 [K5 K6]]]]].
  assert (H1 : (negb (es_first s =? INVALID) && negb (es_last s =? INVALID)
                      && negb (es_fbs s =? INVALID) && negb (es_lbs s =? INVALID)
                      && negb (bsize (es_bits s) =? 0)) = true) by lia.
  rewrite H1. cbn [negb]. clear H1.
  assert (H2 : ((es_first s <=? es_fbs s) && (es_lbs s <=? es_last s)) = true) by lia.
  rewrite H2. cbn [negb]. clear H2.
  assert (H3 : (es_first s <? es_last s) = true) by lia. rewrite H3. cbn [negb]. clear H3.
  rewrite (add32_small (es_first s)) by (rewrite M32_eq; unfold bits_per_block; lia).
  rewrite (sub32_le (es_last s)) by (rewrite ?M32_eq; unfold bits_per_block; lia).
  assert (H4 : ((es_fbs s <=? es_first s + bits_per_block)
             && (es_last s - (bits_per_block - 1) <=? es_lbs s)) = true)
    by (unfold bits_per_block; lia).
  rewrite H4. cbn [negb]. clear H4.
  rewrite (sub32_le (es_lbs s)) by (rewrite ?M32_eq; lia).
  rewrite (add32_small (_ - _)) by (rewrite M32_eq; lia).
  assert (H5 : ((es_lbs s - es_fbs s + 1) / bits_per_block + 1 <=? bsize (es_bits s)) = true)
    by (unfold bits_per_block; lia).
  rewrite H5. cbn [negb]. clear H5.
  rewrite (sub32_le (es_fbs s)) by (rewrite ?M32_eq; lia).
  rewrite (sub32_le (es_lbs s)) by (rewrite ?M32_eq; lia).
  rewrite !goodne_test, Hfb, Hlb by exact G. cbn [andb negb].
  rewrite ok_scan_spec.
  2:{ intros i _ Hi. rewrite goodne_test in Hi by exact G. apply Hr in Hi.
      rewrite add32_small by (rewrite M32_eq; lia). lia. }
  pose proof (filter_sorted (bv_test (es_bits s)) _ (nrange_sorted (bsize (es_bits s)))) as Hsort.
  pose proof (fun i => goodne_filter_In s i G) as HIn.
  set (L := filter (bv_test (es_bits s)) (nrange (bsize (es_bits s)))) in *.
  destruct (sorted_hd L (es_fbs s - es_first s) Hsort) as [t Ht].
  { apply HIn. exact Hfb. }
  { intros x Hx. apply HIn in Hx. apply Hr in Hx. lia. }
  assert (HL : List.last L 0 = es_lbs s - es_first s).
  { apply sorted_last; [exact Hsort|apply HIn; exact Hlb|].
    intros x Hx. apply HIn in Hx. apply Hr in Hx. lia. }
  rewrite HL. rewrite Ht. cbn [N.eqb].
  rewrite N.eqb_refl.
  rewrite !add32_small by (rewrite M32_eq; lia). lia.
Qed.

(* ---------- make_exclusion_set ---------- *)

Lemma last_default (l : list N) : forall b d1 d2, List.last (b :: l) d1 = List.last (b :: l) d2.
Proof.
  induction l as [|c l IH]; intros b d1 d2; [reflexivity|].
  change (List.last (c :: l) d1 = List.last (c :: l) d2). apply IH.
Qed.

Lemma is_sortedb_spec l : is_sortedb l = true -> forall a t, l = a :: t ->
  (forall x, In x l -> a <= x) /\ (forall x, In x l -> x <= List.last l a).
Proof.
  induction l as [|a l IH]; intros Hs a' t He; [discriminate|].
  injection He as <- <-. destruct l as [|b l].
  - split; intros x [->|[]]; simpl; lia.
  - cbn [is_sortedb] in Hs. apply andb_true_iff in Hs. destruct Hs as [Hab Hs].
    destruct (IH Hs b l eq_refl) as [Hmin Hmax].
    change (List.last (a :: b :: l) a) with (List.last (b :: l) a).
    assert (Hlast : List.last (b :: l) a = List.last (b :: l) b) by apply last_default.
    rewrite Hlast. split; intros x [<-|Hx].
    + lia.
    + specialize (Hmin _ Hx). lia.
    + specialize (Hmin b (or_introl eq_refl)). specialize (Hmax b (or_introl eq_refl)). lia.
    + apply Hmax. exact Hx.
Qed.

Lemma last_In (l : list N) d : l <> [] -> In (List.last l d) l.
Proof.
  induction l as [|a l IH]; intros H; [contradiction|].
  destruct l as [|b l]; [left; reflexivity|right; apply IH; discriminate].
Qed.

Lemma set_all_ok ids : forall b first,
  (forall i, In i ids -> first <= i /\ i < M32 /\ i - first < bsize b) ->
  exists b', set_all b first ids = Ok b' /\ bsize b' = bsize b /\
    forall n, N.testbit (bval b') n =
      N.testbit (bval b) n || existsb (fun i => i - first =? n) ids.
Proof.
  induction ids as [|i ids IH]; intros b first Hin.
  - exists b. split; [reflexivity|]. split; [reflexivity|]. intros n. simpl.
    rewrite orb_false_r. reflexivity.
  - destruct (Hin i (or_introl eq_refl)) as [H1 [H2 H3]].
    cbn [set_all]. unfold bv_set. rewrite sub32_le by assumption.
    rewrite (proj2 (N.ltb_lt _ _) H3). cbn [bind].
    destruct (IH (mkbv (bsize b) (N.setbit (bval b) (i - first))) first) as [b' [E [Hs Hb]]].
    { intros j Hj. apply Hin. right; exact Hj. }
    exists b'. split; [exact E|]. split; [exact Hs|]. intros n. rewrite Hb. cbn [bval existsb].
    rewrite N.setbit_eqb. destruct (N.eqb_spec (i - first) n); simpl.
    + rewrite orb_true_r. reflexivity.
    + reflexivity.
Qed.

Lemma make_es_ok id ids :
  is_sortedb ids = true -> (forall i, In i ids -> i < M32 - 64) ->
  exists s, make_es id ids = Ok s /\ good s /\ es_id s = id /\
    (ids <> [] -> goodne s) /\
    forall i, i < M32 -> es_index s i = existsb (N.eqb i) ids.
Proof.
  intros Hs Hlim. unfold make_es. rewrite Hs. cbn [sassert bind].
  destruct ids as [|f t] eqn:Eids.
  - eexists. split; [reflexivity|]. split; [left; eexists; reflexivity|].
    split; [reflexivity|]. split; [congruence|]. intros i Hi. apply empty_index.
  - rewrite <- Eids in *.
    destruct (is_sortedb_spec ids Hs f t Eids) as [Hmin Hmax].
    set (lst := List.last ids f) in *.
    assert (Hlin : In lst ids) by (apply last_In; rewrite Eids; discriminate).
    assert (Hfin : In f ids) by (rewrite Eids; left; reflexivity).
    pose proof (Hlim _ Hlin) as Hl. pose proof (Hlim _ Hfin) as Hff. pose proof (Hmin _ Hlin) as Hfl.
    rewrite M32_eq in Hl, Hff. unfold bits_per_block.
    rewrite (mul32_small (f / 64)) by (rewrite M32_eq; lia).
    rewrite (add32_small (lst / 64)) by (rewrite M32_eq; lia).
    rewrite (mul32_small (lst / 64 + 1)) by (rewrite M32_eq; lia).
    rewrite (sub32_le ((lst / 64 + 1) * 64)) by (rewrite ?M32_eq; lia).
    rewrite (sub32_le _ (f / 64 * 64)) by (rewrite ?M32_eq; lia).
    rewrite (add32_small _ 1) by (rewrite M32_eq; lia).
    set (b0 := bv_resize bv_empty _).
    destruct (set_all_ok ids b0 (f / 64 * 64)) as [b [Eb [Hbs Hbb]]].
    { intros i Hi. specialize (Hmin _ Hi). specialize (Hmax _ Hi). specialize (Hlim _ Hi).
      rewrite M32_eq in *. cbn [b0 bv_resize bsize]. lia. }
    rewrite Eb. cbn [bind].
    assert (Hb' : forall n, N.testbit (bval b) n = existsb (fun i => i - f / 64 * 64 =? n) ids).
    { intros n. rewrite Hbb. cbn [b0 bv_resize bval bv_empty]. rewrite N.mod_0_l.
      - rewrite N.bits_0. reflexivity.
      - apply N.pow_nonzero. discriminate. }
    set (s := mkes id _ _ f lst b).
    assert (G : goodne s).
    { constructor; cbn [s es_first es_last es_fbs es_lbs es_bits].
      - exact Hfl.
      - rewrite M32_eq. lia.
      - lia.
      - lia.
      - rewrite Hbs. cbn [b0 bv_resize bsize]. lia.
      - rewrite Hb'. apply existsb_exists. exists f. split; [exact Hfin|lia].
      - rewrite Hb'. apply existsb_exists. exists lst. split; [exact Hlin|lia].
      - intros i Hi. rewrite Hb' in Hi. apply existsb_exists in Hi.
        destruct Hi as [j [Hj He]]. specialize (Hmin _ Hj). specialize (Hmax _ Hj). lia. }
    rewrite (goodne_ok s G). cbn [sassert bind].
    exists s. split; [reflexivity|]. split; [right; exact G|]. split; [reflexivity|].
    split; [intros _; exact G|].
    intros i Hi. rewrite goodne_index by assumption.
    unfold bmem. cbn [s es_first es_bits]. rewrite Hb'.
    apply eq_iff_eq_true. rewrite andb_true_iff, !existsb_exists. split.
    + intros [Hi1 [j [Hj He]]]. exists j. split; [exact Hj|].
      specialize (Hmin _ Hj). lia.
    + intros [j [Hj He]]. specialize (Hmin _ Hj). split; [lia|]. exists j. split; [exact Hj|lia].
Qed.

