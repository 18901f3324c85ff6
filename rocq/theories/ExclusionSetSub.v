(* Proofs about the exclusion-set model: difference. *)
From Coq Require Import Sorted ZifyBool ZifyNat ZifyN.
From Verif Require Import Base ExclusionSetModel NLists ExclusionSetProofs ExclusionSetGrow.
Local Open Scope N_scope.
Ltac Zify.zify_post_hook ::= Z.div_mod_to_equations.

(* ---------- difference ---------- *)

Lemma scan_up_ok b : forall fuel fs, fs <= bsize b -> bsize b < N.of_nat fuel + fs ->
  exists r, scan_up fuel b fs = Ok r /\ fs <= r /\ r <= bsize b /\
    (forall i, fs <= i -> i < r -> bv_test b i = false) /\
    (r < bsize b -> bv_test b r = true).
Proof.
  induction fuel as [|fuel IH]; intros fs Hle Hf; [lia|]. cbn [scan_up].
  destruct (bv_test b fs) eqn:Et; cbn [negb andb].
  - exists fs. split; [reflexivity|]. split; [lia|]. split; [lia|]. split; [intros; lia|].
    intros _. exact Et.
  - destruct (N.ltb_spec fs (bsize b)) as [H|H].
    + destruct (IH (fs + 1)) as [r [E [H1 [H2 [H3 H4]]]]]; [lia|lia|].
      exists r. split; [exact E|]. split; [lia|]. split; [exact H2|]. split; [|exact H4].
      intros i Hi1 Hi2. destruct (N.eq_dec i fs) as [->|]; [exact Et|]. apply H3; lia.
    + exists fs. split; [reflexivity|]. split; [lia|]. split; [lia|]. split; intros; lia.
Qed.

Lemma scan_down_ok b : bsize b <= M32 - 64 -> forall fuel ls,
  (exists i, i <= ls /\ bv_test b i = true) -> ls < bsize b -> ls < N.of_nat fuel ->
  exists r, scan_down fuel b ls = Ok r /\ r <= ls /\ bv_test b r = true /\
    (forall i, r < i -> i <= ls -> bv_test b i = false).
Proof.
  intros Hlim. rewrite M32_eq in Hlim. change INVALID with 4294967295.
  induction fuel as [|fuel IH]; intros ls [i0 [Hi0 Ht0]] Hls Hf; [lia|]. cbn [scan_down].
  change INVALID with 4294967295.
  destruct (N.eqb_spec ls 4294967295) as [->|Hn]; [lia|]. cbn [negb andb].
  destruct (bv_test b ls) eqn:Et; cbn [negb].
  - exists ls. split; [reflexivity|]. repeat split; try lia. exact Et.
  - assert (i0 <> ls) by (intros ->; congruence).
    rewrite sub32_le by (rewrite ?M32_eq; lia).
    destruct (IH (ls - 1)) as [r [E [H1 [H2 H3]]]]; [exists i0; split; [lia|exact Ht0]|lia|lia|].
    exists r. split; [exact E|]. split; [lia|]. split; [exact H2|].
    intros i Hi1 Hi2. destruct (N.eq_dec i ls) as [->|]; [exact Et|]. apply H3; lia.
Qed.

Lemma aligned_test s i : aligned s -> bv_test (es_bits s) i = N.testbit (bval (es_bits s)) i.
Proof.
  intros A. unfold bv_test. destruct (N.testbit (bval (es_bits s)) i) eqn:E.
  - apply (a_rng s A) in E. lia.
  - apply andb_false_r.
Qed.

(* compacting an aligned set with correct first/last set bits *)
Lemma compact_ok s : aligned s -> bmem s (es_fbs s) = true -> bmem s (es_lbs s) = true ->
  (forall i, bmem s i = true -> es_fbs s <= i /\ i <= es_lbs s) ->
  goodne (es_compact s) /\ es_id (es_compact s) = es_id s /\
  forall i, bmem (es_compact s) i = bmem s i.
Proof.
  intros A Hfb Hlb Hr. pose proof A as [A1 A2 A3 A4 A5 A6]. rewrite M32_eq in A4.
  pose proof (Hr _ Hlb) as [Hle _].
  assert (HA : forall i, bmem s i = true -> es_first s <= i /\ i <= es_last s).
  { intros i Hi. unfold bmem in Hi. apply andb_true_iff in Hi. destruct Hi as [H1 H2].
    apply A6 in H2. lia. }
  pose proof (HA _ Hfb) as Hf. pose proof (HA _ Hlb) as Hl.
  assert (Hm : forall i, bmem (es_compact s) i = bmem s i).
  { intros i. unfold es_compact. change bits_per_block with 64. unfold bmem.
    cbn [es_first es_bits bv_resize bv_shr bsize bval].
    rewrite (mul32_small (es_fbs s / 64)) by (rewrite M32_eq; lia).
    set (nf := es_fbs s / 64 * 64).
    rewrite (sub32_le nf) by (rewrite ?M32_eq; lia).
    set (d := nf - es_first s).
    assert (Hl1 : sub32 (add32 (es_last s) d) (es_lbs s) = es_last s + d - es_lbs s).
    { destruct (N.ltb_spec (es_last s + d) M32) as [Hs|Hs].
      - rewrite add32_small by exact Hs. rewrite M32_eq in Hs. apply sub32_le; rewrite ?M32_eq; lia.
      - unfold add32, w32. replace ((es_last s + d) mod M32) with (es_last s + d - M32).
        2:{ rewrite M32_eq in *. lia. }
        unfold sub32, w32. rewrite M32_eq in *. 
        replace (es_last s + d - 4294967296 + (4294967296 - es_lbs s)) with (es_last s + d - es_lbs s) by lia.
        apply N.mod_small. lia. }
    rewrite Hl1. set (eb := (es_last s + d - es_lbs s) / 64).
    rewrite (mul32_small eb) by (rewrite M32_eq; lia).
    rewrite (sub32_le (bsize (es_bits s))) by (rewrite ?M32_eq; lia).
    destruct (N.leb_spec nf i) as [Hi|Hi].
    - destruct (N.leb_spec (es_first s) i) as [Hi'|Hi']; [|lia]. cbn [andb].
      destruct (N.ltb_spec (i - nf) (bsize (es_bits s) - eb * 64)) as [Hb|Hb].
      + rewrite N.mod_pow2_bits_low by exact Hb. rewrite N.shiftr_spec by lia.
        f_equal. lia.
      + rewrite N.mod_pow2_bits_high by exact Hb. symmetry.
        apply not_true_is_false. intros Ht.
        assert (Hbm : bmem s i = true) by (unfold bmem; rewrite Ht; lia).
        apply Hr in Hbm. lia.
    - cbn [andb]. symmetry. apply not_true_is_false. intros Ht.
      assert (Hbm : bmem s i = true) by exact Ht. apply Hr in Hbm. lia. }
  assert (Hfields : es_first (es_compact s) = 64 * (es_fbs s / 64) /\
                    es_last (es_compact s) = 64 * (es_lbs s / 64) + 63 /\
                    bsize (es_bits (es_compact s)) = 64 * (es_lbs s / 64) + 64 - 64 * (es_fbs s / 64)).
  { unfold es_compact. change bits_per_block with 64.
    cbn [es_first es_last es_bits bv_resize bv_shr bsize bval].
    rewrite (mul32_small (es_fbs s / 64)) by (rewrite M32_eq; lia).
    set (nf := es_fbs s / 64 * 64).
    rewrite (sub32_le nf) by (rewrite ?M32_eq; lia).
    set (d := nf - es_first s).
    assert (Hl1 : sub32 (add32 (es_last s) d) (es_lbs s) = es_last s + d - es_lbs s).
    { destruct (N.ltb_spec (es_last s + d) M32) as [Hs|Hs].
      - rewrite add32_small by exact Hs. rewrite M32_eq in Hs. apply sub32_le; rewrite ?M32_eq; lia.
      - unfold add32, w32. replace ((es_last s + d) mod M32) with (es_last s + d - M32).
        2:{ rewrite M32_eq in *. lia. }
        unfold sub32, w32. rewrite M32_eq in *. 
        replace (es_last s + d - 4294967296 + (4294967296 - es_lbs s)) with (es_last s + d - es_lbs s) by lia.
        apply N.mod_small. lia. }
    rewrite Hl1. set (eb := (es_last s + d - es_lbs s) / 64).
    rewrite (mul32_small eb) by (rewrite M32_eq; lia).
    assert (Hl2 : sub32 (add32 (es_last s) d) (eb * 64) = es_last s + d - eb * 64).
    { destruct (N.ltb_spec (es_last s + d) M32) as [Hs|Hs].
      - rewrite add32_small by exact Hs. rewrite M32_eq in Hs. apply sub32_le; rewrite ?M32_eq; lia.
      - unfold add32, w32. replace ((es_last s + d) mod M32) with (es_last s + d - M32).
        2:{ rewrite M32_eq in *. lia. }
        unfold sub32, w32. rewrite M32_eq in *. 
        replace (es_last s + d - 4294967296 + (4294967296 - eb * 64)) with (es_last s + d - eb * 64) by lia.
        apply N.mod_small. lia. }
    rewrite Hl2.
    rewrite (sub32_le (bsize (es_bits s))) by (rewrite ?M32_eq; lia).
    lia. }
  destruct Hfields as [F1 [F2 F3]].
  split; [|split; [reflexivity|exact Hm]].
  apply goodne_intro.
  - constructor; rewrite ?F1, ?F2, ?F3, ?M32_eq; try lia.
    intros i Hi.
    assert (Hb : bmem (es_compact s) (64 * (es_fbs s / 64) + i) = true).
    { unfold bmem. rewrite F1. replace (64 * (es_fbs s / 64) + i - 64 * (es_fbs s / 64)) with i by lia.
      rewrite Hi. lia. }
    rewrite Hm in Hb. apply Hr in Hb. lia.
  - exact F1.
  - exact F2.
  - rewrite Hm. exact Hfb.
  - rewrite Hm. exact Hlb.
  - intros i. rewrite Hm. apply Hr.
Qed.

(* the block loop in terms of absolute positions; kf/ko are the first block
   numbers of this/other *)
Lemma sub_blocks_smaller bs bo kf ko ns no :
  bsize bs = 64 * ns -> bsize bo = 64 * no -> kf <= ko -> ko - kf <= ns ->
  (forall i, N.testbit (bval bs) i = true -> i < bsize bs) ->
  (forall i, N.testbit (bval bo) i = true -> i < bsize bo) ->
  exists b, sub_loop bs bo true (ko - kf) (nrange (N.min (ns - (ko - kf)) no)) = Ok b /\
    bsize b = bsize bs /\
    forall n, N.testbit (bval b) n =
      N.testbit (bval bs) n &&
      negb ((64 * ko <=? 64 * kf + n) && N.testbit (bval bo) (64 * kf + n - 64 * ko)).
Proof.
  intros Hs Ho Hk Hn Rs Ro.
  destruct (sub_loop_ok (nrange (N.min (ns - (ko - kf)) no)) bs bo true (ko - kf)) as [b [Eb [Sb Hb]]].
  { intros i Hi. apply nrange_In in Hi. rewrite (nblocks_mul _ _ Hs), (nblocks_mul _ _ Ho). lia. }
  exists b. split; [exact Eb|]. split; [exact Sb|]. intros n. rewrite Hb.
  destruct (N.testbit (bval bs) n) eqn:Es; cbn [andb]; [|reflexivity].
  f_equal. apply Rs in Es. rewrite Hs in Es. clear Rs Hb Eb Sb.
  destruct (N.leb_spec (64 * ko) (64 * kf + n)) as [Hi|Hi]; cbn [andb].
  - replace (64 * kf + n - 64 * ko) with (n - 64 * (ko - kf)) by lia.
    destruct (N.testbit (bval bo) (n - 64 * (ko - kf))) eqn:Eo; [|apply andb_false_r].
    rewrite andb_true_r. apply existsb_exists. apply Ro in Eo. rewrite Ho in Eo.
    exists (n / 64 - (ko - kf)). rewrite nrange_In. lia.
  - replace (existsb _ _) with false; [reflexivity|]. symmetry. apply not_true_is_false.
    intros Hex. apply existsb_exists in Hex. destruct Hex as [j [Hj He]]. lia.
Qed.

Lemma sub_blocks_larger bs bo kf ko ns no :
  bsize bs = 64 * ns -> bsize bo = 64 * no -> ko < kf -> kf - ko <= no ->
  (forall i, N.testbit (bval bs) i = true -> i < bsize bs) ->
  (forall i, N.testbit (bval bo) i = true -> i < bsize bo) ->
  exists b, sub_loop bs bo false (kf - ko) (nrange (N.min ns (no - (kf - ko)))) = Ok b /\
    bsize b = bsize bs /\
    forall n, N.testbit (bval b) n =
      N.testbit (bval bs) n &&
      negb ((64 * ko <=? 64 * kf + n) && N.testbit (bval bo) (64 * kf + n - 64 * ko)).
Proof.
  intros Hs Ho Hk Hn Rs Ro.
  destruct (sub_loop_ok (nrange (N.min ns (no - (kf - ko)))) bs bo false (kf - ko)) as [b [Eb [Sb Hb]]].
  { intros i Hi. apply nrange_In in Hi. rewrite (nblocks_mul _ _ Hs), (nblocks_mul _ _ Ho). lia. }
  exists b. split; [exact Eb|]. split; [exact Sb|]. intros n. rewrite Hb.
  destruct (N.testbit (bval bs) n) eqn:Es; cbn [andb]; [|reflexivity].
  f_equal. apply Rs in Es. rewrite Hs in Es. clear Rs Hb Eb Sb.
  destruct (N.leb_spec (64 * ko) (64 * kf + n)) as [Hi|Hi]; cbn [andb]; [|lia].
  replace (64 * kf + n - 64 * ko) with (n + 64 * (kf - ko)) by lia.
  destruct (N.testbit (bval bo) (n + 64 * (kf - ko))) eqn:Eo; [|apply andb_false_r].
  rewrite andb_true_r. apply existsb_exists. apply Ro in Eo. rewrite Ho in Eo.
  exists (n / 64). rewrite nrange_In. lia.
Qed.

Lemma es_sub_ne s o : goodne s -> goodne o ->
  exists s', es_sub_assign false s o = Ok s' /\ es_id s' = es_id s /\
    ((exists id, s' = mkes id INVALID INVALID INVALID INVALID bv_empty) /\
       (forall i, bmem s i && negb (bmem o i) = false)
     \/ goodne s' /\ forall i, bmem s' i = bmem s i && negb (bmem o i)).
Proof.
  intros G Go. pose proof (goodne_aligned s G) as A. pose proof (goodne_aligned o Go) as Ao.
  pose proof (g_first s G) as Gf. pose proof (g_last s G) as Gl. pose proof (g_le s G) as Gle.
  pose proof (g_lim s G) as Glim. pose proof (g_lim o Go) as Golim. rewrite M32_eq in Glim, Golim.
  pose proof (g_first o Go) as Gof. pose proof (g_last o Go) as Gol. pose proof (g_le o Go) as Gole.
  unfold es_sub_assign. rewrite (goodne_not_empty o Go), (goodne_not_empty s G). cbn [orb].
  destruct ((es_fbs o <=? es_lbs s) && (es_fbs s <=? es_lbs o)) eqn:Hov; cbn [negb].
  2:{ exists s. split; [reflexivity|]. split; [reflexivity|]. right. split; [exact G|].
      intros i. destruct (bmem s i) eqn:E1; [|reflexivity]. destruct (bmem o i) eqn:E2; [|reflexivity].
      apply (goodne_bmem_rng s i G) in E1. apply (goodne_bmem_rng o i Go) in E2. lia. }
  set (kf := es_fbs s / 64) in *. set (kl := es_lbs s / 64) in *.
  set (ko := es_fbs o / 64) in *. set (kol := es_lbs o / 64) in *.
  assert (Kb : kf <= kl /\ ko <= kol /\ kl < 67108863 /\ kol < 67108863 /\
               es_fbs s < 64 * kf + 64 /\ 64 * kf <= es_fbs s /\ 64 * kl <= es_lbs s /\
               es_fbs o < 64 * ko + 64 /\ es_lbs o < 64 * kol + 64 /\ es_lbs s < 64 * kl + 64 /\
               ko <= kl /\ kf <= kol)
    by lia.
  destruct Kb as [Kb1 [Kb2 [Kb3 [Kb4 [Kb5 [Kb6 [Kb7 [Kb8 [Kb9 [Kb10 [Kb11 Kb12]]]]]]]]]]].
  assert (Szs : bsize (es_bits s) = 64 * (kl + 1 - kf)) by exact (g_size s G).
  assert (Szo : bsize (es_bits o) = 64 * (kol + 1 - ko)) by exact (g_size o Go).
  clearbody kf kl ko kol.
  rewrite (nblocks_mul _ _ Szs), (nblocks_mul _ _ Szo).
  assert (Core : exists b,
    (let this_smaller := es_first s <=? es_first o in
     let bit_diff := if this_smaller then sub32 (es_first o) (es_first s) else sub32 (es_first s) (es_first o) in
     bit_diff mod bits_per_block = 0 /\
     sub_loop (es_bits s) (es_bits o) this_smaller (bit_diff / bits_per_block)
       (nrange (if this_smaller
                then N.min (sub32 (kl + 1 - kf) (bit_diff / bits_per_block)) (kol + 1 - ko)
                else N.min (kl + 1 - kf) (sub32 (kol + 1 - ko) (bit_diff / bits_per_block)))) = Ok b) /\
    bsize b = bsize (es_bits s) /\
    forall n, N.testbit (bval b) n =
      N.testbit (bval (es_bits s)) n &&
      negb ((es_first o <=? es_first s + n) &&
            N.testbit (bval (es_bits o)) (es_first s + n - es_first o))).
  { rewrite Gf, Gof. change bits_per_block with 64.
    cbv zeta. destruct (N.leb_spec (64 * kf) (64 * ko)) as [Hk|Hk]; cbv iota.
    - rewrite (sub32_le (64 * ko)) by (rewrite ?M32_eq; lia).
      replace ((64 * ko - 64 * kf) / 64) with (ko - kf) by (clear - Hk; lia).
      rewrite sub32_le by (rewrite ?M32_eq; lia).
      destruct (sub_blocks_smaller (es_bits s) (es_bits o) kf ko _ _ Szs Szo) as [b [Eb [Sb Hb]]];
        [lia|lia|exact (a_rng s A)|exact (a_rng o Ao)|].
      exists b. split; [split; [clear - Hk; lia|exact Eb]|]. split; [exact Sb|exact Hb].
    - rewrite (sub32_le (64 * kf)) by (rewrite ?M32_eq; lia).
      replace ((64 * kf - 64 * ko) / 64) with (kf - ko) by (clear - Hk; lia).
      rewrite sub32_le by (rewrite ?M32_eq; lia).
      destruct (sub_blocks_larger (es_bits s) (es_bits o) kf ko _ _ Szs Szo) as [b [Eb [Sb Hb]]];
        [lia|lia|exact (a_rng s A)|exact (a_rng o Ao)|].
      exists b. split; [split; [clear - Hk; lia|exact Eb]|]. split; [exact Sb|exact Hb]. }
  destruct Core as [b [[Hmod Eb] [Sb Hb]]].
  rewrite Hmod. cbn [N.eqb sassert bind]. rewrite Eb. cbn [bind].
  (* the raw difference *)
  set (s1 := mkes (es_id s) (es_first s) (es_last s) (es_fbs s) (es_lbs s) b).
  assert (Hm : forall i, bmem s1 i = bmem s i && negb (bmem o i)).
  { intros i. unfold bmem. cbn [s1 es_first es_bits]. rewrite Hb.
    destruct (N.leb_spec (es_first s) i) as [Hi|Hi]; cbn [andb]; [|reflexivity].
    replace (es_first s + (i - es_first s)) with i by lia. reflexivity. }
  assert (A1 : aligned s1).
  { destruct A as [B1 B2 B3 B4 B5 B6]. constructor; cbn [s1 es_first es_last es_bits]; try assumption.
    - rewrite Sb. exact B5.
    - intros i Hi. rewrite Sb. rewrite Hb in Hi. apply andb_true_iff in Hi. apply B6, Hi. }
  assert (Hm1 : forall i, bmem s1 i = true -> es_fbs s <= i /\ i <= es_lbs s).
  { intros i Hi. rewrite Hm in Hi. apply andb_true_iff in Hi. apply (goodne_bmem_rng s i G), Hi. }
  assert (Htest : forall i, bv_test b i = N.testbit (bval b) i) by exact (fun i => aligned_test s1 i A1).
  assert (Hbs : bsize b = es_last s + 1 - es_first s) by exact (a_size s1 A1).
  (* first set bit *)
  assert (F : exists fbs,
     (if negb (bv_test b (sub32 (es_fbs s) (es_first s))) then get_first_set s1 else Ok (es_fbs s)) = Ok fbs /\
     ((fbs = INVALID /\ forall i, bmem s1 i = false) \/
      (fbs <> INVALID /\ bmem s1 fbs = true /\ forall i, bmem s1 i = true -> fbs <= i))).
  { rewrite sub32_le by (rewrite ?M32_eq; lia). rewrite Htest.
    destruct (N.testbit b.(bval) (es_fbs s - es_first s)) eqn:Et; cbn [negb].
    - exists (es_fbs s). split; [reflexivity|]. right.
      split; [change INVALID with 4294967295; lia|]. split.
      + unfold bmem. cbn [s1 es_first es_bits]. rewrite Et. lia.
      + intros i Hi. apply Hm1, Hi.
    - unfold get_first_set. change (es_bits s1) with b. change (es_first s1) with (es_first s).
      destruct (scan_up_ok b (N.to_nat (bsize b) + 1) 0) as [r [Er [Hr1 [Hr2 [Hr3 Hr4]]]]]; [lia|lia|].
      rewrite Er. cbn [bind]. destruct (N.eqb_spec r (bsize b)) as [Hrb|Hrb].
      + exists INVALID. split; [reflexivity|]. left. split; [reflexivity|].
        intros i. unfold bmem. cbn [s1 es_first es_bits].
        destruct (N.testbit (bval b) (i - es_first s)) eqn:E; [|apply andb_false_r].
        pose proof (a_rng s1 A1 _ E) as Hlt. cbn [s1 es_bits] in Hlt.
        rewrite <- Htest, Hr3 in E by lia. discriminate.
      + assert (Hrt : bv_test b r = true) by (apply Hr4; lia).
        rewrite add32_small by (rewrite M32_eq; lia).
        eexists; split; [reflexivity|]. right. split; [change INVALID with 4294967295; lia|]. split.
        * unfold bmem. cbn [s1 es_first es_bits]. replace (r + es_first s - es_first s) with r by lia.
          rewrite <- Htest, Hrt. lia.
        * intros i Hi. unfold bmem in Hi. cbn [s1 es_first es_bits] in Hi.
          apply andb_true_iff in Hi. destruct Hi as [Hi1 Hi2]. rewrite <- Htest in Hi2.
          destruct (N.ltb_spec (i - es_first s) r) as [Hlt|Hlt]; [|lia].
          rewrite Hr3 in Hi2 by lia. discriminate. }
  destruct F as [fbs [Ef Hf]]. rewrite Ef. cbn [bind].
  destruct (N.eqb_spec fbs INVALID) as [Hinv|Hninv].
  { eexists. split; [reflexivity|]. cbn [es_clear es_id]. split; [reflexivity|]. left.
    split; [eexists; reflexivity|]. destruct Hf as [[_ Hf]|[Hf _]]; [|contradiction].
    intros i. rewrite <- Hm. apply Hf. }
  destruct Hf as [[Hf _]|[_ [Hf1 Hf2]]]; [contradiction|].
  assert (L : exists lbs,
     (if negb (bv_test b (sub32 (es_lbs s) (es_first s)))
      then get_last_set (mkes (es_id s) (es_first s) (es_last s) fbs (es_lbs s) b) else Ok (es_lbs s)) = Ok lbs /\
      bmem s1 lbs = true /\ forall i, bmem s1 i = true -> i <= lbs).
  { rewrite sub32_le by (rewrite ?M32_eq; lia). rewrite Htest.
    destruct (N.testbit b.(bval) (es_lbs s - es_first s)) eqn:Et; cbn [negb].
    - exists (es_lbs s). split; [reflexivity|]. split.
      + unfold bmem. cbn [s1 es_first es_bits]. rewrite Et. lia.
      + intros i Hi. apply Hm1, Hi.
    - unfold get_last_set. cbn [es_bits es_first].
      rewrite (sub32_le (bsize b)) by (rewrite ?M32_eq; lia).
      pose proof Hf1 as Hf1'. unfold bmem in Hf1'. cbn [s1 es_first es_bits] in Hf1'.
      apply andb_true_iff in Hf1'. destruct Hf1' as [Hf1a Hf1b].
      pose proof (a_rng s1 A1 _ Hf1b) as Hlt. cbn [s1 es_bits] in Hlt.
      destruct (scan_down_ok b ltac:(rewrite M32_eq; lia) (N.to_nat (bsize b) + 1) (bsize b - 1))
        as [r [Er [Hr1 [Hr2 Hr3]]]].
      { exists (fbs - es_first s). split; [lia|]. rewrite Htest. exact Hf1b. }
      { lia. }
      { lia. }
      rewrite Er. cbn [bind]. change INVALID with 4294967295.
      destruct (N.eqb_spec r 4294967295) as [Hrb|Hrb]; [lia|].
      rewrite add32_small by (rewrite M32_eq; lia).
      eexists; split; [reflexivity|]. split.
      + unfold bmem. cbn [s1 es_first es_bits]. replace (r + es_first s - es_first s) with r by lia.
        rewrite <- Htest, Hr2. lia.
      + intros i Hi. unfold bmem in Hi. cbn [s1 es_first es_bits] in Hi.
        apply andb_true_iff in Hi. destruct Hi as [Hi1 Hi2].
        pose proof (a_rng s1 A1 _ Hi2) as Hlt2. cbn [s1 es_bits] in Hlt2.
        rewrite <- Htest in Hi2.
        destruct (N.ltb_spec r (i - es_first s)) as [Hlt3|Hlt3]; [|lia].
        rewrite Hr3 in Hi2 by lia. discriminate. }
  destruct L as [lbs [El [Hl1 Hl2]]]. rewrite El. cbn [bind].
  set (s2 := mkes (es_id s) (es_first s) (es_last s) fbs lbs b).
  assert (Hm2 : forall i, bmem s2 i = bmem s1 i) by reflexivity.
  destruct (compact_ok s2) as [G3 [Id3 Hm3]].
  - destruct A1 as [B1 B2 B3 B4 B5 B6]. constructor; assumption.
  - exact Hf1.
  - exact Hl1.
  - intros i Hi. rewrite Hm2 in Hi. cbn [s2 es_fbs es_lbs]. split; [apply Hf2|apply Hl2]; exact Hi.
  - rewrite (goodne_ok _ G3). cbn [sassert bind].
    eexists. split; [reflexivity|]. split; [exact Id3|]. right. split; [exact G3|].
    intros i. rewrite Hm3, Hm2. apply Hm.
Qed.
