(* Proofs about the exclusion-set model: set and union. *)
From Coq Require Import Sorted ZifyBool ZifyNat ZifyN.
From Verif Require Import Base ExclusionSetModel NLists ExclusionSetProofs.
Local Open Scope N_scope.
Ltac Zify.zify_post_hook ::= Z.div_mod_to_equations.

(* ---------- growing ---------- *)

Record aligned (s : es) : Prop := mkal {
  a_first : es_first s = 64 * (es_first s / 64);
  a_last : es_last s = 64 * (es_last s / 64) + 63;
  a_le : es_first s <= es_last s;
  a_lim : es_last s < M32 - 64;
  a_size : bsize (es_bits s) = es_last s + 1 - es_first s;
  a_rng : forall i, N.testbit (bval (es_bits s)) i = true -> i < bsize (es_bits s)
}.

Lemma goodne_aligned s : goodne s -> aligned s.
Proof.
  intros [Hle Hlim Hf Hl Hs Hfb Hlb Hr]. rewrite M32_eq in *.
  constructor; rewrite ?M32_eq; try lia.
  intros i Hi. apply Hr in Hi. lia.
Qed.

Lemma goodne_intro s : aligned s ->
  es_first s = 64 * (es_fbs s / 64) -> es_last s = 64 * (es_lbs s / 64) + 63 ->
  bmem s (es_fbs s) = true -> bmem s (es_lbs s) = true ->
  (forall i, bmem s i = true -> es_fbs s <= i /\ i <= es_lbs s) -> goodne s.
Proof.
  intros [A1 A2 A3 A4 A5 A6] Hf Hl Hfb Hlb Hr. rewrite M32_eq in *.
  pose proof (Hr _ Hlb) as [Hle _].
  unfold bmem in *. apply andb_true_iff in Hfb, Hlb.
  constructor; rewrite ?M32_eq; try lia; try tauto.
  intros i Hi. specialize (Hr (es_first s + i)).
  replace (es_first s + i - es_first s) with i in Hr by lia.
  rewrite Hi, andb_true_r in Hr. lia.
Qed.

Lemma goodne_bmem_rng s i : goodne s -> bmem s i = true -> es_fbs s <= i /\ i <= es_lbs s.
Proof.
  intros G H. unfold bmem in H. apply andb_true_iff in H. destruct H as [H1 H2].
  apply (g_rng s G) in H2. lia.
Qed.

Lemma goodne_bmem_fbs s : goodne s -> bmem s (es_fbs s) = true.
Proof.
  intros G. unfold bmem. rewrite (g_fb s G). pose proof (g_first s G). lia.
Qed.

Lemma goodne_bmem_lbs s : goodne s -> bmem s (es_lbs s) = true.
Proof.
  intros G. unfold bmem. rewrite (g_lb s G). pose proof (g_first s G). pose proof (g_le s G). lia.
Qed.

Lemma resize_grow b n : (forall i, N.testbit (bval b) i = true -> i < bsize b) -> bsize b <= n ->
  forall i, N.testbit (bval (bv_resize b n)) i = N.testbit (bval b) i.
Proof.
  intros H Hn i. cbn [bv_resize bval]. destruct (N.ltb_spec i n).
  - apply N.mod_pow2_bits_low. assumption.
  - rewrite N.mod_pow2_bits_high by assumption.
    destruct (N.testbit (bval b) i) eqn:E; [|reflexivity]. apply H in E. lia.
Qed.

Lemma lower_first_ok s nf : aligned s -> nf < es_first s -> nf mod 64 = 0 ->
  exists s', lower_first s nf = Ok s' /\ aligned s' /\ es_first s' = nf /\ es_last s' = es_last s /\
    es_fbs s' = es_fbs s /\ es_lbs s' = es_lbs s /\ es_id s' = es_id s /\
    forall i, bmem s' i = bmem s i.
Proof.
  intros [A1 A2 A3 A4 A5 A6] Hlt Hmod. rewrite M32_eq in A4. unfold lower_first.
  rewrite (proj2 (N.ltb_lt _ _) Hlt). cbn [sassert bind].
  change bits_per_block with 64. rewrite Hmod. cbn [N.eqb sassert bind].
  rewrite (sub32_le (es_first s)) by (rewrite ?M32_eq; lia).
  rewrite (add32_small) by (rewrite ?M32_eq; lia).
  set (d := es_first s - nf).
  set (b1 := bv_resize (es_bits s) (bsize (es_bits s) + d)).
  assert (Hb1 : forall i, N.testbit (bval b1) i = N.testbit (bval (es_bits s)) i)
    by (apply resize_grow; [exact A6|lia]).
  assert (Hs1 : bsize b1 = bsize (es_bits s) + d) by reflexivity.
  assert (Hb2 : forall i, N.testbit (bval (bv_shl b1 d)) i = (d <=? i) && N.testbit (bval (es_bits s)) (i - d)).
  { intros i. cbn [bv_shl bval]. destruct (N.ltb_spec i (bsize b1)) as [Hi|Hi].
    - rewrite N.mod_pow2_bits_low by exact Hi. destruct (N.leb_spec d i).
      + rewrite N.shiftl_spec_high' by assumption. apply Hb1.
      + apply N.shiftl_spec_low. assumption.
    - rewrite N.mod_pow2_bits_high by exact Hi.
      destruct (N.testbit (bval (es_bits s)) (i - d)) eqn:E; [|rewrite andb_false_r; reflexivity].
      apply A6 in E. lia. }
  eexists. split; [reflexivity|]. cbn [es_first es_last es_fbs es_lbs es_id es_bits].
  repeat (split; [|first [reflexivity | split]]); try reflexivity.
  - constructor; cbn [es_first es_last es_bits]; rewrite ?M32_eq.
    + lia.
    + lia.
    + lia.
    + lia.
    + cbn [bv_shl bsize]. lia.
    + intros i Hi. rewrite Hb2 in Hi. apply andb_true_iff in Hi. destruct Hi as [Hi1 Hi2].
      apply A6 in Hi2. cbn [bv_shl bsize]. lia.
  - intros i. unfold bmem. cbn [es_first es_bits]. rewrite Hb2.
    destruct (N.leb_spec (es_first s) i).
    + replace (i - nf - d) with (i - es_first s) by lia.
      destruct (N.leb_spec nf i); [|lia]. destruct (N.leb_spec d (i - nf)); [|lia]. reflexivity.
    + destruct (N.leb_spec nf i); [|reflexivity]. destruct (N.leb_spec d (i - nf)); [lia|]. reflexivity.
Qed.

Lemma increase_last_ok s nl : aligned s -> es_last s < nl -> (nl + 1) mod 64 = 0 -> nl < M32 - 64 ->
  exists s', increase_last s nl = Ok s' /\ aligned s' /\ es_first s' = es_first s /\ es_last s' = nl /\
    es_fbs s' = es_fbs s /\ es_lbs s' = es_lbs s /\ es_id s' = es_id s /\
    forall i, bmem s' i = bmem s i.
Proof.
  intros [A1 A2 A3 A4 A5 A6] Hlt Hmod Hlim. rewrite M32_eq in A4, Hlim. unfold increase_last.
  rewrite (proj2 (N.ltb_lt _ _) Hlt). cbn [sassert bind].
  change bits_per_block with 64.
  rewrite (add32_small nl 1) by (rewrite M32_eq; lia).
  rewrite Hmod. cbn [N.eqb sassert bind].
  rewrite (sub32_le nl) by (rewrite ?M32_eq; lia).
  rewrite (add32_small) by (rewrite ?M32_eq; lia).
  set (d := nl - es_last s).
  pose proof (resize_grow (es_bits s) (bsize (es_bits s) + d) A6 ltac:(lia)) as Hb.
  eexists. split; [reflexivity|]. cbn [es_first es_last es_fbs es_lbs es_id es_bits].
  repeat (split; [|first [reflexivity | split]]); try reflexivity.
  - constructor; cbn [es_first es_last es_bits]; rewrite ?M32_eq.
    + exact A1.
    + lia.
    + lia.
    + lia.
    + cbn [bv_resize bsize]. lia.
    + intros i Hi. rewrite Hb in Hi. apply A6 in Hi. cbn [bv_resize bsize]. lia.
  - intros i. unfold bmem. cbn [es_first es_bits]. rewrite Hb. reflexivity.
Qed.

(* ---------- set ---------- *)

Lemma es_set_ok s idx : goodne s -> idx < M32 - 64 ->
  exists s', es_set s idx = Ok s' /\ goodne s' /\ es_id s' = es_id s /\
    forall i, bmem s' i = (i =? idx) || bmem s i.
Proof.
  intros G Hidx. pose proof (goodne_aligned s G) as A. rewrite M32_eq in Hidx.
  pose proof (g_lim s G) as Glim. rewrite M32_eq in Glim.
  pose proof (g_first s G) as Gf. pose proof (g_last s G) as Gl. pose proof (g_le s G) as Gle.
  unfold es_set. change bits_per_block with 64.
  assert (S1 : exists s1,
    (if idx <? es_first s then lower_first s (mul32 (idx / 64) 64)
     else if es_last s <? idx then increase_last s (sub32 (mul32 (add32 (idx / 64) 1) 64) 1)
          else Ok s) = Ok s1 /\ aligned s1 /\
    es_first s1 = 64 * (N.min idx (es_fbs s) / 64) /\
    es_last s1 = 64 * (N.max idx (es_lbs s) / 64) + 63 /\
    es_fbs s1 = es_fbs s /\ es_lbs s1 = es_lbs s /\ es_id s1 = es_id s /\
    (forall i, bmem s1 i = bmem s i)).
  { destruct (N.ltb_spec idx (es_first s)) as [H1|H1].
    - rewrite mul32_small by (rewrite M32_eq; lia).
      destruct (lower_first_ok s (idx / 64 * 64) A) as [s1 [E [A1 [F1 [L1 [R1 [R2 [R3 R4]]]]]]]].
      + lia.
      + lia.
      + exists s1. repeat (split; [first [assumption|lia]|]). exact R4.
    - destruct (N.ltb_spec (es_last s) idx) as [H2|H2].
      + rewrite (add32_small _ 1) by (rewrite M32_eq; lia).
        rewrite mul32_small by (rewrite M32_eq; lia).
        rewrite sub32_le by (rewrite ?M32_eq; lia).
        destruct (increase_last_ok s ((idx / 64 + 1) * 64 - 1) A) as [s1 [E [A1 [F1 [L1 [R1 [R2 [R3 R4]]]]]]]].
        * lia.
        * lia.
        * rewrite M32_eq; lia.
        * exists s1. repeat (split; [first [assumption|lia]|]). exact R4.
      + exists s. repeat (split; [first [reflexivity|assumption|lia]|]). reflexivity. }
  destruct S1 as [s1 [E1 [A1 [F1 [L1 [Rf [Rl [Rid Rm]]]]]]]].
  rewrite E1. cbn [bind]. unfold bv_set.
  pose proof (a_size s1 A1) as Sz1. pose proof (a_lim s1 A1) as Lim1. rewrite M32_eq in Lim1.
  rewrite sub32_le by (rewrite ?M32_eq; lia).
  assert (Hin : (idx - es_first s1 <? bsize (es_bits s1)) = true) by lia.
  rewrite Hin. cbn [bind]. rewrite Rf, Rl.
  set (s2 := mkes _ _ _ _ _ _).
  assert (Hm : forall i, bmem s2 i = (i =? idx) || bmem s i).
  { intros i. rewrite <- Rm. unfold bmem. cbn [s2 es_first es_bits bval]. rewrite N.setbit_eqb.
    destruct (N.leb_spec (es_first s1) i) as [H|H].
    - destruct (N.eqb_spec i idx); destruct (N.eqb_spec (idx - es_first s1) (i - es_first s1)); try lia;
        reflexivity.
    - destruct (N.eqb_spec i idx); [lia|reflexivity]. }
  assert (G2 : goodne s2).
  { apply goodne_intro; cbn [s2 es_first es_last es_fbs es_lbs].
    - destruct A1 as [B1 B2 B3 B4 B5 B6]. constructor; cbn [s2 es_first es_last es_bits bsize bval]; try assumption.
      intros i Hi. rewrite N.setbit_eqb in Hi. apply orb_true_iff in Hi. destruct Hi as [Hi|Hi]; [lia|].
      apply B6. exact Hi.
    - exact F1.
    - exact L1.
    - fold s2. rewrite Hm. destruct (N.min_spec idx (es_fbs s)) as [[? ->]|[? ->]].
      + rewrite N.eqb_refl. reflexivity.
      + rewrite (goodne_bmem_fbs s G). apply orb_true_r.
    - fold s2. rewrite Hm. destruct (N.max_spec idx (es_lbs s)) as [[? ->]|[? ->]].
      + rewrite (goodne_bmem_lbs s G). apply orb_true_r.
      + rewrite N.eqb_refl. reflexivity.
    - fold s2. intros i Hi. rewrite Hm in Hi. apply orb_true_iff in Hi. destruct Hi as [Hi|Hi].
      + lia.
      + apply (goodne_bmem_rng s i G) in Hi. lia. }
  rewrite (goodne_ok s2 G2). cbn [sassert bind].
  exists s2. split; [reflexivity|]. split; [exact G2|]. split; [exact Rid|exact Hm].
Qed.

(* ---------- union ---------- *)

Lemma aligned_nblocks s : aligned s -> bv_nblocks (es_bits s) = es_last s / 64 + 1 - es_first s / 64.
Proof. intros [A1 A2 A3 A4 A5 A6]. apply nblocks_mul. rewrite A5. lia. Qed.

Lemma es_or_ne s o : goodne s -> goodne o ->
  exists s', es_or_assign false s o = Ok s' /\ goodne s' /\ es_id s' = es_id s /\
    forall i, bmem s' i = bmem s i || bmem o i.
Proof.
  intros G Go. pose proof (goodne_aligned s G) as A. pose proof (goodne_aligned o Go) as Ao.
  pose proof (g_first s G) as Gf. pose proof (g_last s G) as Gl. pose proof (g_le s G) as Gle.
  pose proof (g_lim s G) as Glim. pose proof (g_lim o Go) as Golim. rewrite M32_eq in Glim, Golim.
  pose proof (g_first o Go) as Gof. pose proof (g_last o Go) as Gol. pose proof (g_le o Go) as Gole.
  unfold es_or_assign. rewrite (goodne_not_empty o Go), (goodne_not_empty s G). cbn [orb].
  assert (S1 : exists s1,
    (if es_first o <? es_first s then lower_first s (es_first o) else Ok s) = Ok s1 /\ aligned s1 /\
    es_first s1 = N.min (es_first s) (es_first o) /\ es_last s1 = es_last s /\
    es_fbs s1 = es_fbs s /\ es_lbs s1 = es_lbs s /\ es_id s1 = es_id s /\
    (forall i, bmem s1 i = bmem s i)).
  { destruct (N.ltb_spec (es_first o) (es_first s)) as [H1|H1].
    - destruct (lower_first_ok s (es_first o) A) as [s1 [E [A1 [F1 [L1 [R1 [R2 [R3 R4]]]]]]]];
        [lia|lia|].
      exists s1. repeat (split; [first [assumption|lia]|]). exact R4.
    - exists s. repeat (split; [first [reflexivity|assumption|lia]|]). reflexivity. }
  destruct S1 as [s1 [E1 [A1 [F1 [L1 [Rf1 [Rl1 [Rid1 Rm1]]]]]]]]. rewrite E1. cbn [bind].
  assert (S2 : exists s2,
    (if es_last s1 <? es_last o then increase_last s1 (es_last o) else Ok s1) = Ok s2 /\ aligned s2 /\
    es_first s2 = N.min (es_first s) (es_first o) /\ es_last s2 = N.max (es_last s) (es_last o) /\
    es_fbs s2 = es_fbs s /\ es_lbs s2 = es_lbs s /\ es_id s2 = es_id s /\
    (forall i, bmem s2 i = bmem s i)).
  { destruct (N.ltb_spec (es_last s1) (es_last o)) as [H1|H1].
    - destruct (increase_last_ok s1 (es_last o) A1) as [s2 [E [A2 [F2 [L2 [R1 [R2 [R3 R4]]]]]]]];
        [lia|lia|rewrite M32_eq; lia|].
      exists s2. repeat (split; [first [assumption|lia]|]).
      intros i. rewrite R4. apply Rm1.
    - exists s1. repeat (split; [first [reflexivity|assumption|lia]|]). exact Rm1. }
  destruct S2 as [s2 [E2 [A2 [F2 [L2 [Rf [Rl [Rid Rm]]]]]]]]. rewrite E2. cbn [bind].
  pose proof (a_lim s2 A2) as Lim2. rewrite M32_eq in Lim2.
  rewrite sub32_le by (rewrite ?M32_eq; lia).
  change bits_per_block with 64.
  assert (Hmod : ((es_first o - es_first s2) mod 64 =? 0) = true) by lia.
  rewrite Hmod. cbn [sassert bind].
  pose proof (aligned_nblocks s2 A2) as Nb2. pose proof (aligned_nblocks o Ao) as Nbo.
  destruct (or_loop_ok (nrange (bv_nblocks (es_bits o))) (es_bits s2) (es_bits o)
              ((es_first o - es_first s2) / 64)) as [b [Eb [Sb Hb]]].
  { intros i Hi. apply nrange_In in Hi. lia. }
  rewrite Eb. cbn [bind]. rewrite Rf, Rl.
  set (s3 := mkes _ _ _ _ _ _).
  assert (Hm : forall i, bmem s3 i = bmem s i || bmem o i).
  { intros i. rewrite <- Rm. unfold bmem. cbn [s3 es_first es_bits]. rewrite Hb.
    assert (Hle : es_first s2 <= es_first o) by (clear - F2; lia).
    assert (Hd : 64 * ((es_first o - es_first s2) / 64) = es_first o - es_first s2)
      by (clear - Hmod; lia).
    set (d := (es_first o - es_first s2) / 64) in *. clearbody d.
    destruct (N.leb_spec (es_first o) i) as [H|H].
    - destruct (N.leb_spec (es_first s2) i); [|lia]. cbn [andb].
      replace (i - es_first s2 - 64 * d) with (i - es_first o) by (clear - Hd Hle H; lia).
      destruct (N.testbit (bval (es_bits o)) (i - es_first o)) eqn:E.
      + replace (existsb _ _) with true; [reflexivity|]. symmetry. apply existsb_exists.
        apply (a_rng o Ao) in E. rewrite (a_size o Ao) in E.
        exists ((i - es_first o) / 64). rewrite nrange_In, Nbo.
        pose proof (a_first o Ao) as AF. pose proof (a_last o Ao) as AL.
        clear - E AF AL Hd Hle H. lia.
      + rewrite andb_false_r. reflexivity.
    - cbn [andb]. rewrite orb_false_r.
      destruct (N.leb_spec (es_first s2) i); [|reflexivity]. cbn [andb].
      replace (existsb _ _) with false; [apply orb_false_r|]. symmetry.
      apply not_true_is_false. intros Hex. apply existsb_exists in Hex.
      destruct Hex as [j [Hj He]]. clear - He H Hd Hle H0. lia. }
  assert (G3 : goodne s3).
  { apply goodne_intro; cbn [s3 es_first es_last es_fbs es_lbs].
    - destruct A2 as [B1 B2 B3 B4 B5 B6]. constructor; cbn [s3 es_first es_last es_bits]; try assumption.
      + rewrite Sb. exact B5.
      + intros i Hi. rewrite Sb. rewrite Hb in Hi. apply orb_true_iff in Hi. destruct Hi as [Hi|Hi].
        * apply B6. exact Hi.
        * apply andb_true_iff in Hi. destruct Hi as [_ Hi]. apply (a_rng o Ao) in Hi.
          rewrite (a_size o Ao) in Hi. rewrite B5.
          assert (Hd : 64 * ((es_first o - es_first s2) / 64) = es_first o - es_first s2)
            by (clear - Hmod; lia).
          rewrite Hd in Hi. clear - Hi F2 L2 Gol Gole Gof. lia.
    - clear - F2 Gf Gof. lia.
    - clear - L2 Gl Gol. lia.
    - fold s3. rewrite Hm. destruct (N.min_spec (es_fbs s) (es_fbs o)) as [[? ->]|[? ->]].
      + rewrite (goodne_bmem_fbs s G). reflexivity.
      + rewrite (goodne_bmem_fbs o Go). apply orb_true_r.
    - fold s3. rewrite Hm. destruct (N.max_spec (es_lbs s) (es_lbs o)) as [[? ->]|[? ->]].
      + rewrite (goodne_bmem_lbs o Go). apply orb_true_r.
      + rewrite (goodne_bmem_lbs s G). reflexivity.
    - fold s3. intros i Hi. rewrite Hm in Hi. apply orb_true_iff in Hi. destruct Hi as [Hi|Hi].
      + apply (goodne_bmem_rng s i G) in Hi. clear - Hi. lia.
      + apply (goodne_bmem_rng o i Go) in Hi. clear - Hi. lia. }
  rewrite (goodne_ok s3 G3). cbn [sassert bind].
  exists s3. split; [reflexivity|]. split; [exact G3|]. split; [exact Rid|exact Hm].
Qed.

