(* Proofs about the exclusion-set model: comparison, canonicity, iteration,
   reachable states. *)
From Coq Require Import Sorted ZifyBool ZifyNat ZifyN.
From Verif Require Import Base ExclusionSetModel NLists ExclusionSetProofs ExclusionSetGrow ExclusionSetSub.
Local Open Scope N_scope.
Ltac Zify.zify_post_hook ::= Z.div_mod_to_equations.

Definition bsub (a b : es) : Prop := forall i, bmem a i = true -> bmem b i = true.

Lemma blocks_sub_iff a b (ka kb na nb : N) :
  es_first a = 64 * ka -> es_first b = 64 * kb -> ka <= kb ->
  bsize (es_bits a) = 64 * na -> bsize (es_bits b) = 64 * nb ->
  (forall i, N.testbit (bval (es_bits b)) i = true -> i < bsize (es_bits b)) ->
  (forall i n, In i (nrange nb) -> n < 64 -> N.testbit (bval (es_bits b)) (64 * i + n) = true ->
      N.testbit (bval (es_bits a)) (64 * (i + (kb - ka)) + n) = true) <-> bsub b a.
Proof.
  intros Ha Hb Hk Hna Hnb Hr. unfold bsub, bmem. rewrite Ha, Hb. split.
  - intros H i Hi. apply andb_true_iff in Hi. destruct Hi as [Hi1 Hi2].
    pose proof (Hr _ Hi2) as Hlt. rewrite Hnb in Hlt.
    set (m := i - 64 * kb) in *.
    specialize (H (m / 64) (m mod 64)). rewrite nrange_In in H.
    replace (64 * (m / 64) + m mod 64) with m in H by (clear; lia).
    replace (64 * (m / 64 + (kb - ka)) + m mod 64) with (i - 64 * ka) in H
      by (subst m; clear - Hi1 Hk; lia).
    rewrite H; [lia| | |exact Hi2]; clear - Hlt; lia.
  - intros H i n Hi Hn Ht. specialize (H (64 * kb + (64 * i + n))).
    replace (64 * kb + (64 * i + n) - 64 * kb) with (64 * i + n) in H by lia.
    rewrite Ht, andb_true_r in H. specialize (H ltac:(lia)).
    apply andb_true_iff in H. destruct H as [_ H].
    rewrite <- H. f_equal. lia.
Qed.

Lemma contains_impl_ok a b : goodne a -> goodne b ->
  es_first a <= es_first b -> es_last b <= es_last a ->
  exists r, contains_impl a b = Ok r /\ (r = true <-> bsub b a).
Proof.
  intros Ga Gb Hf Hl. pose proof (g_first a Ga) as Fa. pose proof (g_first b Gb) as Fb.
  pose proof (g_last a Ga) as La. pose proof (g_last b Gb) as Lb.
  pose proof (g_size a Ga) as Sa. pose proof (g_size b Gb) as Sb.
  pose proof (g_le a Ga) as Lea. pose proof (g_le b Gb) as Leb.
  pose proof (g_lim a Ga) as Lima. pose proof (g_lim b Gb) as Limb. rewrite M32_eq in Lima, Limb.
  pose proof (goodne_aligned b Gb) as Ab.
  set (ka := es_fbs a / 64) in *. set (kb := es_fbs b / 64) in *.
  set (la := es_lbs a / 64) in *. set (lb := es_lbs b / 64) in *.
  assert (K : ka <= la /\ kb <= lb /\ la < 67108863 /\ lb < 67108863) by lia.
  destruct K as [K1 [K2 [K3 K4]]]. clearbody ka kb la lb.
  unfold contains_impl.
  assert (H1 : ((es_first a <=? es_first b) && (es_last b <=? es_last a)) = true) by lia.
  rewrite H1. cbn [sassert bind]. change bits_per_block with 64.
  rewrite Sa, Sb. rewrite (nblocks_mul _ _ Sa), (nblocks_mul _ _ Sb).
  assert (H2 : ((64 * (la + 1 - ka)) mod 64 =? 0) = true) by lia. rewrite H2. cbn [sassert bind].
  assert (H3 : ((64 * (lb + 1 - kb)) mod 64 =? 0) = true) by lia. rewrite H3. cbn [sassert bind].
  rewrite (sub32_le (es_first b)) by (rewrite ?M32_eq; lia).
  rewrite Fa, Fb.
  assert (H4 : ((64 * kb - 64 * ka) mod 64 =? 0) = true) by (clear; lia). rewrite H4. cbn [sassert bind].
  replace ((64 * kb - 64 * ka) / 64) with (kb - ka) by (clear; lia).
  rewrite (sub32_le _ 1) by (rewrite ?M32_eq; lia).
  rewrite add32_small by (rewrite M32_eq; lia).
  assert (H5 : (lb + 1 - kb - 1 + (kb - ka) <? la + 1 - ka) = true) by lia.
  rewrite H5. cbn [sassert bind].
  destruct (contains_loop_ok (nrange (lb + 1 - kb)) (es_bits a) (es_bits b) (kb - ka)) as [r [Er Hr]].
  { intros i Hi. apply nrange_In in Hi. rewrite (nblocks_mul _ _ Sa), (nblocks_mul _ _ Sb). lia. }
  exists r. split; [exact Er|]. rewrite Hr.
  apply (blocks_sub_iff a b ka kb (la + 1 - ka) (lb + 1 - kb)); try assumption; [lia|].
  exact (a_rng b Ab).
Qed.

Definition cmp_spec (p : pord) (a b : es) : Prop :=
  match p with
  | PEquiv => bsub a b /\ bsub b a
  | PLess => bsub a b /\ ~ bsub b a
  | PGreater => ~ bsub a b /\ bsub b a
  | PUnord => ~ bsub a b /\ ~ bsub b a
  end.

Lemma same_size_ok a b : goodne a -> goodne b ->
  es_first a = es_first b -> es_last a = es_last b ->
  exists p, contains_impl_same_size a b = Ok p /\ cmp_spec p a b.
Proof.
  intros Ga Gb Hf Hl. pose proof (g_first a Ga) as Fa. pose proof (g_first b Gb) as Fb.
  pose proof (g_last a Ga) as La. pose proof (g_last b Gb) as Lb.
  pose proof (g_size a Ga) as Sa. pose proof (g_size b Gb) as Sb.
  pose proof (g_le a Ga) as Lea. pose proof (g_le b Gb) as Leb.
  pose proof (goodne_aligned b Gb) as Ab. pose proof (goodne_aligned a Ga) as Aa.
  assert (Hk : es_fbs b / 64 = es_fbs a / 64) by (clear - Fa Fb Hf; lia).
  assert (Hk' : es_lbs b / 64 = es_lbs a / 64) by (clear - La Lb Hl; lia).
  rewrite Hk in *. rewrite Hk' in *.
  set (ka := es_fbs a / 64) in *. set (la := es_lbs a / 64) in *. clearbody ka la.
  unfold contains_impl_same_size.
  assert (H1 : ((es_first a =? es_first b) && (es_last a =? es_last b)) = true) by lia.
  rewrite H1. cbn [sassert bind]. change bits_per_block with 64.
  rewrite Sa, Sb. rewrite (nblocks_mul _ _ Sa), (nblocks_mul _ _ Sb).
  assert (H2 : ((64 * (la + 1 - ka)) mod 64 =? 0) = true) by (clear; lia). rewrite H2. cbn [sassert bind].
  rewrite N.eqb_refl. cbn [sassert bind].
  destruct (same_size_loop_ok (nrange (la + 1 - ka)) (es_bits a) (es_bits b) true true)
    as [ra [rb [E H]]].
  { intros i Hi. apply nrange_In in Hi. rewrite (nblocks_mul _ _ Sa), (nblocks_mul _ _ Sb). lia. }
  rewrite E. cbn [bind]. eexists. split; [reflexivity|].
  destruct (H (or_introl eq_refl)) as [Ha Hb].
  pose proof (blocks_sub_iff a b ka ka _ _ Fa Fb (N.le_refl _) Sa Sb (a_rng b Ab)) as Hba.
  pose proof (blocks_sub_iff b a ka ka _ _ Fb Fa (N.le_refl _) Sb Sa (a_rng a Aa)) as Hab.
  rewrite N.sub_diag in Hab, Hba.
  assert (Hra : ra = true <-> bsub a b).
  { rewrite Ha, <- Hab. split.
    - intros [_ X] i n Hi Hn Ht. rewrite N.add_0_r. apply X; assumption.
    - intros X. split; [reflexivity|]. intros i n Hi Hn Ht. specialize (X i n Hi Hn Ht).
      rewrite N.add_0_r in X. exact X. }
  assert (Hrb : rb = true <-> bsub b a).
  { rewrite Hb, <- Hba. split.
    - intros [_ X] i n Hi Hn Ht. rewrite N.add_0_r. apply X; assumption.
    - intros X. split; [reflexivity|]. intros i n Hi Hn Ht. specialize (X i n Hi Hn Ht).
      rewrite N.add_0_r in X. exact X. }
  clear - Hra Hrb. destruct ra, rb; cbn [cmp_spec]; rewrite <- Hra, <- Hrb; intuition discriminate.
Qed.

Lemma bsub_bounds a b : goodne a -> goodne b -> bsub a b ->
  es_fbs b <= es_fbs a /\ es_lbs a <= es_lbs b.
Proof.
  intros Ga Gb H. split.
  - apply (goodne_bmem_rng b _ Gb). apply H. apply goodne_bmem_fbs, Ga.
  - apply (goodne_bmem_rng b _ Gb). apply H. apply goodne_bmem_lbs, Ga.
Qed.

Lemma compare_ne a b : goodne a -> goodne b ->
  exists p, es_compare false a b = Ok p /\ cmp_spec p a b.
Proof.
  intros Ga Gb. unfold es_compare.
  rewrite (goodne_not_empty a Ga), (goodne_not_empty b Gb). cbn [andb negb].
  destruct ((es_first a =? es_first b) && (es_last a =? es_last b)) eqn:Hsame.
  { apply same_size_ok; try assumption; lia. }
  pose proof (g_first a Ga) as Fa. pose proof (g_first b Gb) as Fb.
  pose proof (g_last a Ga) as La. pose proof (g_last b Gb) as Lb.
  assert (Hneq : ~ (es_fbs a = es_fbs b /\ es_lbs a = es_lbs b)).
  { intros [E1 E2]. rewrite E1 in Fa. rewrite E2 in La. clear - Hsame Fa Fb La Lb. lia. }
  assert (Hboth : ~ (bsub a b /\ bsub b a)).
  { intros [S1 S2]. apply bsub_bounds in S1, S2; try assumption. clear - Hneq S1 S2. lia. }
  destruct ((es_fbs a <=? es_fbs b) && (es_lbs b <=? es_lbs a)) eqn:H1.
  - assert (Hab : ~ bsub a b).
    { intros S. apply bsub_bounds in S; try assumption. clear - Hneq S H1. lia. }
    destruct (contains_impl_ok a b Ga Gb) as [r [Er Hr]]; [clear - H1 Fa Fb; lia|clear - H1 La Lb; lia|].
    rewrite Er. cbn [bind]. eexists. split; [reflexivity|].
    destruct r; cbn [cmp_spec]; split; try exact Hab.
    + apply Hr. reflexivity.
    + intros S. apply Hr in S. discriminate.
  - destruct ((es_fbs b <=? es_fbs a) && (es_lbs a <=? es_lbs b)) eqn:H2.
    + assert (Hba : ~ bsub b a).
      { intros S. apply bsub_bounds in S; try assumption. clear - Hneq S H2. lia. }
      destruct (contains_impl_ok b a Gb Ga) as [r [Er Hr]]; [clear - H2 Fa Fb; lia|clear - H2 La Lb; lia|].
      rewrite Er. cbn [bind]. eexists. split; [reflexivity|].
      destruct r; cbn [cmp_spec]; split; try exact Hba.
      * apply Hr. reflexivity.
      * intros S. apply Hr in S. discriminate.
    + eexists. split; [reflexivity|]. cbn [cmp_spec]. split; intros S.
      * apply bsub_bounds in S; try assumption. clear - H2 S. lia.
      * apply bsub_bounds in S; try assumption. clear - H1 S. lia.
Qed.

(* ---------- canonical representation ---------- *)

Lemma canonical a b : goodne a -> goodne b -> (forall i, bmem a i = bmem b i) ->
  es_first a = es_first b /\ es_last a = es_last b /\ es_fbs a = es_fbs b /\ es_lbs a = es_lbs b /\
  es_bits a = es_bits b.
Proof.
  intros Ga Gb H.
  assert (Sab : bsub a b) by (intros i; rewrite H; auto).
  assert (Sba : bsub b a) by (intros i; rewrite H; auto).
  apply bsub_bounds in Sab, Sba; try assumption.
  assert (Ef : es_fbs a = es_fbs b) by lia. assert (El : es_lbs a = es_lbs b) by lia.
  pose proof (g_first a Ga) as Fa. pose proof (g_first b Gb) as Fb.
  pose proof (g_last a Ga) as La. pose proof (g_last b Gb) as Lb.
  pose proof (g_size a Ga) as Sa. pose proof (g_size b Gb) as Sb.
  rewrite Ef in *. rewrite El in *.
  assert (E1 : es_first a = es_first b) by congruence.
  repeat (split; [congruence|]).
  assert (Hv : bval (es_bits a) = bval (es_bits b)).
  { apply N.bits_inj. intros n. specialize (H (es_first a + n)). unfold bmem in H.
    rewrite <- E1 in H. replace (es_first a + n - es_first a) with n in H by lia.
    destruct (N.leb_spec (es_first a) (es_first a + n)); [|lia]. exact H. }
  assert (Hs : bsize (es_bits a) = bsize (es_bits b)) by congruence.
  destruct (es_bits a), (es_bits b). cbn in *. congruence.
Qed.

(* ---------- expanded_set, count, iteration ---------- *)

Lemma expanded_ne s : goodne s ->
  StronglySorted N.lt (es_expanded s) /\ forall i, In i (es_expanded s) <-> bmem s i = true.
Proof.
  intros G. unfold es_expanded.
  pose proof (filter_sorted (bv_test (es_bits s)) _ (nrange_sorted (bsize (es_bits s)))) as Hsort.
  pose proof (fun i => goodne_filter_In s i G) as HIn.
  set (L := filter (bv_test (es_bits s)) (nrange (bsize (es_bits s)))) in *.
  assert (Hmap : map (fun i => add32 (es_first s) i) L = map (N.add (es_first s)) L).
  { apply map_ext_in. intros i Hi. apply HIn in Hi. apply (g_rng s G) in Hi.
    pose proof (g_lim s G). apply add32_small. lia. }
  rewrite Hmap. split; [apply map_add_sorted; exact Hsort|].
  intros i. rewrite in_map_iff. unfold bmem. split.
  - intros [x [<- Hx]]. apply HIn in Hx. replace (es_first s + x - es_first s) with x by lia.
    rewrite Hx. lia.
  - intros H. apply andb_true_iff in H. exists (i - es_first s). rewrite HIn. split; [lia|tauto].
Qed.

Lemma count_expanded s : es_count s = N.of_nat (length (es_expanded s)).
Proof. unfold es_count, bv_count, es_expanded. rewrite map_length. reflexivity. Qed.

(* filter over a range split at an index *)
Lemma nrange_split n k : k <= n ->
  nrange n = nrange k ++ map N.of_nat (seq (N.to_nat k) (N.to_nat n - N.to_nat k)).
Proof.
  intros H. unfold nrange. rewrite <- map_app, <- seq_app. do 2 f_equal. lia.
Qed.

Definition above (b : bv) (k : N) : list N :=
  filter (bv_test b) (map N.of_nat (seq (N.to_nat k) (N.to_nat (bsize b) - N.to_nat k))).

Lemma above_end b : above b (bsize b) = [].
Proof. unfold above. rewrite Nat.sub_diag. reflexivity. Qed.

Lemma above_step b k : k < bsize b ->
  above b k = if bv_test b k then k :: above b (k + 1) else above b (k + 1).
Proof.
  intros H. unfold above.
  replace (N.to_nat (bsize b) - N.to_nat k)%nat
    with (S (N.to_nat (bsize b) - N.to_nat (k + 1)))%nat by lia.
  cbn [seq map filter]. rewrite N2Nat.id.
  replace (S (N.to_nat k)) with (N.to_nat (k + 1)) by lia. reflexivity.
Qed.

Lemma above_skip b r : r <= bsize b -> forall k, k <= r ->
  (forall i, k <= i -> i < r -> bv_test b i = false) -> above b k = above b r.
Proof.
  intros Hr k Hk. remember (N.to_nat (r - k)) as m eqn:Em. revert k Hk Em.
  induction m as [|m IH]; intros k Hk Em Hf.
  - replace k with r by lia. reflexivity.
  - rewrite above_step by lia. rewrite Hf by lia. apply IH; try lia.
    intros i Hi1 Hi2. apply Hf; lia.
Qed.

Lemma iterate_from_ok s : forall fuel k, k <= bsize (es_bits s) ->
  (k < bsize (es_bits s) -> bv_test (es_bits s) k = true) ->
  bsize (es_bits s) < N.of_nat fuel + k ->
  es_iterate_from fuel s k = Ok (map (fun i => add32 (es_first s) i) (above (es_bits s) k)).
Proof.
  induction fuel as [|fuel IH]; intros k Hk Ht Hf; [lia|]. cbn [es_iterate_from].
  destruct (N.eqb_spec k (bsize (es_bits s))) as [->|Hne].
  - rewrite above_end. reflexivity.
  - unfold es_it_next.
    destruct (scan_up_ok (es_bits s) (N.to_nat (bsize (es_bits s)) + 1) (k + 1))
      as [r [Er [H1 [H2 [H3 H4]]]]]; [lia|lia|].
    rewrite Er. cbn [bind]. rewrite IH by (try assumption; lia). cbn [bind].
    rewrite (above_step _ k) by lia. rewrite Ht by lia.
    rewrite (above_skip _ r H2 (k + 1)) by (try assumption; lia). reflexivity.
Qed.

Lemma iterate_ne s : goodne s -> es_iterate s = Ok (es_expanded s).
Proof.
  intros G. unfold es_iterate.
  pose proof (g_first s G) as Gf. pose proof (g_size s G) as Gs. pose proof (g_le s G) as Gle.
  pose proof (g_lim s G) as Glim. rewrite M32_eq in Glim.
  rewrite sub32_le by (rewrite ?M32_eq; lia).
  assert (H1 : (es_fbs s - es_first s <=? bsize (es_bits s)) = true) by lia.
  rewrite H1. cbn [sassert bind].
  rewrite iterate_from_ok.
  - f_equal. unfold es_expanded. f_equal.
    assert (H0 : above (es_bits s) 0 = filter (bv_test (es_bits s)) (nrange (bsize (es_bits s)))).
    { unfold above, nrange. rewrite Nat.sub_0_r. reflexivity. }
    rewrite <- H0. symmetry. apply above_skip; [lia|lia|].
    intros i _ Hi. rewrite goodne_test by exact G.
    apply not_true_is_false. intros Ht. apply (g_rng s G) in Ht. lia.
  - lia.
  - intros _. rewrite goodne_test by exact G. apply (g_fb s G).
  - lia.
Qed.

(* ---------- reachable sets ---------- *)

(* every way the API offers to obtain an exclusion set: default construction,
   make_exclusion_set, set, |= and -= (aliased or not), clear *)
Inductive reach : es -> Prop :=
| reach_default : reach es_default
| reach_make id ids s :
    (forall i, In i ids -> i < M32 - 64) -> make_es id ids = Ok s -> reach s
| reach_set s i s' : reach s -> i < M32 - 64 -> es_set s i = Ok s' -> reach s'
| reach_or same s o s' : reach s -> reach o -> (same = true -> o = s) ->
    es_or_assign same s o = Ok s' -> reach s'
| reach_sub same s o s' : reach s -> reach o -> (same = true -> o = s) ->
    es_sub_assign same s o = Ok s' -> reach s'
| reach_clear s : reach s -> reach (es_clear s).

Definition emptyrep (s : es) : Prop :=
  exists id, s = mkes id INVALID INVALID INVALID INVALID bv_empty.

Lemma set_on_empty id i : i < M32 - 64 ->
  es_set (mkes id INVALID INVALID INVALID INVALID bv_empty) i = Throw.
Proof.
  intros Hi. rewrite M32_eq in Hi. unfold es_set. cbn [es_first es_last].
  change INVALID with 4294967295. change bits_per_block with 64.
  destruct (N.ltb_spec i 4294967295) as [H|H]; [|lia].
  rewrite mul32_small by (rewrite M32_eq; lia).
  unfold lower_first. cbn [es_first es_last es_fbs es_lbs es_bits es_id].
  assert (H1 : (i / 64 * 64 <? 4294967295) = true) by lia. rewrite H1. cbn [sassert bind].
  change bits_per_block with 64.
  assert (H2 : ((i / 64 * 64) mod 64 =? 0) = true) by lia. rewrite H2. cbn [sassert bind].
  cbn [es_first es_bits bv_empty bsize].
  rewrite (sub32_le 4294967295) by (rewrite ?M32_eq; lia).
  unfold bv_set. cbn [bv_shl bv_resize bsize bval].
  rewrite (sub32_le i) by (rewrite ?M32_eq; lia).
  rewrite add32_small by (rewrite M32_eq; lia).
  assert (H3 : (i - i / 64 * 64 <? 0 + (4294967295 - i / 64 * 64)) = true) by lia.
  rewrite H3. cbn [bind].
  set (s2 := mkes _ _ _ _ _ _).
  assert (Hnok : es_ok s2 = false).
  { unfold es_ok, es_empty. cbn [s2 es_first es_last es_fbs es_lbs es_bits bsize es_id].
    change INVALID with 4294967295.
    replace (N.min i 4294967295) with i by lia. replace (N.max i 4294967295) with 4294967295 by lia.
    destruct (N.eqb_spec i 4294967295); [lia|]. rewrite N.eqb_refl.
    rewrite ?andb_false_r. cbn [andb negb]. rewrite ?andb_false_r. cbn [andb negb]. rewrite ?andb_false_r. reflexivity. }
  rewrite Hnok. reflexivity.
Qed.

Lemma or_empty_l s o : es_empty s = true -> es_empty o = false ->
  es_or_assign false s o = es_or_assign false o o.
Proof. intros Hs Ho. unfold es_or_assign. rewrite Hs, Ho. reflexivity. Qed.

Lemma reach_good s : reach s -> good s.
Proof.
  induction 1 as [|id ids s Hl Hm|s i s' Hr IH Hi He|same s o s' Hr IH Hr' IH' Hsame He
                 |same s o s' Hr IH Hr' IH' Hsame He|s Hr IH].
  - left. eexists. reflexivity.
  - destruct (is_sortedb ids) eqn:Hs.
    + destruct (make_es_ok id ids Hs Hl) as [s1 [E [G _]]]. congruence.
    + unfold make_es in Hm. rewrite Hs in Hm. discriminate.
  - destruct IH as [[id ->]|G].
    + rewrite set_on_empty in He by exact Hi. discriminate.
    + destruct (es_set_ok s i G Hi) as [s1 [E [G1 _]]]. right. congruence.
  - destruct same.
    + unfold es_or_assign in He. cbn in He. injection He as <-. exact IH.
    + destruct IH' as [[ido ->]|Go].
      * unfold es_or_assign in He. rewrite empty_rep_empty in He. cbn in He.
        injection He as <-. exact IH.
      * destruct IH as [[id ->]|G].
        -- rewrite or_empty_l in He by (try apply empty_rep_empty; apply goodne_not_empty, Go).
           destruct (es_or_ne o o Go Go) as [s1 [E [G1 _]]]. right. congruence.
        -- destruct (es_or_ne s o G Go) as [s1 [E [G1 _]]]. right. congruence.
  - destruct same.
    + unfold es_sub_assign in He. cbn in He. injection He as <-. left. eexists. reflexivity.
    + destruct IH as [[id ->]|G].
      * unfold es_sub_assign in He. rewrite empty_rep_empty in He. cbn in He.
        injection He as <-. left. eexists. reflexivity.
      * destruct IH' as [[ido ->]|Go].
        -- unfold es_sub_assign in He. rewrite empty_rep_empty, orb_true_r in He.
           injection He as <-. right. exact G.
        -- destruct (es_sub_ne s o G Go) as [s1 [E [_ [[Hem _]|[G1 _]]]]].
           ++ left. rewrite He in E. injection E as ->. exact Hem.
           ++ right. congruence.
  - left. eexists. reflexivity.
Qed.

Lemma goodne_index_out s i : goodne s -> ~ i < M32 -> bmem s i = false.
Proof.
  intros G Hi. apply not_true_is_false. intros Hm. apply (goodne_bmem_rng s i G) in Hm.
  pose proof (g_lim s G). lia.
Qed.

(* ---------- the operations on reachable sets, in terms of operator[] ---------- *)

Lemma good_or s o : good s -> good o ->
  exists c, es_or_assign false s o = Ok c /\
    forall i, i < M32 -> es_index c i = es_index s i || es_index o i.
Proof.
  intros [[id ->]|G] [[ido ->]|Go].
  - eexists. split; [reflexivity|]. intros i _. rewrite !empty_index. reflexivity.
  - rewrite or_empty_l by (try apply empty_rep_empty; apply goodne_not_empty, Go).
    destruct (es_or_ne o o Go Go) as [c [E [Gc [_ H]]]]. exists c. split; [exact E|].
    intros i Hi. rewrite empty_index, !goodne_index, H by assumption. rewrite orb_diag. reflexivity.
  - exists s. split.
    + unfold es_or_assign. rewrite empty_rep_empty. reflexivity.
    + intros i _. rewrite empty_index, orb_false_r. reflexivity.
  - destruct (es_or_ne s o G Go) as [c [E [Gc [_ H]]]]. exists c. split; [exact E|].
    intros i Hi. rewrite !goodne_index, H by assumption. reflexivity.
Qed.

Lemma good_sub s o : good s -> good o ->
  exists c, es_sub_assign false s o = Ok c /\ es_id c = es_id s /\
    forall i, i < M32 -> es_index c i = es_index s i && negb (es_index o i).
Proof.
  intros [[id ->]|G] [[ido ->]|Go].
  - eexists. split; [reflexivity|]. split; [reflexivity|]. intros i _. rewrite !empty_index. reflexivity.
  - eexists. split; [unfold es_sub_assign; rewrite empty_rep_empty; reflexivity|].
    split; [reflexivity|]. intros i _. rewrite !empty_index. reflexivity.
  - exists s. split.
    + unfold es_sub_assign. rewrite empty_rep_empty, orb_true_r. reflexivity.
    + split; [reflexivity|]. intros i _. rewrite empty_index, andb_true_r. reflexivity.
  - destruct (es_sub_ne s o G Go) as [c [E [Hid [[[id ->] H]|[Gc H]]]]].
    + eexists. split; [exact E|]. split; [exact Hid|].
      intros i Hi. rewrite empty_index, !goodne_index by assumption.
      symmetry. apply H.
    + exists c. split; [exact E|]. split; [exact Hid|].
      intros i Hi. rewrite !goodne_index, H by assumption. reflexivity.
Qed.

Lemma bsub_index a b : goodne a -> goodne b ->
  (bsub a b <-> forall i, i < M32 -> es_index a i = true -> es_index b i = true).
Proof.
  intros Ga Gb. split.
  - intros H i Hi. rewrite !goodne_index by assumption. apply H.
  - intros H i Hm. destruct (N.ltb_spec i M32) as [Hi|Hi].
    + specialize (H i Hi). rewrite !goodne_index in H by assumption. auto.
    + rewrite goodne_index_out in Hm by (try assumption; lia). discriminate.
Qed.

Lemma goodne_nonempty_index s : goodne s -> exists i, i < M32 /\ es_index s i = true.
Proof.
  intros G. exists (es_fbs s). pose proof (g_le s G). pose proof (g_lim s G).
  assert (Hlt : es_fbs s < M32) by lia. split; [exact Hlt|].
  rewrite goodne_index by assumption. apply goodne_bmem_fbs, G.
Qed.

Lemma good_ok s : good s -> es_ok s = true.
Proof.
  intros [[id ->]|G]; [|apply goodne_ok, G]. unfold es_ok. rewrite empty_rep_empty. reflexivity.
Qed.

Lemma good_expanded s : good s ->
  StronglySorted N.lt (es_expanded s) /\
  (forall i, In i (es_expanded s) <-> i < M32 /\ es_index s i = true).
Proof.
  intros [[id ->]|G].
  - split; [constructor|]. intros i. split; [intros []|]. intros [_ H]. rewrite empty_index in H. discriminate.
  - destruct (expanded_ne s G) as [Hs Hin]. split; [exact Hs|]. intros i. rewrite Hin. split.
    + intros H. destruct (N.ltb_spec i M32) as [Hi|Hi].
      * rewrite goodne_index by assumption. auto.
      * rewrite goodne_index_out in H by (try assumption; lia). discriminate.
    + intros [Hi H]. rewrite goodne_index in H by assumption. exact H.
Qed.

Lemma good_iterate s : good s -> es_iterate s = Ok (es_expanded s).
Proof. intros [[id ->]|G]; [reflexivity|apply iterate_ne, G]. Qed.

Lemma good_empty_iff s : good s -> (es_empty s = true <-> forall i, i < M32 -> es_index s i = false).
Proof.
  intros [[id ->]|G].
  - split; [|reflexivity]. intros _ i _. apply empty_index.
  - rewrite (goodne_not_empty s G). split; [discriminate|]. intros H.
    destruct (goodne_nonempty_index s G) as [i [Hi Ht]]. rewrite H in Ht by exact Hi. discriminate.
Qed.

Lemma good_canonical a b : good a -> good b ->
  (forall i, i < M32 -> es_index a i = es_index b i) ->
  a = mkes (es_id a) (es_first b) (es_last b) (es_fbs b) (es_lbs b) (es_bits b).
Proof.
  intros Ha Hb H. destruct Ha as [[ida ->]|Ga].
  - assert (He : es_empty b = true).
    { apply (good_empty_iff b Hb). intros i Hi. rewrite <- H by exact Hi. apply empty_index. }
    destruct Hb as [[idb ->]|Gb]; [reflexivity|]. rewrite (goodne_not_empty b Gb) in He. discriminate.
  - destruct Hb as [[idb ->]|Gb].
    + destruct (goodne_nonempty_index a Ga) as [i [Hi Ht]].
      rewrite H, empty_index in Ht by exact Hi. discriminate.
    + destruct (canonical a b Ga Gb) as [E1 [E2 [E3 [E4 E5]]]].
      * intros i. destruct (N.ltb_spec i M32) as [Hi|Hi].
        -- specialize (H i Hi). rewrite !goodne_index in H by assumption. exact H.
        -- rewrite !goodne_index_out by (try assumption; lia). reflexivity.
      * destruct a. cbn in *. congruence.
Qed.

(* ---------- histories on one mutable set ---------- *)

Inductive hop : Type :=
| HMake (ids : list N)      (* s = make_exclusion_set(ids) *)
| HSet (i : N)              (* s.set(i) *)
| HOr (ids : list N)        (* s |= make_exclusion_set(ids) *)
| HSub (ids : list N)       (* s -= make_exclusion_set(ids) *)
| HOrSelf                   (* s |= s *)
| HSubSelf                  (* s -= s *)
| HClear.                   (* s.clear() *)

Definition hstep (s : es) (o : hop) : res es :=
  match o with
  | HMake ids => make_es INVALID ids
  | HSet i => es_set s i
  | HOr ids => do o <- make_es INVALID ids; es_or_assign false s o
  | HSub ids => do o <- make_es INVALID ids; es_sub_assign false s o
  | HOrSelf => es_or_assign true s s
  | HSubSelf => es_sub_assign true s s
  | HClear => Ok (es_clear s)
  end.

Fixpoint hrun (s : es) (h : list hop) : res es :=
  match h with
  | [] => Ok s
  | o :: t => do s' <- hstep s o; hrun s' t
  end.

Lemma good_set s i : good s -> es_empty s = false -> i < M32 - 64 ->
  exists c, es_set s i = Ok c /\ good c /\ es_id c = es_id s /\
    forall j, j < M32 -> es_index c j = (j =? i) || es_index s j.
Proof.
  intros [[id ->]|G] He Hi; [rewrite empty_rep_empty in He; discriminate|].
  destruct (es_set_ok s i G Hi) as [c [E [Gc [Hid H]]]]. exists c. split; [exact E|].
  split; [right; exact Gc|]. split; [exact Hid|].
  intros j Hj. rewrite !goodne_index, H by assumption. reflexivity.
Qed.

Lemma good_or_good s o c : good s -> good o -> es_or_assign false s o = Ok c -> good c.
Proof.
  intros [[id ->]|G] [[ido ->]|Go] He.
  - injection He as <-. left. eexists; reflexivity.
  - rewrite or_empty_l in He by (try apply empty_rep_empty; apply goodne_not_empty, Go).
    destruct (es_or_ne o o Go Go) as [c' [E [Gc _]]]. right. congruence.
  - unfold es_or_assign in He. rewrite empty_rep_empty in He. cbn in He. injection He as <-. right; exact G.
  - destruct (es_or_ne s o G Go) as [c' [E [Gc _]]]. right. congruence.
Qed.

Lemma good_sub_good s o c : good s -> good o -> es_sub_assign false s o = Ok c -> good c.
Proof.
  intros Gs Go' He. pose proof Gs as [[id ->]|G]; pose proof Go' as [[ido ->]|Go].
  - injection He as <-. left. eexists; reflexivity.
  - unfold es_sub_assign in He. rewrite empty_rep_empty in He. cbn in He. injection He as <-. exact Gs.
  - unfold es_sub_assign in He. rewrite empty_rep_empty, orb_true_r in He. injection He as <-. exact Gs.
  - destruct (es_sub_ne s o G Go) as [c' [E [_ [[Hem _]|[G1 _]]]]].
    + left. rewrite He in E. injection E as ->. exact Hem.
    + right. congruence.
Qed.

Lemma es_ok_sound s : es_ok s = true -> es_empty s = false ->
  es_first s <> INVALID /\ es_last s <> INVALID /\ es_fbs s <> INVALID /\ es_lbs s <> INVALID /\
  es_first s <= es_fbs s /\ es_lbs s <= es_last s /\ es_first s < es_last s /\
  es_fbs s <= (es_first s + 64) mod 2 ^ 32 /\
  bv_test (es_bits s) ((es_fbs s + (2 ^ 32 - es_first s)) mod 2 ^ 32) = true /\
  bv_test (es_bits s) ((es_lbs s + (2 ^ 32 - es_first s)) mod 2 ^ 32) = true.
Proof.
  unfold es_ok. intros H E. rewrite E in H.
  repeat match type of H with
  | (if negb ?c then false else _) = true => destruct c eqn:?; cbn [negb] in H; [|discriminate H]
  end.
  repeat match goal with K : _ && _ = true |- _ => apply andb_true_iff in K; destruct K end.
  repeat match goal with K : negb _ = true |- _ => apply negb_true_iff in K end.
  repeat match goal with K : (_ =? _) = false |- _ => apply N.eqb_neq in K end.
  repeat match goal with K : (_ <=? _) = true |- _ => apply N.leb_le in K | K : (_ <? _) = true |- _ => apply N.ltb_lt in K end.
  repeat split; assumption.
Qed.
