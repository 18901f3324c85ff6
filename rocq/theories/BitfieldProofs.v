(* Proofs about the bitfield model. *)
From Verif Require Import Base BitfieldModel.
From Coq Require Import ZifyBool ZifyNat ZifyN Sorting.Sorted Ascii.
Open Scope Z_scope.

(* A well-formed bitfield: what make_bitfield, set and | produce (see below). *)
Record bf_ok (b : bf) : Prop := mk_ok {
  ok_lo : -1073741824 <= bf_first b;
  ok_hi : bf_last b < 1073741824;
  ok_le : bf_first b <= bf_last b;
  ok_span : bf_last b - bf_first b < 512;
  ok_bits : forall i, N.testbit (bf_bits b) i = true -> Z.of_N i <= bf_last b - bf_first b }.

Definition idx (b : bf) (d : Z) : N := Z.to_N (d - bf_first b).
Definition mem (b : bf) (d : Z) : bool :=
  (bf_first b <=? d) && N.testbit (bf_bits b) (idx b d).

Lemma mem_range b d : bf_ok b -> mem b d = true -> bf_first b <= d <= bf_last b.
Proof.
  intros H. unfold mem, idx. intros M. apply andb_true_iff in M. destruct M as [M1 M2].
  apply (ok_bits b H) in M2. lia.
Qed.

Lemma bits_test_lt b i : bf_ok b -> bits_test (bf_bits b) i = N.testbit (bf_bits b) i.
Proof.
  intros H. unfold bits_test, BITSIZE. destruct (N.testbit (bf_bits b) i) eqn:E.
  - apply (ok_bits b H) in E. pose proof (ok_span b H). lia.
  - apply andb_false_r.
Qed.

Lemma distance_ok a c : -1073741824 <= a -> a <= c -> c < 1073741824 -> distance a c = Ok (Z.to_N (c - a)).
Proof.
  intros. unfold distance, anchor_valid, ANCHOR_MAX.
  replace (a =? 2147483647) with false by lia. replace (c =? 2147483647) with false by lia.
  replace (a <=? c) with true by lia. cbn [negb sassert bind].
  replace (c - a <? 2147483648) with true by lia. reflexivity.
Qed.

Lemma end_idx_ok b : bf_ok b -> get_end_idx b = Ok (Z.to_N (bf_last b - bf_first b + 1)).
Proof.
  intros H. unfold get_end_idx. destruct H. rewrite distance_ok by lia. cbn [bind].
  f_equal. rewrite N.mod_small; lia.
Qed.

Lemma at_ok b d : bf_ok b -> bf_first b <= d <= bf_last b -> bf_at b d = Ok (mem b d).
Proof.
  intros H Hd. unfold bf_at. replace ((bf_first b <=? d) && (d <=? bf_last b)) with true by lia.
  unfold get_idx. replace ((bf_first b <=? d) && (d <=? bf_last b)) with true by lia.
  cbn [sassert bind]. pose proof (ok_lo b H). pose proof (ok_hi b H).
  rewrite distance_ok by lia. cbn [bind]. rewrite (bits_test_lt b _ H). unfold mem, idx.
  replace (bf_first b <=? d) with true by lia. reflexivity.
Qed.

Lemma at_out b d : ~ (bf_first b <= d <= bf_last b) -> bf_at b d = Throw.
Proof.
  intros Hd. unfold bf_at. replace ((bf_first b <=? d) && (d <=? bf_last b)) with false by lia. reflexivity.
Qed.

Lemma sub_at b d : bf_sub b d = bf_at b d.
Proof.
  unfold bf_sub, bf_at. destruct ((bf_first b <=? d) && (d <=? bf_last b)) eqn:E; [reflexivity|].
  unfold get_idx. rewrite E. reflexivity.
Qed.

Lemma at_true b d : bf_ok b -> (bf_at b d = Ok true <-> mem b d = true).
Proof.
  intros H. split.
  - intros A. destruct (Z_le_dec (bf_first b) d); [destruct (Z_le_dec d (bf_last b))|].
    + rewrite at_ok in A by (try assumption; lia). congruence.
    + rewrite at_out in A by lia. discriminate.
    + rewrite at_out in A by lia. discriminate.
  - intros M. rewrite (at_ok b d H (mem_range b d H M)). congruence.
Qed.

(* ------------------------------------------------------------------ *)
(* set and union                                                       *)

Lemma shl_spec b k i : N.testbit (bits_shl b k) i = (i <? 512)%N && (k <=? i)%N && N.testbit b (i - k).
Proof.
  unfold bits_shl, BITSIZE. destruct (N.ltb_spec i 512).
  - rewrite N.mod_pow2_bits_low by assumption. cbn [andb].
    destruct (N.leb_spec k i).
    + rewrite N.shiftl_spec_high' by assumption. reflexivity.
    + rewrite N.shiftl_spec_low by assumption. reflexivity.
  - rewrite N.mod_pow2_bits_high by assumption. reflexivity.
Qed.

Lemma setval_spec (b i : N) (v : bool) j :
  N.testbit (if v then N.setbit b i else N.clearbit b i) j = if (i =? j)%N then v else N.testbit b j.
Proof.
  destruct v.
  - rewrite N.setbit_eqb. destruct (i =? j)%N; reflexivity.
  - rewrite N.clearbit_eqb. destruct (i =? j)%N; [apply andb_false_r|apply andb_true_r].
Qed.

Lemma set_ok b d v :
  bf_ok b -> -1073741824 <= d < 1073741824 ->
  Z.max (bf_last b) d - Z.min (bf_first b) d < 512 ->
  exists b', bf_set b d v = Ok b' /\ bf_ok b' /\
    bf_first b' = Z.min (bf_first b) d /\ bf_last b' = Z.max (bf_last b) d /\
    forall e, mem b' e = if d =? e then v else mem b e.
Proof.
  intros H Hd Hs. pose proof H as [L1 L2 L3 L4 L5].
  set (b1 := mkbf (Z.min (bf_first b) d) (Z.max (bf_last b) d)
                  (if d <? bf_first b then bits_shl (bf_bits b) (Z.to_N (bf_first b - d)) else bf_bits b)).
  assert (E1 : (if in_range d (bf_first b) (bf_last b) <? 0 then
              do k <- distance d (bf_first b);
              Ok (mkbf d (bf_last b) (bits_shl (bf_bits b) k))
            else if 0 <? in_range d (bf_first b) (bf_last b) then Ok (mkbf (bf_first b) d (bf_bits b))
            else Ok b) = Ok b1).
  { unfold in_range, b1. destruct (Z.ltb_spec d (bf_first b)) as [A|A].
    - cbn [Z.ltb Z.compare]. rewrite distance_ok by lia. cbn [bind].
      rewrite Z.min_r, Z.max_l by lia. reflexivity.
    - rewrite Z.min_l by lia. destruct (Z.leb_spec d (bf_last b)) as [B|B].
      + cbn [Z.ltb Z.compare]. rewrite Z.max_l by lia. destruct b; reflexivity.
      + cbn [Z.ltb Z.compare]. rewrite Z.max_r by lia. reflexivity. }
  assert (M1 : forall e, mem b1 e = mem b e).
  { intros e. unfold mem, idx, b1. cbn [bf_first bf_bits].
    destruct (Z.ltb_spec d (bf_first b)) as [A|A].
    - rewrite Z.min_r by lia. rewrite shl_spec.
      destruct (Z.leb_spec d e) as [B|B].
      + destruct (Z.leb_spec (bf_first b) e) as [C|C].
        * replace (Z.to_N (bf_first b - d) <=? Z.to_N (e - d))%N with true by lia.
          replace (Z.to_N (e - d) - Z.to_N (bf_first b - d))%N with (Z.to_N (e - bf_first b)) by lia.
          cbn [andb]. rewrite andb_true_r. destruct (N.testbit (bf_bits b) (Z.to_N (e - bf_first b))) eqn:E.
          -- apply L5 in E. lia.
          -- apply andb_false_r.
        * replace (Z.to_N (bf_first b - d) <=? Z.to_N (e - d))%N with false by lia.
          rewrite andb_false_r. reflexivity.
      + replace (bf_first b <=? e) with false by lia. reflexivity.
    - rewrite Z.min_l by lia. reflexivity. }
  unfold bf_set. rewrite E1. cbn [bind].
  assert (F1 : bf_first b1 = Z.min (bf_first b) d) by reflexivity.
  assert (F2 : bf_last b1 = Z.max (bf_last b) d) by reflexivity.
  rewrite distance_ok by lia. cbn [bind].
  replace (Z.to_N (bf_last b1 - bf_first b1) <? BITSIZE)%N with true by (unfold BITSIZE; lia).
  cbn [sassert bind]. unfold get_idx.
  replace ((bf_first b1 <=? d) && (d <=? bf_last b1)) with true by lia.
  cbn [sassert bind]. rewrite distance_ok by lia. cbn [bind]. unfold bits_set.
  replace (Z.to_N (d - bf_first b1) <? BITSIZE)%N with true by (unfold BITSIZE; lia).
  cbn [bind]. eexists. split; [reflexivity|].
  assert (Bt : forall i, N.testbit (bf_bits b1) i = true -> Z.of_N i <= bf_last b1 - bf_first b1).
  { intros i Hi. specialize (M1 (bf_first b1 + Z.of_N i)). unfold mem, idx in M1.
    replace (Z.to_N (bf_first b1 + Z.of_N i - bf_first b1)) with i in M1 by lia.
    rewrite Hi in M1. replace (bf_first b1 <=? bf_first b1 + Z.of_N i) with true in M1 by lia.
    cbn [andb] in M1. symmetry in M1. apply (mem_range b _ H) in M1. lia. }
  split; [|split; [exact F1|split; [exact F2|]]].
  - clearbody b1. constructor; cbn [bf_first bf_last bf_bits]; try lia.
    intros i. rewrite setval_spec.
    destruct (N.eqb_spec (Z.to_N (d - bf_first b1)) i) as [E|E]; [lia|].
    intros Hi. apply Bt in Hi. lia.
  - intros e. rewrite <- M1. unfold mem, idx. cbn [bf_first bf_bits]. rewrite setval_spec.
    destruct (Z.eqb_spec d e) as [E|E].
    + subst e. rewrite N.eqb_refl. replace (bf_first b1 <=? d) with true by lia. reflexivity.
    + destruct (Z.leb_spec (bf_first b1) e); [|reflexivity]. cbn [andb].
      replace (Z.to_N (d - bf_first b1) =? Z.to_N (e - bf_first b1))%N with false by lia. reflexivity.
Qed.

Lemma mem_shl bits d f g :
  g <= f -> (forall i, N.testbit bits i = true -> Z.of_N i <= 511 - (f - g)) ->
  (g <=? d) && N.testbit (bits_shl bits (Z.to_N (f - g))) (Z.to_N (d - g)) =
  (f <=? d) && N.testbit bits (Z.to_N (d - f)).
Proof.
  intros Hle Hb. rewrite shl_spec. destruct (Z.leb_spec g d) as [A|A].
  - cbn [andb]. destruct (Z.leb_spec f d) as [C|C].
    + replace (Z.to_N (f - g) <=? Z.to_N (d - g))%N with true by lia.
      replace (Z.to_N (d - g) - Z.to_N (f - g))%N with (Z.to_N (d - f)) by lia.
      cbn [andb]. rewrite andb_true_r. destruct (N.testbit bits (Z.to_N (d - f))) eqn:E.
      * apply Hb in E. lia.
      * apply andb_false_r.
    + replace (Z.to_N (f - g) <=? Z.to_N (d - g))%N with false by lia.
      rewrite andb_false_r. reflexivity.
  - replace (f <=? d) with false by lia. reflexivity.
Qed.

Lemma or_ok a b :
  bf_ok a -> bf_ok b ->
  Z.max (bf_last a) (bf_last b) - Z.min (bf_first a) (bf_first b) < 512 ->
  exists c, bf_or a b = Ok c /\ bf_ok c /\
    bf_first c = Z.min (bf_first a) (bf_first b) /\ bf_last c = Z.max (bf_last a) (bf_last b) /\
    forall d, mem c d = mem a d || mem b d.
Proof.
  intros Ha Hb Hs. pose proof Ha as [L1 L2 L3 L4 L5]. pose proof Hb as [R1 R2 R3 R4 R5].
  unfold bf_or. rewrite distance_ok by lia. cbn [bind].
  match goal with |- context [sassert ?x] => replace x with true by (unfold BITSIZE; lia) end.
  cbn [sassert bind].
  assert (G : forall c, bf_first c = Z.min (bf_first a) (bf_first b) ->
                        bf_last c = Z.max (bf_last a) (bf_last b) ->
                        (forall d, mem c d = mem a d || mem b d) -> bf_ok c).
  { intros c Fc Lc Mc. constructor; try lia. intros i Hi.
    specialize (Mc (bf_first c + Z.of_N i)). unfold mem at 1, idx in Mc.
    replace (Z.to_N (bf_first c + Z.of_N i - bf_first c)) with i in Mc by lia.
    rewrite Hi in Mc. replace (bf_first c <=? bf_first c + Z.of_N i) with true in Mc by lia.
    cbn [andb] in Mc. symmetry in Mc. apply orb_true_iff in Mc. destruct Mc as [M|M].
    - apply (mem_range a _ Ha) in M. lia.
    - apply (mem_range b _ Hb) in M. lia. }
  destruct (Z.ltb_spec (bf_first a) (bf_first b)) as [A|A].
  - rewrite distance_ok by lia. cbn [bind]. eexists. split; [reflexivity|].
    assert (Mc : forall d, mem (mkbf (bf_first a) (Z.max (bf_last a) (bf_last b))
       (N.lor (bf_bits a) (bits_shl (bf_bits b) (Z.to_N (bf_first b - bf_first a))))) d = mem a d || mem b d).
    { intros d. unfold mem, idx. cbn [bf_first bf_bits]. rewrite N.lor_spec, andb_orb_distrib_r.
      rewrite (mem_shl (bf_bits b) d (bf_first b) (bf_first a)) by
        (first [lia | intros i Hi; apply R5 in Hi; lia]). reflexivity. }
    split; [apply G; cbn [bf_first bf_last]; [lia|reflexivity|exact Mc]|].
    split; [cbn [bf_first]; lia|]. split; [reflexivity|exact Mc].
  - rewrite distance_ok by lia. cbn [bind]. eexists. split; [reflexivity|].
    assert (Mc : forall d, mem (mkbf (bf_first b) (Z.max (bf_last a) (bf_last b))
       (N.lor (bits_shl (bf_bits a) (Z.to_N (bf_first a - bf_first b))) (bf_bits b))) d = mem a d || mem b d).
    { intros d. unfold mem, idx. cbn [bf_first bf_bits]. rewrite N.lor_spec, andb_orb_distrib_r.
      rewrite (mem_shl (bf_bits a) d (bf_first a) (bf_first b)) by
        (first [lia | intros i Hi; apply L5 in Hi; lia]). reflexivity. }
    split; [apply G; cbn [bf_first bf_last]; [lia|reflexivity|exact Mc]|].
    split; [cbn [bf_first]; lia|]. split; [reflexivity|exact Mc].
Qed.

(* ------------------------------------------------------------------ *)
(* make_bitfield                                                       *)

Lemma bits_of_rev l i :
  N.testbit (fold_right (fun c acc => (2 * acc + (if Ascii.eqb c "0"%char then 0 else 1))%N) 0%N l) (N.of_nat i)
  = match nth_error l i with Some c => negb (Ascii.eqb c "0"%char) | None => false end.
Proof.
  revert i. induction l as [|c l IH]; intros i; cbn [fold_right].
  - rewrite N.bits_0. destruct i; reflexivity.
  - set (r := fold_right _ 0%N l) in *. destruct i as [|i].
    + cbn [nth_error]. change (N.of_nat 0) with 0%N. destruct (Ascii.eqb c "0"%char).
      * rewrite N.add_0_r. rewrite N.testbit_even_0. reflexivity.
      * rewrite N.testbit_odd_0. reflexivity.
    + cbn [nth_error]. rewrite <- IH. rewrite Nat2N.inj_succ. destruct (Ascii.eqb c "0"%char).
      * rewrite N.add_0_r. apply N.testbit_even_succ. lia.
      * apply N.testbit_odd_succ. lia.
Qed.

Lemma make_bits mask i : (List.length mask <= 512)%nat ->
  N.testbit (bits_of_view (buffer mask)) (N.of_nat i) =
  match nth_error mask i with Some c => negb (Ascii.eqb c "0"%char) | None => false end.
Proof.
  intros H. unfold bits_of_view, buffer. rewrite bits_of_rev. rewrite rev_app_distr, rev_involutive.
  destruct (Nat.ltb_spec i (List.length mask)) as [A|A].
  - rewrite nth_error_app1 by assumption. reflexivity.
  - rewrite nth_error_app2 by assumption. replace (nth_error mask i) with (@None ascii)
      by (symmetry; apply nth_error_None; assumption).
    destruct (nth_error (rev (repeat "0"%char _)) _) as [c|] eqn:E; [|reflexivity].
    apply nth_error_In in E. apply in_rev in E. apply repeat_spec in E. subst c. reflexivity.
Qed.

Lemma make_ok first last mask :
  -1073741824 <= first -> last < 1073741824 -> first <= last -> last - first < 512 ->
  List.length mask = Z.to_nat (last - first + 1) ->
  exists b, make_bitfield first last mask = Ok b /\ bf_ok b /\ bf_first b = first /\ bf_last b = last /\
    forall d, mem b d = (first <=? d) &&
       match nth_error mask (Z.to_nat (d - first)) with
       | Some c => negb (Ascii.eqb c "0"%char) | None => false end.
Proof.
  intros H1 H2 H3 H4 H5. unfold make_bitfield. rewrite distance_ok by lia. cbn [bind].
  replace (first <=? last) with true by lia. cbn [sassert bind].
  match goal with |- context [sassert ?x] => replace x with true by lia end. cbn [sassert bind].
  match goal with |- context [if ?x then Ok _ else UB] => replace x with true by (unfold BITSIZE; lia) end.
  eexists. split; [reflexivity|].
  assert (Hm : forall d, mem (mkbf first last (bits_of_view (buffer mask))) d = (first <=? d) &&
       match nth_error mask (Z.to_nat (d - first)) with
       | Some c => negb (Ascii.eqb c "0"%char) | None => false end).
  { intros d. unfold mem, idx. cbn [bf_first bf_bits].
    destruct (Z.leb_spec first d) as [A|A]; [|reflexivity]. cbn [andb].
    replace (Z.to_N (d - first)) with (N.of_nat (Z.to_nat (d - first))) by lia.
    apply make_bits. lia. }
  split; [|split; [reflexivity|split; [reflexivity|exact Hm]]].
  constructor; cbn [bf_first bf_last bf_bits]; try lia.
  intros i Hi. replace i with (N.of_nat (N.to_nat i)) in Hi by lia.
  rewrite make_bits in Hi by lia. destruct (nth_error mask (N.to_nat i)) eqn:E; [|discriminate].
  assert (N.to_nat i < List.length mask)%nat by (apply nth_error_Some; congruence). lia.
Qed.

(* ------------------------------------------------------------------ *)
(* iterators                                                           *)

Definition bend (b : bf) : N := Z.to_N (bf_last b - bf_first b + 1).
Definition tb (b : bf) (i : N) : bool := N.testbit (bf_bits b) i.

(* iterator positions: the end, or a set day *)
Definition stop (b : bf) (i : N) : Prop := i = bend b \/ (tb b i = true).

Lemma tb_lt b i : bf_ok b -> tb b i = true -> (i < bend b)%N.
Proof. intros H T. apply (ok_bits b H) in T. unfold bend. lia. Qed.

Lemma stop_le b i : bf_ok b -> stop b i -> (i <= bend b)%N.
Proof. intros H [->|T]; [lia|]. apply (tb_lt b i H) in T. lia. Qed.

Lemma bend_lt b : bf_ok b -> (0 < bend b <= 512)%N.
Proof. intros H. destruct H. unfold bend. lia. Qed.

Lemma skip_ok b (H : bf_ok b) n : forall i, (i <= bend b)%N -> (N.to_nat (bend b) - N.to_nat i <= n)%nat ->
  exists j, skip_unset n b (bend b) i = Ok j /\ (i <= j)%N /\ stop b j /\
            forall k, (i <= k < j)%N -> tb b k = false.
Proof.
  induction n as [|n IH]; intros i Hi Hn; cbn [skip_unset]; rewrite (bits_test_lt b i H);
    fold (tb b i).
  - replace (i <? bend b)%N with false by lia. cbn [andb]. exists i.
    split; [reflexivity|]. split; [lia|]. split; [left; lia|]. intros; lia.
  - destruct (N.ltb_spec i (bend b)) as [A|A].
    + destruct (tb b i) eqn:E; cbn [andb negb].
      * exists i. split; [reflexivity|]. split; [lia|]. split; [right; exact E|]. intros; lia.
      * destruct (IH (i + 1)%N) as [j [E1 [E2 [E3 E4]]]]; [lia|lia|].
        exists j. split; [exact E1|]. split; [lia|]. split; [exact E3|].
        intros k Hk. destruct (N.eq_dec k i) as [->|]; [exact E|]. apply E4. lia.
    + cbn [andb]. exists i. split; [reflexivity|]. split; [lia|]. split; [left; lia|]. intros; lia.
Qed.

Lemma inc_ok b i (H : bf_ok b) : (i < bend b)%N ->
  exists j, it_inc b i = Ok j /\ (i < j)%N /\ stop b j /\ forall k, (i < k < j)%N -> tb b k = false.
Proof.
  intros Hi. unfold it_inc. rewrite (end_idx_ok b H). cbn [bind]. fold (bend b).
  replace (i <? bend b)%N with true by lia. cbn [sassert bind].
  destruct (skip_ok b H (N.to_nat (bend b)) (i + 1)%N) as [j [E1 [E2 [E3 E4]]]]; [lia|lia|].
  rewrite E1. cbn [bind]. pose proof (stop_le b j H E3).
  replace (j <=? bend b)%N with true by lia. cbn [sassert bind].
  rewrite (bits_test_lt b j H). fold (tb b j).
  replace ((j =? bend b)%N || tb b j) with true.
  2:{ destruct E3 as [->|E3]; [rewrite N.eqb_refl; reflexivity|rewrite E3, orb_true_r; reflexivity]. }
  cbn [sassert bind]. exists j. split; [reflexivity|]. split; [lia|]. split; [exact E3|].
  intros k Hk. apply E4. lia.
Qed.

Lemma mem_tb b i : mem b (bf_first b + Z.of_N i) = tb b i.
Proof.
  unfold mem, idx, tb. replace (bf_first b <=? bf_first b + Z.of_N i) with true by lia.
  replace (Z.to_N (bf_first b + Z.of_N i - bf_first b)) with i by lia. reflexivity.
Qed.

Lemma itmake_ok b i (H : bf_ok b) : (i <= bend b)%N ->
  exists j, it_make b i = Ok j /\ (i <= j)%N /\ stop b j /\ forall k, (i <= k < j)%N -> tb b k = false.
Proof.
  intros Hi. unfold it_make. rewrite (end_idx_ok b H). cbn [bind]. fold (bend b).
  replace (i <=? bend b)%N with true by lia. cbn [sassert bind].
  destruct (N.eqb_spec i (bend b)) as [E|E]; cbn [negb bind].
  - replace (i <=? bend b)%N with true by lia. cbn [sassert bind].
    exists i. split; [reflexivity|]. split; [lia|]. split; [left; exact E|]. intros; lia.
  - unfold idx_to_date, anchor_valid, ANCHOR_MAX. pose proof (ok_lo b H). pose proof (ok_hi b H).
    pose proof (ok_le b H).
    replace (bf_first b =? 2147483647) with false by lia. cbn [negb sassert bind].
    rewrite at_ok by (try assumption; unfold bend in *; lia). cbn [bind]. rewrite mem_tb.
    destruct (tb b i) eqn:T.
    + cbn [bind]. replace (i <=? bend b)%N with true by lia. cbn [sassert bind].
      exists i. split; [reflexivity|]. split; [lia|]. split; [right; exact T|]. intros; lia.
    + destruct (inc_ok b i H) as [j [E1 [E2 [E3 E4]]]]; [lia|]. rewrite E1. cbn [bind].
      pose proof (stop_le b j H E3). replace (j <=? bend b)%N with true by lia. cbn [sassert bind].
      exists j. split; [reflexivity|]. split; [lia|]. split; [exact E3|].
      intros k Hk. destruct (N.eq_dec k i) as [->|]; [exact T|]. apply E4. lia.
Qed.

Lemma deref_ok b i (H : bf_ok b) : tb b i = true -> it_deref b i = Ok (bf_first b + Z.of_N i).
Proof.
  intros T. unfold it_deref. pose proof (tb_lt b i H T). unfold bend in *.
  rewrite at_ok by (try assumption; pose proof (ok_le b H); lia). cbn [bind].
  rewrite mem_tb, T. reflexivity.
Qed.

(* the first stop at or after i *)
Lemma stop_unique b i j j' : bf_ok b -> (i <= j)%N -> (i <= j')%N -> stop b j -> stop b j' ->
  (forall k, (i <= k < j)%N -> tb b k = false) -> (forall k, (i <= k < j')%N -> tb b k = false) -> j = j'.
Proof.
  intros H I1 I2 S1 S2 N1 N2. pose proof (stop_le b j H S1). pose proof (stop_le b j' H S2).
  destruct (N.lt_trichotomy j j') as [L|[L|L]]; [|exact L|].
  - destruct S1 as [E|T]; [lia|]. rewrite (N2 j) in T by lia. discriminate.
  - destruct S2 as [E|T]; [lia|]. rewrite (N1 j') in T by lia. discriminate.
Qed.

Lemma loop_ok b e (H : bf_ok b) (Se : stop b e) n : forall i,
  stop b i -> (i <= e)%N -> (N.to_nat e - N.to_nat i <= n)%nat ->
  exists l, bf_loop n b i e = Ok l /\ StronglySorted Z.lt l /\
    forall d, In d l <-> bf_first b + Z.of_N i <= d < bf_first b + Z.of_N e /\ mem b d = true.
Proof.
  induction n as [|n IH]; intros i Si Hi Hn; cbn [bf_loop].
  - replace (i =? e)%N with true by lia. exists []. split; [reflexivity|]. split; [constructor|].
    intros d. split; [intros []|]. intros [A _]. lia.
  - destruct (N.eqb_spec i e) as [E|E].
    + exists []. split; [reflexivity|]. split; [constructor|].
      intros d. split; [intros []|]. intros [A _]. lia.
    + pose proof (stop_le b e H Se) as Le.
      assert (T : tb b i = true) by (destruct Si as [E1|T]; [lia|exact T]).
      rewrite (deref_ok b i H T). cbn [bind].
      destruct (inc_ok b i H) as [j [E1 [E2 [E3 E4]]]]; [lia|]. rewrite E1. cbn [bind].
      assert (Hj : (j <= e)%N).
      { destruct (N.le_gt_cases j e); [assumption|]. destruct Se as [->|Te].
        - apply (stop_le b j H) in E3. lia.
        - rewrite E4 in Te by lia. discriminate. }
      destruct (IH j E3 Hj) as [l [F1 [F2 F3]]]; [lia|]. rewrite F1. cbn [bind].
      exists (bf_first b + Z.of_N i :: l). split; [reflexivity|]. split.
      * constructor; [exact F2|]. apply Forall_forall. intros d Hd. apply F3 in Hd. lia.
      * intros d. cbn [In]. rewrite F3. split.
        -- intros [<-|[A B]]; [|split; [lia|exact B]]. split; [lia|]. rewrite mem_tb. exact T.
        -- intros [A B]. destruct (Z.eq_dec d (bf_first b + Z.of_N i)) as [->|Ne]; [left; reflexivity|].
           right. split; [|exact B]. split; [|lia].
           destruct (Z_le_dec (bf_first b + Z.of_N j) d); [assumption|exfalso].
           assert (tb b (Z.to_N (d - bf_first b)) = false) by (apply E4; lia).
           rewrite <- mem_tb in H0. replace (bf_first b + Z.of_N (Z.to_N (d - bf_first b))) with d in H0 by lia.
           congruence.
Qed.

Lemma day_of_eq t : day_of t = Z.of_N (t / 86400).
Proof. unfold day_of, midnight. f_equal. rewrite N.div_mul by discriminate. reflexivity. Qed.

Lemma from_ok b t (H : bf_ok b) : (t < 4294967296)%N ->
  exists j, bf_from b t = Ok j /\ stop b j /\
    (forall d, mem b d = true -> (day_of t <= d <-> bf_first b + Z.of_N j <= d)).
Proof.
  intros Ht. unfold bf_from. set (a := day_of t).
  assert (Ha : 0 <= a < 1073741824).
  { subst a. rewrite day_of_eq. assert (t / 86400 < 4294967296)%N; [|].
    - apply N.div_lt_upper_bound; lia.
    - split; [lia|]. assert (t / 86400 <= 4294967295 / 86400)%N by (apply N.div_le_mono; lia).
      change (4294967295 / 86400)%N with 49710%N in *. lia. }
  clearbody a. pose proof (bend_lt b H) as Hb. pose proof H as [L1 L2 L3 L4 L5].
  assert (G : forall i j, (i <= j)%N -> (forall k, (i <= k < j)%N -> tb b k = false) ->
      (forall d, mem b d = true -> (a <= d <-> bf_first b + Z.of_N i <= d)) ->
      (forall d, mem b d = true -> (a <= d <-> bf_first b + Z.of_N j <= d))).
  { intros i j Hij Hk Hd d M. rewrite (Hd d M). split; [|lia]. intros A.
    destruct (Z_le_dec (bf_first b + Z.of_N j) d); [assumption|exfalso].
    assert (F : tb b (Z.to_N (d - bf_first b)) = false) by (apply Hk; lia).
    rewrite <- mem_tb in F. replace (bf_first b + Z.of_N (Z.to_N (d - bf_first b))) with d in F by lia.
    congruence. }
  destruct (Z.leb_spec a (bf_first b)) as [A|A].
  - destruct (itmake_ok b 0%N H) as [j [E1 [E2 [E3 E4]]]]; [lia|]. exists j.
    split; [exact E1|]. split; [exact E3|]. apply (G 0%N j E2 E4).
    intros d M. apply (mem_range b d H) in M. lia.
  - rewrite distance_ok by lia. cbn [bind]. rewrite (end_idx_ok b H). cbn [bind]. fold (bend b).
    destruct (N.leb_spec (bend b) (Z.to_N (a - bf_first b))) as [B|B].
    + destruct (itmake_ok b (bend b) H) as [j [E1 [E2 [E3 E4]]]]; [lia|]. exists j.
      split; [exact E1|]. split; [exact E3|]. apply (G (bend b) j E2 E4).
      intros d M. apply (mem_range b d H) in M. unfold bend in *. lia.
    + rewrite N.mod_small by lia.
      destruct (itmake_ok b (Z.to_N (a - bf_first b)) H) as [j [E1 [E2 [E3 E4]]]]; [lia|]. exists j.
      split; [exact E1|]. split; [exact E3|]. apply (G _ j E2 E4). intros d M. lia.
Qed.

Lemma to_ok b t (H : bf_ok b) : (t < 4294967296)%N ->
  exists j, bf_to b t = Ok j /\ stop b j /\
    (forall d, mem b d = true -> (d <= day_of t <-> d < bf_first b + Z.of_N j)).
Proof.
  intros Ht. unfold bf_to. set (a := day_of t).
  assert (Ha : 0 <= a < 1073741824).
  { subst a. rewrite day_of_eq. assert (t / 86400 < 4294967296)%N; [|].
    - apply N.div_lt_upper_bound; lia.
    - split; [lia|]. assert (t / 86400 <= 4294967295 / 86400)%N by (apply N.div_le_mono; lia).
      change (4294967295 / 86400)%N with 49710%N in *. lia. }
  clearbody a. pose proof (bend_lt b H) as Hb. pose proof H as [L1 L2 L3 L4 L5].
  assert (G : forall i j, (i <= j)%N -> (forall k, (i <= k < j)%N -> tb b k = false) ->
      (forall d, mem b d = true -> (d <= a <-> d < bf_first b + Z.of_N i)) ->
      (forall d, mem b d = true -> (d <= a <-> d < bf_first b + Z.of_N j))).
  { intros i j Hij Hk Hd d M. rewrite (Hd d M). split; [lia|]. intros A.
    destruct (Z_lt_dec d (bf_first b + Z.of_N i)); [assumption|exfalso].
    assert (F : tb b (Z.to_N (d - bf_first b)) = false) by (apply Hk; lia).
    rewrite <- mem_tb in F. replace (bf_first b + Z.of_N (Z.to_N (d - bf_first b))) with d in F by lia.
    congruence. }
  destruct (Z.leb_spec (bf_last b) a) as [A|A].
  - rewrite (end_idx_ok b H). cbn [bind]. fold (bend b).
    destruct (itmake_ok b (bend b) H) as [j [E1 [E2 [E3 E4]]]]; [lia|]. exists j.
    split; [exact E1|]. split; [exact E3|]. apply (G (bend b) j E2 E4).
    intros d M. apply (mem_range b d H) in M. unfold bend in *. lia.
  - destruct (Z.ltb_spec a (bf_first b)) as [B|B].
    + destruct (itmake_ok b 0%N H) as [j [E1 [E2 [E3 E4]]]]; [lia|]. exists j.
      split; [exact E1|]. split; [exact E3|]. apply (G 0%N j E2 E4).
      intros d M. apply (mem_range b d H) in M. lia.
    + rewrite distance_ok by lia. cbn [bind]. rewrite N.mod_small by lia.
      destruct (itmake_ok b (Z.to_N (a - bf_first b) + 1)%N H) as [j [E1 [E2 [E3 E4]]]];
        [unfold bend; lia|]. exists j.
      split; [exact E1|]. split; [exact E3|]. apply (G _ j E2 E4). intros d M. lia.
Qed.

Lemma day_of_mono t1 t2 : (t1 <= t2)%N -> day_of t1 <= day_of t2.
Proof.
  intros H. rewrite !day_of_eq. assert (t1 / 86400 <= t2 / 86400)%N by (apply N.div_le_mono; lia). lia.
Qed.

(* from(t1) never lies behind to(t2) *)
Lemma from_to_le b i e t1 t2 : bf_ok b -> stop b i -> stop b e -> day_of t1 <= day_of t2 ->
  (forall d, mem b d = true -> (day_of t1 <= d <-> bf_first b + Z.of_N i <= d)) ->
  (forall d, mem b d = true -> (d <= day_of t2 <-> d < bf_first b + Z.of_N e)) ->
  (i <= e)%N.
Proof.
  intros H Si Se Ht Fi Fe. destruct (N.le_gt_cases i e) as [L|L]; [exact L|exfalso].
  destruct Se as [E|T]; [apply (stop_le b i H) in Si; lia|].
  rewrite <- mem_tb in T.
  pose proof (Fe _ T) as F1. pose proof (Fi _ T) as F2. lia.
Qed.

Lemma window_ok b t1 t2 : bf_ok b -> (t1 <= t2)%N -> (t2 < 4294967296)%N ->
  exists l, bf_window b t1 t2 = Ok l /\ StronglySorted Z.lt l /\
    forall d, In d l <-> day_of t1 <= d <= day_of t2 /\ mem b d = true.
Proof.
  intros H H1 H2. unfold bf_window.
  destruct (from_ok b t1 H) as [i [E1 [S1 F1]]]; [lia|]. rewrite E1. cbn [bind].
  destruct (to_ok b t2 H) as [e [E2 [S2 F2]]]; [lia|]. rewrite E2. cbn [bind].
  pose proof (from_to_le b i e t1 t2 H S1 S2 (day_of_mono _ _ H1) F1 F2) as Hie.
  pose proof (stop_le b e H S2). pose proof (bend_lt b H).
  destruct (loop_ok b e H S2 (N.to_nat 65536) i S1 Hie) as [l [L1 [L2 L3]]]; [lia|].
  exists l. split; [exact L1|]. split; [exact L2|]. intros d. rewrite L3. split.
  - intros [A B]. split; [|exact B]. split; [apply (F1 d B); lia|apply (F2 d B); lia].
  - intros [A B]. split; [|exact B]. split; [apply (F1 d B); lia|apply (F2 d B); lia].
Qed.

Lemma bend_make b : bf_ok b -> bf_end b = Ok (bend b).
Proof.
  intros H. unfold bf_end, it_make. rewrite (end_idx_ok b H). cbn [bind]. fold (bend b).
  rewrite N.leb_refl, N.eqb_refl. cbn [sassert bind negb]. rewrite N.leb_refl. reflexivity.
Qed.

Lemma iterate_ok b : bf_ok b ->
  exists l, bf_iterate b = Ok l /\ StronglySorted Z.lt l /\ forall d, In d l <-> mem b d = true.
Proof.
  intros H. unfold bf_iterate, bf_begin. pose proof (bend_lt b H).
  destruct (itmake_ok b 0%N H) as [j [E1 [E2 [E3 E4]]]]; [lia|]. rewrite E1, (bend_make b H). cbn [bind].
  pose proof (stop_le b j H E3).
  destruct (loop_ok b (bend b) H (or_introl eq_refl) (N.to_nat 65536) j E3) as [l [L1 [L2 L3]]]; [lia|lia|].
  exists l. split; [exact L1|]. split; [exact L2|]. intros d. rewrite L3. split; [intros [_ M]; exact M|].
  intros M. split; [|exact M]. pose proof (mem_range b d H M) as R. unfold bend in *. split; [|lia].
  destruct (Z_le_dec (bf_first b + Z.of_N j) d); [assumption|exfalso].
  assert (F : tb b (Z.to_N (d - bf_first b)) = false) by (apply E4; lia).
  rewrite <- mem_tb in F. replace (bf_first b + Z.of_N (Z.to_N (d - bf_first b))) with d in F by lia.
  congruence.
Qed.

(* ------------------------------------------------------------------ *)
(* get_set_days, count, first/last set date                            *)

Lemma upto_In n i : In i (upto n) <-> (N.to_nat i < n)%nat.
Proof.
  unfold upto. rewrite in_map_iff. split.
  - intros [k [<- Hk]]. apply in_seq in Hk. lia.
  - intros Hi. exists (N.to_nat i). split; [lia|]. apply in_seq. lia.
Qed.

Lemma seq_sorted n : forall k, StronglySorted lt (seq k n).
Proof.
  induction n as [|n IH]; intros k; cbn [seq]; constructor; [apply IH|].
  apply Forall_forall. intros x Hx. apply in_seq in Hx. lia.
Qed.

Lemma upto_sorted n : StronglySorted N.lt (upto n).
Proof.
  unfold upto. generalize (seq_sorted n 0). generalize (seq 0 n). intros l S.
  induction S as [|a l S IH F]; cbn [map]; constructor; [exact IH|].
  apply Forall_forall. intros x Hx. apply in_map_iff in Hx. destruct Hx as [y [<- Hy]].
  rewrite Forall_forall in F. apply F in Hy. lia.
Qed.

Definition set_idx (b : bf) : list N := filter (bits_test (bf_bits b)) (upto (N.to_nat BITSIZE)).

Lemma set_days_map b : bf_ok b ->
  bf_get_set_days b = Ok (map (fun i => bf_first b + Z.of_N i) (set_idx b)).
Proof.
  intros H. unfold bf_get_set_days, set_idx. generalize (upto (N.to_nat BITSIZE)). intros l.
  induction l as [|i l IH]; [reflexivity|]. cbn [fold_right filter]. rewrite IH. cbn [bind].
  destruct (bits_test (bf_bits b) i); [|reflexivity]. unfold idx_to_date, anchor_valid, ANCHOR_MAX.
  destruct H. replace (bf_first b =? 2147483647) with false by lia. reflexivity.
Qed.

Lemma filter_ss {A} (R : A -> A -> Prop) f l : StronglySorted R l -> StronglySorted R (filter f l).
Proof.
  induction 1 as [|a l S IH F]; cbn [filter]; [constructor|]. destruct (f a); [|exact IH].
  constructor; [exact IH|]. rewrite Forall_forall in *. intros x Hx. apply F. apply filter_In in Hx. tauto.
Qed.

Lemma set_idx_In b i : bf_ok b -> In i (set_idx b) <-> tb b i = true.
Proof.
  intros H. unfold set_idx. rewrite filter_In, upto_In, (bits_test_lt b i H). fold (tb b i).
  split; [tauto|]. intros T. split; [|exact T]. pose proof (tb_lt b i H T). pose proof (bend_lt b H).
  unfold BITSIZE. lia.
Qed.

Lemma set_days_ok b : bf_ok b ->
  exists l, bf_get_set_days b = Ok l /\ StronglySorted Z.lt l /\
            (forall d, In d l <-> mem b d = true) /\ bf_count b = N.of_nat (List.length l).
Proof.
  intros H. rewrite (set_days_map b H). eexists. split; [reflexivity|]. split; [|split].
  - assert (S : StronglySorted N.lt (set_idx b)) by (apply filter_ss, upto_sorted).
    induction S as [|a l S IH F]; cbn [map]; constructor; [exact IH|].
    rewrite Forall_forall in *. intros x Hx. apply in_map_iff in Hx. destruct Hx as [y [<- Hy]].
    apply F in Hy. lia.
  - intros d. rewrite in_map_iff. split.
    + intros [i [<- Hi]]. apply (set_idx_In b i H) in Hi. rewrite mem_tb. exact Hi.
    + intros M. exists (Z.to_N (d - bf_first b)). pose proof (mem_range b d H M). split; [lia|].
      apply (set_idx_In b _ H). rewrite <- mem_tb.
      replace (bf_first b + Z.of_N (Z.to_N (d - bf_first b))) with d by lia. exact M.
  - rewrite map_length. unfold bf_count, bits_count, set_idx. reflexivity.
Qed.

Lemma search_up_ok b (H : bf_ok b) n : forall i j, tb b j = true -> (i <= j)%N ->
  (N.to_nat j - N.to_nat i < n)%nat ->
  exists k, search_up n (bf_bits b) i = Ok k /\ tb b k = true /\ (i <= k)%N /\
            forall m, (i <= m < k)%N -> tb b m = false.
Proof.
  induction n as [|n IH]; intros i j T Hij Hn; [lia|]. cbn [search_up].
  rewrite (bits_test_lt b i H). fold (tb b i). destruct (tb b i) eqn:E.
  - exists i. split; [reflexivity|]. split; [exact E|]. split; [lia|]. intros; lia.
  - assert (i <> j) by congruence. destruct (IH (i + 1)%N j T) as [k [E1 [E2 [E3 E4]]]]; [lia|lia|].
    exists k. split; [exact E1|]. split; [exact E2|]. split; [lia|].
    intros m Hm. destruct (N.eq_dec m i) as [->|]; [exact E|]. apply E4. lia.
Qed.

Lemma search_down_ok b (H : bf_ok b) : forall i j, tb b j = true -> (N.to_nat j <= i)%nat ->
  exists k, search_down (bf_bits b) i = Ok k /\ tb b k = true /\ (N.to_nat k <= i)%nat /\
            forall m, (N.to_nat k < N.to_nat m <= i)%nat -> tb b m = false.
Proof.
  induction i as [|i IH]; intros j T Hj; cbn [search_down].
  - rewrite (bits_test_lt b _ H). fold (tb b (N.of_nat 0)).
    replace j with (N.of_nat 0) in T by lia. rewrite T.
    exists (N.of_nat 0). split; [reflexivity|]. split; [exact T|]. split; [lia|]. intros; lia.
  - rewrite (bits_test_lt b _ H). fold (tb b (N.of_nat (S i))).
    destruct (tb b (N.of_nat (S i))) eqn:E.
    + exists (N.of_nat (S i)). split; [reflexivity|]. split; [exact E|]. split; [lia|]. intros; lia.
    + assert (j <> N.of_nat (S i)) by congruence.
      destruct (IH j T) as [k [E1 [E2 [E3 E4]]]]; [lia|].
      exists k. split; [exact E1|]. split; [exact E2|]. split; [lia|].
      intros m Hm. destruct (Nat.eq_dec (N.to_nat m) (S i)) as [Em|].
      * replace m with (N.of_nat (S i)) by lia. exact E.
      * apply E4. lia.
Qed.

Lemma nonzero_mem b d : bf_ok b -> mem b d = true -> negb (bf_bits b =? 0)%N = true.
Proof.
  intros H M. destruct (N.eqb_spec (bf_bits b) 0) as [E|E]; [|reflexivity].
  unfold mem in M. rewrite E, N.bits_0, andb_false_r in M. discriminate.
Qed.

Lemma idx_to_date_ok b i : bf_ok b -> idx_to_date (bf_first b) i = Ok (bf_first b + Z.of_N i).
Proof.
  intros H. unfold idx_to_date, anchor_valid, ANCHOR_MAX. destruct H.
  replace (bf_first b =? 2147483647) with false by lia. reflexivity.
Qed.

Lemma mem_tb' b d : bf_ok b -> mem b d = true -> exists i, d = bf_first b + Z.of_N i /\ tb b i = true.
Proof.
  intros H M. pose proof (mem_range b d H M). exists (Z.to_N (d - bf_first b)). split; [lia|].
  rewrite <- mem_tb. replace (bf_first b + Z.of_N (Z.to_N (d - bf_first b))) with d by lia. exact M.
Qed.

Lemma first_set_ok b d0 : bf_ok b -> mem b d0 = true ->
  exists d, bf_first_set_date b = Ok (day_to_abs d) /\ mem b d = true /\ forall e, mem b e = true -> d <= e.
Proof.
  intros H M. unfold bf_first_set_date. rewrite (nonzero_mem b d0 H M). cbn [sassert bind].
  destruct (mem_tb' b d0 H M) as [j [-> T]]. pose proof (tb_lt b j H T). pose proof (bend_lt b H).
  destruct (search_up_ok b H (N.to_nat BITSIZE) 0%N j T) as [k [E1 [E2 [E3 E4]]]]; [lia|unfold BITSIZE; lia|].
  rewrite E1. cbn [bind]. rewrite (idx_to_date_ok b k H). cbn [bind].
  exists (bf_first b + Z.of_N k). split; [reflexivity|]. split; [rewrite mem_tb; exact E2|].
  intros e Me. destruct (mem_tb' b e H Me) as [m [-> Tm]].
  destruct (N.le_gt_cases k m); [lia|]. rewrite E4 in Tm by lia. discriminate.
Qed.

Lemma last_set_ok b d0 : bf_ok b -> mem b d0 = true ->
  exists d, bf_last_set_date b = Ok (day_to_abs d) /\ mem b d = true /\ forall e, mem b e = true -> e <= d.
Proof.
  intros H M. unfold bf_last_set_date. rewrite (nonzero_mem b d0 H M). cbn [sassert bind].
  pose proof H as [L1 L2 L3 L4 L5]. rewrite distance_ok by lia. cbn [bind].
  destruct (mem_tb' b d0 H M) as [j [-> T]]. pose proof (tb_lt b j H T) as Hj. unfold bend in Hj.
  destruct (search_down_ok b H (N.to_nat (Z.to_N (bf_last b - bf_first b))) j T) as [k [E1 [E2 [E3 E4]]]]; [lia|].
  rewrite E1. cbn [bind]. rewrite (idx_to_date_ok b k H). cbn [bind].
  exists (bf_first b + Z.of_N k). split; [reflexivity|]. split; [rewrite mem_tb; exact E2|].
  intros e Me. destruct (mem_tb' b e H Me) as [m [-> Tm]].
  destruct (N.le_gt_cases m k); [lia|]. pose proof (tb_lt b m H Tm) as Hm. unfold bend in Hm.
  rewrite E4 in Tm by lia. discriminate.
Qed.

(* ------------------------------------------------------------------ *)
(* equivalent                                                          *)

Lemma bf_eqb_spec a b : bf_eqb a b = true <-> a = b.
Proof.
  unfold bf_eqb. rewrite !andb_true_iff, !Z.eqb_eq, N.eqb_eq. destruct a, b; cbn. split.
  - intros [[-> ->] ->]. reflexivity.
  - intros [= -> -> ->]. auto.
Qed.

Lemma equivalent_eq a b : bf_ok a -> bf_ok b -> bf_equivalent a b = Ok (bf_eqb a b).
Proof.
  intros [A1 A2 A3 A4 A5] [B1 B2 B3 B4 B5]. unfold bf_equivalent.
  destruct (bf_eqb a b) eqn:E; [reflexivity|].
  destruct (Z.ltb_spec (bf_first a) (bf_first b)); rewrite distance_ok by lia; reflexivity.
Qed.

Lemma bits_ext a b : bf_ok a -> bf_ok b -> bf_first a = bf_first b ->
  (forall d, mem a d = mem b d) -> bf_bits a = bf_bits b.
Proof.
  intros Ha Hb F M. apply N.bits_inj. intros i. specialize (M (bf_first a + Z.of_N i)).
  rewrite mem_tb in M. rewrite F, mem_tb in M. exact M.
Qed.
