(* Proofs about the calendar part of a train. *)
From Verif Require Import Base BitfieldModel BitfieldProofs TrainModel.
From Coq Require Import ZifyBool ZifyNat ZifyN Sorting.Sorted.
Open Scope Z_scope.

Lemma day_to_abs_ok d : 0 <= d <= 49710 -> day_to_abs d = Z.to_N (d * 86400).
Proof. intros H. unfold day_to_abs, DAY. rewrite Z.mod_small by lia. reflexivity. Qed.

Lemma day_of_abs d : 0 <= d <= 49710 -> day_of (day_to_abs d) = d.
Proof.
  intros H. rewrite (day_to_abs_ok d H), day_of_eq.
  replace (Z.to_N (d * 86400)) with (Z.to_N d * 86400)%N by lia.
  rewrite N.div_mul by discriminate. lia.
Qed.

Lemma midnight_abs d : 0 <= d <= 49710 -> midnight (day_to_abs d) = day_to_abs d.
Proof.
  intros H. rewrite (day_to_abs_ok d H). unfold midnight.
  replace (Z.to_N (d * 86400)) with (Z.to_N d * 86400)%N by lia.
  rewrite N.div_mul by discriminate. reflexivity.
Qed.

Lemma day_of_le t d : 0 <= d -> (d <= day_of t <-> d * 86400 <= Z.of_N t).
Proof.
  intros Hd. rewrite day_of_eq. pose proof (N.div_mod t 86400 ltac:(discriminate)) as E.
  pose proof (N.mod_lt t 86400 ltac:(discriminate)) as L.
  set (q := (t / 86400)%N) in *. set (r := (t mod 86400)%N) in *. clearbody q r. lia.
Qed.

Lemma day_of_gt t d : 0 <= d -> (day_of t < d <-> Z.of_N t < d * 86400).
Proof. intros Hd. pose proof (day_of_le t d Hd). lia. Qed.

Record train_ok (t : train) : Prop := mk_tok {
  tk_days : bf_ok (tr_days t);
  tk_lo : 0 <= bf_first (tr_days t);
  tk_hi : bf_last (tr_days t) <= 49710;
  tk_dep : tr_first_departure t <> REL_INVALID;
  tk_arr : tr_last_arrival t <> REL_INVALID }.

Definition event (t : train) (d : Z) : interval :=
  mkint (add32 (day_to_abs d) (tr_first_departure t)) (add32 (day_to_abs d) (tr_last_arrival t)).
Definition ov (t : train) (iv : interval) (d : Z) : bool := iv_overlaps iv (event t d).

Lemma event_ok t d : train_ok t -> mem (tr_days t) d = true ->
  event_interval t (day_to_abs d) = Ok (event t d).
Proof.
  intros H M. destruct H as [H L U Hd Ha]. pose proof (mem_range _ d H M) as R.
  unfold event_interval. rewrite midnight_abs by lia. rewrite N.eqb_refl. cbn [sassert bind].
  rewrite day_of_abs by lia. apply (at_true _ d H) in M. rewrite M. cbn [sassert bind].
  unfold first_departure, last_arrival.
  replace (tr_first_departure t =? REL_INVALID)%N with false by lia.
  replace (tr_last_arrival t =? REL_INVALID)%N with false by lia. reflexivity.
Qed.

Definition dayi (t : train) (i : N) : Z := bf_first (tr_days t) + Z.of_N i.

Lemma advance_ok t iv (H : train_ok t) n : forall i,
  stop (tr_days t) i -> (N.to_nat (bend (tr_days t)) - N.to_nat i <= n)%nat ->
  exists j, advance n t iv i = Ok j /\ (i <= j)%N /\ stop (tr_days t) j /\
    (forall k, (i <= k < j)%N -> tb (tr_days t) k = true ->
       ov t iv (dayi t k) = false /\ (day_to_abs (dayi t k) <= iv_end iv)%N) /\
    (j = bend (tr_days t) \/
     (iv_end iv < day_to_abs (dayi t j))%N \/ ov t iv (dayi t j) = true).
Proof.
  pose proof (tk_days t H) as Hb. set (b := tr_days t) in *.
  induction n as [|n IH]; intros i Si Hn; cbn [advance]; fold b; rewrite (bend_make _ Hb); cbn [bind].
  - pose proof (stop_le b i Hb Si). replace (i =? bend b)%N with true by lia.
    exists i. split; [reflexivity|]. split; [lia|]. split; [exact Si|].
    split; [intros; lia|left; lia].
  - destruct (N.eqb_spec i (bend b)) as [E|E].
    + exists i. split; [reflexivity|]. split; [lia|]. split; [exact Si|].
      split; [intros; lia|left; lia].
    + assert (T : tb b i = true) by (destruct Si as [E1|T]; [congruence|exact T]).
      rewrite (deref_ok b i Hb T). cbn [bind]. fold (dayi t i).
      change (bf_first b + Z.of_N i) with (dayi t i).
      destruct (N.leb_spec (day_to_abs (dayi t i)) (iv_end iv)) as [A|A].
      * rewrite event_ok; [|exact H|unfold dayi; fold b; rewrite mem_tb; exact T]. cbn [bind].
        fold (ov t iv (dayi t i)). destruct (ov t iv (dayi t i)) eqn:O.
        -- exists i. split; [reflexivity|]. split; [lia|]. split; [exact Si|].
           split; [intros; lia|right; right; exact O].
        -- pose proof (tb_lt b i Hb T).
           destruct (inc_ok b i Hb) as [j [E1 [E2 [E3 E4]]]]; [lia|]. rewrite E1. cbn [bind].
           destruct (IH j E3) as [m [F1 [F2 [F3 [F4 F5]]]]]; [lia|].
           exists m. split; [exact F1|]. split; [lia|]. split; [exact F3|]. split; [|exact F5].
           intros k Hk Tk. destruct (N.eq_dec k i) as [->|Ne]; [split; assumption|].
           destruct (N.le_gt_cases j k); [apply F4; [lia|exact Tk]|].
           rewrite E4 in Tk by lia. discriminate.
      * exists i. split; [reflexivity|]. split; [lia|]. split; [exact Si|].
        split; [intros; lia|right; left; exact A].
Qed.

Lemma dayi_range t i : train_ok t -> tb (tr_days t) i = true -> 0 <= dayi t i <= 49710.
Proof.
  intros H T. pose proof (tk_lo t H). pose proof (tk_hi t H). pose proof (tk_days t H) as Hb.
  rewrite <- mem_tb in T. apply (mem_range _ _ Hb) in T. unfold dayi. lia.
Qed.

Lemma abs_le_day t d : 0 <= d <= 49710 -> ((day_to_abs d <= t)%N <-> d <= day_of t).
Proof. intros H. rewrite (day_to_abs_ok d H), (day_of_le t d) by lia. lia. Qed.

Lemma train_loop_ok t iv e (H : train_ok t) (Se : stop (tr_days t) e)
  (He : forall k, tb (tr_days t) k = true -> ((day_to_abs (dayi t k) <= iv_end iv)%N <-> (k < e)%N)) n :
  forall i, stop (tr_days t) i -> (i <= e)%N -> (i = e \/ ov t iv (dayi t i) = true) ->
  (N.to_nat e - N.to_nat i <= n)%nat ->
  exists l, train_loop n t iv i e = Ok l /\ StronglySorted N.lt l /\
    forall a, In a l <-> exists k, a = day_to_abs (dayi t k) /\ (i <= k < e)%N /\
                                   tb (tr_days t) k = true /\ ov t iv (dayi t k) = true.
Proof.
  pose proof (tk_days t H) as Hb. set (b := tr_days t) in *.
  pose proof (stop_le b e Hb Se) as Hee.
  induction n as [|n IH]; intros i Si Hi Oi Hn; cbn [train_loop].
  - replace (i =? e)%N with true by lia. exists []. split; [reflexivity|]. split; [constructor|].
    intros a. split; [intros []|]. intros [k [_ [A _]]]. lia.
  - destruct (N.eqb_spec i e) as [E|E].
    + exists []. split; [reflexivity|]. split; [constructor|].
      intros a. split; [intros []|]. intros [k [_ [A _]]]. lia.
    + destruct Oi as [Oi|Oi]; [congruence|].
      assert (T : tb b i = true) by (destruct Si as [E1|T]; [lia|exact T]).
      unfold train_it_deref. fold b. rewrite (deref_ok b i Hb T). cbn [bind].
      change (bf_first b + Z.of_N i) with (dayi t i).
      unfold train_it_inc. fold b. rewrite (bend_make b Hb). cbn [bind].
      pose proof (tb_lt b i Hb T) as Lt. replace (i =? bend b)%N with false by lia. cbn [negb sassert bind].
      destruct (inc_ok b i Hb Lt) as [j [E1 [E2 [E3 E4]]]]. rewrite E1. cbn [bind].
      assert (Hj : (j <= e)%N).
      { destruct (N.le_gt_cases j e); [assumption|]. destruct Se as [Ee|Te].
        - apply (stop_le b j Hb) in E3. lia.
        - fold b in Te. rewrite E4 in Te by lia. discriminate. }
      destruct (advance_ok t iv H ADV j E3) as [m [F1 [F2 [F3 [F4 F5]]]]].
      { pose proof (bend_lt b Hb). fold b. unfold ADV. lia. }
      rewrite F1. cbn [bind].
      assert (Hm : (m <= e)%N).
      { destruct (N.le_gt_cases m e) as [|G]; [assumption|exfalso]. destruct Se as [Ee|Te].
        - apply (stop_le b m Hb) in F3. lia.
        - fold b in Te. destruct (F4 e) as [_ X]; [lia|exact Te|]. apply (He e Te) in X. lia. }
      assert (Om : m = e \/ ov t iv (dayi t m) = true).
      { destruct F5 as [F5|[F5|F5]]; [left; fold b in F5; lia| |right; exact F5].
        destruct F3 as [F3|F3]; [left; fold b in F3; lia|]. fold b in F3.
        destruct (N.eq_dec m e) as [|Ne]; [left; assumption|exfalso].
        assert ((m < e)%N) as X by lia. apply (He m F3) in X. lia. }
      destruct (IH m F3 Hm Om) as [l [G1 [G2 G3]]]; [lia|]. rewrite G1. cbn [bind].
      exists (day_to_abs (dayi t i) :: l). split; [reflexivity|]. split.
      * constructor; [exact G2|]. apply Forall_forall. intros a Ha. apply G3 in Ha.
        destruct Ha as [k [-> [Hk [Tk _]]]].
        pose proof (dayi_range t k H Tk). pose proof (dayi_range t i H T).
        rewrite !day_to_abs_ok by assumption. unfold dayi in *. lia.
      * intros a. cbn [In]. rewrite G3. split.
        -- intros [<-|[k [-> [Hk X]]]].
           ++ exists i. split; [reflexivity|]. split; [lia|]. split; [exact T|exact Oi].
           ++ exists k. split; [reflexivity|]. split; [lia|exact X].
        -- intros [k [-> [Hk [Tk Ok']]]]. destruct (N.eq_dec k i) as [->|Ne]; [left; reflexivity|].
           right. exists k. split; [reflexivity|]. split; [|split; assumption]. split; [|lia].
           destruct (N.le_gt_cases m k) as [|G]; [assumption|exfalso].
           destruct (N.le_gt_cases j k) as [G'|G'].
           ++ destruct (F4 k) as [X _]; [lia|exact Tk|]. congruence.
           ++ rewrite E4 in Tk by lia. discriminate.
Qed.

(* departures(interval): exactly the overlapping service days from the
   interval's first day on *)
Lemma departures_ok t iv : train_ok t -> (iv_start iv <= iv_end iv)%N -> (iv_end iv < 4294967296)%N ->
  exists l, departures t iv = Ok l /\ StronglySorted N.lt l /\
    forall a, In a l <-> exists d, a = day_to_abs d /\ mem (tr_days t) d = true /\
                                   day_of (iv_start iv) <= d <= day_of (iv_end iv) /\ ov t iv d = true.
Proof.
  intros H Hv Hm. pose proof (tk_days t H) as Hb. set (b := tr_days t) in *.
  pose proof (bend_lt b Hb) as Hbl.
  unfold departures, train_it. fold b.
  destruct (from_ok b (iv_start iv) Hb) as [i [E1 [S1 F1]]]; [lia|]. rewrite E1. cbn [bind].
  destruct (to_ok b (iv_end iv) Hb) as [e [E2 [S2 F2]]]; [lia|].
  pose proof (from_to_le b i e _ _ Hb S1 S2 (day_of_mono _ _ Hv) F1 F2) as Hie.
  assert (He : forall k, tb b k = true -> ((day_to_abs (dayi t k) <= iv_end iv)%N <-> (k < e)%N)).
  { intros k Tk. rewrite abs_le_day by (apply dayi_range; assumption).
    rewrite (F2 (dayi t k)) by (unfold dayi; fold b; rewrite mem_tb; exact Tk).
    unfold dayi. fold b. lia. }
  destruct (advance_ok t iv H ADV i S1) as [j [A1 [A2 [A3 [A4 A5]]]]]; [unfold ADV; fold b; lia|].
  rewrite A1. cbn [bind]. rewrite E2. cbn [bind].
  pose proof (stop_le b e Hb S2) as Hee.
  destruct (advance_ok t iv H ADV e S2) as [e' [B1 [B2 [B3 [B4 B5]]]]]; [unfold ADV; fold b; lia|].
  assert (e' = e).
  { destruct (N.eq_dec e' e) as [|Ne]; [assumption|exfalso]. destruct S2 as [Se|Te].
    - apply (stop_le b e' Hb) in B3. lia.
    - destruct (B4 e) as [_ X]; [lia|exact Te|]. apply (He e Te) in X. lia. }
  subst e'. rewrite B1. cbn [bind].
  assert (Hj : (j <= e)%N).
  { destruct (N.le_gt_cases j e) as [|G]; [assumption|exfalso]. destruct S2 as [Ee|Te].
    - apply (stop_le b j Hb) in A3. lia.
    - destruct (A4 e) as [_ X]; [lia|exact Te|]. apply (He e Te) in X. lia. }
  assert (Oj : j = e \/ ov t iv (dayi t j) = true).
  { destruct A5 as [A5|[A5|A5]]; [left; fold b in A5; lia| |right; exact A5].
    destruct A3 as [A3|A3]; [left; fold b in A3; lia|]. fold b in A3.
    destruct (N.eq_dec j e) as [|Ne]; [left; assumption|exfalso].
    assert ((j < e)%N) as X by lia. apply (He j A3) in X. lia. }
  destruct (train_loop_ok t iv e H S2 He ADV j A3 Hj Oj) as [l [G1 [G2 G3]]]; [unfold ADV; lia|].
  exists l. split; [exact G1|]. split; [exact G2|]. intros a. rewrite G3. split.
  - intros [k [-> [Hk [Tk O]]]]. fold b in Tk. exists (dayi t k). split; [reflexivity|].
    assert (M : mem b (dayi t k) = true) by (unfold dayi; fold b; rewrite mem_tb; exact Tk).
    split; [exact M|]. split; [|exact O]. split.
    + apply (F1 _ M). unfold dayi. fold b. lia.
    + apply (F2 _ M). unfold dayi. fold b. lia.
  - intros [d [-> [M [[D1 D2] O]]]]. destruct (mem_tb' b d Hb M) as [k [-> Tk]].
    apply (F1 _ M) in D1. apply (F2 _ M) in D2.
    exists k. change (dayi t k) with (bf_first b + Z.of_N k). split; [reflexivity|].
    split; [|split; [exact Tk|exact O]]. split; [|lia].
    destruct (N.le_gt_cases j k) as [|G]; [assumption|exfalso].
    destruct (A4 k) as [X _]; [lia|exact Tk|]. change (dayi t k) with (bf_first b + Z.of_N k) in X. congruence.
Qed.

(* without wrap-around the overlap test is the one on unbounded times *)
Lemma ov_spec t iv d : train_ok t -> mem (tr_days t) d = true ->
  bf_last (tr_days t) * 86400 + Z.of_N (N.max (tr_first_departure t) (tr_last_arrival t)) < 4294967296 ->
  (ov t iv d = true <->
   Z.of_N (iv_start iv) <= d * 86400 + Z.of_N (tr_last_arrival t) /\
   d * 86400 + Z.of_N (tr_first_departure t) <= Z.of_N (iv_end iv)).
Proof.
  intros H M W. pose proof (tk_lo t H). pose proof (tk_hi t H).
  pose proof (mem_range _ d (tk_days t H) M). unfold ov, iv_overlaps, event. cbn [iv_start iv_end].
  rewrite day_to_abs_ok by lia. rewrite !add32_small by (rewrite M32_eq; lia). lia.
Qed.

Lemma count_list b l : bf_ok b -> StronglySorted Z.lt l -> (forall d, In d l <-> mem b d = true) ->
  bf_count b = N.of_nat (List.length l).
Proof.
  intros H S E. destruct (set_days_ok b H) as [l' [_ [S' [E' ->]]]]. f_equal.
  assert (ND : forall l, StronglySorted Z.lt l -> NoDup l).
  { clear. induction 1 as [|a l S IH F]; constructor; [|exact IH]. rewrite Forall_forall in F.
    intros X. apply F in X. lia. }
  assert (length l' <= length l)%nat.
  { apply NoDup_incl_length; [apply ND; exact S'|]. intros d Hd. apply E, E', Hd. }
  assert (length l <= length l')%nat.
  { apply NoDup_incl_length; [apply ND; exact S|]. intros d Hd. apply E', E, Hd. }
  lia.
Qed.

Lemma departures_all t : train_ok t ->
  exists l, departures t interval_default = Ok l /\ StronglySorted N.lt l /\
    (forall a, In a l <-> exists d, a = day_to_abs d /\ mem (tr_days t) d = true) /\
    bf_count (tr_days t) = N.of_nat (List.length l).
Proof.
  intros H. destruct (departures_ok t interval_default H) as [l [E [S I]]];
    [cbn; lia|cbn; lia|]. exists l. split; [exact E|]. split; [exact S|].
  assert (I' : forall a, In a l <-> exists d, a = day_to_abs d /\ mem (tr_days t) d = true).
  { intros a. rewrite I. split.
    - intros [d [-> [M _]]]. exists d. auto.
    - intros [d [-> M]]. exists d. split; [reflexivity|]. split; [exact M|].
      pose proof (mem_range _ d (tk_days t H) M). pose proof (tk_lo t H). pose proof (tk_hi t H). split.
      + split.
        * change (day_of (iv_start interval_default)) with 0. lia.
        * change (day_of (iv_end interval_default)) with 49710. lia.
      + unfold ov, iv_overlaps, event. cbn [iv_start iv_end interval_default].
        assert (add32 (day_to_abs d) (tr_first_departure t) < 4294967296)%N.
        { unfold add32, w32. rewrite M32_eq. apply N.mod_lt. discriminate. }
        apply andb_true_iff. split; apply N.leb_le; lia. }
  split; [exact I'|].
  rewrite (count_list (tr_days t) (map day_of l) (tk_days t H)).
  - rewrite map_length. reflexivity.
  - assert (Q : incl l l) by apply incl_refl. clear E I. set (l1 := l) in Q at 2.
    change (forall a, In a l1 <-> exists d, a = day_to_abs d /\ mem (tr_days t) d = true) in I'.
    clearbody l1. induction S as [|a l S IH F]; cbn [map]; constructor.
    + apply IH. intros x Hx. apply Q. right. exact Hx.
    + apply Forall_forall. intros x Hx. apply in_map_iff in Hx. destruct Hx as [y [<- Hy]].
      rewrite Forall_forall in F. pose proof (F y Hy) as Lt.
      assert (In a l1) as Ia by (apply Q; left; reflexivity).
      assert (In y l1) as Iy by (apply Q; right; exact Hy).
      apply I' in Ia. apply I' in Iy. destruct Ia as [da [-> Ma]]. destruct Iy as [dy [-> My]].
      pose proof (mem_range _ _ (tk_days t H) Ma). pose proof (mem_range _ _ (tk_days t H) My).
      pose proof (tk_lo t H). pose proof (tk_hi t H).
      rewrite !day_of_abs by lia. rewrite !day_to_abs_ok in Lt by lia. lia.
  - intros d. rewrite in_map_iff. split.
    + intros [a [<- Ia]]. apply I' in Ia. destruct Ia as [d' [-> M]].
      pose proof (mem_range _ _ (tk_days t H) M). pose proof (tk_lo t H). pose proof (tk_hi t H).
      rewrite day_of_abs by lia. exact M.
    + intros M. exists (day_to_abs d). split.
      * pose proof (mem_range _ _ (tk_days t H) M). pose proof (tk_lo t H). pose proof (tk_hi t H).
        apply day_of_abs. lia.
      * apply I'. exists d. auto.
Qed.
