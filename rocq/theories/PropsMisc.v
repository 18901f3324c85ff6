(* Conversions of integers, the files of an infrastructure, the start of the server. *)
From Coq Require Import Ascii String.
From Verif Require Import Base StockModel MiscModel MiscSpec.
Local Open Scope Z_scope.

(* ---- C112 ---- *)
Lemma mod_pos t : 0 < i_mod t /\ i_mod t = 2 * 2 ^ (8 * Zpos (i_bytes t) - 1) /\ 0 < 2 ^ (8 * Zpos (i_bytes t) - 1).
Proof.
  unfold i_mod. assert (0 < 2 ^ (8 * Zpos (i_bytes t) - 1)) by (apply Z.pow_pos_nonneg; lia).
  replace (8 * Zpos (i_bytes t)) with (Z.succ (8 * Zpos (i_bytes t) - 1)) at 1 2 by lia. rewrite Z.pow_succ_r by lia. lia.
Qed.
Lemma half t : i_mod t / 2 = 2 ^ (8 * Zpos (i_bytes t) - 1).
Proof. destruct (mod_pos t) as (_ & -> & _). rewrite Z.mul_comm. apply Z.div_mul. lia. Qed.
Lemma value_range t v : value_of t v <-> i_min t <= v <= i_max t.
Proof.
  unfold value_of, i_min, i_max. rewrite half. change (2 ^ (8 * Zpos (i_bytes t))) with (i_mod t). destruct (i_signed t); lia.
Qed.
Lemma conv_id t v : value_of t v -> conv t v = v.
Proof.
  destruct (mod_pos t) as (M0 & M & P). unfold value_of, conv. rewrite half. change (2 ^ (8 * Zpos (i_bytes t))) with (i_mod t).
  destruct (i_signed t); cbn [andb].
  - intros H. destruct (Z_lt_le_dec v 0).
    + replace (v mod i_mod t) with (v + i_mod t) by (apply Z.mod_unique_pos with (-1); lia).
      replace (_ <=? v + i_mod t) with true by (symmetry; apply Z.leb_le; lia). lia.
    + rewrite Z.mod_small by lia. replace (_ <=? v) with false by (symmetry; apply Z.leb_gt; lia). reflexivity.
  - intros H. apply Z.mod_small. exact H.
Qed.
Lemma conv_value t v : value_of t (conv t v) /\ exists k, conv t v = v + k * i_mod t.
Proof.
  destruct (mod_pos t) as (M0 & M & P). unfold value_of, conv. rewrite half. change (2 ^ (8 * Zpos (i_bytes t))) with (i_mod t).
  pose proof (Z.mod_pos_bound v (i_mod t) M0). pose proof (Z.div_mod v (i_mod t) ltac:(lia)) as D.
  destruct (i_signed t); cbn [andb]; [destruct (_ <=? _) eqn:E; [apply Z.leb_le in E|apply Z.leb_gt in E]|].
  - split; [lia|]. exists (- (v / i_mod t) - 1). nia.
  - split; [lia|]. exists (- (v / i_mod t)). nia.
  - split; [lia|]. exists (- (v / i_mod t)). nia.
Qed.
(* a value of either type that is not negative, or both signed, survives the common type *)
Lemma pow_mono a b : (a <= b)%positive -> 2 ^ (8 * Zpos a) <= 2 ^ (8 * Zpos b) /\ 2 ^ (8 * Zpos a - 1) <= 2 ^ (8 * Zpos b - 1).
Proof. intros L. split; apply Z.pow_le_mono_r; lia. Qed.
Lemma pow_lt a b : (a < b)%positive -> 2 ^ (8 * Zpos a) <= 2 ^ (8 * Zpos b - 1).
Proof. intros L. apply Z.pow_le_mono_r; lia. Qed.
Lemma value_promoted t v : value_of t v -> value_of (promoted t) v.
Proof.
  unfold promoted. destruct (Pos.ltb_spec (i_bytes t) 4); [|auto].
  unfold value_of. cbn [int_t i_signed i_bytes]. pose proof (pow_lt _ _ H) as PL. pose proof (pow_mono (i_bytes t) 4 ltac:(lia)) as (_ & PM).
  destruct (i_signed t); lia.
Qed.
Lemma value_common a b v : value_of a v \/ value_of b v -> 0 <= v \/ (i_signed a = true /\ i_signed b = true) -> value_of (common a b) v.
Proof.
  intros V S. assert (V' : value_of (promoted a) v \/ value_of (promoted b) v) by (destruct V; [left|right]; apply value_promoted; assumption).
  assert (S' : 0 <= v \/ (i_signed (promoted a) = true /\ i_signed (promoted b) = true)).
  { destruct S as [S|(S1 & S2)]; [left; exact S|right]. unfold promoted.
    destruct (_ <? _)%positive; destruct (_ <? _)%positive; auto. }
  unfold common. cbn zeta. generalize dependent (promoted b). generalize (promoted a). clear. intros a b V S. unfold value_of in *.
  destruct (i_signed a) eqn:SA; destruct (i_signed b) eqn:SB; cbn [Bool.eqb].
  - destruct (Pos.ltb_spec (i_bytes a) (i_bytes b)) as [L|L].
    + rewrite SB. pose proof (pow_mono (i_bytes a) (i_bytes b) ltac:(lia)). lia.
    + rewrite SA. pose proof (pow_mono (i_bytes b) (i_bytes a) ltac:(lia)). lia.
  - destruct S as [S|(_ & S)]; [|discriminate]. destruct (Pos.leb_spec (i_bytes a) (i_bytes b)) as [L|L].
    + rewrite SB. pose proof (pow_mono (i_bytes a) (i_bytes b) ltac:(lia)).
      destruct (mod_pos a) as (_ & Ma & _). unfold i_mod in Ma. lia.
    + rewrite SA. pose proof (pow_lt (i_bytes b) (i_bytes a) ltac:(lia)). lia.
  - destruct S as [S|(S & _)]; [|discriminate]. destruct (Pos.leb_spec (i_bytes b) (i_bytes a)) as [L|L].
    + rewrite SA. pose proof (pow_mono (i_bytes b) (i_bytes a) ltac:(lia)).
      destruct (mod_pos b) as (_ & Mb & _). unfold i_mod in Mb. lia.
    + rewrite SB. pose proof (pow_lt (i_bytes a) (i_bytes b) ltac:(lia)). lia.
  - destruct (Pos.ltb_spec (i_bytes a) (i_bytes b)) as [L|L].
    + rewrite SB. pose proof (pow_mono (i_bytes a) (i_bytes b) ltac:(lia)). lia.
    + rewrite SA. pose proof (pow_mono (i_bytes b) (i_bytes a) ltac:(lia)). lia.
Qed.
Lemma c_le_ok a x b y : value_of a x -> value_of b y ->
  (0 <= x \/ (i_signed a = true /\ i_signed b = true)) -> (0 <= y \/ (i_signed a = true /\ i_signed b = true)) ->
  c_le a x b y = (x <=? y).
Proof. intros X Y S1 S2. unfold c_le. rewrite !conv_id; [reflexivity| |]; apply value_common; auto. Qed.
Lemma fits_ok out inn v : value_of inn v -> fits out inn v = true <-> value_of out v.
Proof.
  intros V. pose proof V as VR. rewrite value_range in VR. rewrite value_range.
  assert (M : value_of out (i_max out)) by (apply value_range; unfold i_min, i_max; rewrite half; pose proof (mod_pos out); destruct (i_signed out); lia).
  assert (Mn : value_of out (i_min out)) by (apply value_range; unfold i_min, i_max; rewrite half; pose proof (mod_pos out); destruct (i_signed out); lia).
  assert (P0 : 0 <= i_max out) by (unfold i_max; rewrite half; pose proof (mod_pos out); destruct (i_signed out); lia).
  assert (Z0 : value_of int_t 0) by (unfold value_of; cbn; lia).
  unfold fits, is_narrowing. destruct (i_signed out) eqn:SO; destruct (i_signed inn) eqn:SI.
  - destruct (Pos.ltb_spec (i_bytes out) (i_bytes inn)) as [L|L]; cbn [negb].
    + assert (EM : forall z, value_of out z -> value_of inn z).
      { intros z. unfold value_of. rewrite SO, SI. pose proof (pow_mono (i_bytes out) (i_bytes inn) ltac:(lia)). lia. }
      rewrite !(conv_id inn) by auto. rewrite !c_le_ok by auto. rewrite andb_true_iff, !Z.leb_le. reflexivity.
    + split; [intros _|reflexivity]. apply value_range in VR. apply value_range. unfold value_of in *. rewrite SO. rewrite SI in VR.
      pose proof (pow_mono (i_bytes inn) (i_bytes out) ltac:(lia)). lia.
  - assert (V0 : 0 <= v) by (unfold i_min in VR; rewrite SI in VR; lia).
    destruct (Pos.leb_spec (i_bytes out) (i_bytes inn)) as [L|L]; cbn [negb].
    + rewrite c_le_ok by auto. rewrite Z.leb_le. assert (i_min out <= 0) by (unfold i_min; rewrite SO, half; pose proof (mod_pos out); lia). lia.
    + split; [intros _|reflexivity]. apply value_range in VR. apply value_range. unfold value_of in *. rewrite SO. rewrite SI in VR.
      pose proof (pow_lt (i_bytes inn) (i_bytes out) ltac:(lia)). lia.
  - cbn [negb]. rewrite (c_le_ok int_t 0 inn v) by auto.
    assert (O0 : i_min out = 0) by (unfold i_min; rewrite SO; reflexivity).
    destruct (Pos.ltb_spec (i_bytes out) (i_bytes inn)) as [L|L].
    + destruct (Z.leb_spec 0 v) as [N|N]; cbn [andb]; [|split; [discriminate|lia]]. rewrite c_le_ok by auto. rewrite Z.leb_le. lia.
    + rewrite Z.leb_le. rewrite O0. unfold i_max in *. rewrite SO. rewrite SI, half in VR.
      pose proof (pow_mono (i_bytes inn) (i_bytes out) ltac:(lia)) as (PM & _).
      destruct (mod_pos inn) as (_ & M1 & M2). unfold i_mod in *. lia.
  - destruct (Pos.ltb_spec (i_bytes out) (i_bytes inn)) as [L|L]; cbn [negb].
    + assert (EM : forall z, value_of out z -> value_of inn z).
      { intros z. unfold value_of. rewrite SO, SI. pose proof (pow_mono (i_bytes out) (i_bytes inn) ltac:(lia)). lia. }
      assert (V0 : 0 <= v) by (unfold i_min in VR; rewrite SI in VR; lia).
      assert (O0 : i_min out = 0) by (unfold i_min; rewrite SO; reflexivity).
      rewrite !(conv_id inn) by auto. rewrite !c_le_ok by (auto; rewrite O0; auto; left; lia). rewrite andb_true_iff, !Z.leb_le. reflexivity.
    + split; [intros _|reflexivity]. apply value_range in VR. apply value_range. unfold value_of in *. rewrite SO. rewrite SI in VR.
      pose proof (pow_mono (i_bytes inn) (i_bytes out) ltac:(lia)). lia.
Qed.
(* A checked conversion between integral types gives the value itself, and fails
   exactly if the new type does not have it. *)
Theorem C112_checked out inn v : value_of inn v ->
  (value_of out v -> narrow true out inn v = Ok v) /\ (~ value_of out v -> narrow true out inn v = Throw).
Proof.
  intros V. pose proof (fits_ok out inn v V) as F. unfold narrow, sassert. split; intros H.
  - apply F in H as H'. rewrite H'. cbn [bind]. rewrite conv_id by exact H. reflexivity.
  - destruct (fits out inn v); [exfalso; apply H, F; reflexivity|reflexivity].
Qed.
Print Assumptions C112_checked.
(* Without checks it always gives a value of the new type, the same one if possible. *)
Theorem C112_unchecked out inn v : exists r k, narrow false out inn v = Ok r /\ value_of out r /\
  r = v + k * 2 ^ (8 * Zpos (i_bytes out)) /\ (value_of out v -> r = v).
Proof.
  destruct (conv_value out v) as (V & k & K). exists (conv out v), k. split; [reflexivity|]. split; [exact V|]. split; [exact K|].
  intros H. apply conv_id. exact H.
Qed.
Print Assumptions C112_unchecked.
Example ex_C112 : value_of (mkity true 8) (-1) /\ ~ value_of (mkity false 4) (-1) /\
  narrow true (mkity false 4) (mkity true 8) 4294967295 = Ok 4294967295 /\
  narrow true (mkity false 4) (mkity true 8) 4294967296 = Throw /\ narrow true (mkity false 8) (mkity true 4) (-1) = Throw /\
  narrow true (mkity true 1) (mkity false 1) 128 = Throw /\ narrow false (mkity true 1) (mkity false 1) 128 = Ok (-128).
Proof. unfold value_of. cbn. repeat split; try reflexivity; lia. Qed.

(* ---- C113 ---- *)
Local Open Scope nat_scope.
Lemma starts_with_iff p : forall s, starts_with p s = true <-> exists rest, s = p ++ rest.
Proof.
  induction p as [|a p IH]; intros s; cbn [starts_with app]; [split; [intros _; exists s; reflexivity|reflexivity]|].
  destruct s as [|b s]; [split; [discriminate|intros (r & H); discriminate]|]. rewrite andb_true_iff, IH, Ascii.eqb_eq.
  split; [intros (-> & r & ->); exists r; reflexivity|intros (r & H); injection H as <- ->; split; [reflexivity|exists r; reflexivity]].
Qed.
Lemma called_iff s p : called s p <-> starts_with (of_string s) (filename p) = true.
Proof.
  rewrite starts_with_iff. unfold called, filename, of_string. split.
  - intros (f & n & r & [->|(-> & ->)] & H); [rewrite last_last; exists r; exact H|exists r; exact H].
  - intros (r & H). destruct p as [|a p] using rev_ind.
    + exists [], [], r. split; [right; auto|]. exact H.
    + clear IHp. rewrite last_last in H. exists p, a, r. auto.
Qed.
Lemma picked_snoc {A} (P : A -> Prop) l m a : picked P l m -> (P a -> picked P (l ++ [a]) (m ++ [a])) /\ (~ P a -> picked P (l ++ [a]) m).
Proof.
  induction 1 as [|b l m Pb H IH|b l m Pb H IH]; cbn [app].
  - split; intros; repeat constructor; assumption.
  - destruct IH as (I1 & I2). split; intros; constructor; auto.
  - destruct IH as (I1 & I2). split; intros; constructor; auto.
Qed.
(* the files read so far *)
Record read_so_far (index : path) (done : list path) (f : iss_files) : Prop := {
  rs_index : f_index f = index;
  rs_plans : picked (called "Spurplanbetriebsstellen") done (f_plans f);
  rs_core : picked (called "Stammdaten") done (f_core f);
  rs_stations : picked (called "Ordnungsrahmen_ORBtrst") done (f_stations f);
  rs_lines : picked (called "Ordnungsrahmen_ORStr") done (f_lines f) }.
Lemma only_one p s t n : starts_with s p = true -> starts_with t p = true -> nth_error s n <> nth_error t n -> n < length s -> n < length t -> False.
Proof.
  rewrite !starts_with_iff. intros (r & ->) (r' & H) N L1 L2. apply N. rewrite <- (nth_error_app1 s r L1), <- (nth_error_app1 t r' L2), H. reflexivity.
Qed.
Ltac snoc H := first [apply (proj1 (picked_snoc _ _ _ _ H))|apply (proj2 (picked_snoc _ _ _ _ H))].
Lemma add_file_ok fs index done f p : read_so_far index done f ->
  (needed p -> loadable fs p) -> exists f', add_iss_file fs f p = Ok f' /\ read_so_far index (done ++ [p]) f'.
Proof.
  intros [RI RP RC RS RL] LD.
  assert (LO : needed p -> load fs p = load fs p /\ exists i, load fs p = Ok i).
  { intros N. split; [reflexivity|]. destruct (LD N) as (i & E). exists i. unfold load. rewrite E. reflexivity. }
  unfold add_iss_file, PLANS, CORE, STATIONS, LINES.
  destruct (starts_with (of_string "Spurplanbetriebsstellen") (filename p)) eqn:K1;
    [|destruct (starts_with (of_string "Stammdaten") (filename p)) eqn:K2;
      [|destruct (starts_with (of_string "Ordnungsrahmen_ORBtrst") (filename p)) eqn:K3;
        [|destruct (starts_with (of_string "Ordnungsrahmen_ORStr") (filename p)) eqn:K4]]].
  5:{ eexists. split; [reflexivity|]. constructor; [exact RI|snoc RP|snoc RC|snoc RS|snoc RL]; rewrite called_iff; congruence. }
  all: assert (NE : needed p) by (unfold needed; rewrite !called_iff; auto); destruct (LO NE) as (_ & i & E); rewrite E; cbn [bind];
    eexists; (split; [reflexivity|]); constructor; cbn [f_index f_plans f_core f_stations f_lines]; [exact RI|snoc RP|snoc RC|snoc RS|snoc RL];
    rewrite called_iff; try assumption; try congruence; intros Q.
  all: first [ exact (only_one _ _ _ 0 K1 Q ltac:(discriminate) ltac:(cbn; lia) ltac:(cbn; lia))
             | exact (only_one _ _ _ 1 K1 Q ltac:(discriminate) ltac:(cbn; lia) ltac:(cbn; lia))
             | exact (only_one _ _ _ 0 K2 Q ltac:(discriminate) ltac:(cbn; lia) ltac:(cbn; lia))
             | exact (only_one _ _ _ 17 K3 Q ltac:(discriminate) ltac:(cbn; lia) ltac:(cbn; lia)) ].
Qed.
Lemma add_files_ok fs dir index names : forall done f, read_so_far index done f ->
  (forall n, In n names -> fs (dir ++ n) <> None) -> (forall n, In n names -> needed (dir ++ n) -> loadable fs (dir ++ n)) ->
  exists f', add_files fs dir names f = Ok f' /\ read_so_far index (done ++ map (app dir) names) f'.
Proof.
  induction names as [|n names IH]; intros done f R EX LD; cbn [add_files map].
  - exists f. rewrite app_nil_r. auto.
  - cbn zeta. destruct (fs (dir ++ n)) eqn:E; [|exfalso; apply (EX n); [left; reflexivity|exact E]].
    destruct (add_file_ok fs index done f (dir ++ n) R) as (f1 & E1 & R1); [apply LD; left; reflexivity|]. rewrite E1. cbn [bind].
    destruct (IH (done ++ [dir ++ n]) f1 R1) as (f2 & E2 & R2); [intros; apply EX; right; assumption|intros m I; apply LD; right; exact I|].
    exists f2. split; [exact E2|]. rewrite <- app_assoc in R2. exact R2.
Qed.
Lemma add_files_missing fs dir names : forall f, (exists n, In n names /\ (fs (dir ++ n) = None \/ (needed (dir ++ n) /\ ~ loadable fs (dir ++ n)))) -> add_files fs dir names f = Throw.
Proof.
  induction names as [|n names IH]; intros f (m & I & M); [destruct I|]. cbn [add_files]. cbn zeta.
  destruct (fs (dir ++ n)) as [x|] eqn:E; [|reflexivity].
  destruct I as [->|I].
  - destruct M as [M|(N & L)]; [congruence|]. destruct x as [|i]; [|exfalso; apply L; exists i; exact E].
    unfold needed in N. rewrite !called_iff in N. unfold add_iss_file, load. rewrite E.
    change PLANS with (of_string "Spurplanbetriebsstellen"). change CORE with (of_string "Stammdaten"). change STATIONS with (of_string "Ordnungsrahmen_ORBtrst"). change LINES with (of_string "Ordnungsrahmen_ORStr").
    repeat match goal with |- context [if ?b then _ else _] => destruct b eqn:? end; try reflexivity.
    destruct N as [N|[N|[N|N]]]; congruence.
  - assert (T : forall f', add_files fs dir names f' = Throw) by (intros f'; apply IH; exists m; auto).
    unfold add_iss_file, load. rewrite E.
    repeat match goal with |- context [if ?b then _ else _] => destruct b end; try (destruct x; cbn [bind]; auto); apply T.
Qed.
Lemma text_eqb_iff a b : text_eqb a b = true <-> a = b.
Proof. unfold text_eqb. destruct (list_eq_dec ascii_dec a b); split; congruence. Qed.
Lemma from_last_dot_some s : forall e, from_last_dot s = Some e -> exists a, s = a ++ e.
Proof.
  induction s as [|c s IH]; intros e; cbn [from_last_dot]; [discriminate|]. destruct (from_last_dot s) as [e'|].
  - intros [= <-]. destruct (IH e' eq_refl) as (a & ->). exists (c :: a). reflexivity.
  - destruct (Ascii.eqb c "."); [|discriminate]. intros [= <-]. exists []. reflexivity.
Qed.
Lemma extension_iss p : text_eqb (extension p) (of_string ".iss") = true -> ends_in ".iss" p.
Proof.
  rewrite text_eqb_iff. unfold extension, filename. destruct p as [|a p] using rev_ind; [cbn; discriminate|]. clear IHp. rewrite last_last.
  destruct a as [|c s]; [discriminate|]. destruct (from_last_dot s) as [e|] eqn:E; [|discriminate]. intros ->.
  apply from_last_dot_some in E. destruct E as (st & ->). exists p, c, st. reflexivity.
Qed.
Lemma iss_extension p : ends_in ".iss" p -> text_eqb (extension p) (of_string ".iss") = true.
Proof.
  intros (f & c & st & ->). apply text_eqb_iff. unfold extension, filename. rewrite last_last.
  replace (from_last_dot (st ++ list_ascii_of_string ".iss")) with (Some (list_ascii_of_string ".iss")); [reflexivity|].
  induction st as [|d st IH]; [reflexivity|]. cbn [app from_last_dot]. rewrite <- IH. reflexivity.
Qed.
(* A directory with an index: the files it names are loaded, each under what its name
   begins with, in the order of the index, and all others are left out. *)
Theorem C113_directory fs d names : fs d = Some Folder -> ~ ends_in ".iss" d -> (forall front, d <> front ++ [index_file]) ->
  fs (d ++ [index_file]) = Some (Regular (Some names)) ->
  (forall n, In n names -> fs (d ++ n) <> None) -> (forall n, In n names -> needed (d ++ n) -> loadable fs (d ++ n)) ->
  exists f, get_iss_files fs d = Ok f /\ f_index f = d ++ [index_file] /\
    picked (called "Spurplanbetriebsstellen") (map (app d) names) (f_plans f) /\
    picked (called "Stammdaten") (map (app d) names) (f_core f) /\
    picked (called "Ordnungsrahmen_ORBtrst") (map (app d) names) (f_stations f) /\
    picked (called "Ordnungsrahmen_ORStr") (map (app d) names) (f_lines f).
Proof.
  intros D NI NX X EX LD. unfold get_iss_files, there, is_folder. rewrite D. cbn [negb andb]. change index_file with INDEX in *.
  destruct (text_eqb (extension d) (of_string ".iss")) eqn:E1; [exfalso; apply NI, extension_iss, E1|].
  destruct (text_eqb (filename d) INDEX) eqn:E2.
  { exfalso. apply text_eqb_iff in E2. unfold filename in E2. destruct d as [|a d'] using rev_ind; [discriminate|].
    rewrite last_last in E2. subst a. apply (NX d'). reflexivity. }
  rewrite X. unfold read_index, load. rewrite X. cbn [bind]. rewrite removelast_last.
  destruct (add_files_ok fs d (d ++ [INDEX]) names [] (mkiss (d ++ [INDEX]) [] [] [] [])) as (f & E & R); auto.
  { constructor; [reflexivity| | | |]; constructor. }
  exists f. split; [exact E|]. cbn [app] in R. destruct R. auto.
Qed.
Print Assumptions C113_directory.
(* Refused: paths that do not exist, archives, directories without an index or with a file
   of this name that is none, indices that name a file which is not there or a directory
   in place of a file that is needed. *)
Theorem C113_refused fs p : consistent fs ->
  fs p = None \/ ends_in ".iss" p \/ (forall names, fs (p ++ [index_file]) <> Some (Regular (Some names))) \/
  (exists names n, fs (p ++ [index_file]) = Some (Regular (Some names)) /\ In n names /\
     (fs (p ++ n) = None \/ (needed (p ++ n) /\ ~ loadable fs (p ++ n)))) ->
  get_iss_files fs p = Throw.
Proof.
  intros C H. unfold get_iss_files, there, is_folder. change index_file with INDEX in *.
  destruct (fs p) as [x|] eqn:E; [|reflexivity]. cbn [negb].
  destruct (text_eqb (extension p) (of_string ".iss")) eqn:E1; [reflexivity|].
  destruct H as [H|[H|H]]; [congruence|apply iss_extension in H; congruence|].
  destruct (text_eqb (filename p) INDEX) eqn:E2.
  - apply text_eqb_iff in E2. unfold filename in E2. destruct p as [|a p] using rev_ind; [discriminate|]. clear IHp.
    rewrite removelast_last. unfold read_index, load. rewrite (C p a) by congruence. reflexivity.
  - destruct H as [H|(names & n & X & I & M)].
    + unfold read_index, load. destruct x; cbn [andb]; [|reflexivity]. destruct (fs (p ++ [INDEX])) as [[|[names|]]|]; try reflexivity. destruct (H names eq_refl).
    + rewrite X. destruct x; cbn [andb]; [|reflexivity]. unfold read_index, load. rewrite X. cbn [bind]. rewrite removelast_last.
      apply add_files_missing. exists n. auto.
Qed.
Print Assumptions C113_refused.
(* FINDING.  The path of the index itself is meant to be accepted, but the directory
   is loaded in its place, which fails. *)
Theorem C113_index_refuted fs d : consistent fs -> get_iss_files fs (d ++ [index_file]) = Throw.
Proof.
  intros C. change index_file with INDEX. unfold get_iss_files, there.
  destruct (fs (d ++ [INDEX])) as [x|] eqn:E; [|reflexivity]. cbn [negb]. unfold extension, filename. rewrite last_last.
  change (text_eqb _ (of_string ".iss")) with false. replace (text_eqb INDEX INDEX) with true by (symmetry; apply text_eqb_iff; reflexivity).
  cbv iota. rewrite removelast_last. unfold read_index, load. rewrite (C d INDEX) by congruence. reflexivity.
Qed.
Print Assumptions C113_index_refuted.
Definition t_ := list_ascii_of_string.
Definition ex_fs : fsys := fun p =>
  if list_eq_dec (list_eq_dec ascii_dec) p [] then Some Folder
  else if list_eq_dec (list_eq_dec ascii_dec) p [t_ "iss"] then Some Folder
  else if list_eq_dec (list_eq_dec ascii_dec) p [t_ "iss"; t_ "Index.xml"] then
    Some (Regular (Some [[t_ "Stammdaten_1.xml"]; [t_ "notes.txt"]; [t_ "Spurplanbetriebsstellen_DIB.xml"]; [t_ "Stammdaten_2.xml"]]))
  else if list_eq_dec (list_eq_dec ascii_dec) p [t_ "iss"; t_ "notes.txt"] then Some (Regular None)
  else if list_eq_dec (list_eq_dec ascii_dec) p [t_ "iss"; t_ "Stammdaten_1.xml"] then Some (Regular None)
  else if list_eq_dec (list_eq_dec ascii_dec) p [t_ "iss"; t_ "Stammdaten_2.xml"] then Some (Regular None)
  else if list_eq_dec (list_eq_dec ascii_dec) p [t_ "iss"; t_ "Spurplanbetriebsstellen_DIB.xml"] then Some (Regular None)
  else None.
Example ex_C113 : get_iss_files ex_fs [t_ "iss"] =
  Ok (mkiss [t_ "iss"; t_ "Index.xml"] [[t_ "iss"; t_ "Spurplanbetriebsstellen_DIB.xml"]]
        [[t_ "iss"; t_ "Stammdaten_1.xml"]; [t_ "iss"; t_ "Stammdaten_2.xml"]] [] []) /\ consistent ex_fs.
Proof.
  split; [reflexivity|]. intros q n. unfold ex_fs at 1.
  repeat match goal with |- context [list_eq_dec ?d (q ++ [n]) ?r] => destruct (list_eq_dec d (q ++ [n]) r) as [e|_] end.
  all: try congruence; intros _.
  - destruct q; discriminate.
  - change [t_ "iss"] with ([] ++ [t_ "iss"]) in e. apply app_inj_tail in e. destruct e as (-> & _). reflexivity.
  - match type of e with _ = [?a; ?b] => change [a; b] with ([a] ++ [b]) in e end. apply app_inj_tail in e. destruct e as (-> & _). reflexivity.
  - match type of e with _ = [?a; ?b] => change [a; b] with ([a] ++ [b]) in e end. apply app_inj_tail in e. destruct e as (-> & _). reflexivity.
  - match type of e with _ = [?a; ?b] => change [a; b] with ([a] ++ [b]) in e end. apply app_inj_tail in e. destruct e as (-> & _). reflexivity.
  - match type of e with _ = [?a; ?b] => change [a; b] with ([a] ++ [b]) in e end. apply app_inj_tail in e. destruct e as (-> & _). reflexivity.
  - match type of e with _ = [?a; ?b] => change [a; b] with ([a] ++ [b]) in e end. apply app_inj_tail in e. destruct e as (-> & _). reflexivity.
Qed.

(* ---- C114 ---- *)
(* The server is constructed only if its resources are there; otherwise the program
   ends with code 1 before anything is written. *)
Theorem C114_resources_partial fs s :
  (fs (resource_dir s) = None \/ fs (coord_file s) = None \/ fs (profile_file s) = None -> main_start fs (Some s) false = Exits 1 []) /\
  (fs (resource_dir s) <> None -> fs (coord_file s) <> None -> fs (profile_file s) <> None -> main_start fs (Some s) false = Starts (own_dirs s)).
Proof.
  unfold main_start, there, is_folder. split.
  - intros H. destruct (fs (resource_dir s)); [|reflexivity]. destruct (fs (coord_file s)); [|reflexivity].
    destruct (fs (profile_file s)); [|reflexivity]. destruct H as [H|[H|H]]; discriminate.
  - intros A B C. destruct (fs (resource_dir s)); [|congruence]. destruct (fs (coord_file s)); [|congruence].
    destruct (fs (profile_file s)); [|congruence]. cbn [negb]. destruct (fs (infra_sources s)); cbn [negb andb];
    destruct (fs (timetable_sources s)); reflexivity.
Qed.
Print Assumptions C114_resources_partial.
(* Help and unreadable options end the program at once. *)
Theorem C114_options fs s help : main_start fs (Some s) true = Exits 0 [] /\ main_start fs None help = Exits 1 [].
Proof. split; reflexivity. Qed.
Print Assumptions C114_options.
(* FINDING.  A missing source directory is never noticed: the test asks for a path
   that does not exist and is a directory. *)
Theorem C114_sources_refuted : exists fs s, fs (infra_sources s) = None /\ fs (timetable_sources s) = None /\
  main_start fs (Some s) false = Starts (own_dirs s).
Proof.
  exists (fun p => if list_eq_dec (list_eq_dec ascii_dec) p [t_ "res"] then Some Folder else None).
  exists (mkpaths [t_ "res"] [t_ "res"] [t_ "res"] [t_ "infra"] [t_ "timetables"] []). repeat split.
Qed.
Print Assumptions C114_sources_refuted.
