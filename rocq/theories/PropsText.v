(* C29 - C32, C53: sentinel optional, integer parsing, splitting, type names.

   Reading guide: numerals are specified with Coq's own decimal library:
   NilZero.int_of_string reads an optional "-" and at least one digit and
   nothing else, Z.of_int is the value of the numeral, and
   NilZero.string_of_int (Z.to_int v) is the decimal rendering of v. *)
From Verif Require Import Base TextModel TextProofs.
From Coq Require Import Ascii String Decimal DecimalString.
From Coq Require DecimalPos DecimalZ.
From Coq Require Import List ZifyBool ZifyNat ZifyN.
Open Scope Z_scope.

(* ---- C30 ---- *)

(* [lo, hi] is the value range of an integral type *)
Definition int_type (lo hi : Z) : Prop := lo <= 0 <= hi.

(* the value of s, if s is a numeral that the type accepts: a minus sign only
   for signed types, and the value in range *)
Definition numeral_value (lo hi : Z) (s : string) : option Z :=
  match NilZero.int_of_string s with
  | None => None
  | Some d =>
      if match d with Pos _ => true | Neg _ => lo <? 0 end
         && (lo <=? Z.of_int d) && (Z.of_int d <=? hi)
      then Some (Z.of_int d) else None
  end.

Lemma parse_both lo hi s :
  match numeral_value lo hi (string_of_list_ascii s) with
  | Some v => parse_int lo hi s = Ok v /\ try_parse_int lo hi s = inl v
  | None => parse_int lo hi s = Throw /\ exists e, try_parse_int lo hi s = inr e
  end.
Proof.
  unfold numeral_value. assert (H := from_chars_spec lo hi s). fold (of_list s).
  unfold parse_int, try_parse_int, parse_int_impl.
  destruct (NilZero.int_of_string (of_list s)) as [[u|u]|].
  - change (Z.of_int (Pos u)) with (Z.of_uint u). rewrite H. unfold in_bounds. cbn [andb].
    destruct ((lo <=? Z.of_uint u) && (Z.of_uint u <=? hi));
      (split; [reflexivity|try reflexivity; eexists; reflexivity]).
  - change (Z.of_int (Neg u)) with (- Z.of_uint u). destruct (lo <? 0); cbn [andb].
    + rewrite H. unfold in_bounds. destruct ((lo <=? - Z.of_uint u) && (- Z.of_uint u <=? hi));
        (split; [reflexivity|try reflexivity; eexists; reflexivity]).
    + rewrite H. split; [reflexivity|eexists; reflexivity].
  - destruct (from_chars lo hi s) as [[ec ptr] v]. destruct H as [->|H].
    + split; [reflexivity|eexists; reflexivity].
    + destruct ptr as [|c ptr]; [congruence|].
      destruct ec; (split; [reflexivity|eexists; reflexivity]).
Qed.

(* parse_int returns the value of exactly the accepted numerals and throws for
   every other string; try_parse_int agrees, reporting an error instead *)
Theorem C30_parse_int :
  forall lo hi, int_type lo hi -> forall s : string,
    match numeral_value lo hi s with
    | Some v => parse_int lo hi (list_ascii_of_string s) = Ok v /\
                try_parse_int lo hi (list_ascii_of_string s) = inl v
    | None => parse_int lo hi (list_ascii_of_string s) = Throw /\
              exists e, try_parse_int lo hi (list_ascii_of_string s) = inr e
    end.
Proof.
  intros lo hi _ s. assert (H := parse_both lo hi (list_ascii_of_string s)).
  rewrite string_of_list_ascii_of_string in H. exact H.
Qed.
Print Assumptions C30_parse_int.

(* the decimal rendering of every value of the type is read back *)
Theorem C30_round_trip :
  forall lo hi, int_type lo hi -> forall v, lo <= v <= hi ->
    parse_int lo hi (list_ascii_of_string (NilZero.string_of_int (Z.to_int v))) = Ok v.
Proof.
  intros lo hi T v R. assert (H := C30_parse_int lo hi T (NilZero.string_of_int (Z.to_int v))).
  unfold numeral_value in H. rewrite NilZero.isi in H.
  - rewrite DecimalZ.of_to in H.
    assert (E : (match Z.to_int v with Pos _ => true | Neg _ => lo <? 0 end
                 && (lo <=? v) && (v <=? hi)) = true).
    { destruct v; cbn [Z.to_int]; unfold int_type in T; lia. }
    rewrite E in H. apply H.
  - destruct v; cbn; try discriminate; intros E; injection E as E;
      destruct (DecimalPos.Unsigned.to_uint_nonnil _ E).
  - destruct v; cbn; try discriminate; intros E; injection E as E;
      destruct (DecimalPos.Unsigned.to_uint_nonnil _ E).
Qed.
Print Assumptions C30_round_trip.

(* in a release build rejected strings silently become a prefix value or the
   largest value *)
Theorem C30_release_build_refuted :
  (exists s : string, numeral_value 0 4294967295 s = None /\
     parse_int_release 0 4294967295 (list_ascii_of_string s) = 12) /\
  (exists s : string, numeral_value 0 4294967295 s = None /\
     parse_int_release 0 4294967295 (list_ascii_of_string s) = 4294967295).
Proof.
  split; [exists "12x"%string|exists "-1"%string]; split; reflexivity.
Qed.
Print Assumptions C30_release_build_refuted.

Example ex_C30 :
  int_type 0 65535 /\ int_type (-2147483648) 2147483647 /\
  parse_int 0 65535 (list_ascii_of_string "0042") = Ok 42 /\
  parse_int 0 65535 (list_ascii_of_string "65536") = Throw /\
  parse_int 0 65535 (list_ascii_of_string "-1") = Throw /\
  parse_int (-2147483648) 2147483647 (list_ascii_of_string "-2147483648") = Ok (-2147483648) /\
  parse_int (-2147483648) 2147483647 (list_ascii_of_string "-") = Throw /\
  parse_int (-2147483648) 2147483647 (list_ascii_of_string "+1") = Throw /\
  parse_int (-2147483648) 2147483647 (list_ascii_of_string "") = Throw.
Proof. unfold int_type. repeat split; try lia; vm_compute; reflexivity. Qed.

(* ---- C31 ---- *)

(* pieces d s ps (TextProofs.v): ps are the parts of s between the leftmost
   non-overlapping occurrences of d; occurs_at d s k: d occurs in s at offset k *)
Theorem C31_split :
  forall s d, s <> [] -> d <> [] ->
    exists ps, TextModel.split s d = Ok ps /\ pieces d s ps /\
      join d ps = s /\ Forall (fun p => forall k, ~ occurs_at d p k) ps /\
      forall qs, pieces d s qs -> qs = ps.
Proof.
  intros s d NS ND. unfold TextModel.split, split_fuel. destruct s as [|c s]; [congruence|].
  destruct (split_loop_ok d ND (List.length (c :: s)) (c :: s) (Nat.le_refl _)) as [ps [E P]].
  exists ps. split; [exact E|]. split; [exact P|]. split; [apply (pieces_join d _ _ P)|].
  split; [apply (pieces_no_token d _ _ ND P)|].
  intros qs Q. exact (pieces_unique d _ _ Q ND _ P).
Qed.
Print Assumptions C31_split.

Theorem C31_empty_string : forall d, TextModel.split [] d = Ok [].
Proof. reflexivity. Qed.
Print Assumptions C31_empty_string.

(* with an empty token the loop never ends, whatever bound it is given *)
Theorem C31_empty_token_refuted :
  forall s, s <> [] -> forall bound, split_fuel bound s [] = Fuel.
Proof.
  intros s NS bound. destruct s as [|c s]; [congruence|]. apply split_empty_token.
Qed.
Print Assumptions C31_empty_token_refuted.

Example ex_C31 :
  TextModel.split (list_ascii_of_string "a,,b,") (list_ascii_of_string ",") =
    Ok (map list_ascii_of_string ["a"; ""; "b"; ""]%string) /\
  TextModel.split (list_ascii_of_string "xaaay") (list_ascii_of_string "aa") =
    Ok (map list_ascii_of_string ["x"; "ay"]%string).
Proof. split; vm_compute; reflexivity. Qed.

(* ---- C32 ---- *)

(* the hashes of all names, computed once *)
Definition hash_table : list (string * N * etype) :=
  ltac:(let t := eval vm_compute in
          (map (fun p => (fst p, str_hash (list_ascii_of_string (fst p)), snd p)) iss_names)
        in exact t).
Lemma hash_table_ok :
  map (fun p => (fst p, str_hash (list_ascii_of_string (fst p)), snd p)) iss_names = hash_table.
Proof. vm_compute. reflexivity. Qed.
Definition hash_lookup (h : N) : etype :=
  match List.find (fun p => N.eqb (snd (fst p)) h) hash_table with
  | Some p => snd p | None => INVALID end.
Lemma get_type_table s : get_type s = hash_lookup (str_hash s).
Proof.
  unfold get_type, hash_lookup. rewrite <- hash_table_ok. generalize (str_hash s) as h. intros h.
  induction iss_names as [|p l IH]; [reflexivity|].
  cbn [List.find map fst snd].
  destruct (N.eqb (str_hash (list_ascii_of_string (fst p))) h); [reflexivity|exact IH].
Qed.
Lemma in_hash_table name t : In (name, t) iss_names ->
  In (name, str_hash (list_ascii_of_string name), t) hash_table.
Proof.
  intros I. rewrite <- hash_table_ok. apply in_map_iff. exists (name, t). split; [reflexivity|exact I].
Qed.

(* every element name of the ISS format (type.cc) gets its type, although only
   hashes are compared *)
Theorem C32_known_names :
  forall name t, In (name, t) iss_names -> get_type (list_ascii_of_string name) = t.
Proof.
  assert (H : forallb (fun p => Nat.eqb (type_to_id (hash_lookup (snd (fst p))))
                                        (type_to_id (snd p))) hash_table = true)
    by (vm_compute; reflexivity).
  intros name t I. rewrite get_type_table. rewrite forallb_forall in H.
  specialize (H _ (in_hash_table name t I)). cbn [fst snd] in H.
  apply Nat.eqb_eq in H. destruct (hash_lookup _), t; (reflexivity || discriminate H).
Qed.
Print Assumptions C32_known_names.

Theorem C32_hash_injective :
  forall n1 t1 n2 t2, In (n1, t1) iss_names -> In (n2, t2) iss_names ->
    str_hash (list_ascii_of_string n1) = str_hash (list_ascii_of_string n2) -> n1 = n2.
Proof.
  assert (H : forallb (fun p => forallb (fun q =>
      if N.eqb (snd (fst p)) (snd (fst q)) then String.eqb (fst (fst p)) (fst (fst q)) else true)
      hash_table) hash_table = true) by (vm_compute; reflexivity).
  intros n1 t1 n2 t2 I1 I2 E. rewrite forallb_forall in H.
  specialize (H _ (in_hash_table n1 t1 I1)).
  rewrite forallb_forall in H. specialize (H _ (in_hash_table n2 t2 I2)).
  cbn [fst snd] in H. rewrite E, N.eqb_refl in H. apply String.eqb_eq in H. exact H.
Qed.
Print Assumptions C32_hash_injective.

(* a name that is none of the ISS names is normally INVALID ... *)
Theorem C32_unknown_name_partial :
  forall s, (forall name t, In (name, t) iss_names ->
               str_hash (list_ascii_of_string name) <> str_hash s) ->
    get_type s = INVALID.
Proof.
  intros s H. unfold get_type.
  destruct (List.find _ iss_names) as [[name t]|] eqn:E; [|reflexivity].
  exfalso. apply List.find_some in E as [I E]. cbn [fst] in E. apply N.eqb_eq in E.
  exact (H name t I E).
Qed.
Print Assumptions C32_unknown_name_partial.

(* ... but there are names outside the list that are taken for an element *)
Theorem C32_unknown_name_refuted :
  exists s, (forall t, ~ In (s, t) iss_names) /\ get_type (list_ascii_of_string s) = BUMPER.
Proof.
  exists "yifecce"%string. split; [|rewrite get_type_table; vm_compute; reflexivity].
  assert (H : forallb (fun p => negb (String.eqb (fst p) "yifecce")) iss_names = true)
    by (vm_compute; reflexivity).
  intros t I. rewrite forallb_forall in H. specialize (H _ I). discriminate H.
Qed.
Print Assumptions C32_unknown_name_refuted.

(* the display names identify the types, but they are not names get_type knows *)
Theorem C32_display_names :
  forall a b, get_type_str a = get_type_str b -> a = b.
Proof.
  intros a b. destruct a, b; intros E; (reflexivity || discriminate E).
Qed.
Print Assumptions C32_display_names.

Theorem C32_round_trip_refuted :
  forall t, t <> INVALID -> get_type (list_ascii_of_string (get_type_str t)) <> t.
Proof.
  intros t NI. rewrite get_type_table.
  assert (H : hash_lookup (str_hash (list_ascii_of_string (get_type_str t))) = INVALID)
    by (destruct t; vm_compute; reflexivity).
  rewrite H. congruence.
Qed.
Print Assumptions C32_round_trip_refuted.

(* ---- C53 ---- *)

(* every type but INVALID belongs to exactly one of the six classes; the track
   elements are the directed and the undirected ones *)
Definition classes : list (etype -> bool) :=
  [is_end_element; is_simple_element; is_simple_switch; is_cross;
   is_directed_track_element; is_undirected_track_element].
Theorem C53_classes :
  forall t,
    (t <> INVALID -> List.length (filter (fun c => c t) classes) = 1%nat) /\
    is_track_element t = is_directed_track_element t || is_undirected_track_element t /\
    is_section_element t = negb (is_track_element t) /\
    (t <> INVALID -> is_section_element t =
      is_end_element t || is_simple_element t || is_simple_switch t || is_cross t).
Proof. intros t. destruct t; repeat split; intros; try reflexivity; congruence. Qed.
Print Assumptions C53_classes.

Theorem C53_all_types : forall t, In t all_types <-> t <> INVALID.
Proof.
  intros t. split.
  - intros I ->. repeat (destruct I as [I|I]; [discriminate I|]). destruct I.
  - intros N. destruct t; try congruence; cbn; tauto.
Qed.
Print Assumptions C53_all_types.

(* ---- C29 ---- *)

(* programs over two variables a and b of type optional<T>, and what the same
   program does with std::optional *)
Inductive op : Type :=
| OAssignA (v : Z) | OAssignB (v : Z)      (* a = optional{v} *)
| OResetA | OResetB                        (* a.reset() *)
| OOrElseA (v : Z)                         (* a = a.or_else([]{ return optional{v}; }) *)
| OSwap.                                   (* a.swap(b) *)

Definition step (INV : Z) (ab : Z * Z) (p : op) : res (Z * Z) :=
  let '(a, b) := ab in
  match p with
  | OAssignA v => Ok (opt_of v, b)
  | OAssignB v => Ok (a, opt_of v)
  | OResetA => Ok (opt_reset INV a, b)
  | OResetB => Ok (a, opt_reset INV b)
  | OOrElseA v => Ok (opt_or_else Z.eqb INV a (fun _ => opt_of v), b)
  | OSwap => opt_swap Z.eqb INV a b
  end.
Fixpoint steps (INV : Z) (ab : Z * Z) (l : list op) : res (Z * Z) :=
  match l with [] => Ok ab | p :: l => do ab' <- step INV ab p; steps INV ab' l end.

Definition std_step (ab : option Z * option Z) (p : op) : option Z * option Z :=
  let '(a, b) := ab in
  match p with
  | OAssignA v => (Some v, b)
  | OAssignB v => (a, Some v)
  | OResetA => (None, b)
  | OResetB => (a, None)
  | OOrElseA v => (match a with Some _ => a | None => Some v end, b)
  | OSwap => (b, a)
  end.
(* no operation is given the sentinel as a value *)
Definition proper (INV : Z) (p : op) : Prop :=
  match p with
  | OAssignA v | OAssignB v | OOrElseA v => v <> INV
  | _ => True
  end.

(* all observers of the optional o agree with std::optional m *)
Definition observed_as (INV o : Z) (m : option Z) : Prop :=
  opt_has Z.eqb INV o = (match m with Some _ => true | None => false end) /\
  opt_value Z.eqb INV o = (match m with Some v => Ok v | None => Throw end) /\
  (forall d, opt_value_or Z.eqb INV o d = match m with Some v => v | None => d end) /\
  (forall (f : Z -> Z) d, opt_and_then Z.eqb INV o f d =
     Ok (match m with Some v => f v | None => d end)).

Definition abs (INV o : Z) : option Z := if o =? INV then None else Some o.

Lemma abs_INV INV : abs INV INV = None.
Proof. unfold abs. rewrite Z.eqb_refl. reflexivity. Qed.
Lemma abs_ne INV v : v <> INV -> abs INV v = Some v.
Proof. unfold abs. intros N. destruct (Z.eqb_spec v INV); [congruence|reflexivity]. Qed.

Lemma step_refines INV a b p : proper INV p ->
  exists a' b', step INV (a, b) p = Ok (a', b') /\
    (abs INV a', abs INV b') = std_step (abs INV a, abs INV b) p.
Proof.
  intros P. destruct p as [v|v| | |v|]; cbn [step std_step]; cbn [proper] in P.
  1-4: eexists _, _; split; [reflexivity|]; unfold opt_of, opt_reset;
       rewrite ?abs_INV, ?(abs_ne INV v P); reflexivity.
  - unfold opt_or_else, opt_has, opt_of. destruct (Z.eqb_spec a INV) as [->|NE]; cbn [negb];
      eexists _, _; (split; [reflexivity|]);
      rewrite ?abs_INV, ?(abs_ne INV v P), ?(abs_ne INV a NE); reflexivity.
  - unfold opt_swap, opt_value, opt_has, opt_reset.
    destruct (Z.eqb_spec a INV) as [->|NA]; destruct (Z.eqb_spec b INV) as [->|NB];
      cbn [negb andb sassert bind]; eexists _, _; (split; [reflexivity|]); reflexivity.
Qed.

Lemma abs_observed INV o : observed_as INV o (abs INV o).
Proof.
  unfold observed_as, opt_and_then, opt_value_or, opt_value, opt_has, abs.
  destruct (Z.eqb_spec o INV); cbn [negb sassert bind]; repeat split.
Qed.

Theorem C29_optional :
  forall INV l, Forall (proper INV) l ->
    exists a b, steps INV (opt_none INV, opt_none INV) l = Ok (a, b) /\
      observed_as INV a (fst (fold_left std_step l (None, None))) /\
      observed_as INV b (snd (fold_left std_step l (None, None))).
Proof.
  intros INV l F.
  assert (H : forall l, Forall (proper INV) l -> forall a b, exists a' b',
    steps INV (a, b) l = Ok (a', b') /\
    (abs INV a', abs INV b') = fold_left std_step l (abs INV a, abs INV b)).
  { clear l F. induction l as [|p l IH]; intros F a b; [exists a, b; split; reflexivity|].
    inversion F as [|? ? P F']; subst.
    destruct (step_refines INV a b p P) as [a1 [b1 [E1 A1]]].
    destruct (IH F' a1 b1) as [a' [b' [E2 A2]]].
    exists a', b'. cbn [steps fold_left]. rewrite E1. cbn [bind]. split; [exact E2|].
    rewrite A2, A1. reflexivity. }
  destruct (H l F INV INV) as [a [b [E A]]]. exists a, b. split; [exact E|].
  rewrite abs_INV in A. rewrite <- A. split; apply abs_observed.
Qed.
Print Assumptions C29_optional.

(* the sentinel itself cannot be stored *)
Theorem C29_sentinel_refuted :
  forall INV, ~ observed_as INV (opt_of INV) (Some INV).
Proof. intros INV [H _]. unfold opt_has, opt_of in H. rewrite Z.eqb_refl in H. discriminate H. Qed.
Print Assumptions C29_sentinel_refuted.

Example ex_C29 :
  Forall (proper 255) [OAssignA 3; OSwap; OOrElseA 7; OSwap; OResetB; OAssignB 0; OSwap] /\
  steps 255 (255, 255) [OAssignA 3; OSwap; OOrElseA 7; OSwap; OResetB; OAssignB 0; OSwap] = Ok (0, 3).
Proof. split; [repeat constructor; cbn; lia|reflexivity]. Qed.
