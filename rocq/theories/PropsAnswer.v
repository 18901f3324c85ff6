(* C129: an answer of the server is JSON, and the client reads exactly what was put into it. *)
From Verif Require Import Base AnswerModel.
From Coq Require Import QArith String.
Close Scope Q_scope.
Open Scope string_scope.
Open Scope list_scope.

(* ---- specification ---- *)
(* every member of every object has a name *)
Inductive named : val -> Prop :=
| nd_text s : named (VText s)
| nd_num q : named (VNum q)
| nd_bool b : named (VBool b)
| nd_list l : Forall named l -> named (VList l)
| nd_obj l : Forall (fun m => fst m <> None /\ named (snd m)) l -> named (VObj l).
(* the client's value says the same as the server's: the same members and items, in the same order *)
Inductive same : val -> json -> Prop :=
| sm_text s : same (VText s) (JText s)
| sm_num q : same (VNum (Some q)) (JNum q)
| sm_bool b : same (VBool b) (JBool b)
| sm_list l k : Forall2 same l k -> same (VList l) (JArr k)
| sm_obj l k : Forall2 (fun m e => fst m = Some (fst e) /\ same (snd m) (snd e)) l k -> same (VObj l) (JObj k).
(* somewhere in the value there is a number that is none *)
Inductive holds_nan : val -> Prop :=
| hn_num : holds_nan (VNum None)
| hn_list l : Exists holds_nan l -> holds_nan (VList l)
| hn_obj l : Exists (fun m => holds_nan (snd m)) l -> holds_nan (VObj l).
Definition all_named (l : list (option string * val)) : Prop := Forall (fun m => fst m <> None /\ named (snd m)) l.
Definition members_same (l : list (option string * val)) (k : list (string * json)) : Prop :=
  Forall2 (fun m e => fst m = Some (fst e) /\ same (snd m) (snd e)) l k.

(* ---- proofs ---- *)
Section IND.
  Context (P : val -> Prop) (Ht : forall s, P (VText s)) (Hn : forall q, P (VNum q)) (Hb : forall b, P (VBool b))
    (Hl : forall l, Forall P l -> P (VList l)) (Ho : forall l, Forall (fun m => P (snd m)) l -> P (VObj l)).
  Fixpoint val_ind2 (v : val) : P v :=
    match v with
    | VText s => Ht s
    | VNum q => Hn q
    | VBool b => Hb b
    | VList l => Hl l ((fix go (l : list val) : Forall P l :=
                          match l with [] => Forall_nil _ | v :: l => Forall_cons _ (val_ind2 v) (go l) end) l)
    | VObj l => Ho l ((fix go (l : list (option string * val)) : Forall (fun m => P (snd m)) l :=
                         match l with
                         | [] => Forall_nil _
                         | m :: l => Forall_cons (P := fun m => P (snd m)) m (val_ind2 (snd m)) (go l)
                         end) l)
    end.
End IND.

Local Fixpoint parts (v : val) : list part :=
  match v with
  | VText s => [Quoted s]
  | VNum q => [number_part q]
  | VBool b => [Boolean b]
  | VList l => OpenA :: flat_map parts l ++ [CloseA]
  | VObj l => OpenO :: flat_map (fun m => match fst m with Some s => [Quoted s] | None => [] end ++ parts (snd m)) l
                ++ [CloseO]
  end.
Local Definition mparts (m : option string * val) : list part :=
  match fst m with Some s => [Quoted s] | None => [] end ++ parts (snd m).

Local Definition opened (n : node) : node := match n with StartArray => InArray | StartObject => InObject | n => n end.
Local Definition opening (n : node) : list part := match n with StartArray => [OpenA] | StartObject => [OpenO] | _ => [] end.
Local Definition is_arr (n : node) : bool := match n with StartArray | InArray => true | _ => false end.
Local Definition name_part (n : node) (k : option string) : list part :=
  if is_arr n then [] else match k with Some s => [Quoted s] | None => [] end.
Local Definition ctx_ok (n : node) (k : option string) : Prop := if is_arr n then k = None else k <> None.

Local Lemma write_name_spec n c st k out : ctx_ok n k ->
  write_name (mkar ((n, c) :: st) k out) = Ok (mkar ((opened n, c) :: st) None (out ++ opening n ++ name_part n k)).
Proof.
  unfold ctx_ok, write_name, name_part. cbn [ar_nodes ar_out ar_next].
  destruct n; cbn [is_arr opened opening]; intros H; try (subst k); try (destruct k; [|congruence]);
    rewrite ?app_nil_r, <- ?app_assoc; reflexivity.
Qed.

Local Lemma save_list_go l :
  Forall (fun v => forall n c st k out, ctx_ok n k ->
     save v (mkar ((n, c) :: st) k out) = Ok (mkar ((opened n, c) :: st) None (out ++ opening n ++ name_part n k ++ parts v))) l ->
  forall n c st out, is_arr n = true ->
  (fix go (l : list val) (a : archive) : res archive :=
     match l with [] => Ok a | v :: l => do a <- save v a; go l a end) l (mkar ((n, c) :: st) None out)
  = Ok (mkar (((match l with [] => n | _ => InArray end), c) :: st) None
          (out ++ match l with [] => [] | _ => opening n end ++ flat_map parts l)).
Proof.
  induction 1 as [|v l Hv Hl IH]; intros n c st out Hn; [cbn; rewrite app_nil_r; reflexivity|].
  rewrite Hv by (unfold ctx_ok; rewrite Hn; reflexivity). cbn [bind].
  rewrite IH by (destruct n; cbn in *; congruence).
  unfold name_part. rewrite Hn. f_equal. f_equal.
  - destruct n; try discriminate; destruct l; reflexivity.
  - cbn [flat_map]. rewrite <- !app_assoc. f_equal. f_equal. cbn [app].
    f_equal. destruct n; try discriminate; destruct l; reflexivity.
Qed.
Local Lemma save_obj_go l :
  Forall (fun m => forall n c st k out, ctx_ok n k ->
     save (snd m) (mkar ((n, c) :: st) k out)
     = Ok (mkar ((opened n, c) :: st) None (out ++ opening n ++ name_part n k ++ parts (snd m)))) l ->
  Forall (fun m => fst m <> None) l ->
  forall n c st out, is_arr n = false ->
  (fix go (l : list (option string * val)) (a : archive) : res archive :=
     match l with [] => Ok a | (n, v) :: l => do a <- save v (set_next_name n a); go l a end) l (mkar ((n, c) :: st) None out)
  = Ok (mkar (((match l with [] => n | _ => InObject end), c) :: st) None
          (out ++ match l with [] => [] | _ => opening n end ++ flat_map mparts l)).
Proof.
  induction 1 as [|[k v] l Hv Hl IH]; intros HN n c st out Hn; [cbn; rewrite app_nil_r; reflexivity|].
  inversion HN as [|? ? K HN']; subst. cbn [fst snd] in *. destruct k as [k|]; [|congruence].
  cbn [set_next_name ar_nodes ar_out].
  rewrite Hv by (unfold ctx_ok; rewrite Hn; congruence). cbn [bind].
  rewrite (IH HN') by (destruct n; cbn in *; congruence).
  unfold name_part. rewrite Hn. f_equal. f_equal.
  - destruct n; try discriminate; destruct l; reflexivity.
  - cbn [flat_map]. unfold mparts at 2. cbn [fst snd]. rewrite <- !app_assoc. f_equal. f_equal. f_equal. f_equal.
    destruct n; try discriminate; destruct l; reflexivity.
Qed.

Local Lemma save_spec v : named v -> forall n c st k out, ctx_ok n k ->
  save v (mkar ((n, c) :: st) k out) = Ok (mkar ((opened n, c) :: st) None (out ++ opening n ++ name_part n k ++ parts v)).
Proof.
  induction v as [s|q|b|l IH|l IH] using val_ind2; intros ND n c st k out H; cbn [save].
  - rewrite write_name_spec by exact H. unfold save_value. cbn [bind ar_nodes ar_next ar_out parts]. rewrite <- !app_assoc. reflexivity.
  - rewrite write_name_spec by exact H. unfold save_value. cbn [bind ar_nodes ar_next ar_out parts]. rewrite <- !app_assoc. reflexivity.
  - rewrite write_name_spec by exact H. unfold save_value. cbn [bind ar_nodes ar_next ar_out parts]. rewrite <- !app_assoc. reflexivity.
  - inversion ND as [| | |? ND'|]; subst. unfold start_node. rewrite write_name_spec by exact H.
    cbn [bind make_array ar_nodes ar_next ar_out].
    rewrite save_list_go; [|rewrite Forall_forall in *; intros; apply IH; auto|reflexivity].
    cbn [bind]. unfold finish_node. cbn [ar_nodes ar_next ar_out]. f_equal. f_equal.
    cbn [parts]. rewrite <- !app_assoc. do 3 f_equal. destruct l; [reflexivity|cbn [opening]]. rewrite <- ?app_assoc. reflexivity.
  - inversion ND as [| | | |? ND']; subst. unfold start_node. rewrite write_name_spec by exact H.
    cbn [bind ar_nodes ar_next ar_out].
    rewrite save_obj_go; [| |eapply Forall_impl; [|exact ND']; intros ? [? _]; assumption|reflexivity].
    2: { rewrite Forall_forall in *. intros m Hm. apply IH; [exact Hm|apply ND', Hm]. }
    cbn [bind]. unfold finish_node. cbn [ar_nodes ar_next ar_out]. f_equal. f_equal.
    cbn [parts]. fold mparts. rewrite <- !app_assoc. do 3 f_equal. destruct l; [reflexivity|cbn [opening]]. rewrite <- ?app_assoc. reflexivity.
Qed.

Local Definition osome {A B} (o : option A) (f : A -> B) : option B := match o with Some a => Some (f a) | None => None end.
Local Fixpoint meaning (v : val) : option json :=
  match v with
  | VText s => Some (JText s)
  | VNum (Some q) => Some (JNum q)
  | VNum None => None
  | VBool b => Some (JBool b)
  | VList l => osome ((fix go (l : list val) : option (list json) :=
                         match l with
                         | [] => Some []
                         | v :: l => match meaning v with Some j => osome (go l) (cons j) | None => None end
                         end) l) JArr
  | VObj l => osome ((fix go (l : list (option string * val)) : option (list (string * json)) :=
                        match l with
                        | [] => Some []
                        | (n, v) :: l => match n, meaning v with
                                         | Some n, Some j => osome (go l) (cons (n, j))
                                         | _, _ => None
                                         end
                        end) l) JObj
  end.
Local Fixpoint meanings (l : list val) : option (list json) :=
  match l with
  | [] => Some []
  | v :: l => match meaning v with Some j => osome (meanings l) (cons j) | None => None end
  end.
Local Fixpoint omeanings (l : list (option string * val)) : option (list (string * json)) :=
  match l with
  | [] => Some []
  | (n, v) :: l => match n, meaning v with
                   | Some n, Some j => osome (omeanings l) (cons (n, j))
                   | _, _ => None
                   end
  end.
Local Lemma meaning_list l : meaning (VList l) = osome (meanings l) JArr. Proof. reflexivity. Qed.
Local Lemma meaning_obj l : meaning (VObj l) = osome (omeanings l) JObj. Proof. reflexivity. Qed.

Local Lemma prun_app a : forall b st, prun (a ++ b) st = match prun a st with Some st => prun b st | None => None end.
Proof. induction a as [|p a IH]; intros b st; [reflexivity|]. cbn. destruct (pstep p st); [apply IH|reflexivity]. Qed.

Local Definition reads (v : val) : Prop := forall st, open_for_value st = true ->
  prun (parts v) st = match meaning v with Some j => deliver j st | None => None end.
Local Lemma prun_items l : Forall reads l -> forall acc fs d,
  prun (flat_map parts l) (FArr acc :: fs, d)
  = match meanings l with Some js => Some (FArr (acc ++ js) :: fs, d) | None => None end.
Proof.
  induction 1 as [|v l Hv Hl IH]; intros acc fs d; cbn [flat_map meanings]; [cbn; rewrite app_nil_r; reflexivity|].
  rewrite prun_app, Hv by reflexivity. destruct (meaning v) as [j|]; [|reflexivity].
  cbn [deliver]. rewrite IH. destruct (meanings l); cbn [osome]; [rewrite <- app_assoc|]; reflexivity.
Qed.
Local Lemma prun_members l : Forall (fun m => reads (snd m)) l -> Forall (fun m => fst m <> None) l -> forall acc fs d,
  prun (flat_map mparts l) (FObj acc None :: fs, d)
  = match omeanings l with Some js => Some (FObj (acc ++ js) None :: fs, d) | None => None end.
Proof.
  induction 1 as [|[k v] l Hv Hl IH]; intros HN acc fs d; cbn [flat_map omeanings]; [cbn; rewrite app_nil_r; reflexivity|].
  inversion HN as [|? ? K HN']; subst. cbn [fst snd] in *. destruct k as [k|]; [|congruence].
  unfold mparts at 1. cbn [fst snd]. rewrite <- app_assoc. cbn [app prun pstep].
  rewrite prun_app, Hv by reflexivity. destruct (meaning v) as [j|]; [|reflexivity].
  cbn [deliver]. rewrite (IH HN'). destruct (omeanings l); cbn [osome]; [rewrite <- app_assoc|]; reflexivity.
Qed.
Local Lemma prun_parts v : named v -> reads v.
Proof.
  induction v as [s|q|b|l IH|l IH] using val_ind2; intros ND st O.
  - destruct st as [[|[l|l [k|]] fs] d]; cbn in *; try reflexivity; try discriminate; destruct d; try discriminate; reflexivity.
  - destruct q as [q|]; cbn [parts number_part prun pstep meaning]; [|reflexivity]. destruct (deliver (JNum q) st); reflexivity.
  - cbn [parts prun pstep meaning]. destruct (deliver (JBool b) st); reflexivity.
  - inversion ND as [| | |? ND'|]; subst. rewrite meaning_list. cbn [parts prun pstep]. rewrite O.
    rewrite prun_app, prun_items by (rewrite Forall_forall in *; intros; apply IH; auto).
    destruct (meanings l) as [js|]; [|reflexivity]. cbn [osome app prun pstep].
    rewrite <- surjective_pairing. destruct (deliver (JArr js) st); reflexivity.
  - inversion ND as [| | | |? ND']; subst. rewrite meaning_obj. cbn [parts]. fold mparts. cbn [prun pstep]. rewrite O.
    rewrite prun_app, prun_members;
      [|rewrite Forall_forall in *; intros m Hm; apply IH; [exact Hm|apply ND', Hm]
       |eapply Forall_impl; [|exact ND']; intros ? [? _]; assumption].
    destruct (omeanings l) as [js|]; [|reflexivity]. cbn [osome app prun pstep].
    rewrite <- surjective_pairing. destruct (deliver (JObj js) st); reflexivity.
Qed.

Local Lemma meanings_same l : Forall (fun v => forall j, same v j <-> meaning v = Some j) l ->
  forall k, Forall2 same l k <-> meanings l = Some k.
Proof.
  induction 1 as [|v l Hv Hl IH]; intros k; cbn [meanings].
  - split; intros H; [inversion H; reflexivity|injection H as <-; constructor].
  - split; intros H.
    + inversion H as [|? j ? k' A B]; subst. apply Hv in A. apply IH in B. rewrite A, B. reflexivity.
    + destruct (meaning v) as [j|] eqn:E; [|discriminate]. destruct (meanings l) as [k'|]; [|discriminate].
      cbn [osome] in H. injection H as <-. constructor; [apply Hv; reflexivity|apply IH; reflexivity].
Qed.
Local Lemma omeanings_same l : Forall (fun m => forall j, same (snd m) j <-> meaning (snd m) = Some j) l ->
  forall k, members_same l k <-> omeanings l = Some k.
Proof.
  unfold members_same. induction 1 as [|[n v] l Hv Hl IH]; intros k; cbn [omeanings].
  - split; intros H; [inversion H; reflexivity|injection H as <-; constructor].
  - cbn [snd] in Hv. split; intros H.
    + inversion H as [|? [s j] ? k' [A1 A2] B]; subst. cbn [fst snd] in *. apply Hv in A2. apply IH in B. rewrite A1, A2, B. reflexivity.
    + destruct n as [n|]; [|discriminate]. destruct (meaning v) as [j|] eqn:E; [|discriminate].
      destruct (omeanings l) as [k'|]; [|discriminate]. cbn [osome] in H. injection H as <-.
      constructor; [split; [reflexivity|apply Hv; reflexivity]|apply IH; reflexivity].
Qed.
Local Lemma same_meaning v : forall j, same v j <-> meaning v = Some j.
Proof.
  induction v as [s|q|b|l IH|l IH] using val_ind2; intros j.
  - split; intros H; [inversion H; reflexivity|injection H as <-; constructor].
  - destruct q; split; intros H; [inversion H; reflexivity|injection H as <-; constructor|inversion H|discriminate].
  - split; intros H; [inversion H; reflexivity|injection H as <-; constructor].
  - rewrite meaning_list. pose proof (meanings_same l IH) as M. split; intros H.
    + inversion H as [| | |? k F|]; subst. apply M in F. rewrite F. reflexivity.
    + destruct (meanings l) as [k|]; [|discriminate]. injection H as <-. constructor. apply M. reflexivity.
  - rewrite meaning_obj. pose proof (omeanings_same l IH) as M. split; intros H.
    + inversion H as [| | | |? k F]; subst. apply M in F. rewrite F. reflexivity.
    + destruct (omeanings l) as [k|]; [|discriminate]. injection H as <-. constructor. apply M. reflexivity.
Qed.
Local Lemma members_meaning l k : members_same l k <-> omeanings l = Some k.
Proof. apply omeanings_same. rewrite Forall_forall. intros m _. apply same_meaning. Qed.

Local Lemma add_all_spec l : all_named l -> forall n c st out, is_arr n = false ->
  add_all l (Writing (mkar ((n, c) :: st) None out))
  = Ok (Writing (mkar (((match l with [] => n | _ => InObject end), c) :: st) None
                   (out ++ match l with [] => [] | _ => opening n end ++ flat_map mparts l))).
Proof.
  induction l as [|[k v] l IH]; intros ND n c st out Hn; [cbn; rewrite app_nil_r; reflexivity|].
  inversion ND as [|? ? [K N] ND']; subst. cbn [fst snd] in *. destruct k as [k|]; [|congruence].
  cbn [add_all add set_next_name ar_nodes ar_out].
  rewrite (save_spec v N) by (unfold ctx_ok; rewrite Hn; congruence). cbn [bind].
  rewrite (IH ND') by (destruct n; cbn in *; congruence).
  unfold name_part. rewrite Hn. do 3 f_equal.
  - destruct n; try discriminate; destruct l; reflexivity.
  - cbn [flat_map]. unfold mparts at 2. cbn [fst snd]. rewrite <- !app_assoc. f_equal. f_equal. f_equal. f_equal.
    destruct n; try discriminate; destruct l; reflexivity.
Qed.
Local Lemma respond_spec m l : all_named (m :: l) -> respond (m :: l) = Ok (json_response (parts (VObj (m :: l)))).
Proof.
  intros ND. unfold respond, json_archive_new, new_archive. rewrite add_all_spec by (exact ND || reflexivity).
  cbn [bind json_ finalize destroy ar_nodes ar_out opening]. cbn [parts]. fold mparts. rewrite <- app_assoc. reflexivity.
Qed.
Local Lemma parse_parts v : named v -> json_parse (parts v) = meaning v.
Proof.
  intros N. unfold json_parse. rewrite (prun_parts v N) by reflexivity. destruct (meaning v) as [j|]; reflexivity.
Qed.
Local Lemma all_named_obj l : all_named l -> named (VObj l).
Proof. intros H. constructor. exact H. Qed.

(* For all members that are added, in any nesting, as long as there is one: the answer is made, and the client gets
   from it the object with exactly these members; and it gets nothing else. *)
Theorem C129_read m l k : all_named (m :: l) ->
  exists a, respond (m :: l) = Ok a /\ an_status a = 200%N /\ (fetch_json a = Ok (JObj k) <-> members_same (m :: l) k).
Proof.
  intros ND. exists (json_response (parts (VObj (m :: l)))). split; [apply respond_spec, ND|]. split; [reflexivity|].
  unfold fetch_json. cbn [an_status an_body json_response].
  replace (negb ((200 <=? 200)%N && (200 <=? 299)%N) || (200 =? 204)%N) with false by reflexivity. cbv iota.
  rewrite (parse_parts _ (all_named_obj _ ND)), meaning_obj, members_meaning.
  destruct (omeanings (m :: l)) as [k'|]; cbn [osome]; split; intros H; try discriminate; injection H as <-; reflexivity.
Qed.
Print Assumptions C129_read.

Local Lemma nan_meaning v : named v -> (holds_nan v <-> meaning v = None).
Proof.
  induction v as [s|q|b|l IH|l IH] using val_ind2; intros ND.
  - split; intros H; [inversion H|discriminate].
  - destruct q; split; intros H; [inversion H|discriminate|reflexivity|constructor].
  - split; intros H; [inversion H|discriminate].
  - rewrite meaning_list. inversion ND as [| | |? ND'|]; subst.
    assert (M : Exists holds_nan l <-> meanings l = None).
    { clear ND. induction l as [|v l IHl]; [split; intros H; [inversion H|discriminate]|].
      inversion IH as [|? ? A B]; inversion ND' as [|? ? C D]; subst. specialize (IHl B D). specialize (A C).
      cbn [meanings]. rewrite Exists_cons, A, IHl. destruct (meaning v); [destruct (meanings l)|]; cbn [osome];
        split; intros H; try reflexivity; try (right; reflexivity); try (left; reflexivity); try discriminate;
        destruct H; discriminate. }
    split; intros H; [inversion H as [|? E|]; subst; apply M in E; rewrite E; reflexivity|].
    constructor. apply M. destruct (meanings l); [discriminate|reflexivity].
  - rewrite meaning_obj. inversion ND as [| | | |? ND']; subst.
    assert (M : Exists (fun m => holds_nan (snd m)) l <-> omeanings l = None).
    { clear ND. induction l as [|[n v] l IHl]; [split; intros H; [inversion H|discriminate]|].
      inversion IH as [|? ? A B]; inversion ND' as [|? ? [C1 C2] D]; subst. specialize (IHl B D). specialize (A C2).
      cbn [fst snd] in *. destruct n as [n|]; [|congruence].
      cbn [omeanings]. rewrite Exists_cons. cbn [snd]. rewrite A, IHl. destruct (meaning v); [destruct (omeanings l)|]; cbn [osome];
        split; intros H; try reflexivity; try (right; reflexivity); try (left; reflexivity); try discriminate;
        destruct H; discriminate. }
    split; intros H; [inversion H as [| |? E]; subst; apply M in E; rewrite E; reflexivity|].
    constructor. apply M. destruct (omeanings l); [discriminate|reflexivity].
Qed.

(* The client's request is rejected exactly if there is a number that is none somewhere in the answer. *)
Theorem C129_rejected m l : all_named (m :: l) ->
  exists a, respond (m :: l) = Ok a /\ (fetch_json a = Throw <-> Exists (fun m => holds_nan (snd m)) (m :: l)).
Proof.
  intros ND. exists (json_response (parts (VObj (m :: l)))). split; [apply respond_spec, ND|].
  unfold fetch_json. cbn [an_status an_body json_response].
  replace (negb ((200 <=? 200)%N && (200 <=? 299)%N) || (200 =? 204)%N) with false by reflexivity. cbv iota.
  rewrite (parse_parts _ (all_named_obj _ ND)).
  pose proof (nan_meaning _ (all_named_obj _ ND)) as M.
  assert (E : holds_nan (VObj (m :: l)) <-> Exists (fun m => holds_nan (snd m)) (m :: l)).
  { split; intros H; [inversion H; assumption|constructor; exact H]. }
  rewrite <- E, M. destruct (meaning (VObj (m :: l))); split; intros H; try discriminate; reflexivity.
Qed.
Print Assumptions C129_rejected.

Local Ltac nd := repeat first [discriminate | constructor].
Local Lemma found_named f : named (found_val f).
Proof. unfold found_val, box_val, gps_val. nd. Qed.
(* The same for the list of search results, which has no object around it: also for none. *)
Definition found_same (f : found) (j : json) : Prop :=
  let place p := JObj [("lon", JNum (fst p)); ("lat", JNum (snd p))] in
  j = JObj [("type", JText (fd_type f)); ("name", JText (fd_name f)); ("id", JNum (fd_id f));
            ("boundingBox", JArr [place (fst (fd_box f)); place (snd (fd_box f))]); ("elementType", JText (fd_element f))].
Theorem C129_search l :
  exists a k, answer_search l = Ok a /\ fetch_json a = Ok (JArr k) /\ Forall2 found_same l k.
Proof.
  destruct l as [|f l]; [exists (json_response [OpenA; CloseA]), []; repeat split; constructor|].
  assert (NV : Forall named (map found_val (f :: l))).
  { rewrite Forall_forall. intros v Hv. apply in_map_iff in Hv. destruct Hv as (g & <- & _). apply found_named. }
  assert (M : exists k, meanings (map found_val (f :: l)) = Some k /\ Forall2 found_same (f :: l) k).
  { clear NV. induction (f :: l) as [|g r IH]; [exists []; split; [reflexivity|constructor]|].
    destruct IH as (k & E & F). cbn [map meanings]. rewrite E. eexists. split; [reflexivity|].
    constructor; [reflexivity|exact F]. }
  destruct M as (k & E & F).
  exists (json_response (parts (VList (map found_val (f :: l))))), k. split; [|split; [|exact F]].
  - unfold answer_search. unfold save_root_list, new_archive. cbn [make_array ar_nodes ar_next ar_out bind].
    rewrite save_list_go; [|eapply Forall_impl; [|exact NV]; intros v Hv; apply save_spec, Hv|reflexivity].
    cbn [bind json_ finalize destroy ar_nodes ar_out map opening]. cbn [parts]. rewrite <- app_assoc. reflexivity.
  - unfold fetch_json. cbn [an_status an_body json_response].
    replace (negb ((200 <=? 200)%N && (200 <=? 299)%N) || (200 =? 204)%N) with false by reflexivity. cbv iota.
    rewrite (parse_parts _ (nd_list _ NV)), meaning_list, E. reflexivity.
Qed.
Print Assumptions C129_search.

(* The bounding box of an infrastructure. *)
Theorem C129_box b :
  exists a, answer_box b = Ok a /\
    fetch_json a = Ok (JObj [("boundingBox",
       JArr [JObj [("lon", JNum (fst (fst b))); ("lat", JNum (snd (fst b)))];
             JObj [("lon", JNum (fst (snd b))); ("lat", JNum (snd (snd b)))]])]).
Proof.
  unfold answer_box.
  edestruct (C129_read (Some "boundingBox", box_val b) []) as (a & A & _ & R).
  { unfold box_val, gps_val. nd. }
  exists a. split; [exact A|]. apply R. repeat constructor.
Qed.
Print Assumptions C129_box.

(* An element is read with its own number, if all numbers it has are numbers. *)
Definition element_numbers (track : option (option Q * bool * Q)) (d : edata) : Prop :=
  match track with Some (km, _, _) => km <> None | None => True end /\
  match d with DSlope r f => r <> None /\ f <> None | DLimit l _ => l <> None | _ => True end.
Local Lemma element_named id track d :
  all_named ((Some "id", VNum (Some id))
           :: match track with
              | Some (km, r, line) =>
                  [(Some "kilometrage", VNum km); (Some "rising", VBool r); (Some "line", VNum (Some line))]
              | None => []
              end ++ edata_members d).
Proof. destruct track as [[[km r] line]|]; destruct d; repeat (constructor; [split; [discriminate|constructor]|]); constructor. Qed.
Theorem C129_element_partial id track d : element_numbers track d ->
  exists a k, answer_element id track d = Ok a /\ fetch_json a = Ok (JObj (("id", JNum id) :: k)) /\
    (forall km r line, track = Some (Some km, r, line) ->
       exists k', k = ("kilometrage", JNum km) :: ("rising", JBool r) :: ("line", JNum line) :: k') /\
    (forall limit p, d = DLimit (Some limit) p -> In ("limit", JNum limit) k /\ In ("point_of_activation", JBool p) k) /\
    (forall n, d = DSignal n \/ d = DSwitch n -> In ("name", JText n) k) /\
    (forall r f, d = DSlope (Some r) (Some f) -> In ("rising", JNum r) k /\ In ("falling", JNum f) k) /\
    (forall n p e o, d = DHalt n p e o ->
       In ("name", JText n) k /\ In ("passenger", JBool p) k /\ In ("id_extern", JText e) k /\ In ("id_op", JText o) k) /\
    (forall s, d = DEotd s -> In ("signal", JBool s) k).
Proof.
  intros (H1 & H2). unfold answer_element.
  assert (M : exists k, omeanings (match track with
              | Some (km, r, line) =>
                  [(Some "kilometrage", VNum km); (Some "rising", VBool r); (Some "line", VNum (Some line))]
              | None => []
              end ++ edata_members d) = Some k).
  { destruct track as [[[[km|] r] line]|]; try congruence; destruct d as [| |[|] [|]| |[|]| |]; cbn in *;
      try (destruct H2; congruence); try congruence; eexists; reflexivity. }
  destruct M as (k & M).
  edestruct (C129_read _ _ (("id", JNum id) :: k) (element_named id track d)) as (a & A & _ & R).
  exists a, k. split; [exact A|]. split.
  { apply R, members_meaning. cbn [omeanings meaning]. rewrite M. reflexivity. }
  repeat split.
  - intros km r line ->. cbn in M. destruct (omeanings (edata_members d)) as [k'|]; [|discriminate].
    cbn in M. injection M as <-. eexists. reflexivity.
  - subst d. destruct track as [[[[km|] r] line]|]; try congruence; cbn in M; injection M as <-; cbn; tauto.
  - subst d. destruct track as [[[[km|] r] line]|]; try congruence; cbn in M; injection M as <-; cbn; tauto.
  - intros n [-> | ->]; destruct track as [[[[km|] r] line]|]; try congruence; cbn in M; injection M as <-; cbn; tauto.
  - subst d. destruct track as [[[[km|] ?] line]|]; try congruence; cbn in M; injection M as <-; cbn; tauto.
  - subst d. destruct track as [[[[km|] ?] line]|]; try congruence; cbn in M; injection M as <-; cbn; tauto.
  - subst d. destruct track as [[[[km|] ?] line]|]; try congruence; cbn in M; injection M as <-; cbn; tauto.
  - subst d. destruct track as [[[[km|] ?] line]|]; try congruence; cbn in M; injection M as <-; cbn; tauto.
  - subst d. destruct track as [[[[km|] ?] line]|]; try congruence; cbn in M; injection M as <-; cbn; tauto.
  - subst d. destruct track as [[[[km|] ?] line]|]; try congruence; cbn in M; injection M as <-; cbn; tauto.
  - intros s ->. destruct track as [[[[km|] r] line]|]; try congruence; cbn in M; injection M as <-; cbn; tauto.
Qed.
Print Assumptions C129_element_partial.

(* No name occurs twice in the answer about an element, so that the client loses none: slopes have no direction. *)
Theorem C129_element_names id track d a k :
  (track = None \/ forall r f, d <> DSlope r f) ->
  answer_element id track d = Ok a -> fetch_json a = Ok (JObj k) -> NoDup (map fst k).
Proof.
  intros H A F. unfold answer_element in A.
  edestruct (C129_read _ _ k (element_named id track d)) as (a' & A' & _ & R).
  rewrite A in A'. injection A' as <-. apply R, members_meaning in F. clear A R.
  destruct track as [[[[km|] r] line]|]; destruct d as [| |[|] [|]| |[|]| |]; cbn in F; try discriminate;
    try (destruct H as [H|H]; [discriminate|exfalso; eapply H; reflexivity]);
    injection F as <-; cbn [map fst]; repeat (constructor; [cbn [In]; intuition discriminate|]); constructor.
Qed.
Print Assumptions C129_element_names.

(* The end of a special speed limit has no limit in the file (parse_track_element.cc:63-66, 85-88): whatever else holds
   of the element, the client cannot read the answer about it. *)
Theorem C129_element_refuted id track p :
  exists a, answer_element id track (DLimit None p) = Ok a /\ an_status a = 200%N /\ fetch_json a = Throw.
Proof.
  unfold answer_element.
  edestruct (C129_rejected _ _ (element_named id track (DLimit None p))) as (a & A & R).
  edestruct (C129_read _ _ [] (element_named id track (DLimit None p))) as (a' & A' & S & _).
  rewrite A in A'. injection A' as <-. exists a. split; [exact A|]. split; [exact S|]. apply R.
  right. apply Exists_app. right. constructor. constructor.
Qed.
Print Assumptions C129_element_refuted.

(* The text is made once: afterwards nothing can be added, and asking again gives the same text. *)
Theorem C129_once j os j' : json_ j = Ok (os, j') -> json_ j' = Ok (os, j') /\ forall n v, add n v j' = Throw.
Proof.
  unfold json_. destruct j as [a|os']; cbn [finalize bind].
  - destruct (destroy a) as [o| | |] eqn:E; cbn [bind]; try discriminate. intros H. injection H as <- <-. split; [reflexivity|reflexivity].
  - intros H. injection H as <- <-. split; reflexivity.
Qed.
Print Assumptions C129_once.

(* An archive to which nothing was added has no text, which no client can read; the same holds of a list of search
   results without the extra case for none. *)
Theorem C129_nothing : exists a, respond [] = Ok a /\ fetch_json a = Throw.
Proof. exists (json_response []). split; reflexivity. Qed.
Print Assumptions C129_nothing.

(* Other answers than success, and success without content, are rejected whatever they hold. *)
Theorem C129_status a : (an_status a < 200 \/ 299 < an_status a \/ an_status a = 204)%N -> fetch_json a = Throw.
Proof.
  intros H. unfold fetch_json.
  destruct (N.leb_spec 200 (an_status a)), (N.leb_spec (an_status a) 299), (N.eqb_spec (an_status a) 204);
    cbn [andb negb orb]; try reflexivity; lia.
Qed.
Print Assumptions C129_status.

(* ---- the hypotheses can be met ---- *)
Example C129_sat :
  let l := [(Some "timetable", VObj [(Some "source", VText "x"); (Some "interval",
              VObj [(Some "start", VNum (Some 1%Q)); (Some "end", VNum (Some 2%Q))])]); (Some "list", VList [])] in
  all_named l /\ members_same l
    [("timetable", JObj [("source", JText "x"); ("interval", JObj [("start", JNum 1%Q); ("end", JNum 2%Q)])]); ("list", JArr [])].
Proof.
  split; [|repeat constructor].
  nd.
Qed.
Example C129_element_sat : element_numbers (Some (Some 1%Q, true, 2%Q)) (DLimit (Some 3%Q) false).
Proof. split; discriminate. Qed.
Example C129_once_sat : exists os j', json_ json_archive_new = Ok (os, j').
Proof. eexists. eexists. reflexivity. Qed.
Example C129_search_sat :
  answer_search [mkfound "hs" "A" 1 ((0, 1), (2, 3))%Q ""] =
  Ok (json_response [OpenA; OpenO; Quoted "type"; Quoted "hs"; Quoted "name"; Quoted "A"; Quoted "id"; Number 1;
        Quoted "boundingBox"; OpenA; OpenO; Quoted "lon"; Number 0; Quoted "lat"; Number 1; CloseO;
        OpenO; Quoted "lon"; Number 2; Quoted "lat"; Number 3; CloseO; CloseA; Quoted "elementType"; Quoted ""; CloseO; CloseA]).
Proof. reflexivity. Qed.
