(* C132 the lines of the report: different errors are counted apart and have different texts *)
From Verif Require Import Base ErrTextModel.
From Coq Require Import String.
Open Scope string_scope.

(* an error is told by its text, and so by its code; no error counts as success (value 0) or lacks a text *)
Theorem C132_texts (e e' : error) :
  (message (code_of e) = message (code_of e') -> e = e') /\
  (code_of e = code_of e' -> e = e') /\
  snd (code_of e) <> 0%Z /\ message (code_of e) <> "not reachable" /\ message (code_of e) <> "".
Proof.
  assert (M : message (code_of e) = message (code_of e') -> e = e').
  { destruct e as [[]|[]| |], e' as [[]|[]| |]; first [reflexivity | discriminate]. }
  split; [exact M|]. split; [intros H; apply M; now rewrite H|].
  destruct e as [[]|[]| |]; repeat split; discriminate.
Qed.
Print Assumptions C132_texts.

Example ex_C132_texts : message (code_of (EKss WORKED_ON_TRAIN)) = "worked on train skipped" /\
  snd (code_of (EKss STATION_NOT_FOUND)) = snd (code_of (ETransform NO_FIRST_IR)) /\
  message (code_of (EKss STATION_NOT_FOUND)) <> message (code_of (ETransform NO_FIRST_IR)).
Proof. repeat split; discriminate. Qed.
