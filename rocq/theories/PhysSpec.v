(* Vocabulary for the statements about driving phases (PropsRun). *)
From Coq Require Export QArith.
From Verif Require Import Base PhysModel.

(* i half seconds *)
Definition half (i : nat) : Q := Z.of_nat i # 2.

(* l does not decrease *)
Definition ascending (l : list Q) : Prop :=
  forall i x y, nth_error l i = Some x -> nth_error l (S i) = Some y -> x <= y.

(* the i-th sample of a recorded phase is taken i half seconds after its start *)
Definition every_half_second (l : list sample) : Prop :=
  forall i s, nth_error l i = Some s -> s_time s == half i.

(* s is a sample of l, but not the last one *)
Definition inner (l : list sample) (s : sample) : Prop :=
  exists i, nth_error l i = Some s /\ (S i < length l)%nat.

(* c0 * x^0 + c1 * x^1 + ... *)
Fixpoint power (x : Q) (n : nat) : Q := match n with O => 1 | S n => x * power x n end.
Fixpoint power_sum (n : nat) (cs : list Q) (x : Q) : Q :=
  match cs with [] => 0 | c :: cs => c * power x n + power_sum (S n) cs x end.
Definition sum (l : list Q) : Q := fold_right Qplus 0 l.

(* x lies in the half open interval of the piece *)
Definition piece_contains (p : piece) (x : Q) : Prop := p_from p <= x /\ x < p_to p.
(* contiguous ascending pieces *)
Definition adjoining (ps : list piece) : Prop :=
  (forall p, In p ps -> p_from p <= p_to p) /\
  (forall i p q, nth_error ps i = Some p -> nth_error ps (S i) = Some q -> p_to p == p_from q).

(* f is the tractive force of the vehicle at speed v: the value of the first
   piece that ends beyond v *)
Definition vehicle_pulls (vh : vehicle) (v f : Q) : Prop :=
  exists i p, nth_error (v_tractive vh) i = Some p /\ v < p_to p /\
    (forall j q, (j < i)%nat -> nth_error (v_tractive vh) j = Some q -> p_to q <= v) /\
    f == power_sum 0 (rev (p_factors p)) v.
(* Newton: mass (with a surcharge of 6 % for rotating parts) times acceleration
   is tractive force minus resistance, both summed over all vehicles *)
Definition accelerates (tp : physics) (v a : Q) : Prop :=
  exists fs, Forall2 (fun vh f => vehicle_pulls vh v f) (tp_vehicles tp) fs /\
    a * (tp_weight tp * (106 # 100)) ==
    sum fs - sum (map (fun vh => power_sum 0 (rev (v_resistance vh)) v) (tp_vehicles tp)).
(* the speed the train may not exceed: its own and that of each vehicle *)
Definition top_speed (tp : physics) (m : Q) : Prop :=
  m <= tp_max tp /\ (forall vh, In vh (tp_vehicles tp) -> m <= v_max_speed vh) /\
  (m = tp_max tp \/ exists vh, In vh (tp_vehicles tp) /\ m = v_max_speed vh) /\
  tp_vehicles tp <> [].

(* one half second of acceleration from sample a to sample b: constant
   acceleration by the forces at the speed of a, mean speed times duration *)
Definition moves (tp : physics) (a b : sample) : Prop :=
  exists acc, accelerates tp (s_speed a) acc /\
    s_time b == s_time a + (1#2) /\
    s_speed b == s_speed a + acc * (1#2) /\
    s_dist b == s_dist a + ((s_speed a + s_speed b) / 2) * (1#2).
Definition driven (tp : physics) (l : list sample) : Prop :=
  forall i a b, nth_error l i = Some a -> nth_error l (S i) = Some b -> moves tp a b.
