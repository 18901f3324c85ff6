(* Vocabulary for places on the globe; no definition of GeoModel is used. *)
From Coq Require Import Reals.
Local Open Scope R_scope.

(* directions in space *)
Record vec : Type := mk_vec { vx : R; vy : R; vz : R }.
Definition dot (u v : vec) : R := vx u * vx v + vy u * vy v + vz u * vz v.
Definition plus (u v : vec) : vec := mk_vec (vx u + vx v) (vy u + vy v) (vz u + vz v).
Definition times (k : R) (u : vec) : vec := mk_vec (k * vx u) (k * vy u) (k * vz u).

(* c is the angle between two directions of length one *)
Definition angle (u v : vec) (c : R) : Prop := 0 <= c <= PI /\ cos c = dot u v.

(* the point of the unit sphere at a longitude and a latitude given as angles,
   the directions north and east there *)
Definition sphere (lon lat : R) : vec := mk_vec (cos lat * cos lon) (cos lat * sin lon) (sin lat).
Definition north (lon lat : R) : vec := mk_vec (- sin lat * cos lon) (- sin lat * sin lon) (cos lat).
Definition east (lon : R) : vec := mk_vec (- sin lon) (cos lon) 0.

(* where one arrives from there along the great circle that starts in the
   direction b (clockwise from north), after the angle r *)
Definition ahead (lon lat r b : R) : vec :=
  plus (times (cos r) (sphere lon lat))
       (times (sin r) (plus (times (cos b) (north lon lat)) (times (sin b) (east lon)))).

(* the point at a longitude and a latitude in degrees, for a given size of a degree *)
Definition at_degrees (degree lon lat : R) : vec := sphere (lon * degree) (lat * degree).

(* m is the largest of the numbers with P, but at least zero *)
Definition largest (P : R -> Prop) (m : R) : Prop :=
  0 <= m /\ (forall x, P x -> x <= m) /\ (m = 0 \/ P m).

(* a point of a plan, x to the east and y to the south of its middle, is d away from
   the middle in the direction a (clockwise from north) *)
Definition on_plan (x y d a : R) : Prop := 0 <= d /\ d * sin a = x /\ d * cos a = - y.
