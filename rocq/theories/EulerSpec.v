(** Turning a point about the three axes, by an angle in degrees, counterclockwise seen from the tip
    of the axis. *)
From Coq Require Import Reals.
From Verif Require Import Mat4Model.
Open Scope R_scope.

Definition turn_x (a : R) (v : v3) : v3 :=
  let t := a * PI / 180 in V3 (x3 v) (cos t * y3 v - sin t * z3 v) (sin t * y3 v + cos t * z3 v).
Definition turn_y (a : R) (v : v3) : v3 :=
  let t := a * PI / 180 in V3 (cos t * x3 v + sin t * z3 v) (y3 v) (cos t * z3 v - sin t * x3 v).
Definition turn_z (a : R) (v : v3) : v3 :=
  let t := a * PI / 180 in V3 (cos t * x3 v - sin t * y3 v) (sin t * x3 v + cos t * y3 v) (z3 v).
(** First about x, then about y, then about z. *)
Definition turn_xyz (angles v : v3) : v3 := turn_z (z3 angles) (turn_y (y3 angles) (turn_x (x3 angles) v)).
