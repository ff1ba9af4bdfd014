(** What the transform constructors are for, in terms of points and directions of space. *)
From Coq Require Import Reals.
From Verif Require Import Mat4Model.
Open Scope R_scope.

Definition length2 (v : v3) : R := x3 v * x3 v + y3 v * y3 v + z3 v * z3 v.
Definition inner (a b : v3) : R := x3 a * x3 b + y3 a * y3 b + z3 a * z3 b.
Definition perpendicular (a b : v3) : Prop := inner a b = 0.
Definition zero3 : v3 := V3 0 0 0.
(** The volume spanned by three vectors; its sign is their handedness. *)
Definition volume (a b c : v3) : R :=
  x3 a * (y3 b * z3 c - z3 b * y3 c) + y3 a * (z3 b * x3 c - x3 b * z3 c) + z3 a * (x3 b * y3 c - y3 b * x3 c).

(** A map of directions that keeps angles, lengths and handedness. *)
Definition rotation (f : v3 -> v3) : Prop :=
  (forall u v, inner (f u) (f v) = inner u v) /\ (forall a b c, volume (f a) (f b) (f c) = volume a b c).
(** A map of directions that keeps angles and lengths and mirrors. *)
Definition reflection (f : v3 -> v3) : Prop :=
  (forall u v, inner (f u) (f v) = inner u v) /\ (forall a b c, volume (f a) (f b) (f c) = - volume a b c).
(** [u] is [v] stretched by a positive factor to length one. *)
Definition is_unit_of (u v : v3) : Prop := length2 u = 1 /\ exists k, k > 0 /\ v = scale3 u k.
(** The rotation by the angle [t] (counterclockwise, seen from the tip of the unit axis [n]): keeps
    the axis and turns what is perpendicular to it. *)
Definition turns (f : v3 -> v3) (n : v3) (t : R) : Prop :=
  f n = n /\ forall v, perpendicular n v ->
    f v = add3 (scale3 v (cos t)) (scale3 (V3 (y3 n * z3 v - z3 n * y3 v) (z3 n * x3 v - x3 n * z3 v) (x3 n * y3 v - y3 n * x3 v)) (sin t)).
(** Points stay points (last component 1) and directions directions (last component 0). *)
Definition affine (m : mat) : Prop :=
  forall v, mat_vec m (V4 (x3 v) (y3 v) (z3 v) 1) = ext (mat_point m v) 1 /\ mat_vec m (V4 (x3 v) (y3 v) (z3 v) 0) = ext (mat_rotate m v) 0.
