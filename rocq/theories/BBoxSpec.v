(** Boxes as sets of points. *)
From Verif Require Import Base Mat4Model BBoxModel.
From Coq Require Import Reals List.
Open Scope R_scope.

Definition within (lo x hi : R) : Prop := lo <= x <= hi.
(** [p] is a point of the box [b]. *)
Definition inside (p : v3) (b : bbox) : Prop :=
  within (x3 (bmin b)) (x3 p) (x3 (bmax b)) /\ within (y3 (bmin b)) (y3 p) (y3 (bmax b)) /\ within (z3 (bmin b)) (z3 p) (z3 (bmax b)).
Definition covers (big small : bbox) : Prop := forall p, inside p small -> inside p big.
Definition nonempty (b : bbox) : Prop := exists p, inside p b.
(** Coordinates that an f32 can hold. *)
Definition representable (p : v3) : Prop := within FLT_MIN (x3 p) FLT_MAX /\ within FLT_MIN (y3 p) FLT_MAX /\ within FLT_MIN (z3 p) FLT_MAX.

(** What a box can be asked to enclose, and the points that are meant. *)
Inductive thing := Point (p : v3) | Box (b : bbox).
Definition is_in (p : v3) (t : thing) : Prop := match t with Point q => p = q | Box b => inside p b end.
Definition sound (t : thing) : Prop := match t with Point q => representable q | Box b => nonempty b /\ representable (bmin b) /\ representable (bmax b) end.
Definition enclose (b : bbox) (t : thing) : bbox := match t with Point p => enclose_point b p | Box c => enclose_box b c end.

(** The image of a point on the screen, whether it is behind the viewer, and rectangles. *)
Definition screen (P : mat) (v : v3) : R * R := (x3 (mat_point P v), y3 (mat_point P v)).
Definition behind (P : mat) (v : v3) : Prop := z3 (mat_point P v) < 0.
Definition in_rect (q : R * R) (r : (R * R) * (R * R)) : Prop := within r.1.1 q.1 r.2.1 /\ within r.1.2 q.2 r.2.2.
