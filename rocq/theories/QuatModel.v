(** Model of Quat (rpp/vmath.h:642-773) and Mat4::to_euler (rpp/impl/vmath.cpp:385-417) in exact
    arithmetic; see Mat4Model.v for what that leaves out. *)
From Verif Require Import Base Mat4Model.
From Coq Require Import Reals.
Open Scope R_scope.

Record quat := Q { qx : R; qy : R; qz : R; qw : R }.
(** vmath.h:646-654 *)
Definition quat_id : quat := Q 0 0 0 1.
Definition quat_of (v : v3) (real : R) : quat := Q (x3 v) (y3 v) (z3 v) real.
(** 696-698, 702-707 *)
Definition conjugate (q : quat) : quat := Q (- qx q) (- qy q) (- qz q) (qw q).
Definition complex (q : quat) : v3 := V3 (qx q) (qy q) (qz q).
Definition real (q : quat) : R := qw q.
(** 709-718 *)
Definition qnorm2 (q : quat) : R := qx q * qx q + qy q * qy q + qz q * qz q + qw q * qw q.
Definition qnorm (q : quat) : R := sqrt (qnorm2 q).
Definition qunit (q : quat) : quat := let n := qnorm q in Q (qx q / n) (qy q / n) (qz q / n) (qw q / n).
(** 699-701 *)
Definition qinverse (q : quat) : quat := qunit (conjugate q).
(** 720-736 *)
Definition qmul (a r : quat) : quat :=
  Q (qy a * qz r - qz a * qy r + qx a * qw r + qw a * qx r) (qz a * qx r - qx a * qz r + qy a * qw r + qw a * qy r)
    (qx a * qy r - qy a * qx r + qz a * qw r + qw a * qz r) (qw a * qw r - qx a * qx r - qy a * qy r - qz a * qz r).
Definition qscale (a : quat) (s : R) : quat := Q (s * qx a) (s * qy a) (s * qz a) (s * qw a).
Definition qadd (a r : quat) : quat := Q (qx a + qx r) (qy a + qy r) (qz a + qz r) (qw a + qw r).
Definition qsub (a r : quat) : quat := Q (qx a - qx r) (qy a - qy r) (qz a - qz r) (qw a - qw r).
Definition qneg (a : quat) : quat := Q (- qx a) (- qy a) (- qz a) (- qw a).
(** 742-748 *)
Definition to_mat (q : quat) : mat :=
  let (x, y, z, w) := q in
  Mat (V4 (1 - 2 * y * y - 2 * z * z) (2 * x * y + 2 * z * w) (2 * x * z - 2 * y * w) 0)
      (V4 (2 * x * y - 2 * z * w) (1 - 2 * x * x - 2 * z * z) (2 * y * z + 2 * x * w) 0)
      (V4 (2 * x * z + 2 * y * w) (2 * y * z - 2 * x * w) (1 - 2 * x * x - 2 * y * y) 0)
      (V4 0 0 0 1).
(** 750-752 *)
Definition qrotate (q : quat) (v : v3) : v3 := complex (qmul (qmul q (quat_of v 0)) (conjugate q)).
(** 754-759 *)
Definition req (a b : R) : bool := if Req_EM_T a b then true else false.
Definition qeq (a v : quat) : bool := req (qx a) (qx v) && req (qy a) (qy v) && req (qz a) (qz v) && req (qw a) (qw v).
Definition qne (a v : quat) : bool := negb (req (qx a) (qx v)) || negb (req (qy a) (qy v)) || negb (req (qz a) (qz v)) || negb (req (qw a) (qw v)).
(** 663-672 *)
Definition axis_angle (axis : v3) (angle : R) : quat :=
  let n := unit3 axis in
  let a := radians angle / 2 in
  let s := sin a in
  qunit (Q (s * x3 n) (s * y3 n) (s * z3 n) (cos a)).
(** 673-687; the comparisons are Vec3's [==] (vmath.h:216-224). *)
Definition eq3 (a b : v3) : bool := req (x3 a) (x3 b) && req (y3 a) (y3 b) && req (z3 a) (z3 b).
Definition euler (angles : v3) : quat :=
  if eq3 angles (V3 0 0 180) || eq3 angles (V3 180 0 0) then Q 0 0 (-1) 0
  else
    let c1 := cos (radians (z3 angles * (1 / 2))) in
    let c2 := cos (radians (y3 angles * (1 / 2))) in
    let c3 := cos (radians (x3 angles * (1 / 2))) in
    let s1 := sin (radians (z3 angles * (1 / 2))) in
    let s2 := sin (radians (y3 angles * (1 / 2))) in
    let s3 := sin (radians (x3 angles * (1 / 2))) in
    Q (c1 * c2 * s3 - s1 * s2 * c3) (c1 * s2 * c3 + s1 * c2 * s3) (s1 * c2 * c3 - c1 * s2 * s3) (c1 * c2 * c3 + s1 * s2 * s3).

(** [::atan2] on reals: the angle of the point (x, y) in (-pi, pi]; 0 at the origin. *)
Definition atan2 (y x : R) : R :=
  if Rlt_dec 0 x then atan (y / x)
  else if Rlt_dec x 0 then (if Rle_dec 0 y then atan (y / x) + PI else atan (y / x) - PI)
  else if Rlt_dec 0 y then PI / 2 else if Rlt_dec y 0 then - (PI / 2) else 0.
Definition hypot (x y : R) : R := sqrt (x * x + y * y).
(** vmath.cpp:385-417.  The loop over the first twelve entries against the table of 387-388 is
    written as a conjunction in the same order. *)
Definition near (a b : R) : bool := if Rlt_dec (Rabs (a - b)) EPS_F then true else false.
Definition to_euler (m : mat) : v3 :=
  let single := near (x4 (col0 m)) 1 && near (y4 (col0 m)) 0 && near (z4 (col0 m)) 0 && near (w4 (col0 m)) 0 &&
                near (x4 (col1 m)) 0 && near (y4 (col1 m)) (-1) && near (z4 (col1 m)) 0 && near (w4 (col1 m)) 0 &&
                near (x4 (col2 m)) 0 && near (y4 (col2 m)) 0 && near (z4 (col2 m)) 1 && near (w4 (col2 m)) 0 in
  if single then V3 0 0 180
  else
    let cy := hypot (x4 (col0 m)) (y4 (col0 m)) in
    let '(eul1, eul2) :=
      if Rlt_dec EPS_F cy then
        (V3 (atan2 (z4 (col1 m)) (z4 (col2 m))) (atan2 (- z4 (col0 m)) cy) (atan2 (y4 (col0 m)) (x4 (col0 m))),
         V3 (atan2 (- z4 (col1 m)) (- z4 (col2 m))) (atan2 (- z4 (col0 m)) (- cy)) (atan2 (- y4 (col0 m)) (- x4 (col0 m))))
      else
        let e := V3 (atan2 (- y4 (col2 m)) (y4 (col1 m))) (atan2 (- z4 (col0 m)) cy) 0 in (e, e) in
    let d1 := Rabs (x3 eul1) + Rabs (y3 eul1) + Rabs (z3 eul1) in
    let d2 := Rabs (x3 eul2) + Rabs (y3 eul2) + Rabs (z3 eul2) in
    let e := if Rlt_dec d2 d1 then eul2 else eul1 in
    V3 (degrees (x3 e)) (degrees (y3 e)) (degrees (z3 e)).
(** vmath.h:738-740 *)
Definition qto_euler (q : quat) : v3 := to_euler (to_mat (qunit q)).
