(** What is asked of quaternions of f32: how far they may be from the quaternions of real numbers of QuatModel.v, which C59 shows to be Hamilton's. *)
From Flocq Require Import Core IEEE754.BinarySingleNaN IEEE754.Binary IEEE754.Bits.
From Verif Require Import Base F32 Mat4Model QuatModel BoxFloatModel BoxFloatSpec MatFloatSpec.
From Coq Require Import Reals.
Open Scope R_scope.

(** The quaternion of real numbers that [q] holds, its parts, and a vector as a quaternion. *)
Definition rq (q : col4) : quat := Q (val (cx q)) (val (cy q)) (val (cz q)) (val (cw q)).
Definition part (q : quat) (k : nat) : R := the k (qx q) (qy q) (qz q) (qw q).
Definition vec (p : pt) : v3 := V3 (val (px p)) (val (py p)) (val (pz p)).
Definition length3 (v : v3) : R := sqrt (x3 v * x3 v + y3 v * y3 v + z3 v * z3 v).
Definition part3 (v : v3) (k : nat) : R := the k (x3 v) (y3 v) (z3 v) (z3 v).
(** [k] units of 2^-24. *)
Definition units (k : R) : R := k / IZR (2 ^ 24).
