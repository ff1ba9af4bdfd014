(** Mat4::ortho and Mat4::proj (rpp/impl/vmath.cpp:227-248) on f32, with every rounding. *)
From Flocq Require Import IEEE754.BinarySingleNaN IEEE754.Binary IEEE754.Bits.
From Verif Require Import Base Word F32 VectModel FloatModel BoxFloatModel MatFloatModel.

(** vmath.cpp:227-236; a Mat4 starts as the identity (vmath.h:571-577). *)
Definition fm_ortho (l r b t n f : binary32) : fmat :=
  FMat (C4 (fdiv f2 (fsub r l)) f0 f0 f0) (C4 f0 (fdiv f2 (fsub t b)) f0 f0) (C4 f0 f0 (fdiv f2 (fsub n f)) f0)
       (C4 (fdiv (fsub (b32_opp l) r) (fsub r l)) (fdiv (fsub (b32_opp b) t) (fsub t b)) (fdiv (b32_opp n) (fsub f n)) f1).
(** vmath.cpp:238-248.  Simplification: [tn] is what Math::tan(Math::radians(fov) / 2.0f) returns, which is the C library's affair. *)
Definition fm_proj (tn ar n : binary32) : fmat :=
  let f := fdiv f1 tn in
  FMat (C4 (fdiv f ar) f0 f0 f0) (C4 f0 (b32_opp f) f0 f0) (C4 f0 f0 f0 fm1) (C4 f0 f0 n f0).
