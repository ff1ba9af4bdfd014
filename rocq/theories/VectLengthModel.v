(** norm(), normalize() and unit() of Vec4 as compiled with SSE (rpp/vmath.h:255-276, 293-295, 337-341, rpp/impl/simd.cpp:76-78).
    The other cases are in VectModel.v. *)
From Flocq Require Import IEEE754.BinarySingleNaN IEEE754.Bits.
From Verif Require Import Base VectModel.

Definition q_norm_sse (a : list binary32) : res binary32 := n ← q_dot_sse a a; Ok (b32_sqrt mode_NE n).
Definition q_unit_sse (a : list binary32) : res (list binary32) := l ← q_norm_sse a; vias div4 a l.
