(** Quat (rpp/vmath.h:641-768) on f32, with every rounding.  A Quat is a Vect_Base<f32, 4>: the columns of MatFloatModel.v.

    Simplifications: the compiler does not contract [a * b + c] into one rounding.  axis_angle, euler and to_euler are not here: they need sin and cos. *)
From Flocq Require Import IEEE754.BinarySingleNaN IEEE754.Binary IEEE754.Bits.
From Verif Require Import Base Word F32 VectModel FloatModel BoxFloatModel MatFloatModel.

(** vmath.h:645-654 *)
Definition fq_id : col4 := C4 f0 f0 f0 f1.
Definition fq_of (v : pt) (real : binary32) : col4 := C4 (px v) (py v) (pz v) real.
(** 696-707 *)
Definition fq_conj (q : col4) : col4 := C4 (b32_opp (cx q)) (b32_opp (cy q)) (b32_opp (cz q)) (cw q).
Definition fq_complex (q : col4) : pt := Pt (cx q) (cy q) (cz q).
Definition fq_real (q : col4) : binary32 := cw q.
(** 709-718 *)
Definition fq_norm2 (q : col4) : binary32 := fadd (fadd (fadd (fmul (cx q) (cx q)) (fmul (cy q) (cy q))) (fmul (cz q) (cz q))) (fmul (cw q) (cw q)).
Definition fq_norm (q : col4) : binary32 := b32_sqrt mode_NE (fq_norm2 q).
Definition fq_unit (q : col4) : col4 := lanes4 fdiv q (all4 (fq_norm q)).
(** 699-701 *)
Definition fq_inverse (q : col4) : col4 := fq_unit (fq_conj q).
(** 720-726 *)
Definition fq_mul (a r : col4) : col4 :=
  C4 (fadd (fadd (fsub (fmul (cy a) (cz r)) (fmul (cz a) (cy r))) (fmul (cx a) (cw r))) (fmul (cw a) (cx r)))
     (fadd (fadd (fsub (fmul (cz a) (cx r)) (fmul (cx a) (cz r))) (fmul (cy a) (cw r))) (fmul (cw a) (cy r)))
     (fadd (fadd (fsub (fmul (cx a) (cy r)) (fmul (cy a) (cx r))) (fmul (cz a) (cw r))) (fmul (cw a) (cz r)))
     (fsub (fsub (fsub (fmul (cw a) (cw r)) (fmul (cx a) (cx r))) (fmul (cy a) (cy r))) (fmul (cz a) (cz r))).
Definition fq_scale (a : col4) (s : binary32) : col4 := C4 (fmul s (cx a)) (fmul s (cy a)) (fmul s (cz a)) (fmul s (cw a)).
(** 728-736 *)
Definition fq_add (a r : col4) : col4 := lanes4 fadd a r.
Definition fq_sub (a r : col4) : col4 := lanes4 fsub a r.
Definition fq_neg (a : col4) : col4 := C4 (b32_opp (cx a)) (b32_opp (cy a)) (b32_opp (cz a)) (b32_opp (cw a)).
(** 742-748: [1 - 2 * y * y - 2 * z * z] and so on; the integers are converted to f32. *)
Definition twice (x y : binary32) : binary32 := fmul (fmul f2 x) y.
Definition fq_to_mat (q : col4) : fmat :=
  let x := cx q in let y := cy q in let z := cz q in let w := cw q in
  FMat (C4 (fsub (fsub f1 (twice y y)) (twice z z)) (fadd (twice x y) (twice z w)) (fsub (twice x z) (twice y w)) f0)
       (C4 (fsub (twice x y) (twice z w)) (fsub (fsub f1 (twice x x)) (twice z z)) (fadd (twice y z) (twice x w)) f0)
       (C4 (fadd (twice x z) (twice y w)) (fsub (twice y z) (twice x w)) (fsub (fsub f1 (twice x x)) (twice y y)) f0)
       (C4 f0 f0 f0 f1).
(** 750-752 *)
Definition fq_rotate (q : col4) (v : pt) : pt := fq_complex (fq_mul (fq_mul q (fq_of v f0)) (fq_conj q)).
(** 754-759 *)
Definition fq_eq (a v : col4) : bool := f32_eq (cx a) (cx v) && f32_eq (cy a) (cy v) && f32_eq (cz a) (cz v) && f32_eq (cw a) (cw v).
Definition fq_ne (a v : col4) : bool := negb (f32_eq (cx a) (cx v)) || negb (f32_eq (cy a) (cy v)) || negb (f32_eq (cz a) (cz v)) || negb (f32_eq (cw a) (cw v)).
