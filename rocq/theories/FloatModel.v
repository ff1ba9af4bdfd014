(** The scalar functions of rpp/math.h and rpp/impl/math.cpp on f32, and Vect::as (rpp/vmath.h:286-291).

    Floats are Flocq's [binary32]; every operation rounds to nearest even, as the code does without -ffast-math.
    Simplification: a NaN's payload is the one Flocq's operations pick. *)
From Flocq Require Import IEEE754.BinarySingleNaN IEEE754.Binary IEEE754.Bits.
From Verif Require Import Base Word F32 VectModel.

Definition f0 : binary32 := f32_zero.
Definition f1 : binary32 := f32_of_Z 1.
Definition fm1 : binary32 := f32_of_Z (-1).
Definition f2 : binary32 := f32_of_Z 2.
Definition f3 : binary32 := f32_of_Z 3.
Definition fadd := b32_plus mode_NE.
Definition fsub := b32_minus mode_NE.
Definition fmul := b32_mult mode_NE.
Definition fdiv := b32_div mode_NE.

(** impl/math.cpp:102-104 *)
Definition sign (v : binary32) : binary32 := if f32_eq v f0 then f0 else if f32_lt v f0 then fm1 else f1.
(** math.h:17-25, 128-130 *)
Definition fmin2 (a b : binary32) : binary32 := if f32_lt a b then a else b.
Definition fmax2 (a b : binary32) : binary32 := if f32_lt b a then a else b.
Definition clamp (x s e : binary32) : binary32 := fmin2 (fmax2 x s) e.
(** math.h:122-125 *)
Definition lerp (s e t : binary32) : binary32 := fadd s (fmul (fsub e s) t).
(** The conversion of a float to a signed integer of [w] bits drops the fraction; undefined unless the result fits *)
Definition to_int (w : Z) (x : binary32) : res Z :=
  if is_finite 24 128 x then let z := Btrunc 24 128 x in if ((- 2 ^ (w - 1) <=? z) && (z <? 2 ^ (w - 1)))%Z then Ok z else UB else UB.
(** math.h:132-134 *)
Definition frac (x : binary32) : res binary32 := z ← to_int 64 x; Ok (fsub x (f32_of_Z z)).
(** math.h:136-139 *)
Definition smoothstep (e0 e1 x : binary32) : binary32 :=
  let t := clamp (fdiv (fsub x e0) (fsub e1 e0)) f0 f1 in
  fmul (fmul t t) (fsub f3 (fmul f2 t)).

(** vmath.h:286-291, for the element types f32, i32 and u32: each element is converted on its own *)
Fixpoint each {A B} (f : A -> res B) (v : list A) : res (list B) :=
  match v with [] => Ok [] | a :: v => b ← f a; r ← each f v; Ok (b :: r) end.
Definition as_f32 (v : list Z) : res (list binary32) := each (fun z => Ok (f32_of_Z z)) v.
Definition as_i32 (v : list binary32) : res (list Z) := each (to_int 32) v.
Definition u32_as_i32 (v : list Z) : res (list Z) := each (fun z => Ok (to_signed 32 z)) v.
Definition i32_as_u32 (v : list Z) : res (list Z) := each (fun z => Ok (wrap 32 z)) v.
