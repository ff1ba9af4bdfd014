(** Mat4 (rpp/vmath.h:563-640, rpp/impl/vmath.cpp) on f32, with every rounding.  The columns, [lanes] and Mat4 * Vec3 are those of BoxFloatModel.v.

    Simplifications: the compiler does not contract [a * b + c] into one rounding, and the loops over the four columns are written out.
    look_at, rotate, proj, rotate_y_to and rotate_z_to are not here: they need sin, cos and tan or build on them. *)
From Flocq Require Import IEEE754.BinarySingleNaN IEEE754.Binary IEEE754.Bits.
From Verif Require Import Base Word F32 VectModel FloatModel BoxFloatModel.

(** F32x4, simd.cpp:14-122, lane by lane *)
Definition lanes4 (f : binary32 -> binary32 -> binary32) (a b : col4) : col4 := C4 (f (cx a) (cx b)) (f (cy a) (cy b)) (f (cz a) (cz b)) (f (cw a) (cw b)).
Definition all4 (s : binary32) : col4 := C4 s s s s.
Definition cols (f : col4 -> col4 -> col4) (a b : fmat) : fmat := FMat (f (m0 a) (m0 b)) (f (m1 a) (m1 b)) (f (m2 a) (m2 b)) (f (m3 a) (m3 b)).
Definition every (f : col4 -> col4) (a : fmat) : fmat := FMat (f (m0 a)) (f (m1 a)) (f (m2 a)) (f (m3 a)).

(** vmath.cpp:167-172; vmath.h:571-574 *)
Definition fm_I : fmat := FMat (C4 f1 f0 f0 f0) (C4 f0 f1 f0 f0) (C4 f0 f0 f1 f0) (C4 f0 f0 f0 f1).
Definition fm_zero : fmat := FMat (all4 f0) (all4 f0) (all4 f0) (all4 f0).

(** vmath.cpp:296-306 *)
Definition fm_add (a b : fmat) : fmat := cols (lanes4 fadd) a b.
Definition fm_sub (a b : fmat) : fmat := cols (lanes4 fsub) a b.
(** vmath.cpp:319-345 *)
Definition fm_add_s (a : fmat) (s : binary32) : fmat := every (fun c => lanes4 fadd c (all4 s)) a.
Definition fm_sub_s (a : fmat) (s : binary32) : fmat := every (fun c => lanes4 fsub c (all4 s)) a.
Definition fm_mul_s (a : fmat) (s : binary32) : fmat := every (fun c => lanes4 fmul c (all4 s)) a.
Definition fm_div_s (a : fmat) (s : binary32) : fmat := every (fun c => lanes4 fdiv c (all4 s)) a.
(** vmath.cpp:308-317 *)
Definition fm_mul_col (a : fmat) (c : col4) : col4 :=
  lanes4 fadd (lanes4 fadd (lanes4 fmul (all4 (cx c)) (m0 a)) (lanes4 fmul (all4 (cy c)) (m1 a)))
              (lanes4 fadd (lanes4 fmul (all4 (cz c)) (m2 a)) (lanes4 fmul (all4 (cw c)) (m3 a))).
Definition fm_mul (a m : fmat) : fmat := every (fm_mul_col a) m.
(** vmath.cpp:357-361 *)
Definition fm_vec (a : fmat) (v : col4) : col4 :=
  lanes4 fadd (lanes4 fadd (lanes4 fmul (m0 a) (all4 (cx v))) (lanes4 fmul (m1 a) (all4 (cy v))))
              (lanes4 fadd (lanes4 fmul (m2 a) (all4 (cz v))) (lanes4 fmul (m3 a) (all4 (cw v)))).
(** vmath.cpp:370-375 *)
Definition fm_rotate (a : fmat) (v : pt) : pt :=
  let r := lanes4 fadd (lanes4 fadd (lanes4 fmul (m0 a) (all4 (px v))) (lanes4 fmul (m1 a) (all4 (py v)))) (lanes4 fmul (m2 a) (all4 (pz v))) in
  Pt (cx r) (cy r) (cz r).
(** vmath.cpp:279-284, 377-379 *)
Definition fm_transpose (m : fmat) : fmat :=
  FMat (C4 (cx (m0 m)) (cx (m1 m)) (cx (m2 m)) (cx (m3 m))) (C4 (cy (m0 m)) (cy (m1 m)) (cy (m2 m)) (cy (m3 m)))
       (C4 (cz (m0 m)) (cz (m1 m)) (cz (m2 m)) (cz (m3 m))) (C4 (cw (m0 m)) (cw (m1 m)) (cw (m2 m)) (cw (m3 m))).
(** vmath.cpp:286-294 with vmath.h:216-234 and F32x4::cmpeq_all (simd.cpp:102-108) *)
Definition eq_col (a b : col4) : bool := f32_eq (cx a) (cx b) && f32_eq (cy a) (cy b) && f32_eq (cz a) (cz b) && f32_eq (cw a) (cw b).
Definition fm_eq (a b : fmat) : bool := eq_col (m0 a) (m0 b) && eq_col (m1 a) (m1 b) && eq_col (m2 a) (m2 b) && eq_col (m3 a) (m3 b).
Definition fm_ne (a b : fmat) : bool := negb (eq_col (m0 a) (m0 b)) || negb (eq_col (m1 a) (m1 b)) || negb (eq_col (m2 a) (m2 b)) || negb (eq_col (m3 a) (m3 b)).

(** vmath.cpp:195-201 *)
Definition fm_scale (s : pt) : fmat := FMat (C4 (px s) f0 f0 f0) (C4 f0 (py s) f0 f0) (C4 f0 f0 (pz s) f0) (C4 f0 f0 f0 f1).
(** vmath.cpp:221-225 *)
Definition fm_translate (v : pt) : fmat := FMat (C4 f1 f0 f0 f0) (C4 f0 f1 f0 f0) (C4 f0 f0 f1 f0) (C4 (px v) (py v) (pz v) f1).

(** vmath.cpp:89-161 (27-85 is the same computation with SSE intrinsics): the shuffles are written as the lanes they select. *)
Definition pick (a b : col4) (i : nat) : binary32 :=
  match i with 0%nat => cx a | 1%nat => cy a | 2%nat => cz a | 3%nat => cw a | 4%nat => cx b | 5%nat => cy b | 6%nat => cz b | _ => cw b end.
Definition fshuffle (a b : col4) (i j k l : nat) : col4 := C4 (pick a b i) (pick a b j) (pick a b k) (pick a b l).
Definition fsw (a : col4) (i j k l : nat) : col4 := fshuffle a a i j k l.
Definition f_mat2_mul (a b : col4) : col4 := lanes4 fadd (lanes4 fmul a (fsw b 0 3 0 3)) (lanes4 fmul (fsw a 1 0 3 2) (fsw b 2 1 2 1)).
Definition f_mat2_adj_mul (a b : col4) : col4 := lanes4 fsub (lanes4 fmul (fsw a 3 3 0 0) b) (lanes4 fmul (fsw a 1 1 2 2) (fsw b 2 3 0 1)).
Definition f_mat2_mul_adj (a b : col4) : col4 := lanes4 fsub (lanes4 fmul a (fsw b 3 0 3 0)) (lanes4 fmul (fsw a 1 0 3 2) (fsw b 2 1 2 1)).
Definition fhadd (v : col4) : col4 := let v0 := fadd (cz v) (cw v) in let v1 := fadd (cx v) (cy v) in C4 v1 v0 v1 v0.
Definition fm_inverse_parts (m : fmat) : col4 * col4 * col4 * col4 * col4 :=
  let A := fshuffle (m0 m) (m1 m) 0 1 4 5 in
  let B := fshuffle (m0 m) (m1 m) 2 3 6 7 in
  let C := fshuffle (m2 m) (m3 m) 0 1 4 5 in
  let D := fshuffle (m2 m) (m3 m) 2 3 6 7 in
  let E := fshuffle (m0 m) (m2 m) 0 2 4 6 in
  let F := fshuffle (m1 m) (m3 m) 1 3 5 7 in
  let G := fshuffle (m0 m) (m2 m) 1 3 5 7 in
  let H := fshuffle (m1 m) (m3 m) 0 2 4 6 in
  let detSub := lanes4 fsub (lanes4 fmul E F) (lanes4 fmul G H) in
  let detA := fsw detSub 0 0 0 0 in
  let detB := fsw detSub 1 1 1 1 in
  let detC := fsw detSub 2 2 2 2 in
  let detD := fsw detSub 3 3 3 3 in
  let D_C := f_mat2_adj_mul D C in
  let A_B := f_mat2_adj_mul A B in
  let X := lanes4 fsub (lanes4 fmul detD A) (f_mat2_mul B D_C) in
  let W := lanes4 fsub (lanes4 fmul detA D) (f_mat2_mul C A_B) in
  let detM := lanes4 fmul detA detD in
  let Y := lanes4 fsub (lanes4 fmul detB C) (f_mat2_mul_adj D A_B) in
  let Z := lanes4 fsub (lanes4 fmul detC B) (f_mat2_mul_adj A D_C) in
  let detM := lanes4 fadd detM (lanes4 fmul detB detC) in
  let tr := fhadd (fhadd (lanes4 fmul A_B (fsw D_C 0 2 1 3))) in
  let detM := lanes4 fsub detM tr in
  (X, Y, Z, W, detM).
Definition fm_inverse (m : fmat) : fmat :=
  let '(X, Y, Z, W, detM) := fm_inverse_parts m in
  let rDetM := lanes4 fdiv (C4 f1 fm1 fm1 f1) detM in
  let X := lanes4 fmul X rDetM in
  let Y := lanes4 fmul Y rDetM in
  let Z := lanes4 fmul Z rDetM in
  let W := lanes4 fmul W rDetM in
  FMat (fshuffle X Y 3 1 7 5) (fshuffle X Y 2 0 6 4) (fshuffle Z W 3 1 7 5) (fshuffle Z W 2 0 6 4).
