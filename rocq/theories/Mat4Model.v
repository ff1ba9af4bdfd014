(** Model of Mat4 (rpp/vmath.h:563-640, rpp/impl/vmath.cpp) in exact arithmetic: every f32 operation
    is the operation on real numbers, so rounding, overflow and NaN are not modelled.  [Math::sin],
    [cos], [tan] and [sqrt] are the real functions and PI32 is pi.  Division by zero has no meaning in
    the reals (Coq gives it an unspecified value); the theorems exclude it. *)
From Verif Require Import Base.
From Coq Require Import Reals.
Open Scope R_scope.

(** Vec3 (vmath.h:357-386) and four lanes: F32x4 and Vec4 (simd.h:11-34, vmath.h:429-470). *)
Record v3 := V3 { x3 : R; y3 : R; z3 : R }.
Record v4 := V4 { x4 : R; y4 : R; z4 : R; w4 : R }.
Definition xyz (v : v4) : v3 := V3 (x4 v) (y4 v) (z4 v).   (* vmath.h:458-460 *)
Definition ext (v : v3) (s : R) : v4 := V4 (x3 v) (y3 v) (z3 v) s.   (* Vect(Vect<T, N - 1>, T), vmath.h:58-63 *)

(** simd.cpp:86-116, lane by lane *)
Definition set1 (s : R) : v4 := V4 s s s s.
Definition add4 (a b : v4) : v4 := V4 (x4 a + x4 b) (y4 a + y4 b) (z4 a + z4 b) (w4 a + w4 b).
Definition sub4 (a b : v4) : v4 := V4 (x4 a - x4 b) (y4 a - y4 b) (z4 a - z4 b) (w4 a - w4 b).
Definition mul4 (a b : v4) : v4 := V4 (x4 a * x4 b) (y4 a * y4 b) (z4 a * z4 b) (w4 a * w4 b).
Definition div4 (a b : v4) : v4 := V4 (x4 a / x4 b) (y4 a / y4 b) (z4 a / z4 b) (w4 a / w4 b).

(** Vec3 operations: vmath.h:142-214 for N = 3, 498-500, 537-546, 337-341, 266-276. *)
Definition add3 (a b : v3) : v3 := V3 (x3 a + x3 b) (y3 a + y3 b) (z3 a + z3 b).
Definition sub3 (a b : v3) : v3 := V3 (x3 a - x3 b) (y3 a - y3 b) (z3 a - z3 b).
Definition scale3 (a : v3) (s : R) : v3 := V3 (x3 a * s) (y3 a * s) (z3 a * s).
Definition neg3 (a : v3) : v3 := V3 (- x3 a) (- y3 a) (- z3 a).
Definition dot3 (a b : v3) : R := 0 + x3 a * x3 b + y3 a * y3 b + z3 a * z3 b.
Definition cross3 (l r : v3) : v3 := V3 (y3 l * z3 r - z3 l * y3 r) (z3 l * x3 r - x3 l * z3 r) (x3 l * y3 r - y3 l * x3 r).
Definition norm3 (a : v3) : R := sqrt (dot3 a a).
Definition unit3 (a : v3) : v3 := let l := norm3 a in V3 (x3 a / l) (y3 a / l) (z3 a / l).

(** vmath.h:563-588: four columns; [columns], [pack] and [data] are the same storage. *)
Record mat := Mat { col0 : v4; col1 : v4; col2 : v4; col3 : v4 }.
(** vmath.cpp:167-172.  The second value is [Mat4()] too (vmath.h:571-574). *)
Definition mat_I : mat := Mat (V4 1 0 0 0) (V4 0 1 0 0) (V4 0 0 1 0) (V4 0 0 0 1).
Definition mat_zero : mat := Mat (V4 0 0 0 0) (V4 0 0 0 0) (V4 0 0 0 0) (V4 0 0 0 0).
Definition mat_swap_x_z : mat := Mat (V4 0 0 1 0) (V4 0 1 0 0) (V4 1 0 0 0) (V4 0 0 0 1).

(** vmath.cpp:347-355 with vmath.h:77-82: [m[i]] asserts i < 4; [v[j]] has no check. *)
Definition col (m : mat) (i : nat) : res v4 :=
  match i with 0%nat => Ok (col0 m) | 1%nat => Ok (col1 m) | 2%nat => Ok (col2 m) | 3%nat => Ok (col3 m) | _ => Die end.
Definition lane (v : v4) (j : nat) : res R :=
  match j with 0%nat => Ok (x4 v) | 1%nat => Ok (y4 v) | 2%nat => Ok (z4 v) | 3%nat => Ok (w4 v) | _ => UB end.
Definition set_lane (v : v4) (j : nat) (r : R) : res v4 :=
  match j with
  | 0%nat => Ok (V4 r (y4 v) (z4 v) (w4 v)) | 1%nat => Ok (V4 (x4 v) r (z4 v) (w4 v))
  | 2%nat => Ok (V4 (x4 v) (y4 v) r (w4 v)) | 3%nat => Ok (V4 (x4 v) (y4 v) (z4 v) r) | _ => UB
  end.
Definition set_col (m : mat) (i : nat) (v : v4) : res mat :=
  match i with
  | 0%nat => Ok (Mat v (col1 m) (col2 m) (col3 m)) | 1%nat => Ok (Mat (col0 m) v (col2 m) (col3 m))
  | 2%nat => Ok (Mat (col0 m) (col1 m) v (col3 m)) | 3%nat => Ok (Mat (col0 m) (col1 m) (col2 m) v) | _ => Die
  end.
Definition at_ (m : mat) (i j : nat) : res R := c ← col m i; lane c j.
Definition put (m : mat) (i j : nat) (r : R) : res mat := c ← col m i; c' ← set_lane c j r; set_col m i c'.

(** vmath.cpp:279-284, 377-379: both loops. *)
Fixpoint for_ {S : Type} (n i : nat) (body : nat -> S -> res S) (s : S) : res S :=
  match n with O => Ok s | Datatypes.S n' => s' ← body i s; for_ n' (Datatypes.S i) body s' end.
Definition transpose (m : mat) : res mat :=
  for_ 4 0 (fun i r => for_ 4 0 (fun j r => x ← at_ m j i; put r i j x) r) mat_I.

(** vmath.cpp:286-294.  [F32x4::cmpeq_all] on real lanes. *)
Definition eq4 (a b : v4) : bool :=
  (if Req_EM_T (x4 a) (x4 b) then true else false) && (if Req_EM_T (y4 a) (y4 b) then true else false) &&
  (if Req_EM_T (z4 a) (z4 b) then true else false) && (if Req_EM_T (w4 a) (w4 b) then true else false).
Definition mat_eq (a b : mat) : bool := eq4 (col0 a) (col0 b) && eq4 (col1 a) (col1 b) && eq4 (col2 a) (col2 b) && eq4 (col3 a) (col3 b).
Definition mat_ne (a b : mat) : bool :=
  negb (eq4 (col0 a) (col0 b)) || negb (eq4 (col1 a) (col1 b)) || negb (eq4 (col2 a) (col2 b)) || negb (eq4 (col3 a) (col3 b)).

(** vmath.cpp:296-306, 319-345: the loops over the four columns, written out. *)
Definition mat_add (a b : mat) : mat := Mat (add4 (col0 a) (col0 b)) (add4 (col1 a) (col1 b)) (add4 (col2 a) (col2 b)) (add4 (col3 a) (col3 b)).
Definition mat_sub (a b : mat) : mat := Mat (sub4 (col0 a) (col0 b)) (sub4 (col1 a) (col1 b)) (sub4 (col2 a) (col2 b)) (sub4 (col3 a) (col3 b)).
Definition mat_add_s (a : mat) (s : R) : mat := let t := set1 s in Mat (add4 (col0 a) t) (add4 (col1 a) t) (add4 (col2 a) t) (add4 (col3 a) t).
Definition mat_sub_s (a : mat) (s : R) : mat := let t := set1 s in Mat (sub4 (col0 a) t) (sub4 (col1 a) t) (sub4 (col2 a) t) (sub4 (col3 a) t).
Definition mat_mul_s (a : mat) (s : R) : mat := let t := set1 s in Mat (mul4 (col0 a) t) (mul4 (col1 a) t) (mul4 (col2 a) t) (mul4 (col3 a) t).
Definition mat_div_s (a : mat) (s : R) : mat := let t := set1 s in Mat (div4 (col0 a) t) (div4 (col1 a) t) (div4 (col2 a) t) (div4 (col3 a) t).

(** vmath.cpp:308-317: column i of the product, from column i of the right factor. *)
Definition mul_col (a : mat) (c : v4) : v4 :=
  add4 (add4 (mul4 (set1 (x4 c)) (col0 a)) (mul4 (set1 (y4 c)) (col1 a)))
       (add4 (mul4 (set1 (z4 c)) (col2 a)) (mul4 (set1 (w4 c)) (col3 a))).
Definition mat_mul (a m : mat) : mat := Mat (mul_col a (col0 m)) (mul_col a (col1 m)) (mul_col a (col2 m)) (mul_col a (col3 m)).
(** vmath.cpp:357-361 *)
Definition mat_vec (a : mat) (v : v4) : v4 :=
  add4 (add4 (mul4 (col0 a) (set1 (x4 v))) (mul4 (col1 a) (set1 (y4 v))))
       (add4 (mul4 (col2 a) (set1 (z4 v))) (mul4 (col3 a) (set1 (w4 v)))).
(** vmath.cpp:363-368 *)
Definition mat_point (a : mat) (v : v3) : v3 :=
  xyz (add4 (add4 (mul4 (col0 a) (set1 (x3 v))) (mul4 (col1 a) (set1 (y3 v)))) (add4 (mul4 (col2 a) (set1 (z3 v))) (col3 a))).
(** vmath.cpp:370-375 *)
Definition mat_rotate (a : mat) (v : v3) : v3 :=
  xyz (add4 (add4 (mul4 (col0 a) (set1 (x3 v))) (mul4 (col1 a) (set1 (y3 v)))) (mul4 (col2 a) (set1 (z3 v)))).

(** ** The inverse, vmath.cpp:89-161 (27-85 is the same computation with SSE intrinsics). *)
Definition nth4 (a b : v4) (i : nat) : R :=
  match i with
  | 0%nat => x4 a | 1%nat => y4 a | 2%nat => z4 a | 3%nat => w4 a
  | 4%nat => x4 b | 5%nat => y4 b | 6%nat => z4 b | _ => w4 b
  end.
(** [__builtin_shufflevector] *)
Definition shuffle (a b : v4) (i j k l : nat) : v4 := V4 (nth4 a b i) (nth4 a b j) (nth4 a b k) (nth4 a b l).
(** [v.xwxw] and so on: x, y, z, w are 0, 1, 2, 3. *)
Definition sw (a : v4) (i j k l : nat) : v4 := shuffle a a i j k l.
Definition mat2_mul (a b : v4) : v4 := add4 (mul4 a (sw b 0 3 0 3)) (mul4 (sw a 1 0 3 2) (sw b 2 1 2 1)).      (* 91-93 *)
Definition mat2_adj_mul (a b : v4) : v4 := sub4 (mul4 (sw a 3 3 0 0) b) (mul4 (sw a 1 1 2 2) (sw b 2 3 0 1)).  (* 95-97 *)
Definition mat2_mul_adj (a b : v4) : v4 := sub4 (mul4 a (sw b 3 0 3 0)) (mul4 (sw a 1 0 3 2) (sw b 2 1 2 1)).  (* 99-101 *)
Definition hadd (v : v4) : v4 := let v0 := z4 v + w4 v in let v1 := x4 v + y4 v in V4 v1 v0 v1 v0.             (* 103-108 *)
(** Lines 116-145: the four scaled blocks and the determinant (all lanes equal). *)
Definition inverse_parts (m : mat) : v4 * v4 * v4 * v4 * v4 :=
  let A := shuffle (col0 m) (col1 m) 0 1 4 5 in
  let B := shuffle (col0 m) (col1 m) 2 3 6 7 in
  let C := shuffle (col2 m) (col3 m) 0 1 4 5 in
  let D := shuffle (col2 m) (col3 m) 2 3 6 7 in
  let E := shuffle (col0 m) (col2 m) 0 2 4 6 in
  let F := shuffle (col1 m) (col3 m) 1 3 5 7 in
  let G := shuffle (col0 m) (col2 m) 1 3 5 7 in
  let H := shuffle (col1 m) (col3 m) 0 2 4 6 in
  let detSub := sub4 (mul4 E F) (mul4 G H) in
  let detA := sw detSub 0 0 0 0 in
  let detB := sw detSub 1 1 1 1 in
  let detC := sw detSub 2 2 2 2 in
  let detD := sw detSub 3 3 3 3 in
  let D_C := mat2_adj_mul D C in
  let A_B := mat2_adj_mul A B in
  let X := sub4 (mul4 detD A) (mat2_mul B D_C) in
  let W := sub4 (mul4 detA D) (mat2_mul C A_B) in
  let detM := mul4 detA detD in
  let Y := sub4 (mul4 detB C) (mat2_mul_adj D A_B) in
  let Z := sub4 (mul4 detC B) (mat2_mul_adj A D_C) in
  let detM := add4 detM (mul4 detB detC) in
  let tr := mul4 A_B (sw D_C 0 2 1 3) in
  let tr := hadd tr in
  let tr := hadd tr in
  let detM := sub4 detM tr in
  (X, Y, Z, W, detM).
(** Lines 147-160 *)
Definition inverse (m : mat) : mat :=
  let '(X, Y, Z, W, detM) := inverse_parts m in
  let rDetM := div4 (V4 1 (-1) (-1) 1) detM in
  let X := mul4 X rDetM in
  let Y := mul4 Y rDetM in
  let Z := mul4 Z rDetM in
  let W := mul4 W rDetM in
  Mat (shuffle X Y 3 1 7 5) (shuffle X Y 2 0 6 4) (shuffle Z W 3 1 7 5) (shuffle Z W 2 0 6 4).

(** ** Constructors. *)
(** math.h:54-61 *)
Definition radians (a : R) : R := a * (PI / 180).
Definition degrees (a : R) : R := a * (180 / PI).
(** vmath.cpp:174-193; [ret] starts as [zero] and every other entry is written. *)
Definition look_at (pos at' up : v3) : mat :=
  let F := unit3 (sub3 at' pos) in
  let S := unit3 (cross3 F up) in
  let U := cross3 S F in
  Mat (V4 (x3 S) (x3 U) (- x3 F) 0) (V4 (y3 S) (y3 U) (- y3 F) 0) (V4 (z3 S) (z3 U) (- z3 F) 0)
      (V4 (- dot3 S pos) (- dot3 U pos) (dot3 F pos) 1).
(** vmath.cpp:195-201 *)
Definition scale (s : v3) : mat := Mat (V4 (x3 s) 0 0 0) (V4 0 (y3 s) 0 0) (V4 0 0 (z3 s) 0) (V4 0 0 0 1).
(** vmath.cpp:203-219 *)
Definition rotate (a : R) (axis : v3) : mat :=
  let c := cos (radians a) in
  let s := sin (radians a) in
  let n := unit3 axis in
  let temp := scale3 n (1 - c) in
  Mat (V4 (c + x3 temp * x3 n) (x3 temp * y3 n + s * z3 n) (x3 temp * z3 n - s * y3 n) 0)
      (V4 (y3 temp * x3 n - s * z3 n) (c + y3 temp * y3 n) (y3 temp * z3 n + s * x3 n) 0)
      (V4 (z3 temp * x3 n + s * y3 n) (z3 temp * y3 n - s * x3 n) (c + z3 temp * z3 n) 0)
      (V4 0 0 0 1).
(** vmath.cpp:221-225 *)
Definition translate (v : v3) : mat := Mat (V4 1 0 0 0) (V4 0 1 0 0) (V4 0 0 1 0) (V4 (x3 v) (y3 v) (z3 v) 1).
(** vmath.cpp:227-236 *)
Definition ortho (l r b t n f : R) : mat :=
  Mat (V4 (2 / (r - l)) 0 0 0) (V4 0 (2 / (t - b)) 0 0) (V4 0 0 (2 / (n - f)) 0)
      (V4 ((- l - r) / (r - l)) ((- b - t) / (t - b)) (- n / (f - n)) 1).
(** vmath.cpp:238-248 *)
Definition proj (fov ar n : R) : mat :=
  let f := 1 / tan (radians fov / 2) in
  Mat (V4 (f / ar) 0 0 0) (V4 0 (- f) 0 0) (V4 0 0 0 (-1)) (V4 0 0 n 0).
(** math.h:10 with limits.h:132-134: 16 * 2^-23. *)
Definition EPS_F : R := 16 * / 8388608.
(** vmath.cpp:250-264 *)
Definition rotate_y_to (dir : v3) : mat :=
  let d := unit3 dir in
  if Rlt_dec (Rabs (y3 d - 1)) EPS_F then mat_I
  else if Rlt_dec (Rabs (y3 d + 1)) EPS_F then Mat (V4 1 0 0 0) (V4 0 (-1) 0 0) (V4 0 0 1 0) (V4 0 0 0 1)
  else
    let x := unit3 (cross3 d (V3 0 1 0)) in
    let z := unit3 (cross3 x d) in
    Mat (ext x 0) (ext d 0) (ext z 0) (V4 0 0 0 1).
(** vmath.cpp:266-273; the unary minus overwrites only the local copy [_y]. *)
Definition rotate_z_to (dir : v3) : mat :=
  let y := rotate_y_to dir in
  Mat (col0 y) (col2 y) (sub4 (set1 0) (col1 y)) (col3 y).
