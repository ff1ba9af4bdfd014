(** BBox (rpp/vmath.h:775-866) and the Mat4 products it needs (rpp/impl/vmath.cpp:357-371) on f32, with every rounding.

    Floats are Flocq's [binary32].  Simplification: the compiler does not contract [a * b + c] into one rounding. *)
From Flocq Require Import IEEE754.BinarySingleNaN IEEE754.Binary IEEE754.Bits.
From Verif Require Import Base Word F32 VectModel FloatModel.

(** Vec3 and the columns of Mat4 *)
Record pt := Pt { px : binary32; py : binary32; pz : binary32 }.
Record col4 := C4 { cx : binary32; cy : binary32; cz : binary32; cw : binary32 }.
Record fmat := FMat { m0 : col4; m1 : col4; m2 : col4; m3 : col4 }.
Definition lanes3 (f : binary32 -> binary32 -> binary32) (a b : pt) : pt := Pt (f (px a) (px b)) (f (py a) (py b)) (f (pz a) (pz b)).
Definition all3 (s : binary32) : pt := Pt s s s.

(** limits.h:118-146: Limits<f32>::max() and min() are the largest finite f32 and its negative. *)
Definition f_max : binary32 := b32_of_bits 2139095039.
Definition f_min : binary32 := b32_of_bits 4286578687.
Definition f_half : binary32 := b32_of_bits 1056964608.

Record fbox := FBox { lo : pt; hi : pt }.
(** 777-778, 789-792 *)
Definition fbox_new : fbox := FBox (all3 f_max) (all3 f_min).
Definition fbox_reset (b : fbox) : fbox := FBox (all3 f_max) (all3 f_min).
(** 794-801; Math::min and max of Vec3 (506-532) are those of each lane *)
Definition fenclose_point (b : fbox) (p : pt) : fbox := FBox (lanes3 fmin2 (lo b) p) (lanes3 fmax2 (hi b) p).
Definition fenclose_box (b c : fbox) : fbox := FBox (lanes3 fmin2 (lo b) (lo c)) (lanes3 fmax2 (hi b) (hi c)).
(** 803-805 *)
Definition fcenter (b : fbox) : pt := lanes3 fmul (lanes3 fadd (lo b) (hi b)) (all3 f_half).
(** 807-809 *)
Definition fempty (b : fbox) : bool := f32_lt (px (hi b)) (px (lo b)) || f32_lt (py (hi b)) (py (lo b)) || f32_lt (pz (hi b)) (pz (lo b)).
(** 811-815 *)
Definition fsurface_area (b : fbox) : binary32 :=
  if fempty b then f0
  else
    let e := lanes3 fsub (hi b) (lo b) in
    fmul f2 (fadd (fadd (fmul (px e) (pz e)) (fmul (px e) (py e))) (fmul (py e) (pz e))).

(** vmath.cpp:364-371: Mat4 * Vec3, one lane of the packed sum *)
Definition point_lane (c : col4 -> binary32) (t : fmat) (v : pt) : binary32 :=
  fadd (fadd (fmul (c (m0 t)) (px v)) (fmul (c (m1 t)) (py v))) (fadd (fmul (c (m2 t)) (pz v)) (c (m3 t))).
Definition fmat_point (t : fmat) (v : pt) : pt := Pt (point_lane cx t v) (point_lane cy t v) (point_lane cz t v).

(** 817-833: the inner loop for one row [i]; the outer loop does the rows one after the other, and they are independent *)
Definition widen (s : binary32 * binary32) (x : binary32 * binary32 * binary32) : binary32 * binary32 :=
  let '(mn, mx) := s in
  let '(t, l, h) := x in
  let a := fmul t l in
  let b := fmul t h in
  if f32_lt a b then (fadd mn a, fadd mx b) else (fadd mn b, fadd mx a).
Definition row (c : col4 -> binary32) (b : fbox) (t : fmat) : binary32 * binary32 :=
  fold_left widen [(c (m0 t), px (lo b), px (hi b)); (c (m1 t), py (lo b), py (hi b)); (c (m2 t), pz (lo b), pz (hi b))] (c (m3 t), c (m3 t)).
Definition ftransform (b : fbox) (t : fmat) : fbox :=
  let '(x0, x1) := row cx b t in
  let '(y0, y1) := row cy b t in
  let '(z0, z1) := row cz b t in
  FBox (Pt x0 y0 z0) (Pt x1 y1 z1).

(** 835-863; Vec2 is a pair *)
Definition fcorners (b : fbox) : list pt :=
  let m := lo b in
  let M := hi b in
  [Pt (px m) (py m) (pz m); Pt (px M) (py m) (pz m); Pt (px m) (py M) (pz m); Pt (px m) (py m) (pz M);
   Pt (px M) (py M) (pz m); Pt (px m) (py M) (pz M); Pt (px M) (py m) (pz M); Pt (px M) (py M) (pz M)].
Record fproj := FP { f_lo : binary32 * binary32; f_hi : binary32 * binary32; f_part : bool; f_all : bool }.
Definition fproj_step (P : fmat) (s : fproj) (v : pt) : fproj :=
  let p := fmat_point P v in
  let '(part, all) := if f32_lt (pz p) f0 then (true, f_all s) else (f_part s, false) in
  FP (fmin2 (fst (f_lo s)) (px p), fmin2 (snd (f_lo s)) (py p)) (fmax2 (fst (f_hi s)) (px p), fmax2 (snd (f_hi s)) (py p)) part all.
Definition fproject (b : fbox) (P : fmat) : (binary32 * binary32) * (binary32 * binary32) :=
  let s := fold_left (fproj_step P) (fcorners b) (FP (f_max, f_max) (f_min, f_min) false true) in
  if f_part s && negb (f_all s) then ((fm1, fm1), (f1, f1))
  else if f_all s then ((f0, f0), (f0, f0))
  else (f_lo s, f_hi s).
