(** Model of BBox (rpp/vmath.h:775-866) in exact arithmetic; see Mat4Model.v for what that leaves
    out. *)
From Verif Require Import Base Mat4Model.
From Coq Require Import Reals.
Open Scope R_scope.

(** Limits<f32>::max() and min(), limits.h:118-146: the largest finite f32 and its negative. *)
Definition FLT_MAX : R := IZR ((2 ^ 24 - 1) * 2 ^ 104).
Definition FLT_MIN : R := - FLT_MAX.

(** 775-778, 864: [min] and [max] of a box. *)
Record bbox := BBox { bmin : v3; bmax : v3 }.
Definition splat3 (s : R) : v3 := V3 s s s.
Definition bbox_new : bbox := BBox (splat3 FLT_MAX) (splat3 FLT_MIN).
(** 790-793 *)
Definition bbox_reset (b : bbox) : bbox := BBox (splat3 FLT_MAX) (splat3 FLT_MIN).

(** Math::min, Math::max on f32 (math.h:29-43): [a < b ? a : b], [a > b ? a : b]; on Vec3 lane by
    lane (vmath.h:506-532). *)
Definition rmin (a b : R) : R := if Rlt_dec a b then a else b.
Definition rmax (a b : R) : R := if Rlt_dec b a then a else b.
Definition min3 (a b : v3) : v3 := V3 (rmin (x3 a) (x3 b)) (rmin (y3 a) (y3 b)) (rmin (z3 a) (z3 b)).
Definition max3 (a b : v3) : v3 := V3 (rmax (x3 a) (x3 b)) (rmax (y3 a) (y3 b)) (rmax (z3 a) (z3 b)).
(** 795-802 *)
Definition enclose_point (b : bbox) (p : v3) : bbox := BBox (min3 (bmin b) p) (max3 (bmax b) p).
Definition enclose_box (b c : bbox) : bbox := BBox (min3 (bmin b) (bmin c)) (max3 (bmax b) (bmax c)).
(** 804-816 *)
Definition center (b : bbox) : v3 := scale3 (add3 (bmin b) (bmax b)) (1 / 2).
Definition rgt (a b : R) : bool := if Rlt_dec b a then true else false.
Definition empty (b : bbox) : bool := rgt (x3 (bmin b)) (x3 (bmax b)) || rgt (y3 (bmin b)) (y3 (bmax b)) || rgt (z3 (bmin b)) (z3 (bmax b)).
Definition surface_area (b : bbox) : R :=
  if empty b then 0
  else let e := sub3 (bmax b) (bmin b) in 2 * (x3 e * z3 e + x3 e * y3 e + y3 e * z3 e).

(** Vec3::operator[] (vmath.h:77-82): no check. *)
Definition lane3 (v : v3) (j : nat) : res R := match j with 0%nat => Ok (x3 v) | 1%nat => Ok (y3 v) | 2%nat => Ok (z3 v) | _ => UB end.
Definition set_lane3 (v : v3) (j : nat) (r : R) : res v3 :=
  match j with 0%nat => Ok (V3 r (y3 v) (z3 v)) | 1%nat => Ok (V3 (x3 v) r (z3 v)) | 2%nat => Ok (V3 (x3 v) (y3 v) r) | _ => UB end.
(** [v[i] += r] *)
Definition bump (v : v3) (i : nat) (r : R) : res v3 := o ← lane3 v i; set_lane3 v i (o + r).
(** 818-833 *)
Definition transform (b : bbox) (T : mat) : res bbox :=
  let amin := bmin b in
  let amax := bmax b in
  c3 ← col T 3;
  let start := V3 (x4 c3) (y4 c3) (z4 c3) in
  for_ 3 0 (fun i b => for_ 3 0 (fun j b =>
    t ← at_ T j i;
    lo ← lane3 amin j;
    hi ← lane3 amax j;
    let a := t * lo in
    let c := t * hi in
    if Rlt_dec a c then m ← bump (bmin b) i a; M ← bump (bmax b) i c; Ok (BBox m M)
    else m ← bump (bmin b) i c; M ← bump (bmax b) i a; Ok (BBox m M)) b) (BBox start start).

(** 835-863.  Vec2 is a pair. *)
Definition min2 (a b : R * R) : R * R := (rmin a.1 b.1, rmin a.2 b.2).
Definition max2 (a b : R * R) : R * R := (rmax a.1 b.1, rmax a.2 b.2).
Definition corners (b : bbox) : list v3 :=
  let m := bmin b in
  let M := bmax b in
  [V3 (x3 m) (y3 m) (z3 m); V3 (x3 M) (y3 m) (z3 m); V3 (x3 m) (y3 M) (z3 m);
   V3 (x3 m) (y3 m) (z3 M); V3 (x3 M) (y3 M) (z3 m); V3 (x3 m) (y3 M) (z3 M);
   V3 (x3 M) (y3 m) (z3 M); V3 (x3 M) (y3 M) (z3 M)].
Record projst := PS { p_min : R * R; p_max : R * R; p_part : bool; p_all : bool }.
Definition proj_step (P : mat) (s : projst) (v : v3) : projst :=
  let p := mat_point P v in
  let '(part, all) := if Rlt_dec (z3 p) 0 then (true, p_all s) else (p_part s, false) in
  PS (min2 (p_min s) (x3 p, y3 p)) (max2 (p_max s) (x3 p, y3 p)) part all.
Definition project (b : bbox) (P : mat) : (R * R) * (R * R) :=
  let s := fold_left (proj_step P) (corners b) (PS (FLT_MAX, FLT_MAX) (FLT_MIN, FLT_MIN) false true) in
  if p_part s && negb (p_all s) then ((-1, -1), (1, 1))
  else if p_all s then ((0, 0), (0, 0))
  else (p_min s, p_max s).
