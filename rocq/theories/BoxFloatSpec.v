(** What boxes of f32 are asked for: their corners are real numbers, and a box is the set of points between them. *)
From Flocq Require Import IEEE754.BinarySingleNaN IEEE754.Binary IEEE754.Bits.
From Verif Require Import Base Mat4Model BBoxModel BBoxSpec BoxFloatModel.
From Coq Require Import Reals.
Open Scope R_scope.

Notation fin := (Binary.is_finite 24 128).
Notation val := (Binary.B2R 24 128).
Definition fin3 (p : pt) : Prop := fin (px p) = true /\ fin (py p) = true /\ fin (pz p) = true.
Definition val3 (p : pt) : v3 := V3 (val (px p)) (val (py p)) (val (pz p)).
Definition fin_box (b : fbox) : Prop := fin3 (lo b) /\ fin3 (hi b).
(** The box of real points. *)
Definition real (b : fbox) : bbox := BBox (val3 (lo b)) (val3 (hi b)).
(** [p] is a point of [b] that can be stored. *)
Definition holds (b : fbox) (p : pt) : Prop := fin3 p /\ inside (val3 p) (real b).
Definition fin_mat (t : fmat) : Prop :=
  Forall (fun c => fin (cx c) = true /\ fin (cy c) = true /\ fin (cz c) = true) [m0 t; m1 t; m2 t; m3 t].

(** What can be enclosed. *)
Inductive fthing := FPoint (p : pt) | FBoxed (b : fbox).
Definition fsound (t : fthing) : Prop := match t with FPoint p => fin3 p | FBoxed b => fin_box b /\ nonempty (real b) end.
Definition meant (t : fthing) : thing := match t with FPoint p => Point (val3 p) | FBoxed b => Box (real b) end.
Definition fenclose (b : fbox) (t : fthing) : fbox := match t with FPoint p => fenclose_point b p | FBoxed c => fenclose_box b c end.

(** A transformation without mixing: in each row at most one factor is not zero. *)
Definition unmixed_row (c : col4 -> binary32) (t : fmat) : Prop :=
  (val (c (m1 t)) = 0 /\ val (c (m2 t)) = 0) \/ (val (c (m0 t)) = 0 /\ val (c (m2 t)) = 0) \/ (val (c (m0 t)) = 0 /\ val (c (m1 t)) = 0).
Definition unmixed (t : fmat) : Prop := unmixed_row cx t /\ unmixed_row cy t /\ unmixed_row cz t.

Definition in_frect (q : pt) (r : (binary32 * binary32) * (binary32 * binary32)) : Prop :=
  within (val r.1.1) (val (px q)) (val r.2.1) /\ within (val r.1.2) (val (py q)) (val r.2.2).

(** Rounding errors: [a] is [b] up to [m]; [tiny] is eight times half the smallest positive float. *)
Definition tiny : R := / IZR (2 ^ 147).
Definition near (m a b : R) : Prop := Rabs (a - b) <= m.
(** The same matrix over the real numbers. *)
Definition rcol (c : col4) : v4 := V4 (val (cx c)) (val (cy c)) (val (cz c)) (val (cw c)).
Definition rmat (t : fmat) : mat := Mat (rcol (m0 t)) (rcol (m1 t)) (rcol (m2 t)) (rcol (m3 t)).
(** The largest sum of sizes that a row of [t] meets on points of [b]. *)
Definition far (l h : R) : R := Rmax (Rabs l) (Rabs h).
Definition reach (c : v4 -> R) (t : mat) (b : bbox) : R :=
  Rabs (c (col0 t)) * far (x3 (bmin b)) (x3 (bmax b)) + Rabs (c (col1 t)) * far (y3 (bmin b)) (y3 (bmax b)) + Rabs (c (col2 t)) * far (z3 (bmin b)) (z3 (bmax b)) + Rabs (c (col3 t)).
(** The error allowed in that row. *)
Definition slack (c : v4 -> R) (t : mat) (b : bbox) : R := reach c t b / IZR (2 ^ 21) + tiny.
