(** What is asked of matrices of f32: their entries, and how far they may be from the entries of the matrices of real numbers.
    [product] and [same] of Mat4Spec.v are textbook linear algebra; [tiny] is four times the smallest positive float. *)
From Flocq Require Import Core IEEE754.BinarySingleNaN IEEE754.Binary IEEE754.Bits.
From Verif Require Import Base F32 Mat4Spec BoxFloatModel BoxFloatSpec.
From Coq Require Import Reals.
Open Scope R_scope.

(** The entry in row [r] and column [c]: [m[c][r]]. *)
Definition the (k : nat) {A} (a b c d : A) : A := match k with 0%nat => a | 1%nat => b | 2%nat => c | _ => d end.
Definition lane4 (v : col4) (r : nat) : binary32 := the r (cx v) (cy v) (cz v) (cw v).
Definition fentry (m : fmat) (r c : nat) : binary32 := lane4 (the c (m0 m) (m1 m) (m2 m) (m3 m)) r.
Definition lane3 (p : pt) (r : nat) : binary32 := the r (px p) (py p) (pz p) (pz p).
(** The matrix and vectors of real numbers.  A point has 1 as its fourth coordinate and a direction 0. *)
Definition rentry (m : fmat) (r c : nat) : R := val (fentry m r c).
Definition rlane (v : col4) (k : nat) : R := val (lane4 v k).
Definition rpoint (p : pt) (k : nat) : R := the k (val (px p)) (val (py p)) (val (pz p)) 1.
Definition rdir (p : pt) (k : nat) : R := the k (val (px p)) (val (py p)) (val (pz p)) 0.
Definition apply (A : nat -> nat -> R) (v : nat -> R) (r : nat) : R := sum 4 (fun k => A r k * v k).
Definition sizes (A : nat -> nat -> R) (r c : nat) : R := Rabs (A r c).
Definition sizes1 (v : nat -> R) (k : nat) : R := Rabs (v k).

Definition all_fin (m : fmat) : Prop := forall r c, fin (fentry m r c) = true.
Definition fin_col (v : col4) : Prop := forall r, fin (lane4 v r) = true.
(** [x] is the float nearest to [r], ties to even. *)
Definition rounded (x : binary32) (r : R) : Prop := val x = round radix2 (FLT_exp (-149) 24) ZnearestE r.
(** [x] is finite and stands for [r]. *)
Definition is (x : binary32) (r : R) : Prop := fin x = true /\ val x = r.
(** The matrix that moves by [- t]. *)
Definition back (t : pt) (r c : nat) : R := if (r <? 3)%nat && (c =? 3)%nat then - val (lane3 t r) else identity r c.
(** The matrix that scales by the reciprocals. *)
Definition unscale (s : pt) (r c : nat) : R := if (r =? c)%nat then the r (/ val (px s)) (/ val (py s)) (/ val (pz s)) 1 else 0.
(** [x] is between 2^m and 2^n in size. *)
Definition span (m n : Z) (x : R) : Prop := bpow radix2 m <= Rabs x <= bpow radix2 n.
(** The entries are integers of size at most 28. *)
Definition small_ints (m : fmat) : Prop := forall r c, (r < 4)%nat -> (c < 4)%nat -> fin (fentry m r c) = true /\ exists z, rentry m r c = IZR z /\ (Z.abs z <= 28)%Z.
