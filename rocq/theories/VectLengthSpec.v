(** Lengths of vectors of real numbers. *)
From Flocq Require Import IEEE754.BinarySingleNaN IEEE754.Binary IEEE754.Bits.
From Verif Require Import Base.
From Coq Require Import Reals List.
Open Scope R_scope.

Definition squares (l : list R) : R := fold_right (fun x s => x * x + s) 0 l.
Definition len (l : list R) : R := sqrt (squares l).
(** The real numbers that a vector of floats holds. *)
Definition reals (v : list binary32) : list R := map (Binary.B2R 24 128) v.
(** [k] units of 2^-24. *)
Definition ulps (k : R) : R := k / IZR (2 ^ 24).
(** Half the smallest positive float: what rounding to nearest may lose near zero. *)
Definition least_half : R := / IZR (2 ^ 150).
