(** Linear algebra, independently of how Mat4 stores or computes anything.  A matrix is the function
    from (row, column) to its entry. *)
From Coq Require Import Reals Arith.
Open Scope R_scope.

Fixpoint sum (n : nat) (f : nat -> R) : R := match n with O => 0 | S n' => sum n' f + f n' end.
(** Row times column. *)
Definition product (A B : nat -> nat -> R) (r c : nat) : R := sum 4 (fun k => A r k * B k c).
Definition identity (r c : nat) : R := if Nat.eqb r c then 1 else 0.
(** The determinant, by expansion along the first row. *)
Fixpoint det (n : nat) (A : nat -> nat -> R) : R :=
  match n with
  | O => 1
  | S n' => sum n (fun c => (-1) ^ c * A O c * det n' (fun i j => A (S i) (if Nat.ltb j c then j else S j)))
  end.
(** Two matrices agree on the rows and columns that exist. *)
Definition same (A B : nat -> nat -> R) : Prop := forall r c, (r < 4)%nat -> (c < 4)%nat -> A r c = B r c.
