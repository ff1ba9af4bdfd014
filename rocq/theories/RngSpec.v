(** What the properties of RNG and swap say, independently of the code. *)
From Verif Require Import Word RngModel.

(** Move construction and move assignment hand over the value; what they leave behind is unspecified. *)
Definition moves {V} (m : movable V) : Prop :=
  (forall v, (construct m v).1 = v) /\ (forall d s, (assign m d s).1 = s).
(** [l] with the elements at [i] and [j] exchanged *)
Definition exchanged {V} (i j : nat) (l l' : list V) : Prop :=
  length l' = length l /\ l' !! i = l !! j /\ l' !! j = l !! i /\ forall k, k <> i -> k <> j -> l' !! k = l !! k.
(** Numbers a generator may return *)
Definition u64s (draw : nat -> Z) : Prop := forall i, (0 <= draw i < 2 ^ 64)%Z.
