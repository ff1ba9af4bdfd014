(** Specification vocabulary for the integer math functions, in terms of
    divisibility and order on Z only. *)
From Coq Require Import ZArith List.
Open Scope Z_scope.

Definition power_of_2 (y : Z) : Prop := exists k, 0 <= k /\ y = 2 ^ k.
Definition least_power_of_2 (x y : Z) : Prop :=
  power_of_2 y /\ x <= y /\ forall z, power_of_2 z -> x <= z -> y <= z.
Definition greatest_power_of_2 (x y : Z) : Prop :=
  power_of_2 y /\ y <= x /\ forall z, power_of_2 z -> z <= x -> z <= y.
Definition least_multiple (a x y : Z) : Prop :=
  (a | y) /\ x <= y /\ forall z, (a | z) -> x <= z -> y <= z.
Definition greatest_multiple (a x y : Z) : Prop :=
  (a | y) /\ y <= x /\ forall z, (a | z) -> z <= x -> z <= y.
(** x is the sum of the distinct powers of two whose exponents are listed. *)
Definition binary_expansion (x : Z) (l : list Z) : Prop :=
  NoDup l /\ Forall (fun i => 0 <= i) l /\ x = fold_right (fun i s => 2 ^ i + s) 0 l.

Record strict_weak_order {T} (lt : T -> T -> bool) : Prop := {
  swo_irrefl : forall a, lt a a = false;
  swo_trans : forall a b c, lt a b = true -> lt b c = true -> lt a c = true;
  swo_negtrans : forall a b c, lt a b = false -> lt b c = false -> lt a c = false }.
Close Scope Z_scope.
