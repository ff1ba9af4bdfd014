(** What "componentwise" means, without loops, arrays or lanes. *)
From stdpp Require Import prelude list.
From Verif Require Import Base.

(** [out] is the result of applying [op] to each pair of components of [a] and [b]: a vector of the
    same dimension whose every component is the scalar result, or undefined behaviour exactly because
    the scalar operation is undefined on some component. *)
Definition componentwise2 {T U V} (op : T -> U -> option V) (a : list T) (b : list U) (out : res (list V)) : Prop :=
  match out with
  | Ok r => length r = length a /\ forall i x y, a !! i = Some x -> b !! i = Some y -> exists z, op x y = Some z /\ r !! i = Some z
  | UB => exists i x y, a !! i = Some x /\ b !! i = Some y /\ op x y = None
  | Die | Diverge => False
  end.
Definition componentwise {T V} (op : T -> option V) (a : list T) (out : res (list V)) : Prop :=
  match out with
  | Ok r => length r = length a /\ forall i x, a !! i = Some x -> exists z, op x = Some z /\ r !! i = Some z
  | UB => exists i x, a !! i = Some x /\ op x = None
  | Die | Diverge => False
  end.

(** x1*y1 + x2*y2 + ... from the left, starting at [z]; undefined if a step is. *)
Fixpoint sum_products {T} (add mul : T -> T -> option T) (z : T) (l : list (T * T)) : option T :=
  match l with
  | [] => Some z
  | (x, y) :: l' => match mul x y with Some p => match add z p with Some z' => sum_products add mul z' l' | None => None end | None => None end
  end.

(** A strict order in which any two elements are comparable up to [lt]-indifference, as [<] is on
    integers and on floats other than NaN. *)
Definition weak_order {T} (P : T -> Prop) (lt : T -> T -> bool) : Prop :=
  (forall x, P x -> lt x x = false) /\
  (forall x y z, P x -> P y -> P z -> lt x y = true -> lt y z = true -> lt x z = true) /\
  (forall x y z, P x -> P y -> P z -> lt x y = false -> lt y z = false -> lt x z = false).
