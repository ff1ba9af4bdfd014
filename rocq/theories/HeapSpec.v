(** What a Heap is supposed to be: a bag of values whose least member can be
    looked at and removed. *)
From Verif Require Import Base VecModel HeapModel.

Section spec.
  Context {T : Type}.

  (** No element of the bag is below [x]. *)
  Definition least (ltb : T -> T -> bool) (x : T) (bag : list T) : Prop :=
    x ∈ bag /\ forall y, y ∈ bag -> ltb y x = false.

  (** [bag_step is_min bag op bag' answer destroyed]: bags are lists up to
      permutation; [is_min x bag] says which member top() and pop() may pick. *)
  Inductive bag_step (is_min : T -> list T -> Prop) (bag : list T) :
      heap_op T -> list T -> vec_out T -> list T -> Prop :=
  | bag_push x bag' : bag' ≡ₚ x :: bag -> bag_step is_min bag (HPush x) bag' VUnit []
  | bag_pop x bag' : is_min x bag -> bag ≡ₚ x :: bag' -> bag_step is_min bag HPop bag' VUnit [x]
  | bag_top x : is_min x bag -> bag_step is_min bag HTop bag (VVal x) []
  | bag_clear ds : ds ≡ₚ bag -> bag_step is_min bag HClear [] VUnit ds
  | bag_reserve n : bag_step is_min bag (HReserve n) bag VUnit []
  | bag_grow : bag_step is_min bag HGrow bag VUnit []
  | bag_replace ds : ds ≡ₚ bag -> bag_step is_min bag HReplaceByClone bag VUnit ds
  | bag_length : bag_step is_min bag HLength bag (VNat (length bag)) []
  | bag_empty : bag_step is_min bag HEmpty bag (VBool (bool_decide (bag = []))) []
  | bag_iterate l : l ≡ₚ bag -> bag_step is_min bag HIterate bag (VList l) [].

  Inductive bag_run (is_min : T -> list T -> Prop) :
      list T -> list (heap_op T) -> list T -> list (vec_out T) -> list T -> Prop :=
  | bag_run_nil bag bag' : bag' ≡ₚ bag -> bag_run is_min bag [] bag' [] []
  | bag_run_cons bag o os bag1 out ds bag2 outs ds' :
      bag_step is_min bag o bag1 out ds -> bag_run is_min bag1 os bag2 outs ds' ->
      bag_run is_min bag (o :: os) bag2 (out :: outs) (ds ++ ds').

  (** The contract, by length alone: pop() on an empty heap stops the program;
      top() on an empty heap is undefined (heap.h:176-181 has no check). *)
  Fixpoint heap_contract (n : nat) (os : list (heap_op T)) : res unit :=
    match os with
    | [] => Ok tt
    | HPush _ :: os' => heap_contract (S n) os'
    | HPop :: os' => match n with 0 => Die | S n' => heap_contract n' os' end
    | HTop :: os' => match n with 0 => UB | S _ => heap_contract n os' end
    | HClear :: os' => heap_contract 0 os'
    | _ :: os' => heap_contract n os'
    end.

  (** No later element is below an earlier one. *)
  Definition sorted_by (ltb : T -> T -> bool) (l : list T) : Prop :=
    forall i j x y, i < j -> l !! i = Some x -> l !! j = Some y -> ltb y x = false.
End spec.
