(** What is true of the allocations, from the calls of alloc and free alone. *)
From Verif Require Import Base ProfAllocModel.
Open Scope Z_scope.

Definition block : Type := nat * Z * Z. (* allocator, address, size *)
Definition owner (b : block) : nat := fst (fst b).
Definition address (b : block) : Z := snd (fst b).
Definition size (b : block) : Z := snd b.
(** The blocks that were given and not returned *)
Definition after (bs : list block) (e : ev) : list block :=
  match e with
  | Given n x sz => (n, x, sz) :: bs
  | Returned n x => filter (fun b => ~ (owner b = n /\ address b = x)) bs
  end.
Definition live (h : list ev) : list block := foldl after [] h.
(** A program only returns what it has, to the allocator it got it from *)
Definition legal (h : list ev) : Prop := forall pre n x post, h = pre ++ Returned n x :: post -> exists sz, (n, x, sz) ∈ live pre.

Definition bytes (bs : list block) : Z := foldr (fun b s => size b + s) 0 bs.
Definition of_name (n : nat) (bs : list block) : list block := filter (fun b => owner b = n) bs.
Definition live_bytes (n : nat) (h : list ev) : Z := bytes (of_name n (live h)).
Definition given (n : nat) (h : list ev) : list Z := omap (fun e => match e with Given m _ sz => if decide (m = n) then Some sz else None | _ => None end) h.
Definition returned (n : nat) (h : list ev) : list Z := omap (fun e => match e with Returned m x => if decide (m = n) then Some x else None | _ => None end) h.
Definition count {A} (l : list A) : Z := Z.of_nat (length l).
Definition sum (l : list Z) : Z := foldr Z.add 0 l.
(** The most bytes that were ever live *)
Definition peak (n : nat) (h : list ev) : Z := foldr Z.max 0 (map (fun k => live_bytes n (take k h)) (seq 0 (S (length h)))).
(** What fits in the counters *)
Definition in_range (h : list ev) : Prop := forall n, sum (given n h) < 2 ^ 63 /\ count h < 2 ^ 63.
Definition sizes_ok (ls : list label) : Prop := forall t n sz x, Alloc t n sz x ∈ ls -> 0 <= sz < 2 ^ 64.
Close Scope Z_scope.
