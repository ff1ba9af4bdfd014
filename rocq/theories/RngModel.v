(** rpp/rng.h, RNG::Stream, and rpp/utility.h:630-642, swap. *)
From Verif Require Import Word MathModel HashModel F32.
From Flocq Require Import IEEE754.BinarySingleNaN IEEE754.Binary IEEE754.Bits.
Open Scope Z_scope.

(** rng.h:16-19: the new state, which is also the number returned *)
Definition next (state : Z) : Z := hash_int state.
(** The numbers a stream returns: the [i]-th call of operator(), counted from 0, after [seed(state)]
    (rng.h:11-12, 24-26) *)
Definition output (state : Z) (i : nat) : Z := Nat.iter (S i) next state.
(** rng.h:21-23: [id] is what Thread::this_id() returns, [time] what Log::sys_time() returns *)
Definition seed_of (id time : Z) : Z := hash_many [hash_int (hash_int id); hash_int (hash_int time)].

(** static_cast to an integer type: modular since C++20 *)
Definition cast (t : int_ty) (x : Z) : Z := if signed t then to_signed (width t) x else wrap (width t) x.
(** [a op b] of two values of type [t], stored in a [t] again: what is narrower than int is promoted to int first;
    [r] is the exact result.  Signed overflow is undefined. *)
Definition arith (t : int_ty) (r : Z) : res Z :=
  match t with
  | U32 | U64 => Ok (wrap (width t) r)
  | I32 | I64 => if in_tyb t r then Ok r else UB
  | _ => if in_tyb I32 r then Ok (cast t r) else UB
  end.
(** [a % b] of two values of type [t]: truncating; undefined for a zero divisor and when the quotient overflows.
    Not stored, so not converted back: the result's type is the promoted one. *)
Definition rem (t : int_ty) (a b : Z) : res Z :=
  if b =? 0 then UB else
  match t with I32 | I64 => if in_tyb t (Z.quot a b) then Ok (Z.rem a b) else UB | _ => Ok (Z.rem a b) end.
(** rng.h:53-56; [x] is what operator() returns *)
Definition integer (t : int_ty) (x : Z) : Z := cast t x.
(** rng.h:58-62 *)
Definition range (t : int_ty) (x min max : Z) : res Z :=
  r ← arith t (max - min);
  m ← rem t (cast t x) r;
  arith t (min + m).

(** rng.h:31-32: the literal 1e-24f *)
Definition ten_m24 : binary32 := b32_of_bits 0x179ABE15.
(** rng.h:35-36: the literal 1e-53 *)
Definition ten_m53 : binary64 := b64_of_bits 0x34EEA6608E29B24D.
Definition f64_of_Z (z : Z) : binary64 := binary_normalize 53 1024 eq_refl eq_refl mode_NE z 0 false.
(** rng.h:28-38; [x] is what operator() returns *)
Definition unit32 (x : Z) : binary32 := f32_mul (f32_of_Z (Z.shiftr x 40)) ten_m24.
Definition unit64 (x : Z) : binary64 := b64_mult mode_NE (f64_of_Z (Z.shiftr x 11)) ten_m53.
(** rng.h:40-43 *)
Definition f32_lt (a b : binary32) : bool := match Bcompare 24 128 a b with Some Lt => true | _ => false end.
Definition f64_lt (a b : binary64) : bool := match Bcompare 53 1024 a b with Some Lt => true | _ => false end.
Definition coin_flip32 (x : Z) (p : binary32) : bool := f32_lt (unit32 x) p.
Definition coin_flip64 (x : Z) (p : binary64) : bool := f64_lt (unit64 x) p.

(** What swap needs to know of a type: the move constructor (the new object and what is left of the source), move
    assignment (likewise, given also the target), move assignment of an object to itself. *)
Record movable (V : Type) := Movable {
  trivial : bool;                  (* Trivially_Movable: moving copies the bytes *)
  construct : V -> V * V;
  assign : V -> V -> V * V;
  self_assign : V -> V
}.
Arguments trivial {V}. Arguments construct {V}. Arguments assign {V}. Arguments self_assign {V}.
(** rpp/utility.h:630-642 on the objects with the addresses [i] and [j], which may be equal.  The result also has
    what is left in the temporary when it is destroyed.  memcpy of an object onto itself is taken to leave it alone. *)
Definition swap {V} (m : movable V) (i j : nat) (mem : list V) : res (list V * option V) :=
  let get k mem := match mem !! k with Some x => Ok x | None => UB end in
  if trivial m then
    tmp ← get i mem;
    b ← get j mem; let mem := <[i := b]> mem in
    Ok (<[j := tmp]> mem, None)
  else
    a ← get i mem;
    let '(tmp, a) := construct m a in
    let mem := <[i := a]> mem in
    mem ← (if decide (i = j) then a ← get i mem; Ok (<[i := self_assign m a]> mem)
           else a ← get i mem; b ← get j mem; let '(a, b) := assign m a b in Ok (<[j := b]> (<[i := a]> mem)));
    b ← get j mem;
    let '(b, tmp) := assign m b tmp in
    Ok (<[j := b]> mem, Some tmp).

(** rng.h:45-51 on a Vec of length [length v]; [draw] is the sequence of numbers operator() returns.  [i] counts
    up; indexing past the end dies. *)
Fixpoint shuffle_from {V} (m : movable V) (draw : nat -> Z) (fuel : nat) (i : Z) (v : list V) : res (list V) :=
  if i <? wrap 64 (Z.of_nat (length v) - 1) then
    match fuel with
    | O => Diverge
    | S fuel =>
        j ← range U64 (draw (Z.to_nat i)) i (Z.of_nat (length v));
        assert_ (i <? Z.of_nat (length v));;
        assert_ (j <? Z.of_nat (length v));;
        '(v, _) ← swap m (Z.to_nat i) (Z.to_nat j) v;
        shuffle_from m draw fuel (wrap 64 (i + 1)) v
    end
  else Ok v.
Definition shuffle {V} (m : movable V) (draw : nat -> Z) (v : list V) : res (list V) :=
  shuffle_from m draw (S (length v)) 0 v.
Close Scope Z_scope.
