(** Model of the integer part of rpp/math.h and rpp/impl/math.cpp.

    The u32 and u64 overloads have the same text; the model is parametric in
    the width [w].  The floating point functions that forward to libm
    (math.h:76-107, impl/math.cpp:8-107) are not modelled. *)
From Verif Require Import Word.
From Coq Require Import QArith.
Open Scope Z_scope.

(** ** impl/math.cpp:115-129.  [__builtin_popcount]: the number of one bits,
    counted bit by bit. *)
Fixpoint popcount_bits (x : Z) (n : nat) : Z :=
  match n with
  | O => 0
  | S n' => (if Z.testbit x (Z.of_nat n') then 1 else 0) + popcount_bits x n'
  end.
Definition popcount (w x : Z) : Z := popcount_bits x (Z.to_nat w).

(** impl/math.cpp:131-147.  [__builtin_clz] counts zero bits from the top; it
    is only called for x <> 0, zero is answered with the width. *)
Fixpoint clz_bits (x : Z) (n : nat) : Z :=
  match n with
  | O => 0
  | S n' => if Z.testbit x (Z.of_nat n') then 0 else 1 + clz_bits x n'
  end.
Definition ctlz (w x : Z) : Z :=
  if x =? 0 then w else clz_bits x (Z.to_nat w).

(** impl/math.cpp:149-154 *)
Definition log2 (w x : Z) : Z := wrap w (w - 1 - ctlz w x).

(** [a << b] on w-bit unsigned values; a shift by the width or more is
    undefined. *)
Definition shl (w a b : Z) : res Z :=
  if b <? w then Ok (wrap w (a * 2 ^ b)) else UB.

(** impl/math.cpp:156-163 *)
Definition prev_pow2 (w x : Z) : res Z :=
  if x =? 0 then Ok 0 else shl w 1 (log2 w x).

(** impl/math.cpp:165-172 *)
Definition next_pow2 (w x : Z) : res Z :=
  prev ← prev_pow2 w x;
  if x =? prev then Ok x else shl w prev 1.

(** ** Alignment.  [~a] on w-bit values is [2^w - 1 - a]. *)
Definition bnot (w a : Z) : Z := 2 ^ w - 1 - a.

(** math.h:141-146 *)
Definition align_down_pow2 (w x a : Z) : Z := Z.land x (bnot w (wrap w (a - 1))).
(** math.h:157-162 *)
Definition align_pow2 (w x a : Z) : Z :=
  Z.land (wrap w (x + a - 1)) (bnot w (wrap w (a - 1))).

(** math.h:148-155; [x % 0] is undefined. *)
Definition align_down (w x a : Z) : res Z :=
  if a =? 0 then UB else
  let r := x mod a in Ok (if r =? 0 then x else wrap w (x - r)).
(** math.h:164-171 *)
Definition align (w x a : Z) : res Z :=
  if a =? 0 then UB else
  let r := x mod a in Ok (if r =? 0 then x else wrap w (x + wrap w (a - r))).

(** ** math.h:44-52 *)
Definition KB (n : Z) : Z := wrap 64 (n * 1024).
Definition MB (n : Z) : Z := wrap 64 (n * KB 1024).
Definition GB (n : Z) : Z := wrap 64 (n * MB 1024).

(** ** Integer power, math.h:63-74, for each integer type. *)
Inductive int_ty := I8 | I16 | I32 | I64 | U8 | U16 | U32 | U64.
Definition width (t : int_ty) : Z :=
  match t with I8 | U8 => 8 | I16 | U16 => 16 | I32 | U32 => 32 | I64 | U64 => 64 end.
Definition signed (t : int_ty) : bool :=
  match t with I8 | I16 | I32 | I64 => true | _ => false end.
Definition in_ty (t : int_ty) (x : Z) : Prop :=
  if signed t then is_i (width t) x else is_u (width t) x.
Definition in_tyb (t : int_ty) (x : Z) : bool :=
  if signed t then (- 2 ^ (width t - 1) <=? x) && (x <? 2 ^ (width t - 1))
  else (0 <=? x) && (x <? 2 ^ width t).

(** [a *= b]: operands narrower than int are promoted to int (i32), the
    product is computed there and converted back; signed overflow in the type
    the product is computed in is undefined. *)
Definition mul_assign (t : int_ty) (a b : Z) : res Z :=
  match t with
  | U32 | U64 => Ok (wrap (width t) (a * b))
  | I32 | I64 => if in_tyb t (a * b) then Ok (a * b) else UB
  | U8 | U16 => if in_tyb I32 (a * b) then Ok (wrap (width t) (a * b)) else UB
  | I8 | I16 => if in_tyb I32 (a * b) then Ok (to_signed (width t) (a * b)) else UB
  end.

(** The loop of math.h:66-72; [exp >>= 1] is arithmetic, so [Z.shiftr]. *)
Fixpoint pow_loop (t : int_ty) (fuel : nat) (result base exp : Z) : res Z :=
  if exp =? 0 then Ok result else
  match fuel with
  | O => Diverge
  | S fuel' =>
      result' ← (if Z.testbit exp 0 then mul_assign t result base else Ok result);
      base' ← mul_assign t base base;
      pow_loop t fuel' result' base' (Z.shiftr exp 1)
  end.
(** [width] iterations empty any non-negative exponent of the type; a negative
    one never reaches 0 (see [pow_negative_exponent]). *)
Definition pow (t : int_ty) (base exp : Z) : res Z :=
  pow_loop t (Z.to_nat (width t)) 1 base exp.

(** impl/math.cpp:108-113: [::abs], undefined on the most negative value. *)
Definition abs (t : int_ty) (x : Z) : res Z :=
  if in_tyb t (Z.abs x) then Ok (Z.abs x) else UB.

(** ** min, max, clamp, lerp: math.h:16-42, 122-130, for any type whose [<] is
    [lt] ([a > b] is [b < a]). *)
Section ordered.
  Context {T : Type} (lt : T -> T -> bool).
  Definition min2 (a b : T) : T := if lt a b then a else b.
  Definition max2 (a b : T) : T := if lt b a then a else b.
  (** [limit] is [Limits<T>::max()] resp. [Limits<T>::min()] *)
  Definition min_list (limit : T) (l : list T) : T := fold_left min2 l limit.
  Definition max_list (limit : T) (l : list T) : T := fold_left max2 l limit.
  Definition clamp (x start end_ : T) : T := min2 (max2 x start) end_.
End ordered.

(** math.h:122-125 and 136-139 in exact rational arithmetic (rounding is not
    modelled). *)
Definition lerp (s e t : Q) : Q := (s + (e - s) * t)%Q.
Definition Qltb (a b : Q) : bool := negb (Qle_bool b a).
Definition smoothstep (e0 e1 x : Q) : Q :=
  let t := clamp Qltb ((x - e0) / (e1 - e0))%Q 0%Q 1%Q in
  (t * t * ((3#1) - (2#1) * t))%Q.
Close Scope Z_scope.
