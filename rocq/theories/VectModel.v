(** Model of the vectors of rpp/vmath.h:32-355, 498-561 and 889-931, and of the four-wide lanes of
    rpp/simd.h and rpp/impl/simd.cpp.

    A vector is the list of its [data]; indexing outside it is undefined.  The element type is a
    parameter: a record of its scalar operations, each of which may be undefined on some arguments
    ([None]: signed overflow, division of an integer by zero).  Every loop is the loop of the
    source, writing one element at a time into the array. *)
From stdpp Require Import prelude list.
From Coq Require Import ZArith.
From Flocq Require Import IEEE754.BinarySingleNaN IEEE754.Binary IEEE754.Bits.
From Verif Require Import Base Word.

(** The scalar operators of the element type [T] used by vmath.h.  [s_lt] and [s_eq] are [<] and
    [==]; [!=] is the negation of [==] and [a > b] is [b < a] for every element type. *)
Record scalar (T : Type) := Scalar {
  s_zero : T;
  s_add : T -> T -> option T;
  s_sub : T -> T -> option T;
  s_mul : T -> T -> option T;
  s_div : T -> T -> option T;
  s_neg : T -> option T;
  s_abs : T -> option T;
  s_sqrt : T -> option T;
  s_lt : T -> T -> bool;
  s_eq : T -> T -> bool
}.
Arguments s_zero {T}. Arguments s_add {T}. Arguments s_sub {T}. Arguments s_mul {T}. Arguments s_div {T}.
Arguments s_neg {T}. Arguments s_abs {T}. Arguments s_sqrt {T}. Arguments s_lt {T}. Arguments s_eq {T}.

Definition def {A} (o : option A) : res A := match o with Some a => Ok a | None => UB end.

(** math.h:16-24 *)
Definition s_min {T} (sc : scalar T) (a b : T) : T := if s_lt sc a b then a else b.
Definition s_max {T} (sc : scalar T) (a b : T) : T := if s_lt sc b a then a else b.

(** [data[i]] read and written. *)
Definition get {T} (a : list T) (i : nat) : res T := def (a !! i).
Definition put {T} (a : list T) (i : nat) (x : T) : res (list T) := if decide (i < length a) then Ok (<[i := x]> a) else UB.

(** [for(u64 i = k; i < k + n; i++) body] *)
Fixpoint loop {S : Type} (n i : nat) (body : nat -> S -> res S) (s : S) : res S :=
  match n with
  | O => Ok s
  | Datatypes.S n' => s' ← body i s; loop n' (Datatypes.S i) body s'
  end.

Section Vect.
  Context {T : Type} (sc : scalar T) (N : nat).

  (** vmath.h:41-46 (the general branch), 54-56, 58-63, 65-68 *)
  Definition v_default : list T := replicate N (s_zero sc).
  Definition v_fill (x : T) : res (list T) := loop N 0 (fun i r => put r i x) v_default.
  Definition v_extend (f : list T) (s : T) : res (list T) :=
    r ← loop (N - 1) 0 (fun i r => x ← get f i; put r i x) v_default; put r (N - 1) s.
  Definition v_args (args : list T) : list T := args.

  (** vmath.h:84-140, the general branches: [this->data[i] op= v.data[i]] and [this->data[i] op= s]. *)
  Definition v_assign (op : T -> T -> option T) (this v : list T) : res (list T) :=
    loop N 0 (fun i r => x ← get r i; y ← get v i; z ← def (op x y); put r i z) this.
  Definition v_assign_s (op : T -> T -> option T) (this : list T) (s : T) : res (list T) :=
    loop N 0 (fun i r => x ← get r i; z ← def (op x s); put r i z) this.
  Definition v_add_assign := v_assign (s_add sc).       (* 84-90 *)
  Definition v_sub_assign := v_assign (s_sub sc).       (* 91-97 *)
  Definition v_mul_assign := v_assign (s_mul sc).       (* 98-104 *)
  Definition v_div_assign := v_assign (s_div sc).       (* 105-111 *)
  Definition v_add_assign_s := v_assign_s (s_add sc).   (* 113-119 *)
  Definition v_sub_assign_s := v_assign_s (s_sub sc).   (* 120-126 *)
  Definition v_mul_assign_s := v_assign_s (s_mul sc).   (* 127-133 *)
  Definition v_div_assign_s := v_assign_s (s_div sc).   (* 134-140 *)

  (** vmath.h:142-214: [r.data[i] = this->data[i] op o.data[i]] and [r.data[i] = this->data[i] op s]. *)
  Definition v_op (op : T -> T -> option T) (this o : list T) : res (list T) :=
    loop N 0 (fun i r => x ← get this i; y ← get o i; z ← def (op x y); put r i z) v_default.
  Definition v_op_s (op : T -> T -> option T) (this : list T) (s : T) : res (list T) :=
    loop N 0 (fun i r => x ← get this i; z ← def (op x s); put r i z) v_default.
  Definition v_add := v_op (s_add sc).                  (* 142-150 *)
  Definition v_sub := v_op (s_sub sc).                  (* 151-159 *)
  Definition v_mul := v_op (s_mul sc).                  (* 160-168 *)
  Definition v_div := v_op (s_div sc).                  (* 169-177 *)
  Definition v_add_s := v_op_s (s_add sc).              (* 179-187 *)
  Definition v_sub_s := v_op_s (s_sub sc).              (* 188-196 *)
  Definition v_mul_s := v_op_s (s_mul sc).              (* 197-205 *)
  Definition v_div_s := v_op_s (s_div sc).              (* 206-214 *)

  (** vmath.h:889-931: a scalar on the left. *)
  Definition s_add_v (s : T) (v : list T) : res (list T) :=
    loop N 0 (fun i r => x ← get v i; z ← def (s_add sc x s); put r i z) v_default.
  Definition s_sub_v (s : T) (v : list T) : res (list T) :=
    loop N 0 (fun i r => x ← get v i; z ← def (s_sub sc s x); put r i z) v_default.
  Definition s_mul_v (s : T) (v : list T) : res (list T) :=
    loop N 0 (fun i r => x ← get v i; z ← def (s_mul sc x s); put r i z) v_default.
  Definition s_div_v (s : T) (v : list T) : res (list T) :=
    loop N 0 (fun i r => x ← get v i; z ← def (s_div sc s x); put r i z) v_default.

  (** vmath.h:216-233: the loops return as soon as two components differ. *)
  Definition early (b : bool) (a o : list T) (i : nat) (s : option bool) : res (option bool) :=
    match s with
    | Some d => Ok (Some d)
    | None => x ← get a i; y ← get o i; Ok (if s_eq sc x y then None else Some b)
    end.
  Definition v_eq (this o : list T) : res bool :=
    s ← loop N 0 (early false this o) None; Ok (match s with Some d => d | None => true end).
  Definition v_ne (this o : list T) : res bool :=
    s ← loop N 0 (early true this o) None; Ok (match s with Some d => d | None => false end).

  (** vmath.h:235-244 and 524-535 *)
  Definition v_abs (this : list T) : res (list T) :=
    loop N 0 (fun i r => x ← get this i; z ← def (s_abs sc x); put r i z) v_default.
  (** vmath.h:245-253: unary minus is not const; it overwrites [this] and returns a copy of it.  The
      result is (the new value of the operand, the value of the expression). *)
  Definition v_neg (this : list T) : res (list T * list T) :=
    t ← loop N 0 (fun i r => x ← get r i; z ← def (s_neg sc x); put r i z) this; Ok (t, t).

  (** vmath.h:293-301, 537-546 *)
  Definition v_norm2 (this : list T) : res T :=
    loop N 0 (fun i r => x ← get this i; p ← def (s_mul sc x x); def (s_add sc r p)) (s_zero sc).
  Definition v_dot (a b : list T) : res T :=
    loop N 0 (fun i r => x ← get a i; y ← get b i; p ← def (s_mul sc x y); def (s_add sc r p)) (s_zero sc).
  (** vmath.h:337-341 *)
  Definition v_norm (this : list T) : res T := n ← v_norm2 this; def (s_sqrt sc n).
  (** vmath.h:255-264: (the operand afterwards, the value). *)
  Definition v_normalize (this : list T) : res (list T * list T) :=
    l ← v_norm this; t ← loop N 0 (fun i r => x ← get r i; z ← def (s_div sc x l); put r i z) this; Ok (t, t).
  (** vmath.h:266-276, 558-561 *)
  Definition v_unit (this : list T) : res (list T) :=
    l ← v_norm this; loop N 0 (fun i r => x ← get this i; z ← def (s_div sc x l); put r i z) v_default.
  (** vmath.h:278-284; the result is one shorter. *)
  Definition v_proj (this : list T) : res (list T) :=
    loop (N - 1) 0 (fun i r => x ← get this i; y ← get this (N - 1); z ← def (s_div sc x y); put r i z)
      (replicate (N - 1) (s_zero sc)).

  (** vmath.h:303-313 *)
  Definition v_least (this : list T) : res T :=
    r ← get this 0; loop (N - 1) 1 (fun i r => x ← get this i; Ok (s_min sc r x)) r.
  Definition v_greatest (this : list T) : res T :=
    r ← get this 0; loop (N - 1) 1 (fun i r => x ← get this i; Ok (s_max sc r x)) r.

  (** vmath.h:502-522 *)
  Definition v_min (x y : list T) : res (list T) :=
    loop N 0 (fun i r => a ← get x i; b ← get y i; put r i (s_min sc a b)) v_default.
  Definition v_max (x y : list T) : res (list T) :=
    loop N 0 (fun i r => a ← get x i; b ← get y i; put r i (s_max sc a b)) v_default.
  (** vmath.h:548-556 *)
  Definition v_lerp (mn mx : list T) (dist : T) : res (list T) :=
    d ← v_sub mx mn; p ← v_mul_s d dist; v_add mn p.
  Definition v_clamp (x mn mx : list T) : res (list T) := m ← v_min x mx; v_max m mn.
End Vect.

(** ** Element types. *)

(** i32: an operation whose exact result does not fit is undefined (as is division by zero).
    [Math::abs] is [::abs] (impl/math.cpp:108-110); there is no square root of integers. *)
Definition in_i32 (z : Z) : option Z := if decide (- 2 ^ 31 <= z < 2 ^ 31)%Z then Some z else None.
Definition i32_sc : scalar Z := Scalar Z 0%Z
  (fun a b => in_i32 (a + b)%Z) (fun a b => in_i32 (a - b)%Z) (fun a b => in_i32 (a * b)%Z)
  (fun a b => if decide (b = 0%Z) then None else in_i32 (Z.quot a b))
  (fun a => in_i32 (- a)%Z) (fun a => in_i32 (Z.abs a)) (fun _ => None)
  (fun a b => bool_decide (a < b)%Z) (fun a b => bool_decide (a = b)).
(** u32: arithmetic modulo 2^32. [-], [abs] are not declared for unsigned vectors. *)
Definition u32_sc : scalar Z := Scalar Z 0%Z
  (fun a b => Some (wrap 32 (a + b))) (fun a b => Some (wrap 32 (a - b))) (fun a b => Some (wrap 32 (a * b)))
  (fun a b => if decide (b = 0%Z) then None else Some (Z.div a b))
  (fun _ => None) (fun _ => None) (fun _ => None)
  (fun a b => bool_decide (a < b)%Z) (fun a b => bool_decide (a = b)).
(** f32: IEEE single precision, rounding to nearest even (Flocq's [binary32]); always defined.  The
    square root is IEEE's.  Which NaN an operation returns is the one Flocq's b32 operations pick. *)
Definition f32_zero : binary32 := B754_zero 24 128 false.
Definition f32_lt (a b : binary32) : bool := match b32_compare a b with Some Lt => true | _ => false end.
Definition f32_eq (a b : binary32) : bool := match b32_compare a b with Some Eq => true | _ => false end.
Definition f32_sc : scalar binary32 := Scalar binary32 f32_zero
  (fun a b => Some (b32_plus mode_NE a b)) (fun a b => Some (b32_minus mode_NE a b))
  (fun a b => Some (b32_mult mode_NE a b)) (fun a b => Some (b32_div mode_NE a b))
  (fun a => Some (b32_opp a)) (fun a => Some (b32_abs a)) (fun a => Some (b32_sqrt mode_NE a))
  f32_lt f32_eq.

(** ** rpp/simd.h:11-34, rpp/impl/simd.cpp: four f32 lanes. *)
Record f32x4 := F4 { l0 : binary32; l1 : binary32; l2 : binary32; l3 : binary32 }.
(** The union of [pack] and [data] in Vec4_base (vmath.h:429-437). *)
Definition pack (d : list binary32) : res f32x4 :=
  match d with [a; b; c; e] => Ok (F4 a b c e) | _ => UB end.
Definition data (p : f32x4) : list binary32 := [l0 p; l1 p; l2 p; l3 p].

(** simd.cpp:86-116 (set, set1, zero, one and the arithmetic of the vector extension, one lane at a
    time); the SSE versions 23-54 do the same. *)
Definition set (x y z w : binary32) : f32x4 := F4 x y z w.
(** simd.cpp:27-30: [_mm_set_ps] takes the lanes from the highest to the lowest. *)
Definition mm_set_ps (e3 e2 e1 e0 : binary32) : f32x4 := F4 e0 e1 e2 e3.
Definition set_sse (x y z w : binary32) : f32x4 := mm_set_ps w z y x.
Definition set1 (v : binary32) : f32x4 := F4 v v v v.
Definition zero4 : f32x4 := set1 f32_zero.
Definition lanes (f : binary32 -> binary32 -> binary32) (a b : f32x4) : f32x4 :=
  F4 (f (l0 a) (l0 b)) (f (l1 a) (l1 b)) (f (l2 a) (l2 b)) (f (l3 a) (l3 b)).
Definition add4 := lanes (b32_plus mode_NE).
Definition sub4 := lanes (b32_minus mode_NE).
Definition mul4 := lanes (b32_mult mode_NE).
Definition div4 := lanes (b32_div mode_NE).
(** simd.cpp:118-124: [__builtin_elementwise_min/max] return the other operand when one is a NaN; of
    two zeros they may return either (the model: the first). *)
Definition fmin (a b : binary32) : binary32 :=
  if Binary.is_nan 24 128 a then b else if Binary.is_nan 24 128 b then a else if f32_lt b a then b else a.
Definition fmax (a b : binary32) : binary32 :=
  if Binary.is_nan 24 128 a then b else if Binary.is_nan 24 128 b then a else if f32_lt a b then b else a.
Definition min4 := lanes fmin.
Definition max4 := lanes fmax.
(** simd.cpp:56-62: the SSE instructions compute [a < b ? a : b] and [a > b ? a : b]. *)
Definition min4_sse := lanes (fun a b => if f32_lt a b then a else b).
Definition max4_sse := lanes (fun a b => if f32_lt b a then a else b).
(** simd.cpp:134-136 (72-74 clears the sign bits) *)
Definition abs4 (a : f32x4) : f32x4 := F4 (b32_abs (l0 a)) (b32_abs (l1 a)) (b32_abs (l2 a)) (b32_abs (l3 a)).
(** simd.cpp:138-146: the products are added one by one, from zero. *)
Definition dp4 (a b : f32x4) : binary32 :=
  let m := mul4 a b in
  let p := b32_plus mode_NE in
  p (p (p (p f32_zero (l0 m)) (l1 m)) (l2 m)) (l3 m).
(** simd.cpp:76-78: [_mm_dp_ps] adds the products pairwise. *)
Definition dp4_sse (a b : f32x4) : binary32 :=
  let m := mul4 a b in
  let p := b32_plus mode_NE in
  p (p (l0 m) (l1 m)) (p (l2 m) (l3 m)).
(** simd.cpp:148-152, 80-82 *)
Definition cmpeq_all (a b : f32x4) : bool :=
  f32_eq (l0 a) (l0 b) && f32_eq (l1 a) (l1 b) && f32_eq (l2 a) (l2 b) && f32_eq (l3 a) (l3 b).

(** ** The [is_simd] branches of Vect<f32, 4>. *)
Definition via2 (f : f32x4 -> f32x4 -> f32x4) (a b : list binary32) : res (list binary32) :=
  x ← pack a; y ← pack b; Ok (data (f x y)).
Definition vias (f : f32x4 -> f32x4 -> f32x4) (a : list binary32) (s : binary32) : res (list binary32) :=
  x ← pack a; Ok (data (f x (set1 s))).
(** vmath.h:85-110 and 143-170, 114-139 and 180-207 *)
Definition q_add := via2 add4.
Definition q_sub := via2 sub4.
Definition q_mul := via2 mul4.
Definition q_div := via2 div4.
Definition q_add_s := vias add4.
Definition q_sub_s := vias sub4.
Definition q_mul_s := vias mul4.
Definition q_div_s := vias div4.
(** vmath.h:891-925, the scalar on the left: all four pass the vector first. *)
Definition s_add_q (s : binary32) (v : list binary32) := vias add4 v s.
Definition s_sub_q (s : binary32) (v : list binary32) := vias sub4 v s.
Definition s_mul_q (s : binary32) (v : list binary32) := vias mul4 v s.
Definition s_div_q (s : binary32) (v : list binary32) := vias div4 v s.
(** vmath.h:217-227 *)
Definition q_eq (a b : list binary32) : res bool := x ← pack a; y ← pack b; Ok (cmpeq_all x y).
Definition q_ne (a b : list binary32) : res bool := x ← pack a; y ← pack b; Ok (negb (cmpeq_all x y)).
(** vmath.h:239-240, 528-529 *)
Definition q_abs (a : list binary32) : res (list binary32) := x ← pack a; Ok (data (abs4 x)).
(** vmath.h:248-249: (the operand afterwards, the value). *)
Definition q_neg (a : list binary32) : res (list binary32 * list binary32) :=
  x ← pack a; let t := data (sub4 zero4 x) in Ok (t, t).
(** vmath.h:294-295, 539-540 *)
Definition q_dot (a b : list binary32) : res binary32 := x ← pack a; y ← pack b; Ok (dp4 x y).
Definition q_dot_sse (a b : list binary32) : res binary32 := x ← pack a; y ← pack b; Ok (dp4_sse x y).
Definition q_norm2 (a : list binary32) : res binary32 := q_dot a a.
Definition q_norm (a : list binary32) : res binary32 := n ← q_norm2 a; Ok (b32_sqrt mode_NE n).
(** vmath.h:258-260, 270-272 *)
Definition q_normalize (a : list binary32) : res (list binary32 * list binary32) :=
  l ← q_norm a; t ← vias div4 a l; Ok (t, t).
Definition q_unit (a : list binary32) : res (list binary32) := l ← q_norm a; vias div4 a l.
(** vmath.h:504-505, 515-516 *)
Definition q_min := via2 min4.
Definition q_max := via2 max4.
Definition q_min_sse := via2 min4_sse.
Definition q_max_sse := via2 max4_sse.
