(** How floats are written, independently of the model.  ISO C, 7.22.1.3 and 7.21.6.1. *)
From Flocq Require Import Core IEEE754.BinarySingleNaN IEEE754.Binary IEEE754.Bits.
From Verif Require Import Base F32 StringSpec.
From Coq Require Import Reals.
Local Open Scope Z_scope.

Definition dec_digit (c d : Z) : Prop := 0 <= d <= 9 /\ c = 48 + d.
Definition hex_digit (c d : Z) : Prop := dec_digit c d \/ (10 <= d <= 15 /\ (c = 65 + (d - 10) \/ c = 97 + (d - 10))).
(** A row of digits and the number it writes. *)
Inductive digits (is : Z -> Z -> Prop) (base : Z) : list Z -> Z -> Prop :=
| digits_nil : digits is base [] 0
| digits_snoc t n c d : digits is base t n -> is c d -> digits is base (t ++ [c]) (base * n + d).
(** Digits with or without a point; [n] without it, [k] digits behind it. *)
Inductive mantissa (is : Z -> Z -> Prop) (base : Z) : list Z -> Z -> nat -> Prop :=
| m_int t n : digits is base t n -> t <> [] -> mantissa is base t n 0
| m_point i f n : digits is base (i ++ f) n -> i ++ f <> [] -> mantissa is base (i ++ 46 :: f) n (length f).
Inductive exponent (letter capital : Z) : list Z -> Z -> Prop :=
| e_none : exponent letter capital [] 0
| e_some c t n : c = letter \/ c = capital -> int_text t n -> exponent letter capital (c :: t) n.

(** Letters in either case: [w] is in lower case. *)
Definition same_letter (w c : Z) : Prop := c = w \/ (97 <= w <= 122 /\ c = w - 32).
Definition word (w t : list Z) : Prop := Forall2 same_letter w t.
Definition nchar (c : Z) : Prop := digit c \/ 65 <= c <= 90 \/ 97 <= c <= 122 \/ c = 95.

Inductive value := Finite (x : R) | Infinite | Nan.
Definition inf_word : list Z := [105; 110; 102].
Definition infinity_word : list Z := [105; 110; 102; 105; 110; 105; 116; 121].
Definition nan_word : list Z := [110; 97; 110].
Inductive unsigned_text : list Z -> value -> Prop :=
| u_decimal m n k e x : mantissa dec_digit 10 m n k -> exponent 101 69 e x ->
    unsigned_text (m ++ e) (Finite (IZR n * powerRZ 10 (x - Z.of_nat k)))
| u_hex c m n k e x : c = 120 \/ c = 88 -> mantissa hex_digit 16 m n k -> exponent 112 80 e x ->
    unsigned_text (48 :: c :: m ++ e) (Finite (IZR n * powerRZ 2 (x - 4 * Z.of_nat k)))
| u_inf t : word inf_word t \/ word infinity_word t -> unsigned_text t Infinite
| u_nan t : word nan_word t -> unsigned_text t Nan
| u_nan_chars t cs : word nan_word t -> Forall nchar cs -> unsigned_text (t ++ [40] ++ cs ++ [41]) Nan.
(** The sign is a minus or not. *)
Inductive float_text : list Z -> bool -> value -> Prop :=
| f_plain t v : unsigned_text t v -> float_text t false v
| f_plus t v : unsigned_text t v -> float_text (43 :: t) false v
| f_minus t v : unsigned_text t v -> float_text (45 :: t) true v.

(** [x] is the f32 nearest to the value, an even one if two are; too large a value is infinite. *)
Definition nearest_f32 (neg : bool) (v : value) (x : binary32) : Prop :=
  match v with
  | Finite r =>
      let y := rnd32 (if neg then - r else r)%R in
      if Rlt_bool (Rabs y) (bpow radix2 128) then is_finite 24 128 x = true /\ B2R 24 128 x = y /\ Bsign 24 128 x = neg
      else x = B754_infinity 24 128 neg
  | Infinite => x = B754_infinity 24 128 neg
  | Nan => is_nan 24 128 x = true
  end.

(** [t] writes [n] millionths: digits without superfluous zeros, a point, six digits. *)
Definition six_decimals (t : list Z) (n : Z) : Prop :=
  exists i f, t = i ++ 46 :: f /\ length f = 6%nat /\ decimal (i ++ f) n /\ (i = [48] \/ exists d i', i = (48 + d) :: i' /\ 1 <= d <= 9).
