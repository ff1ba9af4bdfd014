(** Floats as text: parse_f32 (rpp/format1.h:35-47) over the C library's strtof, and what format (rpp/format.h:94-95,
    158-159) prints for f32 and f64, which is printf's %f.

    [strtof] and %f are modelled as the C standard has them in the "C" locale with correct rounding (glibc, musl, macOS).
    Simplification: a NaN has one payload.  Windows prints NaN differently. *)
From Flocq Require Import Core Calc.Div IEEE754.BinarySingleNaN IEEE754.Binary IEEE754.Bits.
From Verif Require Import Word MathModel StringModel FormatModel.
From Coq Require Import String.
Local Open Scope nat_scope.
Notation length := Datatypes.length.

(** ** strtof *)
Definition is_hex (c : Z) : bool := (is_digit c || ((65 <=? c) && (c <=? 70)) || ((97 <=? c) && (c <=? 102)))%Z.
Definition digit_val (c : Z) : Z := (if c <=? 57 then c - 48 else if c <=? 70 then c - 55 else c - 87)%Z.
Definition digits_val (base : Z) (ds : list Z) : Z := fold_left (fun n d => base * n + digit_val d)%Z ds 0%Z.
(** Digits, possibly with a point: their digits without it, how many stand behind it, and the length of the whole. *)
Definition scan_mantissa (isd : Z -> bool) (s : list Z) : option (list Z * nat * nat) :=
  let i := count_while isd s in
  match drop i s with
  | c :: s' =>
      if (c =? 46)%Z then
        let f := count_while isd s' in
        if i + f =? 0 then None else Some (take i s ++ take f s', f, i + 1 + f)
      else if i =? 0 then None else Some (take i s, 0, i)
  | [] => if i =? 0 then None else Some (take i s, 0, i)
  end.
Definition scan_sign (s : list Z) : bool * nat :=
  match s with
  | c :: _ => if (c =? 45)%Z then (true, 1) else if (c =? 43)%Z then (false, 1) else (false, 0)
  | [] => (false, 0)
  end.
(** An exponent, if there is a whole one: its value and length. *)
Definition scan_exponent (lower upper : Z) (s : list Z) : Z * nat :=
  match s with
  | c :: s' =>
      if ((c =? lower) || (c =? upper))%Z then
        let '(neg, sgn) := scan_sign s' in
        let n := count_while is_digit (drop sgn s') in
        if n =? 0 then (0%Z, 0)
        else let x := digits_value (take n (drop sgn s')) in ((if (neg : bool) then - x else x)%Z, 1 + sgn + n)
      else (0%Z, 0)
  | [] => (0%Z, 0)
  end.
Definition lower (c : Z) : Z := if ((65 <=? c) && (c <=? 90))%Z then (c + 32)%Z else c.
Fixpoint matches (word s : list Z) : bool :=
  match word, s with
  | [], _ => true
  | w :: word, c :: s => (lower c =? w)%Z && matches word s
  | _ :: _, [] => false
  end.
Definition is_nchar (c : Z) : bool := (is_digit c || ((97 <=? lower c) && (lower c <=? 122)) || (c =? 95))%Z.
(** "(...)" behind "nan" *)
Definition scan_nan (s : list Z) : nat :=
  match s with
  | c :: s' =>
      if (c =? 40)%Z then
        let n := count_while is_nchar s' in
        match drop n s' with c :: _ => if (c =? 41)%Z then n + 2 else 0 | [] => 0 end
      else 0
  | [] => 0
  end.
(** [n * base ^ p] *)
Inductive scanned := SNum (n base p : Z) | SInf | SNan.
Definition scan_decimal (s : list Z) : option (scanned * nat) :=
  match scan_mantissa is_digit s with
  | Some (ds, k, len) =>
      let '(x, elen) := scan_exponent 101 69 (drop len s) in
      Some (SNum (digits_val 10 ds) 10 (x - Z.of_nat k), len + elen)
  | None => None
  end.
Definition scan_hex (s : list Z) : option (scanned * nat) :=
  match scan_mantissa is_hex (drop 2 s) with
  | Some (ds, k, len) =>
      let '(x, elen) := scan_exponent 112 80 (drop len (drop 2 s)) in
      Some (SNum (digits_val 16 ds) 2 (x - 4 * Z.of_nat k), 2 + len + elen)
  | None => None
  end.
Definition scan_unsigned (s : list Z) : option (scanned * nat) :=
  if matches (txt "infinity") s then Some (SInf, 8)
  else if matches (txt "inf") s then Some (SInf, 3)
  else if matches (txt "nan") s then Some (SNan, 3 + scan_nan (drop 3 s))
  else
    match (if matches (txt "0x") s then scan_hex s else None) with
    | Some r => Some r
    | None => scan_decimal s
    end.
Definition checked (neg : bool) (z : full_float) : binary32 :=
  match valid_binary 24 128 z as b return valid_binary 24 128 z = b -> binary32 with
  | true => fun H => FF2B 24 128 z H
  | false => fun _ => B754_zero 24 128 neg
  end eq_refl.
(** [num / den], rounded *)
Definition f32_of_ratio (neg : bool) (num den : Z) : binary32 :=
  if (num =? 0)%Z then B754_zero 24 128 neg
  else let '(m, l) := Fdiv_core radix2 num 0 den 0 (-149) in checked neg (binary_round_aux 24 128 mode_NE neg m (-149) l).
Definition f32_nan (neg : bool) : binary32 := B754_nan 24 128 neg 4194304 eq_refl.
Definition f32_of_scanned (neg : bool) (v : scanned) : binary32 :=
  match v with
  | SNum n base p => if (0 <=? p)%Z then f32_of_ratio neg (n * base ^ p) 1 else f32_of_ratio neg n (base ^ (- p))
  | SInf => B754_infinity 24 128 neg
  | SNan => f32_nan neg
  end.
(** The value and how many bytes were read: none if there is no number. *)
Definition strtof (buf : list Z) : binary32 * nat :=
  let ws := count_while c_isspace buf in
  let '(neg, sgn) := scan_sign (drop ws buf) in
  match scan_unsigned (drop sgn (drop ws buf)) with
  | Some (v, n) => (f32_of_scanned neg v, ws + sgn + n)
  | None => (B754_zero 24 128 false, 0)
  end.

(** format1.h:35-47 *)
Definition parse_f32 (input : list Z) : res (option (binary32 * list Z)) :=
  term ← view_terminate input;
  buf ← str_view term;
  let '(ret, end_) := strtof buf in
  if end_ =? 0 then Ok None
  else
    rest ← view_sub input end_ (length input);
    Ok (Some (ret, rest)).

(** ** %f *)
(** [n / d] to the nearest integer, ties to even *)
Definition div_even (n d : Z) : Z :=
  (let q := n / d in let r := n mod d in
   if 2 * r <? d then q else if d <? 2 * r then q + 1 else if Z.even q then q else q + 1)%Z.
(** [m * 2 ^ e] in millionths *)
Definition millionths (m : positive) (e : Z) : Z :=
  if (0 <=? e)%Z then (Zpos m * 1000000 * 2 ^ e)%Z else div_even (Zpos m * 1000000) (2 ^ (- e)).
Definition six_digits (n : Z) : list Z :=
  [48 + n / 100000; 48 + n / 10000 mod 10; 48 + n / 1000 mod 10; 48 + n / 100 mod 10; 48 + n / 10 mod 10; 48 + n mod 10]%Z.
Definition minus (neg : bool) : list Z := if neg then [45%Z] else [].
Definition fixed_text (neg : bool) (n : Z) : list Z :=
  minus neg ++ dec_text (n / 1000000) ++ [46%Z] ++ six_digits (n mod 1000000).
(** For f32 and f64: a float is passed to printf as a double of the same value. *)
Definition printf_f {prec emax} (x : binary_float prec emax) : list Z :=
  match x with
  | B754_zero _ _ s => fixed_text s 0
  | B754_infinity _ _ s => minus s ++ txt "inf"
  | B754_nan _ _ s _ _ => minus s ++ txt "nan"
  | B754_finite _ _ s m e _ => fixed_text s (millionths m e)
  end.
(** format.h:94-95, 158-159 *)
Definition float_value {prec emax} (x : binary_float prec emax) : fval := FFloat (printf_f x).
