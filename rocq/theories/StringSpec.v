(** What the string and parser properties mean, independently of the model:
    strings are lists of bytes. *)
From Verif Require Import Base.
Local Open Scope Z_scope.

(** Lexicographic order by byte value; a proper prefix comes first. *)
Inductive lex_lt : list Z -> list Z -> Prop :=
| lex_prefix b r : lex_lt [] (b :: r)
| lex_first a b l r : a < b -> lex_lt (a :: l) (b :: r)
| lex_later a l r : lex_lt l r -> lex_lt (a :: l) (a :: r).

(** [text] with the bytes from [i] on replaced by [t]. *)
Definition overwritten (text : list Z) (i : nat) (t : list Z) : list Z :=
  take i text ++ t ++ drop (i + length t) text.

(** Whitespace as rpp defines it and as C's isspace does. *)
Definition white (b : Z) : Prop := b = 32 \/ b = 9 \/ b = 10 \/ b = 13 \/ b = 11.
Definition blank (b : Z) : Prop := b = 32 \/ (9 <= b <= 13).
Definition digit (b : Z) : Prop := 48 <= b <= 57.
Definition separator (b : Z) : Prop := b = 47 \/ b = 92.

(** The first byte of [l], if any, does not satisfy [P]. *)
Definition starts_without (P : Z -> Prop) (l : list Z) : Prop :=
  match l with [] => True | b :: _ => ~ P b end.

(** [decimal t n]: the digits [t] (leading zeros allowed) write [n]. *)
Inductive decimal : list Z -> Z -> Prop :=
| decimal_digit d : 0 <= d <= 9 -> decimal [48 + d] d
| decimal_snoc t n d : decimal t n -> 0 <= d <= 9 -> decimal (t ++ [48 + d]) (10 * n + d).
(** An optionally signed number. *)
Inductive int_text : list Z -> Z -> Prop :=
| int_plain t n : decimal t n -> int_text t n
| int_plus t n : decimal t n -> int_text (43 :: t) n
| int_minus t n : decimal t n -> int_text (45 :: t) (- n).

(** The i64 nearest to [n]. *)
Definition nearest_i64 (n : Z) : Z :=
  if n <? - 2 ^ 63 then - 2 ^ 63 else if 2 ^ 63 - 1 <? n then 2 ^ 63 - 1 else n.
