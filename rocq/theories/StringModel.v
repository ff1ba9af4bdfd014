(** Model of rpp/string0.h, rpp/string1.h and of the text parsers of
    rpp/format1.h.

    A byte is a Z in [0, 256).  A [String_View] is the list of bytes it refers
    to (that memory being alive is the caller's business); a [String] owns
    [capacity] bytes, [None] standing for one never written.  Lengths of
    existing strings are naturals (a string of 2^63 bytes cannot exist); the
    position passed to [write] is a u64 and its sum with a length wraps. *)
From Verif Require Import Word.

Notation byte := Z (only parsing).
Notation view := (list Z) (only parsing).
Record str := mk_str { sdata : list (option byte); slen : nat }.

Section string.
  (** string0.h:88-90 *)
  Definition str_new (capacity : nat) : str := mk_str (replicate capacity None) 0.
  (** [capacity_] *)
  Definition scap (s : str) : nat := length (sdata s).

  (** string1.h:10-14 *)
  Definition set_length (s : str) (n : nat) : res str :=
    _ ← assert_ (n <=? scap s); Ok (mk_str (sdata s) n).

  (** [Libc::memcpy(dst + off, src, length)] *)
  Definition memcpy (dst : list (option byte)) (off : nat) (src : list (option byte)) : res (list (option byte)) :=
    if off + length src <=? length dst
    then Ok (take off dst ++ src ++ drop (off + length src) dst) else UB.

  (** string1.h:16-26: reading a byte that was never written is undefined *)
  Definition str_get (s : str) (i : nat) : res byte :=
    _ ← assert_ (i <? slen s);
    match sdata s !! i with Some (Some b) => Ok b | _ => UB end.
  Definition str_set (s : str) (i : nat) (b : byte) : res str :=
    _ ← assert_ (i <? slen s);
    if i <? length (sdata s) then Ok (mk_str (<[i := Some b]> (sdata s)) (slen s)) else UB.
  (** string1.h:60-63 *)
  Definition view_get (v : view) (i : nat) : res byte :=
    _ ← assert_ (i <? length v); match v !! i with Some b => Ok b | None => UB end.

  (** string0.h:134-136 followed by reading every byte *)
  Fixpoint all_written (l : list (option byte)) : res view :=
    match l with
    | [] => Ok []
    | Some b :: l' => v ← all_written l'; Ok (b :: v)
    | None :: _ => UB
    end.
  Definition str_view (s : str) : res view := all_written (take (slen s) (sdata s)).

  (** string0.h:189-197 *)
  Definition view_string (v : view) : res str :=
    let ret := str_new (length v) in
    d ← memcpy (sdata ret) 0 (Some <$> v);
    Ok (mk_str d (length v)).
  (** string0.h:119-127 *)
  Definition str_clone (s : str) : res str :=
    d ← memcpy (replicate (scap s) None) 0 (take (slen s) (sdata s));
    Ok (mk_str d (slen s)).

  (** string1.h:54-58, 28-33 *)
  Definition view_sub (v : view) (start end_ : nat) : res view :=
    _ ← assert_ (start <=? end_);
    _ ← assert_ (end_ <=? length v);
    Ok (take (end_ - start) (drop start v)).

  (** string1.h:35-52 *)
  Definition view_terminate (v : view) : res str :=
    ret ← set_length (str_new (length v + 1)) (length v + 1);
    d ← memcpy (sdata ret) 0 (Some <$> v);
    str_set (mk_str d (slen ret)) (length v) 0%Z.
  (** string1.h:135-152 *)
  Definition view_append (v next : view) : res str :=
    ret ← set_length (str_new (length v + length next)) (length v + length next);
    d ← memcpy (sdata ret) 0 (Some <$> v);
    d' ← memcpy d (length v) (Some <$> next);
    Ok (mk_str d' (slen ret)).

  (** string1.h:113-118 *)
  Definition str_write_char (s : str) (i : Z) (c : byte) : res (str * Z) :=
    _ ← assert_ (i <? Z.of_nat (slen s))%Z;
    s' ← str_set s (Z.to_nat i) c;
    Ok (s', wrap 64 (i + 1)).
  (** string1.h:120-133 *)
  Definition str_write (s : str) (i : Z) (text : view) : res (str * Z) :=
    _ ← assert_ (wrap 64 (i + Z.of_nat (length text)) <=? Z.of_nat (slen s))%Z;
    d ← memcpy (sdata s) (Z.to_nat i) (Some <$> text);
    Ok (mk_str d (slen s), wrap 64 (i + Z.of_nat (length text))).

  (** [strncmp] (C standard): compares as unsigned char, stops at a common
      NUL or after [n] bytes *)
  Fixpoint strncmp (l r : view) (n : nat) : res Z :=
    match n with
    | 0 => Ok 0%Z
    | S n' =>
        match l, r with
        | a :: l', b :: r' =>
            if (a =? b)%Z then (if (a =? 0)%Z then Ok 0%Z else strncmp l' r' n') else Ok (a - b)%Z
        | _, _ => UB
        end
    end.
  (** string0.h:199-203, 214-233 *)
  Definition view_eq (l r : view) : res bool :=
    if negb (length l =? length r) then Ok false
    else c ← strncmp l r (length l); Ok (c =? 0)%Z.

  (** string0.h:205-212, 235-243 *)
  Fixpoint lt_loop (l r : view) (i n : nat) : res bool :=
    match n with
    | 0 => Ok (length l <? length r)
    | S n' =>
        a ← view_get l i;
        b ← view_get r i;
        if (a <? b)%Z then Ok true else if (b <? a)%Z then Ok false else lt_loop l r (S i) n'
    end.
  Definition view_lt (l r : view) : res bool :=
    lt_loop l r 0 (if length l <? length r then length l else length r).

  (** string0.h:247-257 *)
  Definition to_uppercase (c : byte) : byte := if ((97 <=? c) && (c <=? 122))%Z then (c - 97 + 65)%Z else c.
  Definition to_lowercase (c : byte) : byte := if ((65 <=? c) && (c <=? 90))%Z then (c - 65 + 97)%Z else c.
  Definition is_whitespace (c : byte) : bool :=
    ((c =? 32) || (c =? 9) || (c =? 10) || (c =? 13) || (c =? 11))%Z.

  (** The loops of string1.h:72-77, 88-93, 104-109: from [i] downwards, not
      looking at index 0; answers where it stopped and whether it found. *)
  Fixpoint scan_back (p : byte -> bool) (v : view) (i : nat) : res (nat * bool) :=
    match i with
    | 0 => Ok (0, false)
    | S i' =>
        match v !! i with
        | Some b => if p b then Ok (i, true) else scan_back p v i'
        | None => UB
        end
    end.
  Definition is_sep (c : byte) : bool := ((c =? 92) || (c =? 47))%Z.
  Definition is_dot_sep (c : byte) : bool := ((c =? 46) || (c =? 92) || (c =? 47))%Z.
  (** [String_View{data_ + from, length_ - from}] *)
  Definition tail_from (v : view) (from : nat) : view := drop from v.
  (** string1.h:65-79 *)
  Definition file_suffix (v : view) : res view :=
    if length v =? 0 then Ok [] else
    '(i, found) ← scan_back is_sep v (length v - 1);
    Ok (tail_from v (i + if found : bool then 1 else 0)).
  (** string1.h:81-95 *)
  Definition file_extension (v : view) : res view :=
    if length v =? 0 then Ok [] else
    '(i, found) ← scan_back is_dot_sep v (length v - 1);
    Ok (tail_from v (i + if found : bool then 1 else 0)).
  (** string1.h:97-111 *)
  Definition remove_file_suffix (v : view) : res view :=
    if length v =? 0 then Ok [] else
    '(i, found) ← scan_back is_sep v (length v - 1);
    Ok (take (i + if found : bool then 1 else 0) v).

  (** ** format1.h *)
  (** The loop of format1.h:51-53, 59-61. *)
  Fixpoint skip_loop (v : view) (start n : nat) : res nat :=
    match n with
    | 0 => Ok start
    | S n' => b ← view_get v start; if is_whitespace b then skip_loop v (S start) n' else Ok start
    end.
  (** format1.h:49-55 *)
  Definition skip_whitespace (v : view) : res view :=
    start ← skip_loop v 0 (length v); view_sub v start (length v).

  (** format1.h:62-70; [n] = s.length() - i *)
  Fixpoint parse_string_loop (v : view) (start i n : nat) : res (option (view * view)) :=
    match n with
    | 0 => Ok None
    | S n' =>
        if (S i =? length v) && (start <? i) then
          t ← view_sub v start (S i); Ok (Some (t, []))
        else
          b ← view_get v i;
          if is_whitespace b then
            t ← view_sub v start i;
            r ← view_sub v (S i) (length v);
            Ok (Some (t, r))
          else parse_string_loop v start (S i) n'
    end.
  (** format1.h:57-72 *)
  Definition parse_string (v : view) : res (option (view * view)) :=
    start ← skip_loop v 0 (length v);
    parse_string_loop v start start (length v - start).

  (** [strtoll(s, &end, 10)] (C standard, "C" locale) on a NUL-terminated
      buffer: answers the value, clamped to i64, and how many bytes it read (0
      if there is no number). *)
  Definition c_isspace (c : byte) : bool := ((c =? 32) || ((9 <=? c) && (c <=? 13)))%Z.
  Definition is_digit (c : byte) : bool := ((48 <=? c) && (c <=? 57))%Z.
  Fixpoint count_while (p : byte -> bool) (l : view) : nat :=
    match l with
    | b :: l' => if p b then S (count_while p l') else 0
    | [] => 0
    end.
  Definition digits_value (ds : view) : Z := fold_left (fun n d => 10 * n + (d - 48))%Z ds 0%Z.
  Definition clamp_i64 (x : Z) : Z := Z.max (- 2 ^ 63) (Z.min (2 ^ 63 - 1) x).
  Definition strtoll (buf : view) : Z * nat :=
    let ws := count_while c_isspace buf in
    let rest := drop ws buf in
    let '(neg, sgn) := match rest with
      | c :: _ => if (c =? 45)%Z then (true, 1) else if (c =? 43)%Z then (false, 1) else (false, 0)
      | [] => (false, 0)
      end in
    let digits := drop sgn rest in
    let n := count_while is_digit digits in
    if n =? 0 then (0%Z, 0)
    else
      let value := digits_value (take n digits) in
      (clamp_i64 (if (neg : bool) then - value else value)%Z, ws + sgn + n).

  (** format1.h:21-33 *)
  Definition parse_i64 (input : view) : res (option (Z * view)) :=
    term ← view_terminate input;
    buf ← str_view term;
    let '(ret, end_) := strtoll buf in
    if end_ =? 0 then Ok None
    else
      rest ← view_sub input end_ (length input);
      Ok (Some (ret, rest)).

  (** format1.h:10-19, 74-86: an enum is its list of names and values; a name
      longer than 31 bytes cannot be a [Literal] (utility.h:602-613). *)
  Section enum.
    Context {E : Type} `{EqDecision E}.
    Definition enum_name (members : list (view * E)) (value : E) : view :=
      fold_left (fun ret m => if decide (value = m.2) then m.1 else ret) members
        [73; 110; 118; 97; 108; 105; 100]%Z.
    Fixpoint parse_enum_loop (members : list (view * E)) (name rest : view) (ret : option (E * view))
        : res (option (E * view)) :=
      match members with
      | [] => Ok ret
      | (check, value) :: ms =>
          b ← view_eq name check;
          parse_enum_loop ms name rest (if (b : bool) then Some (value, rest) else ret)
      end.
    Definition parse_enum (members : list (view * E)) (v : view) : res (option (E * view)) :=
      n ← parse_string v;
      match n with
      | Some (name, rest) => parse_enum_loop members name rest None
      | None => Ok None
      end.
  End enum.
End string.
