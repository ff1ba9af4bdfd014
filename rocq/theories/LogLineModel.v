(** rpp/log.h:81-84 and rpp/impl/log.cpp:106-168: the text of a logged line, over FormatModel.

    A view is what can be read from its pointer to the end of the object it points into, and a length.  The clock is a
    parameter (hour, minute, second): [localtime_r] is not modelled.  printf and strftime are given by the C standard
    for the directives this code uses.  The lengths go to '*' as 64-bit arguments where the C standard asks for an int:
    the low 32 bits are read, as the calling conventions of x86-64 and AArch64 have it.  A printf whose text exceeds
    INT_MAX bytes fails without saying what it wrote: [UB] here.  Locks, callbacks and flushing are in LogModel. *)
From Verif Require Import Word MathModel StringModel FormatModel.
From Coq Require Import Ascii String.
Local Open Scope nat_scope.
Notation length := Datatypes.length.

Record cview := CView { mem : list Z; len : Z }.

(** ** The C library *)
(** What %s reads: up to the NUL ... *)
Fixpoint c_str (m : list Z) : res (list Z) :=
  match m with
  | [] => UB
  | b :: m => if (b =? 0)%Z then Ok [] else t ← c_str m; Ok (b :: t)
  end.
(** ... and with a precision no more than [n] bytes. *)
Fixpoint c_strn (n : nat) (m : list Z) : res (list Z) :=
  match n with
  | 0 => Ok []
  | S n =>
      match m with
      | [] => UB
      | b :: m => if (b =? 0)%Z then Ok [] else t ← c_strn n m; Ok (b :: t)
      end
  end.
(** A negative precision counts as none. *)
Definition c_str_prec (p : Z) (m : list Z) : res (list Z) :=
  if (p <? 0)%Z then c_str m else c_strn (Z.to_nat p) m.
Definition spaces (n : nat) : list Z := replicate n 32%Z.
(** A negative width pads on the right. *)
Definition c_pad (w : Z) (t : list Z) : list Z :=
  let pad := spaces (Z.to_nat (Z.abs w) - length t) in
  if (w <? 0)%Z then t ++ pad else pad ++ t.

Inductive carg := AInt (x : Z) | APtr (m : list Z).
Definition as_int (x : Z) : Z := to_signed 32 x.
Fixpoint printf_loop (fmt : list Z) (args : list carg) : res (list Z) :=
  match fmt with
  | [] => Ok []
  | 37%Z :: 46%Z :: 42%Z :: 115%Z :: fmt =>      (* %.*s *)
      match args with
      | AInt p :: APtr m :: args => t ← c_str_prec (as_int p) m; r ← printf_loop fmt args; Ok (t ++ r)
      | _ => UB
      end
  | 37%Z :: 42%Z :: 115%Z :: fmt =>              (* %*s *)
      match args with
      | AInt w :: APtr m :: args => t ← c_str m; r ← printf_loop fmt args; Ok (c_pad (as_int w) t ++ r)
      | _ => UB
      end
  | 37%Z :: 115%Z :: fmt =>                      (* %s *)
      match args with
      | APtr m :: args => t ← c_str m; r ← printf_loop fmt args; Ok (t ++ r)
      | _ => UB
      end
  | 37%Z :: 122%Z :: 117%Z :: fmt =>             (* %zu *)
      match args with
      | AInt x :: args => r ← printf_loop fmt args; Ok (dec_text (wrap 64 x) ++ r)
      | _ => UB
      end
  | b :: fmt => r ← printf_loop fmt args; Ok (b :: r)
  end.
Definition printf (fmt : list Z) (args : list carg) : res (list Z) :=
  t ← printf_loop fmt args;
  if (Z.of_nat (length t) <? 2 ^ 31)%Z then Ok t else UB.

Record clock := Clock { hour : Z; minute : Z; second : Z }.
Definition two_digits (n : Z) : list Z := [48 + n / 10; 48 + n mod 10]%Z.
Fixpoint strftime_text (fmt : list Z) (tm : clock) : list Z :=
  match fmt with
  | [] => []
  | 37%Z :: 72%Z :: fmt => two_digits (hour tm) ++ strftime_text fmt tm        (* %H *)
  | 37%Z :: 77%Z :: fmt => two_digits (minute tm) ++ strftime_text fmt tm      (* %M *)
  | 37%Z :: 83%Z :: fmt => two_digits (second tm) ++ strftime_text fmt tm      (* %S *)
  | b :: fmt => b :: strftime_text fmt tm
  end.
(** Writes text and NUL when they fit and answers the length of the text, otherwise 0. *)
Definition strftime (buf : list Z) (fmt : list Z) (tm : clock) : list Z * Z :=
  let t := strftime_text fmt tm ++ [0%Z] in
  if decide (length t <= length buf) then (t ++ drop (length t) buf, (Z.of_nat (length t) - 1)%Z) else (buf, 0%Z).

(** ** log.cpp:106-124 *)
(** The buffer belongs to the thread: [buf] before, the first result after; the view is its first [written] bytes. *)
Definition time_buffer : list Z := replicate 64 0%Z.
Definition sys_time_string (buf : list Z) (tm : clock) : res (list Z * Z) :=
  let '(buf, written) := strftime buf (txt "[%H:%M:%S]") tm in
  assert_ ((0 <? written) && (written + 1 <=? 64))%Z;;
  Ok (buf, written).

(** ** log.cpp:126-168 *)
Inductive level := Info | Warn | Fatal.
Definition level_str (l : level) : list Z :=
  match l with Info => txt "info" | Warn => txt "warn" | Fatal => txt "fatal" end.
Definition format_str (l : level) : list Z :=
  match l with
  | Info => txt "%.*s [%s/%zu] [%.*s:%zu]: %*s%.*s" ++ [10%Z]
  | Warn | Fatal => [27%Z] ++ txt "[0;31m%.*s [%s/%zu] [%.*s:%zu]: %*s%.*s" ++ [27%Z] ++ txt "[0m" ++ [10%Z]
  end.
(** What one call sends to stdout, and again to the file.  [indent] is g_log_indent. *)
Definition output (l : level) (buf : list Z) (tm : clock) (thread : Z) (file : cview) (line indent : Z) (msg : cview)
    : res (list Z) :=
  '(buf, n) ← sys_time_string buf tm;
  printf (format_str l)
    [AInt n; APtr buf; APtr (level_str l ++ [0%Z]); AInt thread; AInt (len file); APtr (mem file); AInt line;
     AInt (wrap 64 (indent * 4)); APtr [0%Z]; AInt (len msg); APtr (mem msg)].

(** ** log.h:81-84, 18-34 *)
(** A file name is a literal, so a NUL follows it; a formatted message fills its allocation. *)
Definition literal (t : list Z) : cview := CView (t ++ [0%Z]) (Z.of_nat (length t)).
Definition whole (t : list Z) : cview := CView t (Z.of_nat (length t)).
Record call := Call {
  c_level : level; c_time : clock; c_thread : Z; c_file : list Z; c_line : Z; c_indent : Z;
  c_fmt : list Z; c_args : list fval
}.
Definition log (buf : list Z) (c : call) : res (list Z) :=
  s ← format (c_fmt c) (c_args c);
  v ← str_view s;
  output (c_level c) buf (c_time c) (c_thread c) (literal (c_file c)) (c_line c) (c_indent c) (whole v).
(** A failing [assert(expr)]: log.h:28-34. *)
Definition failed_assert (tm : clock) (thread : Z) (file : list Z) (line indent : Z) (expr : list Z) : call :=
  Call Fatal tm thread file line indent (txt "Assert: %") [FView expr].

(** The calls of one process, in the order they take the lock: what stdout shows. *)
Fixpoint transcript (buf : list Z) (cs : list call) : res (list Z) :=
  match cs with
  | [] => Ok []
  | c :: cs => t ← log buf c; r ← transcript buf cs; Ok (t ++ r)
  end.
