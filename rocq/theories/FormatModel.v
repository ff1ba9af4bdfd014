(** Model of rpp/format.h and of the Format::Measure / Format::Write
    specialisations of every rpp type.

    A formattable C++ value is a tree [fval], one constructor per kind of type;
    the C++ type system's homogeneity of containers is not imposed (the model
    covers more trees than C++ has values).  Text produced by [snprintf] for
    floating point numbers and pointers is an arbitrary byte string carried by
    the value; both calls for one value produce the same text.  Lengths are
    naturals: a text of 2^64 bytes cannot be allocated. *)
From Verif Require Import Word MathModel StringModel.
From Coq Require Import Ascii String.
Local Open Scope nat_scope.
Notation length := Datatypes.length.

(** A C++ string literal. *)
Definition txt (s : string) : list Z := (fun a => Z.of_N (N_of_ascii a)) <$> list_ascii_of_string s.
Definition chr (a : ascii) : Z := Z.of_N (N_of_ascii a).
Arguments chr a%char.

(** [snprintf] of an integer with the conversion for its type (C standard):
    decimal digits, '-' for negative values. *)
Fixpoint dec_digits (fuel : nat) (n : Z) (acc : list Z) : list Z :=
  let acc' := ((48 + n mod 10) :: acc)%Z in
  match fuel with
  | 0 => acc'
  | S f => if (n / 10 =? 0)%Z then acc' else dec_digits f (n / 10)%Z acc'
  end.
Definition dec_text (x : Z) : list Z :=
  if (x <? 0)%Z then 45%Z :: dec_digits (Z.to_nat (Z.log2 (- x))) (- x) []
  else dec_digits (Z.to_nat (Z.log2 x)) x [].

Inductive seq_kind := SVec | SSlice | SHeap | SQueue | SStack.
Inductive vect_kind := VectF | VectI | VectU.
Inductive fval :=
| FVoid
| FChar (ch : Z)
| FInt (t : int_ty) (x : Z)
| FFloat (text : list Z)
| FBool (b : bool)
| FArray (xs : list fval)                       (* C arrays and Array<T, N> *)
| FPtr (text : option (list Z))                 (* None: null *)
| FRecord (name : list Z) (fields : list (list Z * fval))
| FEnum (name : list Z) (members : list (list Z * Z)) (value : Z)
| FView (bytes : list Z)                        (* String_View *)
| FString (bytes : list Z)                      (* String *)
| FSeq (k : seq_kind) (xs : list fval)
| FMap (len : nat) (items : list (fval * fval)) (* len: what length() says *)
| FOpt (v : option fval)
| FBox (v : option fval)
| FRef (v : option fval)
| FRc (refs : Z) (v : option fval)
| FArc (refs : Z) (v : option fval)
| FPair (l r : fval)
| FTuple (xs : list fval)
| FVariant (v : fval)                           (* the live alternative *)
| FNamed (name : list Z) (v : fval)
| FFunction (ret : list Z) (args : list (list Z)) (* names of the types *)
| FStorage (name : list Z)
| FVect (k : vect_kind) (xs : list fval)
| FMat4 (rows : list (list fval))
| FQuat (x y z w : fval)
| FBBox (x0 y0 z0 x1 y1 z1 : fval).

(** ** Measure *)
Section measure_loop.
  Context {A : Type} (f : A -> nat).
  (** The loops of vec.h:282-285 and the other containers: [n] counts, [len] is
      the container's length(). *)
  Fixpoint measure_loop (xs : list A) (n len length : nat) : nat :=
    match xs with
    | [] => length
    | x :: xs' => measure_loop xs' (S n) len (length + f x + if n + 1 <? len then 2 else 0)
    end.
  (** tuple.h:140-149: no separators counted *)
  Fixpoint measure_sum (xs : list A) (length : nat) : nat :=
    match xs with
    | [] => length
    | x :: xs' => measure_sum xs' (length + f x)
    end.
End measure_loop.

Definition measure_int (x : Z) : nat := length (dec_text x).

Fixpoint measure (v : fval) : nat :=
  match v with
  | FVoid => 4                                                          (* format.h:66-67 *)
  | FChar _ => 1                                                        (* 68-69 *)
  | FInt _ x => measure_int x                                           (* 70-93 *)
  | FFloat t => length t                                                (* 94-95 *)
  | FBool b => if b then 4 else 5                                       (* 96-97 *)
  | FArray xs => measure_loop measure xs 0 (length xs) 2                (* 98-104, array.h:116-125 *)
  | FPtr None => 6                                                      (* 105-106 *)
  | FPtr (Some t) => 2 + length t                                       (* 107 *)
  | FRecord name fields =>                                              (* 108-112, 32-44 *)
      2 + length name +
        measure_loop (fun '(fname, x) => length (fname : list Z) + 3 + measure x) fields 0 (length fields) 0
  | FEnum name members value =>                                         (* 113-120 *)
      fold_left (fun len m => if (value =? m.2)%Z then len + length (m.1 : list Z) else len) members (length name + 2)
  | FView b => length b                                                 (* string1.h:156-161 *)
  | FString b => length b                                               (* string1.h:162-167 *)
  | FSeq k xs =>
      measure_loop measure xs 0 (length xs)
        match k with
        | SVec => 5                                                     (* vec.h:278-288 *)
        | SSlice => 7                                                   (* slice.h:151-161 *)
        | SHeap => 6                                                    (* heap.h:267-279 *)
        | SQueue => 7                                                   (* queue.h:364-376 *)
        | SStack => 7                                                   (* stack.h:110-122 *)
        end
  | FMap len items =>                                                   (* map.h:485-498 *)
      measure_loop (fun '(k, x) => 5 + (measure k + measure x)) items 0 len 5
  | FOpt (Some x) => 5 + measure x                                      (* opt.h:139-145 *)
  | FOpt None => 9
  | FBox (Some x) => 5 + measure x                                      (* box.h:119-125 *)
  | FBox None => 9
  | FRef (Some x) => 5 + measure x                                      (* ref1.h:36-42 *)
  | FRef None => 9
  | FRc refs (Some x) => 6 + measure x + measure_int refs               (* rc.h:251-259 *)
  | FRc _ None => 8
  | FArc refs (Some x) => 7 + measure x + measure_int refs              (* rc.h:260-268 *)
  | FArc _ None => 9
  | FPair l r => 8 + measure l + measure r                              (* pair.h:84-89 *)
  | FTuple xs =>                                                        (* tuple.h:139-162 *)
      7 + (if 1 <? length xs then 2 * (length xs - 1) else 0) + measure_sum measure xs 0
  | FVariant x => 9 + measure x                                         (* variant.h:213-222 *)
  | FNamed name x => length name + 2 + measure x                        (* variant.h:223-229 *)
  | FFunction ret args =>                                               (* function.h:118-133 *)
      10 + length ret + 2 + measure_sum (fun a : list Z => length a) args 0
        + if 1 <? length args then 2 * (length args - 1) else 0
  | FStorage name => 9 + length name                                    (* storage.h:94-99 *)
  | FVect k xs =>                                                       (* vmath.h:970-993 *)
      measure_loop measure xs 0 (length xs)
        (match k with VectF => 5 | _ => 6 end + measure_int (Z.of_nat (length xs)))
  | FMat4 rows =>                                                       (* vmath.h:994-1009 *)
      measure_loop (fun row => measure_loop measure row 0 (length (row : list fval)) 1 + 1) rows 0 (length rows) 6
  | FQuat x y z w => 12 + measure x + measure y + measure z + measure w (* vmath.h:1010-1020 *)
  | FBBox x0 y0 z0 x1 y1 z1 =>                                          (* vmath.h:1021-1033 *)
      20 + measure x0 + measure y0 + measure z0 + measure x1 + measure y1 + measure z1
  end.

(** ** Write *)
(** The output string and the index of the next byte. *)
Notation out := (str * Z)%type (only parsing).
(** [idx = output.write(idx, text)] and the same with a char *)
Definition put (t : list Z) (o : out) : res out := str_write o.1 o.2 t.
Definition putc (ch : Z) (o : out) : res out := str_write_char o.1 o.2 ch.

(** [Libc::snprintf(dst + off, size, fmt, ...)] whose full text is [text]:
    at most size - 1 bytes of it and a terminating NUL. *)
Definition c_snprintf (dst : list (option Z)) (off size : nat) (text : list Z) : res (list (option Z)) :=
  if size =? 0 then Ok dst
  else memcpy dst off (Some <$> (take (size - 1) text ++ [0%Z])).
(** format.h:20-30 *)
Definition fmt_snprintf (text : list Z) (o : out) : res out :=
  let val_len := length text in
  buffer ← set_length (str_new (val_len + 1)) (val_len + 1);
  d ← c_snprintf (sdata buffer) 0 (slen buffer) text;
  buf ← str_view (mk_str d (slen buffer));
  t ← view_sub buf 0 val_len;
  put t o.

Section write_loop.
  Context {A : Type} (f : A -> out -> res out).
  (** vec.h:294-297 and the other containers *)
  Fixpoint write_loop (xs : list A) (n len : nat) (o : out) : res out :=
    match xs with
    | [] => Ok o
    | x :: xs' =>
        o ← f x o;
        o ← (if n + 1 <? len then put (txt ", ") o else Ok o);
        write_loop xs' (S n) len o
    end.
End write_loop.

Definition write_int (x : Z) (o : out) : res out := fmt_snprintf (dec_text x) o.

(** format.h:183-187 *)
Fixpoint write_enum (members : list (list Z * Z)) (value : Z) (o : out) : res out :=
  match members with
  | [] => Ok o
  | (name, check) :: ms =>
      o ← (if (value =? check)%Z then put name o else Ok o);
      write_enum ms value o
  end.

Fixpoint write_val (v : fval) (o : out) : res out :=
  match v with
  | FVoid => put (txt "void") o                                         (* format.h:130-131 *)
  | FChar ch => putc ch o                                               (* 132-133 *)
  | FInt _ x => write_int x o                                           (* 134-157 *)
  | FFloat t => fmt_snprintf t o                                        (* 158-159 *)
  | FBool b => put (if b then txt "true" else txt "false") o            (* 160-161 *)
  | FArray xs =>                                                        (* 162-168, array.h:126-136 *)
      o ← putc (chr "[") o;
      o ← write_loop write_val xs 0 (length xs) o;
      putc (chr "]") o
  | FPtr None => put (txt "(null)") o                                   (* 170 *)
  | FPtr (Some t) =>                                                    (* 171-173 *)
      o ← putc (chr "(") o;
      d ← c_snprintf (sdata o.1) (Z.to_nat o.2) (slen o.1 - Z.to_nat o.2) t;
      putc (chr ")") (mk_str d (slen o.1), wrap 64 (o.2 + Z.of_nat (length t)))
  | FRecord name fields =>                                              (* 174-179, 46-59 *)
      o ← put name o;
      o ← putc (chr "{") o;
      o ← write_loop (fun '(fname, x) o =>
            o ← put fname o; o ← put (txt " : ") o; write_val x o) fields 0 (length fields) o;
      putc (chr "}") o
  | FEnum name members value =>                                         (* 180-188 *)
      o ← put name o;
      o ← put (txt "::") o;
      write_enum members value o
  | FView b => put b o                                                  (* string1.h:169-174 *)
  | FString b => put b o                                                (* string1.h:175-180 *)
  | FSeq k xs =>
      o ← put match k with
          | SVec => txt "Vec["                                          (* vec.h:290-300 *)
          | SSlice => txt "Slice["                                      (* slice.h:163-173 *)
          | SHeap => txt "Heap["                                        (* heap.h:280-292 *)
          | SQueue => txt "Queue["                                      (* queue.h:377-389 *)
          | SStack => txt "Stack["                                      (* stack.h:123-135 *)
          end o;
      o ← write_loop write_val xs 0 (length xs) o;
      putc (chr "]") o
  | FMap len items =>                                                   (* map.h:500-516 *)
      o ← put (txt "Map[") o;
      o ← write_loop (fun '(k, x) o =>
            o ← put (txt "{") o; o ← write_val k o; o ← put (txt " : ") o;
            o ← write_val x o; putc (chr "}") o) items 0 len o;
      putc (chr "]") o
  | FOpt None => put (txt "Opt{None}") o                                (* opt.h:146-154 *)
  | FOpt (Some x) => o ← put (txt "Opt{") o; o ← write_val x o; putc (chr "}") o
  | FBox None => put (txt "Box{null}") o                                (* box.h:126-134 *)
  | FBox (Some x) => o ← put (txt "Box{") o; o ← write_val x o; putc (chr "}") o
  | FRef None => put (txt "Ref{null}") o                                (* ref1.h:43-51 *)
  | FRef (Some x) => o ← put (txt "Ref{") o; o ← write_val x o; putc (chr "}") o
  | FRc _ None => put (txt "Rc{null}") o                                (* rc.h:270-280 *)
  | FRc refs (Some x) =>
      o ← put (txt "Rc[") o; o ← write_int refs o; o ← put (txt "]{") o; o ← write_val x o; putc (chr "}") o
  | FArc _ None => put (txt "Arc{null}") o                              (* rc.h:281-291 *)
  | FArc refs (Some x) =>
      o ← put (txt "Arc[") o; o ← write_int refs o; o ← put (txt "]{") o; o ← write_val x o; putc (chr "}") o
  | FPair l r =>                                                        (* pair.h:90-99 *)
      o ← put (txt "Pair{") o; o ← write_val l o; o ← put (txt ", ") o; o ← write_val r o; putc (chr "}") o
  | FTuple xs =>                                                        (* tuple.h:164-188 *)
      o ← put (txt "Tuple{") o; o ← write_loop write_val xs 0 (length xs) o; putc (chr "}") o
  | FVariant x => o ← put (txt "Variant{") o; o ← write_val x o; putc (chr "}") o (* variant.h:231-242 *)
  | FNamed name x =>                                                    (* variant.h:243-251 *)
      o ← put name o; o ← putc (chr "{") o; o ← write_val x o; putc (chr "}") o
  | FFunction ret args =>                                               (* function.h:135-164 *)
      o ← put (txt "Function{") o; o ← put ret o; o ← putc (chr "(") o;
      o ← write_loop put args 0 (length args) o;
      o ← putc (chr ")") o; putc (chr "}") o
  | FStorage name => o ← put (txt "Storage<") o; o ← put name o; putc (chr ">") o (* storage.h:100-107 *)
  | FVect k xs =>                                                       (* vmath.h:1035-1073 *)
      o ← put (txt "Vec") o;
      o ← write_int (Z.of_nat (length xs)) o;
      o ← match k with VectF => putc (chr "{") o | VectI => put (txt "i{") o | VectU => put (txt "u{") o end;
      o ← write_loop write_val xs 0 (length xs) o;
      putc (chr "}") o
  | FMat4 rows =>                                                       (* vmath.h:1074-1089 *)
      o ← put (txt "Mat4{") o;
      o ← write_loop (fun row o =>
            o ← putc (chr "{") o; o ← write_loop write_val row 0 (length row) o; putc (chr "}") o)
          rows 0 (length rows) o;
      putc (chr "}") o
  | FQuat x y z w =>                                                    (* vmath.h:1090-1103 *)
      o ← put (txt "Quat{") o;
      o ← write_val x o; o ← put (txt ", ") o; o ← write_val y o; o ← put (txt ", ") o;
      o ← write_val z o; o ← put (txt ", ") o; o ← write_val w o; putc (chr "}") o
  | FBBox x0 y0 z0 x1 y1 z1 =>                                          (* vmath.h:1104-1121 *)
      o ← put (txt "BBox{{") o;
      o ← write_val x0 o; o ← put (txt ", ") o; o ← write_val y0 o; o ← put (txt ", ") o; o ← write_val z0 o;
      o ← put (txt "}, {") o;
      o ← write_val x1 o; o ← put (txt ", ") o; o ← write_val y1 o; o ← put (txt ", ") o; o ← write_val z1 o;
      put (txt "}}") o
  end.

(** ** Templates *)
(** [i + 1 < fmt.length() && fmt[i + 1] == '%'] *)
Definition next_is_percent (fmt : list Z) (i : nat) : bool :=
  (i + 1 <? length fmt) && match fmt !! (i + 1) with Some b => (b =? chr "%")%Z | None => false end.

(** format.h:198-210 *)
Fixpoint write_rest (fmt : list Z) (fuel i : nat) (o : out) : res out :=
  if i <? length fmt then
    match fuel with
    | 0 => Diverge
    | S fuel =>
        b ← view_get fmt i;
        if (b =? chr "%")%Z then
          _ ← assert_ (next_is_percent fmt i);
          o ← putc (chr "%") o;
          write_rest fmt fuel (i + 1 + 1) o
        else
          o ← putc b o;
          write_rest fmt fuel (i + 1) o
    end
  else Ok o.
(** format.h:212-231; [rest] is the recursive call for the other arguments *)
Fixpoint write_arg (fmt : list Z) (arg : fval) (rest : nat -> out -> res out) (fuel i : nat) (o : out) : res out :=
  if i <? length fmt then
    match fuel with
    | 0 => Diverge
    | S fuel =>
        b ← view_get fmt i;
        if (b =? chr "%")%Z then
          if next_is_percent fmt i then
            o ← putc (chr "%") o;
            write_arg fmt arg rest fuel (i + 1 + 1) o
          else
            o ← write_val arg o;
            rest (i + 1) o
        else
          o ← putc b o;
          write_arg fmt arg rest fuel (i + 1) o
    end
  else Ok o.
Fixpoint write_fmt (fmt : list Z) (args : list fval) (i : nat) (o : out) : res out :=
  match args with
  | [] => write_rest fmt (length fmt - i) i o
  | arg :: args' => write_arg fmt arg (write_fmt fmt args') (length fmt - i) i o
  end.

(** format.h:233-250: answers the literal length and the number of arguments *)
Fixpoint parse_fmt (fmt : list Z) (fuel i : nat) (acc : nat * nat) : res (nat * nat) :=
  if i <? length fmt then
    match fuel with
    | 0 => Diverge
    | S fuel =>
        b ← view_get fmt i;
        if (b =? chr "%")%Z then
          if next_is_percent fmt i then parse_fmt fmt fuel (i + 1 + 1) (acc.1 + 1, acc.2)
          else parse_fmt fmt fuel (i + 1) (acc.1, acc.2 + 1)
        else parse_fmt fmt fuel (i + 1) (acc.1 + 1, acc.2)
    end
  else Ok acc.

(** format.h:254-267; the argument-less specialisation checks nothing *)
Definition format_length (fmt : list Z) (args : list fval) : res nat :=
  '(fmt_length, n_args) ← parse_fmt fmt (length fmt) 0 (0, 0);
  match args with
  | [] => Ok fmt_length
  | _ =>
      _ ← assert_ (n_args =? length args);
      Ok (fmt_length + foldr (fun a s => measure a + s) 0 args)
  end.
(** format.h:269-278 *)
Definition format (fmt : list Z) (args : list fval) : res str :=
  len ← format_length fmt args;
  output ← set_length (str_new len) len;
  o ← write_fmt fmt args 0 (output, 0%Z);
  _ ← assert_ (o.2 =? Z.of_nat len)%Z;
  Ok o.1.

(** format.h:298 *)
Fixpoint concat_loop (sep : list Z) (len : nat) (strings : list (list Z)) (o : out) : res out :=
  match strings with
  | [] => Ok o
  | s :: ss =>
      o ← put s o;
      o ← (if (o.2 <? Z.of_nat len)%Z then put sep o else Ok o);
      concat_loop sep len ss o
  end.
(** format.h:285-302 *)
Definition concat (sep : list Z) (strings : list (list Z)) : res str :=
  match strings with
  | [] => Ok (mk_str [] 0)
  | _ =>
      let len := foldr (fun s n => length (s : list Z) + n) 0 strings + length sep * (length strings - 1) in
      output ← set_length (str_new len) len;
      o ← concat_loop sep len strings (output, 0%Z);
      Ok o.1
  end.

(** ** format_typename, format.h:306-437, function.h:166-173 *)
Inductive type_desc :=
| TPlain (name : list Z)
| TConst (t : type_desc) | TVolatile (t : type_desc) | TConstVolatile (t : type_desc)
| TLref (t : type_desc) | TRref (t : type_desc) | TPtr (t : type_desc)
| TArr (t : type_desc) (n : Z)
| TApp (name : list Z) (args : list type_desc)  (* T<Ts...>, allocators left out *)
| TSized (name : list Z) (t : type_desc) (n : Z) (* T<T0, N> *)
| TFun (ret : type_desc) (args : list type_desc).

Definition format_s (fmt : string) (args : list fval) : res (list Z) :=
  s ← format (txt fmt) args; str_view s.
Section names_loop.
  Context (f : type_desc -> res (list Z)).
  Fixpoint all_names (ts : list type_desc) : res (list (list Z)) :=
    match ts with
    | [] => Ok []
    | t :: ts' => n ← f t; ns ← all_names ts'; Ok (n :: ns)
    end.
End names_loop.
(** [TApp] with one argument is format.h:370-388, with two 390-399 and
    420-429, in general 401-409. *)
Fixpoint typename (t : type_desc) : res (list Z) :=
  match t with
  | TPlain name => s ← view_string name; str_view s                     (* 306-312 *)
  | TConst t => n ← typename t; format_s "const %" [FString n]          (* 314-320 *)
  | TVolatile t => n ← typename t; format_s "volatile %" [FString n]    (* 322-328 *)
  | TConstVolatile t => n ← typename t; format_s "const volatile %" [FString n] (* 330-336 *)
  | TLref t => n ← typename t; format_s "%&" [FString n]                (* 338-344 *)
  | TRref t => n ← typename t; format_s "%&&" [FString n]               (* 346-352 *)
  | TPtr t => n ← typename t; format_s "%*" [FString n]                 (* 354-360 *)
  | TArr t k => n ← typename t; format_s "%[%]" [FString n; FInt U64 k] (* 362-368 *)
  | TApp name [t] => n ← typename t; format_s "%<%>" [FView name; FString n]
  | TApp name [t1; t2] =>
      n1 ← typename t1; n2 ← typename t2; format_s "%<%, %>" [FView name; FString n1; FString n2]
  | TApp name ts =>
      ns ← all_names typename ts;
      s ← concat (txt ", ") ns;
      a ← str_view s;
      format_s "%<%>" [FView name; FString a]
  | TSized name t k => n ← typename t; format_s "%<%, %>" [FView name; FString n; FInt U64 k] (* 411-418 *)
  | TFun ret ts =>                                                      (* function.h:166-173 *)
      n ← typename ret;
      ns ← all_names typename ts;
      s ← concat (txt ", ") ns;
      a ← str_view s;
      format_s "Function<%(%)>" [FString n; FString a]
  end.
