(** Function (rpp/function.h).

    A program is a list of statements over variables of one Function type,
    declared and going out of scope in stack order.  A callable type is a
    number; [kd] says what it is like.  A callable object's captured state is
    an integer, and [code] is its call operator: from its state and the
    argument, the result and its new state. *)
From Verif Require Export Life.

(** rpp/function.h:102-103.  Each callable type has its own vtable (rpp/function.h:61-63), so the vtable
    pointer is the type whose destroy, move and invoke functions it holds, or null. *)
Record fn := Fn { storage : option (nat * obj); vtable : option nat }.
Record st := St { vars : list fn; lf : life }.
Definition st0 : st := St [] life0.

Inductive op :=
| New (f : nat) (v : Z)            (** [Function x{F{v}};] *)
| MoveNew (i : nat)                (** [Function x{move(xi)};] *)
| MoveTo (i j : nat)               (** [xi = move(xj);] *)
| SetTo (i : nat) (f : nat) (v : Z) (** [xi = F{v};] through a temporary Function *)
| Call (i : nat) (a : Z)           (** [xi(a)] *)
| End.                             (** the last variable goes out of scope *)
Inductive out := Nothing | Result (r : Z).

Section function.
  Context (kd : nat -> kind) (code : nat -> Z -> Z -> Z * Z).

  (** Using the bytes as a type they do not hold is undefined. *)
  Definition as_ (f : nat) (s : option (nat * obj)) : res obj :=
    match s with Some (f', o) => if f =? f' then Ok o else UB | None => UB end.
  (** Constructing in the bytes: losing an object that still has its value is undefined; the remains of
      a moved-from object may be overwritten *)
  Definition put (s : option (nat * obj)) (f : nat) (o : obj) : res (option (nat * obj)) :=
    match s with
    | Some (f', o') => if k_md (kd f') then match o_val o' with Some _ => UB | None => Ok (Some (f, o)) end else Ok (Some (f, o))
    | None => Ok (Some (f, o))
    end.
  (** f_destruct (rpp/function.h:83-88) *)
  Definition f_destruct (f : nat) (s : option (nat * obj)) (l : life) : res (option (nat * obj) * life) :=
    o ← as_ f s;
    if k_md (kd f) then Ok (None, kill (kd f) o l) else Ok (s, l).
  (** f_move (rpp/function.h:89-96): the target bytes, what is left in the source bytes *)
  Definition f_move (f : nat) (dst src : option (nat * obj)) (l : life) : res (option (nat * obj) * option (nat * obj) * life) :=
    o ← as_ f src;
    let '(n, o', l) := steal (kd f) o l in
    d ← put dst f n;
    Ok (d, Some (f, o'), l).
  (** f_invoke (rpp/function.h:97-100); calling a moved-from callable is not modelled *)
  Definition f_invoke (f : nat) (s : option (nat * obj)) (a : Z) : res (option (nat * obj) * Z) :=
    o ← as_ f s;
    match o_val o with
    | Some v => let '(r, v') := code f v a in Ok (Some (f, Obj (o_id o) (Some v')), r)
    | None => UB
    end.

  (** Function::destruct (rpp/function.h:67-73) *)
  Definition destruct_ (x : fn) (l : life) : res (fn * life) :=
    '(s, l) ← (match vtable x with Some f => f_destruct f (storage x) l | None => Ok (storage x, l) end);
    Ok (Fn s None, l).
  Definition empty : fn := Fn None None.
  (** Function(F&&) and construct (rpp/function.h:22-26, 56-66) from a temporary, which dies afterwards *)
  Definition of_callable (f : nat) (v : Z) (l : life) : res (fn * life) :=
    let '(tmp, l) := make (kd f) (Some v) l in
    let '(n, tmp, l) := steal (kd f) tmp l in
    s ← put (storage empty) f n;
    Ok (Fn s (Some f), kill (kd f) tmp l).
  (** [if(src.vtable) src.move(storage); vtable = src.vtable; src.vtable = null] (rpp/function.h:35-37, 41-43) *)
  Definition move_into (x src : fn) (l : life) : res (fn * fn * life) :=
    match vtable src with
    | Some f =>
        '(d, s, l) ← f_move f (storage x) (storage src) l;
        Ok (Fn d (Some f), Fn s None, l)
    | None => Ok (Fn (storage x) None, src, l)
    end.

  Definition var (s : st) (i : nat) : res fn := match vars s !! i with Some x => Ok x | None => UB end.
  Definition push (s : st) (x : fn) (l : life) : st := St (vars s ++ [x]) l.
  Definition upd (s : st) (i : nat) (x : fn) (l : life) : st := St (<[i := x]> (vars s)) l.

  Definition step (s : st) (o : op) : res (st * out) :=
    match o with
    | New f v => '(x, l) ← of_callable f v (lf s); Ok (push s x l, Nothing)
    | MoveNew i => (* rpp/function.h:34-38 *)
        src ← var s i;
        '(x, src, l) ← move_into empty src (lf s);
        Ok (push (upd s i src l) x l, Nothing)
    | MoveTo i j => (* rpp/function.h:39-45; for a self-assignment src is this object, already emptied *)
        x ← var s i;
        '(x, l) ← destruct_ x (lf s);
        let s := upd s i x l in
        src ← var s j;
        '(x, src, l) ← move_into x src (lf s);
        Ok (upd (upd s j src l) i x l, Nothing)
    | SetTo i f v =>
        x ← var s i;
        '(tmp, l) ← of_callable f v (lf s);
        '(x, l) ← destruct_ x l;
        '(x, tmp, l) ← move_into x tmp l;
        '(_, l) ← destruct_ tmp l;
        Ok (upd s i x l, Nothing)
    | Call i a => (* rpp/function.h:47-50, 78-81 *)
        x ← var s i;
        match vtable x with
        | Some f => '(b, r) ← f_invoke f (storage x) a; Ok (upd s i (Fn b (Some f)) (lf s), Result r)
        | None => Die
        end
    | End => (* rpp/function.h:27-29 *)
        match last (vars s) with
        | Some x => '(_, l) ← destruct_ x (lf s); Ok (St (take (length (vars s) - 1) (vars s)) l, Nothing)
        | None => UB
        end
    end.
  Fixpoint run (s : st) (os : list op) : res (st * list out) :=
    match os with
    | [] => Ok (s, [])
    | o :: os => '(s, x) ← step s o; '(s, xs) ← run s os; Ok (s, x :: xs)
    end.
End function.
