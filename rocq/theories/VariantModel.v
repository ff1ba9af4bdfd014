(** Variant (rpp/variant.h).

    A program is a list of statements over variables of type [Variant<Ts...>],
    declared and going out of scope in stack order.  [Ts] is the list of
    alternatives, [kd] says what each is like.  Values are integers. *)
From Verif Require Export TypesModel Life.

(** rpp/variant.h:118 *)
Definition INVALID : nat := 255.
(** rpp/variant.h:146-147: the bytes hold an object of some type, or none *)
Record variant := Variant { data : option (ty * obj); index_ : nat }.
Record st := St { vars : list variant; lf : life }.
Definition st0 : st := St [] life0.

Inductive op :=
| New (t : ty) (v : Z)   (** [Variant x{T{v}};] *)
| MoveNew (i : nat)      (** [Variant x{move(xi)};] *)
| CloneNew (i : nat)     (** [auto x = xi.clone();] *)
| MoveTo (i j : nat)     (** [xi = move(xj);] *)
| SetTo (i : nat) (t : ty) (v : Z) (** [xi = T{v};] through a temporary Variant *)
| Match (i : nat)        (** [xi.match(f)]: which handler ran and the value it saw *)
| Put (i : nat) (v : Z)  (** [xi.match([](auto& x) { x = v; })] *)
| TakeOut (i : nat)      (** [move(xi).match([](auto&& x) { auto y = move(x); return value of y; })] *)
| Index (i : nat)
| End.                   (** the last variable goes out of scope *)
Inductive out := Nothing | Saw (t : ty) (v : option Z) | Number (n : nat).

Section variant.
  Context (Ts : list ty) (kd : ty -> kind).
  Notation N := (length Ts).

  Definition all_tm : bool := forallb (fun t => k_tm (kd t)) Ts.
  Definition all_tc : bool := forallb (fun t => k_tc (kd t)) Ts.
  Definition any_md : bool := existsb (fun t => k_md (kd t)) Ts.

  Definition chosen (i : nat) : res ty := match choose i Ts with Some t => Ok t | None => UB end.
  (** Accessors::apply up to 8 alternatives (rpp/variant.h:161-176): the alternative whose handler runs *)
  Definition apply_chain (index : nat) : res ty :=
    let try_ n rest := if (n <? N) && (index =? n) then chosen n else rest in
    try_ 7 (try_ 6 (try_ 5 (try_ 4 (try_ 3 (try_ 2 (try_ 1 (chosen 0))))))).
  (** Accessors::apply_n (rpp/variant.h:191-199) *)
  Definition apply_n (index : nat) : res ty :=
    let table := map chosen (index_sequence N) in
    match table !! index with Some h => h | None => UB end.
  Definition apply (index : nat) : res ty := if N <=? 8 then apply_chain index else apply_n index.
  (** Accessors::apply_one (rpp/variant.h:186-190): using the bytes as a type they do not hold is undefined *)
  Definition apply_one (t : ty) (d : option (ty * obj)) : res obj :=
    match d with Some (t', o) => if bool_decide (t = t') then Ok o else UB | None => UB end.
  (** Variant::match (rpp/variant.h:94-108) *)
  Definition match_ (x : variant) : res (ty * obj) :=
    t ← apply (index_ x); o ← apply_one t (data x); Ok (t, o).

  (** the placement new at rpp/variant.h:125 *)
  Definition put (d : option (ty * obj)) (t : ty) (o : obj) : res (option (ty * obj)) :=
    match d with Some (t', _) => if k_md (kd t') then UB else Ok (Some (t, o)) | None => Ok (Some (t, o)) end.
  (** Variant::construct (rpp/variant.h:120-127): moves from [o], whose remains are returned *)
  Definition construct (x : variant) (t : ty) (o : obj) (l : life) : res (variant * obj * life) :=
    let '(n, o', l) := steal (kd t) o l in
    d ← put (data x) t n;
    match index_of t Ts with
    | Some i => Ok (Variant d (i mod 256), o', l)
    | None => UB
    end.
  (** Variant::destruct (rpp/variant.h:129-141) *)
  Definition destruct_ (x : variant) (l : life) : res (variant * life) :=
    '(d, l) ← (if any_md then
                 if index_ x =? INVALID then Ok (data x, l)
                 else '(t, o) ← match_ x;
                      if k_md (kd t) then Ok (None, kill (kd t) o l) else Ok (data x, l)
               else Ok (data x, l));
    Ok (Variant d INVALID, l).
  (** [memcpy(data_, src.data_, size)] (rpp/variant.h:55, 67, 80): the bytes now hold a copy.  Making an object
      of a type [triv] does not allow for by copying bytes is undefined. *)
  Definition memcpy (triv : kind -> bool) (d : option (ty * obj)) (l : life) : res (option (ty * obj) * life) :=
    match d with
    | Some (t, o) => if triv (kd t) then let '(n, l) := make (kd t) (o_val o) l in Ok (Some (t, n), l) else UB
    | None => Ok (None, l)
    end.

  (** [Variant() = default] (rpp/variant.h:116, 146-147) *)
  Definition empty : variant := Variant None INVALID.
  (** Variant(V&&) (rpp/variant.h:34-38) from a temporary, which dies afterwards *)
  Definition of_value (t : ty) (v : option Z) (l : life) : res (variant * life) :=
    let '(tmp, l) := make (kd t) v l in
    '(x, tmp, l) ← construct empty t tmp l;
    Ok (x, kill (kd t) tmp l).
  (** The body of the move constructor and of move assignment
      (rpp/variant.h:53-58, 65-70): the target, what is left of the source *)
  Definition move_into (x src : variant) (l : life) : res (variant * variant * life) :=
    if all_tm then
      '(d, l) ← memcpy k_tm (data src) l; Ok (Variant d (index_ src), src, l)
    else
      '(t, o) ← match_ src;
      '(x, o', l) ← construct x t o l;
      Ok (x, Variant (Some (t, o')) (index_ src), l).

  Definition var (s : st) (i : nat) : res variant := match vars s !! i with Some x => Ok x | None => UB end.
  Definition push (s : st) (x : variant) (l : life) : st := St (vars s ++ [x]) l.
  Definition upd (s : st) (i : nat) (x : variant) (l : life) : st := St (<[i := x]> (vars s)) l.

  Definition step (s : st) (o : op) : res (st * out) :=
    match o with
    | New t v => '(x, l) ← of_value t (Some v) (lf s); Ok (push s x l, Nothing)
    | MoveNew i => (* rpp/variant.h:50-59 *)
        src ← var s i;
        '(x, src, l) ← move_into empty src (lf s);
        Ok (push (upd s i src l) x l, Nothing)
    | CloneNew i => (* rpp/variant.h:74-92 *)
        src ← var s i;
        if all_tc then
          '(d, l) ← memcpy k_tc (data src) (lf s); Ok (push s (Variant d (index_ src)) l, Nothing)
        else
          '(t, o) ← match_ src;
          '(x, l) ← of_value t (o_val o) (lf s); Ok (push s x l, Nothing)
    | MoveTo i j => (* rpp/variant.h:61-72 *)
        x ← var s i;
        '(x, l) ← destruct_ x (lf s);
        let s := upd s i x l in
        src ← var s j;
        '(x, src, l) ← move_into x src (lf s);
        Ok (upd (upd s j src l) i x l, Nothing)
    | SetTo i t v =>
        x ← var s i;
        '(tmp, l) ← of_value t (Some v) (lf s);
        '(x, l) ← destruct_ x l;
        '(x, tmp, l) ← move_into x tmp l;
        '(_, l) ← destruct_ tmp l;
        Ok (upd s i x l, Nothing)
    | Match i => x ← var s i; '(t, o) ← match_ x; Ok (s, Saw t (o_val o))
    | Put i v =>
        x ← var s i; '(t, o) ← match_ x;
        Ok (upd s i (Variant (Some (t, Obj (o_id o) (Some v))) (index_ x)) (lf s), Nothing)
    | TakeOut i =>
        x ← var s i; '(t, o) ← match_ x;
        let '(n, o', l) := steal (kd t) o (lf s) in
        Ok (upd s i (Variant (Some (t, o')) (index_ x)) (kill (kd t) n l), Saw t (o_val n))
    | Index i => (* rpp/variant.h:110-113 *)
        x ← var s i; _ ← assert_ (negb (index_ x =? INVALID)); Ok (s, Number (index_ x))
    | End => (* rpp/variant.h:39-41 *)
        match last (vars s) with
        | Some x => '(_, l) ← destruct_ x (lf s); Ok (St (take (length (vars s) - 1) (vars s)) l, Nothing)
        | None => UB
        end
    end.
  Fixpoint run (s : st) (os : list op) : res (st * list out) :=
    match os with
    | [] => Ok (s, [])
    | o :: os => '(s, x) ← step s o; '(s, xs) ← run s os; Ok (s, x :: xs)
    end.
End variant.
