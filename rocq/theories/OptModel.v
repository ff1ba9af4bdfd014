(** Opt (rpp/opt.h) over Storage (rpp/storage.h).

    A program is a list of statements over variables of type [Opt<T>], declared
    and going out of scope in stack order.  [k] says what T is like.  T's value
    is an integer. *)
From Verif Require Export Life.

(** rpp/opt.h:128-129 *)
Record opt := Opt { ok_ : bool; value_ : stor }.
Record st := St { opts : list opt; lf : life }.
Definition st0 : st := St [] life0.

Inductive op :=
| Var              (** [Opt<T> x;] *)
| New (v : Z)      (** [Opt<T> x{v};] constructing T from arguments *)
| Wrap (v : Z)     (** [Opt<T> x{T{v}};] moving a temporary *)
| MoveNew (i : nat)  (** [Opt<T> x{move(xi)};] *)
| CopyNew (i : nat)  (** [Opt<T> x{xi};] *)
| CloneNew (i : nat) (** [auto x = xi.clone();] *)
| MoveTo (i j : nat) (** [xi = move(xj);] *)
| CopyTo (i j : nat) (** [xi = xj;] *)
| SetTo (i : nat) (v : Z)   (** [xi = T{v};] *)
| Emplace (i : nat) (v : Z) (** [xi.emplace(v);] *)
| SetOwn (i : nat)          (** [xi = move( *xi );] *)
| Clear (i : nat)
| IsOk (i : nat)
| Get (i : nat)             (** [*xi] read *)
| Put (i : nat) (v : Z)     (** [*xi = v] *)
| ValueOr (i : nat) (v : Z) (** [xi.value_or(t)] with t = v, read *)
| End.                      (** the last variable goes out of scope *)
Inductive out := Nothing | Bool (b : bool) | Val (v : option Z).

(** Opt::clear (rpp/opt.h:81-86) *)
Definition clear (k : kind) (p : opt) (l : life) : res (opt * life) :=
  '(s, l) ← (if k_md k then if ok_ p then s_destruct k (value_ p) l else Ok (value_ p, l) else Ok (value_ p, l));
  Ok (Opt false s, l).
(** [value_.construct(args...); ok_ = true] (rpp/opt.h:77-78, 26-30) *)
Definition construct (k : kind) (p : opt) (v : option Z) (l : life) : res (opt * life) :=
  let '(o, l) := make k v l in
  s ← s_put k (value_ p) o;
  Ok (Opt true s, l).
(** [value_.construct(move( *src )); ok_ = true] (rpp/opt.h:47-48, 57-58, 67-68): also what is left in the source *)
Definition construct_from (k : kind) (p : opt) (src : stor) (l : life) : res (opt * stor * life) :=
  o ← s_get src;
  let '(n, o', l) := steal k o l in
  s ← s_put k (value_ p) n;
  Ok (Opt true s, Some o', l).

Definition var (s : st) (i : nat) : res opt := match opts s !! i with Some p => Ok p | None => UB end.
Definition push (s : st) (p : opt) (l : life) : st := St (opts s ++ [p]) l.
Definition upd (s : st) (i : nat) (p : opt) (l : life) : st := St (<[i := p]> (opts s)) l.
(** [Opt() = default] (rpp/opt.h:19, 128) *)
Definition empty : opt := Opt false None.

Definition step (k : kind) (s : st) (o : op) : res (st * out) :=
  match o with
  | Var => Ok (push s empty (lf s), Nothing)
  | New v =>
      '(p, l) ← construct k empty (Some v) (lf s); Ok (push s p l, Nothing)
  | Wrap v => (* rpp/opt.h:21-24; the temporary dies at the end of the statement *)
      let '(t, l) := make k (Some v) (lf s) in
      '(p, t, l) ← construct_from k empty (Some t) l;
      '(_, l) ← s_destruct k t l;
      Ok (push s p l, Nothing)
  | MoveNew i => (* rpp/opt.h:43-50 *)
      src ← var s i;
      if ok_ src then
        '(p, t, l) ← construct_from k empty (value_ src) (lf s);
        Ok (push (upd s i (Opt true t) l) p l, Nothing)
      else Ok (push s empty (lf s), Nothing)
  | CopyNew i => (* rpp/opt.h:36-38: memberwise, so the bytes are copied (rpp/storage.h:29-31) *)
      if k_tc k then
        src ← var s i;
        match value_ src with
        | Some o => let '(n, l) := make k (o_val o) (lf s) in Ok (push s (Opt (ok_ src) (Some n)) l, Nothing)
        | None => Ok (push s (Opt (ok_ src) None) (lf s), Nothing)
        end
      else UB
  | CloneNew i => (* rpp/opt.h:88-98, the clone being constructed in place *)
      src ← var s i;
      if ok_ src then
        o ← s_get (value_ src);
        '(p, l) ← construct k empty (o_val o) (lf s); Ok (push s p l, Nothing)
      else Ok (push s empty (lf s), Nothing)
  | MoveTo i j => (* rpp/opt.h:52-61 *)
      p ← var s i;
      '(p, l) ← clear k p (lf s);
      let s := upd s i p l in
      src ← var s j;
      if ok_ src then
        '(p, t, l) ← construct_from k p (value_ src) (lf s);
        Ok (upd (upd s j (Opt true t) l) i p l, Nothing)
      else Ok (s, Nothing)
  | CopyTo i j => (* rpp/opt.h:39-41, 32-34: memberwise *)
      if k_tc k then
        p ← var s i;
        src ← var s j;
        match value_ src with
        | Some o => let '(n, l) := make k (o_val o) (lf s) in Ok (upd s i (Opt (ok_ src) (Some n)) l, Nothing)
        | None => Ok (upd s i (Opt (ok_ src) None) (lf s), Nothing)
        end
      else UB
  | SetTo i v => (* rpp/opt.h:63-70 *)
      p ← var s i;
      let '(t, l) := make k (Some v) (lf s) in
      '(p, l) ← clear k p l;
      '(p, t, l) ← construct_from k p (Some t) l;
      '(_, l) ← s_destruct k t l;
      Ok (upd s i p l, Nothing)
  | Emplace i v => (* rpp/opt.h:72-79 *)
      p ← var s i;
      '(p, l) ← clear k p (lf s);
      '(p, l) ← construct k p (Some v) l;
      Ok (upd s i p l, Nothing)
  | SetOwn i => (* rpp/opt.h:63-70 with the reference into the Opt itself *)
      p ← var s i;
      _ ← assert_ (ok_ p);
      '(p, l) ← clear k p (lf s);
      '(p, _, l) ← construct_from k p (value_ p) l;
      Ok (upd s i p l, Nothing)
  | Clear i =>
      p ← var s i;
      '(p, l) ← clear k p (lf s);
      Ok (upd s i p l, Nothing)
  | IsOk i => p ← var s i; Ok (s, Bool (ok_ p)) (* rpp/opt.h:123-125 *)
  | Get i => (* rpp/opt.h:105-121 *)
      p ← var s i; _ ← assert_ (ok_ p); o ← s_get (value_ p); Ok (s, Val (o_val o))
  | Put i v => (* rpp/opt.h:105-108 and T's assignment *)
      p ← var s i; _ ← assert_ (ok_ p); o ← s_get (value_ p);
      Ok (upd s i (Opt true (Some (Obj (o_id o) (Some v)))) (lf s), Nothing)
  | ValueOr i v => (* rpp/opt.h:100-103 *)
      p ← var s i;
      if ok_ p then o ← s_get (value_ p); Ok (s, Val (o_val o)) else Ok (s, Val (Some v))
  | End => (* rpp/opt.h:32-34 *)
      match last (opts s) with
      | Some p => '(_, l) ← clear k p (lf s); Ok (St (take (length (opts s) - 1) (opts s)) l, Nothing)
      | None => UB
      end
  end.
Fixpoint run (k : kind) (s : st) (os : list op) : res (st * list out) :=
  match os with
  | [] => Ok (s, [])
  | o :: os => '(s, x) ← step k s o; '(s, xs) ← run k s os; Ok (s, x :: xs)
  end.
