(** Objects with an identity, held in inline storage.

    [Opt], [Variant] and [Function] keep their object in a byte array inside
    themselves and construct and destroy it explicitly (rpp/storage.h:43-53,
    rpp/variant.h:120-141, rpp/function.h:56-73).  Here a byte array is either
    without an object or holds one; every object constructed gets a fresh
    number, and the construction and destructor calls are recorded.

    Undefined: reading or destroying storage that holds no object, and
    constructing over an object whose destructor is not trivial. *)
From Verif Require Export Base.
From Coq Require Export ZArith.

(** What a type is like: [Must_Destruct], [Trivially_Movable] and
    [Trivially_Copyable] (rpp/utility.h:516-526). *)
Record kind := Kind { k_md : bool; k_tm : bool; k_tc : bool }.
(** The C++ rules: __is_trivially_constructible also requires a trivial
    destructor, and a trivially copyable type is trivially movable and
    destructible (the types whose move constructor is deleted are left out). *)
Definition kind_ok (k : kind) : Prop :=
  (k_tm k = true -> k_md k = false) /\ (k_tc k = true -> k_tm k = true).

(** A value [None] is what a move leaves behind: valid but unspecified. *)
Record obj := Obj { o_id : nat; o_val : option Z }.
Notation stor := (option obj).
(** [made]: objects constructed whose destructor is not trivial.  [dead]:
    destructor calls, in order.  [emptied]: objects moved from. *)
Record life := Life { next : nat; made : list nat; dead : list nat; emptied : list nat }.
Definition life0 : life := Life 0 [] [] [].

(** [T{...}] *)
Definition make (k : kind) (v : option Z) (l : life) : obj * life :=
  (Obj (next l) v, Life (S (next l)) (if k_md k then made l ++ [next l] else made l) (dead l) (emptied l)).
(** [x.~T()] *)
Definition kill (k : kind) (o : obj) (l : life) : life :=
  Life (next l) (made l) (if k_md k then dead l ++ [o_id o] else dead l) (emptied l).
(** [T{move(x)}]: the new object, what is left in the source.  A trivial move copies. *)
Definition steal (k : kind) (o : obj) (l : life) : obj * obj * life :=
  let '(n, l') := make k (o_val o) l in
  if k_tm k then (n, o, l') else (n, Obj (o_id o) None, Life (next l') (made l') (dead l') (emptied l' ++ [o_id o])).

(** Storage::construct (rpp/storage.h:43-47), and the placement new of variant.h:125 and function.h:64 *)
Definition s_put (k : kind) (s : stor) (o : obj) : res stor :=
  match s with Some _ => if k_md k then UB else Ok (Some o) | None => Ok (Some o) end.
(** Storage::destruct (rpp/storage.h:49-53) *)
Definition s_destruct (k : kind) (s : stor) (l : life) : res (stor * life) :=
  if k_md k then match s with Some o => Ok (None, kill k o l) | None => UB end else Ok (s, l).
(** Storage::operator* (rpp/storage.h:55-60) *)
Definition s_get (s : stor) : res obj := match s with Some o => Ok o | None => UB end.
