(** Type-level lists (rpp/utility.h:268-389, rpp/reflect.h:100-236) and Tuple (rpp/tuple.h).

    A type is a name, a type list cell, the empty type list or a
    [Constant<u64, N>].  Each struct template specialisation is one case of
    a function; [None] is a template with no matching specialisation, a
    compile error.  Template arguments of type u64 are natural numbers: an
    argument list is far shorter than 2^64. *)
From Verif Require Export Base.

Inductive ty :=
| Name (n : nat)
| Nil
| Cons (h t : ty)
| Constant (n : nat).
Global Instance ty_eq_dec : EqDecision ty.
Proof. solve_decision. Defined.

(** rpp/utility.h:268-276 *)
Definition is_same (l r : ty) : bool := bool_decide (l = r).
(** rpp/utility.h:278-294 *)
Fixpoint all_same (ts : list ty) : bool :=
  match ts with
  | l :: ((r :: _) as rest) => is_same l r && all_same rest
  | [_] | [] => true
  end.
(** rpp/utility.h:296-312 *)
Fixpoint all_are (q : ty) (ts : list ty) : bool :=
  match ts with [] => true | t :: ts => is_same q t && all_are q ts end.
(** rpp/utility.h:314-330 *)
Fixpoint one_is (q : ty) (ts : list ty) : bool :=
  match ts with [] => false | t :: ts => is_same q t || one_is q ts end.
(** rpp/utility.h:345-356 *)
Fixpoint choose (i : nat) (ts : list ty) : option ty :=
  match i, ts with
  | 0, t :: _ => Some t
  | S i, _ :: ts => choose i ts
  | _, [] => None
  end.
(** rpp/utility.h:358-370: requires One_Is at every level *)
Fixpoint index_of (t : ty) (ts : list ty) : option nat :=
  if one_is t ts then
    match ts with
    | [] => None
    | h :: ts => if is_same t h then Some 0 else option_map (fun n => 1 + n) (index_of t ts)
    end
  else None.
(** rpp/utility.h:372-389 *)
Fixpoint distinct (ts : list ty) : bool :=
  match ts with
  | l :: ((_ :: _) as rest) => negb (one_is l rest) && distinct rest
  | [_] | [] => true
  end.
(** [Make_Index_Sequence<N>] (rpp/utility.h:537-538): the compiler builtin. *)
Definition index_sequence (n : nat) : list nat := seq 0 n.

(** rpp/reflect.h:108-121 *)
Fixpoint is_list (t : ty) : bool :=
  match t with Nil => true | Cons _ t => is_list t | _ => false end.
(** rpp/reflect.h:123-134, List 220-221 *)
Fixpoint mk_list (ts : list ty) : ty :=
  match ts with t :: ts => Cons t (mk_list ts) | [] => Nil end.
(** rpp/reflect.h:136-148; [p] is [F::template value] *)
Fixpoint all (p : ty -> bool) (l : ty) : option bool :=
  match l with
  | Nil => Some true
  | Cons h t => option_map (andb (p h)) (all p t)
  | _ => None
  end.
(** rpp/reflect.h:150-174: [f] runs on each type in turn, on a functor with state [s] *)
Fixpoint iter {S} (f : ty -> S -> S) (l : ty) (s : S) : option S :=
  match l with
  | Nil => Some s
  | Cons h t => iter f t (f h s)
  | _ => None
  end.
(** rpp/reflect.h:176-187 *)
Fixpoint length_ (l : ty) : option nat :=
  match l with
  | Nil => Some 0
  | Cons _ t => option_map (fun n => 1 + n) (length_ t)
  | _ => None
  end.
(** rpp/reflect.h:189-200 *)
Fixpoint rerverse (l acc : ty) : option ty :=
  match l with
  | Nil => Some acc
  | Cons h t => rerverse t (Cons h acc)
  | _ => None
  end.
(** rpp/reflect.h:223-224 *)
Definition reverse_ (l : ty) : option ty := if is_list l then rerverse l Nil else None.
(** rpp/reflect.h:202-213 *)
Fixpoint enumerated (n : nat) (ts : list ty) : ty :=
  match ts with [] => Nil | _ :: ts => Cons (Constant n) (enumerated (n + 1) ts) end.
(** rpp/reflect.h:226-227 *)
Definition enumerate (ts : list ty) : ty := enumerated 0 ts.

(** Tuple (rpp/tuple.h:14-129): empty, or [first] and [rest].  Element values
    are of any type [V]. *)
Inductive tuple (V : Type) :=
| TNil
| TCons (first : V) (rest : tuple V).
Arguments TNil {V}.
Arguments TCons {V} first rest.

Section tuple.
  Context {V : Type}.
  (** the constructors at rpp/tuple.h:17, 47-51, 65-69, applied to all arguments *)
  Fixpoint t_make (vs : list V) : tuple V :=
    match vs with [] => TNil | v :: vs => TCons v (t_make vs) end.
  (** rpp/tuple.h:30-32, 83-85: sizeof... of the pack *)
  Fixpoint t_length (t : tuple V) : nat :=
    match t with TNil => 0 | TCons _ rest => 1 + t_length rest end.
  (** rpp/tuple.h:98-111 *)
  Fixpoint t_get (i : nat) (t : tuple V) : option V :=
    match t with
    | TNil => None
    | TCons first rest => match i with 0 => Some first | S i => t_get i rest end
    end.
  (** assignment through the reference [get<I>()] returns (rpp/tuple.h:98-104) *)
  Fixpoint t_set (i : nat) (v : V) (t : tuple V) : option (tuple V) :=
    match t with
    | TNil => None
    | TCons first rest =>
        match i with 0 => Some (TCons v rest) | S i => option_map (TCons first) (t_set i v rest) end
    end.
  (** rpp/tuple.h:26-28, 87-96; [clone] is T::clone or the copy constructor *)
  Fixpoint t_clone (clone : V -> V) (t : tuple V) : tuple V :=
    match t with TNil => TNil | TCons first rest => TCons (clone first) (t_clone clone rest) end.
  (** rpp/tuple.h:34-37, 113-123: the arguments the function is called with *)
  Definition t_invoke (t : tuple V) : option (list V) := mapM (fun i => t_get i t) (index_sequence (t_length t)).

  Context (measure : V -> nat) (write : V -> list nat).
  (** Tuple_Length and Measure (rpp/tuple.h:139-162) *)
  Definition t_measure (t : tuple V) : option nat :=
    let n := t_length t in
    let length := if 1 <? n then 7 + 2 * (n - 1) else 7 in
    option_map (fun l => length + l)
      (iter (fun index l => match index with Constant i => match t_get i t with Some v => l + measure v | None => l end | _ => l end)
         (enumerate (repeat Nil n)) 0).
  (** Tuple_Write and Write (rpp/tuple.h:164-188): the characters written, in
      order; [open_] is "Tuple{", [comma] is ", " and [close] is "}" *)
  Definition t_write (open_ comma close : list nat) (t : tuple V) : option (list nat) :=
    let n := t_length t in
    option_map (fun out => out ++ close)
      (iter (fun index out => match index with
                              | Constant i => match t_get i t with
                                              | Some v => if i + 1 <? n then (out ++ write v) ++ comma else out ++ write v
                                              | None => out end
                              | _ => out end)
         (enumerate (repeat Nil n)) open_).
End tuple.
