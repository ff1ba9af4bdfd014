(** Model of rpp/vec.h (Vec) and rpp/stack.h (Stack).

    Simplifications: lengths and capacities are unbounded naturals, so
    [capacity * sizeof(T)] and [2 * capacity_] do not wrap (a real Vec cannot
    own 2^63 elements), and [A::alloc] succeeds.  Destructor calls are always
    performed; for trivially destructible T the C++ code skips them
    ([if constexpr(Must_Destruct<T>)]), which is the same because such an
    object's lifetime needs no call to end. *)
From Verif Require Import Slots.

Section vec.
  Context {T : Type}.

  (** rpp/vec.h:265-267 *)
  Record vec := mk_vec { data_ : mem T; length_ : nat; capacity_ : nat }.

  (** rpp/vec.h:19 and the member initialisers 265-267 *)
  Definition vec_empty : vec := mk_vec [] 0 0.

  (** rpp/vec.h:21-24 *)
  Definition vec_with_capacity (cap : nat) : vec := mk_vec (m_alloc cap) 0 cap.

  (** [for(i = lo; i < lo + n; i++) data[i].~T()]
      (rpp/vec.h:68-70, 108-110, 151-153) *)
  Fixpoint destroy_loop (m : mem T) (lo n : nat) : res (mem T * list T) :=
    match n with
    | 0 => Ok (m, [])
    | S n' =>
        '(m1, d1) ← m_destroy m lo;
        '(m2, d2) ← destroy_loop m1 (S lo) n';
        Ok (m2, d1 ++ d2)
    end.

  (** [new(&data[lo]) T[n]{}], which constructs n default values
      (rpp/vec.h:31, 149) *)
  Fixpoint fill_loop (m : mem T) (lo n : nat) (d : T) : res (mem T) :=
    match n with
    | 0 => Ok m
    | S n' => m1 ← m_construct m lo d; fill_loop m1 (S lo) n' d
    end.

  (** rpp/vec.h:127-129: move every element to the new storage.  The memcpy
      branch (124) relocates the same elements bitwise; it is modelled by the
      same loop, the source being abandoned in both. *)
  Fixpoint move_loop (src dst : mem T) (i n : nat) : res (mem T * mem T) :=
    match n with
    | 0 => Ok (src, dst)
    | S n' =>
        '(src1, v) ← m_take src i;
        dst1 ← m_construct dst i v;
        move_loop src1 dst1 (S i) n'
    end.

  (** rpp/vec.h:85, 87-89, 92-94: copy every element. *)
  Fixpoint copy_loop (src dst : mem T) (i n : nat) : res (mem T) :=
    match n with
    | 0 => Ok dst
    | S n' =>
        v ← m_read src i;
        dst1 ← m_construct dst i v;
        copy_loop src dst1 (S i) n'
    end.

  (** rpp/vec.h:26-35; [d] is the value-initialised T. *)
  Definition vec_make (d : T) (n : nat) : res vec :=
    m ← fill_loop (m_alloc n) 0 n d;
    Ok (mk_vec m n n).

  (** rpp/vec.h:66-76; returns what the element destructors released. *)
  Definition vec_destroy (v : vec) : res (vec * list T) :=
    '(m, d) ← destroy_loop (data_ v) 0 (length_ v);
    _ ← m_free m;
    Ok (vec_empty, d).

  (** rpp/vec.h:78-97 *)
  Definition vec_clone (v : vec) : res vec :=
    m ← copy_loop (data_ v) (m_alloc (capacity_ v)) 0 (length_ v);
    Ok (mk_vec m (length_ v) (capacity_ v)).

  (** rpp/vec.h:47-54: new object, and what is left in the source. *)
  Definition vec_move (src : vec) : vec * vec := (src, vec_empty).

  (** rpp/vec.h:55-64: [*this = move(src)], distinct objects. *)
  Definition vec_move_assign (this src : vec) : res (vec * vec * list T) :=
    '(_, d) ← vec_destroy this;
    Ok (src, vec_empty, d).

  (** rpp/vec.h:115-136 *)
  Definition vec_reserve (v : vec) (new_capacity : nat) : res vec :=
    if new_capacity <=? capacity_ v then Ok v
    else
      '(old, m) ← move_loop (data_ v) (m_alloc new_capacity) 0 (length_ v);
      _ ← m_free old;
      Ok (mk_vec m (length_ v) new_capacity).

  (** rpp/vec.h:99-104 *)
  Definition vec_grow (v : vec) : res vec :=
    vec_reserve v (match capacity_ v with 0 => 8 | c => 2 * c end).

  (** rpp/vec.h:106-113 *)
  Definition vec_clear (v : vec) : res (vec * list T) :=
    '(m, d) ← destroy_loop (data_ v) 0 (length_ v);
    Ok (mk_vec m 0 (capacity_ v), d).

  (** rpp/vec.h:144-156 *)
  Definition vec_resize (d : T) (v : vec) (new_length : nat) : res (vec * list T) :=
    v1 ← vec_reserve v new_length;
    if length_ v1 <? new_length then
      m ← fill_loop (data_ v1) (length_ v1) (new_length - length_ v1) d;
      Ok (mk_vec m new_length (capacity_ v1), [])
    else
      '(m, ds) ← destroy_loop (data_ v1) new_length (length_ v1 - new_length);
      Ok (mk_vec m new_length (capacity_ v1), ds).

  (** rpp/vec.h:138-142 *)
  Definition vec_extend (d : T) (v : vec) (additional : nat) : res (vec * list T) :=
    vec_resize d v (length_ v + additional).

  (** rpp/vec.h:158-163 *)
  Definition vec_is_empty (v : vec) : bool := length_ v =? 0.
  Definition vec_full (v : vec) : bool := length_ v =? capacity_ v.

  (** rpp/vec.h:164-166 *)
  Definition vec_unsafe_fill (v : vec) : vec :=
    mk_vec (data_ v) (capacity_ v) (capacity_ v).

  (** rpp/vec.h:174-181 (push) and 183-190 (emplace), whose argument does not
      refer into the vector itself. *)
  Definition vec_push (v : vec) (x : T) : res vec :=
    v1 ← (if vec_full v then vec_grow v else Ok v);
    _ ← assert_ (length_ v1 <? capacity_ v1);
    m ← m_construct (data_ v1) (length_ v1) x;
    Ok (mk_vec m (S (length_ v1)) (capacity_ v1)).

  (** rpp/vec.h:168-172, [v.push(v[i])] through [const T&]: the copy [T{value}]
      is made before anything else. *)
  Definition vec_push_own (v : vec) (i : nat) : res vec :=
    x ← m_read (data_ v) i;
    vec_push v x.

  (** rpp/vec.h:183-190, [v.emplace(v[i])]: the argument is a reference into
      the storage; if [grow] replaced (and freed) that storage the reference
      dangles when line 188 uses it. *)
  Definition vec_emplace_own (v : vec) (i : nat) : res vec :=
    if vec_full v then
      v1 ← vec_grow v;
      _ ← assert_ (length_ v1 <? capacity_ v1);
      UB
    else
      _ ← assert_ (length_ v <? capacity_ v);
      x ← m_read (data_ v) i;
      m ← m_construct (data_ v) (length_ v) x;
      Ok (mk_vec m (S (length_ v)) (capacity_ v)).

  (** rpp/vec.h:192-198 *)
  Definition vec_pop (v : vec) : res (vec * list T) :=
    _ ← assert_ (0 <? length_ v);
    '(m, d) ← m_destroy (data_ v) (length_ v - 1);
    Ok (mk_vec m (length_ v - 1) (capacity_ v), d).

  (** rpp/vec.h:200-207, 209-216, 218-225 *)
  Definition vec_front (v : vec) : res T :=
    _ ← assert_ (0 <? length_ v); m_read (data_ v) 0.
  Definition vec_back (v : vec) : res T :=
    _ ← assert_ (0 <? length_ v); m_read (data_ v) (length_ v - 1).
  Definition vec_get (v : vec) (i : nat) : res T :=
    _ ← assert_ (i <? length_ v); m_read (data_ v) i.

  (** [v[i] = x] through rpp/vec.h:218-221 *)
  Definition vec_set (v : vec) (i : nat) (x : T) : res (vec * list T) :=
    _ ← assert_ (i <? length_ v);
    '(m, d) ← m_assign (data_ v) i x;
    Ok (mk_vec m (length_ v) (capacity_ v), d).

  (** Range-based for over [begin(), end()) (rpp/vec.h:227-238). *)
  Fixpoint read_loop (m : mem T) (i n : nat) : res (list T) :=
    match n with
    | 0 => Ok []
    | S n' => x ← m_read m i; xs ← read_loop m (S i) n'; Ok (x :: xs)
    end.
  Definition vec_iterate (v : vec) : res (list T) := read_loop (data_ v) 0 (length_ v).

  (** rpp/vec.h:37-42: the pack constructor. *)
  Fixpoint push_all (v : vec) (xs : list T) : res vec :=
    match xs with
    | [] => Ok v
    | x :: xs' => v1 ← vec_push v x; push_all v1 xs'
    end.
  Definition vec_of (xs : list T) : res vec :=
    v ← vec_reserve vec_empty (length xs); push_all v xs.

  (** The operations of the public interface, for histories. *)
  Inductive vec_op :=
  | VPush (x : T) | VPushOwn (i : nat) | VPop | VClear | VReserve (n : nat) | VGrow
  | VResize (n : nat) | VExtend (n : nat) | VSet (i : nat) (x : T)
  | VReplaceByClone (* v = v.clone() *)
  | VGet (i : nat) | VFront | VBack | VLength | VEmpty | VIterate.

  Inductive vec_out :=
  | VUnit | VVal (x : T) | VNat (n : nat) | VBool (b : bool) | VList (l : list T).

  Definition vec_step (d : T) (v : vec) (o : vec_op) : res (vec * vec_out * list T) :=
    match o with
    | VPush x => v' ← vec_push v x; Ok (v', VUnit, [])
    | VPushOwn i =>
        (* evaluating the argument [v[i]] checks the index, 218-221 *)
        _ ← assert_ (i <? length_ v); v' ← vec_push_own v i; Ok (v', VUnit, [])
    | VPop => '(v', ds) ← vec_pop v; Ok (v', VUnit, ds)
    | VClear => '(v', ds) ← vec_clear v; Ok (v', VUnit, ds)
    | VReserve n => v' ← vec_reserve v n; Ok (v', VUnit, [])
    | VGrow => v' ← vec_grow v; Ok (v', VUnit, [])
    | VResize n => '(v', ds) ← vec_resize d v n; Ok (v', VUnit, ds)
    | VExtend n => '(v', ds) ← vec_extend d v n; Ok (v', VUnit, ds)
    | VSet i x => '(v', ds) ← vec_set v i x; Ok (v', VUnit, ds)
    | VReplaceByClone =>
        c ← vec_clone v; '(v', _, ds) ← vec_move_assign v c; Ok (v', VUnit, ds)
    | VGet i => x ← vec_get v i; Ok (v, VVal x, [])
    | VFront => x ← vec_front v; Ok (v, VVal x, [])
    | VBack => x ← vec_back v; Ok (v, VVal x, [])
    | VLength => Ok (v, VNat (length_ v), [])
    | VEmpty => Ok (v, VBool (vec_is_empty v), [])
    | VIterate => l ← vec_iterate v; Ok (v, VList l, [])
    end.

  (** A program using one vector: run the operations, collecting outputs and
      the values destroyed, and stop at the first [Die] or [UB]. *)
  Fixpoint vec_run (d : T) (v : vec) (os : list vec_op) : res (vec * list vec_out * list T) :=
    match os with
    | [] => Ok (v, [], [])
    | o :: os' =>
        '(v1, out, ds) ← vec_step d v o;
        '(v2, outs, ds') ← vec_run d v1 os';
        Ok (v2, out :: outs, ds ++ ds')
    end.

  (** ** Stack: rpp/stack.h, a Vec used at its end. *)

  (** rpp/stack.h:53-84, 86-97 *)
  Inductive stack_op :=
  | SPush (x : T) | SPop | SClear | STop | SLength | SEmpty | SIterate.

  Definition stack_step (d : T) (v : vec) (o : stack_op) : res (vec * vec_out * list T) :=
    match o with
    | SPush x => vec_step d v (VPush x)      (* stack.h:59-69 *)
    | SPop => vec_step d v VPop              (* stack.h:71-73 *)
    | SClear => vec_step d v VClear          (* stack.h:82-84 *)
    | STop => vec_step d v VBack             (* stack.h:75-80 *)
    | SLength => vec_step d v VLength        (* stack.h:43-45 *)
    | SEmpty => vec_step d v VEmpty          (* stack.h:46-48 *)
    | SIterate => vec_step d v VIterate      (* stack.h:86-97 *)
    end.

  Fixpoint stack_run (d : T) (v : vec) (os : list stack_op) : res (vec * list vec_out * list T) :=
    match os with
    | [] => Ok (v, [], [])
    | o :: os' =>
        '(v1, out, ds) ← stack_step d v o;
        '(v2, outs, ds') ← stack_run d v1 os';
        Ok (v2, out :: outs, ds ++ ds')
    end.

  (** Cost model for growth: elements moved by a push (rpp/vec.h:123-130 moves
      [length_] elements whenever line 177 grows). *)
  Definition push_moves (v : vec) : nat := if vec_full v then length_ v else 0.

  Fixpoint push_all_moves (v : vec) (xs : list T) : res (vec * nat) :=
    match xs with
    | [] => Ok (v, 0)
    | x :: xs' =>
        v1 ← vec_push v x;
        '(v2, n) ← push_all_moves v1 xs';
        Ok (v2, push_moves v + n)
    end.
End vec.
Arguments vec : clear implicits.
Arguments vec_op : clear implicits.
Arguments vec_out : clear implicits.
Arguments stack_op : clear implicits.
