(** Model of rpp/queue.h (Queue): a ring buffer.

    Simplifications: capacities are unbounded naturals and [A::alloc]
    succeeds, so [last_ - length_] is computed by cases instead of modulo
    2^64; [QueueProps.queue_index_arithmetic] proves that the u64 expressions
    of queue.h:335-346, 173 and 227-230 compute the same indices for every
    capacity up to 2^63.  Pointer arithmetic such as [data_ + last_ - length_]
    (105), which may point before the array, is only used by index.
    Destructor calls are always performed, as in VecModel. *)
From Verif Require Import Slots VecModel.

Section queue.
  Context {T : Type}.

  (** rpp/queue.h:348-351 *)
  Record queue := mk_queue { qdata : mem T; qlength : nat; qlast : nat; qcapacity : nat }.

  (** queue.h:19, 348-351 *)
  Definition queue_empty : queue := mk_queue [] 0 0 0.
  (** queue.h:20-25 *)
  Definition queue_with_capacity (cap : nat) : queue := mk_queue (m_alloc cap) 0 0 cap.

  (** queue.h:335-338 *)
  Definition start_idx (q : queue) : nat :=
    if qlength q <=? qlast q then qlast q - qlength q
    else qlast q + qcapacity q - qlength q.
  (** queue.h:339-342 *)
  Definition end_idx (q : queue) : nat :=
    if qcapacity q =? 0 then 0
    else if qlast q =? 0 then qcapacity q - 1 else qlast q - 1.
  (** queue.h:343-346 *)
  Definition idx_at (q : queue) (i : nat) : nat :=
    if qlength q <=? qlast q + i then qlast q + i - qlength q
    else qlast q + i + qcapacity q - qlength q.
  (** the step [i == capacity_ - 1 ? 0 : i + 1] (82, 89, 153, 167, 247) *)
  Definition next_idx (q : queue) (i : nat) : nat :=
    if i =? qcapacity q - 1 then 0 else S i.

  (** [for(i = 0; i < n; i++) new(&dst[doff + i]) T{move(src[soff + i])}]
      (queue.h:118-120, 123-125, 126-128, and the memcpys 109, 112, 113) *)
  Fixpoint move_range (src : mem T) (soff : nat) (dst : mem T) (doff n : nat) : res (mem T * mem T) :=
    match n with
    | 0 => Ok (src, dst)
    | S n' =>
        '(src1, v) ← m_take src soff;
        dst1 ← m_construct dst doff v;
        move_range src1 (S soff) dst1 (S doff) n'
    end.

  (** queue.h:101-136.  [start + capacity_] is the index
      [last_ - length_ + capacity_]. *)
  Definition queue_reserve (q : queue) (new_capacity : nat) : res queue :=
    if new_capacity <=? qcapacity q then Ok q
    else
      let new_data := m_alloc new_capacity in
      '(old, m) ←
        (if qlength q <=? qlast q then
           move_range (qdata q) (qlast q - qlength q) new_data 0 (qlength q)
         else
           let first := qlength q - qlast q in
           '(old1, m1) ← move_range (qdata q) (qlast q + qcapacity q - qlength q) new_data 0 first;
           move_range old1 0 m1 first (qlast q));
      _ ← m_free old;
      Ok (mk_queue m (qlength q) (qlength q) new_capacity).

  (** queue.h:96-99 *)
  Definition queue_grow (q : queue) : res queue :=
    queue_reserve q (match qcapacity q with 0 => 8 | c => 2 * c end).

  (** queue.h:217-225 *)
  Definition queue_is_empty (q : queue) : bool := qlength q =? 0.
  Definition queue_full (q : queue) : bool := qlength q =? qcapacity q.

  (** queue.h:144-155 (push), 157-169 (emplace) *)
  Definition queue_push (q : queue) (x : T) : res queue :=
    q1 ← (if queue_full q then queue_grow q else Ok q);
    m ← m_construct (qdata q1) (qlast q1) x;
    Ok (mk_queue m (S (qlength q1)) (next_idx q1 (qlast q1)) (qcapacity q1)).

  (** queue.h:171-176 *)
  Definition queue_pop (q : queue) : res (queue * list T) :=
    _ ← assert_ (0 <? qlength q);
    let idx := if qlength q <=? qlast q then qlast q - qlength q
               else qlast q + qcapacity q - qlength q in
    '(m, d) ← m_destroy (qdata q) idx;
    Ok (mk_queue m (qlength q - 1) (qlast q) (qcapacity q), d).

  (** queue.h:178-186, iterating with [begin, end) (320-332) *)
  Fixpoint destroy_at (q : queue) (m : mem T) (i n : nat) : res (mem T * list T) :=
    match n with
    | 0 => Ok (m, [])
    | S n' =>
        '(m1, d1) ← m_destroy m (idx_at q i);
        '(m2, d2) ← destroy_at q m1 (S i) n';
        Ok (m2, d1 ++ d2)
    end.
  Definition queue_clear (q : queue) : res (queue * list T) :=
    '(m, d) ← destroy_at q (qdata q) 0 (qlength q);
    Ok (mk_queue m 0 0 (qcapacity q), d).

  (** queue.h:60-65 *)
  Definition queue_destroy (q : queue) : res (queue * list T) :=
    '(q1, d) ← queue_clear q;
    _ ← m_free (qdata q1);
    Ok (queue_empty, d).

  (** queue.h:47-58, distinct objects *)
  Definition queue_move_assign (this src : queue) : res (queue * queue * list T) :=
    '(_, d) ← queue_destroy this;
    Ok (src, queue_empty, d).

  (** queue.h:188-195, 197-204, 206-215, 227-238 *)
  Definition queue_front (q : queue) : res T :=
    _ ← assert_ (negb (queue_is_empty q)); m_read (qdata q) (start_idx q).
  Definition queue_back (q : queue) : res T :=
    _ ← assert_ (negb (queue_is_empty q)); m_read (qdata q) (end_idx q).
  Definition queue_penultimate (q : queue) : res T :=
    _ ← assert_ (1 <? qlength q);
    m_read (qdata q) (if qlast q =? 0 then qcapacity q - 2
                      else if qlast q =? 1 then qcapacity q - 1 else qlast q - 2).
  Definition sub_idx (q : queue) (idx : nat) : nat :=
    let i := idx + start_idx q in if qcapacity q <=? i then i - qcapacity q else i.
  Definition queue_get (q : queue) (idx : nat) : res T :=
    _ ← assert_ (idx <? qlength q); m_read (qdata q) (sub_idx q idx).
  (** [q[idx] = x] *)
  Definition queue_set (q : queue) (idx : nat) (x : T) : res (queue * list T) :=
    _ ← assert_ (idx <? qlength q);
    '(m, d) ← m_assign (qdata q) (sub_idx q idx) x;
    Ok (mk_queue m (qlength q) (qlast q) (qcapacity q), d).

  (** range-based for (queue.h:271-332) *)
  Fixpoint read_at (q : queue) (i n : nat) : res (list T) :=
    match n with
    | 0 => Ok []
    | S n' => x ← m_read (qdata q) (idx_at q i); xs ← read_at q (S i) n'; Ok (x :: xs)
    end.
  Definition queue_iterate (q : queue) : res (list T) := read_at q 0 (qlength q).

  (** queue.h:67-78: clone of a trivially copyable T copies every byte. *)
  Definition queue_clone_trivial (q : queue) : queue := q.

  (** queue.h:79-91: clone of any other T.  The loop runs until the index
      equals [end_idx()]; [fuel] bounds the iterations, the ring having
      [qcapacity] positions. *)
  Fixpoint clone_loop (q : queue) (m : mem T) (fuel i end_ : nat) : res (mem T) :=
    if i =? end_ then Ok m else
    match fuel with
    | 0 => Diverge
    | S fuel' =>
        v ← m_read (qdata q) i;
        m1 ← m_construct m i v;
        clone_loop q m1 fuel' (next_idx q i) end_
    end.
  Definition queue_clone (q : queue) : res queue :=
    m ← clone_loop q (m_alloc (qcapacity q)) (qcapacity q) (start_idx q) (end_idx q);
    Ok (mk_queue m (qlength q) (qlast q) (qcapacity q)).

  (** queue.h:240-269.  [eqb] is [==].  For a trivially movable and
      destructible T ([trivial = true]) the memcpy (250) copies the bytes of
      the slot whatever they hold, and nothing is destroyed (256); otherwise
      the slot is move-constructed over (253) and the match destroyed (257). *)
  Definition copy_slot (m : mem T) (src dst : nat) : res (mem T) :=
    match m !! src with
    | Some s => if dst <? length m then Ok (<[dst:=s]> m) else UB
    | None => UB
    end.
  Fixpoint erase_loop (eqb : T -> T -> bool) (trivial : bool) (q : queue) (value : T)
      (m : mem T) (found : bool) (idx n : nat) : res (mem T * bool * list T) :=
    match n with
    | 0 => Ok (m, found, [])
    | S n' =>
        let next := next_idx q idx in
        if found then
          (if trivial then
             m1 ← copy_slot m idx next;
             erase_loop eqb trivial q value m1 true next n'
           else
             '(m1, v) ← m_take m idx;
             m2 ← m_construct m1 next v;
             erase_loop eqb trivial q value m2 true next n')
        else
          x ← m_read m idx;
          if eqb x value then
            (if trivial then
               '(m3, f, d) ← erase_loop eqb trivial q value m true next n'; Ok (m3, f, x :: d)
             else
               '(m1, d1) ← m_destroy m idx;
               '(m3, f, d) ← erase_loop eqb trivial q value m1 true next n'; Ok (m3, f, d1 ++ d))
          else erase_loop eqb trivial q value m false next n'
    end.
  Definition queue_erase_first (eqb : T -> T -> bool) (trivial : bool) (q : queue) (value : T)
      : res (queue * bool * list T) :=
    '(m, found, d) ← erase_loop eqb trivial q value (qdata q) false (start_idx q) (qlength q);
    Ok (if (found : bool)
        then mk_queue m (qlength q - 1) (if qlast q =? 0 then qcapacity q - 1 else qlast q - 1) (qcapacity q)
        else mk_queue m (qlength q) (qlast q) (qcapacity q), found, d).

  (** queue.h:27-32: the pack constructor *)
  Fixpoint queue_push_all (q : queue) (xs : list T) : res queue :=
    match xs with
    | [] => Ok q
    | x :: xs' => q1 ← queue_push q x; queue_push_all q1 xs'
    end.
  Definition queue_of (xs : list T) : res queue :=
    q ← queue_reserve queue_empty (length xs); queue_push_all q xs.

  (** Histories. *)
  Inductive queue_op :=
  | QPush (x : T) | QPop | QClear | QReserve (n : nat) | QGrow | QSet (i : nat) (x : T)
  | QGet (i : nat) | QFront | QBack | QPenultimate | QLength | QEmpty | QIterate.

  Definition queue_step (q : queue) (o : queue_op) : res (queue * vec_out T * list T) :=
    match o with
    | QPush x => q' ← queue_push q x; Ok (q', VUnit, [])
    | QPop => '(q', ds) ← queue_pop q; Ok (q', VUnit, ds)
    | QClear => '(q', ds) ← queue_clear q; Ok (q', VUnit, ds)
    | QReserve n => q' ← queue_reserve q n; Ok (q', VUnit, [])
    | QGrow => q' ← queue_grow q; Ok (q', VUnit, [])
    | QSet i x => '(q', ds) ← queue_set q i x; Ok (q', VUnit, ds)
    | QGet i => x ← queue_get q i; Ok (q, VVal x, [])
    | QFront => x ← queue_front q; Ok (q, VVal x, [])
    | QBack => x ← queue_back q; Ok (q, VVal x, [])
    | QPenultimate => x ← queue_penultimate q; Ok (q, VVal x, [])
    | QLength => Ok (q, VNat (qlength q), [])
    | QEmpty => Ok (q, VBool (queue_is_empty q), [])
    | QIterate => l ← queue_iterate q; Ok (q, VList l, [])
    end.

  Fixpoint queue_run (q : queue) (os : list queue_op) : res (queue * list (vec_out T) * list T) :=
    match os with
    | [] => Ok (q, [], [])
    | o :: os' =>
        '(q1, out, ds) ← queue_step q o;
        '(q2, outs, ds') ← queue_run q1 os';
        Ok (q2, out :: outs, ds ++ ds')
    end.
End queue.
Arguments queue : clear implicits.
Arguments queue_op : clear implicits.
