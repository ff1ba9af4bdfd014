(** Model of rpp/heap.h (Heap): a binary min-heap in an array.

    Simplifications: capacities are unbounded naturals and [A::alloc]
    succeeds.  Destructor calls are always performed, as in VecModel.  The
    memcpy branches (78, 99, 167) are the element-wise ones.  Heap never
    destroys moved-from objects: [swap] (201-202), [pop] (170) and a later
    [push] (142) construct over them, which [m_place] allows. *)
From Verif Require Import Slots VecModel.

Section heap.
  Context {T : Type}.
  (** [operator<] of T. *)
  Context (ltb : T -> T -> bool).

  (** rpp/heap.h:254-256 *)
  Record heap := mk_heap { hdata : mem T; hlength : nat; hcapacity : nat }.

  (** [new(&data[i]) T{v}] over raw storage or a moved-from object *)
  Definition m_place (m : mem T) (i : nat) (v : T) : res (mem T) :=
    match m !! i with
    | Some Raw | Some Husk => Ok (<[i:=Live v]> m)
    | _ => UB
    end.

  (** heap.h:20, 22-26 *)
  Definition heap_empty : heap := mk_heap [] 0 0.
  Definition heap_with_capacity (cap : nat) : heap := mk_heap (m_alloc cap) 0 cap.

  (** heap.h:197-203 *)
  Definition heap_swap (m : mem T) (a b : nat) : res (mem T) :=
    '(m1, temp) ← m_take m a;
    '(m2, v) ← m_take m1 b;
    m3 ← m_place m2 a v;
    m_place m3 b temp.

  (** heap.h:205-219; [fuel] bounds the iterations of the loop *)
  Fixpoint reheap_up (fuel : nat) (m : mem T) (idx : nat) : res (mem T) :=
    if idx =? 0 then Ok m else
    match fuel with
    | 0 => Diverge
    | S fuel' =>
        let parent_idx := (idx - 1) / 2 in
        elem ← m_read m idx;
        parent ← m_read m parent_idx;
        if ltb elem parent then
          m1 ← heap_swap m idx parent_idx;
          reheap_up fuel' m1 parent_idx
        else Ok m
    end.

  (** heap.h:221-252 *)
  Fixpoint reheap_down (fuel : nat) (m : mem T) (len idx : nat) : res (mem T) :=
    match fuel with
    | 0 => Diverge
    | S fuel' =>
        parent ← m_read m idx;
        let left := idx * 2 + 1 in
        let right := left + 1 in
        if right <? len then
          lchild ← m_read m left;
          rchild ← m_read m right;
          if ltb lchild parent && negb (ltb rchild lchild) then
            m1 ← heap_swap m idx left;
            reheap_down fuel' m1 len left
          else if ltb rchild parent && negb (ltb lchild rchild) then
            m1 ← heap_swap m idx right;
            reheap_down fuel' m1 len right
          else Ok m
        else if left <? len then
          lchild ← m_read m left;
          if ltb lchild parent then heap_swap m idx left else Ok m
        else Ok m
    end.

  (** heap.h:92-110 *)
  Definition heap_reserve (h : heap) (new_capacity : nat) : res heap :=
    if new_capacity <=? hcapacity h then Ok h
    else
      '(old, m) ← move_loop (hdata h) (m_alloc new_capacity) 0 (hlength h);
      _ ← m_free old;
      Ok (mk_heap m (hlength h) new_capacity).

  (** heap.h:112-117 *)
  Definition heap_grow (h : heap) : res heap :=
    heap_reserve h (match hcapacity h with 0 => 8 | c => 2 * c end).

  (** heap.h:128-136 *)
  Definition heap_is_empty (h : heap) : bool := hlength h =? 0.
  Definition heap_full (h : heap) : bool := hlength h =? hcapacity h.

  (** heap.h:138-144 (push), 146-153 (emplace); the fuel is the index *)
  Definition heap_push (h : heap) (x : T) : res heap :=
    h1 ← (if heap_full h then heap_grow h else Ok h);
    m ← m_place (hdata h1) (hlength h1) x;
    m1 ← reheap_up (hlength h1) m (hlength h1);
    Ok (mk_heap m1 (S (hlength h1)) (hcapacity h1)).

  (** heap.h:155-174; the fuel is the new length *)
  Definition heap_pop (h : heap) : res (heap * list T) :=
    _ ← assert_ (0 <? hlength h);
    '(m, d) ← m_destroy (hdata h) 0;
    let len := hlength h - 1 in
    if 0 <? len then
      '(m1, v) ← m_take m len;
      m2 ← m_place m1 0 v;
      m3 ← reheap_down len m2 len 0;
      Ok (mk_heap m3 len (hcapacity h), d)
    else Ok (mk_heap m len (hcapacity h), d).

  (** heap.h:176-181: no check *)
  Definition heap_top (h : heap) : res T := m_read (hdata h) 0.

  (** heap.h:119-126 *)
  Definition heap_clear (h : heap) : res (heap * list T) :=
    '(m, d) ← destroy_loop (hdata h) 0 (hlength h);
    Ok (mk_heap m 0 (hcapacity h), d).

  (** heap.h:57-67 *)
  Definition heap_destroy (h : heap) : res (heap * list T) :=
    '(m, d) ← destroy_loop (hdata h) 0 (hlength h);
    _ ← m_free m;
    Ok (heap_empty, d).

  (** heap.h:69-90 *)
  Definition heap_clone (h : heap) : res heap :=
    m ← copy_loop (hdata h) (m_alloc (hcapacity h)) 0 (hlength h);
    Ok (mk_heap m (hlength h) (hcapacity h)).

  (** heap.h:46-55, distinct objects *)
  Definition heap_move_assign (this src : heap) : res (heap * heap * list T) :=
    '(_, d) ← heap_destroy this;
    Ok (src, heap_empty, d).

  (** range-based for (heap.h:183-194) *)
  Definition heap_iterate (h : heap) : res (list T) := read_loop (hdata h) 0 (hlength h).

  (** heap.h:28-33 *)
  Fixpoint heap_push_all (h : heap) (xs : list T) : res heap :=
    match xs with
    | [] => Ok h
    | x :: xs' => h1 ← heap_push h x; heap_push_all h1 xs'
    end.
  Definition heap_of (xs : list T) : res heap :=
    h ← heap_reserve heap_empty (length xs); heap_push_all h xs.

  (** The client loop [while(!h.empty()) { out.push(h.top()); h.pop(); }] *)
  Fixpoint heap_drain (fuel : nat) (h : heap) : res (list T) :=
    if heap_is_empty h then Ok [] else
    match fuel with
    | 0 => Diverge
    | S fuel' =>
        x ← heap_top h;
        '(h1, _) ← heap_pop h;
        xs ← heap_drain fuel' h1;
        Ok (x :: xs)
    end.

  (** Histories. *)
  Inductive heap_op :=
  | HPush (x : T) | HPop | HTop | HClear | HReserve (n : nat) | HGrow
  | HReplaceByClone (* h = h.clone() *) | HLength | HEmpty | HIterate.

  Definition heap_step (h : heap) (o : heap_op) : res (heap * vec_out T * list T) :=
    match o with
    | HPush x => h' ← heap_push h x; Ok (h', VUnit, [])
    | HPop => '(h', ds) ← heap_pop h; Ok (h', VUnit, ds)
    | HTop => x ← heap_top h; Ok (h, VVal x, [])
    | HClear => '(h', ds) ← heap_clear h; Ok (h', VUnit, ds)
    | HReserve n => h' ← heap_reserve h n; Ok (h', VUnit, [])
    | HGrow => h' ← heap_grow h; Ok (h', VUnit, [])
    | HReplaceByClone => c ← heap_clone h; '(h', _, ds) ← heap_move_assign h c; Ok (h', VUnit, ds)
    | HLength => Ok (h, VNat (hlength h), [])
    | HEmpty => Ok (h, VBool (heap_is_empty h), [])
    | HIterate => l ← heap_iterate h; Ok (h, VList l, [])
    end.

  Fixpoint heap_run (h : heap) (os : list heap_op) : res (heap * list (vec_out T) * list T) :=
    match os with
    | [] => Ok (h, [], [])
    | o :: os' =>
        '(h1, out, ds) ← heap_step h o;
        '(h2, outs, ds') ← heap_run h1 os';
        Ok (h2, out :: outs, ds ++ ds')
    end.
End heap.
Arguments heap : clear implicits.
Arguments heap_op : clear implicits.
