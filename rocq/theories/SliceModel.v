(** rpp/slice.h and rpp/array.h.

    Memory is a list of blocks of bytes, one for each Array object; a pointer is a block and an offset in bytes.  An
    element of type T is the list of its sizeof(T) bytes.  Arrays live until the end of the program: what happens when
    a slice outlives the array is not modelled, nor are slices of an initializer list, which always do. *)
From Verif Require Import Word.
Open Scope Z_scope.

Notation elem := (list Z) (only parsing).
Definition ptr : Type := option (nat * Z).
(** slice.h:138-139; [size] is sizeof(T) *)
Record slice := Slice { size : Z; data_ : ptr; length_ : Z }.
(** array.h:109; the block with the number of the array is its [data_] *)
Record array := Array { asize : Z; N : Z }.
Record st := St { mem : list (list Z); arrays : list array; slices : list slice }.

(** [p + k] for a pointer to objects of [sz] bytes: undefined if that is not in the block or one past its end *)
Definition ptr_add (m : list (list Z)) (sz : Z) (p : ptr) (k : Z) : res ptr :=
  match p with
  | None => if k =? 0 then Ok None else UB
  | Some (b, o) =>
      match m !! b with
      | Some block => let o := o + k * sz in if (0 <=? o) && (o <=? Z.of_nat (length block)) then Ok (Some (b, o)) else UB
      | None => UB
      end
  end.
(** reading and writing [*p] *)
Definition load (m : list (list Z)) (sz : Z) (p : ptr) : res elem :=
  match p with
  | None => UB
  | Some (b, o) =>
      match m !! b with
      | Some block =>
          if (0 <=? o) && (o + sz <=? Z.of_nat (length block)) then Ok (take (Z.to_nat sz) (drop (Z.to_nat o) block)) else UB
      | None => UB
      end
  end.
Definition store (m : list (list Z)) (p : ptr) (x : elem) : res (list (list Z)) :=
  match p with
  | None => UB
  | Some (b, o) =>
      match m !! b with
      | Some block =>
          if (0 <=? o) && (o + Z.of_nat (length x) <=? Z.of_nat (length block))
          then Ok (<[b := take (Z.to_nat o) block ++ x ++ drop (Z.to_nat o + length x)%nat block]> m) else UB
      | None => UB
      end
  end.

(** slice.h:79-86; arguments of type u64 are in [0, 2^64) *)
Definition at_ (m : list (list Z)) (s : slice) (idx : Z) : res ptr :=
  assert_ (idx <? length_ s);; ptr_add m (size s) (data_ s) idx.
(** slice.h:70-73 *)
Definition front (m : list (list Z)) (s : slice) : res ptr :=
  assert_ (0 <? length_ s);; ptr_add m (size s) (data_ s) 0.
(** slice.h:74-77 *)
Definition back (m : list (list Z)) (s : slice) : res ptr :=
  assert_ (0 <? length_ s);; ptr_add m (size s) (data_ s) (wrap 64 (length_ s - 1)).
(** slice.h:116-119 *)
Definition sub (m : list (list Z)) (s : slice) (start length : Z) : res slice :=
  assert_ (wrap 64 (start + length) <=? length_ s);;
  p ← ptr_add m (size s) (data_ s) start;
  Ok (Slice (size s) p length).
(** slice.h:112-114 *)
Definition bytes (s : slice) : Z := wrap 64 (length_ s * size s).
(** slice.h:121-135 *)
Definition to_bytes (s : slice) : slice := Slice 1 (data_ s) (wrap 64 (length_ s * size s)).
(** slice.h:62-64 *)
Definition clone (s : slice) : slice := Slice (size s) (data_ s) (length_ s).
(** slice.h:66-68 *)
Definition is_empty (s : slice) : bool := length_ s =? 0.
(** A loop over [begin()] to [end()] (slice.h:95-107) that reads every element *)
Fixpoint read_from (m : list (list Z)) (sz : Z) (p : ptr) (n : nat) : res (list elem) :=
  match n with
  | O => Ok []
  | S n => x ← load m sz p; p ← ptr_add m sz p 1; xs ← read_from m sz p n; Ok (x :: xs)
  end.
Definition elements (m : list (list Z)) (s : slice) : res (list elem) :=
  _ ← ptr_add m (size s) (data_ s) (length_ s);
  read_from m (size s) (data_ s) (Z.to_nat (length_ s)).

(** array.h:68-75 *)
Definition arr_at (m : list (list Z)) (b : nat) (a : array) (idx : Z) : res ptr :=
  assert_ (idx <? N a);; ptr_add m (asize a) (Some (b, 0)) idx.
(** array.h:101-106 *)
Definition arr_slice (b : nat) (a : array) : slice := Slice (asize a) (Some (b, 0)) (N a).
(** array.h:49-66.  [trivial]: Trivially_Copyable<T>; otherwise the elements are cloned (or copied) one by one into
    the default-constructed result, which is the block [b']; [cl] is the bytes of a clone. *)
Fixpoint clone_each (cl : elem -> elem) (m : list (list Z)) (a : array) (b b' : nat) (i : Z) (n : nat) : res (list (list Z)) :=
  match n with
  | O => Ok m
  | S n =>
      src ← ptr_add m (asize a) (Some (b, 0)) i;
      x ← load m (asize a) src;
      dst ← arr_at m b' a i;
      m ← store m dst (cl x);
      clone_each cl m a b b' (i + 1) n
  end.
Definition arr_clone (trivial : bool) (cl : elem -> elem) (m : list (list Z)) (b : nat) (a : array) : res (list (list Z)) :=
  let b' := length m in
  let m := m ++ [replicate (Z.to_nat (asize a * N a)) 0] in
  if trivial then x ← load m (asize a * N a) (Some (b, 0)); store m (Some (b', 0)) x
  else clone_each cl m a b b' 0 (Z.to_nat (N a)).

Inductive op :=
| New (sz : Z) (x : elem) (xs : list elem)   (** Array{x, xs...} (array.h:27-35) *)
| ArrGet (a : nat) (i : Z)
| ArrSet (a : nat) (i : Z) (x : elem)
| ArrClone (a : nat) (trivial : bool)
| ArrSlice (a : nat)
| Null (sz : Z)                              (** Slice<T>{} (slice.h:25) *)
| Sub (s : nat) (start length : Z)
| Clone (s : nat)
| ToBytes (s : nat)
| Get (s : nat) (i : Z)
| Set_ (s : nat) (i : Z) (x : elem)
| Front (s : nat)
| Back (s : nat)
| Length (s : nat)
| Empty (s : nat)
| Bytes (s : nat)
| Elements (s : nat).
Inductive out := Nothing | Elem (x : elem) | Number (n : Z) | Bool (b : bool) | Listing (xs : list elem).

Definition arr (s : st) (a : nat) : res array := match arrays s !! a with Some x => Ok x | None => UB end.
Definition slc (s : st) (i : nat) : res slice := match slices s !! i with Some x => Ok x | None => UB end.
Definition add_slice (s : st) (x : slice) : st := St (mem s) (arrays s) (slices s ++ [x]).

Section step.
  (** The bytes of [x.clone()] *)
  Variable cl : elem -> elem.
  Definition step (s : st) (o : op) : res (st * out) :=
    match o with
    | New sz x xs => Ok (St (mem s ++ [concat (x :: xs)]) (arrays s ++ [Array sz (Z.of_nat (length (x :: xs)))]) (slices s), Nothing)
    | ArrGet a i => r ← arr s a; p ← arr_at (mem s) a r i; x ← load (mem s) (asize r) p; Ok (s, Elem x)
    | ArrSet a i x => r ← arr s a; p ← arr_at (mem s) a r i; m ← store (mem s) p x; Ok (St m (arrays s) (slices s), Nothing)
    | ArrClone a t => r ← arr s a; m ← arr_clone t cl (mem s) a r; Ok (St m (arrays s ++ [r]) (slices s), Nothing)
    | ArrSlice a => r ← arr s a; Ok (add_slice s (arr_slice a r), Nothing)
    | Null sz => Ok (add_slice s (Slice sz None 0), Nothing)
    | Sub i start length => x ← slc s i; y ← sub (mem s) x start length; Ok (add_slice s y, Nothing)
    | Clone i => x ← slc s i; Ok (add_slice s (clone x), Nothing)
    | ToBytes i => x ← slc s i; Ok (add_slice s (to_bytes x), Nothing)
    | Get i k => x ← slc s i; p ← at_ (mem s) x k; e ← load (mem s) (size x) p; Ok (s, Elem e)
    | Set_ i k e => x ← slc s i; p ← at_ (mem s) x k; m ← store (mem s) p e; Ok (St m (arrays s) (slices s), Nothing)
    | Front i => x ← slc s i; p ← front (mem s) x; e ← load (mem s) (size x) p; Ok (s, Elem e)
    | Back i => x ← slc s i; p ← back (mem s) x; e ← load (mem s) (size x) p; Ok (s, Elem e)
    | Length i => x ← slc s i; Ok (s, Number (length_ x))
    | Empty i => x ← slc s i; Ok (s, Bool (is_empty x))
    | Bytes i => x ← slc s i; Ok (s, Number (bytes x))
    | Elements i => x ← slc s i; es ← elements (mem s) x; Ok (s, Listing es)
    end.
  Fixpoint run (s : st) (os : list op) : res st :=
    match os with [] => Ok s | o :: os => '(s, _) ← step s o; run s os end.
End step.
Definition init : st := St [] [] [].
Close Scope Z_scope.
