(** What a program sees of its arrays and slices: lists of elements. *)
From Verif Require Import Word SliceModel.
Open Scope Z_scope.

(** The first [n] elements of [sz] bytes each in a run of bytes *)
Definition elements_of (sz n : nat) (l : list Z) : list elem := map (fun k => take sz (drop (k * sz)%nat l)) (seq 0 n).
Definition array_list (m : list (list Z)) (b : nat) (a : array) : list elem :=
  elements_of (Z.to_nat (asize a)) (Z.to_nat (N a)) (default [] (m !! b)).
Definition view (m : list (list Z)) (s : slice) : list elem :=
  match data_ s with
  | None => []
  | Some (b, o) => elements_of (Z.to_nat (size s)) (Z.to_nat (length_ s)) (drop (Z.to_nat o) (default [] (m !! b)))
  end.
Definition arrays_seen (s : st) : list (list elem) := imap (array_list (mem s)) (arrays s).
Definition views (s : st) : list (list elem) := map (view (mem s)) (slices s).

(** What the compiler checks: the variables exist, elements have the right type, arguments are u64; and an array's
    bytes fit in memory. *)
Definition is_u64 (z : Z) : Prop := 0 <= z < 2 ^ 64.
Definition typed (s : st) (o : op) : Prop :=
  match o with
  | New sz x xs => 0 < sz /\ Forall (fun y => Z.of_nat (length y) = sz) (x :: xs) /\ sz * Z.of_nat (length (x :: xs)) < 2 ^ 63
  | ArrGet a i => (a < length (arrays s))%nat /\ is_u64 i
  | ArrSet a i x => is_u64 i /\ exists r, arrays s !! a = Some r /\ Z.of_nat (length x) = asize r
  | ArrClone a _ | ArrSlice a => (a < length (arrays s))%nat
  | Null sz => 0 < sz
  | Sub i start n => (i < length (slices s))%nat /\ is_u64 start /\ is_u64 n
  | Get i k => (i < length (slices s))%nat /\ is_u64 k
  | Set_ i k x => is_u64 k /\ exists r, slices s !! i = Some r /\ Z.of_nat (length x) = size r
  | Clone i | ToBytes i | Front i | Back i | Length i | Empty i | Bytes i | Elements i => (i < length (slices s))%nat
  end.
(** The sum that sub() forms can be represented *)
Definition small (o : op) : Prop := match o with Sub _ start n => start + n < 2 ^ 64 | _ => True end.

(** The states of well-typed programs *)
Inductive reach (cl : elem -> elem) : st -> Prop :=
| reach_init : reach cl init
| reach_step s o s' r : reach cl s -> typed s o -> small o -> step cl s o = Ok (s', r) -> reach cl s'.

Definition A (s : st) (a : nat) : list elem := default [] (arrays_seen s !! a).
Definition V (s : st) (i : nat) : list elem := default [] (views s !! i).
Definition count (l : list elem) : Z := Z.of_nat (length l).
(** When the program stops *)
Definition stops (s : st) (o : op) : Prop :=
  match o with
  | ArrGet a i | ArrSet a i _ => count (A s a) <= i
  | Sub i start n => count (V s i) < start + n
  | Get i k | Set_ i k _ => count (V s i) <= k
  | Front i | Back i => V s i = []
  | _ => False
  end.
(** What is returned otherwise *)
Definition element (l : list elem) (i : Z) : elem := default [] (l !! Z.to_nat i).
Definition answer (s : st) (o : op) (r : out) : Prop :=
  match o with
  | ArrGet a i => r = Elem (element (A s a) i)
  | Get i k => r = Elem (element (V s i) k)
  | Front i => Some r = Elem <$> head (V s i)
  | Back i => Some r = Elem <$> last (V s i)
  | Length i => r = Number (count (V s i))
  | Empty i => r = Bool (bool_decide (V s i = []))
  | Bytes i => r = Number (Z.of_nat (length (concat (V s i))))
  | Elements i => r = Listing (V s i)
  | _ => r = Nothing
  end.
(** The arrays afterwards *)
Definition arrays_after (cl : elem -> elem) (s : st) (o : op) : list (list elem) :=
  match o with
  | New _ x xs => arrays_seen s ++ [x :: xs]
  | ArrClone a t => arrays_seen s ++ [if t then A s a else map cl (A s a)]
  | ArrSet a i x => alter (fun l => <[Z.to_nat i := x]> l) a (arrays_seen s)
  | _ => arrays_seen s
  end.
(** The slice that is created *)
Definition new_view (s : st) (o : op) : list (list elem) :=
  match o with
  | ArrSlice a => [A s a]
  | Null _ => [[]]
  | Sub i start n => [take (Z.to_nat n) (drop (Z.to_nat start) (V s i))]
  | Clone i => [V s i]
  | ToBytes i => [map (fun b => [b]) (concat (V s i))]
  | _ => []
  end.
Definition writes (o : op) : Prop := match o with ArrSet _ _ _ | Set_ _ _ _ => True | _ => False end.

(** The bytes a slice covers: of which array, and where *)
Definition covers (s : slice) (b : nat) (i : Z) : Prop :=
  exists o, data_ s = Some (b, o) /\ o <= i < o + length_ s * size s.
(** Where a write goes: the array, the first byte, the bytes *)
Definition target (s : st) (o : op) : option (nat * Z * elem) :=
  match o with
  | ArrSet a k x => r ← arrays s !! a; Some (a, k * asize r, x)
  | Set_ j k x => y ← slices s !! j; '(b, p) ← data_ y; Some (b, p + k * size y, x)
  | _ => None
  end.
Close Scope Z_scope.
