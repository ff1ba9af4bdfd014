(** rpp/alloc0.h:119-184, Free_List, and rpp/alloc1.h:26-74, Pool.

    A block is a number.  The memory maps every block currently obtained from
    the base allocator to what it holds: an object, or the [next] pointer of a
    Free_Node (the union at 177-181).  Several lists share the memory.
    Simplification: the base allocator never refuses; Base::alloc always answers
    a block that was never used before, so a block number names one allocation. *)
From Verif Require Import Base.
From stdpp Require Import gmap.

Section model.
  Context {T : Type}.

  Inductive cell := CNext (next : option nat) | CVal (x : T).
  Record fl_state := mk_fl {
    lists : list (option nat);  (* list_ of every Free_List, 183 *)
    mem : gmap nat cell;
    obtained : nat              (* number of calls of Base::alloc *)
  }.
  Definition fl_init (n : nat) : fl_state := mk_fl (replicate n None) ∅ 0.

  Definition head_of (st : fl_state) (i : nat) : res (option nat) :=
    match lists st !! i with Some h => Ok h | None => UB end.
  Definition set_head (st : fl_state) (i : nat) (h : option nat) : fl_state :=
    mk_fl (<[i := h]> (lists st)) (mem st) (obtained st).
  Definition set_cell (st : fl_state) (p : nat) (c : cell) : fl_state :=
    mk_fl (lists st) (<[p := c]> (mem st)) (obtained st).

  (** reading [node->next]: the block must hold a Free_Node *)
  Definition next_of (st : fl_state) (p : nat) : res (option nat) :=
    match mem st !! p with Some (CNext n) => Ok n | _ => UB end.

  (** alloc0.h:161-169; a new block holds nothing yet *)
  Definition fl_alloc (st : fl_state) (i : nat) : res (fl_state * nat) :=
    h ← head_of st i;
    match h with
    | Some ret => n ← next_of st ret; Ok (set_head st i n, ret)
    | None => Ok (mk_fl (lists st) (mem st) (S (obtained st)), obtained st)
    end.
  (** alloc0.h:138-142 *)
  Definition fl_make (st : fl_state) (i : nat) (x : T) : res (fl_state * nat) :=
    '(st, p) ← fl_alloc st i; Ok (set_cell st p (CVal x), p).
  (** alloc0.h:144-149 with free 171-175; answers the object destructed *)
  Definition fl_destroy (st : fl_state) (i p : nat) : res (fl_state * T) :=
    match mem st !! p with
    | Some (CVal x) =>
        h ← head_of st i;
        Ok (set_head (set_cell st p (CNext h)) i (Some p), x)
    | _ => UB
    end.
  (** alloc0.h:151-157; Base::free of a block that is not allocated is undefined.
      Answers the blocks given to Base::free, in order. *)
  Fixpoint clear_loop (fuel : nat) (st : fl_state) (i : nat) : res (fl_state * list nat) :=
    h ← head_of st i;
    match h with
    | None => Ok (st, [])
    | Some p =>
        match fuel with
        | 0 => Diverge
        | S fuel =>
            next ← next_of st p;
            '(st, back) ← clear_loop fuel (set_head (mk_fl (lists st) (delete p (mem st)) (obtained st)) i next) i;
            Ok (st, p :: back)
        end
    end.
  Definition fl_clear (st : fl_state) (i : nat) : res (fl_state * list nat) := clear_loop (size (mem st)) st i.
  (** alloc0.h:131-136: list i is move-assigned from list j *)
  Definition fl_move (st : fl_state) (i j : nat) : res (fl_state * list nat) :=
    '(st, back) ← fl_clear st i;
    h ← head_of st j;
    Ok (set_head (set_head st i h) j None, back).

  Inductive fl_op := FLMake (i : nat) (x : T) | FLDestroy (i p : nat) | FLClear (i : nat) | FLMove (i j : nat).
  (** What the caller sees: the new object's address, the object destructed,
      or the blocks returned to the base allocator. *)
  Inductive fl_out := FLMade (p : nat) | FLDestroyed (x : T) | FLReturned (back : list nat).
  Definition fl_step (st : fl_state) (o : fl_op) : res (fl_state * fl_out) :=
    match o with
    | FLMake i x => '(st, p) ← fl_make st i x; Ok (st, FLMade p)
    | FLDestroy i p => '(st, x) ← fl_destroy st i p; Ok (st, FLDestroyed x)
    | FLClear i => '(st, back) ← fl_clear st i; Ok (st, FLReturned back)
    | FLMove i j => '(st, back) ← fl_move st i j; Ok (st, FLReturned back)
    end.
  Fixpoint fl_run (st : fl_state) (os : list fl_op) : res (fl_state * list fl_out) :=
    match os with
    | [] => Ok (st, [])
    | o :: os' => '(st, x) ← fl_step st o; '(st, xs) ← fl_run st os'; Ok (st, x :: xs)
    end.
End model.
Arguments cell : clear implicits.
Arguments fl_state : clear implicits.
Arguments fl_op : clear implicits.
Arguments fl_out : clear implicits.

(** ** alloc1.h:12-24, the name of a Pool: characters of the literal *)
(** number of digits, 14-17 (fuel: the number of bits) *)
Fixpoint count_digits (fuel : nat) (i n : Z) : Z :=
  match fuel with
  | 0 => n
  | S fuel => if (0 <? i)%Z then count_digits fuel (i / 10)%Z (n + 1)%Z else n
  end.
(** 18-21; max_len is 32 (utility.h:602-627) *)
Fixpoint put_digits (fuel : nat) (N n i : Z) : list Z :=
  match fuel with
  | 0 => []
  | S fuel =>
      if ((0 <? n) && (i <? 31))%Z then (48 + (N / 10 ^ (n - 1)) mod 10)%Z :: put_digits fuel N (n - 1)%Z (i + 1)%Z
      else []
  end.
Definition pool_name (N : Z) : list Z :=
  let n := count_digits 64 N 0 in
  [80; 111; 111; 108; 60]%Z ++ put_digits 64 N n 5 ++ [62]%Z.
