(** What a Vec and a Stack are supposed to be: a list.  [None] means the call
    breaks its contract (the program must stop). *)
From Verif Require Import Base VecModel.

Section spec.
  Context {T : Type}.

  (** New list, answer, and the values that cease to exist. *)
  Definition list_step (d : T) (l : list T) (o : vec_op T) : option (list T * vec_out T * list T) :=
    match o with
    | VPush x => Some (l ++ [x], VUnit, [])
    | VPushOwn i => x ← l !! i; Some (l ++ [x], VUnit, [])
    | VPop => x ← last l; Some (removelast l, VUnit, [x])
    | VClear => Some ([], VUnit, l)
    | VReserve _ | VGrow => Some (l, VUnit, [])
    | VResize n => Some (take n l ++ replicate (n - length l) d, VUnit, drop n l)
    | VExtend n => Some (l ++ replicate n d, VUnit, [])
    | VSet i x => y ← l !! i; Some (<[i:=x]> l, VUnit, [y])
    | VReplaceByClone => Some (l, VUnit, l)
    | VGet i => x ← l !! i; Some (l, VVal x, [])
    | VFront => x ← head l; Some (l, VVal x, [])
    | VBack => x ← last l; Some (l, VVal x, [])
    | VLength => Some (l, VNat (length l), [])
    | VEmpty => Some (l, VBool (bool_decide (l = [])), [])
    | VIterate => Some (l, VList l, [])
    end.

  Fixpoint list_run (d : T) (l : list T) (os : list (vec_op T)) : option (list T * list (vec_out T) * list T) :=
    match os with
    | [] => Some (l, [], [])
    | o :: os' =>
        '(l1, out, ds) ← list_step d l o;
        '(l2, outs, ds') ← list_run d l1 os';
        Some (l2, out :: outs, ds ++ ds')
    end.

  (** Values that come into existence in a step. *)
  Definition list_created (d : T) (l : list T) (o : vec_op T) : list T :=
    match o with
    | VPush x => [x]
    | VPushOwn i => option_list (l !! i)
    | VResize n => replicate (n - length l) d
    | VExtend n => replicate n d
    | VSet _ x => [x]
    | VReplaceByClone => l
    | _ => []
    end.

  Fixpoint list_run_created (d : T) (l : list T) (os : list (vec_op T)) : list T :=
    match os with
    | [] => []
    | o :: os' =>
        list_created d l o ++
        match list_step d l o with Some (l1, _, _) => list_run_created d l1 os' | None => [] end
    end.

  (** A stack: the list grows and shrinks at its front. *)
  Definition lifo_step (s : list T) (o : stack_op T) : option (list T * vec_out T) :=
    match o with
    | SPush x => Some (x :: s, VUnit)
    | SPop => match s with [] => None | _ :: s' => Some (s', VUnit) end
    | SClear => Some ([], VUnit)
    | STop => match s with [] => None | x :: _ => Some (s, VVal x) end
    | SLength => Some (s, VNat (length s))
    | SEmpty => Some (s, VBool (bool_decide (s = [])))
    | SIterate => Some (s, VList (reverse s))
    end.

  Fixpoint lifo_run (s : list T) (os : list (stack_op T)) : option (list T * list (vec_out T)) :=
    match os with
    | [] => Some (s, [])
    | o :: os' =>
        '(s1, out) ← lifo_step s o;
        '(s2, outs) ← lifo_run s1 os';
        Some (s2, out :: outs)
    end.
End spec.
