(** What a Queue is supposed to be: a list, entered at the back and left at
    the front. *)
From Verif Require Import Base VecModel QueueModel.

Section spec.
  Context {T : Type}.

  Definition fifo_step (l : list T) (o : queue_op T) : option (list T * vec_out T * list T) :=
    match o with
    | QPush x => Some (l ++ [x], VUnit, [])
    | QPop => match l with [] => None | x :: l' => Some (l', VUnit, [x]) end
    | QClear => Some ([], VUnit, l)
    | QReserve _ | QGrow => Some (l, VUnit, [])
    | QSet i x => y ← l !! i; Some (<[i:=x]> l, VUnit, [y])
    | QGet i => x ← l !! i; Some (l, VVal x, [])
    | QFront => x ← head l; Some (l, VVal x, [])
    | QBack => x ← last l; Some (l, VVal x, [])
    | QPenultimate => if 1 <? length l then x ← l !! (length l - 2); Some (l, VVal x, []) else None
    | QLength => Some (l, VNat (length l), [])
    | QEmpty => Some (l, VBool (bool_decide (l = [])), [])
    | QIterate => Some (l, VList l, [])
    end.

  Fixpoint fifo_run (l : list T) (os : list (queue_op T)) : option (list T * list (vec_out T) * list T) :=
    match os with
    | [] => Some (l, [], [])
    | o :: os' =>
        '(l1, out, ds) ← fifo_step l o;
        '(l2, outs, ds') ← fifo_run l1 os';
        Some (l2, out :: outs, ds ++ ds')
    end.

  (** The values that enter the queue over a history. *)
  Fixpoint fifo_created (os : list (queue_op T)) : list T :=
    match os with
    | [] => []
    | QPush x :: os' => x :: fifo_created os'
    | QSet _ x :: os' => x :: fifo_created os'
    | _ :: os' => fifo_created os'
    end.

  (** Removing the first element that [p] accepts. *)
  Fixpoint remove_first (p : T -> bool) (l : list T) : option (list T) :=
    match l with
    | [] => None
    | x :: l' => if p x then Some l' else l'' ← remove_first p l'; Some (x :: l'')
    end.
End spec.
