(** What is asked of scoped locks. *)
From Verif Require Import Base LockModel.

(** The program is well formed: new variables are new, used ones alive. *)
Definition scoped (s : st) (e : event) : Prop :=
  match e with
  | LockNew _ v _ => vars s v = None
  | MoveNew _ v w => vars s v = None /\ vars s w <> None
  | MoveAssign _ v w => vars s v <> None /\ vars s w <> None
  | End _ v => vars s v <> None
  | _ => True
  end.
(** It keeps the rules of the platform: a mutex is released by the thread that took it, and not behind the back of a
    Lock that refers to it. *)
Definition polite (s : st) (e : event) : Prop :=
  match e with
  | End t v => forall m, vars s v = Some (Some m) -> owner s m = Some t
  | MUnlock t m => owner s m = Some t /\ forall v, vars s v <> Some (Some m)
  | _ => True
  end.
(** It does not assign to a Lock that holds a mutex, nor a Lock to itself. *)
Definition no_overwrite (s : st) (e : event) : Prop :=
  match e with MoveAssign _ v w => vars s v = Some None /\ v <> w | _ => True end.
Inductive reach (P : st -> event -> Prop) : st -> Prop :=
| reach_init : reach P init
| reach_step s e s' : reach P s -> scoped s e -> polite s e -> P s e -> step s e = Ok s' -> reach P s'.
(** Mutexes locked by hand, not through a Lock: the thread that did so *)
Definition by_hand (s : st) (m : nat) : Prop := owner s m <> None /\ forall v, vars s v <> Some (Some m).

(** Who holds [m] after the events of a history; [None] if someone takes it while it is held or gives back what they do
    not hold, or is told that it is busy when it is free *)
Definition mutex_after (m : nat) (h : list obs) : option (option nat) :=
  foldl (fun o x => o ← o;
    match x with
    | Took t m' => if decide (m' = m) then match o with None => Some (Some t) | Some _ => None end else Some o
    | Gave t m' => if decide (m' = m) then if decide (o = Some t) then Some None else None else Some o
    | Busy _ m' => if decide (m' = m) then match o with None => None | Some _ => Some o end else Some o
    end) (Some None) h.
