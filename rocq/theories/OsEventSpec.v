(** An event is a switch that stays on from signal() until reset(). *)
From stdpp Require Import gmap.
From Verif Require Import Base OsEventModel.

(** The Event objects that exist: [None] for one that was moved from, else its switch. *)
Notation switches := (gmap nat (option bool)).
Definition after (m : switches) (x : op) : switches :=
  match x with
  | New o _ => <[o := Some false]> m
  | Destroy o => delete o m
  | MoveNew o src => <[src := None]> (<[o := default None (m !! src)]> m)
  | MoveAssign o src => <[src := None]> (<[o := default None (m !! src)]> m)
  | Signal o => <[o := Some true]> m
  | Reset o => <[o := Some false]> m
  | TryWait _ | WaitAny _ _ => m
  end.
(** What may be seen of an operation. *)
Definition allowed (m : switches) (x : op) (e : event) : Prop :=
  match x, e with
  | TryWait o, Answer b => m !! o = Some (Some b)
  | WaitAny l _, Woke i => exists o, l !! i = Some o /\ m !! o = Some (Some true)
  | WaitAny l _, Waits => forall o, o ∈ l -> m !! o = Some (Some false)
  | (TryWait _ | WaitAny _ _), _ => False
  | _, e => e = Done
  end.
Fixpoint agrees (m : switches) (l : list op) (es : list event) : Prop :=
  match l, es with
  | [], [] => True
  | x :: l, e :: es => allowed m x e /\ agrees (after m x) l es
  | _, _ => False
  end.
(** Use of objects only while they exist and have an event. *)
Definition has_event (m : switches) (o : nat) : Prop := exists b, m !! o = Some (Some b).
Definition valid (m : switches) (x : op) : Prop :=
  match x with
  | New o _ => m !! o = None
  | Destroy o => is_Some (m !! o)
  | MoveNew o src => m !! o = None /\ is_Some (m !! src)
  | MoveAssign o src => is_Some (m !! o) /\ is_Some (m !! src)
  | Signal o | Reset o | TryWait o => has_event m o
  | WaitAny l _ => l <> [] /\ NoDup l /\ forall o, o ∈ l -> has_event m o
  end.
(** What the platforms cannot do: see the refuted theorems. *)
Definition supported (w : os) (m : switches) (x : op) : Prop :=
  match x, w with
  | MoveAssign o src, _ => o <> src
  | Signal o, Bsd => m !! o = Some (Some false)
  | Reset o, (Linux | Bsd) => m !! o = Some (Some true)
  | TryWait o, (Linux | Bsd) => m !! o = Some (Some false)
  | WaitAny l _, Bsd => length l = 1%nat
  | WaitAny l _, W32 => (length l <= 64)%nat
  | _, _ => True
  end.
Fixpoint proper (w : os) (m : switches) (l : list op) : Prop :=
  match l with [] => True | x :: l => valid m x /\ supported w m x /\ proper w (after m x) l end.
Definition final (m : switches) (l : list op) : switches := foldl after m l.
