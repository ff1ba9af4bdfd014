(** What a user of Task may rely on. *)
From Verif Require Import Base TaskModel.

(** Some Task variable refers to coroutine [c]. *)
Definition owned (s : tst) (c : nat) : Prop := exists v, vars s v = Some (Some c).
(** Agent [b] is suspended in co_await on coroutine [c]. *)
Definition waiting (s : tst) (b c : nat) : Prop := exists v, pcs s b = Waiting v /\ vars s v = Some (Some c).
(** Agent [a] is suspended in a co_await. *)
Definition waits (s : tst) (a : nat) : bool := match pcs s a with Waiting _ => true | _ => false end.
(** Agent [a] is in the middle of a ~Task that will destroy [c]. *)
Definition destroying (s : tst) (a c : nat) : Prop := exists v k, pcs s a = Destroying c v k.
Definition returned (l : list obs) (c x : nat) : Prop := OReturn c x ∈ l.
Definition destroyed (l : list obs) (c : nat) : Prop := ODestroy c ∈ l.
(** The body of [c] has not finished. *)
Definition unfinished (s : tst) (c : nat) : Prop :=
  match pcs s c with Absent | Self_Destroy | Resume _ | Ended => False | _ => True end.
(** What the next co_await or block on [c] has to yield: the value returned, if no
    earlier one has moved it out. *)
Fixpoint result (l : list obs) (c : nat) : option nat :=
  match l with
  | [] => None
  | OReturn d x :: l => if decide (d = c) then Some x else result l c
  | OGot _ d _ :: l => if decide (d = c) then None else result l c
  | _ :: l => result l c
  end.
Definition count (p : obs -> bool) (l : list obs) : nat := length (List.filter p l).
(** How often [a] suspended to wait for a task, and how often it was resumed. *)
Definition suspends (l : list obs) (a : nat) : nat := count (fun o => match o with OSuspend b _ => bool_decide (b = a) | _ => false end) l.
Definition resumes (l : list obs) (a : nat) : nat := count (fun o => match o with OResume _ b => bool_decide (b = a) | _ => false end) l.
(** How often [c] returned, and how often its frame was destroyed. *)
Definition returns (l : list obs) (c : nat) : nat := count (fun o => match o with OReturn d _ => bool_decide (d = c) | _ => false end) l.
Definition destroys (l : list obs) (c : nat) : nat := count (fun o => match o with ODestroy d => bool_decide (d = c) | _ => false end) l.
(** Every entry agrees with what happened before it: a resumption, a result and a
    done() that is true come after the return, and a result is the one due. *)
Fixpoint honest (l : list obs) : Prop :=
  match l with
  | [] => True
  | o :: l => honest l /\
      match o with
      | OGot _ c r => r = result l c /\ exists x, returned l c x
      | OResume c _ | ODestroy c | ODone c true => exists x, returned l c x
      | _ => True
      end
  end.
