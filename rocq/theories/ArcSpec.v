(** What a user of Arc may rely on. *)
From Verif Require Import Word ArcModel.

Definition cnt (p : nat) (l : list (option nat)) : nat := length (filter (fun h => h = Some p) l).
(** The handles of a thread: its variables, except one whose counter decrement
    has been done by the [drop] in progress. *)
Definition held (th : thread) : list (option nat) :=
  match at_ th with
  | Destroying i _ | Freeing i _ | Nulling i _ => <[i := None]> (vars th)
  | _ => vars th
  end.
(** Number of handles to object [p]: in threads, and on their way between them. *)
Definition handles (st : ast) (p : nat) : nat :=
  list_sum (map (fun th => cnt p (held th)) (threads st)) + cnt p (mail st).
Definition alive (st : ast) (p : nat) : Prop := exists o, objs st !! p = Some o /\ a_life o = Live.
Definition idle (st : ast) : Prop := Forall (fun th => at_ th = Idle) (threads st).
(** The thread is about to run the destructor of [p], or to free its memory. *)
Definition destroys (th : thread) (p : nat) : Prop :=
  exists i k, (at_ th = Destroying i k \/ at_ th = Freeing i k) /\ vars th !! i = Some (Some p).
