(** Thread::Mutex and Thread::Lock: rpp/thread0.h:28-73, rpp/pos/thread_pos.cpp:197-232, over Ref (rpp/ref0.h:10-45).

    Threads, mutexes and Lock variables are numbered.  A pthread mutex of the default kind: locking one that is held, be
    it by the same thread, waits; unlocking one that the caller does not hold is undefined (POSIX).  An event is one
    operation of a thread that takes effect; a thread that waits for a mutex is one whose event leaves the state as it
    is, so every interleaving is a list of events.  Failures of the pthread calls other than EBUSY are not modelled. *)
From Verif Require Import Base.

Definition upd {A} (f : nat -> A) (i : nat) (x : A) : nat -> A := fun j => if decide (j = i) then x else f j.
Inductive obs := Took (t m : nat) | Gave (t m : nat) | Busy (t m : nat).
Record st := St {
  owner : nat -> option nat;             (* who holds a mutex *)
  vars : nat -> option (option nat);     (* the Lock variables alive and their mutex_; [Some None]: a null Ref *)
  log : list obs                         (* ghost: what happened to mutexes, oldest first *)
}.
Definition init : st := St (fun _ => None) (fun _ => None) [].

(** thread_pos.cpp:211-216 *)
Definition lock (t m : nat) (s : st) : option st :=
  match owner s m with
  | None => Some (St (upd (owner s) m (Some t)) (vars s) (log s ++ [Took t m]))
  | Some _ => None
  end.
(** thread_pos.cpp:218-223 *)
Definition unlock (t m : nat) (s : st) : res st :=
  if decide (owner s m = Some t) then Ok (St (upd (owner s) m None) (vars s) (log s ++ [Gave t m])) else UB.

Definition set_var (v : nat) (x : option (option nat)) (s : st) : st := St (owner s) (upd (vars s) v x) (log s).
Definition get (v : nat) (s : st) : res (option nat) := match vars s v with Some x => Ok x | None => UB end.

Inductive event :=
| LockNew (t v m : nat)      (** [Lock v(m)] *)
| MoveNew (t v w : nat)      (** [Lock v(move(w))] *)
| MoveAssign (t v w : nat)   (** [v = move(w)] *)
| End (t v : nat)            (** v goes out of scope *)
| MLock (t m : nat)
| MUnlock (t m : nat)
| MTry (t m : nat).
Definition step (s : st) (e : event) : res st :=
  match e with
  | LockNew t v m =>                                                    (* thread0.h:56-58 *)
      match lock t m s with Some s => Ok (set_var v (Some (Some m)) s) | None => Ok s end
  | MoveNew t v w =>                                                    (* thread0.h:66, ref0.h:23-25 *)
      x ← get w s; Ok (set_var w (Some None) (set_var v (Some x) s))
  | MoveAssign t v w =>                                                 (* thread0.h:67, ref0.h:26-30 *)
      _ ← get v s; x ← get w s;
      Ok (set_var w (Some None) (set_var v (Some x) s))
  | End t v =>                                                          (* thread0.h:59-61 *)
      x ← get v s;
      s ← match x with Some m => unlock t m s | None => Ok s end;
      Ok (set_var v None s)
  | MLock t m => match lock t m s with Some s => Ok s | None => Ok s end
  | MUnlock t m => unlock t m s
  | MTry t m =>                                                         (* thread_pos.cpp:225-232 *)
      match lock t m s with Some s => Ok s | None => Ok (St (owner s) (vars s) (log s ++ [Busy t m])) end
  end.
Fixpoint run (s : st) (es : list event) : res st :=
  match es with [] => Ok s | e :: es => s ← step s e; run s es end.
