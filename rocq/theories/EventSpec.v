(** What a job that waits for an event may rely on. *)
From Verif Require Import Base EventModel.
Local Open Scope nat_scope.

(** The waits begun, and the waits ended. *)
Definition registered (l : list obs) : list (nat * nat) := concat (map (fun o => match o with ORegister f j => [(f, j)] | _ => [] end) l).
Definition resumed (l : list obs) : list (nat * nat) := concat (map (fun o => match o with OResume f j _ => [(f, j)] | _ => [] end) l).
(** [f] has been signalled and nobody has been resumed for it since. *)
Fixpoint fired (f : nat) (l : list obs) : Prop :=
  match l with
  | [] => False
  | OFire g :: l => g = f \/ fired f l
  | OResume g _ _ :: l => g <> f /\ fired f l
  | _ :: l => fired f l
  end.
(** [j] waits for [f]. *)
Fixpoint waits (f j : nat) (l : list obs) : Prop :=
  match l with
  | [] => False
  | ORegister g k :: l => (g = f /\ k = j) \/ waits f j l
  | OResume g _ _ :: l => g <> f /\ waits f j l
  | _ :: l => waits f j l
  end.
(** Every resumption is of a job that waits for the very event that fired, whose event is then destroyed. *)
Fixpoint honest (l : list obs) : Prop :=
  match l with
  | [] => True
  | OResume f j g :: l => honest l /\ g = f /\ fired f l /\ waits f j l
  | _ :: l => honest l
  end.
(** The event thread is blocked: wait_any can return nothing. *)
Definition blocked (s : est) : Prop := pc s = Waiting /\ forall idx s', step s (Wait idx) = Ok s' -> s' = s.
(** How often the event thread goes round its loop. *)
Fixpoint rounds (s : est) (l : list event) : nat :=
  match l with
  | [] => 0
  | e :: l => match pc s, e with Got _, Handle => 1 | _, _ => 0 end + match step s e with Ok s' => rounds s' l | _ => 0 end
  end.
