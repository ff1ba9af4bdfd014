(** What a user of Pool may rely on, told by what happened to the jobs. *)
From Verif Require Import Base PoolModel.
Local Open Scope nat_scope.

(** The jobs given to worker [i], the ones it took, and the ones it ran, in order. *)
Definition pushes (i : nat) (l : list obs) : list nat := concat (map (fun o => match o with OPush k j => if decide (k = i) then [j] else [] | _ => [] end) l).
Definition takes (i : nat) (l : list obs) : list nat := concat (map (fun o => match o with OTake k j => if decide (k = i) then [j] else [] | _ => [] end) l).
Definition runs (i : nat) (l : list obs) : list nat := concat (map (fun o => match o with ORun k j => if decide (k = i) then [j] else [] | _ => [] end) l).
(** All jobs given to workers, run, or destroyed. *)
Definition pushed (l : list obs) : list nat := concat (map (fun o => match o with OPush _ j => [j] | _ => [] end) l).
Definition ran (l : list obs) : list nat := concat (map (fun o => match o with ORun _ j => [j] | _ => [] end) l).
Definition destroyed (l : list obs) : list nat := concat (map (fun o => match o with ODestroy j => [j] | _ => [] end) l).

(** Worker [i] makes a turn: it takes a step while no other thread holds its mutex. *)
Definition its_turn (i : nat) (s : pst) (e : event) : bool :=
  bool_decide (e = StepW i) && match locks s i with Some (HE _) | Some HD => false | _ => true end.
(** ~Pool makes a turn: likewise, for the mutex it wants. *)
Definition d_turn (s : pst) (e : event) : bool :=
  bool_decide (e = StepD) && match ds s with DLock i => match locks s i with Some _ => false | None => true end | _ => true end.
Fixpoint turns (n m : nat) (f : pst -> event -> bool) (s : pst) (l : list event) : nat :=
  match l with
  | [] => 0
  | e :: l => (if f s e then 1 else 0) + match step n m s e with Ok s' => turns n m f s' l | _ => 0 end
  end.
(** A step of the thread that holds a mutex. *)
Definition holder_step (h : holder) (i : nat) (e : event) : bool :=
  match h, e with
  | HW, StepW k => bool_decide (k = i)
  | HE t, StepE u _ _ => bool_decide (u = t)
  | HD, StepD => true
  | _, _ => false
  end.
(** Agent [t] makes a turn: likewise. *)
Definition e_turn (t : nat) (s : pst) (e : event) : bool :=
  match e with
  | StepE u _ _ => bool_decide (u = t) && match es s t with ELock i _ => match locks s i with Some _ => false | None => true end | _ => true end
  | _ => false
  end.
(** The mutex of worker [i] is held by [h] at every moment of a run. *)
Fixpoint held_throughout (n m : nat) (h : holder) (i : nat) (s : pst) (l : list event) : Prop :=
  locks s i = Some h /\
  match l with
  | [] => True
  | e :: l => match step n m s e with Ok s' => held_throughout n m h i s' l | _ => False end
  end.
(** ~Pool has still to signal worker [i]. *)
Definition yet_to_signal (i : nat) (q : dpc) : Prop :=
  match q with DLock k | DSignal k => k <= i | DUnlock k => k < i | _ => False end.
(** The job an agent in the middle of enqueue has not yet given to a worker. *)
Definition carried (q : epc) : option nat := match q with EScan _ j | ELock _ j | EPush _ j => Some j | _ => None end.
