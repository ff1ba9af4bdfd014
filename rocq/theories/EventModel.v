(** rpp/pool.h: jobs that wait for events (enqueue_event, do_events), with Event::wait_any of
    rpp/pos/async_pos.cpp.

    An event is the number of the object the system knows it by; a job is a number.  Simplifications: the
    critical sections under events_mut are one step each (nothing else touches these fields); wait_any (pool.h:163)
    happens before the mutex is taken and is a step of its own, which returns the index of any event that is
    signalled; an interrupted or failing system call, which stops the program, is left out; a job handed to
    enqueue is said to be resumed (C48 says what enqueue does with it). *)
From Verif Require Import Base.
Local Open Scope nat_scope.

Inductive obs :=
| ORegister (f j : nat)      (* job j co_awaits event f *)
| OFire (f : nat)            (* event f is signalled *)
| OResume (f j g : nat).     (* wait_any having returned f, job j goes to the pool and event g is destroyed *)
Inductive epc := Waiting | Got (idx : nat) | Exited.
#[export] Instance epc_eq : EqDecision epc. Proof. solve_decision. Defined.
Record est := mk_est {
  pc : epc;
  pending_events : list nat;                 (* pool.h:204; element 0 is the wake event *)
  pending_event_jobs : list nat;             (* pool.h:205 *)
  events_to_enqueue : list (nat * nat);      (* pool.h:206 *)
  signalled : nat -> bool;                   (* what the system knows of each event *)
  shutdown : bool;
  log : list obs                             (* most recent first *)
}.
(** The event pushed at pool.h:68 *)
Definition wake : nat := 0.
(** pool.h:68-69 *)
Definition est_init : est := mk_est Waiting [wake] [] [] (fun _ => false) false [].
Definition upd {A} (f : nat -> A) (i : nat) (x : A) : nat -> A := fun j => if decide (j = i) then x else f j.

(** rpp/utility.h:630-642 on two elements of a Vec; indexing out of range dies *)
Definition swap_at {A} (i j : nat) (l : list A) : res (list A) :=
  match l !! i, l !! j with
  | Some x, Some y => Ok (<[j := x]> (<[i := y]> l))
  | _, _ => Die
  end.
(** Vec::pop *)
Definition pop {A} (l : list A) : res (list A * A) :=
  match last l with Some x => Ok (removelast l, x) | None => Die end.
(** pool.h:136-140.  The Event was moved in, so nobody else can be waiting for it, and it is not the wake event. *)
Definition enqueue_event (f j : nat) (s : est) : est :=
  if decide (f = wake \/ f ∈ pending_events s \/ f ∈ map fst (events_to_enqueue s)) then s
  else mk_est (pc s) (pending_events s) (pending_event_jobs s) (events_to_enqueue s ++ [(f, j)]) (upd (signalled s) wake true) (shutdown s) (ORegister f j :: log s).
(** pool.h:164-187: the critical section after wait_any returned [idx] *)
Definition handle (idx : nat) (s : est) : res est :=
  if decide (idx = 0) then
    if shutdown s then Ok (mk_est Exited (pending_events s) (pending_event_jobs s) (events_to_enqueue s) (signalled s) (shutdown s) (log s))
    else Ok (mk_est Waiting (pending_events s ++ map fst (events_to_enqueue s)) (pending_event_jobs s ++ map snd (events_to_enqueue s)) []
               (upd (signalled s) (default wake (pending_events s !! 0)) false) (shutdown s) (log s))
  else
    match pending_events s !! idx, pending_event_jobs s !! (idx - 1) with
    | Some f, Some j =>
        '(evs, jobs) ← (if decide (2 < length (pending_events s)) then
                         evs ← swap_at idx (length (pending_events s) - 1) (pending_events s);
                         jobs ← swap_at (idx - 1) (length (pending_event_jobs s) - 1) (pending_event_jobs s);
                         Ok (evs, jobs)
                       else Ok (pending_events s, pending_event_jobs s));
        '(evs, g) ← pop evs;
        '(jobs, _) ← pop jobs;
        Ok (mk_est Waiting evs jobs (events_to_enqueue s) (upd (signalled s) g false) (shutdown s) (OResume f j g :: log s))
    | _, _ => Die
    end.
Inductive event :=
| Register (f j : nat)
| Fire (f : nat)              (* somebody signals event f; nobody but the pool signals the wake event *)
| Wait (idx : nat)            (* wait_any returns *)
| Handle
| Stop.                       (* ~Pool: pool.h:72, 80-83 *)
Definition step (s : est) (e : event) : res est :=
  match e with
  | Register f j => Ok (enqueue_event f j s)
  | Fire f => Ok (if decide (f = wake) then s else mk_est (pc s) (pending_events s) (pending_event_jobs s) (events_to_enqueue s) (upd (signalled s) f true) (shutdown s) (OFire f :: log s))
  | Wait idx =>
      Ok match pc s, pending_events s !! idx with
         | Waiting, Some f => if signalled s f then mk_est (Got idx) (pending_events s) (pending_event_jobs s) (events_to_enqueue s) (signalled s) (shutdown s) (log s) else s
         | _, _ => s
         end
  | Handle => match pc s with Got idx => handle idx s | _ => Ok s end
  | Stop => Ok (mk_est (pc s) (pending_events s) (pending_event_jobs s) (events_to_enqueue s) (upd (signalled s) wake true) true (log s))
  end.
Fixpoint run (s : est) (l : list event) : res est :=
  match l with
  | [] => Ok s
  | e :: l => s ← step s e; run s l
  end.
