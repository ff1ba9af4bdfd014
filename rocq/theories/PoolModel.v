(** rpp/pool.h, Async::Pool: workers, enqueue, and shutdown, under every
    interleaving.

    [n] workers run do_work, any number of agents (threads, jobs running on
    workers, the event thread) run enqueue, and one thread destroys the pool.  A
    step is one operation on shared memory: taking or releasing a mutex, an atomic
    access, or what is done to a queue while its mutex is held.  Condition variables
    may wake their waiter for no reason.  The unprotected read of jobs.empty()
    (pool.h:118-119, "Race on empty") may see anything: the schedule chooses.
    Simplifications: a job is a number, a new one for each enqueue; Queue is its
    abstract list (proved for Queue itself under C06 and C07); what a job does when it
    runs is up to the other agents; nobody calls enqueue once ~Pool has joined all
    threads. *)
From Verif Require Import Base.
Local Open Scope nat_scope.

Inductive wpc :=
| WLock                (* pool.h:147 *)
| WCheck               (* pool.h:149, jobs.empty() *)
| WLoad                (* pool.h:149, shutdown.load() *)
| WSleepy              (* pool.h:150, before the wait releases the mutex *)
| WAsleep              (* in the wait *)
| WWoken               (* the wait takes the mutex again *)
| WIf                  (* pool.h:152 *)
| WPop                 (* pool.h:154-155 *)
| WUnlock (j : nat)    (* pool.h:156 *)
| WRun (j : nat)       (* pool.h:157 *)
| WReturn              (* pool.h:152, unlock and return *)
| WExit.
Inductive epc :=
| EIdle
| EScan (i j : nat)    (* pool.h:116-119 *)
| ELock (i j : nat)    (* pool.h:120, 131 *)
| EPush (i j : nat)    (* pool.h:121, 132 *)
| ESignal (i : nat)    (* pool.h:122, 133 *)
| EUnlock (i : nat).   (* pool.h:123, 134 *)
Inductive dpc :=
| DIdle
| DSet                 (* pool.h:72 *)
| DLock (i : nat)      (* pool.h:74-75 *)
| DSignal (i : nat)    (* pool.h:76 *)
| DUnlock (i : nat)    (* pool.h:77 *)
| DJoin                (* pool.h:78-84 *)
| DDone.
#[export] Instance wpc_eq : EqDecision wpc. Proof. solve_decision. Defined.
#[export] Instance epc_eq : EqDecision epc. Proof. solve_decision. Defined.
#[export] Instance dpc_eq : EqDecision dpc. Proof. solve_decision. Defined.
Inductive holder := HW | HE (t : nat) | HD.
Inductive obs :=
| OPush (i j : nat)    (* job j was put on the queue of worker i *)
| OTake (i j : nat)    (* worker i took job j off its queue, to run it *)
| ORun (i j : nat)     (* worker i resumed job j *)
| ODestroy (j : nat).  (* ~Pool destroyed job j *)
Record pst := mk_pst {
  ws : nat -> wpc; es : nat -> epc; ds : dpc;
  queues : nat -> list nat;
  locks : nat -> option holder;
  shutdown : bool;
  sequence : nat;
  next : nat;
  log : list obs          (* oldest first *)
}.
Definition upd {A} (f : nat -> A) (i : nat) (x : A) : nat -> A := fun j => if decide (j = i) then x else f j.
(** pool.h:54-70: the threads start *)
Definition pst_init : pst := mk_pst (fun _ => WLock) (fun _ => EIdle) DIdle (fun _ => []) (fun _ => None) false 0 0 [].
Definition set_w i q (s : pst) := mk_pst (upd (ws s) i q) (es s) (ds s) (queues s) (locks s) (shutdown s) (sequence s) (next s) (log s).
Definition set_e t q (s : pst) := mk_pst (ws s) (upd (es s) t q) (ds s) (queues s) (locks s) (shutdown s) (sequence s) (next s) (log s).
Definition set_d q (s : pst) := mk_pst (ws s) (es s) q (queues s) (locks s) (shutdown s) (sequence s) (next s) (log s).
Definition set_q i q (s : pst) := mk_pst (ws s) (es s) (ds s) (upd (queues s) i q) (locks s) (shutdown s) (sequence s) (next s) (log s).
Definition set_l i h (s : pst) := mk_pst (ws s) (es s) (ds s) (queues s) (upd (locks s) i h) (shutdown s) (sequence s) (next s) (log s).
Definition say o (s : pst) := mk_pst (ws s) (es s) (ds s) (queues s) (locks s) (shutdown s) (sequence s) (next s) (log s ++ [o]).
(** pthread_cond_signal: the worker is the only one that ever waits *)
Definition signal i (s : pst) : pst := match ws s i with WAsleep => set_w i WWoken s | _ => s end.

(** pool.h:142-159, worker [i] *)
Definition stepW (s : pst) (i : nat) : pst :=
  match ws s i with
  | WLock | WWoken => match locks s i with None => set_w i WCheck (set_l i (Some HW) s) | Some _ => s end
  | WCheck => set_w i (match queues s i with [] => WLoad | _ => WIf end) s
  | WLoad => set_w i (if shutdown s then WIf else WSleepy) s
  | WSleepy => set_w i WAsleep (set_l i None s)
  | WAsleep => s
  | WIf => set_w i (if shutdown s then WReturn else WPop) s
  | WPop => match queues s i with j :: q => say (OTake i j) (set_w i (WUnlock j) (set_q i q s)) | [] => s end
  | WUnlock j => set_w i (WRun j) (set_l i None s)
  | WRun j => say (ORun i j) (set_w i WLock s)
  | WReturn => set_w i WExit (set_l i None s)
  | WExit => s
  end.
(** pool.h:115-134, agent [t]; [b]: what the unprotected read sees; [h]: the
    product of pool.h:128, converted to u64. *)
Definition stepE (n : nat) (s : pst) (t : nat) (b : bool) (h : nat) : res pst :=
  match es s t with
  | EIdle => Ok s
  | EScan i j =>
      if decide (i < n) then Ok (set_e t (if b then ELock i j else EScan (S i) j) s)
      else if decide (n = 0) then UB
      else Ok (set_e t (ELock (h mod n) j) (mk_pst (ws s) (es s) (ds s) (queues s) (locks s) (shutdown s) (S (sequence s)) (next s) (log s)))
  | ELock i j => Ok match locks s i with None => set_e t (EPush i j) (set_l i (Some (HE t)) s) | Some _ => s end
  | EPush i j => Ok (say (OPush i j) (set_e t (ESignal i) (set_q i (queues s i ++ [j]) s)))
  | ESignal i => Ok (set_e t (EUnlock i) (signal i s))
  | EUnlock i => Ok (set_e t EIdle (set_l i None s))
  end.
(** pool.h:86-94: what is left in the queues of workers 0 to n-1 *)
Definition destroy_all (n : nat) (s : pst) : pst :=
  let left := concat (map (queues s) (seq 0 n)) in
  mk_pst (ws s) (es s) (ds s) (fun _ => []) (locks s) (shutdown s) (sequence s) (next s) (log s ++ map ODestroy left).
(** pool.h:71-95; [all]: all other threads that use the pool have finished *)
Definition stepD (n : nat) (s : pst) (all : bool) : pst :=
  match ds s with
  | DIdle | DDone => s
  | DSet => set_d (DLock 0) (mk_pst (ws s) (es s) (ds s) (queues s) (locks s) true (sequence s) (next s) (log s))
  | DLock i =>
      if decide (i < n) then match locks s i with None => set_d (DSignal i) (set_l i (Some HD) s) | Some _ => s end
      else set_d DJoin s
  | DSignal i => set_d (DUnlock i) (signal i s)
  | DUnlock i => set_d (DLock (S i)) (set_l i None s)
  | DJoin =>
      if forallb (fun i => bool_decide (ws s i = WExit)) (seq 0 n) && all then set_d DDone (destroy_all n s) else s
  end.
Inductive event :=
| StepW (i : nat)
| Spurious (i : nat)                         (* the wait of worker i returns for no reason *)
| Enqueue (t : nat)                          (* agent t calls enqueue with a new job *)
| StepE (t : nat) (b : bool) (h : nat)
| Destroy                                    (* ~Pool is called *)
| StepD.
#[export] Instance event_eq : EqDecision event. Proof. solve_decision. Defined.
(** [n] workers; the agents that use the pool are numbered 0 to [m]-1 *)
Definition step (n m : nat) (s : pst) (e : event) : res pst :=
  match e with
  | StepW i => Ok (if decide (i < n) then stepW s i else s)
  | Spurious i => Ok match ws s i with WAsleep => set_w i WWoken s | _ => s end
  | Enqueue t =>
      Ok match es s t, ds s with
         | EIdle, DDone => s
         | EIdle, _ => if decide (m <= t) then s else set_e t (EScan 0 (next s)) (mk_pst (ws s) (es s) (ds s) (queues s) (locks s) (shutdown s) (sequence s) (S (next s)) (log s))
         | _, _ => s
         end
  | StepE t b h => stepE n s t b h
  | Destroy => Ok match ds s with DIdle => set_d DSet s | _ => s end
  | StepD => Ok (stepD n s (forallb (fun t => bool_decide (es s t = EIdle)) (seq 0 m)))
  end.
Fixpoint run (n m : nat) (s : pst) (l : list event) : res pst :=
  match l with
  | [] => Ok s
  | e :: l => s ← step n m s e; run n m s l
  end.
