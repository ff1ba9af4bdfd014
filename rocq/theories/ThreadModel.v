(** Model of Thread::Thread (rpp/thread.h:92-157) over sys_start, sys_join and sys_detach
    (rpp/pos/thread_pos.cpp:294-326).

    Agents are the threads of the program: 0 is the one that runs main, the others were started by Thread
    objects.  An event is one operation of an agent that takes effect, so every interleaving is a list of
    events; an agent that waits in join() is one whose event leaves the state as it is.  Thread objects are
    numbered and live anywhere; no two agents use one at the same time, which would be a data race of the
    program.  What a thread's function does is up to the schedule: between its call and its return it is an
    agent like any other.
    Simplifications: ids of threads are not reused (the theorems show that no handle outlives its thread's
    join, so reuse would not be noticed); A::alloc succeeds. *)
From stdpp Require Import gmap.
From Verif Require Import Base.

(** Where a thread is in [invoke], thread.h:149-155. *)
Inductive body := Born | InBody | Returned | Destroyed | Exited.
(** What the system knows of a thread's handle. *)
Inductive handle := Joinable | Joined | Detached.
#[export] Instance body_eq : EqDecision body. Proof. solve_decision. Defined.
#[export] Instance handle_eq : EqDecision handle. Proof. solve_decision. Defined.
Inductive obs :=
| OStart (a t : nat)       (* agent a started thread t *)
| OCall (t : nat)          (* t calls its function *)
| OReturn (t : nat)        (* the function returns *)
| ODestroy (t : nat)       (* the function object is destroyed *)
| OFree (t : nat)          (* its memory is released; nothing of the program is left to run in t *)
| OJoin (a t : nat)        (* the join of t by a returns *)
| ODetach (a t : nat).
Record st := St {
  thr : gmap nat (body * handle);
  vars : gmap nat (option nat);   (* Thread objects that exist and their [thread]; [Some None]: OS_Thread_Null *)
  log : list obs                  (* most recent first *)
}.
Definition init : st := St ∅ ∅ [].
Inductive op :=
| Empty (v : nat)                  (* Thread v; *)
| Start (v : nat) (granted : bool) (* Thread v{f}; *)
| MoveNew (v w : nat)
| MoveAssign (v w : nat)
| Join (v : nat)
| Detach (v : nat)
| GetId (v : nat)
| Drop (v : nat).                  (* ~Thread, at the end of v's life *)
Inductive event :=
| Op (a : nat) (o : op)
| Return (t : nat)                 (* t's function returns *)
| Run (t : nat).                   (* t goes on outside its function *)

Definition fresh_id (s : st) : nat := 1 + foldr Nat.max 0 ((map_to_list (thr s)).*1).
(** Whether an agent is in a position to do something. *)
Definition active (a : nat) (s : st) : bool :=
  bool_decide (a = 0) || match thr s !! a with Some (InBody, _) => true | _ => false end.
Definition get_var (v : nat) (s : st) : res (option nat) := match vars s !! v with Some t => Ok t | None => UB end.
Definition set_var (v : nat) (t : option nat) (s : st) : st := St (thr s) (<[v := t]> (vars s)) (log s).
Definition say (o : obs) (s : st) : st := St (thr s) (vars s) (o :: log s).
Definition set_thr (t : nat) (x : body * handle) (s : st) : st := St (<[t := x]> (thr s)) (vars s) (log s).
(** thread_pos.cpp:300-307.  [None]: the caller waits.  Joining a thread that was joined or detached is
    undefined (POSIX). *)
Definition sys_join (a t : nat) (s : st) : res (option st) :=
  assert_ (negb (bool_decide (a = t)));;
  match thr s !! t with
  | Some (Exited, Joinable) => Ok (Some (say (OJoin a t) (set_thr t (Exited, Joined) s)))
  | Some (_, Joinable) => Ok None
  | _ => UB
  end.
(** thread_pos.cpp:309-315 *)
Definition sys_detach (a t : nat) (s : st) : res st :=
  match thr s !! t with
  | Some (b, Joinable) => Ok (say (ODetach a t) (set_thr t (b, Detached) s))
  | _ => UB
  end.
(** thread.h:129-133 *)
Definition join (a v : nat) (s : st) : res (option st) :=
  x ← get_var v s;
  match x with
  | None => Die
  | Some t => r ← sys_join a t s; Ok (option_map (set_var v None) r)
  end.
(** thread.h:103-105 *)
Definition destruct_thread (a v : nat) (s : st) : res (option st) :=
  x ← get_var v s;
  match x with None => Ok (Some s) | Some _ => join a v s end.
(** thread.h:110-113, 116-118 *)
Definition take_thread (v w : nat) (s : st) : res st :=
  t ← get_var w s;
  let s := set_var v t s in
  Ok (set_var w None s).
Definition do_op (a : nat) (o : op) (s : st) : res st :=
  match o with
  | Empty v => match vars s !! v with Some _ => UB | None => Ok (set_var v None s) end
  | Start v granted =>                                                                  (* thread.h:97-102 *)
      match vars s !! v with
      | Some _ => UB
      | None => if granted then let t := fresh_id s in Ok (set_var v (Some t) (say (OStart a t) (set_thr t (Born, Joinable) s))) else Die
      end
  | MoveNew v w => match vars s !! v with Some _ => UB | None => take_thread v w s end
  | MoveAssign v w =>
      r ← destruct_thread a v s;
      match r with None => Ok s | Some s => take_thread v w s end
  | Join v => r ← join a v s; Ok (default s r)
  | Detach v =>                                                                         (* thread.h:134-138 *)
      x ← get_var v s;
      match x with None => Die | Some t => s ← sys_detach a t s; Ok (set_var v None s) end
  | GetId v => x ← get_var v s; match x with None => Die | Some _ => Ok s end          (* thread.h:125-128 *)
  | Drop v =>
      r ← destruct_thread a v s;
      Ok match r with None => s | Some s => St (thr s) (delete v (vars s)) (log s) end
  end.
Definition step (s : st) (e : event) : res st :=
  match e with
  | Op a o => if active a s then do_op a o s else Ok s
  | Return t => Ok match thr s !! t with Some (InBody, h) => say (OReturn t) (set_thr t (Returned, h) s) | _ => s end
  | Run t =>
      Ok match thr s !! t with
         | Some (Born, h) => say (OCall t) (set_thr t (InBody, h) s)             (* thread.h:151 *)
         | Some (Returned, h) => say (ODestroy t) (set_thr t (Destroyed, h) s)   (* thread.h:152 *)
         | Some (Destroyed, h) => say (OFree t) (set_thr t (Exited, h) s)        (* thread.h:153-154 *)
         | _ => s
         end
  end.
Fixpoint run (s : st) (l : list event) : res st :=
  match l with [] => Ok s | e :: l => s ← step s e; run s l end.
