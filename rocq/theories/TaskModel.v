(** rpp/async.h, Async::Task with its Promise, under every interleaving.

    Agents are plain threads and coroutines.  A coroutine is also a frame: its
    promise with the atomic [state], the flag, the value, and the memory.  Which
    thread runs a coroutine does not matter here: any agent that is not suspended
    may make its next step at any time, which includes a callee running on its
    caller's stack, a symmetric transfer, and a pool worker.  Task variables are
    shared, but no two agents use the same variable at the same time: that would be
    a data race of the program.  Atomics are sequentially consistent.
    Simplifications: the body of a coroutine is whatever operations the schedule
    gives it; block() is one step that can be taken once the flag is set (FlagModel
    has the loop); a continuation's address is none of 0, 1 and 2; resume() is only
    called on a coroutine suspended at a Suspend, as C++ requires.
    Any access to a frame after it is destroyed, by its own code or by others,
    destroying one that is not suspended, and resuming one that is not suspended
    are undefined. *)
From Verif Require Import Base.

(** async.h:45-47 *)
Inductive tstate := TStart | TDone | TAbandoned | TCont (b : nat).
#[export] Instance tstate_eq : EqDecision tstate. Proof. solve_decision. Defined.
(** async.h:72-130: what the frame holds *)
Record frame := mk_frame { f_state : tstate; f_flag : bool; f_value : option nat; f_alive : bool }.

(** Where an agent is, between two accesses to shared memory. *)
Inductive pc :=
| Absent                                     (* no such agent *)
| Idle                                       (* in its own code *)
| Suspended                                  (* at Suspend, async.h:19-27 *)
| Ready (v : nat)                            (* co_await: await_ready, async.h:179-182 *)
| Register (v : nat)                         (* co_await: await_suspend, async.h:183-187 *)
| Waiting (v : nat)                          (* suspended in co_await *)
| Taking (v : nat)                           (* await_resume, async.h:188-195 *)
| Blocking (v : nat)                         (* block, async.h:205-209 *)
| Asking (v : nat)                           (* done, async.h:201-204 *)
| Dropping (v : nat) (k : option nat)        (* ~Task, async.h:154-155; k: source of the assignment it is part of *)
| Destroying (c : nat) (v : nat) (k : option nat)  (* ~Task, async.h:157 *)
| Stealing (v w : nat)                       (* operator=, async.h:174-175 *)
| Storing (x : nat)                          (* return_value, async.h:119 or 123 *)
| Signalling                                 (* flag.signal, exchange, async.h:120 *)
| Notifying                                  (* flag.signal, futex wake *)
| Final                                      (* Final_Suspend, async.h:60 *)
| Self_Destroy                               (* async.h:63 *)
| Resume (b : nat)                           (* async.h:65 *)
| Ended.                                     (* suspended at the final suspend point, or gone *)
#[export] Instance pc_eq : EqDecision pc. Proof. solve_decision. Defined.
(** What an outsider can see. *)
Inductive obs :=
| OReturn (c x : nat)               (* the body of c did co_return x *)
| OSuspend (a c : nat)              (* a suspended, waiting for c *)
| OResume (c a : nat)               (* c finished and resumed a *)
| OGot (a c : nat) (r : option nat) (* co_await or block of a on c yielded r; None: moved-from value *)
| ODone (c : nat) (b : bool)        (* done() answered b *)
| ODestroy (c : nat).               (* the frame of c was destroyed and freed *)
Record tst := mk_tst {
  pcs : nat -> pc;
  frames : nat -> option frame;      (* None: a plain thread *)
  vars : nat -> option (option nat); (* None: no such variable; Some None: null handle *)
  agents : nat; nvars : nat;         (* how many exist *)
  log : list obs                     (* most recent first *)
}.
Definition upd {A} (f : nat -> A) (i : nat) (x : A) : nat -> A := fun j => if decide (j = i) then x else f j.
(** One thread. *)
Definition tst_init : tst := mk_tst (upd (fun _ => Absent) 0 Idle) (fun _ => None) (fun _ => None) 1 0 [].
Definition set_pc (a : nat) (q : pc) (s : tst) : tst := mk_tst (upd (pcs s) a q) (frames s) (vars s) (agents s) (nvars s) (log s).
Definition set_frame (c : nat) (f : frame) (s : tst) : tst := mk_tst (pcs s) (upd (frames s) c (Some f)) (vars s) (agents s) (nvars s) (log s).
Definition set_var (v : nat) (h : option nat) (s : tst) : tst := mk_tst (pcs s) (frames s) (upd (vars s) v (Some h)) (agents s) (nvars s) (log s).
Definition say (o : obs) (s : tst) : tst := mk_tst (pcs s) (frames s) (vars s) (agents s) (nvars s) (o :: log s).
Definition new_agent (f : option frame) (s : tst) : tst :=
  mk_tst (upd (pcs s) (agents s) Idle) (upd (frames s) (agents s) f) (vars s) (S (agents s)) (nvars s) (log s).
Definition new_var (h : option nat) (s : tst) : tst :=
  mk_tst (pcs s) (frames s) (upd (vars s) (nvars s) (Some h)) (agents s) (S (nvars s)) (log s).

Inductive cmd :=
| Thread                (* start a thread *)
| Call                  (* Task<R> t = f(...); *)
| Null                  (* Task<R> t; *)
| Move (v : nat)        (* Task<R> t = move(v); *)
| Assign (v w : nat)    (* v = move(w); *)
| Drop (v : nat)        (* v.~Task(); *)
| Await (v : nat)       (* co_await v *)
| Block (v : nat)       (* v.block() *)
| Done (v : nat)        (* v.done() *)
| Suspend               (* co_await Suspend{} *)
| Return (x : nat).     (* co_return x; *)
Inductive event := Begin (a : nat) (c : cmd) | Step (a : nat) | Wake (c : nat).

Definition mentions (v : nat) (q : pc) : bool :=
  match q with
  | Ready w | Register w | Waiting w | Taking w | Blocking w | Asking w => bool_decide (v = w)
  | Dropping w k | Destroying _ w k => bool_decide (v = w) || bool_decide (k = Some v)
  | Stealing w u => bool_decide (v = w) || bool_decide (v = u)
  | _ => false
  end.
(** No operation in progress uses the variable. *)
Definition free (s : tst) (v : nat) : bool :=
  bool_decide (is_Some (vars s v)) && forallb (fun a => negb (mentions v (pcs s a))) (seq 0 (agents s)).
Definition is_coro (s : tst) (a : nat) : bool := bool_decide (is_Some (frames s a)).
(** An agent in its own code begins an operation; one that the language does not
    allow there does nothing. *)
Definition begin (s : tst) (a : nat) (c : cmd) : tst :=
  match c with
  | Thread => new_agent None s
  | Call => new_var (Some (agents s)) (new_agent (Some (mk_frame TStart false None true)) s)   (* async.h:84-86, 94-96, 106, 115-117, 149-151 *)
  | Null => new_var None s                                                                     (* async.h:147-148 *)
  | Move v =>                                                                                  (* async.h:168-171 *)
      if free s v then match vars s v with Some h => set_var v None (new_var h s) | None => s end else s
  | Assign v w => if free s v && free s w then set_pc a (Dropping v (Some w)) s else s         (* async.h:172-173 *)
  | Drop v => if free s v then set_pc a (Dropping v None) s else s
  | Await v => if free s v && is_coro s a then set_pc a (Ready v) s else s
  | Block v => if free s v then set_pc a (Blocking v) s else s
  | Done v => if free s v then set_pc a (Asking v) s else s
  | Suspend => if is_coro s a then set_pc a Suspended s else s
  | Return x => if is_coro s a then set_pc a (Storing x) s else s
  end.
(** A frame that can be accessed. *)
Definition get (s : tst) (c : nat) : res frame :=
  match frames s c with Some f => if f_alive f then Ok f else UB | None => UB end.
(** The handle of a variable; assert(handle). *)
Definition handle (s : tst) (v : nat) : res nat :=
  match vars s v with Some (Some c) => Ok c | Some None => Die | None => UB end.
Definition after (v : nat) (k : option nat) : pc := match k with None => Idle | Some w => Stealing v w end.
Definition with_state (f : frame) (x : tstate) : frame := mk_frame x (f_flag f) (f_value f) (f_alive f).
Definition with_value (f : frame) (x : option nat) : frame := mk_frame (f_state f) (f_flag f) x (f_alive f).
Definition with_flag (f : frame) (b : bool) : frame := mk_frame (f_state f) b (f_value f) (f_alive f).
(** handle.destroy(): allowed on a suspended coroutine. Frees the frame (async.h:97-99). *)
Definition destroy (s : tst) (c : nat) : res tst :=
  f ← get s c;
  match pcs s c with
  | Ended | Self_Destroy => Ok (say (ODestroy c) (set_frame c (mk_frame (f_state f) (f_flag f) (f_value f) false) s))
  | _ => UB
  end.
(** One access to shared memory. *)
Definition micro (s : tst) (a : nat) : res tst :=
  match pcs s a with
  | Absent | Idle | Suspended | Waiting _ | Ended => Ok s
  | Ready v =>                                                                                  (* async.h:180-181 *)
      c ← handle s v; f ← get s c;
      Ok (set_pc a (if decide (f_state f = TDone) then Taking v else Register v) s)
  | Register v =>                                                                               (* async.h:184-186 *)
      c ← handle s v; f ← get s c;
      if decide (f_state f = TStart) then Ok (say (OSuspend a c) (set_pc a (Waiting v) (set_frame c (with_state f (TCont a)) s)))
      else Ok (set_pc a (Taking v) s)
  | Taking v =>                                                                                 (* async.h:189-194 *)
      c ← handle s v; f ← get s c;
      Ok (say (OGot a c (f_value f)) (set_pc a Idle (set_frame c (with_value f None) s)))
  | Blocking v =>                                                                               (* async.h:206-208, 101-103 *)
      c ← handle s v; f ← get s c;
      Ok (if f_flag f then set_pc a (Taking v) s else s)
  | Asking v =>                                                                                 (* async.h:180-181 *)
      c ← handle s v; f ← get s c;
      Ok (say (ODone c (bool_decide (f_state f = TDone))) (set_pc a Idle s))
  | Dropping v k =>                                                                             (* async.h:154-162; handle = null is brought forward *)
      match vars s v with
      | None => UB
      | Some None => Ok (set_pc a (after v k) s)
      | Some (Some c) =>
          f ← get s c;
          let s := set_var v None (set_frame c (with_state f TAbandoned) s) in
          match f_state f with
          | TDone => Ok (set_pc a (Destroying c v k) s)
          | TStart => Ok (set_pc a (after v k) s)
          | _ => Die
          end
      end
  | Destroying c v k => s ← destroy s c; Ok (set_pc a (after v k) s)                             (* async.h:157 *)
  | Stealing v w =>                                                                             (* async.h:174-175 *)
      match vars s w with Some h => Ok (set_pc a Idle (set_var w None (set_var v h s))) | None => UB end
  | Storing x =>                                                                                (* async.h:119, 123 *)
      f ← get s a; Ok (say (OReturn a x) (set_pc a Signalling (set_frame a (with_value f (Some x)) s)))
  | Signalling => f ← get s a; Ok (set_pc a Notifying (set_frame a (with_flag f true) s))        (* thread_pos.cpp:176 *)
  | Notifying => _ ← get s a; Ok (set_pc a Final s)                                             (* thread_pos.cpp:177 *)
  | Final =>                                                                                    (* async.h:60-68 *)
      f ← get s a;
      let s := set_frame a (with_state f TDone) s in
      match f_state f with
      | TAbandoned => Ok (set_pc a Self_Destroy s)
      | TStart => Ok (set_pc a Ended s)
      | TCont b => Ok (set_pc a (Resume b) s)
      | TDone => UB                                                                             (* from_address(1) *)
      end
  | Self_Destroy => s ← destroy s a; Ok (set_pc a Ended s)                                       (* async.h:63, 68 *)
  | Resume b =>                                                                                 (* async.h:65 *)
      _ ← get s b;
      match pcs s b with
      | Waiting v => Ok (say (OResume a b) (set_pc a Ended (set_pc b (Taking v) s)))
      | _ => UB
      end
  end.
(** A coroutine's own code runs in its frame. *)
Definition running (s : tst) (a : nat) : res unit :=
  match frames s a, pcs s a with
  | None, _ | _, Ended => Ok tt
  | Some f, _ => if f_alive f then Ok tt else UB
  end.
Definition step (s : tst) (e : event) : res tst :=
  match e with
  | Begin a c => match pcs s a with Idle => _ ← running s a; Ok (begin s a c) | _ => Ok s end
  | Step a => _ ← running s a; micro s a
  | Wake c => match pcs s c with Suspended => _ ← running s c; Ok (set_pc c Idle s) | _ => Ok s end   (* async.h:197-200, pool.h:157 *)
  end.
Fixpoint run (s : tst) (es : list event) : res tst :=
  match es with
  | [] => Ok s
  | e :: es => s ← step s e; run s es
  end.
