(** rpp/pos/thread_pos.cpp:160-195 (Linux), Thread::Flag, and rpp/thread.h:27-57,
    Thread::Promise, used by any number of threads in any interleaving.

    One flag with one value beside it.  A step is one access to shared memory or
    one system call.  The kernel's FUTEX_WAIT compares and goes to sleep in one
    step; FUTEX_WAKE with INT32_MAX wakes every sleeper (there are fewer threads
    than that).  Sleepers may also wake for no reason, or be interrupted by a signal.
    Simplifications: a promise is filled at most once, as its value is not
    protected by anything; thread ids are numbers and all exist. *)
From Verif Require Import Base.

Inductive pc :=
| Idle
| Storing (x : nat)    (* fill, thread.h:39, before the value is assigned *)
| Exchanging           (* signal, thread_pos.cpp:176 *)
| Waking               (* signal, thread_pos.cpp:177 *)
| Loading              (* block, thread_pos.cpp:162 *)
| Calling              (* block, thread_pos.cpp:163, before the kernel compares *)
| Asleep               (* in FUTEX_WAIT *)
| Reading              (* block of a promise, thread.h:45, before the value is moved *)
| Asking.              (* ready, thread_pos.cpp:190 *)
#[export] Instance pc_eq : EqDecision pc. Proof. solve_decision. Defined.
Inductive obs :=
| OFill (x : nat)                    (* the value was stored *)
| OSignal (t : nat)                  (* the flag was set *)
| OUnblock (t : nat)                 (* Flag::block returned *)
| OGot (t : nat) (r : option nat)    (* Promise::block returned r; None: the value had been moved out *)
| OReady (t : nat) (b : bool).       (* ready returned b *)
Record fst_ := mk_fst { pcs : nat -> pc; flag : Z; value : option nat; filled : bool; log : list obs }.
Definition fst_init : fst_ := mk_fst (fun _ => Idle) 0 None false [].
Definition upd {A} (f : nat -> A) (i : nat) (x : A) : nat -> A := fun j => if decide (j = i) then x else f j.
Definition set_pc (t : nat) (q : pc) (s : fst_) : fst_ := mk_fst (upd (pcs s) t q) (flag s) (value s) (filled s) (log s).
Definition say (o : obs) (s : fst_) : fst_ := mk_fst (pcs s) (flag s) (value s) (filled s) (o :: log s).

Inductive cmd := Fill (x : nat) | Signal | Block | Ready.
Inductive event :=
| Begin (t : nat) (c : cmd)
| Step (t : nat)
| Spurious (t : nat)      (* FUTEX_WAIT returns 0 without a wake *)
| Interrupt (t : nat).    (* FUTEX_WAIT fails with EINTR *)
Definition begin (s : fst_) (t : nat) (c : cmd) : fst_ :=
  match c with
  | Fill x => if filled s then s else set_pc t (Storing x) (mk_fst (pcs s) (flag s) (value s) true (log s))
  | Signal => set_pc t Exchanging s
  | Block => set_pc t Loading s
  | Ready => set_pc t Asking s
  end.
Definition micro (s : fst_) (t : nat) : fst_ :=
  match pcs s t with
  | Idle | Asleep => s
  | Storing x => say (OFill x) (set_pc t Exchanging (mk_fst (pcs s) (flag s) (Some x) (filled s) (log s)))   (* thread.h:39 *)
  | Exchanging => say (OSignal t) (set_pc t Waking (mk_fst (pcs s) 1 (value s) (filled s) (log s)))          (* thread_pos.cpp:176 *)
  | Waking =>                                                                                                (* thread_pos.cpp:177 *)
      mk_fst (upd (fun u => match pcs s u with Asleep => Loading | q => q end) t Idle) (flag s) (value s) (filled s) (log s)
  | Loading => if (flag s =? 0)%Z then set_pc t Calling s else say (OUnblock t) (set_pc t Reading s)         (* thread_pos.cpp:162 *)
  | Calling => if (flag s =? 0)%Z then set_pc t Asleep s else set_pc t Loading s                             (* thread_pos.cpp:163-164, EAGAIN *)
  | Reading => say (OGot t (value s)) (set_pc t Idle (mk_fst (pcs s) (flag s) None (filled s) (log s)))      (* thread.h:45 *)
  | Asking => say (OReady t (negb (flag s =? 0)%Z)) (set_pc t Idle s)                                        (* thread_pos.cpp:190 *)
  end.
Definition step (s : fst_) (e : event) : res fst_ :=
  match e with
  | Begin t c => Ok match pcs s t with Idle => begin s t c | _ => s end
  | Step t => Ok (micro s t)
  | Spurious t => Ok match pcs s t with Asleep => set_pc t Loading s | _ => s end
  | Interrupt t => match pcs s t with Asleep | Calling => Die | _ => Ok s end                                (* thread_pos.cpp:164-166 *)
  end.
Fixpoint run (s : fst_) (es : list event) : res fst_ :=
  match es with
  | [] => Ok s
  | e :: es => s ← step s e; run s es
  end.
