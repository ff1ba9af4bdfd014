(** Model of Thread::spawn (rpp/thread.h:159-181) and of the Future it returns, an Arc (rpp/rc.h:140-233) of a
    Promise (thread.h:27-57), on Linux (rpp/pos/thread_pos.cpp:160-195).

    The spawned thread and any number of other threads interleave.  The model begins when sys_start returns in
    spawn: the promise exists, one handle is captured by the lambda the new thread runs, the other is what
    spawn returns, to thread 0.  A step is one access to the promise or its counter, or one system call; every
    such access needs the promise to be alive, or it is undefined.  Handles pass between threads by [Give].
    Simplifications: the promise holds a number; what f does is one step; sleepers wake for no reason at times,
    but no signal handler interrupts them (FlagModel has that); FUTEX_WAKE wakes all sleepers. *)
From Verif Require Import Base Word.

Inductive life := Live | Destroyed | Freed.
Inductive pc :=
| Idle
| Loading | Calling | Asleep    (* Flag::block, thread_pos.cpp:162-163 *)
| Reading                       (* thread.h:45 *)
| Asking                        (* thread.h:49, thread_pos.cpp:190 *)
| Dropping | Destroying | Freeing.   (* rc.h:223, 224, 225 *)
(** The spawned thread. *)
Inductive wpc :=
| WCalling                      (* about to call f, thread.h:171 *)
| WStoring (x : nat)            (* thread.h:39 *)
| WExchanging                   (* thread.h:40, thread_pos.cpp:176 *)
| WWaking                       (* thread_pos.cpp:177 *)
| WDropping | WDestroying | WFreeing   (* the lambda and the handle in it are destroyed, thread.h:152 *)
| WDone.
#[export] Instance pc_eq : EqDecision pc. Proof. solve_decision. Defined.
#[export] Instance wpc_eq : EqDecision wpc. Proof. solve_decision. Defined.
Inductive obs :=
| OCalled                         (* f was called *)
| OGot (t : nat) (r : option nat) (* block returned r in t; None: the value had been moved out *)
| OReady (t : nat) (b : bool)
| ODestroyed | OFreed.            (* the promise *)
Record agent := Agent { hands : nat; at_ : pc }.
Record st := St { agents : list agent; worker : wpc; refs : Z; flag : bool; value : option nat; alive : life; log : list obs }.
(** n threads besides the spawned one; 0 called spawn. *)
Definition init (n : nat) : st := St (Agent 1 Idle :: replicate n (Agent 0 Idle)) WCalling 2 false None Live [].
Inductive cmd := Dup | Give (u : nat) | Block | Ready | Drop.
Inductive event := Begin (t : nat) (c : cmd) | Step (t : nat) | Work | Spurious (t : nat).

Definition set_agent (t : nat) (g : agent) (s : st) : st := St (<[t := g]> (agents s)) (worker s) (refs s) (flag s) (value s) (alive s) (log s).
Definition set_worker (w : wpc) (s : st) : st := St (agents s) w (refs s) (flag s) (value s) (alive s) (log s).
Definition set_refs (r : Z) (s : st) : st := St (agents s) (worker s) r (flag s) (value s) (alive s) (log s).
Definition set_flag (s : st) : st := St (agents s) (worker s) (refs s) true (value s) (alive s) (log s).
Definition set_value (x : option nat) (s : st) : st := St (agents s) (worker s) (refs s) (flag s) x (alive s) (log s).
Definition set_life (x : life) (s : st) : st := St (agents s) (worker s) (refs s) (flag s) (value s) x (log s).
Definition say (o : obs) (s : st) : st := St (agents s) (worker s) (refs s) (flag s) (value s) (alive s) (o :: log s).
Definition wake (s : st) : st :=
  St ((fun g => Agent (hands g) match at_ g with Asleep => Loading | q => q end) <$> agents s) (worker s) (refs s) (flag s) (value s) (alive s) (log s).
(** Any access to the promise or its counter. *)
Definition touch {A} (s : st) (k : A) : res A := match alive s with Live => Ok k | _ => UB end.
(** thread_pos.cpp:238-244 *)
Definition incr (r : Z) : Z := to_signed 64 (r + 1).
Definition decr (r : Z) : Z := to_signed 64 (r - 1).

Definition begin (s : st) (t : nat) (g : agent) (c : cmd) : res st :=
  match c with
  | Dup => touch s (set_agent t (Agent (1 + hands g) Idle) (set_refs (incr (refs s)) s))                      (* rc.h:175-181 *)
  | Give u => Ok match agents s !! u with
                 | Some g' => if decide (u = t) then s else set_agent u (Agent (1 + hands g') (at_ g')) (set_agent t (Agent (hands g - 1) Idle) s)
                 | None => s
                 end
  | Block => Ok (set_agent t (Agent (hands g) Loading) s)
  | Ready => Ok (set_agent t (Agent (hands g) Asking) s)
  | Drop => Ok (set_agent t (Agent (hands g) Dropping) s)
  end.
Definition micro (s : st) (t : nat) (g : agent) : res st :=
  let go q := set_agent t (Agent (hands g) q) s in
  match at_ g with
  | Idle | Asleep => Ok s
  | Loading => touch s (go (if flag s then Reading else Calling))
  | Calling => touch s (go (if flag s then Loading else Asleep))
  | Reading => touch s (say (OGot t (value s)) (set_value None (go Idle)))
  | Asking => touch s (say (OReady t (flag s)) (go Idle))
  | Dropping => touch s (let r := decr (refs s) in set_agent t (Agent (hands g - 1) (if (r =? 0)%Z then Destroying else Idle)) (set_refs r s))
  | Destroying => touch s (say ODestroyed (set_life Destroyed (go Freeing)))
  | Freeing => match alive s with Destroyed => Ok (say OFreed (set_life Freed (go Idle))) | _ => UB end
  end.
(** [v]: what f(args...) returns. *)
Definition work (v : nat) (s : st) : res st :=
  match worker s with
  | WCalling => Ok (say OCalled (set_worker (WStoring v) s))
  | WStoring x => touch s (set_value (Some x) (set_worker WExchanging s))
  | WExchanging => touch s (set_flag (set_worker WWaking s))
  | WWaking => touch s (wake (set_worker WDropping s))
  | WDropping => touch s (let r := decr (refs s) in set_worker (if (r =? 0)%Z then WDestroying else WDone) (set_refs r s))
  | WDestroying => touch s (say ODestroyed (set_life Destroyed (set_worker WFreeing s)))
  | WFreeing => match alive s with Destroyed => Ok (say OFreed (set_life Freed (set_worker WDone s))) | _ => UB end
  | WDone => Ok s
  end.
Definition step (v : nat) (s : st) (e : event) : res st :=
  match e with
  | Begin t c => match agents s !! t with Some g => match at_ g, hands g with Idle, S _ => begin s t g c | _, _ => Ok s end | None => Ok s end
  | Step t => match agents s !! t with Some g => micro s t g | None => Ok s end
  | Work => work v s
  | Spurious t => Ok match agents s !! t with Some g => match at_ g with Asleep => set_agent t (Agent (hands g) Loading) s | _ => s end | None => s end
  end.
Fixpoint run (v : nat) (s : st) (es : list event) : res st :=
  match es with [] => Ok s | e :: es => s ← step v s e; run v s es end.
