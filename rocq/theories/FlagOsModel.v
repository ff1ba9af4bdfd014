(** Thread::Flag on Windows (rpp/w32/thread_w32.cpp:80-98) and elsewhere than on Windows and Linux, that is on
    macOS (rpp/pos/thread_pos.cpp:160-195, the #else branches), used by any number of threads in any
    interleaving.  FlagModel has Linux, and the observations used here.

    A step is one access to shared memory or one call.  WaitOnAddress compares and goes to sleep in one step,
    WakeByAddressAll wakes every sleeper; pthread_cond_wait releases the mutex and goes to sleep in one step,
    and takes the mutex again before it returns.  Sleepers may wake for no reason.  A step of a thread that
    waits for the mutex leaves the state as it is. *)
From Verif Require Import Base Word.
From Verif Require FlagModel.
Import FlagModel (obs(..), upd).

Inductive cmd := Signal | Block | Ready.
Inductive event :=
| Begin (t : nat) (c : cmd)
| Step (t : nat)
| Spurious (t : nat).

(** ** Windows *)
Inductive wpc :=
| WIdle
| WAdding      (* thread_w32.cpp:92 *)
| WWaking      (* 93 *)
| WLoading     (* 82 *)
| WCalling     (* 83, before the system compares *)
| WAsleep
| WAsking.     (* 97 *)
Record wst := WSt { wpcs : nat -> wpc; wval : Z; wlog : list obs }.
Definition winit : wst := WSt (fun _ => WIdle) 0 [].
Definition wset (t : nat) (q : wpc) (s : wst) : wst := WSt (upd (wpcs s) t q) (wval s) (wlog s).
Definition wsay (o : obs) (s : wst) : wst := WSt (wpcs s) (wval s) (o :: wlog s).
Definition wmicro (s : wst) (t : nat) : wst :=
  match wpcs s t with
  | WIdle | WAsleep => s
  | WAdding => wsay (FlagModel.OSignal t) (wset t WWaking (WSt (wpcs s) (to_signed 16 (wval s + 1)) (wlog s)))   (* value_ is an i16, thread0.h:143 *)
  | WWaking => WSt (upd (fun u => match wpcs s u with WAsleep => WLoading | q => q end) t WIdle) (wval s) (wlog s)
  | WLoading => if (wval s =? 0)%Z then wset t WCalling s else wsay (FlagModel.OUnblock t) (wset t WIdle s)
  | WCalling => if (wval s =? 0)%Z then wset t WAsleep s else wset t WLoading s
  | WAsking => wsay (FlagModel.OReady t (negb (wval s =? 0)%Z)) (wset t WIdle s)
  end.
Definition wstep (s : wst) (e : event) : wst :=
  match e with
  | Begin t c => match wpcs s t with WIdle => wset t match c with Signal => WAdding | Block => WLoading | Ready => WAsking end s | _ => s end
  | Step t => wmicro s t
  | Spurious t => match wpcs s t with WAsleep => wset t WLoading s | _ => s end
  end.
Definition wrun (s : wst) (es : list event) : wst := fold_left wstep es s.

(** ** macOS *)
Inductive mpc :=
| MIdle
| MWantBlock     (* Lock lock(mutex) in block, thread_pos.cpp:169, or the mutex again inside cond.wait *)
| MChecking      (* 170, holding the mutex *)
| MSleeping      (* in cond.wait *)
| MLeaving       (* ~Lock at the end of block *)
| MWantSignal    (* 182 *)
| MSetting       (* 183 *)
| MBroadcast     (* 184 *)
| MSignalled     (* ~Lock at the end of signal *)
| MWantReady     (* 192 *)
| MReading       (* 193 *)
| MRead.         (* ~Lock at the end of ready *)
Record mst := MSt { mpcs : nat -> mpc; mholder : option nat; mval : bool; mlog : list obs }.
Definition minit : mst := MSt (fun _ => MIdle) None false [].
Definition mset (t : nat) (q : mpc) (s : mst) : mst := MSt (upd (mpcs s) t q) (mholder s) (mval s) (mlog s).
Definition mhold (h : option nat) (s : mst) : mst := MSt (mpcs s) h (mval s) (mlog s).
Definition msay (o : obs) (s : mst) : mst := MSt (mpcs s) (mholder s) (mval s) (o :: mlog s).
Definition acquire (t : nat) (q : mpc) (s : mst) : mst := match mholder s with None => mset t q (mhold (Some t) s) | Some _ => s end.
Definition mmicro (s : mst) (t : nat) : mst :=
  match mpcs s t with
  | MIdle | MSleeping => s
  | MWantBlock => acquire t MChecking s
  | MChecking => if mval s then mset t MLeaving s else mset t MSleeping (mhold None s)
  | MLeaving => msay (FlagModel.OUnblock t) (mset t MIdle (mhold None s))
  | MWantSignal => acquire t MSetting s
  | MSetting => msay (FlagModel.OSignal t) (mset t MBroadcast (MSt (mpcs s) (mholder s) true (mlog s)))
  | MBroadcast => MSt (upd (fun u => match mpcs s u with MSleeping => MWantBlock | q => q end) t MSignalled) (mholder s) (mval s) (mlog s)
  | MSignalled => mset t MIdle (mhold None s)
  | MWantReady => acquire t MReading s
  | MReading => msay (FlagModel.OReady t (mval s)) (mset t MRead s)
  | MRead => mset t MIdle (mhold None s)
  end.
Definition mstep (s : mst) (e : event) : mst :=
  match e with
  | Begin t c => match mpcs s t with MIdle => mset t match c with Signal => MWantSignal | Block => MWantBlock | Ready => MWantReady end s | _ => s end
  | Step t => mmicro s t
  | Spurious t => match mpcs s t with MSleeping => mset t MWantBlock s | _ => s end
  end.
Definition mrun (s : mst) (es : list event) : mst := fold_left mstep es s.
