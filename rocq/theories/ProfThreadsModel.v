(** The profiler used by several threads: rpp/profile.h:81-104 (iterate_timings), 107-110, 136-165 and
    rpp/impl/profile.cpp:18-36, 62-148, 160-198.

    ProfileModel is what one thread does to its own Thread_Profile.  Here every lock, unlock and access in between is
    a step of its own, and the steps of the threads interleave.  Mutexes are not recursive.  The user's function gets
    each node in a step of its own and may itself use the profiler.  Frames are a plain container: clearing them while
    another thread is in the section that protects them is undefined.  Simplification: iterate_timings takes the threads
    in the order in which they registered, where the code takes the order of the Map. *)
From Verif Require Import Base ProfileModel.

(** profile.h:157, 160, 161 *)
Inductive lock := Threads | Allocs | Frames (t : nat).
Global Instance lock_eq : EqDecision lock.
Proof. solve_decision. Defined.

(** What the function given to iterate_timings does besides looking at the node *)
Inductive callback := Plain | Allocates | Traces.
Inductive call :=
| Use (o : op)                  (* begin_frame, end_frame, enter, exit *)
| Allocate                      (* anything that calls Profile::alloc *)
| Iterate (c : callback)        (* iterate_timings *)
| Quit.                         (* the thread ends: ~Thread_Profile *)
(** The pieces the functions consist of *)
Inductive instr :=
| Acquire (l : lock) | Release (l : lock)
| Check                         (* ready(): registers the thread if it is not *)
| Register | Unregister
| Expect (b : bool)             (* assert on during_frame *)
| When_during (o : op)
| Act (o : op)
| Clear                         (* frames = {} *)
| Each (c : callback)           (* the loop over the threads *)
| Read (u : nat) (c : callback) (* the loop over the nodes *)
| Visit (u : nat) (n : node) (c : callback).

(** What has been seen: a thread used the profiler; a thread was shown a node of another *)
Inductive seen := Did (t : nat) (o : op) | Saw (t u : nat) (n : node).
Record st := St {
  profs : nat -> prof; registry : list nat; holder : lock -> option nat; code : nat -> list instr; log : list seen
}.
Definition init : st := St (fun _ => ProfileModel.init) [] (fun _ => None) (fun _ => []) [].

Definition upd {A} (f : nat -> A) (t : nat) (x : A) : nat -> A := fun u => if decide (u = t) then x else f u.
Definition updl (f : lock -> option nat) (l : lock) (x : option nat) : lock -> option nat := fun m => if decide (m = l) then x else f m.

(** profile.cpp:160-198: both critical sections; what happens in them is ProfAllocModel *)
Definition alloc_code (t : nat) : list instr := [Acquire Allocs; Release Allocs; Acquire (Frames t); Release (Frames t)].
Definition code_of (t : nat) (c : call) : list instr :=
  match c with
  | Use (Begin x) => [Check; Expect false; Acquire (Frames t); Act (Begin x); Release (Frames t)]          (* profile.cpp:62-86 *)
  | Use (End x) => [Expect true; Acquire (Frames t); Act (End x); Release (Frames t)]                      (* profile.cpp:88-101 *)
  | Use (Enter l x) => [Check; When_during (Enter l x)]                                                    (* profile.cpp:103-116 *)
  | Use (Exit x) => [Check; When_during (Exit x)]                                                          (* profile.cpp:142-148 *)
  | Use Finalize => []                                                                                     (* Quit instead *)
  | Allocate => alloc_code t
  | Iterate c => [Acquire Threads; Each c; Release Threads]                                                (* profile.h:83 *)
  | Quit => [Clear; Acquire Threads; Unregister; Release Threads]                                          (* profile.h:143-147, profile.cpp:29-36 *)
  end.
Definition callback_code (t : nat) (c : callback) : list instr :=
  match c with Plain => [] | Allocates => alloc_code t | Traces => [Check; When_during (Enter 1 0)] end.

Definition set_code (t : nat) (k : list instr) (s : st) : st := St (profs s) (registry s) (holder s) (upd (code s) t k) (log s).
Definition set_holder (l : lock) (h : option nat) (s : st) : st := St (profs s) (registry s) (updl (holder s) l h) (code s) (log s).
Definition set_prof (t : nat) (p : prof) (s : st) : st := St (upd (profs s) t p) (registry s) (holder s) (code s) (log s).
Definition set_registry (r : list nat) (s : st) : st := St (profs s) r (holder s) (code s) (log s).
Definition see (e : seen) (s : st) : st := St (profs s) (registry s) (holder s) (code s) (log s ++ [e]).
Definition set_registered (b : bool) (p : prof) : prof := Prof b (during_frame p) (frames p) (capacity p).

(** One step of thread [t], whose code is [i :: k] *)
Definition exec (t : nat) (i : instr) (k : list instr) (s : st) : res st :=
  match i with
  | Acquire l => match holder s l with None => Ok (set_code t k (set_holder l (Some t) s)) | Some _ => Ok s end
  | Release l => Ok (set_code t k (set_holder l None s))
  | Check => Ok (set_code t (if registered (profs s t) then k else [Acquire Threads; Register; Release Threads] ++ k) s)  (* profile.h:149-152 *)
  | Register =>                                                                                            (* profile.cpp:21-26 *)
      assert_ (negb (bool_decide (t ∈ registry s)));;
      Ok (set_code t k (set_registry (registry s ++ [t]) (set_prof t (fst (ready (profs s t))) s)))
  | Unregister =>                                                                                          (* profile.cpp:32-35, profile.h:146 *)
      Ok (set_code t k (set_registry (filter (fun u => u <> t) (registry s)) (set_prof t (set_registered false (profs s t)) s)))
  | Expect b => assert_ (Bool.eqb (during_frame (profs s t)) b && (negb b || registered (profs s t)));; Ok (set_code t k s)
  | When_during o =>
      if during_frame (profs s t) then Ok (set_code t ([Acquire (Frames t); Act o; Release (Frames t)] ++ k) s)
      else Ok (set_code t k (see (Did t o) s))
  | Act o => '(p, _) ← ProfileModel.step (profs s t) o; Ok (set_code t k (see (Did t o) (set_prof t p s)))
  | Clear =>                                                                                               (* profile.h:144-145 *)
      match holder s (Frames t) with
      | Some _ => UB
      | None => if during_frame (profs s t) then Die
                else Ok (set_code t k (see (Did t Finalize) (set_prof t (Prof (registered (profs s t)) false [] 0) s)))
      end
  | Each c => Ok (set_code t (concat (map (fun u => [Acquire (Frames u); Read u c; Release (Frames u)]) (registry s)) ++ k) s)  (* profile.h:85-90 *)
  | Read u c => Ok (set_code t (map (fun n => Visit u n c) (timings (profs s u)) ++ k) s)                   (* profile.h:92-101 *)
  | Visit u n c => Ok (set_code t (callback_code t c ++ k) (see (Saw t u n) s))                             (* profile.h:102 *)
  end.

(** A thread that is idle makes a call; a thread that is not goes on *)
Inductive label := Call (t : nat) (c : call) | Go (t : nat).
Definition step (s : st) (l : label) : res st :=
  match l with
  | Call t c => match code s t with [] => Ok (set_code t (code_of t c) s) | _ => Ok s end
  | Go t => match code s t with [] => Ok s | i :: k => exec t i k s end
  end.
Fixpoint run (s : st) (ls : list label) : res st :=
  match ls with [] => Ok s | l :: ls => s ← step s l; run s ls end.
