(** What is asked of the profiler when several threads use it. *)
From Verif Require Import Base ProfileModel ProfThreadsModel.

(** What a thread has done to its own profile *)
Definition ops_of (t : nat) (l : list seen) : list op :=
  omap (fun e => match e with Did u o => if decide (u = t) then Some o else None | _ => None end) l.
(** The nodes of the last frame that a history has ended, nothing if there is none; ending the thread forgets all *)
Definition forgets (o : op) : Prop := match o with End _ | Finalize => True | _ => False end.
Definition last_ended (os : list op) (ns : list node) : Prop :=
  (exists os1 x os2 p f, os = os1 ++ End x :: os2 /\ Forall (fun o => ~ forgets o) os2 /\
     ProfileModel.run ProfileModel.init (os1 ++ [End x]) = Ok p /\ last (frames p) = Some f /\ ns = nodes f) \/
  ((exists os1 os2, os = os1 ++ os2 /\ (os1 = [] \/ last os1 = Some Finalize) /\ Forall (fun o => ~ forgets o) os2) /\ ns = []).

(** A thread is in the middle of a call that cannot go on now *)
Definition waits (s : st) (t : nat) (l : lock) : Prop := exists k, code s t = Acquire l :: k /\ holder s l <> None.
(** The functions given to iterate_timings only look; threads do not end *)
Definition plain (l : label) : Prop := match l with Call _ (Iterate c) => c = Plain | _ => True end.
Definition stays (l : label) : Prop := match l with Call _ Quit => False | _ => True end.
