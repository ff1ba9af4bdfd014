(** Tasks that several coroutines use at once.  TaskModel gives a Task variable to one operation at a time.  But
    co_await and ~Task touch the task only through its atomic [state], and Task::then (rpp/async.h:215-225) is
    itself a coroutine that awaits [*this] while the caller goes on and may destroy it, so that a user may well
    expect these to be safe.  Here co_await and ~Task begin whatever the others do; the rest is TaskModel. *)
From Verif Require Import Base TaskModel.

(** The start of rpp/async.h:179-187 (co_await) and of 153-163 (~Task), with no exclusive use of the variable *)
Definition begin_shared (s : tst) (a : nat) (c : cmd) : tst :=
  match c with
  | Await v => if is_coro s a && bool_decide (is_Some (vars s v)) then set_pc a (Ready v) s else s
  | Drop v => if bool_decide (is_Some (vars s v)) then set_pc a (Dropping v None) s else s
  | _ => begin s a c
  end.
(** As TaskModel.step *)
Definition step_shared (s : tst) (e : event) : res tst :=
  match e with
  | Begin a c => match pcs s a with Idle => _ ← running s a; Ok (begin_shared s a c) | _ => Ok s end
  | _ => step s e
  end.
(** As TaskModel.run *)
Fixpoint run_shared (s : tst) (es : list event) : res tst :=
  match es with [] => Ok s | e :: es => s ← step_shared s e; run_shared s es end.
