(** rpp/impl/log.cpp:23-44, 126-193: log messages and their callbacks, over MapModel.

    Any number of threads; an event is one step of one thread, so every interleaving is a list of events.  What happens
    under the mutex in subscribe() and unsubscribe() is one step, as nothing else looks at that state; output() is
    split at each callback.  A callback is a number; [enters f m] says that on message [m] it calls into the log
    itself (logs, subscribes, unsubscribes, or fails an assert): that waits for the mutex its own thread holds, forever.
    Tokens are naturals: that 2^64 of them run out is not modelled.  Level, time, location and the text of the line are
    part of what [m] stands for. *)
From Verif Require Import Base MapModel.

Inductive pc :=
| Idle
| WantLog (m : nat)                              (* log.cpp:150 *)
| Calling (m : nat) (rest : list (nat * nat))    (* log.cpp:158-160: the callbacks still to call *)
| WantSub (f : nat)                              (* log.cpp:181 *)
| WantUnsub (k : nat)                            (* log.cpp:188 *)
| Stuck.                                         (* waits for the mutex it holds *)
Inductive obs :=
| Printed (t indent m : nat)      (* log.cpp:154-156 *)
| Called (k f t m : nat)          (* log.cpp:159: callback [f], subscribed as [k] *)
| Filed (t indent m : nat)        (* log.cpp:162-167, then the mutex is released *)
| Subscribed (t k f : nat)        (* log.cpp:179-185 *)
| Unsubscribed (t k : nat).       (* log.cpp:187-193 *)
Record st := St {
  pcs : nat -> pc;
  indent : nat -> nat;            (* g_log_indent, thread_local *)
  owner : option nat;             (* lock *)
  next : nat;
  callbacks : map nat nat;
  log : list obs                  (* ghost, oldest first *)
}.
(** log.cpp:23-44 *)
Definition init : st := St (fun _ => Idle) (fun _ => 0) None 1 map_empty [].

Definition upd {A} (f : nat -> A) (i : nat) (x : A) : nat -> A := fun j => if decide (j = i) then x else f j.
Inductive cmd := Log (m : nat) | Subscribe (f : nat) | Unsubscribe (k : nat) | Indent | Dedent.
Inductive event := Begin (t : nat) (c : cmd) | Step (t : nat).

Section log.
  Variable hash : nat -> Z.
  Variable enters : nat -> nat -> bool.

  Definition begin (s : st) (t : nat) (c : cmd) : res st :=
    let goto p := Ok (St (upd (pcs s) t p) (indent s) (owner s) (next s) (callbacks s) (log s)) in
    match pcs s t with
    | Idle =>
        match c with
        | Log m => goto (WantLog m)
        | Subscribe f => goto (WantSub f)
        | Unsubscribe k => goto (WantUnsub k)
        | Indent => Ok (St (pcs s) (upd (indent s) t (S (indent s t))) (owner s) (next s) (callbacks s) (log s))   (* log.cpp:170-172 *)
        | Dedent =>                                                                                               (* log.cpp:174-177 *)
            assert_ (0 <? indent s t);;
            Ok (St (pcs s) (upd (indent s) t (indent s t - 1)) (owner s) (next s) (callbacks s) (log s))
        end
    | _ => Ok s
    end.
  Definition step_thread (s : st) (t : nat) : res st :=
    match pcs s t with
    | Idle | Stuck => Ok s
    | WantLog m =>
        match owner s with
        | Some _ => Ok s
        | None => Ok (St (upd (pcs s) t (Calling m (map_iterate (callbacks s)))) (indent s) (Some t) (next s) (callbacks s)
                         (log s ++ [Printed t (4 * indent s t) m]))
        end
    | Calling m ((k, f) :: rest) =>
        Ok (St (upd (pcs s) t (if enters f m then Stuck else Calling m rest)) (indent s) (owner s) (next s) (callbacks s)
               (log s ++ [Called k f t m]))
    | Calling m [] =>
        Ok (St (upd (pcs s) t Idle) (indent s) None (next s) (callbacks s) (log s ++ [Filed t (4 * indent s t) m]))
    | WantSub f =>
        match owner s with
        | Some _ => Ok s
        | None =>
            '(cbs, _, _) ← map_insert hash (callbacks s) (next s) f;
            Ok (St (upd (pcs s) t Idle) (indent s) None (S (next s)) cbs (log s ++ [Subscribed t (next s) f]))
        end
    | WantUnsub k =>
        match owner s with
        | Some _ => Ok s
        | None =>
            '(cbs, found, _) ← map_try_erase hash (callbacks s) k;
            if (found : bool) then
              let cbs := if map_is_empty cbs then fst (map_destroy cbs) else cbs in                      (* log.cpp:190-192 *)
              Ok (St (upd (pcs s) t Idle) (indent s) None (next s) cbs (log s ++ [Unsubscribed t k]))
            else (* Map::erase dies (map.h:316); die logs, and that locks again *)
              Ok (St (upd (pcs s) t Stuck) (indent s) (Some t) (next s) cbs (log s))
        end
    end.
  Definition step (s : st) (e : event) : res st :=
    match e with Begin t c => begin s t c | Step t => step_thread s t end.
  Fixpoint run (s : st) (es : list event) : res st :=
    match es with [] => Ok s | e :: es => s ← step s e; run s es end.
End log.
