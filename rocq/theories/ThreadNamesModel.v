(** Threads by the names the system gives them: rpp/thread.h:89-157 over rpp/pos/thread_pos.cpp:291-326 and
    rpp/w32/thread_w32.cpp:165-208.

    ThreadModel numbers threads and never reuses a number.  Here a Thread object holds what it holds in the code, a
    [pthread_t] or a Windows handle, and [Thread::this_id()] is what the system says; both may come back for a new
    thread once the old one is gone.  A thread's number as in ThreadModel is what the system's own tables refer to.
    On Linux the id is the [pthread_t]; macOS, where the two differ as they do on Windows, is not modelled.  Windows
    hands out no handle equal to INVALID_HANDLE_VALUE, and waiting for an open thread handle succeeds. *)
From stdpp Require Import gmap.
From Verif Require Import Base ThreadModel.

Inductive os := Posix | W32.
Definition INVALID : Z := (-1)%Z.        (* INVALID_HANDLE_VALUE *)
Record nst := NSt {
  nthr : gmap nat (body * handle);
  nvars : gmap nat Z;                    (* Thread objects that exist and their [thread]; 0: OS_Thread_Null *)
  opn : gmap Z nat;                      (* names of threads neither joined nor detached *)
  tids : gmap nat Z;                     (* what this_id() gives in each thread *)
  nlog : list obs
}.
(** Only main runs, under the id [main]. *)
Definition ninit (main : Z) : nst := NSt ∅ ∅ ∅ {[0 := main]} [].
(** Starting a thread: the system chooses its name and id. *)
Inductive nevent := NStart (a v : nat) (choice : option (Z * Z)) | Other (e : event).

Definition n_fresh (s : nst) : nat := 1 + foldr Nat.max 0 ((map_to_list (nthr s)).*1).
Definition n_active (a : nat) (s : nst) : bool :=
  bool_decide (a = 0) || match nthr s !! a with Some (InBody, _) => true | _ => false end.
Definition n_get (v : nat) (s : nst) : res Z := match nvars s !! v with Some h => Ok h | None => UB end.
Definition n_set (v : nat) (h : Z) (s : nst) : nst := NSt (nthr s) (<[v := h]> (nvars s)) (opn s) (tids s) (nlog s).
Definition n_say (o : obs) (s : nst) : nst := NSt (nthr s) (nvars s) (opn s) (tids s) (o :: nlog s).
Definition n_thr (t : nat) (x : body * handle) (s : nst) : nst := NSt (<[t := x]> (nthr s)) (nvars s) (opn s) (tids s) (nlog s).
Definition n_close (h : Z) (s : nst) : nst := NSt (nthr s) (nvars s) (delete h (opn s)) (tids s) (nlog s).
(** thread.h:14-20 and [GetCurrentThreadId] *)
Definition this_id (a : nat) (s : nst) : Z := default 0%Z (tids s !! a).
(** thread_pos.cpp:291-299; thread_w32.cpp:165-169: [GetThreadId] gives 0 for what is no handle. *)
Definition sys_id (o : os) (h : Z) (s : nst) : res Z :=
  match o with
  | Posix => Ok h
  | W32 =>
      assert_ (negb (h =? INVALID)%Z);;
      Ok (match opn s !! h with Some t => default 0%Z (tids s !! t) | None => 0%Z end)
  end.
(** thread_pos.cpp:301-308; thread_w32.cpp:171-187.  [None]: the caller waits. *)
Definition n_sys_join (o : os) (a : nat) (h : Z) (s : nst) : res (option nst) :=
  match o with
  | Posix =>
      if (h =? 0)%Z then Ok (Some s)
      else
        assert_ (negb (this_id a s =? h)%Z);;
        match opn s !! h with
        | Some t =>
            match nthr s !! t with
            | Some (Exited, _) => Ok (Some (n_say (OJoin a t) (n_thr t (Exited, Joined) (n_close h s))))
            | _ => Ok None
            end
        | None => UB
        end
  | W32 =>
      id ← sys_id o h s;
      assert_ (negb (id =? this_id a s)%Z);;
      if (h =? INVALID)%Z then Ok (Some s)
      else
        match opn s !! h with
        | Some t =>
            match nthr s !! t with
            | Some (Exited, _) => Ok (Some (n_say (OJoin a t) (n_thr t (Exited, Joined) (n_close h s))))
            | _ => Ok None
            end
        | None => Die          (* WAIT_FAILED *)
        end
  end.
(** thread_pos.cpp:310-316; thread_w32.cpp:189-195 *)
Definition n_sys_detach (o : os) (a : nat) (h : Z) (s : nst) : res nst :=
  let null := match o with Posix => 0%Z | W32 => INVALID end in
  if (h =? null)%Z then Ok s
  else
    match opn s !! h with
    | Some t =>
        match nthr s !! t with
        | Some (b, _) => Ok (n_say (ODetach a t) (n_thr t (b, Detached) (n_close h s)))
        | None => UB
        end
    | None => match o with Posix => UB | W32 => Die end
    end.
(** thread.h:129-133 *)
Definition n_join (o : os) (a v : nat) (s : nst) : res (option nst) :=
  h ← n_get v s;
  assert_ (negb (h =? 0)%Z);;
  r ← n_sys_join o a h s;
  Ok (option_map (n_set v 0%Z) r).
(** thread.h:103-105 *)
Definition n_destruct (o : os) (a v : nat) (s : nst) : res (option nst) :=
  h ← n_get v s;
  if (h =? 0)%Z then Ok (Some s) else n_join o a v s.
(** thread.h:110-113, 116-118 *)
Definition n_take (v w : nat) (s : nst) : res nst :=
  h ← n_get w s;
  Ok (n_set w 0%Z (n_set v h s)).
Definition n_op (o : os) (a : nat) (p : op) (s : nst) : res nst :=
  match p with
  | Empty v => match nvars s !! v with Some _ => UB | None => Ok (n_set v 0%Z s) end
  | Start v _ => Ok s                                                                    (* see [nstep] *)
  | MoveNew v w => match nvars s !! v with Some _ => UB | None => n_take v w s end
  | MoveAssign v w =>
      r ← n_destruct o a v s;
      match r with None => Ok s | Some s => n_take v w s end
  | Join v => r ← n_join o a v s; Ok (default s r)
  | Detach v =>                                                                          (* thread.h:134-138 *)
      h ← n_get v s;
      assert_ (negb (h =? 0)%Z);;
      s ← n_sys_detach o a h s;
      Ok (n_set v 0%Z s)
  | GetId v => h ← n_get v s; assert_ (negb (h =? 0)%Z);; _ ← sys_id o h s; Ok s         (* thread.h:125-128 *)
  | Drop v =>
      r ← n_destruct o a v s;
      Ok match r with None => s | Some s => NSt (nthr s) (delete v (nvars s)) (opn s) (tids s) (nlog s) end
  end.
Definition nstep (o : os) (s : nst) (e : nevent) : res nst :=
  match e with
  | NStart a v choice =>                                       (* thread.h:97-102; sys_start *)
      if n_active a s then
        match nvars s !! v with
        | Some _ => UB
        | None =>
            match choice with
            | None => Die
            | Some (h, i) =>
                let t := n_fresh s in
                Ok (NSt (<[t := (Born, Joinable)]> (nthr s)) (<[v := h]> (nvars s)) (<[h := t]> (opn s)) (<[t := i]> (tids s))
                        (OStart a t :: nlog s))
            end
        end
      else Ok s
  | Other (Op a p) => if n_active a s then n_op o a p s else Ok s
  | Other (Return t) => Ok match nthr s !! t with Some (InBody, h) => n_say (OReturn t) (n_thr t (Returned, h) s) | _ => s end
  | Other (Run t) =>
      Ok match nthr s !! t with
         | Some (Born, h) => n_say (OCall t) (n_thr t (InBody, h) s)
         | Some (Returned, h) => n_say (ODestroy t) (n_thr t (Destroyed, h) s)
         | Some (Destroyed, h) => n_say (OFree t) (n_thr t (Exited, h) s)
         | _ => s
         end
  end.
Fixpoint nrun (o : os) (s : nst) (l : list nevent) : res nst :=
  match l with [] => Ok s | e :: l => s ← nstep o s e; nrun o s l end.
