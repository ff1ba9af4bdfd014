(** Model of Async::Event on Linux (rpp/pos/async_pos.cpp), with kqueue (rpp/pos/async_bsd.cpp) and on
    Windows (rpp/w32/async_w32.cpp).

    The system is a table of open event objects with a level: the counter of an eventfd, the number of
    bytes in a pipe, or 0 and 1.  What it may decide by itself is an argument of an operation: whether
    it refuses a new object, which number it gives it, and which of several ready ones epoll reports.
    Simplifications: the two ends of a pipe (async_bsd.cpp:11-17) are one object, as they are made,
    moved and closed together; system calls on valid arguments are not interrupted; events made by
    of_sys are left out. *)
From stdpp Require Import gmap.
From Verif Require Import Base.
Open Scope Z_scope.

Inductive os := Linux | Bsd | W32.
(** [objs]: the Event objects of the program and their handle, -1 (null on Windows) if they have none. *)
Record st := St { objs : gmap nat Z; sys : gmap Z Z }.
Definition init : st := St ∅ ∅.
Definition with_objs (f : gmap nat Z -> gmap nat Z) (s : st) : st := St (f (objs s)) (sys s).
Definition with_sys (f : gmap Z Z -> gmap Z Z) (s : st) : st := St (objs s) (f (sys s)).

(** A free number: the one the system likes, or else some other. *)
Definition free_number (k : Z) (s : st) : Z :=
  if decide (0 <= k /\ sys s !! k = None) then k else 1 + foldr Z.max 0 ((map_to_list (sys s)).*1).
(** Closing a handle that is not open closes a stranger's, or dies. *)
Definition sys_close (h : Z) (s : st) : res st := match sys s !! h with Some _ => Ok (with_sys (delete h) s) | None => UB end.

Inductive op :=
| New (o : nat) (got : option Z)
| Destroy (o : nat)
| MoveNew (o src : nat)
| MoveAssign (o src : nat)
| Signal (o : nat)
| Reset (o : nat)
| TryWait (o : nat)
| WaitAny (l : list nat) (pick : nat).
Inductive event :=
| Done
| Answer (b : bool)     (* of try_wait *)
| Woke (i : nat)        (* wait_any returned i *)
| Waits.                (* the call waits until an object it waits for is signalled, perhaps forever *)

Definition obj (o : nat) (s : st) : res Z := match objs s !! o with Some h => Ok h | None => UB end.
Fixpoint handles (l : list nat) (s : st) : res (list Z) :=
  match l with [] => Ok [] | o :: l => h ← obj o s; hs ← handles l s; Ok (h :: hs) end.
(** ~Event: async_pos.cpp:35-42, async_bsd.cpp:40-46, async_w32.cpp:29-36 *)
Definition destruct_event (o : nat) (s : st) : res st :=
  h ← obj o s;
  s ← (if decide (h = -1) then Ok s else sys_close h s);
  Ok (with_objs <[o := -1]> s).
(** Moving from [src] into [o], which has no handle: async_pos.cpp:19-24, 27-33 and the like. *)
Definition take_handle (o src : nat) (s : st) : res st :=
  h ← obj src s;
  let s := with_objs <[o := h]> s in
  Ok (with_objs <[src := -1]> s).
(** The level an eventfd can count up to. *)
Definition EVENTFD_MAX : Z := 2 ^ 64 - 2.
Definition signal_event (w : os) (h : Z) (s : st) : res st :=
  match sys s !! h with
  | None => Die
  | Some n =>
      match w with
      | Linux => if decide (n + 1 <= EVENTFD_MAX) then Ok (with_sys <[h := n + 1]> s) else Die   (* async_pos.cpp:48-54; EAGAIN *)
      | Bsd => if decide (n + 1 <= 65536) then Ok (with_sys <[h := n + 1]> s) else Diverge       (* async_bsd.cpp:52-55; the pipe is full *)
      | W32 => Ok (with_sys <[h := 1]> s)                                                        (* async_w32.cpp:51-57 *)
      end
  end.
Definition reset_event (w : os) (h : Z) (s : st) : res st :=
  match sys s !! h with
  | None => Die
  | Some n =>
      match w with
      | Linux => if decide (n = 0) then Die else Ok (with_sys <[h := 0]> s)             (* async_pos.cpp:56-62; EAGAIN *)
      | Bsd => if decide (n = 0) then Diverge else Ok (with_sys <[h := n - 1]> s)       (* async_bsd.cpp:57-61; reads one byte *)
      | W32 => Ok (with_sys <[h := 0]> s)                                               (* async_w32.cpp:43-49 *)
      end
  end.
Definition level (s : st) (h : Z) : Z := default 0 (sys s !! h).
Definition is_ready (s : st) (h : Z) : bool := 0 <? level s h.
Definition is_open (s : st) (h : Z) : bool := match sys s !! h with Some _ => true | None => false end.
(** The last loop of wait_any: async_pos.cpp:95-99, async_bsd.cpp:88-92.  Falling out of it is undefined. *)
Fixpoint index_of (h : Z) (hs : list Z) (i : nat) : res event :=
  match hs with [] => UB | h' :: hs => if decide (h' = h) then Ok (Woke i) else index_of h hs (S i) end.
(** The number of handles Windows waits for at once, MAXIMUM_WAIT_OBJECTS *)
Definition MAX_WAIT : nat := 64%nat.
Definition wait_any (w : os) (hs : list Z) (pick : nat) (s : st) : res event :=
  match w with
  | Linux =>                                                     (* async_pos.cpp:68-101; EBADF and EEXIST die *)
      assert_ (forallb (is_open s) hs && bool_decide (NoDup hs));;
      match List.filter (is_ready s) hs with
      | [] => Ok Waits
      | r :: rs => index_of (nth pick (r :: rs) r) hs 0
      end
  | Bsd =>                                                       (* async_bsd.cpp:67-94: each round overwrites [wait] *)
      match last hs with
      | None => UB
      | Some h => assert_ (is_open s h);; if is_ready s h then index_of h hs 0 else Ok Waits
      end
  | W32 =>                                                       (* async_w32.cpp:72-82 *)
      assert_ (negb (bool_decide (hs = [])) && bool_decide (length hs <= MAX_WAIT)%nat && forallb (is_open s) hs && bool_decide (NoDup hs));;
      match List.filter (is_ready s) hs with
      | [] => Ok Waits
      | r :: _ => index_of r hs 0                                (* the least index *)
      end
  end.
(** async_pos.cpp:64-66, async_bsd.cpp:63-65, async_w32.cpp:59-70 *)
Definition try_wait (w : os) (h : Z) (s : st) : res bool :=
  match w with Linux | Bsd => Ok false | W32 => assert_ (is_open s h);; Ok (is_ready s h) end.

Definition step (w : os) (s : st) (x : op) : res (st * event) :=
  match x with
  | New o got =>
      match objs s !! o, got with
      | Some _, _ => UB
      | None, None => Die
      | None, Some k => let h := free_number k s in Ok (with_objs <[o := h]> (with_sys <[h := 0]> s), Done)
      end
  | Destroy o => s ← destruct_event o s; Ok (with_objs (delete o) s, Done)
  | MoveNew o src => match objs s !! o with Some _ => UB | None => s ← take_handle o src s; Ok (s, Done) end
  | MoveAssign o src => s ← destruct_event o s; s ← take_handle o src s; Ok (s, Done)
  | Signal o => h ← obj o s; s ← signal_event w h s; Ok (s, Done)
  | Reset o => h ← obj o s; s ← reset_event w h s; Ok (s, Done)
  | TryWait o => h ← obj o s; b ← try_wait w h s; Ok (s, Answer b)
  | WaitAny l pick => hs ← handles l s; e ← wait_any w hs pick s; Ok (s, e)
  end.
Fixpoint run (w : os) (s : st) (l : list op) : res (st * list event) :=
  match l with [] => Ok (s, []) | x :: l => '(s, e) ← step w s x; '(s, es) ← run w s l; Ok (s, e :: es) end.
