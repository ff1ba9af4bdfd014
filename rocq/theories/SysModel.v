(** Models of the small wrappers around the system in rpp/pos/thread_pos.cpp and rpp/w32/thread_w32.cpp:
    Atomic, sleep, set_priority and set_affinity. *)
From Verif Require Import Base Word.
Local Open Scope Z_scope.

(** ** Atomic (thread0.h:75-103).  Every method is one access, sequentially consistent, so a concurrent
    execution is a list of calls with the threads that make them, in the order of the accesses. *)
Inductive call :=
| Load | Incr | Decr
| Exchange (x : Z)
| Cas (compare_with set_to : Z).
Definition i64 (x : Z) : Prop := - 2 ^ 63 <= x < 2 ^ 63.
(** thread_pos.cpp:234-256: the new value and what is returned.  fetch_add and fetch_sub wrap around, but the
    [+ 1] and [- 1] after them are plain signed arithmetic. *)
Definition do_call (c : call) (v : Z) : res (Z * Z) :=
  match c with
  | Load => Ok (v, v)
  | Incr => if v + 1 <? 2 ^ 63 then Ok (to_signed 64 (v + 1), v + 1) else UB
  | Decr => if - 2 ^ 63 <=? v - 1 then Ok (to_signed 64 (v - 1), v - 1) else UB
  | Exchange x => Ok (x, v)
  | Cas cmp set_to => Ok (if v =? cmp then set_to else v, if v =? cmp then cmp else v)
  end.
(** thread_w32.cpp:119-137: InterlockedIncrement64 and so on, which wrap around. *)
Definition do_call_w32 (c : call) (v : Z) : Z * Z :=
  match c with
  | Load => (v, v)
  | Incr => (to_signed 64 (v + 1), to_signed 64 (v + 1))
  | Decr => (to_signed 64 (v - 1), to_signed 64 (v - 1))
  | Exchange x => (x, v)
  | Cas cmp set_to => (if v =? cmp then set_to else v, v)
  end.
(** What each thread's calls returned, in order. *)
Fixpoint calls (v : Z) (l : list (nat * call)) : res (Z * list (nat * call * Z)) :=
  match l with
  | [] => Ok (v, [])
  | (t, c) :: l => '(v, r) ← do_call c v; '(v', h) ← calls v l; Ok (v', (t, c, r) :: h)
  end.
Fixpoint calls_w32 (v : Z) (l : list (nat * call)) : Z * list (nat * call * Z) :=
  match l with
  | [] => (v, [])
  | (t, c) :: l => let '(v, r) := do_call_w32 c v in let '(v', h) := calls_w32 v l in (v', (t, c, r) :: h)
  end.

(** ** sleep.  [None]: for ever.  Otherwise microseconds. *)
(** thread_pos.cpp:37-39; usleep takes an unsigned int, and returns early when a signal handler ran after
    [interrupted] microseconds; its result is not looked at. *)
Definition sleep_pos (ms : Z) (interrupted : option Z) : option Z :=
  let us := wrap 32 (wrap 64 (ms * 1000)) in
  Some match interrupted with Some t => Z.min t us | None => us end.
(** thread_w32.cpp:11-13; INFINITE is 2^32 - 1. *)
Definition sleep_w32 (ms : Z) : option Z :=
  let d := wrap 32 ms in if d =? 2 ^ 32 - 1 then None else Some (d * 1000).

(** ** set_priority.  The priority the thread has afterwards. *)
Inductive priority := Low | Normal | High | Critical.
(** thread_pos.cpp:76-141 on Linux.  The policy is the one of fresh attributes, SCHED_OTHER; [lo] and [hi] are
    what the system says its limits are (both 0 for SCHED_OTHER, 1 and 99 for SCHED_RR).  C's division is
    towards zero. *)
Definition priority_linux (lo hi : Z) (p : priority) : Z :=
  match p with
  | Low => lo
  | Normal => lo + Z.quot (hi - lo) 2
  | High => lo + Z.quot (hi - lo) 2 + Z.quot (hi - lo) 4
  | Critical => hi
  end.
(** On macOS: the priority may stay the [current] one. *)
Definition priority_macos (current lo hi : Z) (p : priority) : Z :=
  match p with
  | Low => lo
  | Normal => if (lo =? 15) && (hi =? 47) then 37 else current
  | High => if (lo =? 15) && (hi =? 47) then 45 else current
  | Critical => hi
  end.
(** thread_w32.cpp:49-63 *)
Definition priority_w32 (p : priority) : Z := match p with Low => -2 | Normal => 0 | High => 2 | Critical => 15 end.

(** ** set_affinity.  The cores the thread may run on afterwards, among [n]. *)
(** thread_pos.cpp:143-158 on Linux: a cpu_set_t has 1024 bits, CPU_SET ignores others, and the system rejects
    an empty set. *)
Definition affinity_linux (n core : Z) : res (list Z) :=
  assert_ (core <? n);;
  if core <? 1024 then Ok [core] else Die.
(** thread_w32.cpp:65-76; the mask has 64 bits. *)
Definition affinity_w32 (n core : Z) (now : list Z) : res (list Z) :=
  assert_ (core <? n);;
  if core >=? 64 then Ok now
  else let mask := wrap 64 (to_signed 64 (Z.shiftl 1 core)) in Ok (List.filter (fun c => Z.testbit mask c) (List.map Z.of_nat (seq 0 64))).
