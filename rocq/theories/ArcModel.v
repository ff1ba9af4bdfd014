(** rpp/rc.h:140-233, Arc, with the counter of rpp/pos/thread_pos.cpp:234-244.

    Any number of threads run at once, each with its own Arc variables.  A step of
    a schedule either begins an operation in a thread that has none running, or
    lets one thread go on to its next access to shared memory.  The counter is a
    sequentially consistent atomic, so steps interleave.  Handles pass from thread
    to thread through [mail], which stands for whatever synchronised channel or
    captured variable the program uses.
    Simplifications: objects are never reused and hold no Arcs themselves; the
    construction of an object, which no other thread can see, is one step.  Any
    access to an object after its destructor has begun is undefined. *)
From Verif Require Import Word.

Inductive life := Live | Destroyed | Freed.
(** rc.h:19-26 *)
Record aobj := mk_aobj { a_refs : Z; a_life : life }.
(** Where a thread is. [k] is the source of the assignment that [drop] is part of. *)
Inductive pc :=
| Idle
| Duping (i : nat)                           (* rc.h:178, before incr *)
| Using (i : nat)                            (* in *x or x-> *)
| Asking (i : nat)                           (* rc.h:211, before load *)
| Dropping (i : nat) (k : option nat)        (* rc.h:222-223, before decr *)
| Destroying (i : nat) (k : option nat)      (* rc.h:224 *)
| Freeing (i : nat) (k : option nat)         (* rc.h:225 *)
| Nulling (i : nat) (k : option nat)         (* rc.h:227 *)
| Taking (i j : nat).                        (* rc.h:188-189 *)
Record thread := mk_thread { vars : list (option nat); at_ : pc }.
Record ast := mk_ast {
  threads : list thread;
  objs : list aobj;
  mail : list (option nat);
  gone : list nat;     (* destructor calls, most recent first *)
  freed : list nat     (* deallocations *)
}.
(** One thread and nothing else. *)
Definition ast_init : ast := mk_ast [mk_thread [] Idle] [] [] [] [].

(** thread_pos.cpp:238-244: fetch_add and fetch_sub on an i64 *)
Definition incr (r : Z) : Z := to_signed 64 (r + 1).
Definition decr (r : Z) : Z := to_signed 64 (r - 1).

Inductive cmd :=
| Var                 (* Arc<T> x; *)
| New                 (* Arc<T> x{v}; *)
| Dup (i : nat)       (* Arc<T> x = v_i.dup(); *)
| Use (i : nat)       (* *v_i *)
| Refs (i : nat)      (* v_i.references() *)
| Clear (i : nat)     (* v_i.clear(), ~Arc *)
| Assign (i j : nat)  (* v_i = move(v_j); *)
| Post (i : nat)      (* give v_i away *)
| Recv (k : nat)      (* receive a handle *)
| Spawn.              (* start another thread *)
Inductive event := Begin (t : nat) (c : cmd) | Step (t : nat).

Definition with_thread (t : nat) (th : thread) (st : ast) : ast :=
  mk_ast (<[t := th]> (threads st)) (objs st) (mail st) (gone st) (freed st).
Definition with_obj (p : nat) (o : aobj) (st : ast) : ast :=
  mk_ast (threads st) (<[p := o]> (objs st)) (mail st) (gone st) (freed st).
Definition live_obj (st : ast) (p : nat) : res aobj :=
  match objs st !! p with
  | Some o => match a_life o with Live => Ok o | _ => UB end
  | None => UB
  end.

(** A command begins.  Naming a variable that does not exist does nothing. *)
Definition begin (st : ast) (t : nat) (th : thread) (c : cmd) : ast :=
  match c with
  | Var => with_thread t (mk_thread (vars th ++ [None]) Idle) st                          (* rc.h:144 *)
  | New =>                                                                                (* rc.h:149-162 *)
      let st := mk_ast (threads st) (objs st ++ [mk_aobj 1 Live]) (mail st) (gone st) (freed st) in
      with_thread t (mk_thread (vars th ++ [Some (Nat.pred (length (objs st)))]) Idle) st
  | Dup i => if bool_decide (is_Some (vars th !! i)) then with_thread t (mk_thread (vars th) (Duping i)) st else st
  | Use i => if bool_decide (is_Some (vars th !! i)) then with_thread t (mk_thread (vars th) (Using i)) st else st
  | Refs i => if bool_decide (is_Some (vars th !! i)) then with_thread t (mk_thread (vars th) (Asking i)) st else st
  | Clear i => if bool_decide (is_Some (vars th !! i)) then with_thread t (mk_thread (vars th) (Dropping i None)) st else st
  | Assign i j =>
      if bool_decide (is_Some (vars th !! i) /\ is_Some (vars th !! j)) then with_thread t (mk_thread (vars th) (Dropping i (Some j))) st else st
  | Post i =>                                                                             (* rc.h:182-185 *)
      match vars th !! i with
      | Some h =>
          let st := with_thread t (mk_thread (<[i := None]> (vars th)) Idle) st in
          mk_ast (threads st) (objs st) (mail st ++ [h]) (gone st) (freed st)
      | None => st
      end
  | Recv k =>                                                                             (* rc.h:182-185 *)
      match mail st !! k with
      | Some h =>
          let st := with_thread t (mk_thread (vars th ++ [h]) Idle) st in
          mk_ast (threads st) (objs st) (<[k := None]> (mail st)) (gone st) (freed st)
      | None => st
      end
  | Spawn => mk_ast (threads st ++ [mk_thread [] Idle]) (objs st) (mail st) (gone st) (freed st)
  end.
Definition after (i : nat) (k : option nat) : pc := match k with None => Idle | Some j => Taking i j end.
(** One access to shared memory; [Some n] is what references() returns. *)
Definition micro (st : ast) (t : nat) (th : thread) : res (ast * option Z) :=
  let var i := match vars th !! i with Some h => Ok h | None => UB end in
  let goto q := with_thread t (mk_thread (vars th) q) in
  match at_ th with
  | Idle => Ok (st, None)
  | Duping i =>                                                                           (* rc.h:175-180 *)
      h ← var i;
      match h with
      | None => Ok (with_thread t (mk_thread (vars th ++ [None]) Idle) st, None)
      | Some p =>
          o ← live_obj st p;
          Ok (with_thread t (mk_thread (vars th ++ [Some p]) Idle) (with_obj p (mk_aobj (incr (a_refs o)) Live) st), None)
      end
  | Using i =>                                                                            (* rc.h:193-208 *)
      h ← var i;
      match h with None => Die | Some p => _ ← live_obj st p; Ok (goto Idle st, None) end
  | Asking i =>                                                                           (* rc.h:210-212 *)
      h ← var i;
      match h with None => Ok (goto Idle st, Some 0%Z) | Some p => o ← live_obj st p; Ok (goto Idle st, Some (a_refs o)) end
  | Dropping i k =>
      h ← var i;
      match h with
      | None => Ok (goto (after i k) st, None)                                            (* rc.h:222 *)
      | Some p =>                                                                         (* rc.h:223 *)
          o ← live_obj st p;
          let r := decr (a_refs o) in
          Ok (goto (if (r =? 0)%Z then Destroying i k else Nulling i k) (with_obj p (mk_aobj r Live) st), None)
      end
  | Destroying i k =>                                                                     (* rc.h:224 *)
      h ← var i;
      match h with
      | None => UB
      | Some p =>
          o ← live_obj st p;
          let st := goto (Freeing i k) (with_obj p (mk_aobj (a_refs o) Destroyed) st) in
          Ok (mk_ast (threads st) (objs st) (mail st) (p :: gone st) (freed st), None)
      end
  | Freeing i k =>                                                                        (* rc.h:225 *)
      h ← var i;
      match h with
      | None => UB
      | Some p =>
          match objs st !! p with
          | Some (mk_aobj r Destroyed) =>
              let st := goto (Nulling i k) (with_obj p (mk_aobj r Freed) st) in
              Ok (mk_ast (threads st) (objs st) (mail st) (gone st) (p :: freed st), None)
          | _ => UB
          end
      end
  | Nulling i k => Ok (with_thread t (mk_thread (<[i := None]> (vars th)) (after i k)) st, None)   (* rc.h:227 *)
  | Taking i j =>                                                                         (* rc.h:188-189 *)
      h ← var j;
      Ok (with_thread t (mk_thread (<[j := None]> (<[i := h]> (vars th))) Idle) st, None)
  end.
Definition step (st : ast) (e : event) : res (ast * option Z) :=
  match e with
  | Begin t c =>
      match threads st !! t with
      | Some th => match at_ th with Idle => Ok (begin st t th c, None) | _ => Ok (st, None) end
      | None => Ok (st, None)
      end
  | Step t => match threads st !! t with Some th => micro st t th | None => Ok (st, None) end
  end.
Fixpoint run (st : ast) (es : list event) : res ast :=
  match es with
  | [] => Ok st
  | e :: es => '(st, _) ← step st e; run st es
  end.
