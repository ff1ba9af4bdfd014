(** rpp/rc.h:36-131, Rc, and rpp/box.h:10-107, Box.

    Handles (the [data_] pointers) live in local variables or inside the objects
    that other handles own, so that dropping one handle can destroy a chain of
    objects.  An object has a value, some handles as fields, and, for Rc, its
    reference counter.  Objects are named by numbers that are never reused.  A
    read or write through a handle to a destroyed object, or to a variable or
    field inside a destroyed object, is undefined.
    Simplifications: destroying an object drops its fields one after the other,
    each with everything it releases, before the next; the recursion of the
    destructors is run with an explicit stack.  An object's memory is given back
    before its fields are dropped rather than after. *)
From stdpp Require Import gmap.
From Verif Require Import Word.

(** rc.h:11-17; box.h:107 (a boxed object has no counter, [o_refs] stays 1) *)
Record obj := mk_obj { o_refs : Z; o_val : Z; o_fields : list (option nat) }.
Record hs := mk_hs {
  roots : list (option nat);   (* local variables *)
  heap : gmap nat obj;
  next_id : nat;
  gone : list nat              (* destructors run, most recent first *)
}.
Definition hs_init : hs := mk_hs [] ∅ 0 [].
Definition with_heap (f : gmap nat obj -> gmap nat obj) (st : hs) : hs := mk_hs (roots st) (f (heap st)) (next_id st) (gone st).
Definition with_refs (f : Z -> Z) (o : obj) : obj := mk_obj (f (o_refs o)) (o_val o) (o_fields o).
Definition with_field (k : nat) (h : option nat) (o : obj) : obj := mk_obj (o_refs o) (o_val o) (<[k := h]> (o_fields o)).
Definition with_val (v : Z) (o : obj) : obj := mk_obj (o_refs o) v (o_fields o).

(** A handle in the program text: a variable [x], or [q->f] for a field. *)
Inductive place := Root (i : nat) | Field (q : place) (k : nat).
(** Where it is in memory. *)
Inductive addr := ARoot (i : nat) | AField (p k : nat).

Definition read (st : hs) (a : addr) : res (option nat) :=
  match a with
  | ARoot i => match roots st !! i with Some h => Ok h | None => UB end
  | AField p k =>
      match heap st !! p with
      | Some o => match o_fields o !! k with Some h => Ok h | None => UB end
      | None => UB
      end
  end.
Definition write (st : hs) (a : addr) (h : option nat) : res hs :=
  _ ← read st a;
  match a with
  | ARoot i => Ok (mk_hs (<[i := h]> (roots st)) (heap st) (next_id st) (gone st))
  | AField p k => Ok (with_heap (alter (with_field k h) p) st)
  end.
(** rc.h:90-105, box.h:84-100: [operator->] asserts that there is an object *)
Fixpoint locate (st : hs) (pl : place) : res addr :=
  match pl with
  | Root i => Ok (ARoot i)
  | Field q k =>
      a ← locate st q;
      h ← read st a;
      match h with
      | Some p => Ok (AField p k)
      | None => Die
      end
  end.
Definition deref (st : hs) (pl : place) : res nat :=
  a ← locate st pl;
  h ← read st a;
  match h with Some p => Ok p | None => Die end.

(** rc.h:118-126 ([shared]), box.h:49-54 (not [shared]): the handles on the
    stack are dropped *)
Fixpoint cascade (shared : bool) (fuel : nat) (st : hs) (w : list (option nat)) : res hs :=
  match w with
  | [] => Ok st
  | None :: w => match fuel with O => Diverge | S fuel => cascade shared fuel st w end
  | Some p :: w =>
      match fuel with
      | O => Diverge
      | S fuel =>
          match heap st !! p with
          | None => UB
          | Some o =>
              let o := if shared then with_refs (fun r => wrap 64 (r - 1)) o else o in
              if (if shared then (o_refs o =? 0)%Z else true) then
                cascade shared fuel (mk_hs (roots st) (delete p (heap st)) (next_id st) (p :: gone st)) (o_fields o ++ w)
              else cascade shared fuel (with_heap (insert p o) st) w
          end
      end
  end.
Definition field_count (h : gmap nat obj) : nat := list_sum (map (fun x => length (o_fields x.2)) (map_to_list h)).
Definition drop (shared : bool) (st : hs) (a : addr) : res hs :=
  h ← read st a;
  st ← cascade shared (S (field_count (heap st))) st [h];
  write st a None.

(** rc.h:46-59, box.h:14-24 and 56-63: a new object with [n] null handles inside *)
Definition alloc (st : hs) (v : Z) (n : nat) : hs * nat :=
  (mk_hs (roots st) (<[next_id st := mk_obj 1 v (replicate n None)]> (heap st)) (S (next_id st)) (gone st), next_id st).

(** Statements of a program. *)
Inductive op :=
| Var                                  (* Rc<T> x; *)
| End                                  (* the last variable goes out of scope *)
| New (dst : place) (v : Z) (n : nat)  (* dst = Rc<T>{v}; *)
| Dup (dst src : place)                (* dst = src.dup(); *)
| From (dst src : place)               (* dst = Rc<T>::from_this(&*src); *)
| Move (dst src : place)               (* dst = move(src); *)
| Take (src : place)                   (* Rc<T> x{move(src)}; *)
| Clear (dst : place)                  (* dst.clear(); *)
| Emplace (dst : place) (v : Z) (n : nat) (* dst.emplace(v); *)
| Clone (dst src : place)              (* dst = src.clone(); *)
| References (src : place)             (* src.references() *)
| IsOk (src : place)                   (* src.ok() *)
| Get (src : place)                    (* *src *)
| Set_ (dst : place) (v : Z).          (* *dst = v; *)
Inductive out := Nothing | Number (n : Z) | Bool (b : bool).

Definition load (st : hs) (p : nat) : res obj := match heap st !! p with Some o => Ok o | None => UB end.
(** rc.h:83-88, box.h:42-47, assigning from a temporary that holds [p]; the
    temporary is null when it is destroyed *)
Definition assign (shared : bool) (st : hs) (a : addr) (p : option nat) : res hs :=
  st ← drop shared st a; write st a p.
Definition step (shared : bool) (st : hs) (o : op) : res (hs * out) :=
  match o with
  | Var => Ok (mk_hs (roots st ++ [None]) (heap st) (next_id st) (gone st), Nothing)   (* rc.h:41, box.h:12 *)
  | End =>                                                                             (* rc.h:42-44, box.h:49-54 *)
      match length (roots st) with
      | O => UB
      | S i => st ← drop shared st (ARoot i); Ok (mk_hs (take i (roots st)) (heap st) (next_id st) (gone st), Nothing)
      end
  | New dst v n =>
      let '(st, p) := alloc st v n in
      a ← locate st dst; st ← assign shared st a (Some p); Ok (st, Nothing)
  | Dup dst src =>                                                                     (* rc.h:72-77 *)
      s ← locate st src; h ← read st s;
      st ← match h with
           | None => Ok st
           | Some p => _ ← load st p; Ok (with_heap (alter (with_refs (fun r => wrap 64 (r + 1))) p) st)
           end;
      a ← locate st dst; st ← assign shared st a h; Ok (st, Nothing)
  | From dst src =>                                                                    (* rc.h:61-67 *)
      p ← deref st src; _ ← load st p;
      let st := with_heap (alter (with_refs (fun r => wrap 64 (r + 1))) p) st in
      a ← locate st dst; st ← assign shared st a (Some p); Ok (st, Nothing)
  | Move dst src =>                                                                    (* rc.h:83-88, box.h:42-47 *)
      a ← locate st dst; s ← locate st src;
      st ← drop shared st a; h ← read st s; st ← write st a h; st ← write st s None; Ok (st, Nothing)
  | Take src =>                                                                        (* rc.h:79-82, box.h:38-41 *)
      s ← locate st src; h ← read st s; st ← write st s None;
      Ok (mk_hs (roots st ++ [h]) (heap st) (next_id st) (gone st), Nothing)
  | Clear dst => a ← locate st dst; st ← drop shared st a; Ok (st, Nothing)            (* rc.h:113-115 *)
  | Emplace dst v n =>                                                                 (* box.h:78-82 *)
      a ← locate st dst; st ← drop shared st a;
      let '(st, p) := alloc st v n in st ← write st a (Some p); Ok (st, Nothing)
  | Clone dst src =>                                                                   (* box.h:65-76; the copy's fields are null *)
      s ← locate st src; h ← read st s;
      '(st, h) ← match h with
                 | None => Ok (st, None)
                 | Some p => o ← load st p; let '(st, q) := alloc st (o_val o) (length (o_fields o)) in Ok (st, Some q)
                 end;
      a ← locate st dst; st ← assign shared st a h; Ok (st, Nothing)
  | References src =>                                                                  (* rc.h:107-109 *)
      s ← locate st src; h ← read st s;
      match h with None => Ok (st, Number 0) | Some p => o ← load st p; Ok (st, Number (o_refs o)) end
  | IsOk src => s ← locate st src; h ← read st s; Ok (st, Bool (bool_decide (h <> None)))  (* rc.h:110-112, box.h:102-104 *)
  | Get src => p ← deref st src; o ← load st p; Ok (st, Number (o_val o))
  | Set_ dst v => p ← deref st dst; _ ← load st p; Ok (with_heap (alter (with_val v) p) st, Nothing)
  end.
Fixpoint run (shared : bool) (st : hs) (os : list op) : res (hs * list out) :=
  match os with
  | [] => Ok (st, [])
  | o :: os => '(st, x) ← step shared st o; '(st, xs) ← run shared st os; Ok (st, x :: xs)
  end.
