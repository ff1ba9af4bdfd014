(** The profiler's frames of one thread: rpp/profile.h:63-158, rpp/impl/profile.cpp:38-158.

    Times are u64; each operation reads the clock once, and its reading is an argument.  A location is a number.  Frames
    are kept in a Queue, here the list of its elements and its capacity: QueueProps shows that this is what a Queue
    is.  The frames lock only guards against iterate_timings.  Built with DO_PROFILE. *)
From Verif Require Import Base Word.
Open Scope Z_scope.

(** profile.h:63-79 *)
Record node := Node {
  loc : nat; begin_ : Z; end_ : Z; self_time : Z; heir_time : Z; calls : Z; parent : nat; children : list nat
}.
Definition make (l parent : nat) (t : Z) : node := Node l t 0 0 0 1 parent [].
(** profile.h:124-134 *)
Record frame := Frame { current_node : nat; nodes : list node }.
Definition new_frame : frame := Frame 0 [].
Definition root_loc : nat := 0. (* "Frame" *)

Definition with_children f (n : node) : node := Node (loc n) (begin_ n) (end_ n) (self_time n) (heir_time n) (calls n) (parent n) (f (children n)).
(** nodes[i]: bounds are checked (vec.h) *)
Definition at_ (ns : list node) (i : nat) : res node := match ns !! i with Some n => Ok n | None => Die end.

(** profile.cpp:38-42 *)
Definition frame_begin (t : Z) (f : frame) : res (frame * Z) :=
  assert_ (bool_decide (current_node f = 0%nat) && bool_decide (nodes f = []));;
  Ok (Frame 0 [make root_loc 0 t], t).
(** profile.cpp:52-60; the recursion is as deep as the tree, which the number of nodes bounds *)
Fixpoint compute_self_times (fuel : nat) (ns : list node) (idx : nat) : res (list node) :=
  match fuel with
  | O => Diverge
  | S fuel =>
      n ← at_ ns idx;
      let fix each (cs : list nat) (ns : list node) (child_time : Z) : res (list node * Z) :=
        match cs with
        | [] => Ok (ns, child_time)
        | c :: cs => ns ← compute_self_times fuel ns c; m ← at_ ns c; each cs ns (wrap 64 (child_time + heir_time m))
        end in
      '(ns, child_time) ← each (children n) ns 0;
      Ok (alter (fun n => Node (loc n) (begin_ n) (end_ n) (wrap 64 (heir_time n - child_time)) (heir_time n) (calls n) (parent n) (children n)) idx ns)
  end.
(** profile.cpp:44-50 *)
Definition frame_end (t : Z) (f : frame) : res frame :=
  assert_ (bool_decide (current_node f = 0%nat));;
  match nodes f with
  | [] => Die                                                                  (* Vec::front *)
  | root :: ns =>
      let root := Node (loc root) (begin_ root) t (self_time root) (wrap 64 (t - begin_ root)) (calls root) (parent root) (children root) in
      ns ← compute_self_times (S (length ns)) (root :: ns) 0;
      Ok (Frame 0 ns)
  end.
(** profile.cpp:123-129: the last child with this location *)
Fixpoint find_child (ns : list node) (l : nat) (cs : list nat) (found : option nat) : res (option nat) :=
  match cs with
  | [] => Ok found
  | c :: cs => n ← at_ ns c; find_child ns l cs (if bool_decide (loc n = l) then Some c else found)
  end.
(** profile.cpp:118-140.  [node] is still the node that was current, also in lines 137 and 138. *)
Definition frame_enter (l : nat) (t : Z) (f : frame) : res frame :=
  n ← at_ (nodes f) (current_node f);
  repeat ← find_child (nodes f) l (children n) None;
  match repeat with
  | None =>
      let child_idx := length (nodes f) in
      Ok (Frame child_idx (alter (with_children (fun cs => cs ++ [child_idx])) (current_node f) (nodes f) ++ [make l (current_node f) t]))
  | Some c =>
      Ok (Frame c (alter (fun n => Node (loc n) t (end_ n) (self_time n) (heir_time n) (wrap 64 (calls n + 1)) (parent n) (children n)) (current_node f) (nodes f)))
  end.
(** profile.cpp:150-158 *)
Definition frame_exit (t : Z) (f : frame) : res frame :=
  n ← at_ (nodes f) (current_node f);
  Ok (Frame (parent n)
        (alter (fun n => Node (loc n) (begin_ n) t (self_time n) (wrap 64 (heir_time n + (t - begin_ n))) (calls n) (parent n) (children n)) (current_node f) (nodes f))).

(** profile.h:136-158; [frames] oldest first *)
Record prof := Prof { registered : bool; during_frame : bool; frames : list frame; capacity : nat }.
Definition init : prof := Prof false false [] 0.
(** profile.h:149-152, profile.cpp:18-27 *)
Definition ready (p : prof) : prof * bool :=
  let p := if registered p then p else Prof true false (frames p) (capacity p) in (p, during_frame p).

Inductive op := Begin (t : Z) | End (t : Z) | Enter (l : nat) (t : Z) | Exit (t : Z) | Finalize.
(** [Since x]: begin_frame returns the time from the begin of the frame before, if there is one (in clock ticks) *)
Inductive out := Nothing | Since (x : option Z).

(** Queue::back and writing to it *)
Definition on_back (p : prof) (k : frame -> res frame) : res prof :=
  match last (frames p) with
  | None => Die
  | Some f => f ← k f; Ok (Prof (registered p) (during_frame p) (take (length (frames p) - 1) (frames p) ++ [f]) (capacity p))
  end.
Definition step (p : prof) (o : op) : res (prof * out) :=
  match o with
  | Begin t =>                                                               (* profile.cpp:62-86 *)
      let '(p, during) := ready p in
      assert_ (negb during);;
      let fs := if negb (bool_decide (frames p = [])) && (length (frames p) =? capacity p)%nat then drop 1 (frames p) else frames p in
      let cap := if (length fs =? capacity p)%nat then (if (capacity p =? 0)%nat then 8%nat else (2 * capacity p)%nat) else capacity p in
      '(f, t) ← frame_begin t new_frame;
      ret ← match last fs with
            | None => Ok None
            | Some prev => match nodes prev with [] => Die | n :: _ => Ok (Some (wrap 64 (t - begin_ n))) end
            end;
      Ok (Prof (registered p) true (fs ++ [f]) cap, Since ret)
  | End t =>                                                                 (* profile.cpp:88-101 *)
      assert_ (registered p && during_frame p);;
      p ← on_back p (frame_end t);
      Ok (Prof (registered p) false (frames p) (capacity p), Nothing)
  | Enter l t =>                                                             (* profile.cpp:103-116 *)
      let '(p, during) := ready p in
      if during then p ← on_back p (frame_enter l t); Ok (p, Nothing) else Ok (p, Nothing)
  | Exit t =>                                                                (* profile.cpp:142-148 *)
      let '(p, during) := ready p in
      if during then p ← on_back p (frame_exit t); Ok (p, Nothing) else Ok (p, Nothing)
  | Finalize =>                                                              (* profile.h:143-147, profile.cpp:29-36 *)
      if during_frame p then Die                                             (* end_frame asserts that there are frames *)
      else Ok (Prof false false [] 0, Nothing)
  end.
Fixpoint run (p : prof) (os : list op) : res prof :=
  match os with [] => Ok p | o :: os => '(p, _) ← step p o; run p os end.
(** profile.h:82-104: the nodes of the last complete frame *)
Definition timings (p : prof) : list node :=
  if during_frame p then
    if (1 <? length (frames p))%nat then match frames p !! (length (frames p) - 2)%nat with Some f => nodes f | None => [] end else []
  else match last (frames p) with Some f => nodes f | None => [] end.
Close Scope Z_scope.
