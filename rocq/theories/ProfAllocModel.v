(** The profiler's account of allocations: rpp/impl/profile.cpp:160-199 and 206-255, rpp/alloc1.h:91-108,
    rpp/impl/alloc.cpp:101-120.

    Any number of threads allocate and free through Mallocators; a Mallocator is a number, [logs] says whether it was
    instantiated to log.  Addresses and sizes are u64.  malloc may return any address that is not in use, it does not fail.
    Profile::alloc works under its mutex and is one step; the rest interleaves.  The Maps are finite maps: MapProps shows that
    this is what they are.  The allocations a frame remembers (192-197) and the profiler's own memory, which it gives back
    before it counts (213, 229, 233), are not modelled.  The net count is an unbounded integer: it is at most the number
    of blocks that exist. *)
From stdpp Require Import gmap.
From Verif Require Import Base Word.
Open Scope Z_scope.

(** profile.h:113-122 *)
Record profile := Profile {
  allocates : Z; frees : Z; allocate_size : Z; free_size : Z; high_water : Z; current_set_size : Z; current_set : gmap Z Z
}.
Definition new_profile : profile := Profile 0 0 0 0 0 0 ∅.
Inductive warning := Reallocated (n : nat) (x : Z) | No_entry (n : nat) (x : Z).

(** What users see: alloc of allocator [n] returned [x], free of [x] was called *)
Inductive ev := Given (n : nat) (x sz : Z) | Returned (n : nat) (x : Z).
(** Where a thread is: in alloc after sys_alloc, in free after Profile::alloc *)
Inductive pc := Idle | Logging (n : nat) (x sz : Z) | Freeing (n : nat) (x : Z).
(** [heap] are the addresses malloc has handed out *)
Record st := St { pcs : nat -> pc; heap : gset Z; net : Z; allocs : gmap nat profile; warnings : list warning; log : list ev }.
Definition init : st := St (fun _ => Idle) ∅ 0 ∅ [] [].
Definition upd {A} (f : nat -> A) (t : nat) (x : A) : nat -> A := fun u => if decide (u = t) then x else f u.

(** i64 arithmetic, also with a u64 operand *)
Definition add64 (a b : Z) : Z := to_signed 64 (wrap 64 (a + b)).
Definition sub64 (a b : Z) : Z := to_signed 64 (wrap 64 (a - b)).

(** profile.cpp:160-191 *)
Definition profile_alloc (n : nat) (x size : Z) (s : st) : st :=
  let p := default new_profile (allocs s !! n) in
  let put p ws := St (pcs s) (heap s) (net s) (<[n := p]> (allocs s)) (warnings s ++ ws) (log s) in
  if negb (size =? 0) then
    let ws := match current_set p !! x with Some _ => [Reallocated n x] | None => [] end in
    let now := add64 (current_set_size p) size in
    put (Profile (add64 (allocates p) 1) (frees p) (add64 (allocate_size p) size) (free_size p) (Z.max (high_water p) now) now
           (<[x := size]> (current_set p))) ws
  else
    match current_set p !! x with
    | None => put p [No_entry n x]
    | Some u =>
        let size := to_signed 64 u in
        put (Profile (allocates p) (add64 (frees p) 1) (allocate_size p) (add64 (free_size p) size) (high_water p) (sub64 (current_set_size p) size)
               (delete x (current_set p))) []
    end.
(** alloc.cpp:101-108 *)
Definition sys_alloc (x : Z) (s : st) : st := St (pcs s) ({[x]} ∪ heap s) (net s + 1) (allocs s) (warnings s) (log s).
(** alloc.cpp:110-116; free of anything else than a block in use is undefined *)
Definition sys_free (x : Z) (s : st) : res st :=
  if bool_decide (x ∈ heap s) then Ok (St (pcs s) (heap s ∖ {[x]}) (net s - 1) (allocs s) (warnings s) (log s)) else UB.

Definition at_pc (t : nat) (c : pc) (s : st) : st := St (upd (pcs s) t c) (heap s) (net s) (allocs s) (warnings s) (log s).
Definition saw (e : ev) (s : st) : st := St (pcs s) (heap s) (net s) (allocs s) (warnings s) (log s ++ [e]).

(** [Alloc t n sz x]: thread [t] calls alloc and malloc returns [x]; [Go t]: a thread inside alloc or free goes on *)
Inductive label := Alloc (t n : nat) (sz x : Z) | Free (t n : nat) (x : Z) | Go (t : nat).
Definition step (logs : nat -> bool) (s : st) (l : label) : res st :=
  match l with
  | Alloc t n sz x =>                                                        (* alloc1.h:92-99 *)
      match pcs s t with
      | Idle =>
          if sz =? 0 then Ok s                                               (* returns null *)
          else if bool_decide (x ∈ heap s) || (x =? 0) then Ok s             (* malloc does not do this *)
          else
            let s := sys_alloc x s in
            if logs n then Ok (at_pc t (Logging n x sz) s) else Ok (saw (Given n x sz) s)
      | _ => Ok s                                                            (* busy *)
      end
  | Free t n x =>                                                            (* alloc1.h:102-108 *)
      match pcs s t with
      | Idle =>
          if x =? 0 then Ok s
          else
            let s := saw (Returned n x) s in
            if logs n then Ok (at_pc t (Freeing n x) (profile_alloc n x 0 s)) else sys_free x s
      | _ => Ok s
      end
  | Go t =>
      match pcs s t with
      | Idle => Ok s
      | Logging n x sz => Ok (at_pc t Idle (saw (Given n x sz) (profile_alloc n x sz s)))
      | Freeing n x => sys_free x (at_pc t Idle s)
      end
  end.
Fixpoint run (logs : nat -> bool) (s : st) (ls : list label) : res st :=
  match ls with [] => Ok s | l :: ls => s ← step logs s l; run logs s ls end.

(** profile.cpp:216-254: what is reported of each allocator, with a warning if its size is unbalanced, and whether
    the program is ended because memory was leaked *)
Record line := Line { of : nat; l_allocs : Z; l_frees : Z; l_high : Z; l_alloc_size : Z; l_free_size : Z; unbalanced : option Z }.
Definition finalize (s : st) : list line * bool :=
  (map (fun '(n, p) => Line n (allocates p) (frees p) (high_water p) (allocate_size p) (free_size p)
                         (if current_set_size p =? 0 then None else Some (current_set_size p))) (map_to_list (allocs s)),
   negb (net s =? 0)).
Close Scope Z_scope.
