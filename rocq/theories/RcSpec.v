(** What a user of Rc and Box may rely on. *)
From stdpp Require Import gmap.
From Verif Require Import Word RcModel.

(** Number of handles in [l] that refer to object [p]. *)
Definition cnt (p : nat) (l : list (option nat)) : nat := length (filter (fun h => h = Some p) l).
(** Number of handles to [p] that exist: in variables and inside objects. *)
Definition handles_to (st : hs) (p : nat) : nat :=
  cnt p (roots st) + list_sum (map (fun x => cnt p (o_fields x.2)) (map_to_list (heap st))).
Definition alive (st : hs) (p : nat) : Prop := is_Some (heap st !! p).

(** Objects a program can still reach from variables. *)
Inductive reachable (rs : list (option nat)) (h : gmap nat obj) : nat -> Prop :=
| reachable_root i p : rs !! i = Some (Some p) -> reachable rs h p
| reachable_field q o k p : reachable rs h q -> h !! q = Some o -> o_fields o !! k = Some (Some p) -> reachable rs h p.

(** The place is a variable in scope, or a field that its object has. *)
Fixpoint named (st : hs) (pl : place) : Prop :=
  match pl with
  | Root i => i < length (roots st)
  | Field q k => named st q /\ forall p o, deref st q = Ok p -> heap st !! p = Some o -> k < length (o_fields o)
  end.
Definition places (o : op) : list place :=
  match o with
  | Var | End => []
  | New a _ _ | Take a | Clear a | Emplace a _ _ | References a | IsOk a | Get a | Set_ a _ => [a]
  | Dup a b | From a b | Move a b | Clone a b => [a; b]
  end.
(** The handle at [src] is not inside an object that only [dst] keeps alive. *)
Definition survives (st : hs) (dst src : place) : Prop :=
  forall a st' q k, locate st dst = Ok a -> write st a None = Ok st' -> locate st src = Ok (AField q k) ->
    reachable (roots st') (heap st') q.
(** A statement that makes sense in state [st]. *)
Definition legal (st : hs) (o : op) : Prop :=
  Forall (named st) (places o) /\ (o = End -> roots st <> []) /\
  (forall dst src, o = Move dst src -> survives st dst src).

Definition rc_op (o : op) : Prop := match o with Emplace _ _ _ | Clone _ _ => False | _ => True end.
Definition box_op (o : op) : Prop := match o with Dup _ _ | From _ _ | References _ => False | _ => True end.

(** The assignments to handles that a statement makes, the later ones winning. *)
Definition effect (st : hs) (o : op) (w : list (addr * option nat)) : Prop :=
  match o with
  | Var => w = [(ARoot (length (roots st)), None)]
  | New dst _ _ | Emplace dst _ _ => exists a, locate st dst = Ok a /\ w = [(a, Some (next_id st))]
  | Dup dst src | From dst src => exists a s h, locate st dst = Ok a /\ locate st src = Ok s /\ read st s = Ok h /\ w = [(a, h)]
  | Move dst src => exists a s h, locate st dst = Ok a /\ locate st src = Ok s /\ read st s = Ok h /\ w = [(a, h); (s, None)]
  | Take src => exists s h, locate st src = Ok s /\ read st s = Ok h /\ w = [(s, None); (ARoot (length (roots st)), h)]
  | Clear dst => exists a, locate st dst = Ok a /\ w = [(a, None)]
  | Clone dst src => exists a s h, locate st dst = Ok a /\ locate st src = Ok s /\ read st s = Ok h /\
      w = [(a, match h with None => None | Some _ => Some (next_id st) end)]
  | End | References _ | IsOk _ | Get _ | Set_ _ _ => w = []
  end.
Global Instance addr_eq_decision : EqDecision addr.
Proof. solve_decision. Defined.
(** What the handle at [b] is after them; the handles in a new object start null. *)
Definition handle_after (st : hs) (w : list (addr * option nat)) (b : addr) : option nat :=
  List.fold_left (fun h x => if decide (x.1 = b) then x.2 else h) w (match read st b with Ok h => h | _ => None end).
(** The value of object [p] afterwards. *)
Definition value_after (st : hs) (o : op) (p : nat) (v : Z) : Prop :=
  match heap st !! p with
  | Some ob =>
      match o with
      | Set_ dst v' => deref st dst = Ok p /\ v = v' \/ deref st dst <> Ok p /\ v = o_val ob
      | _ => v = o_val ob
      end
  | None =>
      p = next_id st /\
      match o with
      | New _ v' _ | Emplace _ v' _ => v = v'
      | Clone _ src => exists q oq, deref st src = Ok q /\ heap st !! q = Some oq /\ v = o_val oq
      | _ => False
      end
  end.
(** The number of variables in scope afterwards. *)
Definition vars_after (st : hs) (o : op) : nat :=
  match o with Var | Take _ => S (length (roots st)) | End => Nat.pred (length (roots st)) | _ => length (roots st) end.
(** The answer of a query. *)
Definition answer (st : hs) (o : op) (x : out) : Prop :=
  match o with
  | References src => exists s h, locate st src = Ok s /\ read st s = Ok h /\
      x = Number (match h with None => 0 | Some p => Z.of_nat (handles_to st p) end)
  | IsOk src => exists s h, locate st src = Ok s /\ read st s = Ok h /\ x = Bool (match h with None => false | Some _ => true end)
  | Get src => exists p o, deref st src = Ok p /\ heap st !! p = Some o /\ x = Number (o_val o)
  | _ => x = Nothing
  end.

(** Statement [o] leads from [st] to [st']. *)
Definition effective (st : hs) (o : op) (st' : hs) : Prop :=
  length (roots st') = vars_after st o /\
  (exists w, effect st o w /\ forall b h, read st' b = Ok h -> h = handle_after st w b) /\
  (forall p ob, heap st' !! p = Some ob -> value_after st o p (o_val ob)).
(** The handles a statement dereferences. *)
Fixpoint owners (pl : place) : list place := match pl with Root _ => [] | Field q _ => q :: owners q end.
Definition derefs (o : op) : list place :=
  flat_map owners (places o) ++ match o with From _ a | Get a | Set_ a _ => [a] | _ => [] end.
Definition null (st : hs) (pl : place) : Prop := exists a, locate st pl = Ok a /\ read st a = Ok None.
(** No chain of handles inside objects comes back to where it started. *)
Definition acyclic (h : gmap nat obj) : Prop :=
  exists rank : nat -> nat, forall p o k q, h !! p = Some o -> o_fields o !! k = Some (Some q) -> rank q < rank p.
