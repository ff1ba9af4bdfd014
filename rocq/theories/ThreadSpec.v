(** What a user of Thread may rely on. *)
From stdpp Require Import gmap.
From Verif Require Import Base ThreadModel.

(** Programs use Thread objects only while they exist. *)
Definition exists_var (s : st) (v : nat) : Prop := is_Some (vars s !! v).
Definition valid_op (s : st) (o : op) : Prop :=
  match o with
  | Empty v | Start v _ => ~ exists_var s v
  | MoveNew v w => ~ exists_var s v /\ exists_var s w
  | MoveAssign v w => exists_var s v /\ exists_var s w
  | Join v | Detach v | GetId v | Drop v => exists_var s v
  end.
Fixpoint valid (s : st) (l : list event) : Prop :=
  match l with
  | [] => True
  | e :: l => match e with Op a o => valid_op s o | _ => True end /\ match step s e with Ok s => valid s l | _ => True end
  end.
(** Every entry of the log agrees with what happened before it. *)
Definition let_go (t : nat) (l : list obs) : Prop := exists a, OJoin a t ∈ l \/ ODetach a t ∈ l.
Fixpoint honest (l : list obs) : Prop :=
  match l with
  | [] => True
  | o :: l => honest l /\
      match o with
      | OStart _ t => t <> 0 /\ forall a, OStart a t ∉ l
      | OCall t => (exists a, OStart a t ∈ l) /\ OCall t ∉ l
      | OReturn t => OCall t ∈ l /\ OReturn t ∉ l
      | ODestroy t => OReturn t ∈ l /\ ODestroy t ∉ l
      | OFree t => ODestroy t ∈ l /\ OFree t ∉ l
      | OJoin a t => a <> t /\ OFree t ∈ l /\ ~ let_go t l
      | ODetach a t => (exists a, OStart a t ∈ l) /\ ~ let_go t l
      end
  end.
(** The misuse that stops the program: using the handle of an empty Thread, a thread that waits for itself,
    or a system that has no more threads. *)
Definition misuse (s : st) (e : event) : Prop :=
  match e with
  | Op a (Join v) => vars s !! v = Some None \/ vars s !! v = Some (Some a)
  | Op a (Drop v) => vars s !! v = Some (Some a)
  | Op a (MoveAssign v w) => vars s !! v = Some (Some a)
  | Op a (Detach v) | Op a (GetId v) => vars s !! v = Some None
  | Op a (Start v granted) => granted = false
  | _ => False
  end.
