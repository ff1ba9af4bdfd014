(** What the system promises about names, and what programs do. *)
From stdpp Require Import gmap.
From Verif Require Import Base ThreadModel ThreadSpec ThreadNamesModel.

(** A thread keeps its id while it runs, and while it has neither been joined nor detached. *)
Definition in_use (s : nst) (t : nat) : Prop :=
  t = 0 \/ exists b h, nthr s !! t = Some (b, h) /\ (b <> Exited \/ h = Joinable).
(** The name of a new thread is not null and is no other thread's; nor is its id that of a thread that still has one. *)
Definition good_choice (o : os) (s : nst) (h i : Z) : Prop :=
  h <> 0%Z /\ h <> INVALID /\ opn s !! h = None /\ (forall t, in_use s t -> tids s !! t <> Some i) /\
  match o with Posix => i = h | W32 => i <> 0%Z end.
Definition n_exists (s : nst) (v : nat) : Prop := is_Some (nvars s !! v).
(** Programs use Thread objects only while they exist. *)
Definition n_allowed (o : os) (s : nst) (e : nevent) : Prop :=
  match e with
  | NStart a v c => ~ n_exists s v /\ match c with Some (h, i) => good_choice o s h i | None => True end
  | Other (Op a (Empty v)) => ~ n_exists s v
  | Other (Op a (Start _ _)) => False         (* NStart *)
  | Other (Op a (MoveNew v w)) => ~ n_exists s v /\ n_exists s w
  | Other (Op a (MoveAssign v w)) => n_exists s v /\ n_exists s w
  | Other (Op a (Join v)) | Other (Op a (Detach v)) | Other (Op a (GetId v)) | Other (Op a (Drop v)) => n_exists s v
  | Other (Return _) | Other (Run _) => True
  end.
Fixpoint n_valid (o : os) (s : nst) (l : list nevent) : Prop :=
  match l with
  | [] => True
  | e :: l => n_allowed o s e /\ match nstep o s e with Ok s => n_valid o s l | _ => True end
  end.
(** The same program in terms of ThreadModel, which has no names. *)
Definition nameless (e : nevent) : event :=
  match e with NStart a v c => Op a (Start v match c with Some _ => true | None => false end) | Other e => e end.
