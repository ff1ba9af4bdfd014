(** What a user of spawn and Future may rely on. *)
From Verif Require Import Base SpawnModel.

(** The handles there are, counting the one the spawned thread has until its function is done. *)
Definition worker_hand (w : wpc) : nat := match w with WDestroying | WFreeing | WDone => 0 | _ => 1 end.
Definition handles (s : st) : nat := foldr (fun g n => hands g + n) (worker_hand (worker s)) (agents s).
(** Nobody is in the middle of anything. *)
Definition at_rest (s : st) : Prop := worker s = WDone /\ Forall (fun g => at_ g = Idle) (agents s).
(** Every entry of the history agrees with what happened before it.  The first to block gets what f returned. *)
Fixpoint honest (v : nat) (l : list obs) : Prop :=
  match l with
  | [] => True
  | o :: l => honest v l /\
      match o with
      | OCalled => OCalled ∉ l
      | OGot _ r => OCalled ∈ l /\ ODestroyed ∉ l /\ (r = Some v /\ (forall u x, OGot u x ∉ l) \/ r = None /\ exists u, OGot u (Some v) ∈ l)
      | OReady t b => ODestroyed ∉ l /\ (b = true -> OCalled ∈ l) /\ (b = false -> forall u x, OGot u x ∉ l)
      | ODestroyed => OCalled ∈ l /\ ODestroyed ∉ l
      | OFreed => ODestroyed ∈ l /\ OFreed ∉ l
      end
  end.
