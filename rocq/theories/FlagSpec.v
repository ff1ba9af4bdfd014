(** What a user of Flag and Promise may rely on. *)
From Verif Require Import Base FlagModel.

Definition signalled (l : list obs) : Prop := exists t, OSignal t ∈ l.
(** What the next Promise::block has to return: the value filled in, if nobody has taken it. *)
Fixpoint due (l : list obs) : option nat :=
  match l with
  | [] => None
  | OFill x :: _ => Some x
  | OGot _ _ :: _ => None
  | _ :: l => due l
  end.
(** Every entry agrees with what happened before it. *)
Fixpoint honest (l : list obs) : Prop :=
  match l with
  | [] => True
  | o :: l => honest l /\
      match o with
      | OUnblock _ => signalled l
      | OGot _ r => signalled l /\ r = due l
      | OReady _ b => b = true <-> signalled l
      | OFill _ => forall x, OFill x ∉ l
      | OSignal _ => True
      end
  end.
(** No thread that waits in the kernel for the flag has been forgotten. *)
Definition in_block (q : pc) : Prop := match q with Loading | Calling | Asleep => True | _ => False end.
Definition quiet (es : list event) : Prop := forall t, Interrupt t ∉ es.
