(** Outcomes shared by every model.

    A C++ function that returns normally yields [Ok].  A failed [assert] or a
    [die] (rpp/log.h:22-31, which log and exit the process) yields [Die].  Undefined
    behaviour, reading or destroying storage that holds no object, writing
    outside an allocation, leaking an object by releasing the storage under
    it, signed overflow and so on, yields [UB].  A loop that the model can
    show never ends yields [Diverge] (only produced by fuelled loops). *)
From stdpp Require Export prelude list.
From Coq Require Export Lia.

Inductive res (A : Type) : Type :=
| Ok (a : A)
| Die
| UB
| Diverge.
Arguments Ok {A} a.
Arguments Die {A}.
Arguments UB {A}.
Arguments Diverge {A}.

Global Instance res_ret : MRet res := fun A a => Ok a.
Global Instance res_bind : MBind res := fun A B f m =>
  match m with Ok a => f a | Die => Die | UB => UB | Diverge => Diverge end.

(** [assert(b)] (rpp/log.h:27-31). *)
Definition assert_ (b : bool) : res unit := if b then Ok tt else Die.

Lemma res_bind_ok {A B} (f : A -> res B) (m : res A) (b : B) :
  m ≫= f = Ok b -> exists a, m = Ok a /\ f a = Ok b.
Proof. destruct m; cbn; try discriminate. eauto. Qed.

Lemma res_bind_eval {A B} (f : A -> res B) (m : res A) (a : A) :
  m = Ok a -> m ≫= f = f a.
Proof. intros ->. reflexivity. Qed.
