(** What a user of Variant may rely on: it is one of the alternatives, with a value. *)
From Verif Require Import VariantModel.

(** The alternative stored and its value, [None] if it was moved from. *)
Notation content := (ty * option Z)%type.

Section spec.
  Context (Ts : list ty) (kd : ty -> kind).
  (** A move leaves its source with the same alternative, moved from, unless
      moving that alternative is a copy. *)
  Definition left_behind (c : content) : content := if k_tm (kd c.1) then c else (c.1, None).

  (** Undefined: a variable that is not in scope, a type that is not an
      alternative, and assigning a Variant to itself. *)
  Definition spec (cs : list content) (o : op) : res (list content * out) :=
    let at_ i (f : content -> res (list content * out)) := match cs !! i with Some c => f c | None => UB end in
    match o with
    | New t v => if decide (t ∈ Ts) then Ok (cs ++ [(t, Some v)], Nothing) else UB
    | MoveNew i => at_ i (fun c => Ok (<[i := left_behind c]> cs ++ [c], Nothing))
    | CloneNew i => at_ i (fun c => Ok (cs ++ [c], Nothing))
    | MoveTo i j => at_ i (fun _ => at_ j (fun c => if decide (i = j) then UB else Ok (<[i := c]> (<[j := left_behind c]> cs), Nothing)))
    | SetTo i t v => at_ i (fun _ => if decide (t ∈ Ts) then Ok (<[i := (t, Some v)]> cs, Nothing) else UB)
    | Match i => at_ i (fun c => Ok (cs, Saw c.1 c.2))
    | Put i v => at_ i (fun c => Ok (<[i := (c.1, Some v)]> cs, Nothing))
    | TakeOut i => at_ i (fun c => Ok (<[i := left_behind c]> cs, Saw c.1 c.2))
    | Index i => at_ i (fun c => match list_find (eq c.1) Ts with Some (n, _) => Ok (cs, Number n) | None => UB end)
    | End => match cs with [] => UB | _ => Ok (take (length cs - 1) cs, Nothing) end
    end.
  Fixpoint spec_run (cs : list content) (os : list op) : res (list content * list out) :=
    match os with
    | [] => Ok (cs, [])
    | o :: os => '(cs, x) ← spec cs o; '(cs, xs) ← spec_run cs os; Ok (cs, x :: xs)
    end.
End spec.

(** A type list a Variant can be declared with (rpp/variant.h:30-31). *)
Definition alternatives (Ts : list ty) : Prop := 0 < length Ts <= 255 /\ distinct Ts = true.
(** What a Variant contains. *)
Definition contents (x : variant) : option content := option_map (fun d => (d.1, o_val d.2)) (data x).
(** The object a Variant holds, if its destructor is not trivial. *)
Definition held (kd : ty -> kind) (x : variant) : list nat :=
  match data x with Some (t, o) => if k_md (kd t) then [o_id o] else [] | None => [] end.
