(** What a user of Function may rely on: it is empty or is a callable. *)
From Verif Require Import FunctionModel.

(** The callable stored: its type and its captured state. *)
Notation content := (option (nat * Z)).

(** Undefined: only naming a variable that is not in scope.  A move empties its
    source; moving a Function to itself empties it. *)
Definition spec (code : nat -> Z -> Z -> Z * Z) (cs : list content) (o : op) : res (list content * out) :=
  let at_ i (f : content -> res (list content * out)) := match cs !! i with Some c => f c | None => UB end in
  match o with
  | New f v => Ok (cs ++ [Some (f, v)], Nothing)
  | MoveNew i => at_ i (fun c => Ok (<[i := None]> cs ++ [c], Nothing))
  | MoveTo i j => at_ i (fun _ => at_ j (fun c => Ok (if decide (i = j) then <[i := None]> cs else <[i := c]> (<[j := None]> cs), Nothing)))
  | SetTo i f v => at_ i (fun _ => Ok (<[i := Some (f, v)]> cs, Nothing))
  | Call i a => at_ i (fun c => match c with
                                | Some (f, v) => Ok (<[i := Some (f, (code f v a).2)]> cs, Result (code f v a).1)
                                | None => Die end)
  | End => match cs with [] => UB | _ => Ok (take (length cs - 1) cs, Nothing) end
  end.
Fixpoint spec_run (code : nat -> Z -> Z -> Z * Z) (cs : list content) (os : list op) : res (list content * list out) :=
  match os with
  | [] => Ok (cs, [])
  | o :: os => '(cs, x) ← spec code cs o; '(cs, xs) ← spec_run code cs os; Ok (cs, x :: xs)
  end.

(** The callable a Function calls. *)
Definition contents (x : fn) : content :=
  match vtable x, storage x with Some _, Some (f, o) => match o_val o with Some v => Some (f, v) | None => None end | _, _ => None end.
(** The object a Function will destroy, if its destructor is not trivial. *)
Definition held (kd : nat -> kind) (x : fn) : list nat :=
  match vtable x, storage x with Some _, Some (f, o) => if k_md (kd f) then [o_id o] else [] | _, _ => [] end.
