(** What a user of Opt may rely on: an Opt is nothing or a value. *)
From Verif Require Import OptModel.

(** [None]: empty.  [Some None]: holds an object that was moved from. *)
Notation content := (option (option Z)).

(** What a move leaves in its source: still a value, but moved from, unless
    moving T is a copy. *)
Definition left_behind (k : kind) (c : content) : content :=
  match c with Some _ => if k_tm k then c else Some None | None => None end.

(** One statement; undefined: naming a variable that is not in scope, copying
    when T is not trivially copyable, and [x = move( *x )]. *)
Definition spec (k : kind) (cs : list content) (o : op) : res (list content * out) :=
  let at_ i (f : content -> res (list content * out)) := match cs !! i with Some c => f c | None => UB end in
  match o with
  | Var => Ok (cs ++ [None], Nothing)
  | New v | Wrap v => Ok (cs ++ [Some (Some v)], Nothing)
  | MoveNew i => at_ i (fun c => Ok (<[i := left_behind k c]> cs ++ [c], Nothing))
  | CopyNew i => if k_tc k then at_ i (fun c => Ok (cs ++ [c], Nothing)) else UB
  | CloneNew i => at_ i (fun c => Ok (cs ++ [c], Nothing))
  | MoveTo i j => at_ i (fun _ => at_ j (fun c =>
      if decide (i = j) then Ok (<[i := None]> cs, Nothing) else Ok (<[i := c]> (<[j := left_behind k c]> cs), Nothing)))
  | CopyTo i j => if k_tc k then at_ i (fun _ => at_ j (fun c => Ok (<[i := c]> cs, Nothing))) else UB
  | SetTo i v | Emplace i v => at_ i (fun _ => Ok (<[i := Some (Some v)]> cs, Nothing))
  | SetOwn i => UB
  | Clear i => at_ i (fun _ => Ok (<[i := None]> cs, Nothing))
  | IsOk i => at_ i (fun c => Ok (cs, Bool (match c with Some _ => true | None => false end)))
  | Get i => at_ i (fun c => match c with Some v => Ok (cs, Val v) | None => Die end)
  | Put i v => at_ i (fun c => match c with Some _ => Ok (<[i := Some (Some v)]> cs, Nothing) | None => Die end)
  | ValueOr i v => at_ i (fun c => Ok (cs, Val (match c with Some w => w | None => Some v end)))
  | End => match cs with [] => UB | _ => Ok (take (length cs - 1) cs, Nothing) end
  end.
Fixpoint spec_run (k : kind) (cs : list content) (os : list op) : res (list content * list out) :=
  match os with
  | [] => Ok (cs, [])
  | o :: os => '(cs, x) ← spec k cs o; '(cs, xs) ← spec_run k cs os; Ok (cs, x :: xs)
  end.

(** What an Opt contains. *)
Definition contents (p : opt) : content := if ok_ p then option_map o_val (value_ p) else None.
(** The object an Opt holds. *)
Definition held (p : opt) : list nat := if ok_ p then match value_ p with Some o => [o_id o] | None => [] end else [].
