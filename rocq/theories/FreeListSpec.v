(** What a set of free lists should be: every list keeps a stack of cached
    blocks, and the program owns a map of live objects. *)
From Verif Require Import Base FreeListModel.
From stdpp Require Import gmap.

Section spec.
  Context {T : Type}.
  Record fl_spec := mk_fls {
    cached : list (list nat);
    alive : gmap nat T;
    fresh : nat
  }.
  Definition fls_init (n : nat) : fl_spec := mk_fls (replicate n []) ∅ 0.

  (** [None]: the call breaks the contract (no such list, or the object is not
      alive). *)
  Definition fls_step (s : fl_spec) (o : fl_op T) : option (fl_spec * fl_out T) :=
    match o with
    | FLMake i x =>
        c ← cached s !! i;
        match c with
        | p :: c' => Some (mk_fls (<[i := c']> (cached s)) (<[p := x]> (alive s)) (fresh s), FLMade p)
        | [] => Some (mk_fls (cached s) (<[fresh s := x]> (alive s)) (S (fresh s)), FLMade (fresh s))
        end
    | FLDestroy i p =>
        x ← alive s !! p;
        c ← cached s !! i;
        Some (mk_fls (<[i := p :: c]> (cached s)) (delete p (alive s)) (fresh s), FLDestroyed x)
    | FLClear i =>
        c ← cached s !! i;
        Some (mk_fls (<[i := []]> (cached s)) (alive s) (fresh s), FLReturned c)
    | FLMove i j =>
        c ← cached s !! i;
        d ← cached s !! j;
        Some (mk_fls (<[j := []]> (<[i := if decide (i = j) then [] else d]> (cached s))) (alive s) (fresh s), FLReturned c)
    end.
  Fixpoint fls_run (s : fl_spec) (os : list (fl_op T)) : option (fl_spec * list (fl_out T)) :=
    match os with
    | [] => Some (s, [])
    | o :: os' => '(s, x) ← fls_step s o; '(s, xs) ← fls_run s os'; Some (s, x :: xs)
    end.
  (** The blocks given back to the base allocator in a run. *)
  Definition returned (xs : list (fl_out T)) : list nat :=
    List.concat (map (fun x => match x with FLReturned b => b | _ => [] end) xs).
End spec.
Arguments fl_spec : clear implicits.

(** The caller's view of a history: the blocks made and not destroyed. *)
Section owned.
  Context {T : Type}.
  Definition own (l : list nat) (o : fl_op T) (x : fl_out T) : list nat :=
    match o, x with
    | FLMake _ _, FLMade p => p :: l
    | FLDestroy _ p, _ => filter (fun q => q <> p) l
    | _, _ => l
    end.
  Fixpoint owned (l : list nat) (os : list (fl_op T)) (xs : list (fl_out T)) : list nat :=
    match os, xs with
    | o :: os', x :: xs' => owned (own l o x) os' xs'
    | _, _ => l
    end.
End owned.

(** The number spelled by decimal digits, most significant first. *)
Definition spelled (ds : list Z) : Z := foldl (fun a d => 10 * a + (d - 48))%Z 0%Z ds.
