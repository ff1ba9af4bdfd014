(** What a Map is supposed to be: a finite map from keys to values, here a
    partial function.  [None] from [fm_next] means the call breaks its
    contract (the program must stop). *)
From Verif Require Import Base MapModel.

Section spec.
  Context {K V : Type} `{EqDecision K}.
  Notation fm := (K -> option V).

  Definition fm_empty : fm := fun _ => None.
  Definition fm_insert (k : K) (v : V) (f : fm) : fm := fun k' => if decide (k' = k) then Some v else f k'.
  Definition fm_delete (k : K) (f : fm) : fm := fun k' => if decide (k' = k) then None else f k'.

  Fixpoint fm_insert_all (f : fm) (l : list (K * V)) : fm :=
    match l with [] => f | (k, v) :: l' => fm_insert_all (fm_insert k v f) l' end.

  (** [l] lists the map: each key once, with its value. *)
  Definition fm_lists (f : fm) (l : list (K * V)) : Prop :=
    NoDup (fst <$> l) /\ forall k v, (k, v) ∈ l <-> f k = Some v.

  Definition fm_next (f : fm) (o : map_op K V) : option fm :=
    match o with
    | MInsert k v => Some (fm_insert k v f)
    | MAssign k v => match f k with Some _ => Some (fm_insert k v f) | None => None end
    | MGetOrInsert k d => match f k with Some _ => Some f | None => Some (fm_insert k d f) end
    | MTryErase k => Some (fm_delete k f)
    | MErase k => match f k with Some _ => Some (fm_delete k f) | None => None end
    | MGet k => match f k with Some _ => Some f | None => None end
    | MClear => Some fm_empty
    | _ => Some f
    end.

  (** The answer an operation must give ([MLength] and [MEmpty] are the
      subject of a separate property). *)
  Definition fm_answer (f : fm) (o : map_op K V) (out : map_out K V) : Prop :=
    match o with
    | MInsert k v => out = OVal v
    | MGetOrInsert k d => out = OVal (default d (f k))
    | MTryErase k => out = OBool (bool_decide (is_Some (f k)))
    | MTryGet k => out = OOpt (f k)
    | MGet k => Some out = OVal <$> f k
    | MContains k => out = OBool (bool_decide (is_Some (f k)))
    | MLength => exists n, out = ONat n
    | MEmpty => exists b, out = OBool b
    | MIterate => exists l, out = OList l /\ fm_lists f l
    | _ => out = OUnit
    end.

  Fixpoint fm_final (f : fm) (os : list (map_op K V)) : option fm :=
    match os with
    | [] => Some f
    | o :: os' => f' ← fm_next f o; fm_final f' os'
    end.
  Fixpoint fm_answers (f : fm) (os : list (map_op K V)) (outs : list (map_out K V)) : Prop :=
    match os, outs with
    | [], [] => True
    | o :: os', out :: outs' =>
        fm_answer f o out /\ match fm_next f o with Some f' => fm_answers f' os' outs' | None => False end
    | _, _ => False
    end.

  (** Capacities that were asked for: none may be 1 ... *)
  Definition no_capacity_1 (os : list (map_op K V)) : Prop := MReserve 1 ∉ os.
  (** ... and clone() needs them to be 0 or powers of two. *)
  Definition is_pow2 (n : nat) : Prop := exists k, n = 2 ^ k.
  Definition clone_safe (os : list (map_op K V)) : Prop :=
    MReplaceByClone ∈ os -> forall n, MReserve n ∈ os -> n = 0 \/ is_pow2 n.

  (** Insertions of a key that is present, since the last clear. *)
  Definition fm_reinsert (f : fm) (acc : nat) (o : map_op K V) : nat :=
    match o with
    | MInsert k _ => match f k with Some _ => S acc | None => acc end
    | MClear => 0
    | _ => acc
    end.
  Fixpoint fm_reinserted (f : fm) (acc : nat) (os : list (map_op K V)) : nat :=
    match os with
    | [] => acc
    | o :: os' =>
        match fm_next f o with
        | Some f' => fm_reinserted f' (fm_reinsert f acc o) os'
        | None => acc
        end
    end.

  (** The pairs that come into existence over a history without clones. *)
  Definition fm_create (f : fm) (o : map_op K V) : list (K * V) :=
    match o with
    | MInsert k v => [(k, v)]
    | MAssign k v => [(k, v)]
    | MGetOrInsert k d => match f k with Some _ => [] | None => [(k, d)] end
    | _ => []
    end.
  Fixpoint fm_created (f : fm) (os : list (map_op K V)) : list (K * V) :=
    match os with
    | [] => []
    | o :: os' => fm_create f o ++ match fm_next f o with Some f' => fm_created f' os' | None => [] end
    end.
End spec.
