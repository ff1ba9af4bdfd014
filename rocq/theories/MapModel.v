(** Model of rpp/map.h (Map): an open-addressing hash table with Robin Hood
    probing and backward-shift deletion.

    Simplifications: capacities are unbounded naturals and [A::alloc]
    succeeds.  [hash] stands for [hash_nonzero] (rpp/hash.h; see HashProps);
    any function with values in [1, 2^64) is allowed in the theorems.  Key
    equality is Leibniz equality, with the program's [==] deciding it.  A
    slot is vacant or holds a hash and a pair: [Map_Slot] (15-64) keeps its
    pair alive exactly while its hash is not EMPTY, and a moved-from slot is
    vacant (its moved-from pair is never destroyed, as in VecModel).  The
    trivially copyable branches (145-146, 184-185) do the same as the
    element-wise ones.  References into the table are modelled by slot
    indices. *)
From Verif Require Import Base QueueModel.
From Coq Require Export ZArith.

Section map.
  Context {K V : Type} `{EqDecision K}.
  Context (hash : K -> Z).

  (** rpp/map.h:15-64 *)
  Record entry := mk_entry { ehash : Z; ekey : K; evalue : V }.
  Notation slots := (list (option entry)).

  (** map.h:464-468 *)
  Record map := mk_map {
    mdata : slots; mcapacity : nat; mlength : nat; musable : nat; mshift : Z }.

  (** [Math::ctlz(capacity_) + 1] (82, 165): 63 - log2 leading zeros, plus 1
      (MathProps.ctlz_counts_leading_zeros; [MapProps.map_shift_ctlz]) *)
  Definition shift_of (cap : nat) : Z :=
    if (cap =? 0)%nat then 65%Z else (64 - Z.of_nat (Nat.log2 cap))%Z.
  (** [(capacity_ / 4) * 3] (83, 164) *)
  Definition usable_of (cap : nat) : nat := (cap / 4) * 3.

  (** map.h:78, 464-468 *)
  Definition map_empty : map := mk_map [] 0 0 0 0.

  (** [Math::next_pow2], which maps 0 to 0 (rpp/impl/math.cpp:169-172;
      [MapProps.map_next_pow2]) *)
  Definition next_pow2_nat (n : nat) : nat :=
    match n with 0 => 0 | _ => 2 ^ Nat.log2_up n end.

  (** map.h:80-87 *)
  Definition map_with_capacity (n : nat) : map :=
    let cap := next_pow2_nat n in
    mk_map (replicate cap None) cap 0 (usable_of cap) (shift_of cap).

  (** [h >> shift_]: shifting a u64 by 64 or more is undefined *)
  Definition home (shift h : Z) : res nat :=
    if (64 <=? shift)%Z then UB else Ok (Z.to_nat (Z.shiftr h shift)).
  (** [data_[idx]] *)
  Definition slot_at (s : slots) (idx : nat) : res (option entry) :=
    match s !! idx with Some x => Ok x | None => UB end.
  (** [kidx <= idx ? idx - kidx : capacity_ + idx - kidx] (266, 422, 457) *)
  Definition probe_dist (cap idx kidx : nat) : nat :=
    if kidx <=? idx then idx - kidx else cap + idx - kidx.
  (** [if(++idx == capacity_) idx = 0;] (269, 429, 460) *)
  Definition next_slot (cap idx : nat) : nat := if S idx =? cap then 0 else S idx.

  (** map.h:445-462 *)
  Fixpoint try_get_loop (fuel : nat) (s : slots) (cap : nat) (shift h : Z) (key : K) (idx dist : nat)
      : res (option nat) :=
    match fuel with
    | 0 => Diverge
    | S fuel' =>
        x ← slot_at s idx;
        match x with
        | None => Ok None
        | Some e =>
            if (ehash e =? h)%Z && bool_decide (ekey e = key) then Ok (Some idx)
            else
              kidx ← home shift (ehash e);
              if probe_dist cap idx kidx <? dist then Ok None
              else try_get_loop fuel' s cap shift h key (next_slot cap idx) (S dist)
        end
    end.
  (** [dist] grows by one per iteration and every distance is below the
      capacity, so [capacity + 1] iterations always suffice (proved). *)
  Definition try_get_ (m : map) (key : K) : res (option nat) :=
    idx ← home (mshift m) (hash key);
    try_get_loop (S (mcapacity m)) (mdata m) (mcapacity m) (mshift m) (hash key) key idx 0.

  (** map.h:190-198 *)
  Definition map_is_empty (m : map) : bool := mlength m =? 0.
  Definition map_full (m : map) : bool := mlength m =? musable m.

  (** map.h:236-250 *)
  Definition map_try_get (m : map) (key : K) : res (option V) :=
    if map_is_empty m then Ok None
    else
      i ← try_get_ m key;
      match i with
      | Some idx => x ← slot_at (mdata m) idx;
                    match x with Some e => Ok (Some (evalue e)) | None => UB end
      | None => Ok None
      end.
  (** map.h:299-301 *)
  Definition map_contains (m : map) (key : K) : res bool :=
    o ← map_try_get m key; Ok (match o with Some _ => true | None => false end).
  (** map.h:303-313 *)
  Definition map_get (m : map) (key : K) : res V :=
    o ← map_try_get m key; match o with Some v => Ok v | None => Die end.
  (** map.h:290-297: the String_View overload does not check for an empty map *)
  Definition map_get_view (m : map) (key : K) : res V :=
    i ← try_get_ m key;
    match i with
    | Some idx => x ← slot_at (mdata m) idx;
                  match x with Some e => Ok (evalue e) | None => UB end
    | None => Die
    end.
  (** map.h:280-288, 273-278: the String_View overloads that do check *)
  Definition map_try_get_view (m : map) (key : K) : res (option V) := map_try_get m key.

  (** [m.get(key) = v]: assignment through the reference that get returns;
      [d] is the value it replaces *)
  Definition map_assign (m : map) (key : K) (v : V) : res (map * list V) :=
    if map_is_empty m then Die
    else
      i ← try_get_ m key;
      match i with
      | Some idx =>
          x ← slot_at (mdata m) idx;
          match x with
          | Some e => Ok (mk_map (<[idx := Some (mk_entry (ehash e) (ekey e) v)]> (mdata m))
                       (mcapacity m) (mlength m) (musable m) (mshift m), [evalue e])
          | None => UB
          end
      | None => Die
      end.

  (** map.h:407-431.  Returns the table, the index of the slot the new entry
      ended up in ([placement]), and the entry destroyed when the key was
      already present (418, 38). *)
  Fixpoint insert_loop (fuel : nat) (s : slots) (cap : nat) (shift : Z) (x : entry)
      (idx dist : nat) (placement : option nat) : res (slots * nat * list entry) :=
    match fuel with
    | 0 => Diverge
    | S fuel' =>
        o ← slot_at s idx;
        match o with
        | None => Ok (<[idx := Some x]> s, default idx placement, [])
        | Some e =>
            if (ehash e =? ehash x)%Z && bool_decide (ekey e = ekey x)
            then Ok (<[idx := Some x]> s, idx, [e])
            else
              hashidx ← home shift (ehash e);
              let hashdist := probe_dist cap idx hashidx in
              if hashdist <? dist
              then insert_loop fuel' (<[idx := Some x]> s) cap shift e (next_slot cap idx)
                     (S hashdist) (Some (default idx placement))
              else insert_loop fuel' s cap shift x (next_slot cap idx) (S dist) placement
        end
    end.
  Definition insert_slot (s : slots) (cap : nat) (shift : Z) (x : entry) : res (slots * nat * list entry) :=
    idx ← home shift (ehash x);
    insert_loop cap s cap shift x idx 0 None.

  (** map.h:167-170 *)
  Fixpoint rehash (old : slots) (s : slots) (cap : nat) (shift : Z) : res (slots * list entry) :=
    match old with
    | [] => Ok (s, [])
    | None :: old' => rehash old' s cap shift
    | Some e :: old' =>
        '(s1, _, d1) ← insert_slot s cap shift e;
        '(s2, d2) ← rehash old' s1 cap shift;
        Ok (s2, d1 ++ d2)
    end.
  (** map.h:155-172 *)
  Definition map_reserve (m : map) (new_capacity : nat) : res (map * list entry) :=
    if new_capacity <=? mcapacity m then Ok (m, [])
    else
      '(s, d) ← rehash (mdata m) (replicate new_capacity None) new_capacity (shift_of new_capacity);
      Ok (mk_map s new_capacity (mlength m) (usable_of new_capacity) (shift_of new_capacity), d).
  (** map.h:174-177 *)
  Definition map_grow (m : map) : res (map * list entry) :=
    map_reserve m (match mcapacity m with 0 => 32 | c => 2 * c end).

  (** map.h:200-234 (insert, emplace); the reference is returned as an index *)
  Definition map_insert (m : map) (key : K) (v : V) : res (map * nat * list entry) :=
    '(m1, d1) ← (if map_full m then map_grow m else Ok (m, []));
    '(s, i, d2) ← insert_slot (mdata m1) (mcapacity m1) (mshift m1) (mk_entry (hash key) key v);
    Ok (mk_map s (mcapacity m1) (S (mlength m1)) (musable m1) (mshift m1), i, d1 ++ d2).

  (** map.h:319-337; [dflt] is [V{}] *)
  Definition map_get_or_insert (m : map) (key : K) (dflt : V) : res (map * V * list entry) :=
    o ← map_try_get m key;
    match o with
    | Some v => Ok (m, v, [])
    | None =>
        '(m1, i, d) ← map_insert m key dflt;
        x ← slot_at (mdata m1) i;
        match x with Some e => Ok (m1, evalue e, d) | None => UB end
    end.

  (** map.h:433-443; [data_[idx] = move(data_[next])] first destroys what
      data_[idx] holds (38) *)
  Fixpoint fix_up (fuel : nat) (s : slots) (cap : nat) (shift : Z) (idx : nat) : res (slots * list entry) :=
    match fuel with
    | 0 => Diverge
    | S fuel' =>
        let next := if idx =? cap - 1 then 0 else S idx in
        o ← slot_at s next;
        match o with
        | None => Ok (s, [])
        | Some e =>
            ideal ← home shift (ehash e);
            if next =? ideal then Ok (s, [])
            else
              old ← slot_at s idx;
              '(s1, d) ← fix_up fuel' (<[next := None]> (<[idx := Some e]> s)) cap shift next;
              Ok (s1, option_list old ++ d)
        end
    end.

  (** map.h:252-271; a vacant slot has hash 0, so [kidx] is 0 *)
  Fixpoint erase_probe (fuel : nat) (s : slots) (cap : nat) (shift h : Z) (key : K) (idx dist : nat)
      : res (option nat) :=
    match fuel with
    | 0 => Diverge
    | S fuel' =>
        x ← slot_at s idx;
        let k := match x with Some e => ehash e | None => 0%Z end in
        if (k =? h)%Z && match x with Some e => bool_decide (ekey e = key) | None => true end
        then match x with Some _ => Ok (Some idx) | None => UB end
        else
          kidx ← home shift k;
          if probe_dist cap idx kidx <? dist then Ok None
          else erase_probe fuel' s cap shift h key (next_slot cap idx) (S dist)
    end.
  Definition map_try_erase (m : map) (key : K) : res (map * bool * list entry) :=
    if map_is_empty m then Ok (m, false, [])
    else
      idx ← home (mshift m) (hash key);
      i ← erase_probe (S (mcapacity m)) (mdata m) (mcapacity m) (mshift m) (hash key) key idx 0;
      match i with
      | None => Ok (m, false, [])
      | Some idx =>
          x ← slot_at (mdata m) idx;
          '(s, d) ← fix_up (mcapacity m) (<[idx := None]> (mdata m)) (mcapacity m) (mshift m) idx;
          Ok (mk_map s (mcapacity m) (mlength m - 1) (musable m) (mshift m), true, option_list x ++ d)
      end.
  (** map.h:315-317 *)
  Definition map_erase (m : map) (key : K) : res (map * list entry) :=
    '(m1, ok, d) ← map_try_erase m key; if (ok : bool) then Ok (m1, d) else Die.

  (** map.h:179-188 *)
  Definition map_clear (m : map) : map * list entry :=
    (mk_map (replicate (length (mdata m)) None) (mcapacity m) 0 (musable m) (mshift m), omap id (mdata m)).
  (** map.h:125-137 *)
  Definition map_destroy (m : map) : map * list entry := (map_empty, omap id (mdata m)).

  (** the [Pair] of a slot *)
  Definition kv (e : entry) : K * V := (ekey e, evalue e).
  Definition kvs (d : list entry) : list (K * V) := kv <$> d.
  (** map.h:339-404: begin() to end(), skipping vacant slots *)
  Definition map_iterate (m : map) : list (K * V) := kvs (omap id (mdata m)).

  (** map.h:139-153, 45-59: the copy of each slot hashes its key again *)
  Definition clone_slot (x : option entry) : option entry :=
    match x with Some e => Some (mk_entry (hash (ekey e)) (ekey e) (evalue e)) | None => None end.
  Definition map_clone (m : map) : map :=
    let ret := map_with_capacity (mcapacity m) in
    mk_map ((clone_slot <$> mdata m) ++ drop (mcapacity m) (mdata ret))
      (mcapacity ret) (mlength m) (musable ret) (mshift ret).

  (** map.h:89-93 *)
  Fixpoint map_insert_all (m : map) (kvs : list (K * V)) : res (map * list entry) :=
    match kvs with
    | [] => Ok (m, [])
    | (k, v) :: kvs' =>
        '(m1, _, d1) ← map_insert m k v;
        '(m2, d2) ← map_insert_all m1 kvs';
        Ok (m2, d1 ++ d2)
    end.

  (** Histories. *)
  Inductive map_op :=
  | MInsert (k : K) (v : V) | MAssign (k : K) (v : V) | MGetOrInsert (k : K) (dflt : V)
  | MTryErase (k : K) | MErase (k : K) | MTryGet (k : K) | MGet (k : K) | MContains (k : K)
  | MClear | MReserve (n : nat) | MGrow | MReplaceByClone (* m = m.clone() *)
  | MLength | MEmpty | MIterate.

  Inductive map_out :=
  | OUnit | OVal (v : V) | OOpt (o : option V) | OBool (b : bool) | ONat (n : nat) | OList (l : list (K * V)).

  (** [insert] answers with the value behind the reference it returns *)
  Definition read_slot (m : map) (i : nat) : res V :=
    x ← slot_at (mdata m) i; match x with Some e => Ok (evalue e) | None => UB end.

  Definition map_step (m : map) (o : map_op) : res (map * map_out * list (K * V)) :=
    match o with
    | MInsert k v => '(m', i, d) ← map_insert m k v; r ← read_slot m' i; Ok (m', OVal r, kvs d)
    | MAssign k v => '(m', d) ← map_assign m k v; Ok (m', OUnit, (fun v => (k, v)) <$> (d : list V))
    | MGetOrInsert k v => '(m', r, d) ← map_get_or_insert m k v; Ok (m', OVal r, kvs d)
    | MTryErase k => '(m', b, d) ← map_try_erase m k; Ok (m', OBool b, kvs d)
    | MErase k => '(m', d) ← map_erase m k; Ok (m', OUnit, kvs d)
    | MTryGet k => r ← map_try_get m k; Ok (m, OOpt r, [])
    | MGet k => r ← map_get m k; Ok (m, OVal r, [])
    | MContains k => r ← map_contains m k; Ok (m, OBool r, [])
    | MClear => let '(m', d) := map_clear m in Ok (m', OUnit, kvs d)
    | MReserve n => '(m', d) ← map_reserve m n; Ok (m', OUnit, kvs d)
    | MGrow => '(m', d) ← map_grow m; Ok (m', OUnit, kvs d)
    | MReplaceByClone => let c := map_clone m in let '(_, d) := map_destroy m in Ok (c, OUnit, kvs d)
    | MLength => Ok (m, ONat (mlength m), [])
    | MEmpty => Ok (m, OBool (map_is_empty m), [])
    | MIterate => Ok (m, OList (map_iterate m), [])
    end.

  Fixpoint map_run (m : map) (os : list map_op) : res (map * list map_out * list (K * V)) :=
    match os with
    | [] => Ok (m, [], [])
    | o :: os' =>
        '(m1, out, ds) ← map_step m o;
        '(m2, outs, ds') ← map_run m1 os';
        Ok (m2, out :: outs, ds ++ ds')
    end.
End map.
Arguments entry : clear implicits.
Arguments map : clear implicits.
Arguments map_op : clear implicits.
Arguments map_out : clear implicits.
