(** rpp/map.h with keys whose operator== is not identity: the three loops that compare keys, with the comparison the program makes.
    MapModel.v has the same loops with [==] taken to be identity.  [same] is operator== of the key type. *)
From Verif Require Import Base Word HashModel MapModel.
From Flocq Require Import IEEE754.Binary IEEE754.Bits.

Section keys.
  Context {K V : Type} (same : K -> K -> bool).
  Notation entry := (entry K V).
  Notation slots := (list (option entry)).

  (** map.h:445-462 *)
  Fixpoint try_get_by (fuel : nat) (s : slots) (cap : nat) (shift h : Z) (key : K) (idx dist : nat) : res (option nat) :=
    match fuel with
    | 0 => Diverge
    | S fuel' =>
        x ← slot_at s idx;
        match x with
        | None => Ok None
        | Some e =>
            if (ehash e =? h)%Z && same (ekey e) key then Ok (Some idx)
            else
              kidx ← home shift (ehash e);
              if probe_dist cap idx kidx <? dist then Ok None
              else try_get_by fuel' s cap shift h key (next_slot cap idx) (S dist)
        end
    end.
  (** map.h:407-431 *)
  Fixpoint insert_by (fuel : nat) (s : slots) (cap : nat) (shift : Z) (x : entry) (idx dist : nat) (placement : option nat) : res (slots * nat * list entry) :=
    match fuel with
    | 0 => Diverge
    | S fuel' =>
        o ← slot_at s idx;
        match o with
        | None => Ok (<[idx := Some x]> s, default idx placement, [])
        | Some e =>
            if (ehash e =? ehash x)%Z && same (ekey e) (ekey x) then Ok (<[idx := Some x]> s, idx, [e])
            else
              hashidx ← home shift (ehash e);
              let hashdist := probe_dist cap idx hashidx in
              if hashdist <? dist
              then insert_by fuel' (<[idx := Some x]> s) cap shift e (next_slot cap idx) (S hashdist) (Some (default idx placement))
              else insert_by fuel' s cap shift x (next_slot cap idx) (S dist) placement
        end
    end.
  (** map.h:252-271; a vacant slot has hash 0 *)
  Fixpoint erase_by (fuel : nat) (s : slots) (cap : nat) (shift h : Z) (key : K) (idx dist : nat) : res (option nat) :=
    match fuel with
    | 0 => Diverge
    | S fuel' =>
        x ← slot_at s idx;
        let k := match x with Some e => ehash e | None => 0%Z end in
        if (k =? h)%Z && match x with Some e => same (ekey e) key | None => true end
        then match x with Some _ => Ok (Some idx) | None => UB end
        else
          kidx ← home shift k;
          if probe_dist cap idx kidx <? dist then Ok None
          else erase_by fuel' s cap shift h key (next_slot cap idx) (S dist)
    end.
  (** map.h:236-250, with the private lookup 445-462 *)
  Definition map_try_get_by (hash : K -> Z) (m : map K V) (key : K) : res (option V) :=
    if map_is_empty m then Ok None
    else
      idx ← home (mshift m) (hash key);
      i ← try_get_by (S (mcapacity m)) (mdata m) (mcapacity m) (mshift m) (hash key) key idx 0;
      match i with
      | Some idx => x ← slot_at (mdata m) idx;
                    match x with Some e => Ok (Some (evalue e)) | None => UB end
      | None => Ok None
      end.
End keys.

(** hash.h:54-66, 87-90: what Map uses as the hash of an f32 and of an f64 *)
Definition key_f32 (x : binary32) : Z := hash_nonzero (hash_f32 x).
Definition key_f64 (x : binary64) : Z := hash_nonzero (hash_f64 x).
(** Two floats are the same when their bits are. *)
Lemma bits32_inj (x y : binary32) : bits_of_b32 x = bits_of_b32 y -> x = y.
Proof. exact (fun E => eq_trans (eq_sym (binary_float_of_bits_of_binary_float 23 8 eq_refl eq_refl eq_refl x)) (eq_trans (f_equal (binary_float_of_bits 23 8 eq_refl eq_refl eq_refl) E) (binary_float_of_bits_of_binary_float 23 8 eq_refl eq_refl eq_refl y))). Qed.
Lemma bits64_inj (x y : binary64) : bits_of_b64 x = bits_of_b64 y -> x = y.
Proof. exact (fun E => eq_trans (eq_sym (binary_float_of_bits_of_binary_float 52 11 eq_refl eq_refl eq_refl x)) (eq_trans (f_equal (binary_float_of_bits 52 11 eq_refl eq_refl eq_refl) E) (binary_float_of_bits_of_binary_float 52 11 eq_refl eq_refl eq_refl y))). Qed.
Global Instance binary32_eq_dec : EqDecision binary32 := fun x y =>
  match decide (bits_of_b32 x = bits_of_b32 y) with left E => left (bits32_inj x y E) | right N => right (fun E => N (f_equal bits_of_b32 E)) end.
Global Instance binary64_eq_dec : EqDecision binary64 := fun x y =>
  match decide (bits_of_b64 x = bits_of_b64 y) with left E => left (bits64_inj x y E) | right N => right (fun E => N (f_equal bits_of_b64 E)) end.
