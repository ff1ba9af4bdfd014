(** rpp/pool.h: where workers run and which worker gets a job when none looks idle. *)
From Verif Require Import Base F32.
From Flocq Require Import IEEE754.Bits.
Local Open Scope Z_scope.

(** rpp/math.h:13, the f32 nearest to 1.618033988749895 *)
Definition PHI32 : binary32 := b32_of_bits 0x3FCF1BBD.
(** rpp/pool.h:54-59, on a machine with [h] hardware threads: the number of workers.
    thread_pos.cpp:71-75 asks the system for [h]. *)
Definition make_pool (h : Z) : res Z :=
  let n := h - 1 in
  assert_ ((n <=? h) && (n <=? 64));;
  Ok n.
(** rpp/pool.h:63-64 with thread_pos.cpp:143-144: the processor worker [i] is pinned to *)
Definition affinity (h i : Z) : res Z :=
  let j := if i <? h / 2 then i * 2 else (i - h / 2) * 2 + 1 in
  assert_ (j <? h);;
  Ok j.
(** rpp/pool.h:128 for the value [seq] that sequence.incr() returns; [n] is thread_states.length() *)
Definition overflow_index (n seq : Z) : res Z :=
  match f32_to_u64 (f32_mul (f32_of_Z seq) PHI32) with
  | Some p => if n =? 0 then UB else Ok (p mod n)
  | None => UB
  end.
