(** C49: Pool placement is valid. *)
From Coq Require Import Reals Lra.
From Flocq Require Import Core IEEE754.BinarySingleNaN IEEE754.Binary IEEE754.Bits.
From Verif Require Import Base F32 PlaceModel.
Local Open Scope Z_scope.

(** On 1 to 65 hardware threads the pool has one worker fewer, each pinned to its own existing processor. *)
Theorem place_affinity h i : 1 <= h <= 65 -> 0 <= i < h - 1 ->
  make_pool h = Ok (h - 1) /\ exists j, affinity h i = Ok j /\ 0 <= j < h.
Proof.
  intros Hh Hi. pose proof (Z.div_mod h 2 ltac:(lia)) as D. pose proof (Z.mod_pos_bound h 2 ltac:(lia)) as M.
  unfold make_pool, affinity. rewrite (proj2 (andb_true_iff _ _)) by lia. split; [done|].
  destruct (Z.ltb_spec i (h / 2)).
  - exists (i * 2). rewrite (proj2 (Z.ltb_lt (i * 2) h)) by lia. split; [done|]. lia.
  - exists ((i - h / 2) * 2 + 1). rewrite (proj2 (Z.ltb_lt ((i - h / 2) * 2 + 1) h)) by lia. split; [done|]. lia.
Qed.
Theorem place_distinct h i k j : 0 <= i -> 0 <= k -> affinity h i = Ok j -> affinity h k = Ok j -> i = k.
Proof.
  intros Hi Hk. unfold affinity.
  assert (A : forall x, (assert_ (x <? h);; Ok x) = Ok j -> x = j) by (intros x; destruct (x <? h); [by intros [= ->]|done]).
  intros E1%A E2%A. destruct (Z.ltb_spec i (h / 2)), (Z.ltb_spec k (h / 2)); lia.
Qed.
(** With more than 65 hardware threads the constructor stops the program. *)
Theorem place_many_threads_refuted h : 65 < h -> make_pool h = Die.
Proof. intros H. unfold make_pool. destruct (_ && _) eqn:E; [|done]. apply andb_true_iff in E. lia. Qed.
Lemma phi_value : is_finite 24 128 PHI32 = true /\ B2R 24 128 PHI32 = (IZR 13573053 / IZR 8388608)%R.
Proof.
  split; [reflexivity|]. assert (E : B2FF 24 128 PHI32 = F754_finite false 13573053 (-23)) by reflexivity.
  rewrite <-FF2R_B2FF, E. cbn [FF2R cond_Zopp]. unfold F2R. cbn [Fnum Fexp bpow]. change (Z.pow_pos radix2 23) with 8388608. lra.
Qed.
(** Whatever positive number the sequence has reached, the worker picked exists. *)
Theorem place_index n seq : 1 <= n -> 1 <= seq < 2 ^ 63 -> exists i, overflow_index n seq = Ok i /\ 0 <= i < n.
Proof.
  intros Hn Hs. unfold overflow_index. destruct phi_value as [F1 V].
  destruct (f32_of_Z_range seq 63) as (F2 & _ & R2); [lia|lia|].
  destruct (f32_mul_range (f32_of_Z seq) PHI32 (F2R (Float radix2 7 61))) as (F3 & _ & R3); [done|done| | | |].
  - rewrite V. unfold F2R. cbn [Fnum Fexp]. change (bpow radix2 61) with (IZR (2 ^ 61)).
    replace (IZR (2 ^ 63)) with (4 * IZR (2 ^ 61))%R in R2 by (rewrite <-mult_IZR; done).
    assert (0 < IZR (2 ^ 61))%R by (apply (IZR_lt 0); lia).
    split; nra.
  - apply fmt32_small; lia.
  - unfold F2R. cbn [Fnum Fexp]. change (bpow radix2 61) with (IZR (2 ^ 61)). change (bpow radix2 128) with (IZR (2 ^ 128)).
    rewrite <-mult_IZR. apply IZR_lt. lia.
  - destruct (f32_to_u64_range (f32_mul (f32_of_Z seq) PHI32) (7 * 2 ^ 61)) as (z & -> & Hz & _); [done| |lia|].
    + rewrite mult_IZR. exact R3.
    + rewrite (proj2 (Z.eqb_neq _ _)) by lia. eexists. split; [done|]. apply Z.mod_pos_bound. lia.
Qed.
(** With one hardware thread there is no worker to pick. *)
Theorem place_single_thread_refuted seq : make_pool 1 = Ok 0 /\ overflow_index 0 seq = UB.
Proof. split; [done|]. unfold overflow_index. by destruct (f32_to_u64 _). Qed.
(** f32 has 24 bits of precision: late in the sequence successive jobs all go to one worker. *)
Example place_repeats : forallb (fun k => match overflow_index 7 (2 ^ 30 + k) with Ok i => i =? 1 | _ => false end) (map Z.of_nat (seq 0 33)) = true.
Proof. vm_compute. done. Qed.
Example place_example : map (overflow_index 7) [1; 2; 3; 4; 5; 6; 7] = [Ok 1; Ok 3; Ok 4; Ok 6; Ok 1; Ok 2; Ok 4].
Proof. vm_compute. done. Qed.
Example place_affinity_example : map (affinity 8) [0; 1; 2; 3; 4; 5; 6] = [Ok 0; Ok 2; Ok 4; Ok 6; Ok 1; Ok 3; Ok 5].
Proof. vm_compute. done. Qed.
Print Assumptions place_affinity.
Print Assumptions place_distinct.
Print Assumptions place_many_threads_refuted.
Print Assumptions place_index.
Print Assumptions place_single_thread_refuted.
