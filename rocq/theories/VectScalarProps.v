(** C57, continued: what the operations of the three element types are, as numbers. *)
From Flocq Require Import IEEE754.BinarySingleNaN IEEE754.Binary IEEE754.Bits.
From Verif Require Import Base Word VectModel VectSpec VectProps.
From Coq Require Import Reals Lra.
From Flocq Require Import Core.

Section integers.
Local Open Scope Z_scope.
(** [quotient x y z]: [x / y] truncated towards zero is [z]. *)
Definition quotient (x y z : Z) : Prop := exists r, x = y * z + r /\ Z.abs r < Z.abs y /\ 0 <= r * x.
(** i32: the exact result when it fits, otherwise undefined. *)
Theorem vect_i32 : forall x y z,
  (s_add i32_sc x y = Some z <-> z = x + y /\ - 2147483648 <= z <= 2147483647) /\
  (s_sub i32_sc x y = Some z <-> z = x - y /\ - 2147483648 <= z <= 2147483647) /\
  (s_mul i32_sc x y = Some z <-> z = x * y /\ - 2147483648 <= z <= 2147483647) /\
  (s_div i32_sc x y = Some z <-> quotient x y z /\ - 2147483648 <= z <= 2147483647) /\
  (s_neg i32_sc x = Some z <-> z = - x /\ - 2147483648 <= z <= 2147483647) /\
  (s_abs i32_sc x = Some z <-> z = Z.max x (- x) /\ - 2147483648 <= z <= 2147483647) /\
  (s_lt i32_sc x y = true <-> x < y) /\ (s_eq i32_sc x y = true <-> x = y) /\ s_zero i32_sc = 0.
Proof.
  intros x y z.
  assert (forall v, in_i32 v = Some z <-> z = v /\ - 2147483648 <= z <= 2147483647) as I.
  { intros v. unfold in_i32. destruct (decide _) as [D|D]; split.
    - intros [= ->]. lia.
    - intros [-> _]. done.
    - done.
    - intros [-> ?]. lia. }
  cbn [i32_sc s_add s_sub s_mul s_div s_neg s_abs s_lt s_eq s_zero]. rewrite !I, !bool_decide_eq_true.
  split_and!; try done.
  - assert (forall q, quotient x y q <-> y <> 0 /\ q = Z.quot x y) as Q.
    { intros q. unfold quotient. split.
      - intros (r & E & H & S). assert (y <> 0) as Hy by lia. split; [done|].
        pose proof (Z.quot_rem x y Hy) as E'. pose proof (Z.rem_bound_abs x y Hy) as H'. pose proof (Z.rem_sign_mul x y Hy) as S'.
        set (q' := Z.quot x y) in *. set (r' := Z.rem x y) in *. clearbody q' r'.
        assert (Z.abs (r - r') < Z.abs y) as B.
        { destruct (Z.lt_trichotomy x 0) as [X|[X|X]].
          - assert (r <= 0) by nia. assert (r' <= 0) by nia. lia.
          - subst x. assert (r' = 0) as -> by (assert (Z.abs (y * q') < Z.abs y) as K by lia; rewrite Z.abs_mul in K; assert (Z.abs q' = 0) by nia; nia). lia.
          - assert (0 <= r) by nia. assert (0 <= r') by nia. lia. }
        assert (y * (q - q') = r' - r) as D by lia.
        assert (Z.abs (y * (q - q')) < Z.abs y) as K by lia. rewrite Z.abs_mul in K. clear -K Hy. assert (Z.abs (q - q') = 0) by nia. lia.
      - intros [Hy ->]. exists (Z.rem x y). split; [pose proof (Z.quot_rem x y Hy); lia|].
        split; [by apply Z.rem_bound_abs|]. pose proof (Z.rem_sign_mul x y Hy). nia. }
    destruct (decide (y = 0)) as [->|Hy].
    + split; [done|]. intros [H _]. apply Q in H as [H _]. done.
    + rewrite I, Q. intuition.
  - split; intros [-> ?]; (split; [lia|lia]).
Qed.
(** u32: the result modulo 2^32. *)
Theorem vect_u32 : forall x y z, is_u 32 x -> is_u 32 y ->
  (s_add u32_sc x y = Some z <-> is_u 32 z /\ exists k, x + y = z + k * 4294967296) /\
  (s_sub u32_sc x y = Some z <-> is_u 32 z /\ exists k, x - y = z + k * 4294967296) /\
  (s_mul u32_sc x y = Some z <-> is_u 32 z /\ exists k, x * y = z + k * 4294967296) /\
  (s_div u32_sc x y = Some z <-> exists r, x = y * z + r /\ 0 <= r < y) /\
  (s_lt u32_sc x y = true <-> x < y) /\ (s_eq u32_sc x y = true <-> x = y) /\ s_zero u32_sc = 0.
Proof.
  intros x y z Hx Hy.
  assert (forall v, Some (wrap 32 v) = Some z <-> is_u 32 z /\ exists k, v = z + k * 4294967296) as I.
  { intros v. unfold wrap, is_u. change 4294967296 with (2 ^ 32). split.
    - intros [= <-]. split; [apply Z.mod_pos_bound; lia|]. exists (v / 2 ^ 32). pose proof (Z.div_mod v (2 ^ 32)). lia.
    - intros [H [k ->]]. f_equal. rewrite Z.mod_add by lia. by apply Z.mod_small. }
  cbn [u32_sc s_add s_sub s_mul s_div s_neg s_abs s_lt s_eq s_zero]. rewrite !I, !bool_decide_eq_true.
  split_and!; try done. unfold is_u in *. destruct (decide (y = 0)) as [->|N].
  - split; [done|]. intros (r & _ & ?). lia.
  - split.
    + intros [= <-]. exists (x mod y). pose proof (Z.div_mod x y N). pose proof (Z.mod_pos_bound x y). lia.
    + intros (r & E & H). f_equal. symmetry. by apply (Z.div_unique x y z r); [left|].
Qed.
End integers.

Section floats.
Local Open Scope R_scope.
Notation fin := (Binary.is_finite 24 128).
Notation val := (Binary.B2R 24 128).
(** The nearest f32 to a real number, ties to even. *)
Definition nearest (r : R) : R := round radix2 (FLT_exp (-149) 24) (Znearest (fun n => negb (Z.even n))) r.
(** f32: the number nearest to the exact result, when that does not overflow; [-] and [abs] are exact; the comparisons
    are those of the numbers. *)
Theorem vect_f32 : forall x y, fin x = true -> fin y = true ->
  (Rabs (nearest (val x + val y)) < bpow radix2 128 -> exists z, s_add f32_sc x y = Some z /\ fin z = true /\ val z = nearest (val x + val y)) /\
  (Rabs (nearest (val x - val y)) < bpow radix2 128 -> exists z, s_sub f32_sc x y = Some z /\ fin z = true /\ val z = nearest (val x - val y)) /\
  (Rabs (nearest (val x * val y)) < bpow radix2 128 -> exists z, s_mul f32_sc x y = Some z /\ fin z = true /\ val z = nearest (val x * val y)) /\
  (val y <> 0 -> Rabs (nearest (val x / val y)) < bpow radix2 128 ->
     exists z, s_div f32_sc x y = Some z /\ fin z = true /\ val z = nearest (val x / val y)) /\
  (exists z, s_neg f32_sc x = Some z /\ fin z = true /\ val z = - val x) /\
  (exists z, s_abs f32_sc x = Some z /\ fin z = true /\ val z = Rabs (val x)) /\
  (0 <= val x -> exists z, s_sqrt f32_sc x = Some z /\ fin z = true /\ val z = nearest (sqrt (val x))) /\
  (s_lt f32_sc x y = true <-> val x < val y) /\ (s_eq f32_sc x y = true <-> val x = val y) /\ val (s_zero f32_sc) = 0.
Proof.
  intros x y Fx Fy. cbn [f32_sc s_add s_sub s_mul s_div s_neg s_abs s_sqrt s_lt s_eq s_zero].
  split_and!.
  - intros H. eexists. split; [done|].
    pose proof (Bplus_correct 24 128 eq_refl eq_refl binop_nan_pl32 mode_NE x y Fx Fy) as C. rewrite Rlt_bool_true in C by exact H.
    destruct C as (E & F & _). split; [exact F|exact E].
  - intros H. eexists. split; [done|].
    pose proof (Bminus_correct 24 128 eq_refl eq_refl binop_nan_pl32 mode_NE x y Fx Fy) as C. rewrite Rlt_bool_true in C by exact H.
    destruct C as (E & F & _). split; [exact F|exact E].
  - intros H. eexists. split; [done|].
    pose proof (Bmult_correct 24 128 eq_refl eq_refl binop_nan_pl32 mode_NE x y) as C. rewrite Rlt_bool_true in C by exact H.
    destruct C as (E & F & _). rewrite Fx, Fy in F. split; [exact F|exact E].
  - intros N H. eexists. split; [done|].
    pose proof (Bdiv_correct 24 128 eq_refl eq_refl binop_nan_pl32 mode_NE x y N) as C. rewrite Rlt_bool_true in C by exact H.
    destruct C as (E & F & _). rewrite Fx in F. split; [exact F|exact E].
  - eexists. split; [done|]. unfold b32_opp. rewrite is_finite_Bopp, B2R_Bopp. done.
  - eexists. split; [done|]. unfold b32_abs. rewrite is_finite_Babs, B2R_Babs. done.
  - intros P. eexists. split; [done|].
    pose proof (Bsqrt_correct 24 128 eq_refl eq_refl unop_nan_pl32 mode_NE x) as (E & F & _).
    split; [|exact E]. unfold b32_sqrt. rewrite F.
    destruct x as [| | |s m e b]; try done. destruct s; [|done]. exfalso. cbn [Binary.B2R] in P.
    assert (F2R (Float radix2 (Z.neg m) e) < 0) as K by (by apply F2R_lt_0). change (cond_Zopp true (Z.pos m)) with (Z.neg m) in P. set (v := F2R _) in *. lra.
  - by apply f32_lt_finite.
  - by apply f32_eq_finite.
  - done.
Qed.
(** The lanes are in the order given, with SSE and without. *)
Theorem simd_set : forall x y z w, data (set x y z w) = [x; y; z; w] /\ data (set_sse x y z w) = [x; y; z; w].
Proof. done. Qed.
End floats.

Local Open Scope Z_scope.
(** The hypotheses are met, away from the trivial cases. *)
Example i32_ops : s_add i32_sc 2147483647 1 = None /\ s_div i32_sc (-7) 2 = Some (-3)%Z /\ s_div i32_sc (-2147483648) (-1) = None /\
  s_neg i32_sc (-2147483648) = None /\ s_abs i32_sc (-5) = Some 5%Z.
Proof. by vm_compute. Qed.
Example u32_ops : s_sub u32_sc 3 5 = Some 4294967294%Z /\ s_mul u32_sc 65536 65537 = Some 65536%Z /\ s_div u32_sc 7 2 = Some 3%Z.
Proof. by vm_compute. Qed.
Example f32_ops : (option_map bits_of_b32 (s_add f32_sc (f32_of_int 16777216) (f32_of_int 1)) = Some (bits_of_b32 (f32_of_int 16777216))) /\
  Binary.is_finite 24 128 (f32_of_int 16777216) = true /\ option_map bits_of_b32 (s_sqrt f32_sc (f32_of_int 9)) = Some (bits_of_b32 (f32_of_int 3)).
Proof. split_and!; vm_compute; reflexivity. Qed.
Print Assumptions vect_i32.
Print Assumptions vect_u32.
Print Assumptions vect_f32.
Print Assumptions simd_set.
