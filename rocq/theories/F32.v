(** IEEE-754 single precision, as Flocq defines it, with the conversions C++ uses.  Rounding is to
    nearest, ties to even. *)
From Coq Require Import Reals ZArith Lia Lra.
From Flocq Require Import Core IEEE754.BinarySingleNaN IEEE754.Binary IEEE754.Bits.
Open Scope Z_scope.

(** Conversion of an integer to f32. *)
Definition f32_of_Z (z : Z) : binary32 := binary_normalize 24 128 eq_refl eq_refl mode_NE z 0 false.
Definition f32_mul (x y : binary32) : binary32 := b32_mult mode_NE x y.
(** Conversion of an f32 to u64: undefined unless the truncated value fits. *)
Definition f32_to_u64 (x : binary32) : option Z :=
  if is_finite 24 128 x then let z := Btrunc 24 128 x in if ((0 <=? z) && (z <? 2 ^ 64))%bool then Some z else None else None.

Notation fmt32 := (generic_format radix2 (SpecFloat.fexp 24 128)).
Notation rnd32 := (round radix2 (SpecFloat.fexp 24 128) (round_mode mode_NE)).

Lemma fmt32_small z e : (Z.abs z < 2 ^ 24) -> 0 <= e -> fmt32 (F2R (Float radix2 z e)).
Proof.
  intros Hz He. apply generic_format_F2R. intros Nz. unfold cexp, SpecFloat.fexp, SpecFloat.emin.
  assert (mag radix2 (F2R (Float radix2 z e)) <= 24 + e).
  { apply mag_le_bpow; [apply F2R_neq_0; cbn; exact Nz|].
    rewrite <-F2R_Zabs. replace (24 + e) with (e + 24) by lia. rewrite bpow_plus.
    unfold F2R. cbn [Fnum Fexp]. rewrite Rmult_comm. apply Rmult_lt_compat_l; [apply bpow_gt_0|].
    change (bpow radix2 24) with (IZR (2 ^ 24)). apply IZR_lt. exact Hz. }
  lia.
Qed.
Lemma f32_of_Z_range z k : 0 <= k <= 100 -> 0 <= z <= 2 ^ k ->
  is_finite 24 128 (f32_of_Z z) = true /\ B2R 24 128 (f32_of_Z z) = rnd32 (IZR z) /\ (0 <= B2R 24 128 (f32_of_Z z) <= IZR (2 ^ k))%R.
Proof.
  intros Hk Hz. unfold f32_of_Z.
  assert (E : F2R (Float radix2 z 0) = IZR z) by (unfold F2R; cbn; ring).
  assert (B : (0 <= rnd32 (IZR z) <= IZR (2 ^ k))%R).
  { assert (V : Valid_exp (SpecFloat.fexp 24 128)) by (apply fexp_correct; reflexivity). split.
    - apply round_ge_generic; [apply V|apply valid_rnd_N|apply generic_format_0|]. apply (IZR_le 0). lia.
    - apply round_le_generic; [apply V|apply valid_rnd_N| |apply IZR_le; lia].
      rewrite (IZR_Zpower radix2) by lia. apply generic_format_bpow. unfold SpecFloat.fexp, SpecFloat.emin. lia. }
  pose proof (binary_normalize_correct 24 128 eq_refl eq_refl mode_NE z 0 false) as C. rewrite E in C.
  rewrite Rlt_bool_true in C.
  - destruct C as (C1 & C2 & _). rewrite C1. auto.
  - rewrite Rabs_pos_eq by apply B. eapply Rle_lt_trans; [apply B|]. rewrite (IZR_Zpower radix2) by lia. apply bpow_lt. lia.
Qed.
Lemma f32_mul_range x y (b : R) : is_finite 24 128 x = true -> is_finite 24 128 y = true -> (0 <= B2R 24 128 x * B2R 24 128 y <= b)%R -> fmt32 b -> (b < bpow radix2 128)%R ->
  is_finite 24 128 (f32_mul x y) = true /\ B2R 24 128 (f32_mul x y) = rnd32 (B2R 24 128 x * B2R 24 128 y) /\ (0 <= B2R 24 128 (f32_mul x y) <= b)%R.
Proof.
  intros Fx Fy H Fb Hb. unfold f32_mul, b32_mult.
  assert (V : Valid_exp (SpecFloat.fexp 24 128)) by (apply fexp_correct; reflexivity).
  assert (B : (0 <= rnd32 (B2R 24 128 x * B2R 24 128 y) <= b)%R).
  { split.
    - apply round_ge_generic; [apply V|apply valid_rnd_N|apply generic_format_0|apply H].
    - apply round_le_generic; [apply V|apply valid_rnd_N|exact Fb|apply H]. }
  pose proof (Bmult_correct 24 128 eq_refl eq_refl binop_nan_pl32 mode_NE x y) as C. rewrite Rlt_bool_true in C.
  - destruct C as (C1 & C2 & _). rewrite Fx, Fy in C2. split; [exact C2|]. split; [exact C1|]. rewrite C1. exact B.
  - rewrite Rabs_pos_eq by apply B. lra.
Qed.
Lemma f32_to_u64_range x b : is_finite 24 128 x = true -> (0 <= B2R 24 128 x <= IZR b)%R -> b < 2 ^ 64 ->
  exists z, f32_to_u64 x = Some z /\ 0 <= z <= b /\ z = Ztrunc (B2R 24 128 x).
Proof.
  intros Fx H Hb. unfold f32_to_u64. rewrite Fx. exists (Btrunc 24 128 x).
  assert (E : Btrunc 24 128 x = Ztrunc (B2R 24 128 x)).
  { apply eq_IZR. rewrite Btrunc_correct by reflexivity. rewrite round_FIX_IZR. reflexivity. }
  assert (Z1 : 0 <= Ztrunc (B2R 24 128 x)) by (rewrite <-(Ztrunc_IZR 0); apply Ztrunc_le; lra).
  assert (Z2 : Ztrunc (B2R 24 128 x) <= b) by (rewrite <-(Ztrunc_IZR b); apply Ztrunc_le; lra).
  rewrite E. replace ((0 <=? _) && _)%bool with true; [auto|]. symmetry. apply andb_true_intro. lia.
Qed.
