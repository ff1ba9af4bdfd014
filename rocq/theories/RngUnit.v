(** The size of what unit() returns. *)
From Verif Require Import Word F32 RngModel.
From Coq Require Import Reals Lra.
From Flocq Require Import Core IEEE754.BinarySingleNaN IEEE754.Binary IEEE754.Bits.
Open Scope Z_scope.

Lemma shiftr_bound x k : 0 <= k <= 64 -> is_u 64 x -> 0 <= Z.shiftr x k <= 2 ^ (64 - k).
Proof.
  intros Hk Hx. unfold is_u in Hx. rewrite Z.shiftr_div_pow2 by lia. split; [apply Z.div_pos; [lia|apply Z.pow_pos_nonneg; lia]|].
  assert (x / 2 ^ k < 2 ^ (64 - k)); [|lia]. apply Z.div_lt_upper_bound; [apply Z.pow_pos_nonneg; lia|]. rewrite <- Z.pow_add_r by lia.
  replace (k + (64 - k)) with 64 by lia. lia.
Qed.
Lemma ten_m24_bound : is_finite 24 128 ten_m24 = true /\ (0 <= B2R 24 128 ten_m24 <= bpow radix2 (-79))%R.
Proof.
  split; [reflexivity|]. assert (E : B2FF 24 128 ten_m24 = F754_finite false 10141205 (-103)) by (vm_compute; reflexivity).
  rewrite <-FF2R_B2FF, E. cbn [FF2R cond_Zopp]. unfold F2R. cbn [Fnum Fexp]. change (-79) with (24 + -103). rewrite bpow_plus. pose proof (bpow_gt_0 radix2 (-103)).
  change (bpow radix2 24) with (IZR 16777216). split; [apply Rmult_le_pos; [apply IZR_le; lia|lra]|]. apply Rmult_le_compat_r; [lra|]. apply IZR_le. lia.
Qed.
Lemma unit32_small x : is_u 64 x -> is_finite 24 128 (unit32 x) = true /\ (0 <= B2R 24 128 (unit32 x) <= bpow radix2 (-55))%R.
Proof.
  intros Hx. pose proof (shiftr_bound x 40 ltac:(lia) Hx) as Hs. destruct (f32_of_Z_range (Z.shiftr x 40) 24) as (F1 & _ & R1); [lia|exact Hs|].
  destruct ten_m24_bound as [F2 R2]. unfold unit32.
  destruct (f32_mul_range (f32_of_Z (Z.shiftr x 40)) ten_m24 (bpow radix2 (-55))) as (F & _ & R); [done|done| | | |done].
  - split; [apply Rmult_le_pos; lra|]. change (-55) with (24 + -79). rewrite bpow_plus. change (bpow radix2 24) with (IZR (2 ^ 24)). apply Rmult_le_compat; lra.
  - apply generic_format_bpow. unfold SpecFloat.fexp, SpecFloat.emin. lia.
  - apply bpow_lt. lia.
Qed.

Lemma ten_m53_bound : is_finite 53 1024 ten_m53 = true /\ (0 <= B2R 53 1024 ten_m53 <= bpow radix2 (-176))%R.
Proof.
  split; [reflexivity|]. assert (E : B2FF 53 1024 ten_m53 = F754_finite false 8627182933488205 (-229)) by (vm_compute; reflexivity).
  rewrite <-FF2R_B2FF, E. cbn [FF2R cond_Zopp]. unfold F2R. cbn [Fnum Fexp]. change (-176) with (53 + -229). rewrite bpow_plus. pose proof (bpow_gt_0 radix2 (-229)).
  change (bpow radix2 53) with (IZR 9007199254740992). split; [apply Rmult_le_pos; [apply IZR_le; lia|lra]|]. apply Rmult_le_compat_r; [lra|]. apply IZR_le. lia.
Qed.
Notation rnd64 := (round radix2 (SpecFloat.fexp 53 1024) (round_mode mode_NE)).
Lemma f64_of_Z_range z k : 0 <= k <= 100 -> 0 <= z <= 2 ^ k ->
  is_finite 53 1024 (f64_of_Z z) = true /\ (0 <= B2R 53 1024 (f64_of_Z z) <= IZR (2 ^ k))%R.
Proof.
  intros Hk Hz. unfold f64_of_Z.
  assert (E : F2R (Float radix2 z 0) = IZR z) by (unfold F2R; cbn; ring).
  assert (V : Valid_exp (SpecFloat.fexp 53 1024)) by (apply fexp_correct; reflexivity).
  assert (B : (0 <= rnd64 (IZR z) <= IZR (2 ^ k))%R).
  { split.
    - apply round_ge_generic; [apply V|apply valid_rnd_N|apply generic_format_0|]. apply (IZR_le 0). lia.
    - apply round_le_generic; [apply V|apply valid_rnd_N| |apply IZR_le; lia].
      rewrite (IZR_Zpower radix2) by lia. apply generic_format_bpow. unfold SpecFloat.fexp, SpecFloat.emin. lia. }
  pose proof (binary_normalize_correct 53 1024 eq_refl eq_refl mode_NE z 0 false) as C. rewrite E in C.
  rewrite Rlt_bool_true in C.
  - destruct C as (C1 & C2 & _). rewrite C1. auto.
  - rewrite Rabs_pos_eq by apply B. eapply Rle_lt_trans; [apply B|]. rewrite (IZR_Zpower radix2) by lia. apply bpow_lt. lia.
Qed.
Lemma unit64_small x : is_u 64 x -> is_finite 53 1024 (unit64 x) = true /\ (0 <= B2R 53 1024 (unit64 x) <= bpow radix2 (-123))%R.
Proof.
  intros Hx. pose proof (shiftr_bound x 11 ltac:(lia) Hx) as Hs. destruct (f64_of_Z_range (Z.shiftr x 11) 53) as (F1 & R1); [lia|exact Hs|].
  destruct ten_m53_bound as [F2 R2]. unfold unit64, b64_mult. set (y := f64_of_Z (Z.shiftr x 11)) in *.
  assert (V : Valid_exp (SpecFloat.fexp 53 1024)) by (apply fexp_correct; reflexivity).
  assert (P : (0 <= B2R 53 1024 y * B2R 53 1024 ten_m53 <= bpow radix2 (-123))%R).
  { split; [apply Rmult_le_pos; lra|]. change (-123) with (53 + -176). rewrite bpow_plus. change (bpow radix2 53) with (IZR (2 ^ 53)). apply Rmult_le_compat; lra. }
  assert (B : (0 <= rnd64 (B2R 53 1024 y * B2R 53 1024 ten_m53) <= bpow radix2 (-123))%R).
  { split.
    - apply round_ge_generic; [apply V|apply valid_rnd_N|apply generic_format_0|apply P].
    - apply round_le_generic; [apply V|apply valid_rnd_N| |apply P]. apply generic_format_bpow. unfold SpecFloat.fexp, SpecFloat.emin. lia. }
  pose proof (Bmult_correct 53 1024 eq_refl eq_refl binop_nan_pl64 mode_NE y ten_m53) as C. rewrite Rlt_bool_true in C.
  - destruct C as (C1 & C2 & _). rewrite F1, F2 in C2. split; [exact C2|]. rewrite C1. exact B.
  - rewrite Rabs_pos_eq by apply B. eapply Rle_lt_trans; [apply B|]. apply bpow_lt. lia.
Qed.
Close Scope Z_scope.
