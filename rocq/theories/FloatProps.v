(** C96: the scalar functions on f32 and the conversions of vectors. *)
From Flocq Require Import IEEE754.BinarySingleNaN IEEE754.Binary IEEE754.Bits.
From Verif Require Import Base Word F32 VectModel VectProps FloatModel.
From Coq Require Import Reals Lra.
From Flocq Require Import Core Div_sqrt_error Mult_error Plus_error.
Open Scope R_scope.

Notation fin := (Binary.is_finite 24 128).
Notation val := (Binary.B2R 24 128).
Local Instance valid32 : Valid_exp (SpecFloat.fexp 24 128).
Proof. apply fexp_correct; reflexivity. Qed.
Local Instance mono32 : Monotone_exp (SpecFloat.fexp 24 128).
Proof. apply (@fexp_monotone 24 128). Qed.

Lemma fmt_val x : fmt32 (val x).
Proof. apply generic_format_B2R. Qed.
Lemma fmt_int z : (Z.abs z <= 2 ^ 24)%Z -> fmt32 (IZR z).
Proof.
  intros H. destruct (Z.eq_dec (Z.abs z) (2 ^ 24)) as [E|N].
  - assert (fmt32 (bpow radix2 24)) as F by (apply generic_format_bpow; unfold SpecFloat.fexp, SpecFloat.emin; lia). change (bpow radix2 24) with (IZR (2 ^ 24)) in F.
    assert (z = 2 ^ 24 \/ z = - 2 ^ 24)%Z as [->| ->] by lia; [done|]. change (- 2 ^ 24)%Z with (-(2 ^ 24))%Z. rewrite opp_IZR. by apply generic_format_opp.
  - assert (F2R (Float radix2 z 0) = IZR z) as E by (unfold F2R; cbn; ring). rewrite <-E. apply fmt32_small; lia.
Qed.
Lemma rnd_small r : Rabs r <= bpow radix2 127 -> Rabs (rnd32 r) < bpow radix2 128.
Proof.
  intros H. apply Rle_lt_trans with (bpow radix2 127); [|apply bpow_lt; lia]. apply abs_round_le_generic; [apply valid32|apply valid_rnd_N| |exact H]. apply generic_format_bpow. unfold SpecFloat.fexp, SpecFloat.emin. lia.
Qed.
Lemma mul_val x y : fin x = true -> fin y = true -> Rabs (val x * val y) <= bpow radix2 127 -> fin (fmul x y) = true /\ val (fmul x y) = rnd32 (val x * val y).
Proof.
  intros Fx Fy H. pose proof (Bmult_correct 24 128 eq_refl eq_refl binop_nan_pl32 mode_NE x y) as C. rewrite Rlt_bool_true in C by (by apply rnd_small). destruct C as (C1 & C2 & _). rewrite Fx, Fy in C2. done.
Qed.
Lemma sub_val x y : fin x = true -> fin y = true -> Rabs (val x - val y) <= bpow radix2 127 -> fin (fsub x y) = true /\ val (fsub x y) = rnd32 (val x - val y).
Proof.
  intros Fx Fy H. pose proof (Bminus_correct 24 128 eq_refl eq_refl binop_nan_pl32 mode_NE x y Fx Fy) as C. rewrite Rlt_bool_true in C by (by apply rnd_small). by destruct C as (C1 & C2 & _).
Qed.
Lemma add_val x y : fin x = true -> fin y = true -> Rabs (val x + val y) <= bpow radix2 127 -> fin (fadd x y) = true /\ val (fadd x y) = rnd32 (val x + val y).
Proof.
  intros Fx Fy H. pose proof (Bplus_correct 24 128 eq_refl eq_refl binop_nan_pl32 mode_NE x y Fx Fy) as C. rewrite Rlt_bool_true in C by (by apply rnd_small). by destruct C as (C1 & C2 & _).
Qed.
Lemma of_Z_val z : fmt32 (IZR z) -> (Z.abs z <= 2 ^ 127)%Z -> fin (f32_of_Z z) = true /\ val (f32_of_Z z) = IZR z.
Proof.
  intros F H. pose proof (binary_normalize_correct 24 128 eq_refl eq_refl mode_NE z 0 false) as C. assert (F2R (Float radix2 z 0) = IZR z) as E by (unfold F2R; cbn; ring). rewrite E in C.
  rewrite Rlt_bool_true in C. { destruct C as (C1 & C2 & _). split; [done|]. etransitivity; [exact C1|]. by apply round_generic; [apply valid_rnd_N|]. }
  apply rnd_small. rewrite <-abs_IZR. change (bpow radix2 127) with (IZR (2 ^ 127)). by apply IZR_le.
Qed.
Lemma small_val z : (Z.abs z <= 2 ^ 24)%Z -> fin (f32_of_Z z) = true /\ val (f32_of_Z z) = IZR z.
Proof. intros H. apply of_Z_val; [by apply fmt_int|lia]. Qed.

(** ** sign *)
Theorem f32_sign_partial x : Binary.is_nan 24 128 x = false ->
  (f32_lt f0 x = true -> sign x = f1) /\ (f32_lt x f0 = true -> sign x = fm1) /\ (f32_eq x f0 = true -> sign x = f0) /\
  (f32_lt f0 x = true \/ f32_lt x f0 = true \/ f32_eq x f0 = true).
Proof. unfold sign. destruct x as [[]|[]|?|[]]; cbn; try done; naive_solver. Qed.
(** The sign of a NaN is 1. *)
Theorem f32_sign_refuted : exists x, Binary.is_nan 24 128 x = true /\ sign x = f1.
Proof. exists (Binary.B754_nan 24 128 false 1 eq_refl). split; reflexivity. Qed.

(** ** frac *)
Lemma trunc_near r : Rabs (r - IZR (Ztrunc r)) < 1 /\ Rabs (IZR (Ztrunc r)) <= Rabs r /\ 0 <= IZR (Ztrunc r) * r.
Proof.
  destruct (Rlt_le_dec r 0) as [L|G].
  - rewrite (Ztrunc_ceil r) by lra. pose proof (Zceil_ub r). assert (IZR (Zceil r) < r + 1). { pose proof (Zceil_lb r). lra. }
    assert (IZR (Zceil r) <= 0) by (apply IZR_le, Zceil_glb; lra). rewrite !Rabs_left1 by lra. split; [lra|]. split; [lra|nra].
  - rewrite (Ztrunc_floor r) by lra. pose proof (Zfloor_lb r). pose proof (Zfloor_ub r).
    assert (0 <= IZR (Zfloor r)) by (apply IZR_le, Zfloor_lub; lra). rewrite !Rabs_pos_eq by lra. split; [lra|]. split; [lra|nra].
Qed.
Lemma fmt_trunc r : fmt32 r -> fmt32 (IZR (Ztrunc r)).
Proof.
  intros F. destruct (Rlt_le_dec (Rabs r) (bpow radix2 24)) as [L|G].
  - destruct (trunc_near r) as (_ & N & _). apply fmt_int. apply le_IZR. rewrite abs_IZR. change (2 ^ 24)%Z with (Zpower radix2 24). rewrite IZR_Zpower by lia. lra.
  - enough (IZR (Ztrunc r) = r) as -> by done. unfold generic_format in F. rewrite F. set (m := Ztrunc (scaled_mantissa _ _ _)). set (e := cexp _ _ _).
    assert (0 <= e)%Z. { unfold e, cexp, SpecFloat.fexp, SpecFloat.emin. assert (25 <= mag radix2 r)%Z; [|lia]. by apply mag_ge_bpow. }
    unfold F2R. cbn [Fnum Fexp]. rewrite <-IZR_Zpower, <-mult_IZR by done. by rewrite Ztrunc_IZR.
Qed.
Lemma to_int_val w x : fin x = true -> (- 2 ^ (w - 1) <= Ztrunc (val x) < 2 ^ (w - 1))%Z -> to_int w x = Ok (Ztrunc (val x)).
Proof.
  intros F H. unfold to_int. rewrite F. assert (Binary.Btrunc 24 128 x = Ztrunc (val x)) as ->.
  { apply eq_IZR. rewrite Btrunc_correct by reflexivity. by rewrite round_FIX_IZR. }
  cbn zeta. assert ((- 2 ^ (w - 1) <=? Ztrunc (val x))%Z = true) as -> by (apply Z.leb_le; lia). by assert ((Ztrunc (val x) <? 2 ^ (w - 1))%Z = true) as -> by (apply Z.ltb_lt; lia).
Qed.
(** The fraction is exact, smaller than one and has the sign of the number. *)
Theorem f32_frac_partial x : fin x = true -> Rabs (val x) < bpow radix2 63 ->
  exists r, frac x = Ok r /\ fin r = true /\ (exists z : Z, val x = IZR z + val r /\ 0 <= IZR z * val x /\ Rabs (IZR z) <= Rabs (val x)) /\ Rabs (val r) < 1.
Proof.
  intros F H. destruct (trunc_near (val x)) as (N1 & N2 & N3).
  assert (Z.abs (Ztrunc (val x)) < 2 ^ 63)%Z as B. { apply lt_IZR. rewrite abs_IZR. change (2 ^ 63)%Z with (Zpower radix2 63). rewrite IZR_Zpower by lia. lra. }
  unfold frac. rewrite (to_int_val 64 x F) by lia. cbn [mbind res_bind].
  destruct (of_Z_val (Ztrunc (val x))) as [Fz Vz]; [apply fmt_trunc, fmt_val|lia|].
  destruct (sub_val x (f32_of_Z (Ztrunc (val x))) F Fz) as [Fr Vr]. { rewrite Vz. apply Rle_trans with (bpow radix2 0); [cbn; lra|apply bpow_le; lia]. }
  assert (val (fsub x (f32_of_Z (Ztrunc (val x)))) = val x - IZR (Ztrunc (val x))) as E.
  { rewrite Vr, Vz. apply round_generic; [apply valid_rnd_N|]. pose proof (format_REM_ZR radix2 (SpecFloat.fexp 24 128) (val x) 1 (fmt_val x) (fmt_int 1 ltac:(lia))) as R. replace (val x / 1) with (val x) in R by field. by rewrite Rmult_1_r in R. }
  eexists. split; [done|]. split; [done|]. rewrite E. split; [|done]. exists (Ztrunc (val x)). split; [ring|done].
Qed.
(** Infinities, NaN and numbers beyond 2^63 are undefined. *)
Theorem f32_frac_refuted : frac (Binary.B754_infinity 24 128 false) = UB /\ (exists x, fin x = true /\ f32_lt f0 x = true /\ frac x = UB).
Proof. split; [reflexivity|]. exists (f32_of_Z (2 ^ 63)). vm_compute. done. Qed.

(** ** smoothstep *)
Lemma val0 : fin f0 = true /\ val f0 = 0.
Proof. done. Qed.
Lemma val1 : fin f1 = true /\ val f1 = 1.
Proof. by apply (small_val 1). Qed.
Lemma clamp_unit q : let t := clamp q f0 f1 in fin t = true /\ 0 <= val t <= 1.
Proof.
  destruct val0 as [F0 V0], val1 as [F1 V1]. cbn zeta. unfold clamp, fmin2, fmax2. destruct (f32_lt f0 q) eqn:E0.
  - destruct (f32_lt q f1) eqn:E1; [|rewrite V1; split; [done|lra]]. assert (fin q = true) as Fq.
    { destruct q as [[]|[]|?|[]]; try done. }
    apply (f32_lt_finite _ _ F0 Fq) in E0. apply (f32_lt_finite _ _ Fq F1) in E1. split; [done|lra].
  - destruct (f32_lt f0 f1) eqn:E1; [|rewrite V1; split; [done|lra]]. rewrite V0. split; [done|lra].
Qed.
Lemma rnd_le b r : fmt32 b -> r <= b -> rnd32 r <= b.
Proof. intros. by apply round_le_generic; [apply valid32|apply valid_rnd_N|..]. Qed.
Lemma rnd_ge b r : fmt32 b -> b <= r -> b <= rnd32 r.
Proof. intros. by apply round_ge_generic; [apply valid32|apply valid_rnd_N|..]. Qed.
Lemma big_bpow r : Rabs r <= 1000 -> Rabs r <= bpow radix2 127.
Proof. intros H. apply Rle_trans with (bpow radix2 10); [change (bpow radix2 10) with 1024; lra|apply bpow_le; lia]. Qed.
(** The polynomial, for a number between 0 and 1 *)
Definition poly (t : binary32) : binary32 := fmul (fmul t t) (fsub f3 (fmul f2 t)).
Lemma poly_parts t : fin t = true -> 0 <= val t <= 1 ->
  fin (fmul t t) = true /\ val (fmul t t) = rnd32 (val t * val t) /\ fin (fsub f3 (fmul f2 t)) = true /\ val (fsub f3 (fmul f2 t)) = rnd32 (3 - 2 * val t).
Proof.
  intros F H. destruct (small_val 2 ltac:(lia)) as [F2 V2], (small_val 3 ltac:(lia)) as [F3 V3]. fold f2 in F2, V2. fold f3 in F3, V3.
  destruct (mul_val t t F F) as [Fa Va]; [apply big_bpow; rewrite Rabs_pos_eq; nra|]. destruct (mul_val f2 t F2 F) as [Fb Vb]; [apply big_bpow; rewrite V2, Rabs_pos_eq; nra|].
  assert (val (fmul f2 t) = 2 * val t) as Eb.
  { rewrite Vb, V2. apply round_generic; [apply valid_rnd_N|]. pose proof (fmt_val t) as Ft. destruct (Req_dec (val t) 0) as [E|N]; [rewrite E, Rmult_0_r; apply generic_format_0|].
    rewrite Rmult_comm. change 2 with (bpow radix2 1). by apply (mult_bpow_pos_exact_FLT radix2 (-149) 24 (val t) 1). }
  destruct (sub_val f3 (fmul f2 t) F3 Fb) as [Fc Vc]; [apply big_bpow; rewrite V3, Eb, Rabs_pos_eq; lra|]. rewrite V3, Eb in Vc. done.
Qed.
Lemma exact_c t : 1 / 2 <= val t -> 0 <= val t <= 1 -> rnd32 (3 - 2 * val t) = 3 - 2 * val t.
Proof.
  intros G H. apply round_generic; [apply valid_rnd_N|]. destruct (Req_dec (val t) (1 / 2)) as [->|N]; [replace (3 - 2 * (1 / 2)) with 2 by lra; by apply (fmt_int 2)|].
  assert (exists k, val t = IZR k * bpow radix2 (-24)) as [k Ek].
  { pose proof (fmt_val t) as F. unfold generic_format in F. set (m := Ztrunc (scaled_mantissa _ _ _)) in F. set (e := cexp _ _ _) in F. assert (-24 <= e)%Z.
    { unfold e, cexp, SpecFloat.fexp, SpecFloat.emin. assert (0 <= mag radix2 (val t))%Z; [|lia]. apply (mag_ge_bpow radix2 (val t) 0). rewrite Rabs_pos_eq by lra. change (bpow radix2 (0 - 1)) with (/ 2). lra. }
    exists (m * Zpower radix2 (e + 24))%Z. rewrite F. unfold F2R. cbn [Fnum Fexp]. rewrite mult_IZR, IZR_Zpower by lia. rewrite Rmult_assoc, <-bpow_plus. do 2 f_equal. lia. }
  assert (3 - 2 * val t = F2R (Float radix2 (3 * 2 ^ 23 - k) (-23))) as E.
  { unfold F2R. cbn [Fnum Fexp]. rewrite minus_IZR. rewrite Ek. change (bpow radix2 (-24)) with (/ 16777216). change (bpow radix2 (-23)) with (/ 8388608). change (IZR (3 * 2 ^ 23)) with (25165824). field. }
  rewrite E. apply generic_format_F2R. intros _. rewrite <-E. unfold cexp, SpecFloat.fexp, SpecFloat.emin. assert (mag radix2 (3 - 2 * val t) <= 1)%Z; [|lia].
  apply mag_le_bpow; [lra|]. rewrite Rabs_pos_eq by lra. change (bpow radix2 1) with 2. lra.
Qed.
Lemma near_a t : 0 <= val t <= 1 -> rnd32 (val t * val t) <= val t * val t + bpow radix2 (-25).
Proof.
  intros H. pose proof (bpow_gt_0 radix2 (-25)). destruct (Req_dec (val t) 1) as [->|N].
  { rewrite Rmult_1_l, round_generic; [lra|apply valid_rnd_N|by apply (fmt_int 1)]. }
  destruct (Req_dec (val t) 0) as [->|N0]. { rewrite Rmult_0_l, round_0 by apply valid_rnd_N. lra. }
  pose proof (error_le_half_ulp radix2 (SpecFloat.fexp 24 128) (fun x => negb (Z.even x)) (val t * val t)) as E. rewrite ulp_neq_0 in E by nra.
  assert (bpow radix2 (cexp radix2 (SpecFloat.fexp 24 128) (val t * val t)) <= bpow radix2 (-24)) as U.
  { apply bpow_le. unfold cexp, SpecFloat.fexp, SpecFloat.emin. assert (mag radix2 (val t * val t) <= 0)%Z; [|lia]. apply mag_le_bpow; [nra|]. rewrite Rabs_pos_eq by nra. change (bpow radix2 0) with 1. nra. }
  change (bpow radix2 (-24)) with (/ 16777216) in U. change (bpow radix2 (-25)) with (/ 33554432). change (round_mode mode_NE) with (Znearest (fun x => negb (Z.even x))).
  apply Rabs_le_inv in E. lra.
Qed.
Lemma poly_unit t : fin t = true -> 0 <= val t <= 1 -> fin (poly t) = true /\ 0 <= val (poly t) <= 1.
Proof.
  intros F H. destruct (poly_parts t F H) as (Fa & Va & Fc & Vc).
  assert (0 <= rnd32 (val t * val t)) as A0 by (apply rnd_ge; [apply generic_format_0|nra]).
  assert (1 <= rnd32 (3 - 2 * val t) <= 3) as C0 by (split; [apply rnd_ge; [by apply (fmt_int 1)|lra]|apply rnd_le; [by apply (fmt_int 3)|lra]]).
  assert (rnd32 (val t * val t) <= 1) as A1 by (apply rnd_le; [by apply (fmt_int 1)|nra]).
  destruct (mul_val _ _ Fa Fc) as [Fr Vr]; [rewrite Va, Vc; apply big_bpow; rewrite Rabs_pos_eq; nra|]. split; [exact Fr|]. unfold poly. rewrite Vr, Va, Vc.
  split; [apply rnd_ge; [apply generic_format_0|nra]|].
  destruct (Rlt_le_dec (val t) (1 / 2)) as [L|G].
  - assert (rnd32 (val t * val t) <= 1 / 4). { apply rnd_le; [|nra]. replace (1 / 4) with (bpow radix2 (-2)) by (change (bpow radix2 (-2)) with (/ 4); lra). apply generic_format_bpow. unfold SpecFloat.fexp, SpecFloat.emin. lia. }
    apply rnd_le; [by apply (fmt_int 1)|nra].
  - assert (rnd32 (3 - 2 * val t) = 3 - 2 * val t) as -> by (by apply exact_c).
    assert (rnd32 (val t * val t) <= val t * val t + bpow radix2 (-25)) as A2 by (by apply near_a).
    apply round_N_le_midp; [apply valid32|by apply (fmt_int 1)|]. rewrite succ_eq_pos, (ulp_bpow radix2 _ 0) by lra. change (bpow radix2 (SpecFloat.fexp 24 128 (0 + 1))) with (/ 8388608). change (bpow radix2 (-25)) with (/ 33554432) in A2.
    clear -G H A0 A2. set (a := rnd32 _) in *. clearbody a. set (t' := val t) in *. clearbody t'. set (e := / 33554432) in *. assert (/ 8388608 = 4 * e) as -> by (unfold e; lra). assert (0 < e < 1) by (unfold e; lra). clearbody e.
    assert (a * (3 - 2 * t') <= (t' * t' + e) * (3 - 2 * t')) by (apply Rmult_le_compat_r; lra). set (u := 1 - t'). assert (t' = 1 - u) as Et by (unfold u; ring). assert (0 <= u <= 1 / 2) by lra. clearbody u. subst t'.
    assert ((u * u) * (2 * u) <= (u * u) * 1) by (apply Rmult_le_compat_l; nra). assert (0 <= (2 * u - e) * (2 * u - e)) as S by apply Rle_0_sqr. assert (e * e < e * 1) by (apply Rmult_lt_compat_l; lra).
    assert ((2 * u - e) * (2 * u - e) = 4 * (u * u) - 4 * (e * u) + e * e) as ES by ring. assert (((1 - u) * (1 - u) + e) * (3 - 2 * (1 - u)) = 1 - 3 * (u * u) + (u * u) * (2 * u) + e + 2 * (e * u)) as EP by ring. lra.
Qed.
(** Whatever the arguments, infinities and NaN too, the result is a number between 0 and 1. *)
Theorem f32_smoothstep_range e0 e1 x : fin (smoothstep e0 e1 x) = true /\ 0 <= val (smoothstep e0 e1 x) <= 1.
Proof. unfold smoothstep. destruct (clamp_unit (fdiv (fsub x e0) (fsub e1 e0))) as [F H]. by apply poly_unit. Qed.
Lemma poly_val t : fin t = true -> 0 <= val t <= 1 -> val (poly t) = rnd32 (rnd32 (val t * val t) * rnd32 (3 - 2 * val t)).
Proof.
  intros F H. destruct (poly_parts t F H) as (Fa & Va & Fc & Vc).
  assert (0 <= rnd32 (val t * val t)) as A0 by (apply rnd_ge; [apply generic_format_0|nra]).
  assert (1 <= rnd32 (3 - 2 * val t) <= 3) as C0 by (split; [apply rnd_ge; [by apply (fmt_int 1)|lra]|apply rnd_le; [by apply (fmt_int 3)|lra]]).
  assert (rnd32 (val t * val t) <= 1) as A1 by (apply rnd_le; [by apply (fmt_int 1)|nra]).
  destruct (mul_val _ _ Fa Fc) as [Fr Vr]; [rewrite Va, Vc; apply big_bpow; rewrite Rabs_pos_eq; nra|]. by rewrite <-Va, <-Vc.
Qed.
Lemma sign_val x : fin x = true -> (val x < 0 -> Binary.Bsign 24 128 x = true) /\ (0 < val x -> Binary.Bsign 24 128 x = false).
Proof.
  destruct x as [s| | |s m e Hm]; try done; intros _; [cbn; split; lra|]. cbn [Binary.B2R Binary.Bsign]. destruct s; cbn [SpecFloat.cond_Zopp]; split; try done; intros H.
  - exfalso. apply (Rlt_asym _ _ H). by apply F2R_lt_0.
  - exfalso. apply (Rlt_asym _ _ H). by apply F2R_gt_0.
Qed.
Lemma div_unit n d : fin n = true -> fin d = true -> 0 < val d ->
  (val n <= 0 -> f32_lt f0 (fdiv n d) = false) /\ (val d <= val n -> f32_lt (fdiv n d) f1 = false /\ f32_lt f0 (fdiv n d) = true).
Proof.
  intros Fn Fd Pd. destruct val0 as [F0 V0], val1 as [F1 V1]. pose proof (Bdiv_correct 24 128 eq_refl eq_refl binop_nan_pl32 mode_NE n d ltac:(lra)) as C. destruct (Rlt_bool_spec (Rabs (rnd32 (val n / val d))) (bpow radix2 128)) as [L|G].
  - destruct C as (C1 & C2 & _). fold (b32_div mode_NE n d) in C1, C2. fold (fdiv n d) in C1, C2. rewrite Fn in C2. split; intros H.
    + apply not_true_iff_false. rewrite (f32_lt_finite _ _ F0 C2), V0, C1. apply Rle_not_lt, rnd_le; [apply generic_format_0|]. apply Rmult_le_reg_r with (val d); [done|]. field_simplify; lra.
    + assert (1 <= rnd32 (val n / val d)) as Q. { apply rnd_ge; [by apply (fmt_int 1)|]. apply Rmult_le_reg_r with (val d); [done|]. field_simplify; lra. }
      split; [apply not_true_iff_false; rewrite (f32_lt_finite _ _ C2 F1)|rewrite (f32_lt_finite _ _ F0 C2)]; rewrite C1; lra.
  - assert (val n <> 0) as Nn. { intros E. rewrite E in G. unfold Rdiv in G. rewrite Rmult_0_l, round_0, Rabs_R0 in G by apply valid_rnd_N. pose proof (bpow_gt_0 radix2 128). lra. }
    destruct (sign_val n Fn) as [S1 S2], (sign_val d Fd) as [_ S3]. rewrite (S3 Pd) in C. cbn [xorb] in C. fold (b32_div mode_NE n d) in C. fold (fdiv n d) in C.
    split; intros H.
    + rewrite S1 in C by lra. cbn in C. destruct (fdiv n d) as [|[]| |]; done.
    + rewrite S2 in C by lra. cbn in C. destruct (fdiv n d) as [|[]| |]; done.
Qed.
(** At and outside the edges. *)
Theorem f32_smoothstep_edges_partial e0 e1 x : fin e0 = true -> fin e1 = true -> fin x = true ->
  Rabs (val e0) <= bpow radix2 126 -> Rabs (val e1) <= bpow radix2 126 -> Rabs (val x) <= bpow radix2 126 -> val e0 < val e1 ->
  (val x <= val e0 -> val (smoothstep e0 e1 x) = 0) /\ (val e1 <= val x -> val (smoothstep e0 e1 x) = 1).
Proof.
  intros F0 F1 Fx B0 B1 Bx L. assert (bpow radix2 127 = bpow radix2 126 + bpow radix2 126) as E127 by (change 127%Z with (126 + 1)%Z; rewrite bpow_plus; change (bpow radix2 1) with 2; ring).
  apply Rabs_le_inv in B0, B1, Bx.
  destruct (sub_val x e0 Fx F0) as [Fn Vn]; [apply Rabs_le; lra|]. destruct (sub_val e1 e0 F1 F0) as [Fd Vd]; [apply Rabs_le; lra|].
  assert (0 < val (fsub e1 e0)) as Pd.
  { rewrite Vd. assert (0 <= rnd32 (val e1 - val e0)) by (apply rnd_ge; [apply generic_format_0|lra]). assert (rnd32 (val e1 - val e0) <> 0); [|lra].
    unfold Rminus. apply round_plus_neq_0; [apply valid32|apply monotone_exp_not_FTZ; [apply valid32|apply mono32]|apply valid_rnd_N|apply fmt_val|apply generic_format_opp, fmt_val|lra]. }
  destruct (div_unit _ _ Fn Fd Pd) as [D0 D1]. fold (smoothstep e0 e1 x). unfold smoothstep. set (q := fdiv _ _) in *.
  destruct val0 as [Z0 V0], val1 as [Z1 V1]. split; intros H.
  - assert (clamp q f0 f1 = f0) as ->. { unfold clamp, fmax2. rewrite D0. { unfold fmin2. assert (f32_lt f0 f1 = true) as -> by (apply (f32_lt_finite _ _ Z0 Z1); lra). done. } rewrite Vn. apply rnd_le; [apply generic_format_0|lra]. }
    fold (poly f0). rewrite poly_val, V0 by (rewrite ?V0; done || lra). rewrite Rmult_0_l, round_0, Rmult_0_l, round_0 by apply valid_rnd_N. done.
  - destruct D1 as [D1 D2]. { rewrite Vn, Vd. apply round_le; [apply valid32|apply valid_rnd_N|lra]. }
    assert (clamp q f0 f1 = f1) as ->. { unfold clamp, fmax2. rewrite D2. unfold fmin2. by rewrite D1. }
    fold (poly f1). rewrite poly_val, V1 by (rewrite ?V1; done || lra). replace (3 - 2 * 1) with 1 by lra. rewrite Rmult_1_l. rewrite !(round_generic radix2 _ _ 1), Rmult_1_l, !(round_generic radix2 _ _ 1); first [apply (fmt_int 1); lia|done].
Qed.
(** Far edges overflow: past the upper edge the result is 0. *)
Theorem f32_smoothstep_edges_refuted : exists e0 e1 x, fin e0 = true /\ fin e1 = true /\ fin x = true /\ f32_lt e0 e1 = true /\ f32_lt e1 x = true /\ f32_eq (smoothstep e0 e1 x) f0 = true.
Proof. exists (f32_of_Z (- 2 ^ 127)), (f32_of_Z (2 ^ 127)), (f32_of_Z (2 ^ 127 + 2 ^ 110)). by vm_compute. Qed.
(** It is not monotone: the next number gives a smaller result. *)
Theorem f32_smoothstep_monotone_refuted : exists x y, f32_lt f0 x = true /\ f32_lt x y = true /\ f32_lt y f1 = true /\ f32_lt (smoothstep f0 f1 y) (smoothstep f0 f1 x) = true.
Proof. exists (b32_of_bits 0x3a61b400), (b32_of_bits 0x3a61b401). by vm_compute. Qed.

(** ** lerp *)
Theorem f32_lerp_start_partial s e t : fin s = true -> fin e = true -> fin t = true -> Rabs (val e - val s) <= bpow radix2 127 -> val t = 0 ->
  fin (lerp s e t) = true /\ val (lerp s e t) = val s.
Proof.
  intros Fs Fe Ft B T. destruct (sub_val e s Fe Fs B) as [Fd Vd].
  destruct (mul_val _ t Fd Ft) as [Fm Vm]. { rewrite T, Rmult_0_r, Rabs_R0. apply bpow_ge_0. } rewrite T, Rmult_0_r, round_0 in Vm by apply valid_rnd_N.
  pose proof (Bplus_correct 24 128 eq_refl eq_refl binop_nan_pl32 mode_NE s (fmul (fsub e s) t) Fs Fm) as C. rewrite Vm, Rplus_0_r, round_generic in C by (apply valid_rnd_N || apply fmt_val).
  rewrite Rlt_bool_true in C by apply abs_B2R_lt_emax. by destruct C as (C1 & C2 & _).
Qed.
(** At 1 it need not give the end, and far ends give NaN even at 0. *)
Theorem f32_lerp_end_refuted : exists s e, fin s = true /\ fin e = true /\ f32_eq (lerp s e f1) e = false.
Proof. exists (f32_of_Z (2 ^ 25)), (f32_of_Z 1). by vm_compute. Qed.
Theorem f32_lerp_start_refuted : exists s e, fin s = true /\ fin e = true /\ Binary.is_nan 24 128 (lerp s e f0) = true.
Proof. exists (f32_of_Z (- 2 ^ 127)), (f32_of_Z (2 ^ 127)). by vm_compute. Qed.
(** It grows with the parameter and never falls below the start, whatever is rounded. *)
Theorem f32_lerp_monotone_partial s e t u : fin s = true -> fin e = true -> fin t = true -> fin u = true ->
  val s <= val e -> Rabs (val s) <= bpow radix2 125 -> Rabs (val e) <= bpow radix2 125 -> 0 <= val t <= val u -> val u <= 1 ->
  val s <= val (lerp s e t) <= val (lerp s e u).
Proof.
  intros Fs Fe Ft Fu L Bs Be Ht Hu. assert (bpow radix2 126 = bpow radix2 125 + bpow radix2 125) as E126 by (change 126%Z with (125 + 1)%Z; rewrite bpow_plus; change (bpow radix2 1) with 2; ring).
  assert (bpow radix2 127 = bpow radix2 126 + bpow radix2 126) as E127 by (change 127%Z with (126 + 1)%Z; rewrite bpow_plus; change (bpow radix2 1) with 2; ring).
  pose proof (bpow_gt_0 radix2 125) as P. apply Rabs_le_inv in Bs, Be. assert (fmt32 (bpow radix2 126)) as F126 by (apply generic_format_bpow; unfold SpecFloat.fexp, SpecFloat.emin; lia).
  destruct (sub_val e s Fe Fs) as [Fd Vd]; [apply Rabs_le; lra|]. assert (0 <= val (fsub e s) <= bpow radix2 126) as Hd by (rewrite Vd; split; [apply rnd_ge; [apply generic_format_0|lra]|apply rnd_le; [done|lra]]).
  assert (forall v, fin v = true -> 0 <= val v <= 1 -> fin (fmul (fsub e s) v) = true /\ val (fmul (fsub e s) v) = rnd32 (val (fsub e s) * val v) /\ 0 <= rnd32 (val (fsub e s) * val v) <= bpow radix2 126) as M.
  { intros v Fv Hv. assert (0 <= val (fsub e s) * val v <= bpow radix2 126) as B by (split; [nra|]; apply Rle_trans with (val (fsub e s) * 1); [apply Rmult_le_compat_l; lra|lra]).
    destruct (mul_val (fsub e s) v Fd Fv) as [Fm Vm]; [rewrite Rabs_pos_eq; lra|]. split; [done|]. split; [done|]. split; [apply rnd_ge; [apply generic_format_0|lra]|apply rnd_le; [done|lra]]. }
  destruct (M t Ft ltac:(lra)) as (Fm & Vm & Bm), (M u Fu ltac:(lra)) as (Fn & Vn & Bn).
  destruct (add_val s (fmul (fsub e s) t) Fs Fm) as [_ A1]; [rewrite Vm; apply Rabs_le; lra|]. destruct (add_val s (fmul (fsub e s) u) Fs Fn) as [_ A2]; [rewrite Vn; apply Rabs_le; lra|].
  unfold lerp. rewrite A1, A2, Vm, Vn. split; [apply rnd_ge; [apply fmt_val|lra]|]. apply round_le; [apply valid32|apply valid_rnd_N|]. apply Rplus_le_compat_l. apply round_le; [apply valid32|apply valid_rnd_N|]. apply Rmult_le_compat_l; lra.
Qed.
(** It may pass the end. *)
Theorem f32_lerp_between_refuted : exists s e, f32_lt s e = true /\ f32_lt e (lerp s e f1) = true.
Proof. exists (b32_of_bits 0xbf800001), (b32_of_bits 0x33a00000). by vm_compute. Qed.

(** ** Vect::as *)
Lemma each_ok {A B} (f : A -> res B) (g : A -> B) v : Forall (fun a => f a = Ok (g a)) v -> each f v = Ok (g <$> v).
Proof. induction 1 as [|a v E _ IH]; [done|]. cbn. rewrite E. cbn [mbind res_bind]. rewrite IH. done. Qed.
(** Integers up to 2^24 survive the way to f32 and back. *)
Theorem vect_as_roundtrip_partial v : Forall (fun z => Z.abs z <= 2 ^ 24)%Z v ->
  exists w, as_f32 v = Ok w /\ (val <$> w) = (IZR <$> v) /\ as_i32 w = Ok v.
Proof.
  intros H. exists (f32_of_Z <$> v). split; [by apply each_ok, Forall_forall|]. split.
  { induction H as [|z v Hz _ IH]; [done|]. cbn. destruct (small_val z Hz) as [_ ->]. f_equal. exact IH. }
  unfold as_i32. rewrite (each_ok (to_int 32) (fun x => Ztrunc (val x))).
  - f_equal. rewrite <-list_fmap_compose. induction H as [|z v Hz _ IH]; [done|]. cbn. destruct (small_val z Hz) as [_ ->]. rewrite Ztrunc_IZR. f_equal. exact IH.
  - apply Forall_fmap. eapply Forall_impl; [exact H|]. intros z Hz. cbn beta in Hz. destruct (small_val z Hz) as [F V]. cbn. apply to_int_val; [done|]. rewrite V, Ztrunc_IZR. change (2 ^ (32 - 1))%Z with 2147483648%Z. change (2 ^ 24)%Z with 16777216%Z in Hz. lia.
Qed.
(** Any float whose whole part is an i32 becomes that whole part. *)
Theorem vect_as_truncates v : Forall (fun x => fin x = true /\ - bpow radix2 31 - 1 < val x < bpow radix2 31) v ->
  exists w, as_i32 v = Ok w /\ Forall2 (fun x z => Rabs (val x - IZR z) < 1 /\ Rabs (IZR z) <= Rabs (val x) /\ 0 <= IZR z * val x) v w.
Proof.
  intros H. exists ((fun x => Ztrunc (val x)) <$> v). split.
  - apply each_ok. eapply Forall_impl; [exact H|]. intros x [F B]. cbn. apply to_int_val; [done|]. change (bpow radix2 31) with 2147483648 in B. change (2 ^ (32 - 1))%Z with 2147483648%Z.
    destruct (Rlt_le_dec (val x) 0) as [L|G].
    + rewrite Ztrunc_ceil by lra. split; [|apply lt_IZR; assert (IZR (Zceil (val x)) <= 0) by (apply IZR_le, Zceil_glb; lra); lra]. apply le_IZR. pose proof (Zceil_ub (val x)).
      apply IZR_le. assert (-2147483649 < Zceil (val x))%Z; [|lia]. apply lt_IZR. lra.
    + rewrite Ztrunc_floor by lra. pose proof (Zfloor_lb (val x)). split; [assert (0 <= Zfloor (val x))%Z by (apply Zfloor_lub; lra); lia|]. apply lt_IZR. lra.
  - apply Forall2_fmap_r, Forall_Forall2_diag, Forall_forall. intros x _. apply trunc_near.
Qed.
(** Beyond: 2^24 + 1 does not survive, and a float too large is undefined. *)
Theorem vect_as_refuted : (exists w, as_f32 [2 ^ 24 + 1]%Z = Ok w /\ as_i32 w = Ok [2 ^ 24]%Z) /\ as_i32 [f32_of_Z (2 ^ 31)] = UB /\ (exists w, as_f32 [2 ^ 31 - 1]%Z = Ok w /\ as_i32 w = UB).
Proof. split; [by eexists|]. split; [by vm_compute|by eexists]. Qed.
(** Signed and unsigned integers survive both ways. *)
Theorem vect_as_signs v : (Forall (is_i 32) v -> exists w, i32_as_u32 v = Ok w /\ Forall (is_u 32) w /\ u32_as_i32 w = Ok v) /\
  (Forall (is_u 32) v -> exists w, u32_as_i32 v = Ok w /\ Forall (is_i 32) w /\ i32_as_u32 w = Ok v).
Proof.
  assert (forall z, is_u 32 (wrap 32 z)) as W by (intros z; unfold is_u, wrap; apply Z.mod_pos_bound; lia).
  assert (forall z, is_i 32 (to_signed 32 z)) as S. { intros z. pose proof (W z) as H. unfold is_u in H. unfold is_i, to_signed. destruct (Z.ltb_spec (wrap 32 z) (2 ^ (32 - 1))); lia. }
  split; intros H.
  - exists (wrap 32 <$> v). split; [by apply each_ok, Forall_forall|]. split; [apply Forall_fmap, Forall_forall; intros; apply W|]. unfold u32_as_i32. rewrite (each_ok _ (to_signed 32)) by (by apply Forall_forall). f_equal.
    induction H as [|z v Hz _ IH]; [done|]. cbn. f_equal; [|exact IH]. unfold is_i in Hz. unfold to_signed, wrap. rewrite Zmod_mod. destruct (Z.ltb_spec (z mod 2 ^ 32) (2 ^ (32 - 1))) as [L|G]; lia.
  - exists (to_signed 32 <$> v). split; [by apply each_ok, Forall_forall|]. split; [apply Forall_fmap, Forall_forall; intros; apply S|]. unfold i32_as_u32. rewrite (each_ok _ (wrap 32)) by (by apply Forall_forall). f_equal.
    induction H as [|z v Hz _ IH]; [done|]. cbn. f_equal; [|exact IH]. unfold is_u in Hz. unfold to_signed, wrap. destruct (Z.ltb_spec (z mod 2 ^ 32) (2 ^ (32 - 1))) as [L|G]; lia.
Qed.

(** ** Cases that meet the hypotheses *)
Example frac_ex : fin (b32_of_bits 0xc0300000) = true /\ Rabs (val (b32_of_bits 0xc0300000)) < bpow radix2 63 /\
  match frac (b32_of_bits 0xc0300000) with Ok r => bits_of_b32 r = 0xbf400000%Z | _ => False end.   (* frac(-2.75) = -0.75 *)
Proof.
  destruct (small_val (-3) ltac:(lia)) as [F3 V3]. split; [done|]. split; [|by vm_compute]. assert (val (f32_of_Z (-3)) < val (b32_of_bits 0xc0300000)) as L by (apply f32_lt_finite; [done|done|by vm_compute]).
  assert (val (b32_of_bits 0xc0300000) < val f0) as G by (apply f32_lt_finite; [done|done|by vm_compute]). destruct val0 as [_ V0]. rewrite V0 in G. rewrite V3 in L. set (v := val _) in *. clearbody v.
  apply Rlt_trans with (bpow radix2 3); [|apply bpow_lt; lia]. change (bpow radix2 3) with 8. apply Rabs_def1; lra.
Qed.
Example smoothstep_ex : let e0 := f32_of_Z 1 in let e1 := f32_of_Z 3 in
  fin e0 = true /\ fin e1 = true /\ val e0 < val e1 /\ f32_eq (smoothstep e0 e1 (f32_of_Z 0)) f0 = true /\ f32_eq (smoothstep e0 e1 (f32_of_Z 4)) f1 = true /\ bits_of_b32 (smoothstep e0 e1 (f32_of_Z 2)) = 0x3f000000%Z.
Proof. destruct (small_val 1 ltac:(lia)) as [F1 V1], (small_val 3 ltac:(lia)) as [F3 V3]. cbn zeta. split; [done|]. split; [done|]. split; [rewrite V1, V3; lra|]. by vm_compute. Qed.
Example lerp_ex : let s := f32_of_Z (-4) in let e := f32_of_Z 12 in
  val s <= val e /\ Rabs (val s) <= bpow radix2 125 /\ Rabs (val e) <= bpow radix2 125 /\ bits_of_b32 (lerp s e (b32_of_bits 0x3e800000)) = 0%Z /\ bits_of_b32 (lerp s e (b32_of_bits 0x3f000000)) = 0x40800000%Z.
Proof.
  destruct (small_val (-4) ltac:(lia)) as [F1 V1], (small_val 12 ltac:(lia)) as [F3 V3]. cbn zeta. rewrite V1, V3. split; [lra|].
  assert (16 <= bpow radix2 125) by (change 16 with (bpow radix2 4); apply bpow_le; lia). split; [apply Rabs_le; lra|]. split; [apply Rabs_le; lra|]. by vm_compute.
Qed.
Example as_ex : as_i32 [b32_of_bits 0xc0300000; f32_of_Z 7] = Ok [-2; 7]%Z /\ i32_as_u32 [-1; 5]%Z = Ok [2 ^ 32 - 1; 5]%Z.
Proof. by vm_compute. Qed.
Print Assumptions f32_sign_partial.
Print Assumptions f32_sign_refuted.
Print Assumptions f32_frac_partial.
Print Assumptions f32_frac_refuted.
Print Assumptions f32_smoothstep_range.
Print Assumptions f32_smoothstep_edges_partial.
Print Assumptions f32_smoothstep_edges_refuted.
Print Assumptions f32_smoothstep_monotone_refuted.
Print Assumptions f32_lerp_start_partial.
Print Assumptions f32_lerp_end_refuted.
Print Assumptions f32_lerp_start_refuted.
Print Assumptions f32_lerp_monotone_partial.
Print Assumptions f32_lerp_between_refuted.
Print Assumptions vect_as_roundtrip_partial.
Print Assumptions vect_as_truncates.
Print Assumptions vect_as_refuted.
Print Assumptions vect_as_signs.
