(** C100: boxes of f32, with rounding. *)
From Flocq Require Import IEEE754.BinarySingleNaN IEEE754.Binary IEEE754.Bits.
From Verif Require Import Base Word F32 VectModel VectProps FloatModel FloatProps.
From Coq Require Import Reals Lra.
From Flocq Require Import Core.
From Verif Require Import Mat4Model BBoxModel BBoxSpec BBoxProps BoxFloatModel BoxFloatSpec.
Open Scope R_scope.

Local Instance valid32 : Valid_exp (SpecFloat.fexp 24 128).
Proof. apply fexp_correct; reflexivity. Qed.
Notation "a ⊕ b" := (fadd a b) (at level 50, left associativity).
Notation "a ⊗ b" := (fmul a b) (at level 40, left associativity).

(** ** Operations with a finite result *)
Lemma add_fin x y : fin (x ⊕ y) = true -> fin x = true /\ fin y = true.
Proof. destruct x as [[]|[]|?|[]], y as [[]|[]|?|[]]; cbn; done. Qed.
Lemma mul_fin x y : fin (x ⊗ y) = true -> fin x = true /\ fin y = true.
Proof. destruct x as [[]|[]|?|[]], y as [[]|[]|?|[]]; cbn; done. Qed.
Lemma add_cases x y : fin x = true -> fin y = true ->
  (Rabs (rnd32 (val x + val y)) < bpow radix2 128 /\ fin (x ⊕ y) = true /\ val (x ⊕ y) = rnd32 (val x + val y)) \/
  (bpow radix2 128 <= Rabs (rnd32 (val x + val y)) /\ fin (x ⊕ y) = false /\ x ⊕ y = Binary.B754_infinity 24 128 (Binary.Bsign 24 128 x) /\ Binary.Bsign 24 128 x = Binary.Bsign 24 128 y).
Proof.
  intros Fx Fy. pose proof (Bplus_correct 24 128 eq_refl eq_refl binop_nan_pl32 mode_NE x y Fx Fy) as C. revert C. destruct (Rlt_bool_spec (Rabs (rnd32 (val x + val y))) (bpow radix2 128)) as [L|L]; intros C.
  - left. by destruct C as (C1 & C2 & _).
  - right. destruct C as [C1 C2]. split; [done|]. assert (x ⊕ y = Binary.B754_infinity 24 128 (Binary.Bsign 24 128 x)) as E; [|by rewrite E]. apply B2FF_inj. exact C1.
Qed.
Lemma mul_cases x y : fin x = true -> fin y = true ->
  (Rabs (rnd32 (val x * val y)) < bpow radix2 128 /\ fin (x ⊗ y) = true /\ val (x ⊗ y) = rnd32 (val x * val y)) \/
  (bpow radix2 128 <= Rabs (rnd32 (val x * val y)) /\ fin (x ⊗ y) = false /\ x ⊗ y = Binary.B754_infinity 24 128 (xorb (Binary.Bsign 24 128 x) (Binary.Bsign 24 128 y))).
Proof.
  intros Fx Fy. pose proof (Bmult_correct 24 128 eq_refl eq_refl binop_nan_pl32 mode_NE x y) as C. revert C. destruct (Rlt_bool_spec (Rabs (rnd32 (val x * val y))) (bpow radix2 128)) as [L|L]; intros C.
  - left. destruct C as (C1 & C2 & _). rewrite Fx, Fy in C2. done.
  - right. split; [done|]. assert (x ⊗ y = Binary.B754_infinity 24 128 (xorb (Binary.Bsign 24 128 x) (Binary.Bsign 24 128 y))) as E; [|by rewrite E]. apply B2FF_inj. exact C.
Qed.
Lemma add_rnd x y : fin (x ⊕ y) = true -> val (x ⊕ y) = rnd32 (val x + val y) /\ Rabs (rnd32 (val x + val y)) < bpow radix2 128.
Proof. intros F. destruct (add_fin _ _ F) as [Fx Fy]. destruct (add_cases x y Fx Fy) as [(L & _ & E)|(_ & N & _)]; [done|congruence]. Qed.
Lemma mul_rnd x y : fin (x ⊗ y) = true -> val (x ⊗ y) = rnd32 (val x * val y) /\ Rabs (rnd32 (val x * val y)) < bpow radix2 128.
Proof. intros F. destruct (mul_fin _ _ F) as [Fx Fy]. destruct (mul_cases x y Fx Fy) as [(L & _ & E)|(_ & N & _)]; [done|congruence]. Qed.
Lemma rnd_mono a b : a <= b -> rnd32 a <= rnd32 b.
Proof. apply round_le; [apply valid32|apply valid_rnd_N]. Qed.
Lemma between_abs a x b m : a <= x <= b -> Rabs a < m -> Rabs b < m -> Rabs x < m.
Proof. intros H A B. apply Rabs_def2 in A, B. apply Rabs_def1; lra. Qed.
Lemma add_between a x b c y d : fin x = true -> fin y = true -> val a <= val x <= val b -> val c <= val y <= val d -> fin (a ⊕ c) = true -> fin (b ⊕ d) = true ->
  fin (x ⊕ y) = true /\ val (a ⊕ c) <= val (x ⊕ y) <= val (b ⊕ d).
Proof.
  intros Fx Fy H1 H2 F1 F2. destruct (add_rnd _ _ F1) as [-> L1]. destruct (add_rnd _ _ F2) as [-> L2].
  assert (rnd32 (val a + val c) <= rnd32 (val x + val y) <= rnd32 (val b + val d)) as B by (split; apply rnd_mono; lra).
  destruct (add_cases x y Fx Fy) as [(_ & F & ->)|(L & _)]; [done|]. pose proof (between_abs _ _ _ _ B L1 L2). lra.
Qed.
Lemma mul_between t l x h : fin x = true -> val l <= val x <= val h -> fin (t ⊗ l) = true -> fin (t ⊗ h) = true ->
  fin (t ⊗ x) = true /\ (val (t ⊗ l) <= val (t ⊗ x) <= val (t ⊗ h) \/ val (t ⊗ h) <= val (t ⊗ x) <= val (t ⊗ l)).
Proof.
  intros Fx H F1 F2. destruct (mul_rnd _ _ F1) as [-> L1]. destruct (mul_rnd _ _ F2) as [-> L2]. destruct (mul_fin _ _ F1) as [Ft _].
  assert (rnd32 (val t * val l) <= rnd32 (val t * val x) <= rnd32 (val t * val h) \/ rnd32 (val t * val h) <= rnd32 (val t * val x) <= rnd32 (val t * val l)) as B.
  { destruct (Rle_lt_dec 0 (val t)); [left|right]; split; apply rnd_mono; nra. }
  destruct (mul_cases t x Ft Fx) as [(_ & F & ->)|(L & _)]; [done|]. destruct B as [B|B]; [pose proof (between_abs _ _ _ _ B L1 L2)|pose proof (between_abs _ _ _ _ B L2 L1)]; lra.
Qed.
Lemma rnd_val x : rnd32 (val x) = val x.
Proof. apply round_generic; [apply valid_rnd_N|apply fmt_val]. Qed.
Lemma val_bound x : Rabs (val x) < bpow radix2 128.
Proof. apply abs_B2R_lt_emax. Qed.
Lemma val_max x : - FLT_MAX <= val x <= FLT_MAX.
Proof.
  pose proof (abs_B2R_le_emax_minus_prec 24 128 eq_refl x) as H. apply Rabs_le_inv in H. change (bpow radix2 128 - bpow radix2 (128 - 24)) with (IZR (2 ^ 128) - IZR (2 ^ 104)) in H. rewrite <- minus_IZR in H.
  change FLT_MAX with (IZR (2 ^ 128 - 2 ^ 104)). lra.
Qed.
Lemma zero_mul t x : fin t = true -> fin x = true -> val t = 0 -> fin (t ⊗ x) = true /\ val (t ⊗ x) = 0.
Proof.
  intros Ft Fx Z. destruct (mul_cases t x Ft Fx) as [(_ & F & E)|(L & _)].
  - rewrite Z, Rmult_0_l, round_0 in E by apply valid_rnd_N. done.
  - exfalso. rewrite Z, Rmult_0_l, round_0, Rabs_R0 in L by apply valid_rnd_N. pose proof (bpow_gt_0 radix2 128). lra.
Qed.
Lemma zero_add x z : fin x = true -> fin z = true -> val z = 0 -> (fin (x ⊕ z) = true /\ val (x ⊕ z) = val x) /\ (fin (z ⊕ x) = true /\ val (z ⊕ x) = val x).
Proof.
  intros Fx Fz Z. pose proof (val_bound x) as B. split.
  - destruct (add_cases x z Fx Fz) as [(_ & F & E)|(L & _)]; rewrite Z, Rplus_0_r, rnd_val in *; [done|lra].
  - destruct (add_cases z x Fz Fx) as [(_ & F & E)|(L & _)]; rewrite Z, Rplus_0_l, rnd_val in *; [done|lra].
Qed.
Lemma lt_val x y : fin x = true -> fin y = true -> f32_lt x y = (if Rlt_dec (val x) (val y) then true else false).
Proof. intros Fx Fy. pose proof (f32_lt_finite x y Fx Fy). destruct (Rlt_dec _ _); destruct (f32_lt x y); naive_solver. Qed.

(** ** Enclosing *)
Lemma fmin_val a b : fin a = true -> fin b = true -> fin (fmin2 a b) = true /\ val (fmin2 a b) = rmin (val a) (val b).
Proof. intros Fa Fb. unfold fmin2, rmin. rewrite lt_val by done. by destruct (Rlt_dec _ _). Qed.
Lemma fmax_val a b : fin a = true -> fin b = true -> fin (fmax2 a b) = true /\ val (fmax2 a b) = rmax (val a) (val b).
Proof. intros Fa Fb. unfold fmax2, rmax. rewrite lt_val by done. by destruct (Rlt_dec _ _). Qed.
Lemma enclose_real b t : fin_box b -> fsound t -> fin_box (fenclose b t) /\ real (fenclose b t) = enclose (real b) (meant t).
Proof.
  destruct b as [[a1 a2 a3] [b1 b2 b3]]. intros [(A1 & A2 & A3) (B1 & B2 & B3)]. cbn in *.
  assert (forall c d, fin3 c -> fin3 d -> fin_box (FBox (lanes3 fmin2 (Pt a1 a2 a3) c) (lanes3 fmax2 (Pt b1 b2 b3) d)) /\
    real (FBox (lanes3 fmin2 (Pt a1 a2 a3) c) (lanes3 fmax2 (Pt b1 b2 b3) d)) = BBox (min3 (V3 (val a1) (val a2) (val a3)) (val3 c)) (max3 (V3 (val b1) (val b2) (val b3)) (val3 d))) as G.
  { intros [c1 c2 c3] [d1 d2 d3] (C1 & C2 & C3) (D1 & D2 & D3). cbn in *. unfold fin_box, fin3, real, val3, min3, max3, lanes3. cbn.
    destruct (fmin_val a1 c1), (fmin_val a2 c2), (fmin_val a3 c3), (fmax_val b1 d1), (fmax_val b2 d2), (fmax_val b3 d3); try done. split; [done|]. congruence. }
  destruct t as [p|c]; cbn.
  - intros F. by apply G.
  - intros [[F1 F2] _]. by apply G.
Qed.
Lemma max_val : fin f_max = true /\ val f_max = FLT_MAX.
Proof. split; [done|]. change (val f_max) with (F2R (Float radix2 16777215 104)). unfold F2R. cbn [Fnum Fexp]. change (bpow radix2 104) with (IZR (2 ^ 104)). rewrite <- mult_IZR. reflexivity. Qed.
Lemma min_val : fin f_min = true /\ val f_min = FLT_MIN.
Proof. split; [done|]. unfold FLT_MIN, FLT_MAX. change (val f_min) with (F2R (Float radix2 (-16777215) 104)). unfold F2R. cbn [Fnum Fexp]. change (bpow radix2 104) with (IZR (2 ^ 104)). rewrite <- mult_IZR, <- opp_IZR. reflexivity. Qed.
(** Enclosing finite points and finite, non-empty boxes gives the smallest box around them, without any error. *)
Theorem boxf_enclose (ts : list fthing) (b0 : fbox) : ts <> [] -> Forall fsound ts -> b0 = fbox_new \/ (exists b, b0 = fbox_reset b) ->
  let r := fold_left fenclose ts b0 in
  fin_box r /\ (forall t p, In t ts -> is_in p (meant t) -> inside p (real r)) /\ nonempty (real r) /\
  (forall d, (forall t p, In t ts -> is_in p (meant t) -> inside p d) -> covers d (real r)).
Proof.
  intros Ne S B0. assert (b0 = fbox_new) as -> by (destruct B0 as [|[b ->]]; done). cbv zeta.
  assert (forall b, fin_box b -> fin_box (fold_left fenclose ts b) /\ real (fold_left fenclose ts b) = fold_left enclose (map meant ts) (real b)) as G.
  { clear Ne B0. induction S as [|t ts St S IH]; intros b Fb; cbn; [done|]. destruct (enclose_real b t Fb St) as [F <-]. by apply IH. }
  destruct max_val as [Fx Vx], min_val as [Fn Vn]. destruct (G fbox_new) as [F E]; [done|]. split; [done|]. rewrite E.
  assert (real fbox_new = bbox_new) as -> by (unfold real, fbox_new, bbox_new, val3, all3, splat3; cbn [lo hi px py pz]; by rewrite Vx, Vn).
  destruct (bbox_enclose (map meant ts) bbox_new) as (P1 & P2 & P3); [by destruct ts| |by left|].
  { apply Forall_map. eapply Forall_impl; [exact S|]. intros [p|b]; cbn.
    - intros _. pose proof (val_max (px p)). pose proof (val_max (py p)). pose proof (val_max (pz p)). unfold representable, within, FLT_MIN. cbn. done.
    - intros [_ N]. split; [done|]. unfold representable, within, FLT_MIN. cbn. by repeat split; apply val_max. }
  split_and!.
  - intros t p Hin. apply P1. by apply in_map.
  - done.
  - intros d Hd. apply P3. intros t p Hin. apply in_map_iff in Hin as (t' & <- & Hin). by apply Hd.
Qed.
(** Finding: after a point with a NaN the next point makes the box forget all earlier ones, and in between the box of NaN does not count as
    empty. *)
Definition f_nan : binary32 := Binary.B754_nan 24 128 false 4194304 eq_refl.
Definition at_ints (x y z : Z) : pt := Pt (f32_of_Z x) (f32_of_Z y) (f32_of_Z z).
Lemma pt_eq p q : B2FF 24 128 (px p) = B2FF 24 128 (px q) -> B2FF 24 128 (py p) = B2FF 24 128 (py q) -> B2FF 24 128 (pz p) = B2FF 24 128 (pz q) -> p = q.
Proof. destruct p, q. cbn. intros ?%B2FF_inj ?%B2FF_inj ?%B2FF_inj. congruence. Qed.
Theorem boxf_nan_refuted : let b := fenclose_point fbox_new (at_ints 0 0 0) in let n := fenclose_point b (all3 f_nan) in
  fempty n = false /\ fenclose_point n (at_ints 5 5 5) = fenclose_point fbox_new (at_ints 5 5 5) /\
  ~ holds (fenclose_point n (at_ints 5 5 5)) (at_ints 0 0 0).
Proof.
  cbv zeta. split; [by vm_compute|]. split; [unfold fenclose_point at 1 3; f_equal; apply pt_eq; vm_compute; reflexivity|]. intros [_ [H _]].
  assert (px (lo (fenclose_point (fenclose_point (fenclose_point fbox_new (at_ints 0 0 0)) (all3 f_nan)) (at_ints 5 5 5))) = f32_of_Z 5) as E by (apply B2FF_inj; vm_compute; reflexivity).
  unfold within in H. cbn [real val3 bmin bmax x3] in H. rewrite E in H. cbn [at_ints px] in H. rewrite (proj2 (small_val 5 ltac:(lia))), (proj2 (small_val 0 ltac:(lia))) in H. lra.
Qed.
Theorem boxf_empty (b : fbox) : fin_box b -> (fempty b = true <-> ~ nonempty (real b)) /\ fempty fbox_new = true /\ fempty (fbox_reset b) = true.
Proof.
  intros [(A1 & A2 & A3) (B1 & B2 & B3)]. split; [|split; by vm_compute]. rewrite <- (proj1 (bbox_empty (real b))). unfold fempty, empty, rgt. rewrite !lt_val by done. done.
Qed.

(** ** Center and surface *)
Lemma fmt_double r : fmt32 r -> fmt32 (2 * r).
Proof.
  intros F. rewrite F. set (m := Ztrunc (scaled_mantissa radix2 (SpecFloat.fexp 24 128) r)). set (e := cexp radix2 (SpecFloat.fexp 24 128) r).
  replace (2 * F2R (Float radix2 m e)) with (F2R (Float radix2 m (e + 1))) by (unfold F2R; cbn [Fnum Fexp]; rewrite bpow_plus_1; cbn; ring).
  apply generic_format_F2R. intros Nm. assert (r <> 0) as Nr. { intros ->. apply Nm. unfold m. rewrite scaled_mantissa_0. apply Ztrunc_IZR. }
  replace (F2R (Float radix2 m (e + 1))) with (r * bpow radix2 1).
  - unfold e, cexp, SpecFloat.fexp, SpecFloat.emin. rewrite mag_mult_bpow by done. lia.
  - unfold F2R. cbn [Fnum Fexp]. rewrite bpow_plus, <- Rmult_assoc. f_equal. exact F.
Qed.
Lemma half_val : fin f_half = true /\ val f_half = / 2.
Proof. split; [done|]. change (val f_half) with (F2R (Float radix2 8388608 (-24))). unfold F2R. cbn [Fnum Fexp]. change (bpow radix2 (-24)) with (/ 16777216). lra. Qed.
Lemma center_lane l h : fin l = true -> fin h = true -> fin (l ⊕ h) = true -> val l <= val h -> fin ((l ⊕ h) ⊗ f_half) = true /\ val l <= val ((l ⊕ h) ⊗ f_half) <= val h.
Proof.
  intros Fl Fh Fs H. destruct (add_rnd _ _ Fs) as [Es _]. destruct half_val as [F2 V2].
  assert (2 * val l <= val (l ⊕ h) <= 2 * val h) as B.
  { rewrite Es. split; [apply rnd_ge|apply rnd_le]; try (apply fmt_double, fmt_val); lra. }
  assert (val l <= rnd32 (val (l ⊕ h) * val f_half) <= val h) as B'.
  { rewrite V2. split; [apply rnd_ge|apply rnd_le]; try apply fmt_val; lra. }
  destruct (mul_cases (l ⊕ h) f_half Fs F2) as [(_ & F & ->)|(L & _)]; [done|]. pose proof (between_abs _ _ _ _ B' (val_bound l) (val_bound h)). lra.
Qed.
(** The center lies in the box as long as the sums of the bounds do not overflow. *)
Theorem boxf_center_partial (b : fbox) : fin_box b -> nonempty (real b) -> fin3 (lanes3 fadd (lo b) (hi b)) -> holds b (fcenter b).
Proof.
  destruct b as [[a1 a2 a3] [b1 b2 b3]]. intros [(A1 & A2 & A3) (B1 & B2 & B3)] N (S1 & S2 & S3). apply nonempty_bounds in N. cbn in *.
  destruct N as (N1 & N2 & N3). destruct (center_lane a1 b1), (center_lane a2 b2), (center_lane a3 b3); try done; (split; [done|]; unfold inside, within; cbn; done).
Qed.
Theorem boxf_center_refuted : exists b, fin_box b /\ nonempty (real b) /\ ~ holds b (fcenter b).
Proof.
  exists (FBox (all3 f_max) (all3 f_max)). split; [done|]. split; [apply nonempty_bounds; cbn; lra|]. intros [(F & _) _]. by vm_compute in F.
Qed.
Definition nonneg (x : binary32) : Prop := x = Binary.B754_infinity 24 128 false \/ (fin x = true /\ 0 <= val x).
Lemma nonneg_add x y : nonneg x -> nonneg y -> nonneg (x ⊕ y).
Proof.
  intros [-> | [Fx Px]] [-> | [Fy Py]].
  - left. done.
  - left. by destruct y.
  - left. by destruct x.
  - destruct (add_cases x y Fx Fy) as [(_ & F & E)|(L & _ & E & S)].
    + right. split; [done|]. rewrite E. apply rnd_ge; [apply generic_format_0|lra].
    + left. rewrite E. destruct (Rle_lt_or_eq_dec _ _ Px) as [P|P]; [by rewrite (proj2 (sign_val x Fx) P)|]. destruct (Rle_lt_or_eq_dec _ _ Py) as [Q|Q]; [by rewrite S, (proj2 (sign_val y Fy) Q)|].
      exfalso. rewrite <- P, <- Q, Rplus_0_l, round_0, Rabs_R0 in L by apply valid_rnd_N. pose proof (bpow_gt_0 radix2 128). lra.
Qed.
Lemma nonneg_mul x y : fin x = true -> fin y = true -> 0 <= val x -> 0 <= val y -> nonneg (x ⊗ y).
Proof.
  intros Fx Fy Px Py. destruct (mul_cases x y Fx Fy) as [(_ & F & E)|(L & _ & E)].
  - right. split; [done|]. rewrite E. apply rnd_ge; [apply generic_format_0|nra].
  - left. rewrite E. assert (val x <> 0 /\ val y <> 0) as [Nx Ny].
    { split; intros Z; rewrite Z, ?Rmult_0_l, ?Rmult_0_r, round_0, Rabs_R0 in L by apply valid_rnd_N; pose proof (bpow_gt_0 radix2 128); lra. }
    rewrite (proj2 (sign_val x Fx)), (proj2 (sign_val y Fy)) by lra. done.
Qed.
Lemma nonneg_double x : nonneg x -> nonneg (f2 ⊗ x).
Proof.
  intros [-> | [Fx Px]]; [by left|]. destruct (small_val 2) as [F V]; [lia|]. apply nonneg_mul; try done. unfold f2. rewrite V. lra.
Qed.
(** The surface area is never negative, and not a NaN as long as the extents do not overflow. *)
Theorem boxf_area_partial (b : fbox) : fin_box b -> fin3 (lanes3 fsub (hi b) (lo b)) -> nonneg (fsurface_area b).
Proof.
  destruct b as [[a1 a2 a3] [b1 b2 b3]]. intros [(A1 & A2 & A3) (B1 & B2 & B3)] (S1 & S2 & S3). unfold fsurface_area. destruct (fempty _) eqn:Em; [right; split; [done|cbn; lra]|].
  unfold fempty in Em. cbn in *. rewrite !lt_val in Em by done. repeat destruct (Rlt_dec _ _) in Em; try done.
  assert (forall x y, fin x = true -> fin y = true -> fin (fsub x y) = true -> ~ val x < val y -> 0 <= val (fsub x y)) as G.
  { intros x y Fx Fy F L. pose proof (Bminus_correct 24 128 eq_refl eq_refl binop_nan_pl32 mode_NE x y Fx Fy) as C. destruct (Rlt_bool_spec (Rabs (rnd32 (val x - val y))) (bpow radix2 128)).
    - destruct C as (C & _). unfold fsub, b32_minus. rewrite C. apply rnd_ge; [apply generic_format_0|lra].
    - exfalso. destruct C as [C _]. unfold fsub, b32_minus in F. rewrite <- is_finite_B2FF in F. rewrite C in F. done. }
  apply nonneg_double, nonneg_add; [apply nonneg_add|]; apply nonneg_mul; auto.
Qed.
Theorem boxf_area_refuted : exists b, fin_box b /\ nonempty (real b) /\ Binary.is_nan 24 128 (fsurface_area b) = true.
Proof.
  exists (FBox (Pt f_min f0 f0) (Pt f_max f0 f0)). split; [done|]. split; [|by vm_compute]. apply nonempty_bounds. destruct max_val as [_ V], min_val as [_ W]. cbn [real val3 bmin bmax lo hi px py pz x3 y3 z3]. rewrite V, W. unfold FLT_MIN.
  assert (0 < FLT_MAX) by (unfold FLT_MAX; apply (IZR_lt 0); reflexivity). lra.
Qed.

(** ** Transforming *)
Lemma widen_zero (mn mx t l h : binary32) : fin mn = true -> fin mx = true -> fin t = true -> fin l = true -> fin h = true -> val t = 0 ->
  exists mn' mx' : binary32, widen (mn, mx) (t, l, h) = (mn', mx') /\ fin mn' = true /\ fin mx' = true /\ val mn' = val mn /\ val mx' = val mx.
Proof.
  intros Fm FM Ft Fl Fh Z. destruct (zero_mul t l Ft Fl Z) as [Fa Va]. destruct (zero_mul t h Ft Fh Z) as [Fb Vb]. cbn.
  destruct (zero_add mn _ Fm Fa Va) as [[? ?] _]. destruct (zero_add mx _ FM Fb Vb) as [[? ?] _]. destruct (zero_add mn _ Fm Fb Vb) as [[? ?] _]. destruct (zero_add mx _ FM Fa Va) as [[? ?] _].
  destruct (f32_lt _ _); eauto 10.
Qed.
Lemma widen_fin s t l h mn' mx' : widen s (t, l, h) = (mn', mx') -> fin mn' = true -> fin mx' = true ->
  fin (fst s) = true /\ fin (snd s) = true /\ fin (t ⊗ l) = true /\ fin (t ⊗ h) = true.
Proof. destruct s as [mn mx]. cbn. destruct (f32_lt _ _); intros [= <- <-] F1 F2; apply add_fin in F1, F2; naive_solver. Qed.
Lemma widen_point (mn mx t l h x mn' mx' : binary32) : widen (mn, mx) (t, l, h) = (mn', mx') -> fin mn' = true -> fin mx' = true -> fin x = true -> val l <= val x <= val h -> val mn = val mx ->
  fin (t ⊗ x) = true /\ fin (mn ⊕ t ⊗ x) = true /\ val mn' <= rnd32 (val mn + val (t ⊗ x)) <= val mx'.
Proof.
  intros E F1 F2 Fx H Em. destruct (widen_fin _ _ _ _ _ _ E F1 F2) as (Fm & FM & Fa & Fb). cbn [fst snd] in *. destruct (mul_between t l x h Fx H Fa Fb) as [Fp B]. split; [done|].
  cbn in E. rewrite lt_val in E by done. assert (exists a b, mn' = mn ⊕ a /\ mx' = mx ⊕ b /\ val a <= val (t ⊗ x) <= val b) as (a & b & -> & -> & B').
  { destruct (Rlt_dec _ _); injection E as <- <-; do 2 eexists; (split; [done|split; [done|lra]]). }
  assert (val (mn ⊕ a) <= rnd32 (val mn + val (t ⊗ x)) <= val (mx ⊕ b)) as R.
  { rewrite (proj1 (add_rnd _ _ F1)), (proj1 (add_rnd _ _ F2)). rewrite Em. split; apply rnd_mono; lra. }
  split; [|done]. destruct (add_cases mn (t ⊗ x) Fm Fp) as [(_ & F & _)|(L & _)]; [done|]. pose proof (between_abs _ _ _ _ R (val_bound _) (val_bound _)). lra.
Qed.
Lemma row_unmixed c b t p mn mx : row c b t = (mn, mx) -> fin mn = true -> fin mx = true -> fin_box b -> holds b p -> unmixed_row c t ->
  fin (c (m0 t)) = true -> fin (c (m1 t)) = true -> fin (c (m2 t)) = true -> fin (c (m3 t)) = true ->
  fin (point_lane c t p) = true /\ val mn <= val (point_lane c t p) <= val mx.
Proof.
  intros E F1 F2 [(A1 & A2 & A3) (B1 & B2 & B3)] [(P1 & P2 & P3) (I1 & I2 & I3)] U T0 T1 T2 T3. unfold row in E. cbn [fold_left] in E. unfold point_lane.
  unfold within in I1, I2, I3. cbn in I1, I2, I3. destruct U as [[Z1 Z2]|[[Z1 Z2]|[Z1 Z2]]].
  - destruct (widen (c (m3 t), c (m3 t)) (c (m0 t), px (lo b), px (hi b))) as [x y] eqn:E1. destruct (widen (x, y) (c (m1 t), py (lo b), py (hi b))) as [x' y'] eqn:E2.
    destruct (widen_fin _ _ _ _ _ _ E F1 F2) as (F1' & F2' & _). destruct (widen_fin _ _ _ _ _ _ E2 F1' F2') as (F1'' & F2'' & _). cbn [fst snd] in *.
    destruct (widen_point _ _ _ _ _ (px p) _ _ E1 F1'' F2'' P1 I1 eq_refl) as (Fp & Fs & R).
    destruct (widen_zero x y _ _ _ F1'' F2'' T1 A2 B2 Z1) as (? & ? & Q & _ & _ & V1 & V2). rewrite E2 in Q. injection Q as <- <-.
    destruct (widen_zero x' y' _ _ _ F1' F2' T2 A3 B3 Z2) as (? & ? & Q & _ & _ & V3 & V4). rewrite E in Q. injection Q as <- <-. rewrite V3, V4, V1, V2.
    destruct (zero_mul _ _ T1 P2 Z1) as [G1 W1]. destruct (zero_mul _ _ T2 P3 Z2) as [G2 W2]. destruct (zero_add _ _ Fp G1 W1) as [[G3 W3] _]. destruct (zero_add _ _ T3 G2 W2) as [_ [G4 W4]].
    destruct (add_cases _ _ G3 G4) as [(_ & F & V)|(L & _)]; rewrite W3, W4, (Rplus_comm (val (_ ⊗ px p))) in *.
    + split; [done|]. rewrite V. done.
    + destruct (add_rnd _ _ Fs) as [_ L']. lra.
  - destruct (widen_zero _ _ _ (px (lo b)) (px (hi b)) T3 T3 T0 A1 B1 Z1) as (x & y & E1 & Fx & Fy & V1 & V2). rewrite E1 in E.
    destruct (widen (x, y) (c (m1 t), py (lo b), py (hi b))) as [x' y'] eqn:E2.
    destruct (widen_fin _ _ _ _ _ _ E F1 F2) as (F1' & F2' & _). cbn [fst snd] in *.
    destruct (widen_point _ _ _ _ _ (py p) _ _ E2 F1' F2' P2 I2 ltac:(congruence)) as (Fp & Fs & R).
    destruct (widen_zero x' y' _ _ _ F1' F2' T2 A3 B3 Z2) as (? & ? & Q & _ & _ & V3 & V4). rewrite E in Q. injection Q as <- <-. rewrite V3, V4.
    destruct (zero_mul _ _ T0 P1 Z1) as [G1 W1]. destruct (zero_mul _ _ T2 P3 Z2) as [G2 W2]. destruct (zero_add _ _ Fp G1 W1) as [_ [G3 W3]]. destruct (zero_add _ _ T3 G2 W2) as [_ [G4 W4]].
    destruct (add_rnd _ _ Fs) as [_ L']. rewrite V1 in R, L'.
    destruct (add_cases _ _ G3 G4) as [(_ & F & V)|(L & _)]; rewrite W3, W4, (Rplus_comm (val (_ ⊗ py p))) in *.
    + split; [done|]. rewrite V. done.
    + lra.
  - destruct (widen_zero _ _ _ (px (lo b)) (px (hi b)) T3 T3 T0 A1 B1 Z1) as (x & y & E1 & Fx & Fy & V1 & V2). rewrite E1 in E.
    destruct (widen_zero x y _ (py (lo b)) (py (hi b)) Fx Fy T1 A2 B2 Z2) as (x' & y' & E2 & Fx' & Fy' & V3 & V4). rewrite E2 in E.
    destruct (widen_point _ _ _ _ _ (pz p) _ _ E F1 F2 P3 I3 ltac:(congruence)) as (Fp & Fs & R).
    destruct (zero_mul _ _ T0 P1 Z1) as [G1 W1]. destruct (zero_mul _ _ T1 P2 Z2) as [G2 W2]. destruct (zero_add _ _ G1 G2 W2) as [[G3 W3] _]. rewrite W1 in W3.
    destruct (add_rnd _ _ Fs) as [_ L']. rewrite V3, V1 in R, L'. rewrite (Rplus_comm (val (c (m3 t)))) in R, L'.
    assert (fin (c (m2 t) ⊗ pz p ⊕ c (m3 t)) = true /\ val (c (m2 t) ⊗ pz p ⊕ c (m3 t)) = rnd32 (val (c (m2 t) ⊗ pz p) + val (c (m3 t)))) as [G4 W4].
    { destruct (add_cases _ _ Fp T3) as [(_ & ? & ?)|(L & _)]; [done|lra]. }
    destruct (zero_add _ _ G4 G3 W3) as [_ [G5 W5]]. split; [done|]. rewrite W5, W4. done.
Qed.
(** Transforming a box by a matrix that scales, mirrors, exchanges axes and moves, but does not mix them: the image of every point
    of the box lies in the result, unless that overflows.  Missing: other matrices, for which it is false. *)
Theorem boxf_transform_partial (b : fbox) (t : fmat) (p : pt) : fin_box b -> fin_mat t -> unmixed t -> fin_box (ftransform b t) -> holds b p ->
  holds (ftransform b t) (fmat_point t p).
Proof.
  intros Fb Ft (Ux & Uy & Uz) Fr Hp. unfold fin_mat in Ft. rewrite !Forall_cons in Ft. destruct Ft as ((X0 & Y0 & Z0) & (X1 & Y1 & Z1) & (X2 & Y2 & Z2) & (X3 & Y3 & Z3) & _).
  unfold ftransform in *. destruct (row cx b t) as [x0 x1] eqn:Ex. destruct (row cy b t) as [y0 y1] eqn:Ey. destruct (row cz b t) as [z0 z1] eqn:Ez. destruct Fr as [(G1 & G2 & G3) (G4 & G5 & G6)]. cbn in *.
  destruct (row_unmixed cx b t p x0 x1) as [? ?]; try done. destruct (row_unmixed cy b t p y0 y1) as [? ?]; try done. destruct (row_unmixed cz b t p z0 z1) as [? ?]; try done.
Qed.
Lemma not_held b q : fin (px (hi b)) = true -> fin (px q) = true -> f32_lt (px (hi b)) (px q) = true -> ~ holds b q.
Proof. intros Fx Fy. rewrite lt_val by done. destruct (Rlt_dec _ _); [|done]. intros _ [_ [H _]]. unfold within in H. cbn in H. lra. Qed.
(** Finding: the sums are rounded in another order than those of the product of a matrix and a point, so a transformed box need not contain its
    transformed corners. *)
Theorem boxf_transform_refuted : exists b t p, fin_box b /\ fin_mat t /\ fin_box (ftransform b t) /\ holds b p /\ fin3 (fmat_point t p) /\ ~ holds (ftransform b t) (fmat_point t p).
Proof.
  set (p := Pt f1 (b32_of_bits 1058642330) f1). set (t := FMat (C4 f1 f0 f0 f0) (C4 f1 f0 f0 f0) (C4 (b32_of_bits 1061997773) f0 f0 f0) (C4 (b32_of_bits 1061158912) f0 f0 f1)).
  exists (FBox p p), t, p. split; [done|]. split; [repeat (apply Forall_cons_2; [done|]); apply Forall_nil_2|]. split; [by vm_compute|]. split; [split; [done|unfold inside, within; split_and!; apply Rle_refl]|].
  split; [by vm_compute|]. apply not_held; vm_compute; reflexivity.
Qed.

(** ** Projecting *)
Lemma lane_between c P b p : fin_box b -> holds b p -> Forall (fun v => fin (point_lane c P v) = true) (fcorners b) ->
  fin (point_lane c P p) = true /\ exists v w, In v (fcorners b) /\ In w (fcorners b) /\ val (point_lane c P v) <= val (point_lane c P p) <= val (point_lane c P w).
Proof.
  intros Fb [(P1 & P2 & P3) (I1 & I2 & I3)] C. unfold within in I1, I2, I3. cbn in I1, I2, I3.
  assert (forall v, In v (fcorners b) -> fin (point_lane c P v) = true) as C' by (intros v Hv; rewrite Forall_forall in C; by apply C, elem_of_list_In).
  assert (fin (point_lane c P (Pt (px (lo b)) (py (lo b)) (pz (lo b)))) = true) as L by (apply C'; cbn; tauto).
  assert (fin (point_lane c P (Pt (px (hi b)) (py (hi b)) (pz (hi b)))) = true) as H by (apply C'; cbn; tauto).
  unfold point_lane in L, H. cbn [px py pz] in L, H. apply add_fin in L as [L1 L2], H as [H1 H2]. apply add_fin in L1 as [L0 L1], L2 as [L2 T3], H1 as [H0 H1], H2 as [H2 _].
  destruct (mul_between _ _ (px p) _ P1 I1 L0 H0) as [F0 B0]. destruct (mul_between _ _ (py p) _ P2 I2 L1 H1) as [F1 B1]. destruct (mul_between _ _ (pz p) _ P3 I3 L2 H2) as [F2 B2].
  assert (forall (s0 s1 s2 : bool), let v := Pt (px (if s0 then lo b else hi b)) (py (if s1 then lo b else hi b)) (pz (if s2 then lo b else hi b)) in
            let w := Pt (px (if s0 then hi b else lo b)) (py (if s1 then hi b else lo b)) (pz (if s2 then hi b else lo b)) in
            val (c (m0 P) ⊗ px v) <= val (c (m0 P) ⊗ px p) <= val (c (m0 P) ⊗ px w) -> val (c (m1 P) ⊗ py v) <= val (c (m1 P) ⊗ py p) <= val (c (m1 P) ⊗ py w) -> val (c (m2 P) ⊗ pz v) <= val (c (m2 P) ⊗ pz p) <= val (c (m2 P) ⊗ pz w) ->
            fin (point_lane c P p) = true /\ exists v w, In v (fcorners b) /\ In w (fcorners b) /\ val (point_lane c P v) <= val (point_lane c P p) <= val (point_lane c P w)) as G.
  { intros s0 s1 s2 v w Q0 Q1 Q2. assert (In v (fcorners b) /\ In w (fcorners b)) as [Iv Iw] by (unfold v, w; destruct s0, s1, s2; cbn; tauto).
    pose proof (C' v Iv) as Fv. pose proof (C' w Iw) as Fw. unfold point_lane in Fv, Fw. destruct (add_fin _ _ Fv) as [Fv1 Fv2]. destruct (add_fin _ _ Fw) as [Fw1 Fw2].
    destruct (add_between _ _ _ _ _ _ F0 F1 Q0 Q1 Fv1 Fw1) as [G1 R1]. destruct (add_between _ _ _ (c (m3 P)) (c (m3 P)) (c (m3 P)) F2 T3 Q2 ltac:(lra) Fv2 Fw2) as [G2 R2].
    destruct (add_between _ _ _ _ _ _ G1 G2 R1 R2 Fv Fw) as [G3 R3]. split; [exact G3|]. by exists v, w. }
  destruct B0 as [B0|B0], B1 as [B1|B1], B2 as [B2|B2];
    [apply (G true true true)|apply (G true true false)|apply (G true false true)|apply (G true false false)|apply (G false true true)|apply (G false true false)|apply (G false false true)|apply (G false false false)]; done.
Qed.
Lemma proj_fold P cs : Forall (fun v => fin3 (fmat_point P v)) cs -> forall s, fin (f_lo s).1 = true -> fin (f_lo s).2 = true -> fin (f_hi s).1 = true -> fin (f_hi s).2 = true ->
  let r := fold_left (fproj_step P) cs s in
  (fin (f_lo r).1 = true /\ fin (f_lo r).2 = true /\ fin (f_hi r).1 = true /\ fin (f_hi r).2 = true) /\
  (val (f_lo r).1 <= val (f_lo s).1 /\ val (f_lo r).2 <= val (f_lo s).2 /\ val (f_hi s).1 <= val (f_hi r).1 /\ val (f_hi s).2 <= val (f_hi r).2) /\
  (forall v, In v cs -> in_frect (fmat_point P v) (f_lo r, f_hi r)) /\
  (val (f_lo r).1 = val (f_lo s).1 \/ exists v, In v cs /\ val (f_lo r).1 = val (px (fmat_point P v))) /\ (val (f_lo r).2 = val (f_lo s).2 \/ exists v, In v cs /\ val (f_lo r).2 = val (py (fmat_point P v))) /\
  (val (f_hi r).1 = val (f_hi s).1 \/ exists v, In v cs /\ val (f_hi r).1 = val (px (fmat_point P v))) /\ (val (f_hi r).2 = val (f_hi s).2 \/ exists v, In v cs /\ val (f_hi r).2 = val (py (fmat_point P v))) /\
  (f_part r = true <-> f_part s = true \/ exists v, In v cs /\ val (pz (fmat_point P v)) < 0) /\
  (f_all r = true <-> f_all s = true /\ forall v, In v cs -> val (pz (fmat_point P v)) < 0).
Proof.
  induction cs as [|v cs IH]; intros C s F1 F2 F3 F4; cbn [fold_left].
  { cbv zeta. split_and!; try done; try lra; try (by left); naive_solver. }
  apply Forall_cons in C as [(Cx & Cy & Cz) C]. cbv zeta.
  destruct (fmin_val _ _ F1 Cx) as [M1 V1]. destruct (fmin_val _ _ F2 Cy) as [M2 V2]. destruct (fmax_val _ _ F3 Cx) as [M3 V3]. destruct (fmax_val _ _ F4 Cy) as [M4 V4].
  set (s' := fproj_step P s v).
  assert ((f_lo s').1 = fmin2 (f_lo s).1 (px (fmat_point P v)) /\ (f_lo s').2 = fmin2 (f_lo s).2 (py (fmat_point P v)) /\ (f_hi s').1 = fmax2 (f_hi s).1 (px (fmat_point P v)) /\ (f_hi s').2 = fmax2 (f_hi s).2 (py (fmat_point P v)) /\
    (f_part s' = true <-> f_part s = true \/ val (pz (fmat_point P v)) < 0) /\ (f_all s' = true <-> f_all s = true /\ val (pz (fmat_point P v)) < 0)) as (E1 & E2 & E3 & E4 & E5 & E6).
  { unfold s', fproj_step. rewrite lt_val by done. destruct val0 as [_ ->]. clear -Cz. destruct (Rlt_dec _ _); cbn [f_lo f_hi f_part f_all fst snd]; repeat (split; [reflexivity|]); (split; (split; [intros Q|intros Q])); try tauto.
    discriminate Q. }
  clearbody s'. destruct (IH C s') as (G & L & I & A1 & A2 & A3 & A4 & Pt' & Al); [congruence..|]. rewrite E1, E2, E3, E4, V1, V2, V3, V4 in *. unfold rmin, rmax in *.
  set (r := fold_left (fproj_step P) cs s') in *. clearbody r. split_and!; try (by destruct G as (? & ? & ? & ?)).
  1-4: clear -L; repeat destruct (Rlt_dec _ _); lra.
  - intros w [<-|Hw]; [|by apply I]. unfold in_frect, within. clear -L. destruct r as [[r1 r2] [r3 r4] ? ?]. cbn [fst snd f_lo f_hi] in *. revert L.
    repeat (destruct (Rlt_dec _ _)); intros (L1 & L2 & L3 & L4); split_and!; lra.
  - clear -A1. destruct (Rlt_dec _ _); destruct A1 as [A1|(w & ? & ?)]; [by left|right; exists w; cbn; auto|right; exists v; cbn; auto|right; exists w; cbn; auto].
  - clear -A2. destruct (Rlt_dec _ _); destruct A2 as [A2|(w & ? & ?)]; [by left|right; exists w; cbn; auto|right; exists v; cbn; auto|right; exists w; cbn; auto].
  - clear -A3. destruct (Rlt_dec _ _); destruct A3 as [A3|(w & ? & ?)]; [by left|right; exists w; cbn; auto|right; exists v; cbn; auto|right; exists w; cbn; auto].
  - clear -A4. destruct (Rlt_dec _ _); destruct A4 as [A4|(w & ? & ?)]; [by left|right; exists w; cbn; auto|right; exists v; cbn; auto|right; exists w; cbn; auto].
  - rewrite Pt', E5. clear. cbn. naive_solver.
  - rewrite Al, E6. clear. cbn. naive_solver.
Qed.
Lemma proj_fold_from P cs (a b : binary32) : Forall (fun v => fin3 (fmat_point P v)) cs -> fin a = true -> fin b = true -> let r := fold_left (fproj_step P) cs (FP (a, a) (b, b) false true) in
  (forall v, In v cs -> in_frect (fmat_point P v) (f_lo r, f_hi r)) /\
  (val (f_lo r).1 = val a \/ exists v, In v cs /\ val (f_lo r).1 = val (px (fmat_point P v))) /\ (val (f_lo r).2 = val a \/ exists v, In v cs /\ val (f_lo r).2 = val (py (fmat_point P v))) /\
  (val (f_hi r).1 = val b \/ exists v, In v cs /\ val (f_hi r).1 = val (px (fmat_point P v))) /\ (val (f_hi r).2 = val b \/ exists v, In v cs /\ val (f_hi r).2 = val (py (fmat_point P v))) /\
  (f_part r = true <-> exists v, In v cs /\ val (pz (fmat_point P v)) < 0) /\
  (f_all r = true <-> forall v, In v cs -> val (pz (fmat_point P v)) < 0).
Proof.
  intros C Fa Fb. destruct (proj_fold P cs C (FP (a, a) (b, b) false true) Fa Fa Fb Fb) as (_ & _ & I & E1 & E2 & E3 & E4 & Pa & Al). cbn [f_lo f_hi f_part f_all fst snd] in *. cbv zeta.
  do 5 (split; [done|]). split; [rewrite Pa|rewrite Al]; split; [intros [|]; [done|done]|by right|by intros [_ ?]|done].
Qed.
Lemma project_from (b : fbox) (P : fmat) (M : R) (HM : forall x, - M <= val x <= M) (s : fproj) : fin_box b -> nonempty (real b) -> Forall (fun v => fin3 (fmat_point P v)) (fcorners b) ->
  (forall v, In v (fcorners b) -> in_frect (fmat_point P v) (f_lo s, f_hi s)) /\
  (val (f_lo s).1 = M \/ exists v, In v (fcorners b) /\ val (f_lo s).1 = val (px (fmat_point P v))) /\ (val (f_lo s).2 = M \/ exists v, In v (fcorners b) /\ val (f_lo s).2 = val (py (fmat_point P v))) /\
  (val (f_hi s).1 = - M \/ exists v, In v (fcorners b) /\ val (f_hi s).1 = val (px (fmat_point P v))) /\ (val (f_hi s).2 = - M \/ exists v, In v (fcorners b) /\ val (f_hi s).2 = val (py (fmat_point P v))) /\
  (f_part s = true <-> exists v, In v (fcorners b) /\ val (pz (fmat_point P v)) < 0) /\
  (f_all s = true <-> forall v, In v (fcorners b) -> val (pz (fmat_point P v)) < 0) ->
  let r := if f_part s && negb (f_all s) then ((fm1, fm1), (f1, f1)) else if f_all s then ((f0, f0), (f0, f0)) else (f_lo s, f_hi s) in
  (forall p, holds b p -> fin3 (fmat_point P p)) /\
  ((forall p, holds b p -> 0 <= val (pz (fmat_point P p))) -> (forall p, holds b p -> in_frect (fmat_point P p) r) /\
     forall d, (forall p, holds b p -> in_frect (fmat_point P p) d) -> forall q, in_frect q r -> in_frect q d) /\
  ((forall p, holds b p -> val (pz (fmat_point P p)) < 0) -> r = ((f0, f0), (f0, f0))) /\
  ((exists p, holds b p /\ val (pz (fmat_point P p)) < 0) -> (exists p, holds b p /\ 0 <= val (pz (fmat_point P p))) -> r = ((fm1, fm1), (f1, f1))).
Proof.
  intros Fb N C (I & E1 & E2 & E3 & E4 & Pa & Al). cbv zeta. pose proof Fb as [(A1 & A2 & A3) (B1 & B2 & B3)]. apply nonempty_bounds in N. cbn in N. destruct N as (N1 & N2 & N3).
  assert (forall v, In v (fcorners b) -> holds b v) as Hc.
  { intros v Hv. cbn in Hv. repeat (destruct Hv as [<-|Hv]; [split; [done|unfold inside, within; cbn; lra]|]). done. }
  assert (forall c, (forall v, fin3 (fmat_point P v) -> fin (point_lane c P v) = true) -> forall p, holds b p -> fin (point_lane c P p) = true /\ exists v w, In v (fcorners b) /\ In w (fcorners b) /\ val (point_lane c P v) <= val (point_lane c P p) <= val (point_lane c P w)) as G.
  { intros c Q p Hp. apply lane_between; [done|done|]. eapply Forall_impl; [exact C|]. done. }
  assert (Qx := G cx ltac:(by intros v (? & ? & ?))). assert (Qy := G cy ltac:(by intros v (? & ? & ?))). assert (Qz := G cz ltac:(by intros v (? & ? & ?))). clear G.
  split; [intros p Hp; split_and!; [by apply Qx|by apply Qy|by apply Qz]|]. split; [|split].
  - intros Front. assert (f_part s = false) as Ep.
    { apply not_true_is_false. intros Hp. apply Pa in Hp as (v & Hv & L). pose proof (Front v (Hc v Hv)). lra. }
    set (v0 := Pt (px (lo b)) (py (lo b)) (pz (lo b))). assert (In v0 (fcorners b)) as H0 by (by left).
    assert (f_all s = false) as Ea. { apply not_true_is_false. intros Hp. pose proof (proj1 Al Hp v0 H0). pose proof (Front v0 (Hc v0 H0)). lra. }
    rewrite Ep, Ea. cbn [andb negb]. split.
    + intros p Hp. destruct (Qx p Hp) as (_ & v & w & Hv & Hw & R). destruct (Qy p Hp) as (_ & v' & w' & Hv' & Hw' & R'). destruct (I v Hv) as [X1 _], (I w Hw) as [X2 _], (I v' Hv') as [_ X3], (I w' Hw') as [_ X4].
      unfold in_frect, within in *. cbn [fst snd fmat_point px py pz] in *. lra.
    + intros d Hd q Hq. assert (forall v, In v (fcorners b) -> in_frect (fmat_point P v) d) as Hd' by auto. destruct (I v0 H0) as [[Y1 Y2] [Y3 Y4]]. cbn [fst snd] in *.
      pose proof (HM (px (fmat_point P v0))). pose proof (HM (py (fmat_point P v0))). pose proof (Hd' v0 H0) as D0. unfold in_frect, within in *. cbn [fst snd] in *.
      assert (val d.1.1 <= val (f_lo s).1) by (destruct E1 as [E1|(v & Hv & E1)]; [|destruct (Hd' v Hv)]; lra).
      assert (val d.1.2 <= val (f_lo s).2) by (destruct E2 as [E2|(v & Hv & E2)]; [|destruct (Hd' v Hv)]; lra).
      assert (val (f_hi s).1 <= val d.2.1) by (destruct E3 as [E3|(v & Hv & E3)]; [|destruct (Hd' v Hv)]; lra).
      assert (val (f_hi s).2 <= val d.2.2) by (destruct E4 as [E4|(v & Hv & E4)]; [|destruct (Hd' v Hv)]; lra).
      lra.
  - intros Back. assert (f_all s = true) as -> by (apply Al; auto). destruct (f_part s); reflexivity.
  - intros (p & Hp & Lp) (q & Hq & Lq). destruct (Qz p Hp) as (_ & v & _ & Hv & _ & R & _). destruct (Qz q Hq) as (_ & _ & w & _ & Hw & _ & R').
    assert (f_part s = true) as -> by (apply Pa; exists v; split; [done|]; cbn [fmat_point pz] in *; lra).
    assert (f_all s = false) as ->; [|reflexivity]. apply not_true_is_false. intros H. pose proof (proj1 Al H w Hw). cbn [fmat_point pz] in *. lra.
Qed.
(** Projecting: if the images of the eight corners do not overflow, no image of a point of the box does.  If no point of the box is behind the
    viewer the rectangle contains the image of each, and is the smallest that does; if all are, it is the origin; otherwise the whole screen. *)
Theorem boxf_project (b : fbox) (P : fmat) : fin_box b -> nonempty (real b) -> Forall (fun v => fin3 (fmat_point P v)) (fcorners b) ->
  let r := fproject b P in
  (forall p, holds b p -> fin3 (fmat_point P p)) /\
  ((forall p, holds b p -> 0 <= val (pz (fmat_point P p))) -> (forall p, holds b p -> in_frect (fmat_point P p) r) /\
     forall d, (forall p, holds b p -> in_frect (fmat_point P p) d) -> forall q, in_frect q r -> in_frect q d) /\
  ((forall p, holds b p -> val (pz (fmat_point P p)) < 0) -> r = ((f0, f0), (f0, f0))) /\
  ((exists p, holds b p /\ val (pz (fmat_point P p)) < 0) -> (exists p, holds b p /\ 0 <= val (pz (fmat_point P p))) -> r = ((fm1, fm1), (f1, f1))).
Proof.
  intros Fb N C. apply (project_from b P FLT_MAX val_max (fold_left (fproj_step P) (fcorners b) (FP (f_max, f_max) (f_min, f_min) false true)) Fb N C).
  pose proof (proj_fold_from P (fcorners b) f_max f_min C (proj1 max_val) (proj1 min_val)) as G. revert G. cbv zeta. generalize (fold_left (fproj_step P) (fcorners b) (FP (f_max, f_max) (f_min, f_min) false true)).
  intros s G. rewrite (proj2 max_val), (proj2 min_val) in G. exact G.
Qed.

(** The hypotheses are met by the unit cube, moved and doubled. *)
Definition unit_box : fbox := FBox (at_ints 0 0 0) (at_ints 1 1 1).
Definition double_move : fmat := FMat (C4 f2 f0 f0 f0) (C4 f0 f2 f0 f0) (C4 f0 f0 f2 f0) (C4 f3 f3 f3 f1).
Example boxf_premises : fin_box unit_box /\ nonempty (real unit_box) /\ fin_mat double_move /\ unmixed double_move /\ fin_box (ftransform unit_box double_move) /\ holds unit_box (at_ints 1 0 1) /\
  Forall (fun v => fin3 (fmat_point double_move v)) (fcorners unit_box) /\ fin3 (lanes3 fadd (lo unit_box) (hi unit_box)) /\ px (hi (ftransform unit_box double_move)) = f32_of_Z 5.
Proof.
  assert (val (f32_of_Z 0) = 0 /\ val (f32_of_Z 1) = 1) as [V0 V1] by (split; apply small_val; lia). destruct val0 as [_ V].
  split; [by vm_compute|]. split.
  { apply nonempty_bounds. cbn [real val3 bmin bmax unit_box lo hi at_ints px py pz x3 y3 z3]. rewrite V0, V1. lra. }
  split; [repeat (apply Forall_cons_2; [by vm_compute|]); apply Forall_nil_2|]. split.
  { split; [by left|]. split; [right; by left|right; by right]. }
  split; [by vm_compute|]. split.
  { split; [by vm_compute|]. unfold inside, within. cbn [real val3 bmin bmax unit_box lo hi at_ints px py pz x3 y3 z3]. rewrite V0, V1. lra. }
  split; [repeat (apply Forall_cons_2; [by vm_compute|]); apply Forall_nil_2|]. split; [by vm_compute|]. apply B2FF_inj. vm_compute. reflexivity.
Qed.
Print Assumptions boxf_enclose.
Print Assumptions boxf_nan_refuted.
Print Assumptions boxf_empty.
Print Assumptions boxf_center_partial.
Print Assumptions boxf_center_refuted.
Print Assumptions boxf_area_partial.
Print Assumptions boxf_area_refuted.
Print Assumptions boxf_transform_partial.
Print Assumptions boxf_transform_refuted.
Print Assumptions boxf_project.
