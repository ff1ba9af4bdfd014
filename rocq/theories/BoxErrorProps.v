(** C100: how far boxes of f32 can be from the boxes of real numbers. *)
From Flocq Require Import IEEE754.BinarySingleNaN IEEE754.Binary IEEE754.Bits.
From Verif Require Import Base Word F32 VectModel VectProps FloatModel FloatProps.
From Coq Require Import Reals Lra.
From Flocq Require Import Core Relative Plus_error Mult_error.
From Verif Require Import Mat4Model BBoxModel BBoxSpec BBoxProps BoxFloatModel BoxFloatSpec BoxFloatProps.
Open Scope R_scope.

(** ** The error of one operation *)
Definition eta : R := bpow radix2 (-150).
Definition u : R := / 16777216.
Lemma eta_tiny : 0 < eta /\ tiny = 8 * eta.
Proof.
  unfold eta. split; [apply bpow_gt_0|]. unfold tiny. change (bpow radix2 (-150)) with (/ IZR (2 ^ 150)). change (2 ^ 150)%Z with (8 * 2 ^ 147)%Z. rewrite mult_IZR. field. apply (IZR_neq _ 0). discriminate.
Qed.
Lemma u_bound e : Rabs e <= u_ro radix2 24 / (1 + u_ro radix2 24) -> Rabs e <= u.
Proof.
  intros H. eapply Rle_trans; [exact H|]. change (u_ro radix2 24) with (/ 2 * / 8388608). unfold u. replace (/ 2 * / 8388608 / (1 + / 2 * / 8388608)) with (/ 16777217) by field. lra.
Qed.
Lemma add_err x y : fin (x ⊕ y) = true -> Rabs (val (x ⊕ y) - (val x + val y)) <= u * Rabs (val x + val y).
Proof.
  intros F. rewrite (proj1 (add_rnd _ _ F)). destruct (@FLT_plus_error_N_ex radix2 (-149) 24 eq_refl (fun z => negb (Z.even z)) (val x) (val y) (fmt_val x) (fmt_val y)) as (e & He & Ee).
  change (rnd32 (val x + val y)) with (round radix2 (FLT_exp (-149) 24) (Znearest (fun z => negb (Z.even z))) (val x + val y)). rewrite Ee.
  replace ((val x + val y) * (1 + e) - (val x + val y)) with (e * (val x + val y)) by ring. rewrite Rabs_mult. apply Rmult_le_compat_r; [apply Rabs_pos|]. by apply u_bound.
Qed.
Lemma rnd_err r : Rabs (rnd32 r - r) <= u * Rabs r + eta.
Proof.
  destruct (relative_error_N_FLT'_ex radix2 (-149) 24 eq_refl (fun z => negb (Z.even z)) r) as (e & h & He & Hh & _ & Ee).
  change (rnd32 r) with (round radix2 (FLT_exp (-149) 24) (Znearest (fun z => negb (Z.even z))) r). rewrite Ee.
  replace (r * (1 + e) + h - r) with (e * r + h) by ring. eapply Rle_trans; [apply Rabs_triang|]. rewrite Rabs_mult. apply Rplus_le_compat.
  - apply Rmult_le_compat_r; [apply Rabs_pos|]. by apply u_bound.
  - unfold eta. change (/ 2) with (bpow radix2 (-1)) in Hh. by rewrite <- bpow_plus in Hh.
Qed.
Lemma mul_err x y : fin (x ⊗ y) = true -> Rabs (val (x ⊗ y) - val x * val y) <= u * Rabs (val x * val y) + eta.
Proof. intros F. rewrite (proj1 (mul_rnd _ _ F)). apply rnd_err. Qed.

Ltac abs_all := repeat match goal with H : Rabs (_ - _) <= _ |- _ => apply Rabs_le_inv in H end.
Lemma abs_mul_nonneg a b : 0 <= a -> Rabs (a * b) = a * Rabs b.
Proof. intros H. rewrite Rabs_mult. by rewrite (Rabs_pos_eq a). Qed.

(** ** Center *)
Lemma center_err l h : fin ((l ⊕ h) ⊗ f_half) = true -> near (Rabs ((val l + val h) * (1 / 2)) / IZR (2 ^ 24) + tiny) (val ((l ⊕ h) ⊗ f_half)) ((val l + val h) * (1 / 2)).
Proof.
  intros F. destruct (mul_fin _ _ F) as [Fs _]. pose proof (add_err _ _ Fs) as A. unfold near. destruct eta_tiny as [Pe Te].
  destruct (mul_rnd _ _ F) as [-> _]. rewrite (proj2 half_val). set (s := val (l ⊕ h)) in *. set (t := val l + val h) in *.
  assert (Rabs (rnd32 (s * / 2) - s * / 2) <= eta) as B.
  { destruct (Rle_lt_dec (bpow radix2 (-149 + 24)) (Rabs s)) as [L|L].
    - (* halving a large enough float is exact *)
      assert (generic_format radix2 (SpecFloat.fexp 24 128) (s * / 2)) as G.
      { change (/ 2) with (bpow radix2 (-1)). unfold s. apply (mult_bpow_exact_FLT radix2 (-149) 24); [apply fmt_val|]. assert (-149 + 24 + 1 <= mag radix2 (val (l ⊕ h)))%Z; [|lia]. apply mag_ge_bpow. by replace (-149 + 24 + 1 - 1)%Z with (-149 + 24)%Z by lia. }
      rewrite round_generic by (apply valid_rnd_N || done). rewrite Rminus_diag_eq, Rabs_R0 by done. lra.
    - pose proof (@error_le_half_ulp radix2 (FLT_exp (-149) 24) valid32 (fun z => negb (Z.even z)) (s * / 2)) as U. eapply Rle_trans; [exact U|].
      assert (ulp radix2 (FLT_exp (-149) 24) (s * / 2) = bpow radix2 (-149)) as ->.
      { apply ulp_FLT_small; [reflexivity|]. rewrite Rabs_mult, (Rabs_pos_eq (/ 2)) by lra. pose proof (Rabs_pos s). lra. }
      unfold eta. change (/ 2) with (bpow radix2 (-1)). rewrite <- bpow_plus. apply bpow_le. lia. }
  change (IZR (2 ^ 24)) with 16777216. rewrite (Rmult_comm t), abs_mul_nonneg by lra. unfold u in A. abs_all. apply Rabs_le. lra.
Qed.
(** The center is the middle of the box up to one rounding. *)
Theorem boxf_center_error (b : fbox) : fin3 (fcenter b) -> let c := val3 (fcenter b) in let m := center (real b) in
  near (Rabs (x3 m) / IZR (2 ^ 24) + tiny) (x3 c) (x3 m) /\ near (Rabs (y3 m) / IZR (2 ^ 24) + tiny) (y3 c) (y3 m) /\ near (Rabs (z3 m) / IZR (2 ^ 24) + tiny) (z3 c) (z3 m).
Proof.
  intros (F1 & F2 & F3). cbv zeta. unfold center, scale3, add3. cbn [x3 y3 z3 real val3 bmin bmax]. split_and!; by apply center_err.
Qed.

(** ** Surface *)
Lemma sub_err x y : fin x = true -> fin y = true -> fin (fsub x y) = true -> Rabs (val (fsub x y) - (val x - val y)) <= u * Rabs (val x - val y).
Proof.
  intros Fx Fy F. pose proof (Bminus_correct 24 128 eq_refl eq_refl binop_nan_pl32 mode_NE x y Fx Fy) as C. unfold fsub, b32_minus in *. destruct (Rlt_bool_spec (Rabs (rnd32 (val x - val y))) (bpow radix2 128)).
  - destruct C as (C & _). rewrite C.
    assert (generic_format radix2 (FLT_exp (-149) 24) (- val y)) as G by (apply generic_format_opp, fmt_val).
    destruct (@FLT_plus_error_N_ex radix2 (-149) 24 eq_refl (fun z => negb (Z.even z)) (val x) (- val y) (fmt_val x) G) as (e & He & Ee).
    change (rnd32 (val x - val y)) with (round radix2 (FLT_exp (-149) 24) (Znearest (fun z => negb (Z.even z))) (val x + - val y)). rewrite Ee. unfold Rminus at 3.
    replace ((val x + - val y) * (1 + e) - (val x - val y)) with (e * (val x + - val y)) by ring. rewrite Rabs_mult. apply Rmult_le_compat_r; [apply Rabs_pos|]. by apply u_bound.
  - exfalso. destruct C as [C _]. rewrite <- is_finite_B2FF in F. rewrite C in F. done.
Qed.
Lemma prod_err d e x y : 0 <= d -> 0 <= e -> fin (x ⊗ y) = true -> Rabs (val x - d) <= u * d -> Rabs (val y - e) <= u * e -> Rabs (val (x ⊗ y) - d * e) <= 4 * u * (d * e) + eta /\ 0 <= d * e.
Proof.
  intros Pd Pe F Hx Hy. pose proof (mul_err _ _ F) as M. destruct eta_tiny as [Pt _]. assert (0 <= d * e) as Q by nra. split; [|done].
  assert (Rabs (val x * val y - d * e) <= (2 * u + u * u) * (d * e)) as P.
  { replace (val x * val y - d * e) with ((val x - d) * (val y - e) + d * (val y - e) + e * (val x - d)) by ring.
    eapply Rle_trans; [apply Rabs_triang|]. replace ((2 * u + u * u) * (d * e)) with (u * d * (u * e) + d * (u * e) + e * (u * d)) by ring. apply Rplus_le_compat.
    - eapply Rle_trans; [apply Rabs_triang|]. rewrite Rabs_mult, abs_mul_nonneg by done. apply Rplus_le_compat; [apply Rmult_le_compat; auto using Rabs_pos|by apply Rmult_le_compat_l].
    - rewrite abs_mul_nonneg by done. by apply Rmult_le_compat_l. }
  assert (Rabs (val x * val y) <= (1 + 2 * u + u * u) * (d * e)) as B by (abs_all; apply Rabs_le; unfold u in *; lra).
  unfold u in *. abs_all. apply Rabs_le. lra.
Qed.
(** The surface area is that of the real box up to eight parts in 2^24. *)
Theorem boxf_area_error (b : fbox) : fin_box b -> fin (fsurface_area b) = true -> near (surface_area (real b) / IZR (2 ^ 21) + tiny) (val (fsurface_area b)) (surface_area (real b)).
Proof.
  destruct b as [[a1 a2 a3] [b1 b2 b3]]. intros [(A1 & A2 & A3) (B1 & B2 & B3)]. cbn in A1, A2, A3, B1, B2, B3. destruct eta_tiny as [Pe Te]. unfold near, fsurface_area, surface_area.
  assert (fempty (FBox (Pt a1 a2 a3) (Pt b1 b2 b3)) = empty (real (FBox (Pt a1 a2 a3) (Pt b1 b2 b3)))) as E by (unfold fempty, empty, rgt; cbn [lo hi px py pz real val3 bmin bmax x3 y3 z3]; by rewrite !lt_val by done).
  rewrite E. destruct (empty _) eqn:Em.
  { intros _. destruct val0 as [_ ->]. rewrite Rminus_0_r, Rabs_R0. unfold Rdiv. lra. }
  unfold empty, rgt in Em. unfold sub3. cbn [real val3 bmin bmax x3 y3 z3 lanes3 lo hi px py pz] in *. intros F.
  destruct (mul_fin _ _ F) as [_ F1]. destruct (add_fin _ _ F1) as [F2 F5]. destruct (add_fin _ _ F2) as [F3 F4]. destruct (mul_fin _ _ F3) as [G1 G3]. destruct (mul_fin _ _ F4) as [_ G2].
  assert (0 <= val b1 - val a1 /\ 0 <= val b2 - val a2 /\ 0 <= val b3 - val a3) as (D1 & D2 & D3) by (repeat destruct (Rlt_dec _ _) in Em; try done; lra).
  pose proof (sub_err _ _ B1 A1 G1) as S1. pose proof (sub_err _ _ B2 A2 G2) as S2. pose proof (sub_err _ _ B3 A3 G3) as S3. rewrite (Rabs_pos_eq _ D1) in S1. rewrite (Rabs_pos_eq _ D2) in S2. rewrite (Rabs_pos_eq _ D3) in S3.
  destruct (prod_err _ _ _ _ D1 D3 F3 S1 S3) as [P1 Q1]. destruct (prod_err _ _ _ _ D1 D2 F4 S1 S2) as [P2 Q2]. destruct (prod_err _ _ _ _ D2 D3 F5 S2 S3) as [P3 Q3].
  pose proof (add_err _ _ F2) as T1. pose proof (add_err _ _ F1) as T2.
  assert (val (f2 ⊗ ((fsub b1 a1 ⊗ fsub b3 a3 ⊕ fsub b1 a1 ⊗ fsub b2 a2) ⊕ fsub b2 a2 ⊗ fsub b3 a3)) = 2 * val ((fsub b1 a1 ⊗ fsub b3 a3 ⊕ fsub b1 a1 ⊗ fsub b2 a2) ⊕ fsub b2 a2 ⊗ fsub b3 a3)) as ->.
  { rewrite (proj1 (mul_rnd _ _ F)). unfold f2 at 1. rewrite (proj2 (small_val 2 ltac:(lia))). apply round_generic; [apply valid_rnd_N|]. apply fmt_double, fmt_val. }
  set (p1 := val (fsub b1 a1 ⊗ fsub b3 a3)) in *. set (p2 := val (fsub b1 a1 ⊗ fsub b2 a2)) in *. set (p3 := val (fsub b2 a2 ⊗ fsub b3 a3)) in *. set (s1 := val (_ ⊕ fsub b1 a1 ⊗ fsub b2 a2)) in *. set (s2 := val (_ ⊕ fsub b2 a2 ⊗ fsub b3 a3)) in *.
  clearbody p1 p2 p3 s1 s2. set (x1 := (val b1 - val a1) * (val b3 - val a3)) in *. set (x2 := (val b1 - val a1) * (val b2 - val a2)) in *. set (x3' := (val b2 - val a2) * (val b3 - val a3)) in *. clearbody x1 x2 x3'.
  clear -P1 P2 P3 Q1 Q2 Q3 T1 T2 Pe Te. rewrite Te. clear Te. change (IZR (2 ^ 21)) with 2097152. unfold u in *.
  assert (Rabs (p1 + p2) <= (1 + 4 / 16777216) * (x1 + x2) + 2 * eta) as H1 by (abs_all; apply Rabs_le; lra).
  assert (Rabs (s1 - (x1 + x2)) <= 6 / 16777216 * (x1 + x2) + 21 / 10 * eta) as H2 by (abs_all; apply Rabs_le; lra). clear T1 H1 P1 P2.
  assert (Rabs (s1 + p3) <= (1 + 6 / 16777216) * (x1 + x2 + x3') + 32 / 10 * eta) as H3 by (abs_all; apply Rabs_le; lra).
  assert (Rabs (s2 - (x1 + x2 + x3')) <= 8 / 16777216 * (x1 + x2 + x3') + 35 / 10 * eta) as H4.
  { clear -H2 H3 P3 T2 Q1 Q2 Q3 Pe. abs_all. apply Rabs_le. lra. }
  abs_all. apply Rabs_le. lra.
Qed.

(** ** Transforming *)
(** One more product in a sum: [s] is [S] up to [E], and [a] is [A] up to one rounding. *)
Lemma acc_err s a s0 a0 Q B : fin (s ⊕ a) = true -> Rabs (val s - s0) <= B -> Rabs (val a - a0) <= u * Rabs a0 + eta -> Rabs a0 <= Q ->
  Rabs (val (s ⊕ a) - (s0 + a0)) <= (1 + u) * B + u * Rabs s0 + (2 * u + u * u) * Q + (1 + u) * eta.
Proof.
  intros F Hs Ha Hq. pose proof (add_err _ _ F) as A. assert (Rabs (val s + val a) <= Rabs s0 + Q + B + u * Q + eta) as T.
  { replace (val s + val a) with (s0 + (val s - s0) + (a0 + (val a - a0))) by ring. eapply Rle_trans; [apply Rabs_triang|]. pose proof (Rabs_triang s0 (val s - s0)). pose proof (Rabs_triang a0 (val a - a0)). unfold u in *. lra. }
  abs_all. apply Rabs_le. unfold u in *. pose proof (Rabs_pos a0). lra.
Qed.
Lemma far_between l x h : l <= x <= h -> Rabs x <= far l h.
Proof. intros H. unfold far, Rmax. destruct (Rle_dec _ _); destruct (Rcase_abs x); unfold Rabs in *; repeat destruct (Rcase_abs _); lra. Qed.
Lemma far_ends l h : Rabs l <= far l h /\ Rabs h <= far l h.
Proof. split; [apply Rmax_l|apply Rmax_r]. Qed.
(** The bound that [widen] adds is the rounding of the exact one. *)
Lemma widen_err (mn mx t l h mn' mx' : binary32) : widen (mn, mx) (t, l, h) = (mn', mx') -> fin mn' = true -> fin mx' = true ->
  exists a b, mn' = mn ⊕ a /\ mx' = mx ⊕ b /\ val a = rnd32 (lo1 (val t) (val l) (val h)) /\ val b = rnd32 (hi1 (val t) (val l) (val h)).
Proof.
  intros E F1 F2. destruct (widen_fin _ _ _ _ _ _ E F1 F2) as (_ & _ & Fa & Fb). cbn in E. rewrite lt_val in E by done.
  destruct (mul_rnd _ _ Fa) as [Ea _]. destruct (mul_rnd _ _ Fb) as [Eb _]. rewrite Ea, Eb in E. unfold lo1, hi1.
  destruct (Rlt_dec (val t * val l) (val t * val h)) as [L|L].
  - pose proof (rnd_mono (val t * val l) (val t * val h) ltac:(lra)). destruct (Rlt_dec (rnd32 _) (rnd32 _)); injection E as <- <-; do 2 eexists; (split; [done|split; [done|]]); rewrite Ea, Eb; split; lra.
  - pose proof (rnd_mono (val t * val h) (val t * val l) ltac:(lra)). destruct (Rlt_dec (rnd32 _) (rnd32 _)); injection E as <- <-; do 2 eexists; (split; [done|split; [done|]]); rewrite Ea, Eb; split; lra.
Qed.
Lemma lo1_far t l h : Rabs (lo1 t l h) <= Rabs t * far l h /\ Rabs (hi1 t l h) <= Rabs t * far l h.
Proof. destruct (far_ends l h). unfold lo1, hi1. destruct (Rlt_dec _ _); rewrite !Rabs_mult; split; apply Rmult_le_compat_l; auto using Rabs_pos. Qed.
Lemma three_err (r t3 a0 a1 a2 q0 q1 q2 : R)
  (E : r <= (1 + u) * ((1 + u) * ((1 + u) * 0 + u * Rabs t3 + (2 * u + u * u) * q0 + (1 + u) * eta) + u * Rabs (t3 + a0) + (2 * u + u * u) * q1 + (1 + u) * eta) + u * Rabs (t3 + a0 + a1) + (2 * u + u * u) * q2 + (1 + u) * eta) :
  Rabs a0 <= q0 -> Rabs a1 <= q1 -> Rabs a2 <= q2 -> r <= (q0 + q1 + q2 + Rabs t3) / IZR (2 ^ 21) + tiny.
Proof.
  intros H0 H1 H2. destruct eta_tiny as [Pe ->]. change (IZR (2 ^ 21)) with 2097152. unfold u in *.
  pose proof (Rabs_triang t3 a0). pose proof (Rabs_triang (t3 + a0) a1). pose proof (Rabs_pos t3). pose proof (Rabs_pos a0). pose proof (Rabs_pos a1). pose proof (Rabs_pos a2). lra.
Qed.
Lemma row_err (c : col4 -> binary32) (rc : v4 -> R) b t mn mx : (forall k, rc (rcol k) = val (c k)) -> row c b t = (mn, mx) -> fin mn = true -> fin mx = true ->
  let x g := val (c (m3 t)) + g (val (c (m0 t))) (val (px (lo b))) (val (px (hi b))) + g (val (c (m1 t))) (val (py (lo b))) (val (py (hi b))) + g (val (c (m2 t))) (val (pz (lo b))) (val (pz (hi b))) in
  near (slack rc (rmat t) (real b)) (val mn) (x lo1) /\ near (slack rc (rmat t) (real b)) (val mx) (x hi1).
Proof.
  intros Hc E F1 F2. cbv zeta. unfold row in E. cbn [fold_left] in E.
  destruct (widen (c (m3 t), c (m3 t)) (c (m0 t), px (lo b), px (hi b))) as [x y] eqn:E1. destruct (widen (x, y) (c (m1 t), py (lo b), py (hi b))) as [x' y'] eqn:E2.
  destruct (widen_fin _ _ _ _ _ _ E F1 F2) as (F1' & F2' & _). cbn [fst snd] in F1', F2'. destruct (widen_fin _ _ _ _ _ _ E2 F1' F2') as (F1'' & F2'' & _). cbn [fst snd] in F1'', F2''.
  destruct (widen_err _ _ _ _ _ _ _ E1 F1'' F2'') as (a0 & b0 & -> & -> & Va0 & Vb0). destruct (widen_err _ _ _ _ _ _ _ E2 F1' F2') as (a1 & b1 & -> & -> & Va1 & Vb1). destruct (widen_err _ _ _ _ _ _ _ E F1 F2) as (a2 & b2 & -> & -> & Va2 & Vb2).
  clear E E1 E2. unfold near, slack, reach, rmat. cbn [col0 col1 col2 col3 real val3 bmin bmax x3 y3 z3]. rewrite !Hc.
  destruct (lo1_far (val (c (m0 t))) (val (px (lo b))) (val (px (hi b)))) as [L0 H0]. destruct (lo1_far (val (c (m1 t))) (val (py (lo b))) (val (py (hi b)))) as [L1 H1]. destruct (lo1_far (val (c (m2 t))) (val (pz (lo b))) (val (pz (hi b)))) as [L2 H2].
  assert (forall r, Rabs (rnd32 r - r) <= u * Rabs r + eta) as R by exact rnd_err.
  assert (Rabs (val (c (m3 t)) - val (c (m3 t))) <= 0) as Z by (rewrite Rminus_diag_eq, Rabs_R0 by done; lra).
  split.
  - pose proof (R (lo1 (val (c (m0 t))) (val (px (lo b))) (val (px (hi b))))) as R0. pose proof (R (lo1 (val (c (m1 t))) (val (py (lo b))) (val (py (hi b))))) as R1. pose proof (R (lo1 (val (c (m2 t))) (val (pz (lo b))) (val (pz (hi b))))) as R2.
    rewrite <- Va0 in R0. rewrite <- Va1 in R1. rewrite <- Va2 in R2.
    exact (three_err _ _ _ _ _ _ _ _ (acc_err _ _ _ _ _ _ F1 (acc_err _ _ _ _ _ _ F1' (acc_err _ _ _ _ _ _ F1'' Z R0 L0) R1 L1) R2 L2) L0 L1 L2).
  - pose proof (R (hi1 (val (c (m0 t))) (val (px (lo b))) (val (px (hi b))))) as R0. pose proof (R (hi1 (val (c (m1 t))) (val (py (lo b))) (val (py (hi b))))) as R1. pose proof (R (hi1 (val (c (m2 t))) (val (pz (lo b))) (val (pz (hi b))))) as R2.
    rewrite <- Vb0 in R0. rewrite <- Vb1 in R1. rewrite <- Vb2 in R2.
    exact (three_err _ _ _ _ _ _ _ _ (acc_err _ _ _ _ _ _ F2 (acc_err _ _ _ _ _ _ F2' (acc_err _ _ _ _ _ _ F2'' Z R0 H0) R1 H1) R2 H2) H0 H1 H2).
Qed.
(** Transforming a box by any matrix: each bound of the result is that of the exact box up to [slack]. *)
Theorem boxf_transform_error (b : fbox) (t : fmat) : fin_box (ftransform b t) -> exists e, transform (real b) (rmat t) = Ok e /\
  let r := real (ftransform b t) in let s c := slack c (rmat t) (real b) in
  near (s x4) (x3 (bmin r)) (x3 (bmin e)) /\ near (s y4) (y3 (bmin r)) (y3 (bmin e)) /\ near (s z4) (z3 (bmin r)) (z3 (bmin e)) /\
  near (s x4) (x3 (bmax r)) (x3 (bmax e)) /\ near (s y4) (y3 (bmax r)) (y3 (bmax e)) /\ near (s z4) (z3 (bmax r)) (z3 (bmax e)).
Proof.
  intros Fr. rewrite transform_eq. eexists. split; [reflexivity|]. unfold ftransform in *. destruct (row cx b t) as [x0 x1] eqn:Ex. destruct (row cy b t) as [y0 y1] eqn:Ey. destruct (row cz b t) as [z0 z1] eqn:Ez. destruct Fr as [(G1 & G2 & G3) (G4 & G5 & G6)].
  cbn [lo hi px py pz] in G1, G2, G3, G4, G5, G6.
  destruct (row_err cx x4 b t x0 x1 (fun k => eq_refl) Ex G1 G4) as [? ?]. destruct (row_err cy y4 b t y0 y1 (fun k => eq_refl) Ey G2 G5) as [? ?]. destruct (row_err cz z4 b t z0 z1 (fun k => eq_refl) Ez G3 G6) as [? ?].
  cbv zeta. split_and!; assumption.
Qed.
Lemma lane_err (c : col4 -> binary32) (rc : v4 -> R) b t p : (forall k, rc (rcol k) = val (c k)) -> holds b p -> fin (point_lane c t p) = true ->
  near (slack rc (rmat t) (real b)) (val (point_lane c t p)) (val (c (m3 t)) + val (c (m0 t)) * val (px p) + val (c (m1 t)) * val (py p) + val (c (m2 t)) * val (pz p)).
Proof.
  intros Hc [_ (I1 & I2 & I3)] F. unfold within in I1, I2, I3. cbn [real val3 bmin bmax x3 y3 z3] in I1, I2, I3. unfold near, slack, reach, rmat. cbn [col0 col1 col2 col3 real val3 bmin bmax x3 y3 z3]. rewrite !Hc.
  unfold point_lane in *. destruct (add_fin _ _ F) as [F1 F2]. destruct (add_fin _ _ F1) as [G0 G1]. destruct (add_fin _ _ F2) as [G2 _].
  pose proof (mul_err _ _ G0) as M0. pose proof (mul_err _ _ G1) as M1. pose proof (mul_err _ _ G2) as M2. pose proof (add_err _ _ F1) as A1. pose proof (add_err _ _ F2) as A2. pose proof (add_err _ _ F) as A.
  assert (forall m n l h, l <= n <= h -> Rabs (m * n) <= Rabs m * far l h) as Q by (intros; rewrite Rabs_mult; apply Rmult_le_compat_l; [apply Rabs_pos|by apply far_between]).
  pose proof (Q (val (c (m0 t))) _ _ _ I1) as Q0. pose proof (Q (val (c (m1 t))) _ _ _ I2) as Q1. pose proof (Q (val (c (m2 t))) _ _ _ I3) as Q2. clear Q.
  set (q0 := Rabs (val (c (m0 t))) * far _ _) in *. set (q1 := Rabs (val (c (m1 t))) * far _ _) in *. set (q2 := Rabs (val (c (m2 t))) * far _ _) in *.
  set (x0 := val (c (m0 t)) * val (px p)) in *. set (x1 := val (c (m1 t)) * val (py p)) in *. set (x2 := val (c (m2 t)) * val (pz p)) in *.
  set (r := val (_ ⊕ (_ ⊕ _))) in *. set (s := val (_ ⊕ c (m1 t) ⊗ py p)) in *. set (w := val (_ ⊕ c (m3 t))) in *. set (y0 := val (c (m0 t) ⊗ px p)) in *. set (y1 := val (c (m1 t) ⊗ py p)) in *. set (y2 := val (c (m2 t) ⊗ pz p)) in *. set (t3 := val (c (m3 t))) in *.
  clearbody r s w y0 y1 y2 t3 x0 x1 x2 q0 q1 q2. clear -M0 M1 M2 A1 A2 A Q0 Q1 Q2. destruct eta_tiny as [Pe ->]. change (IZR (2 ^ 21)) with 2097152. unfold u in *.
  assert (Rabs (y0 - x0) <= q0 / 16777216 + eta) as N0 by lra. assert (Rabs (y1 - x1) <= q1 / 16777216 + eta) as N1 by lra. assert (Rabs (y2 - x2) <= q2 / 16777216 + eta) as N2 by lra. clear M0 M1 M2.
  apply Rabs_le_inv in N0, N1, N2, Q0, Q1, Q2. pose proof (Rle_abs t3). pose proof (Rle_abs (- t3)) as Nt. rewrite Rabs_Ropp in Nt. pose proof (Rabs_pos t3).
  assert (Rabs (y0 + y1) <= (1 + 1 / 16777216) * (q0 + q1) + 2 * eta) as B1 by (apply Rabs_le; lra). assert (Rabs (y2 + t3) <= (1 + 1 / 16777216) * (q2 + Rabs t3) + eta) as B2 by (apply Rabs_le; lra).
  assert (Rabs (s - (x0 + x1)) <= 3 / 16777216 * (q0 + q1) + 21 / 10 * eta) as S1 by (abs_all; apply Rabs_le; lra). assert (Rabs (w - (x2 + t3)) <= 3 / 16777216 * (q2 + Rabs t3) + 11 / 10 * eta) as S2 by (abs_all; apply Rabs_le; lra).
  clear A1 A2 B1 B2. apply Rabs_le_inv in S1, S2. assert (Rabs (s + w) <= (1 + 3 / 16777216) * (q0 + q1 + q2 + Rabs t3) + 33 / 10 * eta) as B by (apply Rabs_le; lra).
  abs_all. apply Rabs_le. lra.
Qed.
(** The image of a point, too, is exact up to [slack]. *)
Theorem boxf_point_error (b : fbox) (t : fmat) (p : pt) : holds b p -> fin3 (fmat_point t p) -> let q := val3 (fmat_point t p) in let e := mat_point (rmat t) (val3 p) in let s c := slack c (rmat t) (real b) in
  near (s x4) (x3 q) (x3 e) /\ near (s y4) (y3 q) (y3 e) /\ near (s z4) (z3 q) (z3 e).
Proof.
  intros H (F1 & F2 & F3). cbv zeta. rewrite mat_point_affine. split_and!.
  - by apply (lane_err cx x4 b t p).
  - by apply (lane_err cy y4 b t p).
  - by apply (lane_err cz z4 b t p).
Qed.
(** So for any matrix the image of a point of the box misses the transformed box by at most twice that. *)
Theorem boxf_transform_margin (b : fbox) (t : fmat) (p : pt) : holds b p -> fin_box (ftransform b t) -> fin3 (fmat_point t p) ->
  let r := real (ftransform b t) in let q := val3 (fmat_point t p) in let s c := 2 * slack c (rmat t) (real b) in
  within (x3 (bmin r) - s x4) (x3 q) (x3 (bmax r) + s x4) /\ within (y3 (bmin r) - s y4) (y3 q) (y3 (bmax r) + s y4) /\ within (z3 (bmin r) - s z4) (z3 q) (z3 (bmax r) + s z4).
Proof.
  intros H Fr Fp. destruct (boxf_point_error b t p H Fp) as (P1 & P2 & P3). destruct (boxf_transform_error b t Fr) as (e & E & T1 & T2 & T3 & T4 & T5 & T6).
  destruct (bbox_transform (real b) (rmat t)) as (e' & E' & I & _); [by exists (val3 p); apply H|]. rewrite E in E'. injection E' as <-. destruct (I (val3 p)) as (I1 & I2 & I3); [by apply H|].
  cbv zeta. unfold near, within in *. apply Rabs_le_inv in P1, P2, P3, T1, T2, T3, T4, T5, T6. split_and!; lra.
Qed.

(** The hypotheses are met. *)
Example boxf_error_premises : fin3 (fcenter unit_box) /\ fin (fsurface_area unit_box) = true /\ fin_box (ftransform unit_box double_move) /\ fin3 (fmat_point double_move (at_ints 1 0 1)).
Proof. split; [by vm_compute|]. split; [by vm_compute|]. split; by vm_compute. Qed.
Print Assumptions boxf_center_error.
Print Assumptions boxf_area_error.
Print Assumptions boxf_transform_error.
Print Assumptions boxf_point_error.
Print Assumptions boxf_transform_margin.
