(** C79: Euler angles, in exact arithmetic. *)
From Verif Require Import Base Mat4Model Mat4Spec TransformSpec Mat4Props TransformProps QuatModel QuatProps EulerSpec.
From Coq Require Import Reals Lra Lia.
Open Scope R_scope.

Lemma half_angle a : let t := a * PI / 180 in let h := radians (a * (1 / 2)) in
  cos t = cos h * cos h - sin h * sin h /\ sin t = 2 * sin h * cos h /\ sin h * sin h + cos h * cos h = 1.
Proof.
  cbv zeta. replace (a * PI / 180) with (2 * radians (a * (1 / 2))) by (unfold radians; field).
  split_and!; [apply cos_2a|apply sin_2a|apply (sin2_cos2 (radians (a * (1 / 2))))].
Qed.
Lemma q_turn_x a v : qrotate (Q (sin (radians (a * (1 / 2)))) 0 0 (cos (radians (a * (1 / 2))))) v = turn_x a v.
Proof.
  destruct (half_angle a) as (C & S & N). unfold turn_x. rewrite C, S. set (s := sin _) in *. set (c := cos (radians _)) in *. clearbody s c. destruct v as [x y z].
  evq. apply v3_ext; cbn; try ring. transitivity ((s * s + c * c) * x); [ring|rewrite N; ring].
Qed.
Lemma q_turn_y a v : qrotate (Q 0 (sin (radians (a * (1 / 2)))) 0 (cos (radians (a * (1 / 2))))) v = turn_y a v.
Proof.
  destruct (half_angle a) as (C & S & N). unfold turn_y. rewrite C, S. set (s := sin _) in *. set (c := cos (radians _)) in *. clearbody s c. destruct v as [x y z].
  evq. apply v3_ext; cbn; try ring. transitivity ((s * s + c * c) * y); [ring|rewrite N; ring].
Qed.
Lemma q_turn_z a v : qrotate (Q 0 0 (sin (radians (a * (1 / 2)))) (cos (radians (a * (1 / 2))))) v = turn_z a v.
Proof.
  destruct (half_angle a) as (C & S & N). unfold turn_z. rewrite C, S. set (s := sin _) in *. set (c := cos (radians _)) in *. clearbody s c. destruct v as [x y z].
  evq. apply v3_ext; cbn; try ring. transitivity ((s * s + c * c) * z); [ring|rewrite N; ring].
Qed.
Lemma req_true a b : req a b = true <-> a = b.
Proof. unfold req. destruct (Req_EM_T a b); split; intros; done || congruence. Qed.
Lemma eq3_true a b : eq3 a b = true <-> a = b.
Proof.
  unfold eq3. rewrite !andb_true_iff, !req_true. destruct a, b. cbn. split; [intros [[-> ->] ->]; done|]. intros E. injection E. intros. subst. done.
Qed.
Lemma euler_formula a : euler a = Q 0 0 (-1) 0 /\ (a = V3 0 0 180 \/ a = V3 180 0 0) \/
  euler a = qmul (qmul (Q 0 0 (sin (radians (z3 a * (1 / 2)))) (cos (radians (z3 a * (1 / 2))))) (Q 0 (sin (radians (y3 a * (1 / 2)))) 0 (cos (radians (y3 a * (1 / 2))))))
                 (Q (sin (radians (x3 a * (1 / 2)))) 0 0 (cos (radians (x3 a * (1 / 2))))).
Proof.
  unfold euler. destruct (eq3 a (V3 0 0 180)) eqn:E1; [left; apply eq3_true in E1; auto|].
  destruct (eq3 a (V3 180 0 0)) eqn:E2; [left; apply eq3_true in E2; auto|]. right. cbn [orb]. evq. apply q_eq; ring.
Qed.
Lemma turn_180 : 180 * PI / 180 = PI. Proof. field. Qed.
Lemma turn_0 : 0 * PI / 180 = 0. Proof. field. Qed.

(** [Quat::euler] turns about x, then y, then z by the given degrees, unless the angles are
    (180, 0, 0). *)
Theorem euler_turns_partial (angles v : v3) : angles <> V3 180 0 0 ->
  qnorm2 (euler angles) = 1 /\ qrotate (euler angles) v = turn_xyz angles v.
Proof.
  intros Ne. destruct (euler_formula angles) as [[E [->|A]]|E]; [|done|].
  - rewrite E. split; [evq; ring|]. unfold turn_xyz, turn_x, turn_y, turn_z. cbn [x3 y3 z3]. rewrite turn_180, turn_0, cos_PI, sin_PI, cos_0, sin_0.
    destruct v as [x y z]. evq. apply v3_ext; cbn; ring.
  - rewrite E. split.
    + rewrite !(proj1 (quat_norm_conjugate _ _)). destruct (half_angle (x3 angles)) as (_ & _ & Nx), (half_angle (y3 angles)) as (_ & _ & Ny), (half_angle (z3 angles)) as (_ & _ & Nz).
      unfold qnorm2. cbn [qx qy qz qw]. set (sx := sin (radians (x3 angles * _))) in *. set (sy := sin (radians (y3 angles * _))) in *. set (sz := sin (radians (z3 angles * _))) in *.
      set (kx := cos (radians (x3 angles * _))) in *. set (ky := cos (radians (y3 angles * _))) in *. set (kz := cos (radians (z3 angles * _))) in *.
      transitivity ((sz * sz + kz * kz) * (sy * sy + ky * ky) * (sx * sx + kx * kx)); [ring|rewrite Nx, Ny, Nz; ring].
    + rewrite !(proj1 (quat_compose _ _ _)), q_turn_x, q_turn_y, q_turn_z. done.
Qed.
(** For (180, 0, 0), half a turn about x, it turns about z instead: the x axis is reversed and the z
    axis kept. *)
Theorem euler_180_refuted : exists v, qrotate (euler (V3 180 0 0)) v <> turn_xyz (V3 180 0 0) v /\
  forall v, qrotate (euler (V3 180 0 0)) v = turn_z 180 v.
Proof.
  assert (E : euler (V3 180 0 0) = Q 0 0 (-1) 0).
  { destruct (euler_formula (V3 180 0 0)) as [[E _]|E]; [done|]. unfold euler in *. rewrite (proj2 (eq3_true (V3 180 0 0) (V3 180 0 0)) eq_refl), orb_true_r. done. }
  rewrite E. exists (V3 1 0 0). split.
  - unfold turn_xyz, turn_x, turn_y, turn_z. cbn [x3 y3 z3]. rewrite turn_180, turn_0, cos_PI, sin_PI, cos_0, sin_0. evq. intros H. apply (f_equal x3) in H. cbn in H. lra.
  - intros [x y z]. unfold turn_z. rewrite turn_180, cos_PI, sin_PI. evq. apply v3_ext; cbn; ring.
Qed.

(** ** Back and forth *)
Lemma hypot_sq x y : hypot x y * hypot x y = x * x + y * y.
Proof. unfold hypot. apply sqrt_sqrt. nra. Qed.
Lemma hypot_pos x y : 0 <= hypot x y.
Proof. apply sqrt_pos. Qed.
Lemma hypot_scale x y : x <> 0 -> hypot x y = Rabs x * sqrt (1 + (y / x)²).
Proof.
  intros Hx. unfold hypot. rewrite <-(sqrt_Rsqr_abs x), <-sqrt_mult; [|apply Rle_0_sqr|unfold Rsqr; nra]. f_equal. unfold Rsqr. field. done.
Qed.
Lemma atan2_spec y x : x <> 0 \/ y <> 0 -> cos (atan2 y x) = x / hypot x y /\ sin (atan2 y x) = y / hypot x y.
Proof.
  intros Nz. unfold atan2.
  assert (P : 0 < sqrt (1 + (y / x)²)) by (apply sqrt_lt_R0; unfold Rsqr; nra).
  destruct (Rlt_dec 0 x) as [Hx|Hx].
  { rewrite cos_atan, sin_atan, hypot_scale, Rabs_pos_eq by lra. split; field; lra. }
  destruct (Rlt_dec x 0) as [Hx'|Hx'].
  { assert (A : cos (atan (y / x)) = - x / hypot x y * -1 * -1 /\ sin (atan (y / x)) = - y / hypot x y).
    { rewrite cos_atan, sin_atan, hypot_scale, Rabs_left by lra. split; field; lra. }
    destruct A as [A1 A2]. assert (hypot x y <> 0). { rewrite hypot_scale, Rabs_left by lra. nra. }
    destruct (Rle_dec 0 y).
    - rewrite neg_cos, neg_sin, A1, A2. split; field; done.
    - replace (atan (y / x) - PI) with (- (- atan (y / x) + PI)) by ring. rewrite cos_neg, sin_neg, neg_cos, neg_sin, cos_neg, sin_neg, A1, A2. split; field; done. }
  assert (x = 0) by lra. subst x. assert (H : hypot 0 y = Rabs y). { unfold hypot. replace (0 * 0 + y * y) with (y²) by (unfold Rsqr; ring). apply sqrt_Rsqr_abs. }
  rewrite H. destruct (Rlt_dec 0 y).
  { rewrite cos_PI2, sin_PI2, Rabs_pos_eq by lra. split; field; lra. }
  destruct (Rlt_dec y 0); [|lra].
  rewrite cos_neg, sin_neg, cos_PI2, sin_PI2, Rabs_left by lra. split; field; lra.
Qed.
Lemma deg_rad a : degrees a * PI / 180 = a.
Proof. unfold degrees. field. apply PI_neq0. Qed.
(** The columns of a rotation: an orthonormal right-handed frame. *)
Lemma rotation_cols m : rotation (mat_rotate m) -> exists ax ay az bx by' bz cx cy cz,
  xyz (col0 m) = V3 ax ay az /\ xyz (col1 m) = V3 bx by' bz /\ xyz (col2 m) = V3 cx cy cz /\
  ax * ax + ay * ay + az * az = 1 /\ bx * bx + by' * by' + bz * bz = 1 /\ ax * bx + ay * by' + az * bz = 0 /\
  cx = ay * bz - az * by' /\ cy = az * bx - ax * bz /\ cz = ax * by' - ay * bx /\
  (forall v, mat_rotate m v = V3 (ax * x3 v + bx * y3 v + cx * z3 v) (ay * x3 v + by' * y3 v + cy * z3 v) (az * x3 v + bz * y3 v + cz * z3 v)).
Proof.
  intros [I V]. pose proof (I (V3 1 0 0) (V3 1 0 0)) as Iaa. pose proof (I (V3 0 1 0) (V3 0 1 0)) as Ibb. pose proof (I (V3 0 0 1) (V3 0 0 1)) as Icc.
  pose proof (I (V3 1 0 0) (V3 0 1 0)) as Iab. pose proof (V (V3 1 0 0) (V3 0 1 0) (V3 0 0 1)) as Vo. clear I V.
  destruct m as [[ax ay az aw] [bx by' bz bw] [cx cy cz cw] d]. revert Iaa Ibb Icc Iab Vo. unfold inner, volume. evq. intros.
  exists ax, ay, az, bx, by', bz, cx, cy, cz. cbn [col0 col1 col2 x4 y4 z4 w4].
  assert (A : ax * ax + ay * ay + az * az = 1) by (ring_simplify in Iaa; lra || nra).
  assert (B : bx * bx + by' * by' + bz * bz = 1) by (ring_simplify in Ibb; nra).
  assert (C : cx * cx + cy * cy + cz * cz = 1) by (ring_simplify in Icc; nra).
  assert (D : ax * bx + ay * by' + az * bz = 0) by (ring_simplify in Iab; nra).
  assert (W : cx * (ay * bz - az * by') + cy * (az * bx - ax * bz) + cz * (ax * by' - ay * bx) = 1) by (ring_simplify in Vo; nra).
  assert (L : (ay * bz - az * by') * (ay * bz - az * by') + (az * bx - ax * bz) * (az * bx - ax * bz) + (ax * by' - ay * bx) * (ax * by' - ay * bx) = 1).
  { transitivity ((ax * ax + ay * ay + az * az) * (bx * bx + by' * by' + bz * bz) - (ax * bx + ay * by' + az * bz) * (ax * bx + ay * by' + az * bz)); [ring|rewrite A, B, D; ring]. }
  clear Iaa Ibb Icc Iab Vo.
  set (px := ay * bz - az * by') in *. set (py := az * bx - ax * bz) in *. set (pz := ax * by' - ay * bx) in *.
  assert (S0 : (cx - px) * (cx - px) + (cy - py) * (cy - py) + (cz - pz) * (cz - pz) = 0) by lra.
  pose proof (Rle_0_sqr (cx - px)) as X. pose proof (Rle_0_sqr (cy - py)) as Y. pose proof (Rle_0_sqr (cz - pz)) as Z. unfold Rsqr in X, Y, Z.
  assert (cx = px) by (apply Rminus_diag_uniq, Rsqr_0_uniq; unfold Rsqr; lra).
  assert (cy = py) by (apply Rminus_diag_uniq, Rsqr_0_uniq; unfold Rsqr; lra).
  assert (cz = pz) by (apply Rminus_diag_uniq, Rsqr_0_uniq; unfold Rsqr; lra).
  split_and!; done.
Qed.
Lemma turn_general ax ay az bx by' bz cx cy cz k e v :
  ax * ax + ay * ay + az * az = 1 -> ax * bx + ay * by' + az * bz = 0 ->
  cx = ay * bz - az * by' -> cy = az * bx - ax * bz -> cz = ax * by' - ay * bx ->
  k <> 0 -> k * k = ax * ax + ay * ay ->
  cos (x3 e) = cz / k -> sin (x3 e) = bz / k -> cos (y3 e) = k -> sin (y3 e) = - az -> cos (z3 e) = ax / k -> sin (z3 e) = ay / k ->
  turn_xyz (V3 (degrees (x3 e)) (degrees (y3 e)) (degrees (z3 e))) v =
  V3 (ax * x3 v + bx * y3 v + cx * z3 v) (ay * x3 v + by' * y3 v + cy * z3 v) (az * x3 v + bz * y3 v + cz * z3 v).
Proof.
  intros A D Cx Cy Cz Nk K C1 S1 C2 S2 C3 S3. unfold turn_xyz, turn_x, turn_y, turn_z. cbn [x3 y3 z3]. rewrite !deg_rad, C1, S1, C2, S2, C3, S3.
  assert (D' : - az * bz = ax * bx + ay * by') by lra.
  assert (E1 : ax / k * - az * (bz / k) - ay / k * (cz / k) = bx).
  { transitivity ((ax * (- az * bz) - ay * cz) / (k * k)); [field; done|]. rewrite D', Cz, K. field. rewrite <-K. nra. }
  assert (E2 : ay / k * - az * (bz / k) + ax / k * (cz / k) = by').
  { transitivity ((ay * (- az * bz) + ax * cz) / (k * k)); [field; done|]. rewrite D', Cz, K. field. rewrite <-K. nra. }
  assert (K1 : k * k = 1 - az * az) by lra.
  assert (E3 : ax / k * - az * (cz / k) + ay / k * (bz / k) = cx).
  { transitivity ((ay * bz - ax * az * cz) / (k * k)); [field; done|]. rewrite Cx, Cz.
    replace (ay * bz - ax * az * (ax * by' - ay * bx)) with (ay * bz - az * (ax * ax * by' - ay * (ax * bx))) by ring.
    replace (ax * bx) with (- az * bz - ay * by') by lra.
    replace (ay * bz - az * (ax * ax * by' - ay * (- az * bz - ay * by'))) with (ay * bz * (1 - az * az) - az * by' * (ax * ax + ay * ay)) by ring.
    rewrite <-K, <-K1. field. done. }
  assert (E4 : ay / k * - az * (cz / k) - ax / k * (bz / k) = cy).
  { transitivity ((- ay * az * cz - ax * bz) / (k * k)); [field; done|]. rewrite Cy, Cz.
    replace (- ay * az * (ax * by' - ay * bx) - ax * bz) with (az * (ay * ay * bx - ax * (ay * by')) - ax * bz) by ring.
    replace (ay * by') with (- az * bz - ax * bx) by lra.
    replace (az * (ay * ay * bx - ax * (- az * bz - ax * bx)) - ax * bz) with (az * bx * (ax * ax + ay * ay) - ax * bz * (1 - az * az)) by ring.
    rewrite <-K, <-K1. field. done. }
  apply v3_ext; cbn [x3 y3 z3].
  - rewrite <-E1, <-E3. field. done.
  - rewrite <-E2, <-E4. field. done.
  - field. done.
Qed.

(** For every rotation, [Quat::euler] of [Mat4::to_euler] is that rotation, unless the pitch is within
    2e-6 of a quarter turn without being one, or the angles found are (180, 0, 0). *)
Theorem euler_roundtrip_partial (m : mat) (v : v3) : rotation (mat_rotate m) ->
  (hypot (x4 (col0 m)) (y4 (col0 m)) = 0 \/ EPS_F < hypot (x4 (col0 m)) (y4 (col0 m))) ->
  turn_xyz (to_euler m) v = mat_rotate m v /\
  (to_euler m <> V3 180 0 0 -> qrotate (euler (to_euler m)) v = mat_rotate m v).
Proof.
  intros Rm G. assert (T : turn_xyz (to_euler m) v = mat_rotate m v); [|split; [done|intros Ne; rewrite <-T; apply euler_turns_partial; done]].
  destruct (rotation_cols m Rm) as (ax & ay & az & bx & by' & bz & cx & cy & cz & Ea & Eb & Ec & A & B & D & Cx & Cy & Cz & E). rewrite E. clear E Rm.
  assert (Pe : 0 < EPS_F < 1 / 8) by (unfold EPS_F; lra).
  unfold to_euler. destruct m as [[ax' ay' az' aw] [bx' by'' bz' bw] [cx' cy' cz' cw] d]. cbv [xyz x4 y4 z4 col0 col1 col2] in Ea, Eb, Ec.
  injection Ea as -> -> ->. injection Eb as -> -> ->. injection Ec as -> -> ->. cbn [x4 y4 z4 w4 col0 col1 col2 col3] in *.
  assert (Rz : bz * bz + cz * cz = 1 - az * az).
  { rewrite Cz. transitivity (bz * bz + ((ax * ax + ay * ay) * (bx * bx + by' * by') - (ax * bx + ay * by') * (ax * bx + ay * by'))); [ring|].
    replace (ax * ax + ay * ay) with (1 - az * az) by lra. replace (bx * bx + by' * by') with (1 - bz * bz) by lra. replace (ax * bx + ay * by') with (- az * bz) by lra. ring. }
  match goal with |- context [if ?b then V3 0 0 180 else _] => assert (Sb : b = false) end.
  { apply not_true_is_false. intros H. rewrite !andb_true_iff in H. destruct H as [[[[[[[[[[[H1 H2] H3] _] H4] H5] H6] _] H7] H8] H9] _].
    unfold near in H1, H2, H4, H5, H9. repeat match goal with H : (if ?d then _ else _) = true |- _ => destruct d; [|discriminate] end.
    repeat match goal with H : Rabs _ < _ |- _ => apply Rabs_def2 in H end. nra. }
  rewrite Sb. clear Sb. set (h := hypot ax ay) in *.
  assert (Hh : h * h = ax * ax + ay * ay) by apply hypot_sq. assert (Ph : 0 <= h) by apply hypot_pos.
  assert (Hyz : forall x, x * x = h * h -> hypot x (- az) = 1). { intros x Ex. unfold hypot. rewrite Ex, Hh. replace (ax * ax + ay * ay + - az * - az) with 1 by lra. apply sqrt_1. }
  destruct (Rlt_dec EPS_F h) as [Hc|Hc].
  - assert (Nh : h <> 0) by lra.
    assert (Na : ax <> 0 \/ ay <> 0) by (destruct (Req_dec ax 0); [right; intros ->; subst; nra|auto]).
    assert (Hbc : hypot cz bz = h). { unfold hypot. replace (cz * cz + bz * bz) with (h * h) by lra. apply sqrt_square. done. }
    assert (Nb : cz <> 0 \/ bz <> 0) by (destruct (Req_dec cz 0); [right; intros ->; subst; nra|auto]).
    assert (Hn : forall x y, hypot (- x) (- y) = hypot x y) by (intros; unfold hypot; f_equal; ring).
    match goal with |- context [if Rlt_dec ?a ?b then _ else _] => destruct (Rlt_dec a b) end.
    + refine (turn_general ax ay az bx by' bz cx cy cz (- h) (V3 _ _ _) v A D Cx Cy Cz _ _ _ _ _ _ _ _); cbn [x3 y3 z3]; [lra|lra|..].
      all: try (destruct (atan2_spec (- bz) (- cz)) as [P1 P2]; [lra|]; rewrite Hn, Hbc in P1, P2).
      all: try (destruct (atan2_spec (- az) (- h)) as [P3 P4]; [lra|]; rewrite Hyz in P3, P4 by ring).
      all: try (destruct (atan2_spec (- ay) (- ax)) as [P5 P6]; [lra|]; rewrite Hn in P5, P6; fold h in P5, P6).
      all: first [rewrite P1|rewrite P2|rewrite P3|rewrite P4|rewrite P5|rewrite P6]; field; lra.
    + refine (turn_general ax ay az bx by' bz cx cy cz h (V3 _ _ _) v A D Cx Cy Cz _ _ _ _ _ _ _ _); cbn [x3 y3 z3]; [lra|lra|..].
      all: destruct (atan2_spec bz cz) as [P1 P2]; [lra|]; rewrite Hbc in P1, P2.
      all: destruct (atan2_spec (- az) h) as [P3 P4]; [lra|]; rewrite Hyz in P3, P4 by ring.
      all: destruct (atan2_spec ay ax) as [P5 P6]; [lra|]; fold h in P5, P6.
      all: first [rewrite P1|rewrite P2|rewrite P3|rewrite P4|rewrite P5|rewrite P6]; field; lra.
  - destruct G as [G|G]; [|lra]. rewrite G in *. assert (ax = 0) by nra. assert (ay = 0) by nra. subst ax ay.
    assert (bz = 0) by nra. assert (cz = 0) by lra. subst bz.
    assert (Az : az * az = 1) by lra.
    assert (Hy : hypot by' (- cy) = 1). { unfold hypot. rewrite Cy. replace (by' * by' + - (az * bx - 0 * 0) * - (az * bx - 0 * 0)) with (by' * by' + (az * az) * (bx * bx)) by ring. rewrite Az. replace (_ + _) with 1 by lra. apply sqrt_1. }
    match goal with |- context [if Rlt_dec ?a ?a then _ else _] => destruct (Rlt_dec a a); [lra|] end. cbn [x3 y3 z3].
    destruct (atan2_spec (- az) 0) as [P3 P4]; [right; nra|]. rewrite Hyz in P3, P4 by ring.
    destruct (atan2_spec (- cy) by') as [P1 P2].
    { destruct (Req_dec by' 0) as [->|]; [right|auto]. rewrite Cy. intros Q0. assert (Q1 : az * bx = 0) by lra. assert (Q2 : bx * bx = 1) by lra. assert (Q3 : az * az * (bx * bx) = 0) by (transitivity ((az * bx) * (az * bx)); [ring|rewrite Q1; ring]). rewrite Az, Q2 in Q3. lra. }
    rewrite Hy in P1, P2. unfold turn_xyz, turn_x, turn_y, turn_z. cbn [x3 y3 z3]. rewrite !deg_rad, P1, P2, P3, P4, cos_0, sin_0.
    destruct v as [x y z]. cbn [x3 y3 z3]. subst cz cy cx. apply v3_ext; cbn [x3 y3 z3].
    + transitivity (- az * (- (az * bx) * -1 * -1 * y) * 1 + - az * by' * z); [field|]. transitivity (az * az * bx * y - az * by' * z); [ring|]. rewrite Az. ring.
    + field.
    + field.
Qed.
Lemma euler_180 : euler (V3 180 0 0) = Q 0 0 (-1) 0.
Proof. unfold euler. rewrite (proj2 (eq3_true (V3 180 0 0) (V3 180 0 0)) eq_refl), orb_true_r. done. Qed.
(** The same for the angles of a unit quaternion. *)
Theorem euler_quat_roundtrip_partial (q : quat) (v : v3) : qnorm2 q = 1 ->
  (let c := hypot (1 - 2 * qy q * qy q - 2 * qz q * qz q) (2 * qx q * qy q + 2 * qz q * qw q) in c = 0 \/ EPS_F < c) ->
  qto_euler q <> V3 180 0 0 -> qrotate (euler (qto_euler q)) v = qrotate q v.
Proof.
  intros N G Ne. unfold qto_euler in *. rewrite (qunit_id q N) in *. destruct (quat_rotate q v N) as (M & _ & Rq & _ & _). rewrite <-M.
  apply euler_roundtrip_partial; [| |done].
  - destruct Rq as [R1 R2]. split; intros; rewrite !(fun u => proj1 (quat_rotate q u N)); [apply R1|apply R2].
  - destruct q. exact G.
Qed.
(** Half a turn about x comes back as half a turn about z. *)
Theorem euler_roundtrip_refuted : qnorm2 (Q 1 0 0 0) = 1 /\ qto_euler (Q 1 0 0 0) = V3 180 0 0 /\
  qrotate (Q 1 0 0 0) (V3 1 0 0) = V3 1 0 0 /\ qrotate (euler (qto_euler (Q 1 0 0 0))) (V3 1 0 0) = V3 (-1) 0 0.
Proof.
  assert (N : qnorm2 (Q 1 0 0 0) = 1) by (evq; lra).
  assert (E : qto_euler (Q 1 0 0 0) = V3 180 0 0).
  { unfold qto_euler. rewrite qunit_id by done. unfold to_mat, to_euler. cbn [col0 col1 col2 x4 y4 z4 w4].
    match goal with |- context [if ?b then V3 0 0 180 else _] => assert (Sb : b = false) end.
    { apply not_true_is_false. intros H. rewrite !andb_true_iff in H. destruct H as [[_ H9] _]. unfold near in H9. destruct (Rlt_dec _ _) as [L|]; [|discriminate].
      apply Rabs_def2 in L. unfold EPS_F in L. lra. }
    rewrite Sb.
    replace (hypot _ _) with 1. 2:{ unfold hypot. symmetry. replace (_ + _) with 1 by lra. apply sqrt_1. }
    destruct (Rlt_dec EPS_F 1); [|unfold EPS_F in *; lra].
    assert (A0 : forall y x, y = 0 -> 0 < x -> atan2 y x = 0).
    { intros y x -> Hx. unfold atan2. destruct (Rlt_dec 0 x); [|lra]. replace (0 / x) with 0 by (field; lra). apply atan_0. }
    assert (A1 : forall y x, y = 0 -> x < 0 -> atan2 y x = PI).
    { intros y x -> Hx. unfold atan2. destruct (Rlt_dec 0 x); [lra|]. destruct (Rlt_dec x 0); [|lra]. destruct (Rle_dec 0 0); [|lra]. replace (0 / x) with 0 by (field; lra). rewrite atan_0. ring. }
    rewrite (A1 (2 * 0 * 0 + 2 * 1 * 0)), (A0 (- (2 * 1 * 0 - 2 * 0 * 0)) 1), (A0 (2 * 1 * 0 + 2 * 0 * 0)), (A0 (- (2 * 0 * 0 + 2 * 1 * 0))), (A1 (- (2 * 1 * 0 - 2 * 0 * 0)) (-(1))), (A1 (- (2 * 1 * 0 + 2 * 0 * 0))) by lra.
    cbn [x3 y3 z3]. pose proof PI_RGT_0. rewrite Rabs_R0, (Rabs_pos_eq PI) by lra.
    destruct (Rlt_dec _ _); [lra|]. cbn [x3 y3 z3]. unfold degrees. apply v3_ext; cbn; field; lra. }
  rewrite E, euler_180. split_and!; [done|done|evq; parts; ring..].
Qed.
(** A pitch within 2e-6 of a quarter turn is taken for one and the yaw is lost. *)
Theorem euler_gimbal_refuted : exists m, rotation (mat_rotate m) /\ 0 < hypot (x4 (col0 m)) (y4 (col0 m)) < EPS_F /\
  x3 (mat_rotate m (V3 1 0 0)) = 0 /\ x3 (qrotate (euler (to_euler m)) (V3 1 0 0)) <> 0.
Proof.
  set (e := EPS_F / 2). assert (Pe : 0 < e < 1 / 8 /\ e < EPS_F) by (unfold e, EPS_F; lra). clearbody e.
  set (s := sqrt (1 - e * e)). assert (Hs : s * s = 1 - e * e) by (apply sqrt_sqrt; nra). assert (Ps : 0 < s) by (apply sqrt_lt_R0; nra). clearbody s.
  exists (Mat (V4 0 e (- s) 0) (V4 (-1) 0 0 0) (V4 0 s e 0) (V4 0 0 0 1)). cbn [col0 col1 col2 x4 y4].
  assert (H0 : hypot 0 e = e). { unfold hypot. replace (0 * 0 + e * e) with (e * e) by ring. apply sqrt_square. lra. }
  assert (He : hypot e s = 1). { unfold hypot. rewrite Hs. replace (e * e + (1 - e * e)) with 1 by ring. apply sqrt_1. }
  split_and!.
  - split.
    + intros u v. quats. unfold inner. evq. ring_simplify. replace (s ^ 2) with (1 - e * e) by (rewrite <-Hs; ring). ring.
    + intros a b c. quats. unfold volume. evq. ring_simplify. replace (s ^ 2) with (1 - e * e) by (rewrite <-Hs; ring). ring.
  - rewrite H0. lra.
  - rewrite H0. lra.
  - evq. ring.
  - assert (E : to_euler (Mat (V4 0 e (- s) 0) (V4 (-1) 0 0 0) (V4 0 s e 0) (V4 0 0 0 1)) = V3 (degrees (- (PI / 2))) (degrees (atan2 s e)) (degrees 0)).
    { unfold to_euler. cbn [col0 col1 col2 x4 y4 z4 w4]. rewrite H0.
      replace (near 0 1) with false. 2:{ symmetry. unfold near. destruct (Rlt_dec _ _) as [L|]; [|done]. apply Rabs_def2 in L. unfold EPS_F in L. lra. }
      cbn [andb]. destruct (Rlt_dec EPS_F e); [lra|]. destruct (Rlt_dec _ _); [lra|]. cbn [x3 y3 z3]. f_equal.
      - f_equal. unfold atan2. destruct (Rlt_dec 0 0); [lra|]. destruct (Rlt_dec 0 (- s)); [lra|]. destruct (Rlt_dec (- s) 0); [done|lra].
      - f_equal. f_equal. ring. }
    rewrite E. destruct (euler_turns_partial (V3 (degrees (- (PI / 2))) (degrees (atan2 s e)) (degrees 0)) (V3 1 0 0)) as [_ T].
    { intros H. apply (f_equal x3) in H. cbn in H. pose proof PI_RGT_0. unfold degrees in H. assert (- (PI / 2) * (180 / PI) = -90) by (field; lra). lra. }
    rewrite T. unfold turn_xyz, turn_x, turn_y, turn_z. cbn [x3 y3 z3]. rewrite !deg_rad, cos_0, sin_0.
    destruct (atan2_spec s e) as [P1 P2]; [lra|]. rewrite He in P1, P2. rewrite P1, P2. lra.
Qed.
(** The matrix that [to_euler] singles out, and gives the angles of half a turn about z, is not a
    rotation. *)
Theorem euler_single_refuted : let m := Mat (V4 1 0 0 0) (V4 0 (-1) 0 0) (V4 0 0 1 0) (V4 0 0 0 1) in
  to_euler m = V3 0 0 180 /\ reflection (mat_rotate m) /\ mat_rotate m (V3 1 0 0) = V3 1 0 0 /\ turn_xyz (V3 0 0 180) (V3 1 0 0) = V3 (-1) 0 0.
Proof.
  cbv zeta. split_and!.
  - unfold to_euler. cbn [col0 col1 col2 x4 y4 z4 w4].
    assert (Nr : forall a, near a a = true). { intros. unfold near. destruct (Rlt_dec _ _) as [|L]; [done|]. rewrite Rminus_eq_0, Rabs_R0 in L. unfold EPS_F in L. lra. }
    rewrite !Nr. done.
  - split; intros; quats; unfold inner, volume; evq; ring.
  - evq. parts; ring.
  - unfold turn_xyz, turn_x, turn_y, turn_z. cbn [x3 y3 z3]. rewrite turn_180, turn_0, cos_PI, sin_PI, cos_0, sin_0. parts; ring.
Qed.

(** A rotation that meets the hypotheses of the round trip. *)
Example euler_case : let q := Q 0 0 (3/5) (4/5) in qnorm2 q = 1 /\
  EPS_F < hypot (1 - 2 * qy q * qy q - 2 * qz q * qz q) (2 * qx q * qy q + 2 * qz q * qw q) /\
  rotation (mat_rotate (to_mat q)) /\ qto_euler q <> V3 180 0 0 /\ V3 10 20 30 <> V3 180 0 0.
Proof.
  cbv zeta. assert (N : qnorm2 (Q 0 0 (3/5) (4/5)) = 1) by (evq; lra).
  assert (H : EPS_F < hypot (1 - 2 * qy (Q 0 0 (3/5) (4/5)) * qy (Q 0 0 (3/5) (4/5)) - 2 * qz (Q 0 0 (3/5) (4/5)) * qz (Q 0 0 (3/5) (4/5))) (2 * qx (Q 0 0 (3/5) (4/5)) * qy (Q 0 0 (3/5) (4/5)) + 2 * qz (Q 0 0 (3/5) (4/5)) * qw (Q 0 0 (3/5) (4/5)))).
  { unfold hypot. cbn [qx qy qz qw]. replace (_ + _) with 1 by lra. rewrite sqrt_1. unfold EPS_F. lra. }
  assert (Rm : rotation (mat_rotate (to_mat (Q 0 0 (3/5) (4/5))))).
  { destruct (quat_rotate _ (V3 0 0 0) N) as (_ & _ & [R1 R2] & _ & _). split; intros; rewrite !(fun u => proj1 (quat_rotate _ u N)); [apply R1|apply R2]. }
  split_and!; [done|exact H|done| |].
  - intros E. unfold qto_euler in E. rewrite (qunit_id _ N) in E.
    destruct (euler_roundtrip_partial _ (V3 1 0 0) Rm (or_intror H)) as [T _]. rewrite E in T. apply (f_equal x3) in T. revert T. rewrite (proj1 (quat_rotate _ _ N)).
    unfold turn_xyz, turn_x, turn_y, turn_z. cbn [x3 y3 z3]. rewrite turn_180, turn_0, cos_PI, sin_PI, cos_0, sin_0. evq. lra.
  - intros E. injection E. lra.
Qed.

Print Assumptions euler_turns_partial.
Print Assumptions euler_180_refuted.
Print Assumptions euler_roundtrip_partial.
Print Assumptions euler_quat_roundtrip_partial.
Print Assumptions euler_roundtrip_refuted.
Print Assumptions euler_gimbal_refuted.
Print Assumptions euler_single_refuted.
