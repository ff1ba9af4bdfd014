(** C59: quaternion algebra, in exact arithmetic. *)
From Verif Require Import Base Mat4Model Mat4Spec TransformSpec Mat4Props TransformProps QuatModel.
From Coq Require Import Reals Lra Lia.
Open Scope R_scope.

Ltac evq := cbv [qmul qscale qadd qsub qneg conjugate complex real qnorm2 qrotate quat_of quat_id to_mat qx qy qz qw
  mat_rotate mat_point mat_mul mul_col mat_I xyz add4 sub4 mul4 set1 col0 col1 col2 col3 x4 y4 z4 w4 x3 y3 z3 scale3 add3].
Lemma q_eq a b c d a' b' c' d' : a = a' -> b = b' -> c = c' -> d = d' -> Q a b c d = Q a' b' c' d'.
Proof. intros -> -> -> ->. reflexivity. Qed.
Ltac qparts := first [apply q_eq|parts].
Ltac quats := repeat match goal with q : quat |- _ => destruct q as [? ? ? ?] end; repeat match goal with v : v3 |- _ => destruct v as [? ? ?] end.

(** The product is Hamilton's: bilinear, associative, with unit 1, and i*j = k and so on. *)
Theorem quat_product (a b c : quat) (s : R) :
  qmul (qmul a b) c = qmul a (qmul b c) /\ qmul quat_id a = a /\ qmul a quat_id = a /\
  qmul (qadd a b) c = qadd (qmul a c) (qmul b c) /\ qmul c (qadd a b) = qadd (qmul c a) (qmul c b) /\
  qmul (qscale a s) b = qscale (qmul a b) s /\ qmul a (qscale b s) = qscale (qmul a b) s /\
  qadd a (qneg a) = Q 0 0 0 0 /\ qsub a b = qadd a (qneg b) /\
  let i := Q 1 0 0 0 in let j := Q 0 1 0 0 in let k := Q 0 0 1 0 in
  qmul i j = k /\ qmul j k = i /\ qmul k i = j /\ qmul i i = qneg quat_id /\ qmul j j = qneg quat_id /\ qmul k k = qneg quat_id.
Proof. quats. cbv zeta. evq. split_and!; qparts; ring. Qed.
(** Norms multiply; conjugation reverses products, is an involution, and q * conj(q) is the norm. *)
Theorem quat_norm_conjugate (a b : quat) :
  qnorm2 (qmul a b) = qnorm2 a * qnorm2 b /\ qnorm (qmul a b) = qnorm a * qnorm b /\
  conjugate (qmul a b) = qmul (conjugate b) (conjugate a) /\ conjugate (conjugate a) = a /\
  qmul a (conjugate a) = qscale quat_id (qnorm2 a) /\ qmul (conjugate a) a = qscale quat_id (qnorm2 a).
Proof.
  assert (N : qnorm2 (qmul a b) = qnorm2 a * qnorm2 b) by (quats; evq; ring). split_and!; [done| |quats; evq; qparts; ring..].
  unfold qnorm. rewrite N. apply sqrt_mult; quats; evq; nra.
Qed.
Lemma qnorm_spec q : qnorm2 q <> 0 -> qnorm q > 0 /\ qnorm q * qnorm q = qnorm2 q.
Proof.
  intros N. assert (P : 0 < qnorm2 q) by (assert (0 <= qnorm2 q) by (quats; evq; nra); lra).
  unfold qnorm. split; [apply sqrt_lt_R0; done|apply sqrt_sqrt; lra].
Qed.
(** [unit()] of a non-zero quaternion has norm one and the same direction. *)
Theorem quat_unit (q : quat) : qnorm2 q <> 0 -> qnorm2 (qunit q) = 1 /\ q = qscale (qunit q) (qnorm q) /\ qnorm q > 0.
Proof.
  intros N. destruct (qnorm_spec q N) as [P E]. split_and!; [| |done].
  - unfold qunit, qnorm2. cbn. replace (_ + _) with (qnorm2 q / (qnorm q * qnorm q)) by (unfold qnorm2; field; lra). rewrite E. field. done.
  - destruct q as [x y z w]. unfold qunit, qscale. set (n := qnorm _) in *. clearbody n. cbn. apply q_eq; field; lra.
Qed.
(** [inverse()] of a unit quaternion is its inverse. *)
Theorem quat_inverse (q : quat) : qnorm2 q = 1 -> qmul q (qinverse q) = quat_id /\ qmul (qinverse q) q = quat_id /\ qinverse q = conjugate q.
Proof.
  intros N. assert (I : qinverse q = conjugate q).
  { unfold qinverse, qunit. assert (E : qnorm (conjugate q) = 1).
    { unfold qnorm. replace (qnorm2 (conjugate q)) with (qnorm2 q) by (unfold qnorm2; cbn; ring). rewrite N. apply sqrt_1. }
    rewrite E. destruct q. apply q_eq; cbn; field. }
  rewrite I. destruct (quat_norm_conjugate q q) as (_ & _ & _ & _ & A & B). rewrite A, B, N. split_and!; [| |done]; evq; qparts; ring.
Qed.
(** For any other quaternion it is not: the product is the norm, not one. *)
Theorem quat_inverse_refuted (q : quat) : qnorm2 q <> 0 -> qmul q (qinverse q) = qscale quat_id (qnorm q) /\
  (qmul q (qinverse q) = quat_id <-> qnorm2 q = 1).
Proof.
  intros N. destruct (qnorm_spec q N) as [P E].
  assert (Nc : qnorm (conjugate q) = qnorm q) by (unfold qnorm; f_equal; unfold qnorm2; cbn; ring).
  assert (A : qmul q (qinverse q) = qscale quat_id (qnorm q)).
  { unfold qinverse, qunit. rewrite Nc.
    assert (M : qmul q (Q (qx (conjugate q) / qnorm q) (qy (conjugate q) / qnorm q) (qz (conjugate q) / qnorm q) (qw (conjugate q) / qnorm q)) = qscale quat_id (qnorm2 q / qnorm q)).
    { unfold qnorm2. set (n := qnorm q) in *. clearbody n. destruct q. evq. apply q_eq; field; lra. }
    rewrite M, <-E. f_equal. field. lra. }
  split; [done|]. rewrite A. split.
  - intros H. apply (f_equal qw) in H. cbn in H. rewrite <-E. nra.
  - intros H. rewrite H in E. assert (qnorm q = 1) by nra. rewrite H0. evq. qparts; ring.
Qed.

(** [to_mat()] agrees with [rotate()] on unit quaternions, both are rotations that keep the axis,
    and a quaternion and its negative are the same rotation. *)
Lemma qrotate_inner q u v : inner (qrotate q u) (qrotate q v) = qnorm2 q * qnorm2 q * inner u v.
Proof. quats. unfold inner. evq. ring. Qed.
Lemma qrotate_volume q a b c : volume (qrotate q a) (qrotate q b) (qrotate q c) = qnorm2 q * qnorm2 q * qnorm2 q * volume a b c.
Proof. quats. unfold volume. evq. ring. Qed.
Lemma to_mat_rotate q v : qrotate q v = add3 (mat_rotate (to_mat q) v) (scale3 v (qnorm2 q - 1)).
Proof. quats. evq. qparts; ring. Qed.
Theorem quat_rotate (q : quat) (v : v3) : qnorm2 q = 1 ->
  mat_rotate (to_mat q) v = qrotate q v /\ mat_point (to_mat q) v = qrotate q v /\ rotation (qrotate q) /\
  qrotate q (complex q) = complex q /\ qrotate (qneg q) v = qrotate q v.
Proof.
  intros N. assert (M : forall v, mat_rotate (to_mat q) v = qrotate q v).
  { intros u. rewrite to_mat_rotate, N. apply v3_ext; cbn; ring. }
  split_and!.
  - apply M.
  - rewrite <-M. quats. evq. qparts; ring.
  - split; intros.
    + rewrite qrotate_inner, N. ring.
    + rewrite qrotate_volume, N. ring.
  - assert (E : qrotate q (complex q) = scale3 (complex q) (qnorm2 q)) by (quats; evq; qparts; ring). rewrite E, N. apply v3_ext; cbn; ring.
  - quats. evq. qparts; ring.
Qed.
(** Rotating by a product is rotating by the right factor and then by the left one, for vectors and
    for matrices. *)
Lemma to_mat_cols q : to_mat q = Mat (ext (mat_rotate (to_mat q) (V3 1 0 0)) 0) (ext (mat_rotate (to_mat q) (V3 0 1 0)) 0) (ext (mat_rotate (to_mat q) (V3 0 0 1)) 0) (V4 0 0 0 1).
Proof. quats. unfold ext. evq. qparts; ring. Qed.
Theorem quat_compose (a b : quat) (v : v3) : qrotate (qmul a b) v = qrotate a (qrotate b v) /\
  (qnorm2 a = 1 -> qnorm2 b = 1 -> to_mat (qmul a b) = mat_mul (to_mat a) (to_mat b)).
Proof.
  assert (C : forall v, qrotate (qmul a b) v = qrotate a (qrotate b v)) by (intros; quats; evq; qparts; ring).
  split; [apply C|]. intros Na Nb.
  assert (Nab : qnorm2 (qmul a b) = 1) by (rewrite (proj1 (quat_norm_conjugate a b)), Na, Nb; ring).
  assert (MC : forall u, ext (mat_rotate (to_mat a) u) 0 = mul_col (to_mat a) (ext u 0)) by (intros; quats; unfold ext; evq; qparts; ring).
  rewrite (to_mat_cols (qmul a b)), (to_mat_cols b) at 1.
  rewrite !(fun u => proj1 (quat_rotate (qmul a b) u Nab)), !C, <-!(fun u => proj1 (quat_rotate a u Na)), <-!(fun u => proj1 (quat_rotate b u Nb)), !MC.
  unfold mat_mul. cbn [col0 col1 col2 col3]. f_equal. destruct a. evq. qparts; ring.
Qed.

(** [==] compares all four components. *)
Theorem quat_equality (a b : quat) : (qeq a b = true <-> a = b) /\ qne a b = negb (qeq a b).
Proof.
  split.
  - destruct a, b. unfold qeq, req. cbn. repeat (destruct (Req_EM_T _ _); subst; cbn); split; intros E; (done || (injection E; intros; congruence)).
  - unfold qne, qeq. rewrite !negb_andb. done.
Qed.

(** ** Axis and angle *)
Lemma qunit_id q : qnorm2 q = 1 -> qunit q = q.
Proof. intros N. unfold qunit, qnorm. rewrite N, sqrt_1. destruct q. apply q_eq; cbn; field. Qed.
Lemma axis_angle_eq axis a : axis <> zero3 ->
  axis_angle axis a = Q (sin (radians a / 2) * x3 (unit3 axis)) (sin (radians a / 2) * y3 (unit3 axis)) (sin (radians a / 2) * z3 (unit3 axis)) (cos (radians a / 2)) /\
  qnorm2 (axis_angle axis a) = 1.
Proof.
  intros Nz. pose proof (unit_inner axis Nz) as U. pose proof (sin2_cos2 (radians a / 2)) as SC. unfold Rsqr in SC. unfold axis_angle.
  set (n := unit3 axis) in *. set (s := sin _) in *. set (c := cos _) in *.
  assert (N : qnorm2 (Q (s * x3 n) (s * y3 n) (s * z3 n) c) = 1).
  { unfold inner in U. transitivity (s * s * (x3 n * x3 n + y3 n * y3 n + z3 n * z3 n) + c * c); [cbv [qnorm2 qx qy qz qw]; ring|]. rewrite U. lra. }
  rewrite qunit_id by done. done.
Qed.
(** The quaternion of an axis and an angle in degrees is the same rotation as [Mat4::rotate], namely
    the one by that angle about that axis. *)
Theorem quat_axis_angle (axis : v3) (a : R) : axis <> zero3 ->
  qnorm2 (axis_angle axis a) = 1 /\ to_mat (axis_angle axis a) = rotate a axis /\
  turns (qrotate (axis_angle axis a)) (unit3 axis) (a * PI / 180).
Proof.
  intros Nz. destruct (axis_angle_eq axis a Nz) as [E N]. split; [done|].
  assert (M : to_mat (axis_angle axis a) = rotate a axis).
  { rewrite E. unfold rotate. pose proof (unit_inner axis Nz) as U. unfold inner in U. set (n := unit3 axis) in *. clearbody n. destruct n as [x y z]. cbn in U.
    pose proof (sin2_cos2 (radians a / 2)) as SC. unfold Rsqr in SC.
    assert (C2 : cos (radians a) = 1 - 2 * sin (radians a / 2) * sin (radians a / 2)).
    { replace (radians a) with (2 * (radians a / 2)) at 1 by field. apply cos_2a_sin. }
    assert (S2 : sin (radians a) = 2 * sin (radians a / 2) * cos (radians a / 2)).
    { replace (radians a) with (2 * (radians a / 2)) at 1 by field. apply sin_2a. }
    rewrite C2, S2. set (s := sin (radians a / 2)) in *. set (c := cos (radians a / 2)) in *. clearbody s c.
    assert (X : x * x = 1 - y * y - z * z) by lra.
    cbv [to_mat scale3 x3 y3 z3]. parts; try ring.
    - transitivity (1 - 2 * s * s + 2 * s * s * (x * x)); [rewrite X; ring|ring].
    - transitivity (1 - 2 * s * s * (x * x) - 2 * s * s * (z * z)); [ring|rewrite X; ring].
    - transitivity (1 - 2 * s * s * (x * x) - 2 * s * s * (y * y)); [ring|rewrite X; ring]. }
  split; [done|]. destruct (rotate_turns a axis Nz) as ([T1 T2] & _ & _). rewrite <-M in T1, T2.
  assert (R : forall v, mat_rotate (to_mat (axis_angle axis a)) v = qrotate (axis_angle axis a) v) by (intros; apply quat_rotate; done).
  split; [rewrite <-R; done|]. intros v Hv. rewrite <-R. apply T2. done.
Qed.

(** A unit quaternion that is not trivial, and what it does. *)
Example quat_case : qnorm2 (Q 0 0 (3/5) (4/5)) = 1 /\ qrotate (Q 0 0 (3/5) (4/5)) (V3 1 0 0) = V3 (7/25) (24/25) 0 /\
  qnorm2 (Q 1 0 0 1) <> 1 /\ V3 1 2 2 <> zero3.
Proof.
  split_and!.
  - evq. lra.
  - evq. parts; lra.
  - evq. lra.
  - intros E. injection E. lra.
Qed.

Print Assumptions quat_product.
Print Assumptions quat_norm_conjugate.
Print Assumptions quat_unit.
Print Assumptions quat_inverse.
Print Assumptions quat_inverse_refuted.
Print Assumptions quat_rotate.
Print Assumptions quat_compose.
Print Assumptions quat_equality.
Print Assumptions quat_axis_angle.
