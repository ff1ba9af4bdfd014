(** C78: the transform constructors of Mat4, in exact arithmetic. *)
From Verif Require Import Base Mat4Model Mat4Spec TransformSpec Mat4Props.
From Coq Require Import Reals Lra Lia.
Open Scope R_scope.

Ltac evt := cbv [mat_rotate mat_point mat_mul mul_col mat_I scale translate rotate xyz ext add4 sub4 mul4 set1 col0 col1 col2 col3 x4 y4 z4 w4 x3 y3 z3
  cross3 volume inner dot3 sub3 scale3 add3 neg3].
Lemma v3_ext a b : x3 a = x3 b -> y3 a = y3 b -> z3 a = z3 b -> a = b.
Proof. destruct a, b. cbn. intros -> -> ->. reflexivity. Qed.
Lemma dot_inner a b : dot3 a b = inner a b.
Proof. unfold dot3, inner. ring. Qed.
Lemma length2_pos v : v <> zero3 -> 0 < length2 v.
Proof.
  intros Nz. destruct v as [x y z]. unfold length2. cbn. destruct (Req_EM_T x 0) as [->|]; [destruct (Req_EM_T y 0) as [->|]; [destruct (Req_EM_T z 0) as [->|]|]|]; [done|nra..].
Qed.
Lemma norm_spec v : v <> zero3 -> norm3 v > 0 /\ norm3 v * norm3 v = length2 v.
Proof.
  intros Nz. pose proof (length2_pos v Nz) as P. unfold norm3. replace (dot3 v v) with (length2 v) by (unfold dot3, length2; ring).
  split; [apply sqrt_lt_R0; done|apply sqrt_sqrt; lra].
Qed.
Theorem vec_unit (v : v3) : v <> zero3 -> is_unit_of (unit3 v) v /\ norm3 v * norm3 v = length2 v.
Proof.
  intros Nz. destruct (norm_spec v Nz) as [P E]. split; [|done]. unfold is_unit_of, unit3. split.
  - unfold length2 in *. cbn. replace (x3 v / norm3 v * (x3 v / norm3 v) + y3 v / norm3 v * (y3 v / norm3 v) + z3 v / norm3 v * (z3 v / norm3 v))
      with ((x3 v * x3 v + y3 v * y3 v + z3 v * z3 v) / (norm3 v * norm3 v)) by (field; lra). rewrite <-E. field. lra.
  - exists (norm3 v). split; [done|]. apply v3_ext; cbn; field; lra.
Qed.
Lemma unit_inner v : v <> zero3 -> inner (unit3 v) (unit3 v) = 1.
Proof. intros Nz. apply (vec_unit v Nz). Qed.
Lemma unit_scale v : v <> zero3 -> unit3 v = scale3 v (/ norm3 v).
Proof. intros. apply v3_ext; cbn; unfold Rdiv; ring. Qed.

(** Three identities of products of vectors. *)
Lemma gram s f u v : volume s f u * volume s f v =
  inner s s * (inner f f * inner u v - inner f v * inner f u) - inner s f * (inner s f * inner u v - inner f v * inner s u)
  + inner s u * (inner s f * inner f v - inner s v * inner f f) + (inner s f * inner s v * inner f u - inner s f * inner s u * inner f v) .
Proof. destruct s, f, u, v. unfold volume, inner. cbn. ring. Qed.

(** Three vectors as rows: orthonormal S, F and their product. *)
Definition frame (S F d : v3) : v3 := V3 (inner S d) (volume S F d) (- inner F d).
Lemma frame_rotation S F : inner S S = 1 -> inner F F = 1 -> inner S F = 0 -> rotation (frame S F).
Proof.
  intros SS FF SF. split.
  - intros u v. unfold frame. unfold inner at 1. cbn. rewrite gram, SS, FF, SF. ring.
  - intros a b c.
    assert (E : volume (frame S F a) (frame S F b) (frame S F c) = (inner S S * inner F F - inner S F * inner S F) * volume a b c).
    { destruct S, F, a, b, c. unfold frame, volume, inner. cbn. ring. }
    rewrite E, SS, FF, SF. ring.
Qed.
Lemma cross_volume a b v : inner (cross3 a b) v = volume a b v.
Proof. destruct a, b, v. unfold cross3, inner, volume. cbn. ring. Qed.
Lemma cross_self a b : inner (cross3 a b) a = 0.
Proof. destruct a, b. unfold cross3, inner. cbn. ring. Qed.
Lemma inner_scale_l a b k : inner (scale3 a k) b = k * inner a b.
Proof. unfold inner, scale3. cbn. ring. Qed.
Lemma inner_sym a b : inner a b = inner b a.
Proof. unfold inner. ring. Qed.

(** ** look_at *)
Lemma look_at_frame pos at' up v : let F := unit3 (sub3 at' pos) in let S := unit3 (cross3 F up) in
  mat_rotate (look_at pos at' up) v = frame S F v /\ mat_point (look_at pos at' up) v = frame S F (sub3 v pos).
Proof.
  cbv zeta. unfold look_at. set (F := unit3 (sub3 at' pos)). set (S := unit3 (cross3 F up)). clearbody F S. split; apply v3_ext; destruct S, F, v, pos;
    unfold frame; evt; ring.
Qed.
(** For a viewpoint other than the target and an up direction not along the view: the matrix takes
    the viewpoint to the origin and the target to the negative z axis, at its distance; it keeps
    distances, angles and handedness; and up points up. *)
Theorem look_at_view (pos at' up : v3) : sub3 at' pos <> zero3 -> cross3 (sub3 at' pos) up <> zero3 ->
  let M := look_at pos at' up in
  mat_point M pos = zero3 /\ (exists d, d > 0 /\ d * d = length2 (sub3 at' pos) /\ mat_point M at' = V3 0 0 (- d)) /\
  rotation (mat_rotate M) /\ (forall p q, sub3 (mat_point M p) (mat_point M q) = mat_rotate M (sub3 p q)) /\
  x3 (mat_rotate M up) = 0 /\ y3 (mat_rotate M up) > 0.
Proof.
  intros N1 N2. cbv zeta. set (w := sub3 at' pos) in *. set (F := unit3 w). set (S := unit3 (cross3 F up)).
  destruct (norm_spec w N1) as [Pw Ew].
  assert (EF : cross3 F up = scale3 (cross3 w up) (/ norm3 w)).
  { apply v3_ext; cbn; unfold F, unit3, Rdiv; cbn; ring. }
  assert (N3 : cross3 F up <> zero3).
  { rewrite EF. intros E. apply N2. injection E as E1 E2 E3. assert (I : / norm3 w <> 0) by (apply Rinv_neq_0_compat; lra).
    apply v3_ext; cbn; [apply (Rmult_eq_reg_r (/ norm3 w)); [rewrite Rmult_0_l; exact E1|done]|
      apply (Rmult_eq_reg_r (/ norm3 w)); [rewrite Rmult_0_l; exact E2|done]|apply (Rmult_eq_reg_r (/ norm3 w)); [rewrite Rmult_0_l; exact E3|done]]. }
  assert (FF : inner F F = 1) by (apply unit_inner; done).
  assert (SS : inner S S = 1) by (apply unit_inner; done).
  destruct (norm_spec _ N3) as [Pc Ec].
  assert (SF : inner S F = 0).
  { unfold S. rewrite (unit_scale _ N3), inner_scale_l, cross_self. ring. }
  assert (L : forall v, mat_rotate (look_at pos at' up) v = frame S F v /\ mat_point (look_at pos at' up) v = frame S F (sub3 v pos)) by apply look_at_frame.
  split_and!.
  - rewrite (proj2 (L pos)). apply v3_ext; unfold frame, inner, volume, sub3; cbn; ring.
  - exists (norm3 w). split_and!; [done|done|]. rewrite (proj2 (L at')). fold w.
    assert (W : w = scale3 F (norm3 w)) by (unfold F, unit3; apply v3_ext; cbn; field; lra).
    unfold frame. rewrite W at 1 2 3. rewrite !(inner_sym _ (scale3 _ _)), !inner_scale_l, (inner_sym F S), SF, FF.
    apply v3_ext; cbn; unfold volume, scale3; cbn; ring.
  - destruct (frame_rotation S F SS FF SF) as [R1 R2]. split.
    + intros u v. rewrite (proj1 (L u)), (proj1 (L v)). apply R1.
    + intros a b c. rewrite (proj1 (L a)), (proj1 (L b)), (proj1 (L c)). apply R2.
  - intros p q. rewrite (proj2 (L p)), (proj2 (L q)), (proj1 (L (sub3 p q))). apply v3_ext; unfold frame, inner, volume, sub3; cbn; ring.
  - rewrite (proj1 (L up)). cbn. unfold S. rewrite (unit_scale _ N3), inner_scale_l, cross_volume. unfold volume. ring.
  - rewrite (proj1 (L up)). cbn.
    assert (V : volume S F up = / norm3 (cross3 F up) * length2 (cross3 F up)).
    { unfold S. rewrite (unit_scale _ N3). set (k := / norm3 (cross3 F up)). unfold volume, scale3, cross3, length2. cbn. ring. }
    rewrite V, <-Ec. replace (/ _ * _) with (norm3 (cross3 F up)) by (field; lra). done.
Qed.

(** ** scale and translate *)
Theorem scale_translate (s v p : v3) :
  mat_point (scale s) p = V3 (x3 s * x3 p) (y3 s * y3 p) (z3 s * z3 p) /\ mat_rotate (scale s) p = mat_point (scale s) p /\
  mat_point (translate v) p = add3 p v /\ mat_rotate (translate v) p = p /\
  mat_mul (translate v) (translate p) = translate (add3 v p) /\ mat_mul (translate (neg3 v)) (translate v) = mat_I.
Proof.
  mats. evt.
  split_and!; parts; ring.
Qed.

(** ** rotate *)
Lemma rodrigues a axis v : let n := unit3 axis in
  mat_rotate (rotate a axis) v = add3 (add3 (scale3 v (cos (radians a))) (scale3 (cross3 n v) (sin (radians a)))) (scale3 n ((1 - cos (radians a)) * inner n v)).
Proof.
  cbv zeta. unfold rotate. set (n := unit3 axis). clearbody n. generalize (cos (radians a)) (sin (radians a)). intros c s.
  destruct n, v. apply v3_ext; evt; ring.
Qed.
(** [rotate(a, axis)] is the rotation by [a] degrees about the axis. *)
Theorem rotate_turns (a : R) (axis : v3) : axis <> zero3 ->
  turns (mat_rotate (rotate a axis)) (unit3 axis) (a * PI / 180) /\ rotation (mat_rotate (rotate a axis)) /\
  (forall p, mat_point (rotate a axis) p = mat_rotate (rotate a axis) p).
Proof.
  intros Nz. pose proof (unit_inner axis Nz) as U. assert (Ra : radians a = a * PI / 180) by (unfold radians, Rdiv; ring).
  pose proof (sin2_cos2 (radians a)) as SC. unfold Rsqr in SC.
  split_and!.
  - unfold turns. rewrite <-Ra. split.
    + rewrite rodrigues, U. apply v3_ext; cbn; ring.
    + intros v Pv. rewrite rodrigues. unfold perpendicular in Pv. rewrite Pv. apply v3_ext; cbn; ring.
  - set (n := unit3 axis) in *. set (c := cos (radians a)) in *. set (s := sin (radians a)) in *. split.
    + intros u v. rewrite !rodrigues. fold n c s.
      assert (E : inner (add3 (add3 (scale3 u c) (scale3 (cross3 n u) s)) (scale3 n ((1 - c) * inner n u)))
                        (add3 (add3 (scale3 v c) (scale3 (cross3 n v) s)) (scale3 n ((1 - c) * inner n v))) =
        c * c * inner u v + s * s * (inner n n * inner u v - inner n u * inner n v) + (2 * c * (1 - c) + (1 - c) * (1 - c) * inner n n) * (inner n u * inner n v)).
      { clear. destruct n, u, v. unfold inner, add3, scale3, cross3. cbn. ring. }
      rewrite E, U. transitivity ((s * s + c * c) * inner u v + (1 - (s * s + c * c)) * (inner n u * inner n v)); [ring|]. rewrite SC. ring.
    + intros p q r. rewrite !rodrigues. fold n c s.
      assert (E : volume (add3 (add3 (scale3 p c) (scale3 (cross3 n p) s)) (scale3 n ((1 - c) * inner n p)))
                         (add3 (add3 (scale3 q c) (scale3 (cross3 n q) s)) (scale3 n ((1 - c) * inner n q)))
                         (add3 (add3 (scale3 r c) (scale3 (cross3 n r) s)) (scale3 n ((1 - c) * inner n r))) =
        (c * c + s * s * inner n n) * (c + (1 - c) * inner n n) * volume p q r).
      { clear. destruct n, p, q, r. unfold volume, inner, add3, scale3, cross3. cbn. ring. }
      rewrite E, U. transitivity ((s * s + c * c) * volume p q r); [ring|]. rewrite SC. ring.
  - intros p. destruct p. apply v3_ext; evt; ring.
Qed.

(** ** ortho: the sides of the box go to -1 and 1... *)
Theorem ortho_sides_partial (l r b t n f z : R) : l <> r -> b <> t -> n <> f ->
  let M := ortho l r b t n f in
  (forall y, x3 (mat_point M (V3 l y z)) = -1 /\ x3 (mat_point M (V3 r y z)) = 1) /\
  (forall x, y3 (mat_point M (V3 x b z)) = -1 /\ y3 (mat_point M (V3 x t z)) = 1) /\
  (forall x y, z3 (mat_point M (V3 x y (- n))) = n / (f - n) /\ z3 (mat_point M (V3 x y (- f))) = (2 * f - n) / (f - n)) /\
  (forall v, mat_vec M (ext v 1) = ext (mat_point M v) 1).
Proof.
  intros Lr Bt Nf. assert (r - l <> 0) by lra. assert (t - b <> 0) by lra. assert (n - f <> 0) by lra. assert (f - n <> 0) by lra. cbv zeta. split_and!.
  - intros y. split; cbv [mat_point ortho xyz add4 mul4 set1 col0 col1 col2 col3 x4 y4 z4 w4 x3 y3 z3]; field; done.
  - intros x. split; cbv [mat_point ortho xyz add4 mul4 set1 col0 col1 col2 col3 x4 y4 z4 w4 x3 y3 z3]; field; done.
  - intros x y. split; cbv [mat_point ortho xyz add4 mul4 set1 col0 col1 col2 col3 x4 y4 z4 w4 x3 y3 z3]; field; done.
  - intros [x y w]. cbv [mat_point mat_vec ext ortho xyz add4 mul4 set1 col0 col1 col2 col3 x4 y4 z4 w4 x3 y3 z3]. parts; ring.
Qed.
(** ...but the near and the far plane do not: with near 1 and far 3 they go to 1/2 and 5/2, so neither
    of the usual depth ranges, -1..1 or 0..1 in either direction, is the image of the box. *)
Theorem ortho_depth_refuted :
  ~ (forall l r b t n f, l < r -> b < t -> 0 < n < f ->
       let d z := z3 (mat_point (ortho l r b t n f) (V3 l b z)) in
       (d (- n) = -1 /\ d (- f) = 1) \/ (d (- n) = 1 /\ d (- f) = -1) \/ (d (- n) = 0 /\ d (- f) = 1) \/ (d (- n) = 1 /\ d (- f) = 0)).
Proof.
  intros H. specialize (H 0 1 0 1 1 3 ltac:(lra) ltac:(lra) ltac:(lra)). cbv beta zeta in H.
  destruct (ortho_sides_partial 0 1 0 1 1 3 0 ltac:(lra) ltac:(lra) ltac:(lra)) as (_ & _ & D & _). destruct (D 0 0) as [D1 D2].
  rewrite D1, D2 in H. lra.
Qed.

(** ** proj: after the division by w, a point in front of the eye at depth [n] has depth 1, farther
    points have smaller positive depth, and the edges of the field of view go to -1 and 1 (y down). *)
Definition divide (v : v4) : v3 := V3 (x4 v / w4 v) (y4 v / w4 v) (z4 v / w4 v).   (* Vect::proj(), vmath.h:278-284 *)
Theorem proj_view (fov ar n x y d : R) : 0 < fov < 180 -> ar > 0 -> n > 0 -> d > 0 ->
  let p := divide (mat_vec (proj fov ar n) (V4 x y (- d) 1)) in
  let h := d * tan (fov * PI / 360) in
  h > 0 /\ z3 p = n / d /\ y3 p = - (y / h) /\ x3 p = x / (ar * h).
Proof.
  intros Hf Ha Hn Hd. cbv zeta.
  assert (Eq : radians fov / 2 = fov * PI / 360) by (unfold radians; field).
  pose proof PI_RGT_0 as Pi. assert (T : tan (fov * PI / 360) > 0) by (apply tan_gt_0; nra).
  unfold divide, proj. rewrite Eq. set (T' := tan (fov * PI / 360)) in *. clearbody T'.
  cbv [mat_vec add4 mul4 set1 col0 col1 col2 col3 x4 y4 z4 w4 x3 y3 z3]. split_and!; [nra|field; lra|field; lra|field; lra].
Qed.
Corollary proj_edges (fov ar n d : R) : 0 < fov < 180 -> ar > 0 -> n > 0 -> d > n ->
  let M := proj fov ar n in
  let h z := z * tan (fov * PI / 360) in
  z3 (divide (mat_vec M (V4 0 0 (- n) 1))) = 1 /\ 0 < z3 (divide (mat_vec M (V4 0 0 (- d) 1))) < 1 /\
  y3 (divide (mat_vec M (V4 0 (h d) (- d) 1))) = -1 /\ x3 (divide (mat_vec M (V4 (ar * h d) 0 (- d) 1))) = 1.
Proof.
  intros Hf Ha Hn Hd. cbv zeta.
  destruct (proj_view fov ar n 0 0 n Hf Ha Hn Hn) as (H1 & E1 & _). destruct (proj_view fov ar n 0 0 d Hf Ha Hn ltac:(lra)) as (H2 & E2 & _).
  destruct (proj_view fov ar n 0 (d * tan (fov * PI / 360)) d Hf Ha Hn ltac:(lra)) as (_ & _ & E3 & _).
  destruct (proj_view fov ar n (ar * (d * tan (fov * PI / 360))) 0 d Hf Ha Hn ltac:(lra)) as (_ & _ & _ & E4).
  rewrite E1, E2, E3, E4. split_and!; [field; lra|apply Rdiv_lt_0_compat; lra| | |].
  - apply (Rmult_lt_reg_r d); [lra|]. unfold Rdiv. rewrite Rmult_assoc, Rinv_l by lra. lra.
  - field. split; [intros E|]; [rewrite E in H2|]; lra.
  - field. split_and!; [intros E; rewrite E in H2; lra|lra|lra].
Qed.

(** ** rotate_y_to, rotate_z_to *)
Lemma y_to_frame d : inner d d = 1 -> ~ Rabs (y3 d - 1) < EPS_F -> ~ Rabs (y3 d + 1) < EPS_F ->
  let x := unit3 (cross3 d (V3 0 1 0)) in unit3 (cross3 x d) = cross3 x d /\ inner x x = 1 /\ inner x d = 0.
Proof.
  intros U A B. cbv zeta. assert (Ep : EPS_F > 0) by (unfold EPS_F; lra).
  assert (N : cross3 d (V3 0 1 0) <> zero3).
  { intros E. injection E as E1 E2 E3. cbn in *. assert (z3 d = 0) by lra. assert (x3 d = 0) by lra. unfold inner in U.
    assert (Y : y3 d * y3 d = 1) by nra. assert (C : y3 d = 1 \/ y3 d = -1) by (destruct (Rmult_integral (y3 d - 1) (y3 d + 1)); [nra|left; lra|right; lra]).
    destruct C as [C|C]; rewrite C in *; [apply A|apply B]; [replace (1 - 1) with 0 by lra|replace (-1 + 1) with 0 by lra]; rewrite Rabs_R0; done. }
  assert (XX := unit_inner _ N). assert (XD : inner (unit3 (cross3 d (V3 0 1 0))) d = 0) by (rewrite (unit_scale _ N), inner_scale_l, cross_self; ring).
  split_and!; [|done|done]. set (x := unit3 (cross3 d (V3 0 1 0))) in *. clearbody x.
  assert (ZZ : length2 (cross3 x d) = 1).
  { replace (length2 (cross3 x d)) with (inner x x * inner d d - inner x d * inner x d) by (unfold length2, inner, cross3; cbn; ring). rewrite XX, U, XD. ring. }
  assert (Nn : norm3 (cross3 x d) = 1).
  { unfold norm3. replace (dot3 (cross3 x d) (cross3 x d)) with (length2 (cross3 x d)) by (unfold dot3, length2; ring). rewrite ZZ. apply sqrt_1. }
  unfold unit3. rewrite Nn. apply v3_ext; cbn; field.
Qed.
Definition columns (a b c v : v3) : v3 := add3 (add3 (scale3 a (x3 v)) (scale3 b (y3 v))) (scale3 c (z3 v)).
Lemma columns_rotation x d : inner x x = 1 -> inner d d = 1 -> inner x d = 0 -> rotation (columns x d (cross3 x d)).
Proof.
  intros XX DD XD. split.
  - intros u v.
    assert (E : inner (columns x d (cross3 x d) u) (columns x d (cross3 x d) v) =
      inner x x * (x3 u * x3 v) + inner d d * (y3 u * y3 v) + inner x d * (x3 u * y3 v + y3 u * x3 v) + (inner x x * inner d d - inner x d * inner x d) * (z3 u * z3 v)).
    { unfold columns, inner, cross3, add3, scale3. cbn. ring. }
    rewrite E, XX, DD, XD. unfold inner. ring.
  - intros a b c.
    assert (E : volume (columns x d (cross3 x d) a) (columns x d (cross3 x d) b) (columns x d (cross3 x d) c) = (inner x x * inner d d - inner x d * inner x d) * volume a b c).
    { destruct x, d, a, b, c. unfold columns, inner, volume, cross3, add3, scale3. cbn. ring. }
    rewrite E, XX, DD, XD. ring.
Qed.
(** Away from the y axis, [rotate_y_to(dir)] is a rotation that takes the y axis to the direction. *)
Theorem rotate_y_to_partial (dir : v3) : dir <> zero3 ->
  let d := unit3 dir in ~ Rabs (y3 d - 1) < EPS_F -> ~ Rabs (y3 d + 1) < EPS_F ->
  let M := rotate_y_to dir in
  mat_rotate M (V3 0 1 0) = d /\ is_unit_of d dir /\ rotation (mat_rotate M) /\ (forall p, mat_point M p = mat_rotate M p).
Proof.
  intros Nz. cbv zeta. intros A B. pose proof (unit_inner dir Nz) as U. destruct (y_to_frame (unit3 dir) U A B) as (Z & XX & XD).
  unfold rotate_y_to. destruct (Rlt_dec _ _); [done|]. destruct (Rlt_dec _ _); [done|]. rewrite Z.
  set (d := unit3 dir) in *. set (x := unit3 (cross3 d (V3 0 1 0))) in *.
  assert (E : forall v, mat_rotate (Mat (ext x 0) (ext d 0) (ext (cross3 x d) 0) (V4 0 0 0 1)) v = columns x d (cross3 x d) v).
  { intros v. apply v3_ext; unfold columns; evt; ring. }
  split_and!.
  - rewrite E. apply v3_ext; unfold columns, add3, scale3; cbn; ring.
  - apply (vec_unit dir Nz).
  - destruct (columns_rotation x d XX U XD) as [R1 R2]. split; intros; rewrite !E; [apply R1|apply R2].
  - intros p. apply v3_ext; evt; ring.
Qed.
(** Straight down, the result mirrors: it takes the y axis to the direction, but turns a right-handed
    frame into a left-handed one.  And close to straight up it is the identity, which does not take the
    y axis to the direction. *)
Theorem rotate_y_to_refuted :
  (mat_rotate (rotate_y_to (V3 0 (-1) 0)) (V3 0 1 0) = V3 0 (-1) 0 /\ ~ rotation (mat_rotate (rotate_y_to (V3 0 (-1) 0))) /\
   reflection (mat_rotate (rotate_y_to (V3 0 (-1) 0)))) /\
  (exists dir, dir <> zero3 /\ mat_rotate (rotate_y_to dir) (V3 0 1 0) <> unit3 dir).
Proof.
  assert (N : norm3 (V3 0 (-1) 0) = 1) by (unfold norm3, dot3; cbn; replace (0 + 0 * 0 + -1 * -1 + 0 * 0) with 1 by ring; apply sqrt_1).
  assert (U : unit3 (V3 0 (-1) 0) = V3 0 (-1) 0) by (unfold unit3; rewrite N; apply v3_ext; cbn; field).
  assert (E : forall v, mat_rotate (rotate_y_to (V3 0 (-1) 0)) v = V3 (x3 v) (- y3 v) (z3 v)).
  { intros v. unfold rotate_y_to. rewrite U. cbn [y3].
    destruct (Rlt_dec (Rabs (-1 - 1)) EPS_F) as [L|_].
    - exfalso. rewrite Rabs_left in L by lra. unfold EPS_F in L. lra.
    - destruct (Rlt_dec (Rabs (-1 + 1)) EPS_F) as [_|L].
      + apply v3_ext; evt; ring.
      + exfalso. apply L. replace (-1 + 1) with 0 by ring. rewrite Rabs_R0. unfold EPS_F. lra. }
  split_and!.
  - rewrite E. apply v3_ext; cbn; ring.
  - intros [_ V]. specialize (V (V3 1 0 0) (V3 0 1 0) (V3 0 0 1)). rewrite !E in V. unfold volume in V. cbn in V. lra.
  - split; intros; rewrite !E; unfold inner, volume; cbn; ring.
  - (* the unit vector proportional to (4 t, 4, 0) with t = 2^-11 *)
    set (t := / 2048). assert (Ht : 0 < t < / 1000) by (unfold t; lra).
    exists (V3 t 1 0). split; [intros H; injection H; lra|].
    assert (P : V3 t 1 0 <> zero3) by (intros H; injection H; lra). destruct (norm_spec _ P) as [Pn En]. unfold length2 in En. cbn in En.
    set (k := norm3 (V3 t 1 0)) in *. assert (K1 : 1 < k) by nra. assert (K2 : k < 1 + t * t) by nra.
    unfold rotate_y_to. destruct (Rlt_dec (Rabs (y3 (unit3 (V3 t 1 0)) - 1)) EPS_F) as [_|L].
    + intros H. apply (f_equal x3) in H. cbn in H. fold k in H. assert (t / k > 0) by (apply Rdiv_lt_0_compat; lra). lra.
    + exfalso. apply L. cbn. fold k. assert (Q : 1 / k - 1 = - ((k - 1) / k)) by (field; lra). rewrite Q, Rabs_Ropp.
      assert (X : 0 < (k - 1) / k < t * t).
      { split; [apply Rdiv_lt_0_compat; lra|]. apply (Rmult_lt_reg_r k); [lra|]. unfold Rdiv. rewrite Rmult_assoc, Rinv_l by lra. nra. }
      rewrite Rabs_pos_eq by lra. unfold EPS_F, t in *. lra.
Qed.
(** [rotate_z_to] takes the z axis to the opposite of the direction, not to the direction. *)
Theorem rotate_z_to_refuted (dir : v3) : dir <> zero3 ->
  let d := unit3 dir in ~ Rabs (y3 d - 1) < EPS_F -> ~ Rabs (y3 d + 1) < EPS_F ->
  let M := rotate_z_to dir in
  mat_rotate M (V3 0 0 1) = neg3 d /\ mat_rotate M (V3 0 0 1) <> d /\ rotation (mat_rotate M).
Proof.
  intros Nz. cbv zeta. intros A B. destruct (rotate_y_to_partial dir Nz A B) as (Y & I & [R1 R2] & _).
  assert (E : forall v, mat_rotate (rotate_z_to dir) v = mat_rotate (rotate_y_to dir) (V3 (x3 v) (- z3 v) (y3 v))).
  { intros v. unfold rotate_z_to. set (m := rotate_y_to dir). clearbody m. mats. apply v3_ext; evt; ring. }
  assert (Z : mat_rotate (rotate_z_to dir) (V3 0 0 1) = neg3 (unit3 dir)).
  { rewrite E. rewrite <-Y. cbn [x3 y3 z3]. set (m := rotate_y_to dir). clearbody m. mats. apply v3_ext; evt; ring. }
  split_and!; [done| |].
  - rewrite Z. intros H. destruct I as [L _]. unfold length2 in L. set (u := unit3 dir) in *. clearbody u. destruct u as [a b c]. injection H as H1 H2 H3. cbn in *. nra.
  - split; intros; rewrite !E.
    + rewrite R1. unfold inner. cbn. ring.
    + rewrite R2. unfold volume. cbn. ring.
Qed.

(** All constructors but [proj] give affine maps, whatever their arguments. *)
Lemma affine_row m : w4 (col0 m) = 0 -> w4 (col1 m) = 0 -> w4 (col2 m) = 0 -> w4 (col3 m) = 1 -> affine m.
Proof.
  destruct m as [[a b c d] [e f g h] [i j k l] [m n o p]]. cbn. intros -> -> -> -> [x y z]. split; apply v4_eq; cbv [mat_vec mat_point mat_rotate ext xyz add4 mul4 set1 col0 col1 col2 col3 x4 y4 z4 w4 x3 y3 z3]; ring.
Qed.
Theorem transforms_affine (pos at' up s v axis dir : v3) (a l r b t n f : R) :
  affine (look_at pos at' up) /\ affine (scale s) /\ affine (translate v) /\ affine (rotate a axis) /\ affine (ortho l r b t n f) /\
  affine (rotate_y_to dir) /\ affine (rotate_z_to dir) /\ affine mat_swap_x_z.
Proof.
  assert (Y : w4 (col0 (rotate_y_to dir)) = 0 /\ w4 (col1 (rotate_y_to dir)) = 0 /\ w4 (col2 (rotate_y_to dir)) = 0 /\ w4 (col3 (rotate_y_to dir)) = 1).
  { unfold rotate_y_to. destruct (Rlt_dec _ _); [|destruct (Rlt_dec _ _)]; done. }
  destruct Y as (Y0 & Y1 & Y2 & Y3). split_and!; apply affine_row; try reflexivity; try done. unfold rotate_z_to. cbn. rewrite Y1. ring.
Qed.
(** Witnesses. *)
Example look_at_hyp : sub3 (V3 0 0 0) (V3 1 2 3) <> zero3 /\ cross3 (sub3 (V3 0 0 0) (V3 1 2 3)) (V3 0 1 0) <> zero3.
Proof. split; intros H; injection H; lra. Qed.
Example y_to_hyp : V3 3 0 4 <> zero3 /\ ~ Rabs (y3 (unit3 (V3 3 0 4)) - 1) < EPS_F /\ ~ Rabs (y3 (unit3 (V3 3 0 4)) + 1) < EPS_F.
Proof.
  split_and!; [intros H; injection H; lra| |]; cbn; unfold EPS_F, Rdiv; rewrite Rmult_0_l; [rewrite Rabs_left by lra|rewrite Rabs_pos_eq by lra]; lra.
Qed.

Print Assumptions vec_unit.
Print Assumptions look_at_view.
Print Assumptions scale_translate.
Print Assumptions rotate_turns.
Print Assumptions ortho_sides_partial.
Print Assumptions ortho_depth_refuted.
Print Assumptions proj_view.
Print Assumptions proj_edges.
Print Assumptions rotate_y_to_partial.
Print Assumptions rotate_y_to_refuted.
Print Assumptions rotate_z_to_refuted.
Print Assumptions transforms_affine.
