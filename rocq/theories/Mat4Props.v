(** C58: matrix algebra, in exact arithmetic. *)
From Verif Require Import Base Mat4Model Mat4Spec.
From Coq Require Import Reals Lra Lia.
Open Scope R_scope.

(** The entry in row [r] and column [c]: [m[c][r]]. *)
Definition entry (m : mat) (r c : nat) : R := match at_ m c r with Ok x => x | _ => 0 end.

Lemma v4_eq a b c d a' b' c' d' : a = a' -> b = b' -> c = c' -> d = d' -> V4 a b c d = V4 a' b' c' d'.
Proof. intros -> -> -> ->. reflexivity. Qed.
Lemma mat_eq_cols a b c d a' b' c' d' : a = a' -> b = b' -> c = c' -> d = d' -> Mat a b c d = Mat a' b' c' d'.
Proof. intros -> -> -> ->. reflexivity. Qed.
Lemma v3_eq a b c a' b' c' : a = a' -> b = b' -> c = c' -> V3 a b c = V3 a' b' c'.
Proof. intros -> -> ->. reflexivity. Qed.
Ltac parts := first [apply mat_eq_cols; apply v4_eq|apply v4_eq|apply v3_eq].
Ltac ev := cbv [mat_mul mul_col mat_vec mat_point mat_rotate mat_mul_s mat_I mat_zero add4 sub4 mul4 div4 set1 xyz ext sw shuffle nth4 mat2_mul mat2_adj_mul mat2_mul_adj hadd
  inverse_parts inverse col0 col1 col2 col3 x4 y4 z4 w4 x3 y3 z3 entry at_ col lane mbind res_bind det sum Nat.ltb Nat.leb pow product identity Nat.eqb].
Ltac cases n := destruct n as [|[|[|[|n]]]]; try (exfalso; lia).
Ltac opened := cbn [entry at_ col lane mbind res_bind col0 col1 col2 col3 x4 y4 z4 w4].
Ltac mats := repeat match goal with m : mat |- _ => destruct m as [[? ? ? ?] [? ? ? ?] [? ? ? ?] [? ? ? ?]] end;
  repeat match goal with v : v4 |- _ => destruct v as [? ? ? ?] end;
  repeat match goal with v : v3 |- _ => destruct v as [? ? ?] end.

(** Indexing: a matrix has four columns of four entries, and asks for no other column. *)
Theorem mat_index (m : mat) (i j : nat) : (j < 4)%nat ->
  ((i < 4)%nat -> exists x, at_ m i j = Ok x) /\ ((4 <= i)%nat -> at_ m i j = Die) /\
  (forall x, (i < 4)%nat -> exists m', put m i j x = Ok m' /\ entry m' j i = x /\
     forall r c, (r < 4)%nat -> (c < 4)%nat -> (r, c) <> (j, i) -> entry m' r c = entry m r c).
Proof.
  intros Hj. split_and!.
  - intros Hi. cases i; cases j; eexists; reflexivity.
  - intros Hi. destruct i as [|[|[|[|i]]]]; try (exfalso; lia). reflexivity.
  - intros x Hi. cases i; cases j; (eexists; split_and!; [reflexivity|reflexivity|]; intros r c Hr Hc Ne; cases r; cases c; first [reflexivity|congruence]).
Qed.

(** The product is rows times columns. *)
Theorem mat_product (a b : mat) : same (entry (mat_mul a b)) (product (entry a) (entry b)).
Proof. intros r c Hr Hc. mats. cases r; cases c; ev; ring. Qed.
Theorem mat_arith (a b : mat) (s : R) (r c : nat) : (r < 4)%nat -> (c < 4)%nat ->
  entry (mat_add a b) r c = entry a r c + entry b r c /\ entry (mat_sub a b) r c = entry a r c - entry b r c /\
  entry (mat_add_s a s) r c = entry a r c + s /\ entry (mat_sub_s a s) r c = entry a r c - s /\
  entry (mat_mul_s a s) r c = entry a r c * s /\ entry (mat_div_s a s) r c = entry a r c / s /\
  entry mat_zero r c = 0 /\ entry mat_I r c = identity r c.
Proof. intros Hr Hc. cases r; cases c; split_and!; reflexivity. Qed.

Lemma mat_ext a b : same (entry a) (entry b) -> a = b.
Proof.
  intros H. destruct a as [[] [] [] []], b as [[] [] [] []].
  pose proof (H 0 0 ltac:(lia) ltac:(lia))%nat. pose proof (H 1 0 ltac:(lia) ltac:(lia))%nat. pose proof (H 2 0 ltac:(lia) ltac:(lia))%nat. pose proof (H 3 0 ltac:(lia) ltac:(lia))%nat.
  pose proof (H 0 1 ltac:(lia) ltac:(lia))%nat. pose proof (H 1 1 ltac:(lia) ltac:(lia))%nat. pose proof (H 2 1 ltac:(lia) ltac:(lia))%nat. pose proof (H 3 1 ltac:(lia) ltac:(lia))%nat.
  pose proof (H 0 2 ltac:(lia) ltac:(lia))%nat. pose proof (H 1 2 ltac:(lia) ltac:(lia))%nat. pose proof (H 2 2 ltac:(lia) ltac:(lia))%nat. pose proof (H 3 2 ltac:(lia) ltac:(lia))%nat.
  pose proof (H 0 3 ltac:(lia) ltac:(lia))%nat. pose proof (H 1 3 ltac:(lia) ltac:(lia))%nat. pose proof (H 2 3 ltac:(lia) ltac:(lia))%nat. pose proof (H 3 3 ltac:(lia) ltac:(lia))%nat.
  unfold entry in *. cbn in *. subst. reflexivity.
Qed.

(** Associative, with unit I; agrees with applying the matrices one after the other. *)
Theorem mat_mul_assoc (a b c : mat) : mat_mul (mat_mul a b) c = mat_mul a (mat_mul b c).
Proof. mats. ev. parts; ring. Qed.
Theorem mat_mul_unit (a : mat) : mat_mul mat_I a = a /\ mat_mul a mat_I = a.
Proof. mats. ev. split; parts; ring. Qed.
Theorem mat_mul_apply (a b : mat) (v : v4) : mat_vec (mat_mul a b) v = mat_vec a (mat_vec b v) /\ mat_vec mat_I v = v.
Proof. mats. ev. split; parts; ring. Qed.
(** Applying a matrix to a vector is rows times the vector; [M * Vec3] is on the point (v, 1),
    [M.rotate(v)] on the direction (v, 0). *)
Theorem mat_vec_entries (a : mat) (v : v4) (r : nat) : (r < 4)%nat ->
  lane (mat_vec a v) r = Ok (entry a r 0 * x4 v + entry a r 1 * y4 v + entry a r 2 * z4 v + entry a r 3 * w4 v).
Proof. intros Hr. mats. cases r; ev; f_equal; ring. Qed.
Theorem mat_point_direction (a : mat) (v : v3) :
  mat_point a v = xyz (mat_vec a (V4 (x3 v) (y3 v) (z3 v) 1)) /\ mat_rotate a v = xyz (mat_vec a (V4 (x3 v) (y3 v) (z3 v) 0)).
Proof. mats. ev. split; parts; ring. Qed.

(** Transposition swaps rows and columns, is an involution, and reverses products. *)
Lemma transpose_eq m : transpose m = Ok (Mat (V4 (x4 (col0 m)) (x4 (col1 m)) (x4 (col2 m)) (x4 (col3 m))) (V4 (y4 (col0 m)) (y4 (col1 m)) (y4 (col2 m)) (y4 (col3 m)))
  (V4 (z4 (col0 m)) (z4 (col1 m)) (z4 (col2 m)) (z4 (col3 m))) (V4 (w4 (col0 m)) (w4 (col1 m)) (w4 (col2 m)) (w4 (col3 m)))).
Proof. reflexivity. Qed.
Theorem mat_transpose (a : mat) : exists t, transpose a = Ok t /\ (forall r c, (r < 4)%nat -> (c < 4)%nat -> entry t r c = entry a c r) /\ transpose t = Ok a.
Proof.
  rewrite transpose_eq. eexists. split_and!; [reflexivity| |].
  - intros r c Hr Hc. cases r; cases c; reflexivity.
  - rewrite transpose_eq. mats. reflexivity.
Qed.
Theorem mat_transpose_product (a b t ta tb : mat) :
  transpose (mat_mul a b) = Ok t -> transpose a = Ok ta -> transpose b = Ok tb -> t = mat_mul tb ta.
Proof.
  rewrite !transpose_eq. intros [= <-] [= <-] [= <-]. mats. ev. parts; ring.
Qed.

(** [==] is equality of all entries and [!=] its negation. *)
Theorem mat_equality (a b : mat) : (mat_eq a b = true <-> a = b) /\ mat_ne a b = negb (mat_eq a b).
Proof.
  assert (E : forall u v, eq4 u v = true <-> u = v).
  { intros [u1 u2 u3 u4] [v1 v2 v3' v4']. unfold eq4. cbn. repeat destruct (Req_EM_T _ _); subst; cbn; split; intros; try done; congruence. }
  split.
  - destruct a, b. unfold mat_eq. cbn. rewrite !andb_true_iff, !E. split; [intros [[[-> ->] ->] ->]; done|intros [= -> -> -> ->]; done].
  - unfold mat_ne, mat_eq. rewrite !negb_andb. done.
Qed.

(** ** The inverse. *)
Lemma inverse_det m : let '(X, Y, Z, W, d) := inverse_parts m in d = set1 (det 4 (entry m)).
Proof. mats. ev. parts; ring. Qed.
(** The blocks with their signs, before the division. *)
Definition adjugate (m : mat) : mat :=
  let '(X, Y, Z, W, _) := inverse_parts m in
  let s := V4 1 (-1) (-1) 1 in
  let X := mul4 X s in let Y := mul4 Y s in let Z := mul4 Z s in let W := mul4 W s in
  Mat (shuffle X Y 3 1 7 5) (shuffle X Y 2 0 6 4) (shuffle Z W 3 1 7 5) (shuffle Z W 2 0 6 4).
Lemma inverse_adjugate m : inverse m = mat_mul_s (adjugate m) (/ det 4 (entry m)).
Proof.
  pose proof (inverse_det m) as D. unfold inverse, adjugate. destruct (inverse_parts m) as [[[[X Y] Z] W] d]. subst d.
  generalize (det 4 (entry m)). intros d. mats. ev. unfold Rdiv. parts; ring.
Qed.
Lemma adjugate_l m : mat_mul (adjugate m) m = mat_mul_s mat_I (det 4 (entry m)).
Proof.
  mats. unfold adjugate. ev. parts; ring.
Qed.
Lemma adjugate_r m : mat_mul m (adjugate m) = mat_mul_s mat_I (det 4 (entry m)).
Proof.
  mats. unfold adjugate. ev. parts; ring.
Qed.
Lemma mat_mul_scale_l a b s : mat_mul (mat_mul_s a s) b = mat_mul_s (mat_mul a b) s.
Proof. mats. ev. parts; ring. Qed.
Lemma mat_mul_scale_r a b s : mat_mul a (mat_mul_s b s) = mat_mul_s (mat_mul a b) s.
Proof. mats. ev. parts; ring. Qed.
Lemma mat_scale_I d : d <> 0 -> mat_mul_s (mat_mul_s mat_I d) (/ d) = mat_I.
Proof. intros D. ev. parts; field; done. Qed.
(** The determinant of a product is the product of the determinants, and I has determinant one. *)
Theorem mat_det (a b : mat) : det 4 (entry (mat_mul a b)) = det 4 (entry a) * det 4 (entry b) /\ det 4 (entry mat_I) = 1.
Proof. split; mats; ev; ring. Qed.
(** The inverse is a two-sided inverse of every matrix whose determinant is not zero. *)
Theorem mat_inverse (m : mat) : det 4 (entry m) <> 0 -> mat_mul (inverse m) m = mat_I /\ mat_mul m (inverse m) = mat_I.
Proof.
  intros D. rewrite inverse_adjugate, mat_mul_scale_l, mat_mul_scale_r, adjugate_l, adjugate_r, mat_scale_I by done. done.
Qed.
(** No matrix with determinant zero has one. *)
Theorem mat_singular (m n : mat) : mat_mul n m = mat_I \/ mat_mul m n = mat_I -> det 4 (entry m) <> 0.
Proof.
  intros H D. destruct (mat_det n m) as [E I]. destruct (mat_det m n) as [E' _]. destruct H as [H|H].
  - rewrite H, I, D in E. lra.
  - rewrite H, I, D in E'. lra.
Qed.
(** It is the only one, and it reverses products. *)
Theorem mat_inverse_unique (m n : mat) : det 4 (entry m) <> 0 -> mat_mul n m = mat_I \/ mat_mul m n = mat_I -> n = inverse m.
Proof.
  intros D H. destruct (mat_inverse m D) as [L R]. destruct H as [H|H].
  - rewrite <-(proj2 (mat_mul_unit n)), <-R, <-mat_mul_assoc, H. apply mat_mul_unit.
  - rewrite <-(proj1 (mat_mul_unit n)), <-L, mat_mul_assoc, H. apply mat_mul_unit.
Qed.
Theorem mat_inverse_product (a b : mat) : det 4 (entry a) <> 0 -> det 4 (entry b) <> 0 ->
  inverse (mat_mul a b) = mat_mul (inverse b) (inverse a).
Proof.
  intros A B. symmetry. apply mat_inverse_unique; [rewrite (proj1 (mat_det a b)); apply Rmult_integral_contrapositive; done|]. left. rewrite mat_mul_assoc, <-(mat_mul_assoc (inverse a)).
  rewrite (proj1 (mat_inverse a A)), (proj1 (mat_mul_unit b)). apply mat_inverse, B.
Qed.
(** A matrix that is applied and then undone gives back every vector. *)
Theorem mat_inverse_apply (m : mat) (v : v4) : det 4 (entry m) <> 0 -> mat_vec (inverse m) (mat_vec m v) = v.
Proof. intros D. rewrite <-(proj1 (mat_mul_apply (inverse m) m v)), (proj1 (mat_inverse m D)). apply (mat_mul_apply mat_I mat_I v). Qed.

(** Witness: a matrix with determinant -2. *)
Example det_witness : let m := Mat (V4 1 3 0 0) (V4 2 4 0 0) (V4 0 0 1 0) (V4 5 6 7 1) in det 4 (entry m) = -2 /\ entry m 0 3 = 5 /\ entry (inverse m) 0 0 = -2.
Proof. split_and!; ev; lra. Qed.

(** swap_x_z exchanges the coordinates x and z. *)
Theorem mat_swap (x y z w : R) : mat_vec mat_swap_x_z (V4 x y z w) = V4 z y x w /\ mat_mul mat_swap_x_z mat_swap_x_z = mat_I.
Proof. split; [apply v4_eq|apply mat_eq_cols; apply v4_eq]; unfold mat_swap_x_z; ev; ring. Qed.
Print Assumptions mat_index.
Print Assumptions mat_product.
Print Assumptions mat_arith.
Print Assumptions mat_mul_assoc.
Print Assumptions mat_mul_unit.
Print Assumptions mat_mul_apply.
Print Assumptions mat_vec_entries.
Print Assumptions mat_point_direction.
Print Assumptions mat_transpose.
Print Assumptions mat_transpose_product.
Print Assumptions mat_equality.
Print Assumptions mat_det.
Print Assumptions mat_inverse.
Print Assumptions mat_singular.
Print Assumptions mat_inverse_unique.
Print Assumptions mat_inverse_product.
Print Assumptions mat_inverse_apply.
Print Assumptions mat_swap.
