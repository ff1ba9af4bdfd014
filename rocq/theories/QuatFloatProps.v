(** C103: quaternions of f32, with rounding. *)
From Flocq Require Import IEEE754.BinarySingleNaN IEEE754.Binary IEEE754.Bits.
From stdpp Require Import prelude list.
From Verif Require Import Base Word F32 VectModel VectSpec VectProps FloatModel FloatProps VectLengthModel VectLengthSpec VectLengthProps.
From Coq Require Import Reals Lra.
From Flocq Require Import Core Relative Plus_error Mult_error.
From Verif Require Import Mat4Spec Mat4Model Mat4Props QuatModel QuatProps BoxFloatModel BoxFloatSpec BoxFloatProps BoxErrorProps MatFloatModel MatFloatSpec MatFloatProps QuatFloatModel QuatFloatSpec.
Open Scope R_scope.

(** ** Part by part *)
Lemma opp_val (x : binary32) : val (b32_opp x) = - val x.
Proof. unfold b32_opp. apply B2R_Bopp. Qed.
Lemma opp_fin (x : binary32) : fin (b32_opp x) = fin x.
Proof. unfold b32_opp. apply is_finite_Bopp. Qed.
(** Sums, differences and multiples round each part once; conjugates and negatives do not round. *)
Theorem quatf_parts (a b : col4) (s : binary32) : forall k, (k < 4)%nat ->
  (fin (lane4 (fq_add a b) k) = true -> rounded (lane4 (fq_add a b) k) (part (qadd (rq a) (rq b)) k)) /\
  (fin (lane4 (fq_sub a b) k) = true -> rounded (lane4 (fq_sub a b) k) (part (qsub (rq a) (rq b)) k)) /\
  (fin (lane4 (fq_scale a s) k) = true -> rounded (lane4 (fq_scale a s) k) (part (qscale (rq a) (val s)) k)) /\
  val (lane4 (fq_conj a) k) = part (conjugate (rq a)) k /\ val (lane4 (fq_neg a) k) = part (qneg (rq a)) k /\
  fin (lane4 (fq_conj a) k) = fin (lane4 a k) /\ fin (lane4 (fq_neg a) k) = fin (lane4 a k).
Proof.
  intros [|[|[|[|k]]]] H; try (exfalso; lia); (split_and!; [exact (rounded_add _ _)|exact (rounded_sub _ _)|exact (rounded_mul _ _)|first [exact (opp_val _)|reflexivity]|exact (opp_val _)|first [exact (opp_fin _)|reflexivity]|exact (opp_fin _)]).
Qed.
Lemma rq_conj q : rq (fq_conj q) = conjugate (rq q).
Proof. unfold rq, fq_conj, conjugate. cbn [cx cy cz cw qx qy qz qw]. by rewrite !opp_val. Qed.

(** ** Products *)
Lemma chain4 (qa qb qc qd pa pb pc pd s1 s2 s3 : R) :
  Rabs (pa - qa) <= u * Rabs qa + eta -> Rabs (pb - qb) <= u * Rabs qb + eta -> Rabs (pc - qc) <= u * Rabs qc + eta -> Rabs (pd - qd) <= u * Rabs qd + eta ->
  Rabs (s1 - (pa + pb)) <= u * Rabs (pa + pb) -> Rabs (s2 - (s1 + pc)) <= u * Rabs (s1 + pc) -> Rabs (s3 - (s2 + pd)) <= u * Rabs (s2 + pd) ->
  Rabs (s3 - (qa + qb + qc + qd)) <= 5 * u * (Rabs qa + Rabs qb + Rabs qc + Rabs qd) + 5 * eta.
Proof.
  intros Ma Mb Mc Md A1 A2 A3. destruct eta_tiny as [Pe _]. unfold u in *.
  assert (forall x, - Rabs x <= x <= Rabs x) as B by (intros x; apply Rabs_le_inv, Rle_refl). pose proof (B qa). pose proof (B qb). pose proof (B qc). pose proof (B qd).
  set (ra := Rabs qa) in *. set (rb := Rabs qb) in *. set (rc := Rabs qc) in *. set (rd := Rabs qd) in *. assert (0 <= ra /\ 0 <= rb /\ 0 <= rc /\ 0 <= rd) as (? & ? & ? & ?) by (unfold ra, rb, rc, rd; split_and!; apply Rabs_pos). clearbody ra rb rc rd. clear B.
  assert (Rabs (pa + pb) <= (1 + 1 / 16777216) * (ra + rb) + 2 * eta) as T1 by (abs_all; apply Rabs_le; lra).
  assert (Rabs (s1 - (qa + qb)) <= (2 + 1 / 16) / 16777216 * (ra + rb) + (2 + 1 / 16) * eta) as S1 by (abs_all; apply Rabs_le; lra). clear A1 T1 Ma Mb.
  assert (Rabs (s1 + pc) <= (1 + 3 / 16777216) * (ra + rb + rc) + 4 * eta) as T2 by (abs_all; apply Rabs_le; lra).
  assert (Rabs (s2 - (qa + qb + qc)) <= (3 + 1 / 8) / 16777216 * (ra + rb + rc) + (3 + 1 / 8) * eta) as S2 by (abs_all; apply Rabs_le; lra). clear A2 T2 S1 Mc.
  assert (Rabs (s2 + pd) <= (1 + 4 / 16777216) * (ra + rb + rc + rd) + 5 * eta) as T3 by (abs_all; apply Rabs_le; lra). abs_all. apply Rabs_le. lra.
Qed.
Lemma neg_abs x y e : Rabs (x - y) <= e -> Rabs (- x - - y) <= e.
Proof. intros H. replace (- x - - y) with (- (x - y)) by ring. by rewrite Rabs_Ropp. Qed.
Lemma mul_err_neg x y : fin (x ⊗ y) = true -> Rabs (- val (x ⊗ y) - - (val x * val y)) <= u * Rabs (- (val x * val y)) + eta.
Proof. intros F. rewrite Rabs_Ropp. by apply neg_abs, mul_err. Qed.
Lemma sub_err' x y : fin (fsub x y) = true -> Rabs (val (fsub x y) - (val x + - val y)) <= u * Rabs (val x + - val y).
Proof. intros F. destruct (sub_fin _ _ F). by apply sub_err. Qed.
Lemma chain_xyz (a b c d e f g h : binary32) : fin (((fsub (a ⊗ b) (c ⊗ d)) ⊕ (e ⊗ f)) ⊕ (g ⊗ h)) = true ->
  Rabs (val (((fsub (a ⊗ b) (c ⊗ d)) ⊕ (e ⊗ f)) ⊕ (g ⊗ h)) - (val a * val b - val c * val d + val e * val f + val g * val h)) <=
  5 * u * (Rabs (val a * val b) + Rabs (val c * val d) + Rabs (val e * val f) + Rabs (val g * val h)) + 5 * eta.
Proof.
  intros F3. destruct (add_fin _ _ F3) as [F2 Fd]. destruct (add_fin _ _ F2) as [F1 Fc]. destruct (sub_fin _ _ F1) as [Fa Fb].
  rewrite <- (Rabs_Ropp (val c * val d)). eapply (chain4 _ (- (val c * val d))); [apply mul_err, Fa|apply mul_err_neg, Fb|apply mul_err, Fc|apply mul_err, Fd|apply sub_err', F1|apply add_err, F2|apply add_err, F3].
Qed.
Lemma chain_w (a b c d e f g h : binary32) : fin (fsub (fsub (fsub (a ⊗ b) (c ⊗ d)) (e ⊗ f)) (g ⊗ h)) = true ->
  Rabs (val (fsub (fsub (fsub (a ⊗ b) (c ⊗ d)) (e ⊗ f)) (g ⊗ h)) - (val a * val b - val c * val d - val e * val f - val g * val h)) <=
  5 * u * (Rabs (val a * val b) + Rabs (val c * val d) + Rabs (val e * val f) + Rabs (val g * val h)) + 5 * eta.
Proof.
  intros F3. destruct (sub_fin _ _ F3) as [F2 Fd]. destruct (sub_fin _ _ F2) as [F1 Fc]. destruct (sub_fin _ _ F1) as [Fa Fb].
  rewrite <- (Rabs_Ropp (val c * val d)), <- (Rabs_Ropp (val e * val f)), <- (Rabs_Ropp (val g * val h)).
  eapply (chain4 _ (- (val c * val d)) (- (val e * val f)) (- (val g * val h))); [apply mul_err, Fa|apply mul_err_neg, Fb|apply mul_err_neg, Fc|apply mul_err_neg, Fd|apply sub_err', F1|apply sub_err', F2|apply sub_err', F3].
Qed.
(** Cauchy and Schwarz. *)
Lemma cs (a b c d e f g h : R) : Rabs (a * e) + Rabs (b * f) + Rabs (c * g) + Rabs (d * h) <= qnorm (Q a b c d) * qnorm (Q e f g h).
Proof.
  rewrite !Rabs_mult. unfold qnorm, qnorm2. cbn [qx qy qz qw]. assert (forall x, x * x = Rabs x * Rabs x) as S by (intros x; rewrite <- Rabs_mult; symmetry; apply Rabs_pos_eq; nra).
  rewrite (S a), (S b), (S c), (S d), (S e), (S f), (S g), (S h). pose proof (Rabs_pos a). pose proof (Rabs_pos b). pose proof (Rabs_pos c). pose proof (Rabs_pos d). pose proof (Rabs_pos e). pose proof (Rabs_pos f). pose proof (Rabs_pos g). pose proof (Rabs_pos h).
  set (A := Rabs a) in *. set (B := Rabs b) in *. set (C := Rabs c) in *. set (D := Rabs d) in *. set (E := Rabs e) in *. set (F := Rabs f) in *. set (G := Rabs g) in *. set (H' := Rabs h) in *. clearbody A B C D E F G H'. clear S.
  assert (forall x, 0 <= x * x) as P by (intros; nra). assert (forall x y : R, 0 <= x -> 0 <= y -> 0 <= x * y) as M by (intros; nra).
  rewrite <- sqrt_mult; [|pose proof (P A); pose proof (P B); pose proof (P C); pose proof (P D); lra|pose proof (P E); pose proof (P F); pose proof (P G); pose proof (P H'); lra].
  rewrite <- (sqrt_square (A * E + B * F + C * G + D * H')) by (pose proof (M A E); pose proof (M B F); pose proof (M C G); pose proof (M D H'); lra). apply sqrt_le_1_alt.
  apply Rminus_le. replace (_ - _) with (- ((A * F - B * E) * (A * F - B * E) + (A * G - C * E) * (A * G - C * E) + (A * H' - D * E) * (A * H' - D * E) + (B * G - C * F) * (B * G - C * F) + (B * H' - D * F) * (B * H' - D * F) + (C * H' - D * G) * (C * H' - D * G))) by ring.
  pose proof (P (A * F - B * E)). pose proof (P (A * G - C * E)). pose proof (P (A * H' - D * E)). pose proof (P (B * G - C * F)). pose proof (P (B * H' - D * F)). pose proof (P (C * H' - D * G)). lra.
Qed.
Lemma qnorm_eq p q : qnorm2 p = qnorm2 q -> qnorm p = qnorm q.
Proof. intros H. unfold qnorm. by rewrite H. Qed.
Lemma mul_lane (a b : quat) (k : nat) : Rabs (part (qmul a b) k) <= qnorm a * qnorm b.
Proof.
  destruct a as [a b' c d], b as [e f g h]. assert (forall w x y z, Rabs (w + x + y + z) <= Rabs w + Rabs x + Rabs y + Rabs z) as T.
  { intros. eapply Rle_trans; [apply Rabs_triang|]. apply Rplus_le_compat_r. eapply Rle_trans; [apply Rabs_triang|]. apply Rplus_le_compat_r, Rabs_triang. }
  destruct k as [|[|[|k]]]; cbn [part the qmul qx qy qz qw]; unfold Rminus; (eapply Rle_trans; [apply T|]); rewrite ?Rabs_Ropp.
  - eapply Rle_trans; [apply (cs b' c a d g f h e)|]. right. f_equal; apply qnorm_eq; unfold qnorm2; cbn; ring.
  - eapply Rle_trans; [apply (cs c a b' d e g h f)|]. right. f_equal; apply qnorm_eq; unfold qnorm2; cbn; ring.
  - eapply Rle_trans; [apply (cs a b' c d f e h g)|]. right. f_equal; apply qnorm_eq; unfold qnorm2; cbn; ring.
  - eapply Rle_trans; [apply (cs d a b' c h e f g)|]. right. f_equal; apply qnorm_eq; unfold qnorm2; cbn; ring.
Qed.
(** Every finite part of a product is right up to 5 units of the product of the lengths. *)
Theorem quatf_mul_error (a b : col4) : forall k, fin (lane4 (fq_mul a b) k) = true ->
  near (units 5 * (qnorm (rq a) * qnorm (rq b)) + tiny) (rlane (fq_mul a b) k) (part (qmul (rq a) (rq b)) k).
Proof.
  destruct eta_tiny as [Pe Te]. assert (forall x y, x <= y -> 5 * u * x + 5 * eta <= units 5 * y + tiny) as G by (intros x y H; unfold units, u; rewrite Te; change (IZR (2 ^ 24)) with 16777216; lra).
  intros [|[|[|k]]] F; unfold near, rlane; cbn [lane4 the part fq_mul cx cy cz cw rq qmul qx qy qz qw] in F |- *.
  - eapply Rle_trans; [exact (chain_xyz _ _ _ _ _ _ _ _ F)|]. apply G. eapply Rle_trans; [apply cs|]. right. f_equal; apply qnorm_eq; unfold qnorm2; cbn; ring.
  - eapply Rle_trans; [exact (chain_xyz _ _ _ _ _ _ _ _ F)|]. apply G. eapply Rle_trans; [apply cs|]. right. f_equal; apply qnorm_eq; unfold qnorm2; cbn; ring.
  - eapply Rle_trans; [exact (chain_xyz _ _ _ _ _ _ _ _ F)|]. apply G. eapply Rle_trans; [apply cs|]. right. f_equal; apply qnorm_eq; unfold qnorm2; cbn; ring.
  - eapply Rle_trans; [exact (chain_w _ _ _ _ _ _ _ _ F)|]. apply G. eapply Rle_trans; [apply cs|]. right. f_equal; apply qnorm_eq; unfold qnorm2; cbn; ring.
Qed.

(** ** Rotating *)
Lemma qnorm_pos q : 0 <= qnorm q.
Proof. apply sqrt_pos. Qed.
Lemma qnorm2_pos q : 0 <= qnorm2 q.
Proof. destruct q as [a b c d]. unfold qnorm2. cbn. nra. Qed.
Lemma qnorm_sq q : qnorm q * qnorm q = qnorm2 q.
Proof. apply sqrt_sqrt, qnorm2_pos. Qed.
Lemma qnorm_le q e : 0 <= e -> qnorm2 q <= e * e -> qnorm q <= e.
Proof. intros He H. unfold qnorm. rewrite <- (sqrt_square e He). by apply sqrt_le_1_alt. Qed.
Lemma qnorm_lanes q e : 0 <= e -> (forall k, (k < 4)%nat -> Rabs (part q k) <= e) -> qnorm q <= 2 * e.
Proof.
  intros He H. apply qnorm_le; [lra|]. assert (forall x, Rabs x <= e -> x * x <= e * e) as S by (intros x Hx; apply Rabs_le_inv in Hx; nra).
  pose proof (S _ (H 0%nat ltac:(lia))) as A. pose proof (S _ (H 1%nat ltac:(lia))) as B. pose proof (S _ (H 2%nat ltac:(lia))) as C. pose proof (S _ (H 3%nat ltac:(lia))) as D. cbn [part the] in A, B, C, D. unfold qnorm2. lra.
Qed.
Lemma qnorm_triangle a b : qnorm (qadd a b) <= qnorm a + qnorm b.
Proof.
  pose proof (qnorm_pos a). pose proof (qnorm_pos b). apply qnorm_le; [lra|]. replace ((qnorm a + qnorm b) * (qnorm a + qnorm b)) with (qnorm a * qnorm a + qnorm b * qnorm b + 2 * (qnorm a * qnorm b)) by ring. rewrite !qnorm_sq.
  destruct a as [a0 a1 a2 a3], b as [b0 b1 b2 b3]. pose proof (cs a0 a1 a2 a3 b0 b1 b2 b3) as C. pose proof (Rle_abs (a0 * b0)). pose proof (Rle_abs (a1 * b1)). pose proof (Rle_abs (a2 * b2)). pose proof (Rle_abs (a3 * b3)). unfold qnorm2 at 1 2 3. cbn [qadd qx qy qz qw]. lra.
Qed.
Lemma qnorm_conj q : qnorm (conjugate q) = qnorm q.
Proof. apply qnorm_eq. destruct q. unfold qnorm2. cbn. ring. Qed.
Lemma part_sub a b c k : (k < 4)%nat -> part (qmul a c) k - part (qmul b c) k = part (qmul (qsub a b) c) k.
Proof. intros H. destruct a, b, c, k as [|[|[|[|k]]]]; try lia; cbn; ring. Qed.
Lemma rq_part q k : (k < 4)%nat -> part (rq q) k = rlane q k.
Proof. by destruct k as [|[|[|[|k]]]]; try lia. Qed.
Lemma part_subq a b k : part (qsub a b) k = part a k - part b k.
Proof. by destruct k as [|[|[|k]]]. Qed.
Lemma mul_fins a b k : fin (lane4 (fq_mul a b) k) = true -> forall j, fin (lane4 a j) = true /\ fin (lane4 b j) = true.
Proof.
  assert (forall a b c d e f g h, fin (((fsub (a ⊗ b) (c ⊗ d)) ⊕ (e ⊗ f)) ⊕ (g ⊗ h)) = true -> (fin a = true /\ fin b = true) /\ (fin c = true /\ fin d = true) /\ (fin e = true /\ fin f = true) /\ (fin g = true /\ fin h = true)) as A.
  { intros * F3. destruct (add_fin _ _ F3) as [F2 Fd]. destruct (add_fin _ _ F2) as [F1 Fc]. destruct (sub_fin _ _ F1) as [Fa Fb]. split; [by apply mul_fin|split; [by apply mul_fin|split; by apply mul_fin]]. }
  assert (forall a b c d e f g h, fin (fsub (fsub (fsub (a ⊗ b) (c ⊗ d)) (e ⊗ f)) (g ⊗ h)) = true -> (fin a = true /\ fin b = true) /\ (fin c = true /\ fin d = true) /\ (fin e = true /\ fin f = true) /\ (fin g = true /\ fin h = true)) as B.
  { intros * F3. destruct (sub_fin _ _ F3) as [F2 Fd]. destruct (sub_fin _ _ F2) as [F1 Fc]. destruct (sub_fin _ _ F1) as [Fa Fb]. split; [by apply mul_fin|split; [by apply mul_fin|split; by apply mul_fin]]. }
  destruct k as [|[|[|k]]]; cbn [lane4 the fq_mul cx cy cz cw]; intros F; first [apply A in F|apply B in F]; destruct F as ((? & ?) & (? & ?) & (? & ?) & (? & ?)); intros [|[|[|j]]]; by split.
Qed.
(** Two products, of lengths [n] and [m] with a third factor of length [c]. *)
Lemma two_products (a b c : col4) k : (k < 4)%nat -> fin (lane4 (fq_mul (fq_mul a b) c) k) = true ->
  Rabs (rlane (fq_mul (fq_mul a b) c) k - part (qmul (qmul (rq a) (rq b)) (rq c)) k) <= units 16 * (qnorm (rq a) * qnorm (rq b) * qnorm (rq c)) + tiny * (1 + 3 * qnorm (rq c)).
Proof.
  intros Hk F. set (p := fq_mul a b) in *. pose proof (quatf_mul_error p c k F) as E2. unfold near in E2. set (e := units 5 * (qnorm (rq a) * qnorm (rq b)) + tiny).
  assert (forall j, (j < 4)%nat -> Rabs (part (qsub (rq p) (qmul (rq a) (rq b))) j) <= e) as E1.
  { intros j Hj. rewrite part_subq, rq_part by done. apply (quatf_mul_error a b j). apply (mul_fins p c k F j). }
  pose proof (qnorm_pos (rq a)) as Pa. pose proof (qnorm_pos (rq b)) as Pb. pose proof (qnorm_pos (rq c)) as Pc. destruct eta_tiny as [Pe Te].
  assert (0 <= qnorm (rq a) * qnorm (rq b)) as Pab by (by apply Rmult_le_pos). assert (0 <= e) as He by (unfold e, units; change (IZR (2 ^ 24)) with 16777216; lra).
  apply (qnorm_lanes _ e He) in E1. set (P := qmul (rq a) (rq b)) in *. assert (qnorm P = qnorm (rq a) * qnorm (rq b)) as NP by apply (quat_norm_conjugate (rq a) (rq b)).
  assert (qnorm (rq p) <= qnorm P + 2 * e) as N. { replace (rq p) with (qadd P (qsub (rq p) P)) by (destruct (rq p), P; apply q_eq; cbn; ring). eapply Rle_trans; [apply qnorm_triangle|]. lra. }
  assert (Rabs (part (qmul (rq p) (rq c)) k - part (qmul P (rq c)) k) <= 2 * e * qnorm (rq c)) as E3. { rewrite part_sub by done. eapply Rle_trans; [apply mul_lane|]. by apply Rmult_le_compat_r. }
  replace (rlane (fq_mul p c) k - part (qmul P (rq c)) k) with (rlane (fq_mul p c) k - part (qmul (rq p) (rq c)) k + (part (qmul (rq p) (rq c)) k - part (qmul P (rq c)) k)) by ring. eapply Rle_trans; [apply Rabs_triang|].
  apply Rle_trans with (units 5 * ((qnorm P + 2 * e) * qnorm (rq c)) + tiny + 2 * e * qnorm (rq c)).
  { apply Rplus_le_compat; [|done]. eapply Rle_trans; [exact E2|]. apply Rplus_le_compat_r. apply Rmult_le_compat_l; [unfold units; change (IZR (2 ^ 24)) with 16777216; lra|]. by apply Rmult_le_compat_r. }
  rewrite NP. unfold e, units. change (IZR (2 ^ 24)) with 16777216. set (n := qnorm (rq a) * qnorm (rq b)) in *. set (m := qnorm (rq c)) in *. clearbody n m. assert (0 <= n * m) by (by apply Rmult_le_pos). assert (0 <= tiny * m) by (apply Rmult_le_pos; lra).
  replace (5 / 16777216 * ((n + 2 * (5 / 16777216 * n + tiny)) * m) + tiny + 2 * (5 / 16777216 * n + tiny) * m) with ((15 + 50 / 16777216) / 16777216 * (n * m) + (2 + 10 / 16777216) * (tiny * m) + tiny) by field. lra.
Qed.
Lemma rq_of v : rq (fq_of v f0) = quat_of (vec v) 0.
Proof. reflexivity. Qed.
Lemma length3_q v : qnorm (quat_of v 0) = length3 v.
Proof. unfold qnorm, qnorm2, length3. destruct v. cbn. f_equal. ring. Qed.
Lemma rotate_lane q v k : (k < 3)%nat -> lane3 (fq_rotate q v) k = lane4 (fq_mul (fq_mul q (fq_of v f0)) (fq_conj q)) k.
Proof. intros H. unfold fq_rotate. generalize (fq_mul (fq_mul q (fq_of v f0)) (fq_conj q)). intros p. destruct k as [|[|[|k]]]; try lia; reflexivity. Qed.
Lemma rotate_part q v k : (k < 3)%nat -> part3 (qrotate q v) k = part (qmul (qmul q (quat_of v 0)) (conjugate q)) k.
Proof. intros H. unfold qrotate. generalize (qmul (qmul q (quat_of v 0)) (conjugate q)). intros p. destruct k as [|[|[|k]]]; try lia; reflexivity. Qed.
(** [rotate] is right up to 16 units of the length of the vector times the squared length of the quaternion. *)
Theorem quatf_rotate_error (q : col4) (v : pt) : forall k, (k < 3)%nat -> fin (lane3 (fq_rotate q v) k) = true ->
  near (units 16 * (qnorm (rq q) * length3 (vec v) * qnorm (rq q)) + tiny * (1 + 3 * qnorm (rq q))) (val (lane3 (fq_rotate q v) k)) (part3 (qrotate (rq q) (vec v)) k).
Proof.
  intros k Hk F. rewrite rotate_lane in F |- * by done. rewrite rotate_part by done. pose proof (two_products q (fq_of v f0) (fq_conj q) k ltac:(lia) F) as E. rewrite rq_conj, rq_of, qnorm_conj, length3_q in E. exact E.
Qed.
(** So is a product of three: rounding breaks associativity only that far. *)
Theorem quatf_assoc_error (a b c : col4) : forall k, (k < 4)%nat -> fin (lane4 (fq_mul (fq_mul a b) c) k) = true ->
  near (units 16 * (qnorm (rq a) * qnorm (rq b) * qnorm (rq c)) + tiny * (1 + 3 * qnorm (rq c))) (rlane (fq_mul (fq_mul a b) c) k) (part (qmul (qmul (rq a) (rq b)) (rq c)) k).
Proof. exact (two_products a b c). Qed.

(** ** Matrices *)
Lemma twice_err (x y : binary32) : fin (twice x y) = true -> Rabs (val (twice x y) - 2 * (val x * val y)) <= u * Rabs (2 * (val x * val y)) + eta.
Proof.
  intros F. unfold twice in *. destruct (mul_fin _ _ F) as [F1 _]. pose proof (mul_err _ _ F) as E. assert (val (f2 ⊗ x) = 2 * val x) as D.
  { rewrite (proj1 (mul_rnd _ _ F1)). unfold f2 at 1. rewrite (proj2 (small_val 2 ltac:(lia))). apply round_generic; [apply valid_rnd_N|]. apply fmt_double, fmt_val. }
  rewrite D, Rmult_assoc in E. exact E.
Qed.
Lemma twice_err_neg (x y : binary32) : fin (twice x y) = true -> Rabs (- val (twice x y) - - (2 * (val x * val y))) <= u * Rabs (- (2 * (val x * val y))) + eta.
Proof. intros F. rewrite Rabs_Ropp. by apply neg_abs, twice_err. Qed.
Lemma no_err (x : R) : Rabs (x - x) <= u * Rabs x + eta /\ Rabs (x - (x + 0)) <= u * Rabs (x + 0).
Proof. destruct eta_tiny as [Pe _]. rewrite Rplus_0_r. replace (x - x) with 0 by ring. rewrite Rabs_R0. pose proof (Rabs_pos x). unfold u. split; lra. Qed.
Lemma diag_err (x y : binary32) (s : R) : fin (fsub (fsub f1 (twice x x)) (twice y y)) = true -> val x * val x + val y * val y <= s ->
  Rabs (val (fsub (fsub f1 (twice x x)) (twice y y)) - (1 - 2 * val x * val x - 2 * val y * val y)) <= units 5 * (1 + 2 * s) + tiny.
Proof.
  intros F2 Hs. destruct (sub_fin _ _ F2) as [F1 Fb]. destruct (sub_fin _ _ F1) as [_ Fa]. pose proof (sub_err' _ _ F1) as A1. rewrite (proj2 is1) in A1.
  pose proof (chain4 1 (- (2 * (val x * val x))) (- (2 * (val y * val y))) 0 1 _ _ 0 _ _ _ (proj1 (no_err 1)) (twice_err_neg _ _ Fa) (twice_err_neg _ _ Fb) (proj1 (no_err 0)) A1 (sub_err' _ _ F2) (proj2 (no_err _))) as E.
  replace (1 - 2 * val x * val x - 2 * val y * val y) with (1 + - (2 * (val x * val x)) + - (2 * (val y * val y)) + 0) by ring. eapply Rle_trans; [exact E|]. rewrite Rabs_R0, Rabs_R1, !Rabs_Ropp, !Rabs_pos_eq by nra. destruct eta_tiny as [Pe ->]. unfold units, u. change (IZR (2 ^ 24)) with 16777216. lra.
Qed.
Lemma two_le (a b c d : R) : Rabs (2 * (a * b)) + Rabs (2 * (c * d)) <= a * a + b * b + c * c + d * d.
Proof.
  assert (forall x y, Rabs (2 * (x * y)) <= x * x + y * y) as H; [|pose proof (H a b); pose proof (H c d); lra]. intros x y. apply Rabs_le. split; [pose proof (Rle_0_sqr (x + y)) as S|pose proof (Rle_0_sqr (x - y)) as S]; unfold Rsqr in S; lra.
Qed.
Lemma plus_err (a b c d : binary32) (s : R) : fin (fadd (twice a b) (twice c d)) = true -> val a * val a + val b * val b + val c * val c + val d * val d = s ->
  Rabs (val (fadd (twice a b) (twice c d)) - (2 * val a * val b + 2 * val c * val d)) <= units 5 * (1 + 2 * s) + tiny.
Proof.
  intros F1 Hs. destruct (add_fin _ _ F1) as [Fa Fb].
  pose proof (chain4 (2 * (val a * val b)) (2 * (val c * val d)) 0 0 _ _ 0 0 _ _ _ (twice_err _ _ Fa) (twice_err _ _ Fb) (proj1 (no_err 0)) (proj1 (no_err 0)) (add_err _ _ F1) (proj2 (no_err _)) (proj2 (no_err _))) as E.
  replace (2 * val a * val b + 2 * val c * val d) with (2 * (val a * val b) + 2 * (val c * val d) + 0 + 0) by ring. eapply Rle_trans; [exact E|]. rewrite Rabs_R0. pose proof (two_le (val a) (val b) (val c) (val d)) as T. pose proof (Rabs_pos (2 * (val a * val b))). pose proof (Rabs_pos (2 * (val c * val d))). destruct eta_tiny as [Pe ->]. unfold units, u. change (IZR (2 ^ 24)) with 16777216. lra.
Qed.
Lemma minus_err (a b c d : binary32) (s : R) : fin (fsub (twice a b) (twice c d)) = true -> val a * val a + val b * val b + val c * val c + val d * val d = s ->
  Rabs (val (fsub (twice a b) (twice c d)) - (2 * val a * val b - 2 * val c * val d)) <= units 5 * (1 + 2 * s) + tiny.
Proof.
  intros F1 Hs. destruct (sub_fin _ _ F1) as [Fa Fb].
  pose proof (chain4 (2 * (val a * val b)) (- (2 * (val c * val d))) 0 0 _ _ 0 0 _ _ _ (twice_err _ _ Fa) (twice_err_neg _ _ Fb) (proj1 (no_err 0)) (proj1 (no_err 0)) (sub_err' _ _ F1) (proj2 (no_err _)) (proj2 (no_err _))) as E.
  replace (2 * val a * val b - 2 * val c * val d) with (2 * (val a * val b) + - (2 * (val c * val d)) + 0 + 0) by ring. eapply Rle_trans; [exact E|]. rewrite Rabs_R0, Rabs_Ropp. pose proof (two_le (val a) (val b) (val c) (val d)) as T. pose proof (Rabs_pos (2 * (val a * val b))). pose proof (Rabs_pos (2 * (val c * val d))). destruct eta_tiny as [Pe ->]. unfold units, u. change (IZR (2 ^ 24)) with 16777216. lra.
Qed.
(** Every finite entry of [to_mat] is right up to 5 units of one and twice the squared length: 15 units for a quaternion of length one. *)
Theorem quatf_to_mat_error (q : col4) : forall r c, (r < 4)%nat -> (c < 4)%nat -> fin (fentry (fq_to_mat q) r c) = true ->
  near (units 5 * (1 + 2 * qnorm2 (rq q)) + tiny) (rentry (fq_to_mat q) r c) (entry (to_mat (rq q)) r c).
Proof.
  assert (forall x, near (units 5 * (1 + 2 * qnorm2 (rq q)) + tiny) x x) as Z.
  { intros x. unfold near. replace (x - x) with 0 by ring. rewrite Rabs_R0. destruct eta_tiny as [Pe ->]. pose proof (qnorm2_pos (rq q)). unfold units. change (IZR (2 ^ 24)) with 16777216. lra. }
  destruct q as [x y z w]. unfold near in *. set (s := qnorm2 _) in *. assert (s = val x * val x + val y * val y + val z * val z + val w * val w) as Hs by reflexivity. clearbody s.
  assert (forall t : R, 0 <= t * t) as Sq by (intros; nra). pose proof (Sq (val x)). pose proof (Sq (val y)). pose proof (Sq (val z)). pose proof (Sq (val w)).
  intros r c Hr Hc. unfold rentry. destruct r as [|[|[|[|r]]]], c as [|[|[|[|c]]]]; try lia; intros F.
  - apply (diag_err y z s F); lra.
  - apply (minus_err x y z w s F); lra.
  - apply (plus_err x z y w s F); lra.
  - apply (Z 0).
  - apply (plus_err x y z w s F); lra.
  - apply (diag_err x z s F); lra.
  - apply (minus_err y z x w s F); lra.
  - apply (Z 0).
  - apply (minus_err x z y w s F); lra.
  - apply (plus_err y z x w s F); lra.
  - apply (diag_err x y s F); lra.
  - apply (Z 0).
  - apply (Z 0).
  - apply (Z 0).
  - apply (Z 0).
  - pose proof (Z 1) as E. rewrite <- (proj2 is1) in E at 1. exact E.
Qed.

(** ** Lengths *)
Lemma squares_q q : squares (reals [cx q; cy q; cz q; cw q]) = qnorm2 (rq q).
Proof. unfold qnorm2. cbn. ring. Qed.
Lemma len_q q : len (reals [cx q; cy q; cz q; cw q]) = qnorm (rq q).
Proof. unfold len, qnorm. by rewrite squares_q. Qed.
(** [norm] of a quaternion that is not extremely short is its length up to 7 units, unless it overflows. *)
Theorem quatf_norm_error (q : col4) : / IZR (2 ^ 60) <= qnorm (rq q) -> fin (fq_norm q) = true -> near (units 7 * qnorm (rq q)) (val (fq_norm q)) (qnorm (rq q)).
Proof.
  intros Hl F. unfold near. apply sqrt_fin in F as F3. unfold fq_norm, fq_norm2 in *. rewrite <- len_q in Hl. apply m2_len in Hl. rewrite squares_q in Hl.
  destruct (add_fin _ _ F3) as [F2 Fd]. destruct (add_fin _ _ F2) as [F1 Fc]. destruct (add_fin _ _ F1) as [Fa Fb].
  pose proof (chain4 _ _ _ _ _ _ _ _ _ _ _ (mul_err _ _ Fa) (mul_err _ _ Fb) (mul_err _ _ Fc) (mul_err _ _ Fd) (add_err _ _ F1) (add_err _ _ F2) (add_err _ _ F3)) as E. destruct eta_m2 as (Pm & Em & _). destruct eta_tiny as [Pe _].
  assert (forall t, Rabs (t * t) = t * t) as Sq by (intros; apply Rabs_pos_eq; nra). rewrite !Sq in E. change (val (cx q) * val (cx q) + val (cy q) * val (cy q) + val (cz q) * val (cz q) + val (cw q) * val (cw q)) with (qnorm2 (rq q)) in E. 
  destruct (norm_from _ (qnorm2 (rq q)) (5 + 1 / 5) Hl ltac:(lra) F3) as [_ G]; [unfold u in *; lra|]. eapply Rle_trans; [exact G|]. fold (qnorm (rq q)). apply Rmult_le_compat_r; [apply qnorm_pos|]. unfold units, u. change (IZR (2 ^ 24)) with 16777216. lra.
Qed.
(** [unit] divides by the length: each part is right up to 17 units, and the result has squared length one up to 40 units. *)
Theorem quatf_unit_error (q : col4) : / IZR (2 ^ 60) <= qnorm (rq q) -> fin (fq_norm q) = true ->
  (forall k, (k < 4)%nat -> fin (lane4 (fq_unit q) k) = true /\ near (units 17 * Rabs (rlane q k / qnorm (rq q)) + tiny) (rlane (fq_unit q) k) (rlane q k / qnorm (rq q))) /\
  near (units 40) (qnorm2 (rq (fq_unit q))) 1.
Proof.
  intros Hl F. pose proof (quatf_norm_error q Hl F) as N. unfold near in *. apply sqrt_fin in F as F3. unfold fq_norm2 in F3. destruct (add_fin _ _ F3) as [F2 Fd]. destruct (add_fin _ _ F2) as [F1 Fc]. destruct (add_fin _ _ F1) as [Fa Fb].
  pose proof (unit_from 4 [cx q; cy q; cz q; cw q] (map (fun x => b32_div mode_NE x (fq_norm q)) [cx q; cy q; cz q; cw q]) (fq_norm q) eq_refl ltac:(lia)) as U. rewrite len_q in U. specialize (U Hl).
  replace (2 * INR 4 + 3) with 11 in U by (cbn; ring). replace (3 * INR 4 + 5) with 17 in U by (cbn; ring). replace (7 * INR 4 + 12) with 40 in U by (cbn; ring).
  destruct U as [U1 U2]; [| |reflexivity|].
  - repeat (apply Forall_cons_2; [first [exact (proj1 (mul_fin _ _ Fa))|exact (proj1 (mul_fin _ _ Fb))|exact (proj1 (mul_fin _ _ Fc))|exact (proj1 (mul_fin _ _ Fd))]|]). apply Forall_nil_2.
  - eapply Rle_trans; [exact N|]. apply Rmult_le_compat_r; [apply qnorm_pos|]. unfold units, ulps. change (IZR (2 ^ 24)) with 16777216. lra.
  - split; [|change (map (fun x => b32_div mode_NE x (fq_norm q)) [cx q; cy q; cz q; cw q]) with [cx (fq_unit q); cy (fq_unit q); cz (fq_unit q); cw (fq_unit q)] in U2; rewrite squares_q in U2; exact U2].
    destruct eta_m2 as (_ & _ & El). destruct eta_tiny as [Pe Te]. rewrite <- El in U1. intros [|[|[|[|k]]]] Hk; try lia.
    + destruct (U1 0%nat _ eq_refl) as (y & Ey & Fy & By). injection Ey as <-. split; [exact Fy|]. eapply Rle_trans; [exact By|]. apply Rplus_le_compat_l. lra.
    + destruct (U1 1%nat _ eq_refl) as (y & Ey & Fy & By). injection Ey as <-. split; [exact Fy|]. eapply Rle_trans; [exact By|]. apply Rplus_le_compat_l. lra.
    + destruct (U1 2%nat _ eq_refl) as (y & Ey & Fy & By). injection Ey as <-. split; [exact Fy|]. eapply Rle_trans; [exact By|]. apply Rplus_le_compat_l. lra.
    + destruct (U1 3%nat _ eq_refl) as (y & Ey & Fy & By). injection Ey as <-. split; [exact Fy|]. eapply Rle_trans; [exact By|]. apply Rplus_le_compat_l. lra.
Qed.
Lemma opp_sq (x : binary32) : fin (x ⊗ x) = true -> b32_opp x ⊗ b32_opp x = x ⊗ x.
Proof.
  intros F. destruct (mul_fin _ _ F) as [Fx _]. pose proof (Bmult_correct 24 128 eq_refl eq_refl binop_nan_pl32 mode_NE x x) as C. pose proof (Bmult_correct 24 128 eq_refl eq_refl binop_nan_pl32 mode_NE (b32_opp x) (b32_opp x)) as C'.
  rewrite opp_val in C'. replace (- val x * - val x) with (val x * val x) in C' by ring. unfold fmul, b32_mult in *. destruct (Rlt_bool (Rabs (rnd32 (val x * val x))) (bpow radix2 128)).
  - destruct C as (C1 & C2 & C3), C' as (C1' & C2' & C3'). assert (fin (b32_opp x) = true) as Fo by (by rewrite opp_fin). rewrite Fo in C2'. cbn [andb] in C2'. apply B2R_Bsign_inj; [exact C2'|exact F|exact (eq_trans C1' (eq_sym C1))|].
    assert (forall y : binary32, fin y = true -> is_nan 24 128 y = false) as Nn by (by intros []). rewrite (C3' (Nn _ C2')), (C3 (Nn _ F)). unfold b32_opp. by rewrite !xorb_nilpotent.
  - exfalso. rewrite <- is_finite_B2FF in F. rewrite C in F. done.
Qed.
Lemma norm_conj (q : col4) : fin (fq_norm q) = true -> fq_norm (fq_conj q) = fq_norm q.
Proof.
  intros F. apply sqrt_fin in F. unfold fq_norm, fq_norm2 in *. destruct (add_fin _ _ F) as [F2 Fd]. destruct (add_fin _ _ F2) as [F1 Fc]. destruct (add_fin _ _ F1) as [Fa Fb]. unfold fq_conj. cbn [cx cy cz cw].
  by rewrite !opp_sq by assumption.
Qed.
(** [inverse] is the conjugate divided by the length, to the same accuracy. *)
Theorem quatf_inverse_error (q : col4) : / IZR (2 ^ 60) <= qnorm (rq q) -> fin (fq_norm q) = true ->
  forall k, (k < 4)%nat -> fin (lane4 (fq_inverse q) k) = true /\ near (units 17 * Rabs (part (conjugate (rq q)) k / qnorm (rq q)) + tiny) (rlane (fq_inverse q) k) (part (conjugate (rq q)) k / qnorm (rq q)).
Proof.
  intros Hl F k Hk. destruct (quatf_unit_error (fq_conj q)) as [U _]; [by rewrite rq_conj, qnorm_conj|by rewrite norm_conj|]. destruct (U k Hk) as [Fk E]. split; [exact Fk|]. rewrite rq_conj, qnorm_conj in E. rewrite <- rq_part, rq_conj in E by done. exact E.
Qed.
Lemma qnorm_rev a b : Rabs (qnorm a - qnorm b) <= qnorm (qsub a b).
Proof.
  assert (forall a b, qnorm a <= qnorm b + qnorm (qsub a b)) as H.
  { intros p q. replace p with (qadd q (qsub p q)) at 1 by (destruct p, q; apply q_eq; cbn; ring). apply qnorm_triangle. }
  pose proof (H a b). pose proof (H b a). assert (qnorm (qsub b a) = qnorm (qsub a b)) by (apply qnorm_eq; destruct a, b; unfold qnorm2; cbn; ring). apply Rabs_le. lra.
Qed.
Lemma near_one n : 0 <= n -> Rabs (n * n - 1) <= 40 / 16777216 -> Rabs (n - 1) <= 21 / 16777216.
Proof. intros Hn H. apply Rabs_le_inv in H. apply Rabs_le. split; nra. Qed.
Lemma tiny_small : 0 < tiny <= / 16777216 / 100.
Proof.
  unfold tiny. split; [apply Rinv_0_lt_compat, (IZR_lt 0); reflexivity|]. apply Rle_trans with (/ IZR (2 ^ 40)); [apply Rinv_le_contravar; [apply (IZR_lt 0); reflexivity|apply IZR_le; discriminate]|]. change (IZR (2 ^ 40)) with 1099511627776. lra.
Qed.
Lemma unit_le p : 0 < qnorm p -> qnorm (qscale (conjugate p) (/ qnorm p)) <= 1.
Proof.
  intros H. apply qnorm_le; [lra|]. assert (forall a t, qnorm2 (qscale (conjugate a) t) = t * t * qnorm2 a) as E by (intros [a b c d] t; unfold qnorm2; cbn; ring). rewrite E, <- qnorm_sq. right. field. lra.
Qed.
(** A unit quaternion times its inverse is one up to 64 units. *)
Theorem quatf_unit_inverse (q : col4) : / IZR (2 ^ 60) <= qnorm (rq q) -> fin (fq_norm q) = true -> fin (fq_norm (fq_unit q)) = true ->
  forall k, (k < 4)%nat -> fin (lane4 (fq_mul (fq_unit q) (fq_inverse (fq_unit q))) k) = true -> near (units 64) (rlane (fq_mul (fq_unit q) (fq_inverse (fq_unit q))) k) (part quat_id k).
Proof.
  intros Hl F Fn k Hk Fk. destruct (quatf_unit_error q Hl F) as [_ N]. set (r := fq_unit q) in *. clearbody r. clear q Hl F. unfold near, units in N. change (IZR (2 ^ 24)) with 16777216 in N.
  rewrite <- qnorm_sq in N. pose proof (qnorm_pos (rq r)) as Pn. apply (near_one _ Pn) in N. destruct tiny_small as [T0 T1]. pose proof (Rabs_le_inv _ _ N) as Nb. 
  assert (/ IZR (2 ^ 60) <= qnorm (rq r)) as Hl. { apply Rle_trans with (/ 2); [apply Rinv_le_contravar; [lra|apply (IZR_le 2); discriminate]|lra]. }
  pose proof (quatf_inverse_error r Hl Fn) as I. set (s := fq_inverse r) in *. set (C := qscale (conjugate (rq r)) (/ qnorm (rq r))). set (n := qnorm (rq r)) in *.
  assert (forall j, (j < 4)%nat -> Rabs (part C j) <= 1) as C1. { intros j Hj. apply Rle_trans with (qnorm C * qnorm quat_id).
    - replace (part C j) with (part (qmul C quat_id) j); [apply mul_lane|]. destruct C as [? ? ? ?], j as [|[|[|[|j]]]]; try lia; cbn; ring.
    - assert (qnorm quat_id = 1) as -> by (unfold qnorm, qnorm2; cbn; replace (_ + _) with 1 by ring; apply sqrt_1). assert (qnorm C <= 1); [|lra]. apply unit_le. fold n. lra. }
  assert (forall j, (j < 4)%nat -> part C j = part (conjugate (rq r)) j / n) as PC. { intros j Hj. unfold C. destruct (conjugate (rq r)), j as [|[|[|[|j]]]]; try lia; cbn; unfold Rdiv; ring. }
  assert (qnorm (qsub (rq s) C) <= 2 * (17 / 16777216 + tiny)) as D.
  { apply qnorm_lanes; [lra|]. intros j Hj. rewrite part_subq, rq_part by done. rewrite (PC j Hj). destruct (I j Hj) as [_ E]. unfold near, units in E. change (IZR (2 ^ 24)) with 16777216 in E. eapply Rle_trans; [exact E|]. rewrite <- (PC j Hj). pose proof (C1 j Hj). lra. }
  assert (qmul (rq r) C = qscale quat_id n) as M. { unfold C. pose proof (proj1 (proj2 (proj2 (proj2 (proj2 (proj2 (proj2 (quat_product (rq r) (conjugate (rq r)) quat_id (/ n))))))))) as E. rewrite E. destruct (quat_norm_conjugate (rq r) (rq r)) as (_ & _ & _ & _ & E2 & _). rewrite E2. rewrite <- qnorm_sq. fold n. apply q_eq; cbn; field; lra. }
  pose proof (quatf_mul_error r s k Fk) as R1. unfold near, units in R1. change (IZR (2 ^ 24)) with 16777216 in R1. fold n in R1.
  assert (qnorm (rq s) <= 3 / 2) as Ns. { replace (rq s) with (qadd C (qsub (rq s) C)) by (destruct (rq s), C; apply q_eq; cbn; ring). eapply Rle_trans; [apply qnorm_triangle|]. assert (qnorm C <= 1); [|lra]. apply unit_le. fold n. lra. }
  assert (Rabs (part (qmul (rq r) (rq s)) k - part (qscale quat_id n) k) <= n * (2 * (17 / 16777216 + tiny))) as R2.
  { rewrite <- M. replace (part (qmul (rq r) (rq s)) k - part (qmul (rq r) C) k) with (part (qmul (rq r) (qsub (rq s) C)) k) by (clear; destruct (rq r), (rq s), C, k as [|[|[|k]]]; cbn; ring). eapply Rle_trans; [apply mul_lane|]. fold n. apply Rmult_le_compat_l; lra. }
  assert (Rabs (part (qscale quat_id n) k - part quat_id k) <= 21 / 16777216) as R3. { destruct k as [|[|[|[|k]]]]; try lia; cbn [part the qscale quat_id qx qy qz qw]; rewrite ?Rmult_0_r, ?Rmult_1_r, ?Rminus_0_r, ?Rabs_R0; try lra; exact N. }
  assert (n * qnorm (rq s) <= 1001 / 1000 * (3 / 2)) as B by (apply Rmult_le_compat; [lra|apply qnorm_pos|lra|lra]). unfold near, units. change (IZR (2 ^ 24)) with 16777216.
  set (x := rlane _ _) in *. set (y := part (qmul _ _) k) in *. set (z := part (qscale _ _) k) in *. set (w := part quat_id k) in *. clearbody x y z w. assert (n * (2 * (17 / 16777216 + tiny)) <= 1001 / 1000 * (2 * (17 / 16777216 + tiny))) by (apply Rmult_le_compat_r; lra).
  abs_all. apply Rabs_le. lra.
Qed.
(** Rotating by a unit quaternion keeps lengths up to 75 units. *)
Lemma rotate_length p v : length3 (qrotate p v) = qnorm2 p * length3 v.
Proof.
  pose proof (qrotate_inner p v v) as E. unfold length3. change (x3 (qrotate p v) * x3 (qrotate p v) + y3 (qrotate p v) * y3 (qrotate p v) + z3 (qrotate p v) * z3 (qrotate p v)) with (TransformSpec.inner (qrotate p v) (qrotate p v)). rewrite E.
  pose proof (qnorm2_pos p). rewrite sqrt_mult_alt by nra. rewrite sqrt_square by done. reflexivity.
Qed.
Lemma length3_near (a b : v3) (e : R) : 0 <= e -> (forall k, (k < 3)%nat -> Rabs (part3 a k - part3 b k) <= e) -> Rabs (length3 a - length3 b) <= 2 * e.
Proof.
  intros He H. rewrite <- !length3_q. eapply Rle_trans; [apply qnorm_rev|]. apply qnorm_lanes; [done|]. intros k Hk. rewrite part_subq. destruct k as [|[|[|[|k]]]]; try lia; [exact (H 0%nat ltac:(lia))|exact (H 1%nat ltac:(lia))|exact (H 2%nat ltac:(lia))|].
  cbn. rewrite Rminus_0_r, Rabs_R0. done.
Qed.
Theorem quatf_unit_rotates (q : col4) (v : pt) : / IZR (2 ^ 60) <= qnorm (rq q) -> fin (fq_norm q) = true -> fin3 (fq_rotate (fq_unit q) v) ->
  near (units 75 * length3 (vec v) + 9 * tiny) (length3 (vec (fq_rotate (fq_unit q) v))) (length3 (vec v)).
Proof.
  intros Hl F (F0 & F1 & F2). destruct (quatf_unit_error q Hl F) as [_ N]. set (r := fq_unit q) in *. clearbody r. clear q Hl F. unfold near, units in *. change (IZR (2 ^ 24)) with 16777216 in *.
  pose proof (qnorm_pos (rq r)) as Pn. pose proof N as N2. rewrite <- qnorm_sq in N2. apply (near_one _ Pn) in N2. pose proof (rotate_length (rq r) (vec v)) as RL. assert (0 <= length3 (vec v)) as Pv by apply sqrt_pos. destruct tiny_small as [T0 T1].
  set (e := 17 / 16777216 * length3 (vec v) + (4 + / 10) * tiny). assert (0 <= e) as He by (unfold e; lra).
  assert (Rabs (length3 (vec (fq_rotate r v)) - length3 (qrotate (rq r) (vec v))) <= 2 * e) as D.
  { apply length3_near; [done|]. intros k Hk. assert (part3 (vec (fq_rotate r v)) k = val (lane3 (fq_rotate r v) k)) as ->. { generalize (fq_rotate r v). intros p. destruct k as [|[|[|k]]]; try lia; reflexivity. }
    eapply Rle_trans; [apply quatf_rotate_error; [done|generalize (fq_rotate r v), F0, F1, F2; intros p ? ? ?; destruct k as [|[|[|k]]]; try lia; done]|]. unfold e, units. change (IZR (2 ^ 24)) with 16777216.
    replace (qnorm (rq r) * length3 (vec v) * qnorm (rq r)) with (qnorm (rq r) * qnorm (rq r) * length3 (vec v)) by ring. rewrite qnorm_sq. set (n := qnorm (rq r)) in *. set (n2 := qnorm2 (rq r)) in *. set (l := length3 (vec v)) in *. clearbody n n2 l. abs_all.
    assert (n2 * l <= (1 + / 100) * l) by (apply Rmult_le_compat_r; lra). assert (tiny * (1 + 3 * n) <= tiny * (4 + / 10)) by (apply Rmult_le_compat_l; lra). lra. }
  rewrite RL in D. set (n2 := qnorm2 (rq r)) in *. set (l := length3 (vec v)) in *. set (w := length3 (vec (fq_rotate r v))) in *. clearbody n2 l w. unfold e in D. assert (Rabs (n2 * l - l) <= 40 / 16777216 * l) as D2. { replace (n2 * l - l) with ((n2 - 1) * l) by ring. rewrite Rabs_mult, (Rabs_pos_eq l) by done. by apply Rmult_le_compat_r. }
  clear N N2. abs_all. apply Rabs_le. lra.
Qed.

(** The identity changes nothing, in whichever position, and turns nothing; a quaternion is its real and its complex part. *)
Lemma is_opp0 : is (b32_opp f0) 0.
Proof. split; [reflexivity|]. rewrite opp_val, (proj2 is0). ring. Qed.
Theorem quatf_identity (q : col4) (v : pt) : fin_col q -> fin3 v ->
  (forall k, is (lane4 (fq_mul q fq_id) k) (rlane q k) /\ is (lane4 (fq_mul fq_id q) k) (rlane q k)) /\
  (forall k, is (lane3 (fq_rotate fq_id v) k) (val (lane3 v k))) /\
  (forall r c, fentry (fq_to_mat fq_id) r c = fentry fm_I r c) /\
  (forall k, rlane fq_id k = part quat_id k) /\ fq_of (fq_complex q) (fq_real q) = q.
Proof.
  intros H (P1 & P2 & P3). apply fin_lanes in H as (? & ? & ? & ?). destruct q as [q0 q1 q2 q3], v as [v0 v1 v2]. cbn [cx cy cz cw px py pz] in *. pose proof is_opp0. split; [|split; [|split; [|split]]].
  - intros [|[|[|r]]]; cbv [fq_mul fq_id rlane lane4 the cx cy cz cw]; split; known.
  - intros [|[|[|r]]]; cbv [fq_rotate fq_complex fq_of fq_conj fq_mul fq_id lane3 the cx cy cz cw px py pz]; known.
  - intros [|[|[|r]]] [|[|[|c]]]; apply B2FF_inj; vm_compute; reflexivity.
  - intros [|[|[|r]]]; cbv [fq_id rlane lane4 the cx cy cz cw part quat_id qx qy qz qw]; first [exact (proj2 is0)|exact (proj2 is1)].
  - reflexivity.
Qed.

(** ** Comparing *)
Theorem quatf_eq (a b : col4) : (fin_col a -> fin_col b -> (fq_eq a b = true <-> forall k, (k < 4)%nat -> rlane a k = rlane b k)) /\ fq_ne a b = negb (fq_eq a b).
Proof.
  split; [|unfold fq_ne, fq_eq; by destruct (f32_eq (cx a) (cx b)), (f32_eq (cy a) (cy b)), (f32_eq (cz a) (cz b)), (f32_eq (cw a) (cw b))].
  intros Ha Hb. assert (forall k, f32_eq (lane4 a k) (lane4 b k) = true <-> rlane a k = rlane b k) as E by (intros k; apply f32_eq_finite; done). unfold fq_eq. rewrite !andb_true_iff.
  pose proof (E 0)%nat as E0. pose proof (E 1)%nat as E1. pose proof (E 2)%nat as E2. pose proof (E 3)%nat as E3. cbn [lane4 the] in E0, E1, E2, E3. rewrite E0, E1, E2, E3. clear. split.
  - intros H k Hk. destruct k as [|[|[|[|k]]]]; try lia; tauto.
  - intros H. split_and!; apply H; lia.
Qed.

(** ** What fails *)
Definition ints4 (a b c d : Z) : col4 := C4 (f32_of_Z a) (f32_of_Z b) (f32_of_Z c) (f32_of_Z d).
(** Products are not associative bit for bit, and a unit quaternion times its inverse is not always exactly the identity. *)
Theorem quatf_assoc_refuted : exists a b c, fin_col (fq_mul (fq_mul a b) c) /\ fin_col (fq_mul a (fq_mul b c)) /\ fq_eq (fq_mul (fq_mul a b) c) (fq_mul a (fq_mul b c)) = false.
Proof.
  exists (fq_unit (ints4 1 2 3 4)), (fq_unit (ints4 1 (-2) 5 7)), (fq_unit (ints4 3 1 1 0)).
  split; [intros [|[|[|k]]]; vm_compute; reflexivity|]. split; [intros [|[|[|k]]]; vm_compute; reflexivity|]. vm_compute. reflexivity.
Qed.
Theorem quatf_inverse_exact_refuted : exists q, fin_col (fq_unit q) /\ fq_eq (fq_mul (fq_unit q) (fq_inverse (fq_unit q))) fq_id = false.
Proof. exists (ints4 1 2 3 5). split; [intros [|[|[|k]]]; vm_compute; reflexivity|]. vm_compute. reflexivity. Qed.
(** A quaternion too short or too long to square: [unit] gives no number at all, or zero. *)
Theorem quatf_unit_extreme_refuted :
  (exists q, fin_col q /\ 0 < qnorm2 (rq q) /\ forall k, fin (lane4 (fq_unit q) k) = false) /\
  (exists q, fin_col q /\ 0 < qnorm2 (rq q) /\ forall k, rlane (fq_unit q) k = 0).
Proof.
  split.
  - exists (C4 (p2 (-76)) f0 f0 f0). split; [intros [|[|[|k]]]; vm_compute; reflexivity|]. split; [|intros [|[|[|k]]]; vm_compute; reflexivity].
    unfold qnorm2. cbn [rq qx qy qz qw cx cy cz cw]. destruct val0 as [_ ->]. assert (val (p2 (-76)) = F2R (Float radix2 8388608 (-99))) as -> by (vm_compute; reflexivity). assert (0 < F2R (Float radix2 8388608 (-99))) by (apply F2R_gt_0; done). nra.
  - exists (C4 (p2 64) f0 f0 f0). split; [intros [|[|[|k]]]; vm_compute; reflexivity|]. split; [|intros [|[|[|k]]]; vm_compute; reflexivity].
    unfold qnorm2. cbn [rq qx qy qz qw cx cy cz cw]. destruct val0 as [_ ->]. assert (val (p2 64) = F2R (Float radix2 8388608 41)) as -> by (vm_compute; reflexivity). assert (0 < F2R (Float radix2 8388608 41)) by (apply F2R_gt_0; done). nra.
Qed.

(** The hypotheses are met by (1, 2, 3, 5), turning the vector (1, -2, 7). *)
Example quatf_premises : let q := ints4 1 2 3 5 in let v := Pt (f32_of_Z 1) (f32_of_Z (-2)) (f32_of_Z 7) in
  fin (fq_norm q) = true /\ fin (fq_norm (fq_unit q)) = true /\ fin3 (fq_rotate (fq_unit q) v) /\ fin_col (fq_mul (fq_unit q) (fq_inverse (fq_unit q))) /\ fin_col (fq_mul (fq_mul q (fq_of v f0)) q) /\ forall r c, fin (fentry (fq_to_mat q) r c) = true.
Proof.
  cbv zeta. split; [by vm_compute|]. split; [by vm_compute|]. split; [split; [|split]; vm_compute; reflexivity|]. split; [intros [|[|[|k]]]; vm_compute; reflexivity|]. split; [intros [|[|[|k]]]; vm_compute; reflexivity|].
  intros [|[|[|r]]] [|[|[|c]]]; vm_compute; reflexivity.
Qed.
Example quatf_long_enough : / IZR (2 ^ 60) <= qnorm (rq (ints4 1 2 3 5)).
Proof.
  unfold qnorm, qnorm2, ints4. cbn [rq qx qy qz qw cx cy cz cw]. rewrite (proj2 (small_val 1 ltac:(lia))), (proj2 (small_val 2 ltac:(lia))), (proj2 (small_val 3 ltac:(lia))), (proj2 (small_val 5 ltac:(lia))).
  apply Rle_trans with 1; [rewrite <- Rinv_1; apply Rinv_le_contravar; [lra|apply (IZR_le 1); discriminate]|]. rewrite <- sqrt_1 at 1. apply sqrt_le_1_alt. lra.
Qed.
Print Assumptions quatf_parts.
Print Assumptions quatf_mul_error.
Print Assumptions quatf_rotate_error.
Print Assumptions quatf_assoc_error.
Print Assumptions quatf_to_mat_error.
Print Assumptions quatf_norm_error.
Print Assumptions quatf_unit_error.
Print Assumptions quatf_inverse_error.
Print Assumptions quatf_unit_inverse.
Print Assumptions quatf_unit_rotates.
Print Assumptions quatf_eq.
Print Assumptions quatf_assoc_refuted.
Print Assumptions quatf_inverse_exact_refuted.
Print Assumptions quatf_unit_extreme_refuted.
Print Assumptions quatf_identity.
