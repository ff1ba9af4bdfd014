(** C102: the inverse of matrices of small integers, which the scalings and translations of MatFloatProps.v do not cover. *)
From Flocq Require Import IEEE754.BinarySingleNaN IEEE754.Binary IEEE754.Bits.
From stdpp Require Import prelude list.
From Verif Require Import Base Word F32 VectModel VectProps FloatModel FloatProps.
From Coq Require Import Reals Lra.
From Flocq Require Import Core Relative.
From Verif Require Import Mat4Spec Mat4Model Mat4Props BoxFloatModel BoxFloatSpec BoxFloatProps BoxErrorProps MatFloatModel MatFloatSpec MatFloatProps.
Open Scope R_scope.

(** ** Integers up to 2^24 are computed without rounding *)
(** [x] is [r], an integer of size at most [k]. *)
Definition ex (k : Z) (x : binary32) (r : R) : Prop := fin x = true /\ val x = r /\ exists z, r = IZR z /\ (Z.abs z <= k)%Z.
Lemma ex_round z : (Z.abs z <= 2 ^ 24)%Z -> rnd32 (IZR z) = IZR z /\ Rabs (IZR z) <= bpow radix2 127.
Proof.
  intros H. split; [apply round_generic; [apply valid_rnd_N|by apply fmt_int]|]. rewrite <- abs_IZR. apply Rle_trans with (IZR (2 ^ 24)); [by apply IZR_le|]. change (IZR (2 ^ 24)) with (bpow radix2 24). by apply bpow_le.
Qed.
Lemma ex_mul j k x y r s : (0 <= j)%Z -> (j * k <= 2 ^ 24)%Z -> ex j x r -> ex k y s -> ex (j * k) (x ⊗ y) (r * s).
Proof.
  intros Pj Hk (Fx & Ex & z & -> & Hz) (Fy & Ey & w & -> & Hw). assert (Z.abs (z * w) <= j * k)%Z as B by (rewrite Z.abs_mul; apply Z.mul_le_mono_nonneg; lia). destruct (ex_round (z * w)) as [N S]; [lia|].
  destruct (mul_val x y Fx Fy) as [F V]; [by rewrite Ex, Ey, <- mult_IZR|]. rewrite Ex, Ey, <- mult_IZR, N in V. split; [exact F|]. split; [rewrite <- mult_IZR; exact V|]. exists (z * w)%Z. by rewrite mult_IZR.
Qed.
Lemma ex_add j k x y r s : (j + k <= 2 ^ 24)%Z -> ex j x r -> ex k y s -> ex (j + k) (x ⊕ y) (r + s).
Proof.
  intros Hk (Fx & Ex & z & -> & Hz) (Fy & Ey & w & -> & Hw). destruct (ex_round (z + w)) as [N S]; [lia|].
  destruct (add_val x y Fx Fy) as [F V]; [by rewrite Ex, Ey, <- plus_IZR|]. rewrite Ex, Ey, <- plus_IZR, N in V. split; [exact F|]. split; [rewrite <- plus_IZR; exact V|]. exists (z + w)%Z. rewrite plus_IZR. split; [done|lia].
Qed.
Lemma ex_sub j k x y r s : (j + k <= 2 ^ 24)%Z -> ex j x r -> ex k y s -> ex (j + k) (fsub x y) (r - s).
Proof.
  intros Hk (Fx & Ex & z & -> & Hz) (Fy & Ey & w & -> & Hw). destruct (ex_round (z - w)) as [N S]; [lia|].
  destruct (sub_val x y Fx Fy) as [F V]; [by rewrite Ex, Ey, <- minus_IZR|]. rewrite Ex, Ey, <- minus_IZR, N in V. split; [exact F|]. split; [rewrite <- minus_IZR; exact V|]. exists (z - w)%Z. rewrite minus_IZR. split; [done|lia].
Qed.
(** Four lanes. *)
Definition ex4 (k : Z) (c : col4) (v : v4) : Prop := ex k (cx c) (x4 v) /\ ex k (cy c) (y4 v) /\ ex k (cz c) (z4 v) /\ ex k (cw c) (w4 v).
Lemma ex4_mul j k a b v w : (0 <= j)%Z -> (j * k <= 2 ^ 24)%Z -> ex4 j a v -> ex4 k b w -> ex4 (j * k) (lanes4 fmul a b) (mul4 v w).
Proof. intros Hj Hk (A & B & C & D) (A' & B' & C' & D'). split_and!; by apply ex_mul. Qed.
Lemma ex4_add j k a b v w : (j + k <= 2 ^ 24)%Z -> ex4 j a v -> ex4 k b w -> ex4 (j + k) (lanes4 fadd a b) (add4 v w).
Proof. intros Hk (A & B & C & D) (A' & B' & C' & D'). split_and!; by apply ex_add. Qed.
Lemma ex4_sub j k a b v w : (j + k <= 2 ^ 24)%Z -> ex4 j a v -> ex4 k b w -> ex4 (j + k) (lanes4 fsub a b) (sub4 v w).
Proof. intros Hk (A & B & C & D) (A' & B' & C' & D'). split_and!; by apply ex_sub. Qed.
Lemma ex_pick k a b v w i : ex4 k a v -> ex4 k b w -> ex k (pick a b i) (nth4 v w i).
Proof. intros (A & B & C & D) (A' & B' & C' & D'). by destruct i as [|[|[|[|[|[|[|]]]]]]]. Qed.
Lemma ex4_shuffle k a b v w i j m n : ex4 k a v -> ex4 k b w -> ex4 k (fshuffle a b i j m n) (shuffle v w i j m n).
Proof. intros A B. split_and!; by apply ex_pick. Qed.
Lemma ex4_sw k a v i j m n : ex4 k a v -> ex4 k (fsw a i j m n) (sw v i j m n).
Proof. intros A. by apply ex4_shuffle. Qed.
Lemma ex4_mat2_mul j k a b v w : (0 <= j)%Z -> (j * k + j * k <= 2 ^ 24)%Z -> (0 <= k)%Z -> ex4 j a v -> ex4 k b w ->
  ex4 (j * k + j * k) (f_mat2_mul a b) (mat2_mul v w) /\ ex4 (j * k + j * k) (f_mat2_adj_mul a b) (mat2_adj_mul v w) /\ ex4 (j * k + j * k) (f_mat2_mul_adj a b) (mat2_mul_adj v w).
Proof.
  intros Hj Hk Pk A B. assert (0 <= j * k)%Z by (by apply Z.mul_nonneg_nonneg). split_and!.
  - apply ex4_add; [done| |]; (apply ex4_mul; [done|lia| |]); first [done|by apply ex4_sw].
  - apply ex4_sub; [done| |]; (apply ex4_mul; [done|lia| |]); first [done|by apply ex4_sw].
  - apply ex4_sub; [done| |]; (apply ex4_mul; [done|lia| |]); first [done|by apply ex4_sw].
Qed.
Lemma ex4_hadd k a v : (k + k <= 2 ^ 24)%Z -> ex4 k a v -> ex4 (k + k) (fhadd a) (hadd v).
Proof. intros Hk (A & B & C & D). split_and!; by apply ex_add. Qed.

(** The numerators and the determinant are exact. *)
Lemma small_cols m : small_ints m -> ex4 28 (m0 m) (rcol (m0 m)) /\ ex4 28 (m1 m) (rcol (m1 m)) /\ ex4 28 (m2 m) (rcol (m2 m)) /\ ex4 28 (m3 m) (rcol (m3 m)).
Proof.
  intros H. assert (forall r c, (r < 4)%nat -> (c < 4)%nat -> ex 28 (fentry m r c) (rentry m r c)) as E by (intros r c Hr Hc; destruct (H r c Hr Hc) as [F Z]; by split).
  unfold ex4; split_and!; first [exact (E 0 0 ltac:(lia) ltac:(lia))%nat|exact (E 1 0 ltac:(lia) ltac:(lia))%nat|exact (E 2 0 ltac:(lia) ltac:(lia))%nat|exact (E 3 0 ltac:(lia) ltac:(lia))%nat
    |exact (E 0 1 ltac:(lia) ltac:(lia))%nat|exact (E 1 1 ltac:(lia) ltac:(lia))%nat|exact (E 2 1 ltac:(lia) ltac:(lia))%nat|exact (E 3 1 ltac:(lia) ltac:(lia))%nat
    |exact (E 0 2 ltac:(lia) ltac:(lia))%nat|exact (E 1 2 ltac:(lia) ltac:(lia))%nat|exact (E 2 2 ltac:(lia) ltac:(lia))%nat|exact (E 3 2 ltac:(lia) ltac:(lia))%nat
    |exact (E 0 3 ltac:(lia) ltac:(lia))%nat|exact (E 1 3 ltac:(lia) ltac:(lia))%nat|exact (E 2 3 ltac:(lia) ltac:(lia))%nat|exact (E 3 3 ltac:(lia) ltac:(lia))%nat].
Qed.
Lemma parts_exact m : small_ints m -> let '(X, Y, Z, W, d) := fm_inverse_parts m in let '(X', Y', Z', W', d') := inverse_parts (rmat m) in
  ex4 131712 X X' /\ ex4 131712 Y Y' /\ ex4 131712 Z Z' /\ ex4 131712 W W' /\ ex4 14751744 d d'.
Proof.
  intros H. apply small_cols in H as (H0 & H1 & H2 & H3). cbv beta iota zeta delta [fm_inverse_parts inverse_parts]. cbn [rmat col0 col1 col2 col3].
  set (c0 := rcol (m0 m)) in *. set (c1 := rcol (m1 m)) in *. set (c2 := rcol (m2 m)) in *. set (c3 := rcol (m3 m)) in *.
  pose proof (ex4_shuffle 28 _ _ _ _ 0 1 4 5 H0 H1) as HA. pose proof (ex4_shuffle 28 _ _ _ _ 2 3 6 7 H0 H1) as HB. pose proof (ex4_shuffle 28 _ _ _ _ 0 1 4 5 H2 H3) as HC. pose proof (ex4_shuffle 28 _ _ _ _ 2 3 6 7 H2 H3) as HD.
  pose proof (ex4_shuffle 28 _ _ _ _ 0 2 4 6 H0 H2) as HE. pose proof (ex4_shuffle 28 _ _ _ _ 1 3 5 7 H1 H3) as HF. pose proof (ex4_shuffle 28 _ _ _ _ 1 3 5 7 H0 H2) as HG. pose proof (ex4_shuffle 28 _ _ _ _ 0 2 4 6 H1 H3) as HH.
  set (A := fshuffle (m0 m) (m1 m) 0 1 4 5) in *. set (B := fshuffle (m0 m) (m1 m) 2 3 6 7) in *. set (C := fshuffle (m2 m) (m3 m) 0 1 4 5) in *. set (D := fshuffle (m2 m) (m3 m) 2 3 6 7) in *.
  set (A' := shuffle c0 c1 0 1 4 5) in *. set (B' := shuffle c0 c1 2 3 6 7) in *. set (C' := shuffle c2 c3 0 1 4 5) in *. set (D' := shuffle c2 c3 2 3 6 7) in *.
  assert (ex4 1568 (lanes4 fsub (lanes4 fmul (fshuffle (m0 m) (m2 m) 0 2 4 6) (fshuffle (m1 m) (m3 m) 1 3 5 7)) (lanes4 fmul (fshuffle (m0 m) (m2 m) 1 3 5 7) (fshuffle (m1 m) (m3 m) 0 2 4 6)))
    (sub4 (mul4 (shuffle c0 c2 0 2 4 6) (shuffle c1 c3 1 3 5 7)) (mul4 (shuffle c0 c2 1 3 5 7) (shuffle c1 c3 0 2 4 6)))) as HS by (apply (ex4_sub 784 784); [lia| |]; apply (ex4_mul 28 28); done || lia).
  set (S := lanes4 fsub _ _) in *. set (S' := sub4 (mul4 (shuffle c0 c2 _ _ _ _) _) _) in *. clearbody S S' A B C D A' B' C' D'. clear HE HF HG HH H0 H1 H2 H3.
  pose proof (proj1 (proj2 (ex4_mat2_mul 28 28 _ _ _ _ ltac:(lia) ltac:(lia) ltac:(lia) HD HC))) as HDC. pose proof (proj1 (proj2 (ex4_mat2_mul 28 28 _ _ _ _ ltac:(lia) ltac:(lia) ltac:(lia) HA HB))) as HAB.
  change (28 * 28 + 28 * 28)%Z with 1568%Z in HDC, HAB. set (DC := f_mat2_adj_mul D C) in *. set (DC' := mat2_adj_mul D' C') in *. set (AB := f_mat2_adj_mul A B) in *. set (AB' := mat2_adj_mul A' B') in *. clearbody DC DC' AB AB'.
  assert (forall i, ex4 1568 (fsw S i i i i) (sw S' i i i i)) as Hd by (intros i; by apply ex4_sw). split_and!.
  - apply (ex4_sub 43904 87808); [lia|apply (ex4_mul 1568 28); done || lia|]. apply (ex4_mat2_mul 28 1568); done || lia.
  - apply (ex4_sub 43904 87808); [lia|apply (ex4_mul 1568 28); done || lia|]. apply (ex4_mat2_mul 28 1568); done || lia.
  - apply (ex4_sub 43904 87808); [lia|apply (ex4_mul 1568 28); done || lia|]. apply (ex4_mat2_mul 28 1568); done || lia.
  - apply (ex4_sub 43904 87808); [lia|apply (ex4_mul 1568 28); done || lia|]. apply (ex4_mat2_mul 28 1568); done || lia.
  - apply (ex4_sub 4917248 9834496); [lia| |].
    + apply (ex4_add 2458624 2458624); [lia| |]; apply (ex4_mul 1568 1568); done || lia.
    + apply (ex4_hadd 4917248); [lia|]. apply (ex4_hadd 2458624); [lia|]. apply (ex4_mul 1568 1568); [lia|lia|done|by apply ex4_sw].
Qed.

(** ** Dividing: two roundings, none of which can underflow *)
Lemma int_span z k : z <> 0%Z -> (Z.abs z <= 2 ^ k)%Z -> (0 <= k)%Z -> span 0 k (IZR z).
Proof. intros N H K. unfold span. rewrite <- abs_IZR. split; [change (bpow radix2 0) with 1; apply IZR_le; lia|]. rewrite <- (IZR_Zpower radix2 k K). by apply IZR_le. Qed.
Lemma quot_err (x d s : binary32) (r e t : R) : ex 131712 x r -> ex 14751744 d e -> e <> 0 -> is s t -> Rabs t = 1 ->
  fin (x ⊗ fdiv s d) = true /\ Rabs (val (x ⊗ fdiv s d) - r * (t / e)) <= 3 / IZR (2 ^ 24) * Rabs (r * (t / e)).
Proof.
  intros (Fx & Ex & z & -> & Hz) (Fd & Ed & w & -> & Hw) N [Fs Es] T. assert (w <> 0%Z) as Nw by (by intros ->). pose proof (int_span w 24 Nw ltac:(lia) ltac:(lia)) as Sw.
  assert (span 0 0 t) as St by (unfold span; rewrite T; change (bpow radix2 0) with 1; lra).
  assert (span (-24) 0 (t / IZR w)) as Sq by (apply (span_mul 0 0 (-24) 0 t (/ IZR w) St), (span_inv 0 24 _ Sw)).
  destruct (div_span (-24) 0 s d Fs) as (FR & q & Hq & Vq); [by rewrite Ed|by rewrite Es, Ed|lia|lia|]. rewrite Es, Ed in Vq.
  destruct (Z.eq_dec z 0) as [->|Nz].
  - rewrite Rmult_0_l. destruct (mul_val x (fdiv s d) Fx FR) as [F V]; [rewrite Ex, Rmult_0_l, Rabs_R0; apply bpow_ge_0|]. rewrite Ex, Rmult_0_l, round_0 in V by apply valid_rnd_N. split; [exact F|]. rewrite V, Rminus_0_r, Rabs_R0. lra.
  - pose proof (int_span z 18 Nz ltac:(lia) ltac:(lia)) as Sz. assert (span (-25) 19 (val x * val (fdiv s d))) as Sp.
    { rewrite Ex, Vq. replace (IZR z * (t / IZR w * q)) with (IZR z * (t / IZR w) * q) by ring. apply (span_grow (-24) 18); [apply (span_mul 0 18 (-24) 0); done|]. apply (rel_half 1); [lra|done]. }
    destruct (mul_span (-25) 19 x (fdiv s d) Fx FR Sp) as (F & p & Hp & Vp); [lia|lia|]. split; [exact F|]. rewrite Vp, Ex, Vq.
    replace (IZR z * (t / IZR w * q) * p - IZR z * (t / IZR w)) with ((q * p - 1) * (IZR z * (t / IZR w))) by ring. rewrite Rabs_mult. apply Rmult_le_compat_r; [apply Rabs_pos|].
    pose proof (rel_mul 1 1 q p ltac:(lra) ltac:(lra) Hq Hp) as Q. unfold rel, u in Q. eapply Rle_trans; [exact Q|]. change (IZR (2 ^ 24)) with 16777216. lra.
Qed.

(** The inverse of a matrix of integers up to 28 in size that has one is its inverse, to 3 units in every entry; an entry that is 0 in the inverse is 0. *)
Theorem matf_inverse_integers (m : fmat) : small_ints m -> det 4 (rentry m) <> 0 ->
  exists B : nat -> nat -> R, same (product (rentry m) B) identity /\ same (product B (rentry m)) identity /\
  forall r c, (r < 4)%nat -> (c < 4)%nat -> fin (fentry (fm_inverse m) r c) = true /\ Rabs (rentry (fm_inverse m) r c - B r c) <= 3 / IZR (2 ^ 24) * Rabs (B r c).
Proof.
  intros H N. assert (same (entry (rmat m)) (rentry m)) as EM by (intros r c Hr Hc; cases r; cases c; reflexivity).
  assert (det 4 (entry (rmat m)) = det 4 (rentry m)) as ED by reflexivity. rewrite <- ED in N. destruct (mat_inverse (rmat m) N) as [IL IR].
  exists (entry (inverse (rmat m))). split_and!.
  - intros r c Hr Hc. pose proof (mat_product (rmat m) (inverse (rmat m)) r c Hr Hc) as P. rewrite IR in P. transitivity (product (entry (rmat m)) (entry (inverse (rmat m))) r c); [cases r; cases c; reflexivity|]. rewrite <- P. cases r; cases c; reflexivity.
  - intros r c Hr Hc. pose proof (mat_product (inverse (rmat m)) (rmat m) r c Hr Hc) as P. rewrite IL in P. transitivity (product (entry (inverse (rmat m))) (entry (rmat m)) r c); [cases r; cases c; reflexivity|]. rewrite <- P. cases r; cases c; reflexivity.
  - pose proof (parts_exact m H) as PE. pose proof (inverse_det (rmat m)) as D. unfold rentry. unfold fm_inverse, inverse. destruct (fm_inverse_parts m) as [[[[X Y] Z] W] d]. destruct (inverse_parts (rmat m)) as [[[[X' Y'] Z'] W'] d']. cbv beta iota zeta in PE, D |- *.
    set (dd := det 4 (entry (rmat m))) in *. clearbody dd. subst d'. destruct PE as ((X0 & X1 & X2 & X3) & (Y0 & Y1 & Y2 & Y3) & (Z0 & Z1 & Z2 & Z3) & (W0 & W1 & W2 & W3) & (D0 & D1 & D2 & D3)).
    assert (Rabs 1 = 1) as A1 by (apply Rabs_pos_eq; lra). assert (Rabs (-1) = 1) as A2 by (rewrite Rabs_left; lra).
    intros r c Hr Hc. cases r; cases c; (eapply quot_err; [eassumption|eassumption|exact N|first [exact is1|exact ism1]|done]).
Qed.
(** With determinant 1 or -1 the division is exact too. *)
Lemma quot_exact (x d s : binary32) (r e t : R) : ex 131712 x r -> ex 14751744 d e -> Rabs e = 1 -> is s t -> t = 1 \/ t = -1 -> is (x ⊗ fdiv s d) (r * (t / e)).
Proof.
  intros X (Fd & Ed & w & -> & Hw) A [Fs Es] T. assert (exists k, t / IZR w = IZR k /\ (Z.abs k <= 1)%Z) as (k & Ek & Hk).
  { rewrite <- abs_IZR in A. apply eq_IZR in A. assert (w = 1 \/ w = -1)%Z as [-> | ->] by lia; destruct T as [-> | ->]; [exists 1%Z|exists (-1)%Z|exists (-1)%Z|exists 1%Z]; split; try lia; lra. }
  assert (IZR w <> 0) as N by (intros E; rewrite E, Rabs_R0 in A; lra).
  assert (ex 1 (fdiv s d) (t / IZR w)) as Q.
  { pose proof (Bdiv_correct 24 128 eq_refl eq_refl binop_nan_pl32 mode_NE s d) as C. rewrite Ed in C. specialize (C N). rewrite Es, Ek in C. destruct (ex_round k ltac:(lia)) as [RR S]. rewrite Rlt_bool_true in C.
    2:{ apply rnd_small. exact S. }
    destruct C as (C1 & C2 & _). split; [exact (eq_trans C2 Fs)|]. split; [|by exists k]. rewrite Ek. exact (eq_trans C1 RR). }
  destruct (ex_mul 131712 1 x (fdiv s d) r (t / IZR w) ltac:(lia) ltac:(lia) X Q) as (F & V & _). by split.
Qed.
(** So a matrix of integers up to 28 with determinant 1 or -1 times its inverse, on either side, is the identity without any error. *)
Theorem matf_inverse_unimodular (m : fmat) : small_ints m -> Rabs (det 4 (rentry m)) = 1 ->
  same (product (rentry m) (rentry (fm_inverse m))) identity /\ same (product (rentry (fm_inverse m)) (rentry m)) identity /\
  forall r c, (r < 4)%nat -> (c < 4)%nat -> fin (fentry (fm_inverse m) r c) = true.
Proof.
  intros H N1. assert (det 4 (entry (rmat m)) = det 4 (rentry m)) as ED by reflexivity. rewrite <- ED in N1. assert (det 4 (entry (rmat m)) <> 0) as N by (intros E; rewrite E, Rabs_R0 in N1; lra). destruct (mat_inverse (rmat m) N) as [IL IR].
  assert (forall r c, (r < 4)%nat -> (c < 4)%nat -> is (fentry (fm_inverse m) r c) (entry (inverse (rmat m)) r c)) as Q.
  { pose proof (parts_exact m H) as PE. pose proof (inverse_det (rmat m)) as D. unfold fm_inverse, inverse. destruct (fm_inverse_parts m) as [[[[X Y] Z] W] d]. destruct (inverse_parts (rmat m)) as [[[[X' Y'] Z'] W'] d']. cbv beta iota zeta in PE, D |- *.
    set (dd := det 4 (entry (rmat m))) in *. clearbody dd. subst d'. destruct PE as ((X0 & X1 & X2 & X3) & (Y0 & Y1 & Y2 & Y3) & (Z0 & Z1 & Z2 & Z3) & (W0 & W1 & W2 & W3) & (D0 & D1 & D2 & D3)).
    intros r c Hr Hc. cases r; cases c; (eapply quot_exact; [eassumption|eassumption|exact N1|first [exact is1|exact ism1]|first [by left|by right]]). }
  split_and!.
  - intros r c Hr Hc. transitivity (product (entry (rmat m)) (entry (inverse (rmat m))) r c).
    + unfold product, rentry. cbn [sum]. rewrite !(fun i Hi => proj2 (Q i c Hi Hc)) by lia. cases r; cases c; reflexivity.
    + rewrite <- (mat_product (rmat m) (inverse (rmat m)) r c Hr Hc), IR. cases r; cases c; reflexivity.
  - intros r c Hr Hc. transitivity (product (entry (inverse (rmat m))) (entry (rmat m)) r c).
    + unfold product, rentry. cbn [sum]. rewrite !(fun i Hi => proj2 (Q r i Hr Hi)) by lia. cases r; cases c; reflexivity.
    + rewrite <- (mat_product (inverse (rmat m)) (rmat m) r c Hr Hc), IL. cases r; cases c; reflexivity.
  - intros r c Hr Hc. exact (proj1 (Q r c Hr Hc)).
Qed.

(** The hypotheses are met: columns (1,3,0,0), (2,4,0,0), (0,0,1,0), (5,6,7,1), with determinant -2; and (1,1,0,0), (0,1,0,0), (0,0,1,0), (5,6,7,1), with determinant 1. *)
Definition of_ints (a b c d e f : Z) : fmat := FMat (C4 (f32_of_Z a) (f32_of_Z b) f0 f0) (C4 (f32_of_Z c) (f32_of_Z d) f0 f0) (C4 f0 f0 f1 f0) (C4 (f32_of_Z e) (f32_of_Z f) (f32_of_Z 7) f1).
Example integers_premises : small_ints (of_ints 1 3 2 4 5 6) /\ det 4 (rentry (of_ints 1 3 2 4 5 6)) = -2 /\ small_ints (of_ints 1 1 0 1 5 6) /\ det 4 (rentry (of_ints 1 1 0 1 5 6)) = 1.
Proof.
  assert (forall k, (Z.abs k <= 28)%Z -> fin (f32_of_Z k) = true /\ exists z, val (f32_of_Z k) = IZR z /\ (Z.abs z <= 28)%Z) as S by (intros k Hk; destruct (small_val k ltac:(lia)) as [F V]; split; [exact F|by exists k]).
  assert (fin f0 = true /\ exists z, val f0 = IZR z /\ (Z.abs z <= 28)%Z) as S0 by (split; [reflexivity|exists 0%Z; split; [apply is0|lia]]).
  assert (fin f1 = true /\ exists z, val f1 = IZR z /\ (Z.abs z <= 28)%Z) as S1 by (split; [reflexivity|exists 1%Z; split; [apply is1|lia]]).
  split_and!.
  - intros r c Hr Hc. cases r; cases c; first [exact S0|exact S1|apply S; lia].
  - cbv -[val f32_of_Z f0 f1 IZR Rplus Rmult Rminus Ropp]. rewrite !(fun k H => proj2 (small_val k H)) by lia. rewrite (proj2 is0), (proj2 is1). lra.
  - intros r c Hr Hc. cases r; cases c; first [exact S0|exact S1|apply S; lia].
  - cbv -[val f32_of_Z f0 f1 IZR Rplus Rmult Rminus Ropp]. rewrite !(fun k H => proj2 (small_val k H)) by lia. rewrite (proj2 is0), (proj2 is1). lra.
Qed.
Print Assumptions matf_inverse_integers.
Print Assumptions matf_inverse_unimodular.
