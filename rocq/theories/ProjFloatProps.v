(** C102: projections in f32. *)
From Flocq Require Import IEEE754.BinarySingleNaN IEEE754.Binary IEEE754.Bits.
From stdpp Require Import prelude list.
From Verif Require Import Base Word F32 VectModel VectSpec VectProps FloatModel FloatProps VectLengthModel VectLengthSpec VectLengthProps.
From Coq Require Import Reals Lra.
From Flocq Require Import Core Relative Plus_error Mult_error.
From Verif Require Import Mat4Spec Mat4Model Mat4Props QuatModel BoxFloatModel BoxFloatSpec BoxFloatProps BoxErrorProps MatFloatModel MatFloatSpec MatFloatProps QuatFloatSpec QuatFloatModel QuatFloatProps ProjFloatModel.
Open Scope R_scope.

Lemma factor (N n : R) : Rabs (N - n) <= u * Rabs n -> exists e, Rabs e <= u /\ N = n * (1 + e).
Proof.
  intros H. destruct (Req_dec n 0) as [->|Hn].
  - exists 0. rewrite Rabs_R0 in *. split; [unfold u; lra|]. rewrite Rminus_0_r, Rmult_0_r in H. pose proof (Rabs_pos N). assert (Rabs N = 0) as Z by lra. destruct (Req_dec N 0) as [->|A]; [ring|]. by apply Rabs_no_R0 in A.
  - exists ((N - n) / n). split; [|by field]. unfold Rdiv. rewrite Rabs_mult, Rabs_inv. apply Rmult_le_reg_r with (Rabs n); [by apply Rabs_pos_lt|]. rewrite Rmult_assoc, Rinv_l, Rmult_1_r; [done|by apply Rabs_no_R0].
Qed.
Lemma quotient_err (N D n d : R) : Rabs (N - n) <= u * Rabs n -> Rabs (D - d) <= u * Rabs d -> d <> 0 -> Rabs (N / D - n / d) <= (2 + / 100) * u * Rabs (n / d).
Proof.
  intros HN HD Hd. destruct (factor _ _ HN) as (a & Ha & ->). destruct (factor _ _ HD) as (b & Hb & ->). unfold u in *. apply Rabs_le_inv in Ha, Hb. assert (1 + b <> 0) by lra.
  replace (n * (1 + a) / (d * (1 + b)) - n / d) with ((a - b) / (1 + b) * (n / d)) by (field; done). rewrite Rabs_mult. apply Rmult_le_compat_r; [apply Rabs_pos|].
  apply Rabs_le. split; [apply Rmult_le_reg_r with (1 + b)|apply Rmult_le_reg_r with (1 + b)]; try lra; unfold Rdiv; rewrite Rmult_assoc, Rinv_l, Rmult_1_r by done; nra.
Qed.
Lemma div_nonzero (x y : binary32) : fin (fdiv x y) = true -> fin y = true -> val y <> 0.
Proof.
  intros F Fy E. destruct y as [sy| | |sy m e B]; try done.
  - destruct x; done.
  - cbn in E. unfold F2R in E. cbn [Defs.Fnum Defs.Fexp] in E. apply Rmult_integral in E as [E|E]; [|pose proof (bpow_gt_0 radix2 e); lra]. apply eq_IZR in E. by destruct sy.
Qed.
(** A quotient of two numbers that were rounded once each. *)
Lemma div_err (x y : binary32) (n d : R) : fin (fdiv x y) = true -> fin y = true -> Rabs (val x - n) <= u * Rabs n -> Rabs (val y - d) <= u * Rabs d -> near (units 4 * Rabs (n / d) + tiny) (val (fdiv x y)) (n / d).
Proof.
  intros F Fy Hn Hd. pose proof (div_nonzero _ _ F Fy) as Z. assert (d <> 0) as Zd. { intros ->. rewrite Rabs_R0, Rmult_0_r, Rminus_0_r in Hd. apply Z. destruct (Req_dec (val y) 0) as [E|E]; [done|]. apply Rabs_pos_lt in E. lra. }
  pose proof (rounded_div _ _ Z F Fy) as E. pose proof (rnd_err (val x / val y)) as B. pose proof (quotient_err _ _ _ _ Hn Hd Zd) as C. unfold near, rounded, units in *. change (IZR (2 ^ 24)) with 16777216. change (round radix2 (FLT_exp (-149) 24) ZnearestE (val x / val y)) with (rnd32 (val x / val y)) in E. rewrite E. clear E.
  destruct eta_tiny as [Pe ->]. unfold u in *. set (q := val x / val y) in *. set (w := n / d) in *. set (v := rnd32 q) in *. clearbody q w v. pose proof (Rabs_triang (v - q) (q - w)) as T. replace (v - q + (q - w)) with (v - w) in T by ring.
  pose proof (Rabs_triang (q - w) w) as T2. replace (q - w + w) with q in T2 by ring. pose proof (Rabs_pos w). lra.
Qed.
Lemma exact_err (x : R) : Rabs (x - x) <= u * Rabs x.
Proof. rewrite Rminus_diag_eq, Rabs_R0 by done. pose proof (Rabs_pos x). unfold u. lra. Qed.
Lemma f2_val : val f2 = 2.
Proof. exact (proj2 (small_val 2 ltac:(lia))). Qed.
(** Each entry of [ortho] is within 4 units of the exact one, when the three extents are finite. *)
Theorem matf_ortho_error (l r b t n f : binary32) : fin (fsub r l) = true -> fin (fsub t b) = true -> fin (fsub n f) = true -> fin (fsub f n) = true ->
  forall i j, (i < 4)%nat -> (j < 4)%nat -> fin (fentry (fm_ortho l r b t n f) i j) = true ->
  near (units 4 * Rabs (entry (ortho (val l) (val r) (val b) (val t) (val n) (val f)) i j) + tiny) (rentry (fm_ortho l r b t n f) i j) (entry (ortho (val l) (val r) (val b) (val t) (val n) (val f)) i j).
Proof.
  intros F1 F2 F3 F4. assert (forall x y, x = y -> near (units 4 * Rabs y + tiny) x y) as Z.
  { intros x y ->. unfold near. rewrite Rminus_diag_eq, Rabs_R0 by done. destruct eta_tiny as [Pe ->]. pose proof (Rabs_pos y). unfold units. change (IZR (2 ^ 24)) with 16777216. lra. }
  assert (forall x y, fin (fsub x y) = true -> fin (fdiv f2 (fsub x y)) = true -> near (units 4 * Rabs (2 / (val x - val y)) + tiny) (val (fdiv f2 (fsub x y))) (2 / (val x - val y))) as S.
  { intros x y Fd F. apply div_err; [done|done|rewrite f2_val; apply exact_err|]. destruct (sub_fin _ _ Fd). by apply sub_err. }
  assert (forall x y, fin (fsub x y) = true -> fin (fdiv (fsub (b32_opp y) x) (fsub x y)) = true -> near (units 4 * Rabs ((- val y - val x) / (val x - val y)) + tiny) (val (fdiv (fsub (b32_opp y) x) (fsub x y))) ((- val y - val x) / (val x - val y))) as T.
  { intros x y Fd F. destruct (sub_fin _ _ Fd) as [Fx Fy]. pose proof (div_nonzero _ _ F Fd) as Nz. assert (fin (fsub (b32_opp y) x) = true) as Fn. { generalize F, Nz, Fd. generalize (fsub (b32_opp y) x), (fsub x y). clear. intros a c F N Fc. destruct a as [| | |]; [done| | |done]; destruct c; done. }
    apply div_err; [done|done| |by apply sub_err]. rewrite <- (opp_val y). apply sub_err; [by rewrite opp_fin|done|done]. }
  intros [|[|[|[|i]]]] [|[|[|[|j]]]] Hi Hj F; try (exfalso; lia); unfold rentry; cbn [fentry lane4 the fm_ortho m0 m1 m2 m3 cx cy cz cw] in F |- *;
    cbn [entry ortho col0 col1 col2 col3 x4 y4 z4 w4]; try (apply Z; first [exact (proj2 is0)|exact (proj2 is1)]).
  - by apply S.
  - by apply T.
  - by apply S.
  - by apply T.
  - by apply S.
  - apply div_err; [done|done|rewrite opp_val; apply exact_err|]. destruct (sub_fin _ _ F4). by apply sub_err.
Qed.
(** Where [ortho] puts a point: the edges of the box go to -1 and 1, up to a multiple of the distance of the box from the origin in boxes. *)
Lemma place (l r c a d : R) : l <> r -> near (units 4 * Rabs (2 / (r - l)) + tiny) a (2 / (r - l)) -> near (units 4 * Rabs ((- l - r) / (r - l)) + tiny) d ((- l - r) / (r - l)) ->
  near (units 4 * ((2 * Rabs c + Rabs (l + r)) / Rabs (r - l)) + tiny * (1 + Rabs c)) (a * c + d) ((2 * c - l - r) / (r - l)).
Proof.
  intros N A D. unfold near in *. assert (r - l <> 0) as Nz by lra. assert (0 < Rabs (r - l)) as P by (by apply Rabs_pos_lt). pose proof (Rabs_pos c) as Pc.
  replace (a * c + d - (2 * c - l - r) / (r - l)) with ((a - 2 / (r - l)) * c + (d - (- l - r) / (r - l))) by (field; lra).
  eapply Rle_trans; [apply Rabs_triang|]. rewrite Rabs_mult. assert (Rabs (2 / (r - l)) = 2 / Rabs (r - l)) as E1. { unfold Rdiv. rewrite Rabs_mult, Rabs_inv, (Rabs_pos_eq 2) by lra. done. }
  assert (Rabs ((- l - r) / (r - l)) = Rabs (l + r) / Rabs (r - l)) as E2. { unfold Rdiv. rewrite Rabs_mult, Rabs_inv. replace (- l - r) with (- (l + r)) by ring. by rewrite Rabs_Ropp. }
  rewrite E1 in A. rewrite E2 in D. replace ((2 * Rabs c + Rabs (l + r)) / Rabs (r - l)) with (2 / Rabs (r - l) * Rabs c + Rabs (l + r) / Rabs (r - l)) by (field; lra).
  apply Rmult_le_compat_r with (r := Rabs c) in A; [|done]. lra.
Qed.
Theorem matf_ortho_places (l r b t n f : binary32) : fin (fsub r l) = true -> fin (fsub t b) = true -> fin (fsub n f) = true -> fin (fsub f n) = true -> all_fin (fm_ortho l r b t n f) ->
  let m := fm_ortho l r b t n f in let x (e0 e1 c : R) := (2 * c - e0 - e1) / (e1 - e0) in
  let slack (e0 e1 c : R) := units 4 * ((2 * Rabs c + Rabs (e0 + e1)) / Rabs (e1 - e0)) + tiny * (1 + Rabs c) in
  (forall c, near (slack (val l) (val r) c) (rentry m 0 0 * c + rentry m 0 3) (x (val l) (val r) c)) /\
  (forall c, near (slack (val b) (val t) c) (rentry m 1 1 * c + rentry m 1 3) (x (val b) (val t) c)) /\
  x (val l) (val r) (val l) = -1 /\ x (val l) (val r) (val r) = 1 /\ x (val b) (val t) (val b) = -1 /\ x (val b) (val t) (val t) = 1.
Proof.
  intros F1 F2 F3 F4 H m x slack. pose proof (matf_ortho_error l r b t n f F1 F2 F3 F4) as E. unfold all_fin in H.
  assert (forall p q, fin (fsub q p) = true -> fin (fdiv f2 (fsub q p)) = true -> val p <> val q) as Ne.
  { intros p q Fd Fq. pose proof (div_nonzero _ _ Fq Fd) as Z. destruct (sub_fin _ _ Fd) as [Fp Fr]. intros Eq. apply Z. pose proof (sub_err q p Fp Fr Fd) as B. replace (val q - val p) with 0 in B by lra. rewrite Rabs_R0, Rmult_0_r, Rminus_0_r in B. destruct (Req_dec (val (fsub q p)) 0) as [|A]; [done|]. apply Rabs_pos_lt in A. lra. }
  pose proof (Ne l r F1 (H 0%nat 0%nat)) as N1. pose proof (Ne b t F2 (H 1%nat 1%nat)) as N2.
  split; [|split]; [intros c; apply place; [done|exact (E 0%nat 0%nat ltac:(lia) ltac:(lia) (H 0%nat 0%nat))|exact (E 0%nat 3%nat ltac:(lia) ltac:(lia) (H 0%nat 3%nat))]|intros c; apply place; [done|exact (E 1%nat 1%nat ltac:(lia) ltac:(lia) (H 1%nat 1%nat))|exact (E 1%nat 3%nat ltac:(lia) ltac:(lia) (H 1%nat 3%nat))]|].
  unfold x. split_and!; field; lra.
Qed.
(** [proj]: the tangent is inverted with one rounding and divided by the aspect ratio with another; near plane and signs are exact. *)
Theorem matf_proj_error (tn ar n : binary32) : fin tn = true -> fin ar = true -> fin (fdiv f1 tn) = true -> fin (fdiv (fdiv f1 tn) ar) = true ->
  let m := fm_proj tn ar n in
  rounded (b32_opp (fentry m 1 1)) (1 / val tn) /\ rounded (fentry m 0 0) (val (b32_opp (fentry m 1 1)) / val ar) /\ fentry m 2 3 = n /\ fentry m 3 2 = fm1 /\
  forall i j, (i < 4)%nat -> (j < 4)%nat -> (i, j) ∉ [(0, 0); (1, 1); (2, 3); (3, 2)]%nat -> fentry m i j = f0.
Proof.
  intros Ft Fa F1 F2 m. assert (b32_opp (fentry m 1 1) = fdiv f1 tn) as ->. { subst m. cbn [fentry lane4 the fm_proj m0 m1 m2 m3 cx cy cz cw]. generalize F1. generalize (fdiv f1 tn). clear. intros [s| | |s mm e B] F; try done; unfold b32_opp, Bopp; by rewrite negb_involutive. }
  split. { rewrite <- (proj2 is1). apply rounded_div; [by apply (div_nonzero f1)|done|done]. }
  split. { subst m. cbn [fentry lane4 the fm_proj m0 m1 m2 m3 cx cy cz cw]. apply rounded_div; [by apply (div_nonzero (fdiv f1 tn))|done|done]. }
  split; [done|]. split; [done|].
  intros [|[|[|[|i]]]] [|[|[|[|j]]]] Hi Hj N; try (exfalso; lia); try reflexivity; exfalso; apply N; repeat first [apply elem_of_list_here|apply elem_of_list_further].
Qed.
(** The hypotheses are met by ortho(-3, 5, -1, 2, 1, 100), all of whose entries are finite, and by a tangent of 3 with aspect ratio 2. *)
Example proj_premises :   fin (fsub (f32_of_Z 5) (f32_of_Z (-3))) = true /\ fin (fsub (f32_of_Z 2) (f32_of_Z (-1))) = true /\ fin (fsub (f32_of_Z 1) (f32_of_Z 100)) = true /\ fin (fsub (f32_of_Z 100) (f32_of_Z 1)) = true /\
  all_fin (fm_ortho (f32_of_Z (-3)) (f32_of_Z 5) (f32_of_Z (-1)) (f32_of_Z 2) (f32_of_Z 1) (f32_of_Z 100)) /\ fin (fdiv f1 (f32_of_Z 3)) = true /\ fin (fdiv (fdiv f1 (f32_of_Z 3)) f2) = true.
Proof. do 4 (split; [vm_compute; reflexivity|]). split; [lanes; vm_compute; reflexivity|]. split; vm_compute; reflexivity. Qed.
Print Assumptions matf_ortho_error.
Print Assumptions matf_proj_error.
Print Assumptions matf_ortho_places.
