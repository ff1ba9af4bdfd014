(** C102: matrices of f32, with rounding. *)
From Flocq Require Import IEEE754.BinarySingleNaN IEEE754.Binary IEEE754.Bits.
From stdpp Require Import prelude list.
From Verif Require Import Base Word F32 VectModel VectProps FloatModel FloatProps.
From Coq Require Import Reals Lra.
From Flocq Require Import Core Relative Plus_error Mult_error.
From Verif Require Import Mat4Spec BoxFloatModel BoxFloatSpec BoxFloatProps BoxErrorProps MatFloatModel MatFloatSpec.
Open Scope R_scope.

(** ** Entry by entry *)
Lemma rounded_add (x y : binary32) : fin (fadd x y) = true -> rounded (fadd x y) (val x + val y).
Proof. intros F. exact (proj1 (add_rnd x y F)). Qed.
Lemma rounded_mul (x y : binary32) : fin (fmul x y) = true -> rounded (fmul x y) (val x * val y).
Proof. intros F. exact (proj1 (mul_rnd x y F)). Qed.
Lemma sub_fin (x y : binary32) : fin (fsub x y) = true -> fin x = true /\ fin y = true.
Proof. unfold fsub. destruct x as [| s| |], y as [| s'| |]; try done; cbn; try done; by destruct s, s'. Qed.
Lemma rounded_sub (x y : binary32) : fin (fsub x y) = true -> rounded (fsub x y) (val x - val y).
Proof.
  intros F. destruct (sub_fin _ _ F) as [Fx Fy]. pose proof (Bminus_correct 24 128 eq_refl eq_refl binop_nan_pl32 mode_NE x y Fx Fy) as C. unfold rounded, fsub, b32_minus in *. destruct (Rlt_bool_spec (Rabs (rnd32 (val x - val y))) (bpow radix2 128)).
  - by destruct C as (C & _).
  - exfalso. destruct C as [C _]. rewrite <- is_finite_B2FF in F. rewrite C in F. done.
Qed.
Lemma rounded_div (x y : binary32) : val y <> 0 -> fin (fdiv x y) = true -> fin y = true -> rounded (fdiv x y) (val x / val y).
Proof.
  intros Hy F _. pose proof (Bdiv_correct 24 128 eq_refl eq_refl binop_nan_pl32 mode_NE x y Hy) as C. unfold rounded, fdiv, b32_div in *. destruct (Rlt_bool_spec (Rabs (rnd32 (val x / val y))) (bpow radix2 128)).
  - by destruct C as (C & _).
  - exfalso. rewrite <- is_finite_B2FF in F. rewrite C in F. done.
Qed.
Ltac lanes := repeat (intros [|[|[|?]]]).
(** Sums, differences and scalings round each entry once. *)
Theorem matf_entrywise (a b : fmat) (s : binary32) : fin s = true -> forall r c,
  (fin (fentry (fm_add a b) r c) = true -> rounded (fentry (fm_add a b) r c) (rentry a r c + rentry b r c)) /\
  (fin (fentry (fm_sub a b) r c) = true -> rounded (fentry (fm_sub a b) r c) (rentry a r c - rentry b r c)) /\
  (fin (fentry (fm_add_s a s) r c) = true -> rounded (fentry (fm_add_s a s) r c) (rentry a r c + val s)) /\
  (fin (fentry (fm_sub_s a s) r c) = true -> rounded (fentry (fm_sub_s a s) r c) (rentry a r c - val s)) /\
  (fin (fentry (fm_mul_s a s) r c) = true -> rounded (fentry (fm_mul_s a s) r c) (rentry a r c * val s)) /\
  (val s <> 0 -> fin (fentry (fm_div_s a s) r c) = true -> rounded (fentry (fm_div_s a s) r c) (rentry a r c / val s)).
Proof.
  intros Fs. lanes; split_and!;
  first [exact (rounded_add _ _)|exact (rounded_sub _ _)|exact (rounded_mul _ _)|intros Hs F; exact (rounded_div _ _ Hs F Fs)].
Qed.

(** ** Products *)
Lemma dot4_err (a b c d e f g h : binary32) : fin (((a ⊗ b) ⊕ (c ⊗ d)) ⊕ ((e ⊗ f) ⊕ (g ⊗ h))) = true ->
  Rabs (val (((a ⊗ b) ⊕ (c ⊗ d)) ⊕ ((e ⊗ f) ⊕ (g ⊗ h))) - (val a * val b + val c * val d + val e * val f + val g * val h)) <=
  (Rabs (val a * val b) + Rabs (val c * val d) + Rabs (val e * val f) + Rabs (val g * val h)) / IZR (2 ^ 22) + tiny.
Proof.
  intros F2. destruct (add_fin _ _ F2) as [F3 F4]. destruct (add_fin _ _ F3) as [Fa Fb]. destruct (add_fin _ _ F4) as [Fc Fd].
  pose proof (mul_err _ _ Fa) as Ma. pose proof (mul_err _ _ Fb) as Mb. pose proof (mul_err _ _ Fc) as Mc. pose proof (mul_err _ _ Fd) as Md.
  pose proof (add_err _ _ F2) as A2. pose proof (add_err _ _ F3) as A3. pose proof (add_err _ _ F4) as A4. destruct eta_tiny as [Pe Te]. clear F2 F3 F4 Fa Fb Fc Fd.
  set (qa := val a * val b) in *. set (qb := val c * val d) in *. set (qc := val e * val f) in *. set (qd := val g * val h) in *. set (pa := val (a ⊗ b)) in *. set (pb := val (c ⊗ d)) in *. set (pc := val (e ⊗ f)) in *. set (pd := val (g ⊗ h)) in *.
  set (s := val (_ ⊕ (_ ⊕ _))) in *. set (s1 := val (_ ⊕ c ⊗ d)) in *. set (s2 := val (_ ⊕ g ⊗ h)) in *. clearbody qa qb qc qd pa pb pc pd s s1 s2. unfold u in *. change (IZR (2 ^ 22)) with 4194304. rewrite Te.
  assert (forall x, - Rabs x <= x <= Rabs x) as B by (intros x; apply Rabs_le_inv, Rle_refl). pose proof (B qa). pose proof (B qb). pose proof (B qc). pose proof (B qd).
  set (ra := Rabs qa) in *. set (rb := Rabs qb) in *. set (rc := Rabs qc) in *. set (rd := Rabs qd) in *. assert (0 <= ra /\ 0 <= rb /\ 0 <= rc /\ 0 <= rd) as (? & ? & ? & ?) by (unfold ra, rb, rc, rd; split_and!; apply Rabs_pos). clearbody ra rb rc rd. clear B.
  assert (Rabs (pa + pb) <= (1 + 1 / 16777216) * (ra + rb) + 2 * eta) as T1 by (abs_all; apply Rabs_le; lra). assert (Rabs (pc + pd) <= (1 + 1 / 16777216) * (rc + rd) + 2 * eta) as T2 by (abs_all; apply Rabs_le; lra).
  assert (Rabs (s1 - (qa + qb)) <= (2 + 1 / 16) / 16777216 * (ra + rb) + 3 * eta) as S1 by (abs_all; apply Rabs_le; lra). assert (Rabs (s2 - (qc + qd)) <= (2 + 1 / 16) / 16777216 * (rc + rd) + 3 * eta) as S2 by (abs_all; apply Rabs_le; lra).
  clear A3 A4 T1 T2 Ma Mb Mc Md. assert (Rabs (s1 + s2) <= (1 + 3 / 16777216) * (ra + rb + rc + rd) + 6 * eta) as T by (abs_all; apply Rabs_le; lra). abs_all. apply Rabs_le. lra.
Qed.
Lemma dot3_err (a b c d e f : binary32) : fin (((a ⊗ b) ⊕ (c ⊗ d)) ⊕ (e ⊗ f)) = true ->
  Rabs (val (((a ⊗ b) ⊕ (c ⊗ d)) ⊕ (e ⊗ f)) - (val a * val b + val c * val d + val e * val f)) <=
  (Rabs (val a * val b) + Rabs (val c * val d) + Rabs (val e * val f)) / IZR (2 ^ 22) + tiny.
Proof.
  intros F2. destruct (add_fin _ _ F2) as [F3 Fc]. destruct (add_fin _ _ F3) as [Fa Fb].
  pose proof (mul_err _ _ Fa) as Ma. pose proof (mul_err _ _ Fb) as Mb. pose proof (mul_err _ _ Fc) as Mc.
  pose proof (add_err _ _ F2) as A2. pose proof (add_err _ _ F3) as A3. destruct eta_tiny as [Pe Te]. clear F2 F3 Fa Fb Fc.
  set (qa := val a * val b) in *. set (qb := val c * val d) in *. set (qc := val e * val f) in *. set (pa := val (a ⊗ b)) in *. set (pb := val (c ⊗ d)) in *. set (pc := val (e ⊗ f)) in *.
  set (s := val (_ ⊕ _ ⊕ _)) in *. set (s1 := val (_ ⊕ c ⊗ d)) in *. clearbody qa qb qc pa pb pc s s1. unfold u in *. change (IZR (2 ^ 22)) with 4194304. rewrite Te.
  assert (forall x, - Rabs x <= x <= Rabs x) as B by (intros x; apply Rabs_le_inv, Rle_refl). pose proof (B qa). pose proof (B qb). pose proof (B qc).
  set (ra := Rabs qa) in *. set (rb := Rabs qb) in *. set (rc := Rabs qc) in *. assert (0 <= ra /\ 0 <= rb /\ 0 <= rc) as (? & ? & ?) by (unfold ra, rb, rc; split_and!; apply Rabs_pos). clearbody ra rb rc. clear B.
  assert (Rabs (pa + pb) <= (1 + 1 / 16777216) * (ra + rb) + 2 * eta) as T1 by (abs_all; apply Rabs_le; lra).
  assert (Rabs (s1 - (qa + qb)) <= (2 + 1 / 16) / 16777216 * (ra + rb) + 3 * eta) as S1 by (abs_all; apply Rabs_le; lra).
  clear A3 T1 Ma Mb. assert (Rabs (s1 + pc) <= (1 + 3 / 16777216) * (ra + rb + rc) + 6 * eta) as T by (abs_all; apply Rabs_le; lra). abs_all. apply Rabs_le. lra.
Qed.
(** In the shapes of the specification: the factors in either order. *)
Lemma dot4_near (a b c d e f g h : binary32) : fin (((a ⊗ b) ⊕ (c ⊗ d)) ⊕ ((e ⊗ f) ⊕ (g ⊗ h))) = true ->
  near ((0 + Rabs (val a) * Rabs (val b) + Rabs (val c) * Rabs (val d) + Rabs (val e) * Rabs (val f) + Rabs (val g) * Rabs (val h)) / IZR (2 ^ 22) + tiny)
    (val (((a ⊗ b) ⊕ (c ⊗ d)) ⊕ ((e ⊗ f) ⊕ (g ⊗ h)))) (0 + val a * val b + val c * val d + val e * val f + val g * val h).
Proof. intros F. unfold near. rewrite <- !Rabs_mult, !Rplus_0_l. by apply dot4_err. Qed.
Lemma dot4_near' (a b c d e f g h : binary32) : fin (((b ⊗ a) ⊕ (d ⊗ c)) ⊕ ((f ⊗ e) ⊕ (h ⊗ g))) = true ->
  near ((0 + Rabs (val a) * Rabs (val b) + Rabs (val c) * Rabs (val d) + Rabs (val e) * Rabs (val f) + Rabs (val g) * Rabs (val h)) / IZR (2 ^ 22) + tiny)
    (val (((b ⊗ a) ⊕ (d ⊗ c)) ⊕ ((f ⊗ e) ⊕ (h ⊗ g)))) (0 + val a * val b + val c * val d + val e * val f + val g * val h).
Proof.
  intros F. unfold near. rewrite <- !Rabs_mult, !Rplus_0_l. rewrite (Rmult_comm (val a)), (Rmult_comm (val c)), (Rmult_comm (val e)), (Rmult_comm (val g)). by apply dot4_err.
Qed.
Lemma point_near (a b c d e f g : binary32) : fin (((a ⊗ b) ⊕ (c ⊗ d)) ⊕ ((e ⊗ f) ⊕ g)) = true ->
  near ((0 + Rabs (val a) * Rabs (val b) + Rabs (val c) * Rabs (val d) + Rabs (val e) * Rabs (val f) + Rabs (val g) * Rabs 1) / IZR (2 ^ 22) + tiny)
    (val (((a ⊗ b) ⊕ (c ⊗ d)) ⊕ ((e ⊗ f) ⊕ g))) (0 + val a * val b + val c * val d + val e * val f + val g * 1).
Proof.
  intros F2. unfold near. rewrite <- !Rabs_mult, !Rplus_0_l, Rmult_1_r. destruct (add_fin _ _ F2) as [F3 F4]. destruct (add_fin _ _ F3) as [Fa Fb]. destruct (add_fin _ _ F4) as [Fc _].
  pose proof (mul_err _ _ Fa) as Ma. pose proof (mul_err _ _ Fb) as Mb. pose proof (mul_err _ _ Fc) as Mc.
  pose proof (add_err _ _ F2) as A2. pose proof (add_err _ _ F3) as A3. pose proof (add_err _ _ F4) as A4. destruct eta_tiny as [Pe Te]. clear F2 F3 F4 Fa Fb Fc.
  set (qa := val a * val b) in *. set (qb := val c * val d) in *. set (qc := val e * val f) in *. set (qd := val g) in *. set (pa := val (a ⊗ b)) in *. set (pb := val (c ⊗ d)) in *. set (pc := val (e ⊗ f)) in *.
  set (s := val (_ ⊕ (_ ⊕ _))) in *. set (s1 := val (_ ⊕ c ⊗ d)) in *. set (s2 := val (_ ⊕ g)) in *. clearbody qa qb qc qd pa pb pc s s1 s2. unfold u in *. change (IZR (2 ^ 22)) with 4194304. rewrite Te.
  assert (forall x, - Rabs x <= x <= Rabs x) as B by (intros x; apply Rabs_le_inv, Rle_refl). pose proof (B qa). pose proof (B qb). pose proof (B qc). pose proof (B qd).
  set (ra := Rabs qa) in *. set (rb := Rabs qb) in *. set (rc := Rabs qc) in *. set (rd := Rabs qd) in *. assert (0 <= ra /\ 0 <= rb /\ 0 <= rc /\ 0 <= rd) as (? & ? & ? & ?) by (unfold ra, rb, rc, rd; split_and!; apply Rabs_pos). clearbody ra rb rc rd. clear B.
  assert (Rabs (pa + pb) <= (1 + 1 / 16777216) * (ra + rb) + 2 * eta) as T1 by (abs_all; apply Rabs_le; lra). assert (Rabs (pc + qd) <= (1 + 1 / 16777216) * (rc + rd) + 2 * eta) as T2 by (abs_all; apply Rabs_le; lra).
  assert (Rabs (s1 - (qa + qb)) <= (2 + 1 / 16) / 16777216 * (ra + rb) + 3 * eta) as S1 by (abs_all; apply Rabs_le; lra). assert (Rabs (s2 - (qc + qd)) <= (2 + 1 / 16) / 16777216 * (rc + rd) + 3 * eta) as S2 by (abs_all; apply Rabs_le; lra).
  clear A3 A4 T1 T2 Ma Mb Mc. assert (Rabs (s1 + s2) <= (1 + 3 / 16777216) * (ra + rb + rc + rd) + 6 * eta) as T by (abs_all; apply Rabs_le; lra). abs_all. apply Rabs_le. lra.
Qed.
Lemma dir_near (a b c d e f : binary32) (g : R) : fin (((a ⊗ b) ⊕ (c ⊗ d)) ⊕ (e ⊗ f)) = true ->
  near ((0 + Rabs (val a) * Rabs (val b) + Rabs (val c) * Rabs (val d) + Rabs (val e) * Rabs (val f) + Rabs g * Rabs 0) / IZR (2 ^ 22) + tiny)
    (val (((a ⊗ b) ⊕ (c ⊗ d)) ⊕ (e ⊗ f))) (0 + val a * val b + val c * val d + val e * val f + g * 0).
Proof. intros F. unfold near. rewrite <- !Rabs_mult, !Rplus_0_l, Rmult_0_r, Rabs_R0, !Rplus_0_r. by apply dot3_err. Qed.

(** Every finite entry of a product is the entry of the exact product up to 4 units of 2^-24 of the sum of the sizes. *)
Theorem matf_mul_error (a b : fmat) : forall r c, fin (fentry (fm_mul a b) r c) = true ->
  near (product (sizes (rentry a)) (sizes (rentry b)) r c / IZR (2 ^ 22) + tiny) (rentry (fm_mul a b) r c) (product (rentry a) (rentry b) r c).
Proof. lanes; exact (dot4_near' _ _ _ _ _ _ _ _). Qed.
(** The same for vectors, points and directions. *)
Theorem matf_vec_error (a : fmat) (v : col4) : forall r, fin (lane4 (fm_vec a v) r) = true ->
  near (apply (sizes (rentry a)) (sizes1 (rlane v)) r / IZR (2 ^ 22) + tiny) (rlane (fm_vec a v) r) (apply (rentry a) (rlane v) r).
Proof. lanes; exact (dot4_near _ _ _ _ _ _ _ _). Qed.
Theorem matf_point_error (a : fmat) (p : pt) : forall r, (r < 3)%nat -> fin (lane3 (fmat_point a p) r) = true ->
  near (apply (sizes (rentry a)) (sizes1 (rpoint p)) r / IZR (2 ^ 22) + tiny) (val (lane3 (fmat_point a p) r)) (apply (rentry a) (rpoint p) r).
Proof. intros [|[|[|r]]]; try lia; intros _; exact (point_near _ _ _ _ _ _ _). Qed.
Theorem matf_rotate_error (a : fmat) (p : pt) : forall r, (r < 3)%nat -> fin (lane3 (fm_rotate a p) r) = true ->
  near (apply (sizes (rentry a)) (sizes1 (rdir p)) r / IZR (2 ^ 22) + tiny) (val (lane3 (fm_rotate a p) r)) (apply (rentry a) (rdir p) r).
Proof. intros [|[|[|r]]]; try lia; intros _; exact (dir_near _ _ _ _ _ _ _). Qed.

(** ** Two steps *)
Lemma lane_step (p q g v : R) : Rabs q <= g -> Rabs (p - q) <= g / IZR (2 ^ 22) + tiny -> Rabs (p * v - q * v) <= g * Rabs v / IZR (2 ^ 22) + tiny * Rabs v /\ Rabs p * Rabs v <= g * Rabs v * (1 + / IZR (2 ^ 22)) + tiny * Rabs v.
Proof.
  intros Hq Hp. pose proof (Rabs_pos v) as Pv. replace (p * v - q * v) with ((p - q) * v) by ring. rewrite Rabs_mult. assert (Rabs p <= g + (g / IZR (2 ^ 22) + tiny)) as Hpp.
  { replace p with (q + (p - q)) by ring. eapply Rle_trans; [apply Rabs_triang|]. lra. }
  split; (eapply Rle_trans; [apply Rmult_le_compat_r; [exact Pv|eassumption]|]); unfold Rdiv; right; ring.
Qed.
Lemma two_steps (f : R) (p q g v : nat -> R) : (forall k, (k < 4)%nat -> Rabs (q k) <= g k) -> (forall k, (k < 4)%nat -> Rabs (p k - q k) <= g k / IZR (2 ^ 22) + tiny) ->
  Rabs (f - sum 4 (fun k => p k * v k)) <= sum 4 (fun k => Rabs (p k) * Rabs (v k)) / IZR (2 ^ 22) + tiny ->
  Rabs (f - sum 4 (fun k => q k * v k)) <= 9 / IZR (2 ^ 24) * sum 4 (fun k => g k * Rabs (v k)) + 2 * tiny * (1 + sum 4 (fun k => Rabs (v k))).
Proof.
  intros Hq Hp Hf. destruct (lane_step _ _ _ (v 0%nat) (Hq 0%nat ltac:(lia)) (Hp 0%nat ltac:(lia))) as [A0 B0]. destruct (lane_step _ _ _ (v 1%nat) (Hq 1%nat ltac:(lia)) (Hp 1%nat ltac:(lia))) as [A1 B1].
  destruct (lane_step _ _ _ (v 2%nat) (Hq 2%nat ltac:(lia)) (Hp 2%nat ltac:(lia))) as [A2 B2]. destruct (lane_step _ _ _ (v 3%nat) (Hq 3%nat ltac:(lia)) (Hp 3%nat ltac:(lia))) as [A3 B3].
  assert (forall k, (k < 4)%nat -> 0 <= g k * Rabs (v k)) as G by (intros k Hk; apply Rmult_le_pos; [eapply Rle_trans; [apply Rabs_pos|by apply Hq]|apply Rabs_pos]). pose proof (G 0%nat ltac:(lia)). pose proof (G 1%nat ltac:(lia)). pose proof (G 2%nat ltac:(lia)). pose proof (G 3%nat ltac:(lia)).
  assert (forall k, 0 <= tiny * Rabs (v k)) as T by (intros k; apply Rmult_le_pos; [pose proof eta_tiny; lra|apply Rabs_pos]). pose proof (T 0%nat). pose proof (T 1%nat). pose proof (T 2%nat). pose proof (T 3%nat).
  clear Hq Hp G T. cbn [sum] in *. rewrite Rplus_0_l in *. set (P0 := p 0%nat * v 0%nat) in *. set (P1 := p 1%nat * v 1%nat) in *. set (P2 := p 2%nat * v 2%nat) in *. set (P3 := p 3%nat * v 3%nat) in *.
  set (Q0 := q 0%nat * v 0%nat) in *. set (Q1 := q 1%nat * v 1%nat) in *. set (Q2 := q 2%nat * v 2%nat) in *. set (Q3 := q 3%nat * v 3%nat) in *.
  replace (2 * tiny * (1 + (0 + Rabs (v 0%nat) + Rabs (v 1%nat) + Rabs (v 2%nat) + Rabs (v 3%nat)))) with (2 * tiny + 2 * (tiny * Rabs (v 0%nat)) + 2 * (tiny * Rabs (v 1%nat)) + 2 * (tiny * Rabs (v 2%nat)) + 2 * (tiny * Rabs (v 3%nat))) by ring.
  change (IZR (2 ^ 22)) with 4194304 in *. change (IZR (2 ^ 24)) with 16777216. pose proof eta_tiny as [Pe Te]. abs_all. apply Rabs_le. lra.
Qed.
Lemma product_sizes A B r c : Rabs (product A B r c) <= product (sizes A) (sizes B) r c.
Proof. unfold product, sizes. cbn [sum]. rewrite <- !Rabs_mult. rewrite !Rplus_0_l. repeat (eapply Rle_trans; [apply Rabs_triang|]; apply Rplus_le_compat_r). apply Rle_refl. Qed.
Lemma apply_sizes A v r : Rabs (apply A v r) <= apply (sizes A) (sizes1 v) r.
Proof. unfold apply, sizes, sizes1. cbn [sum]. rewrite <- !Rabs_mult. rewrite !Rplus_0_l. repeat (eapply Rle_trans; [apply Rabs_triang|]; apply Rplus_le_compat_r). apply Rle_refl. Qed.
(** Multiplying two matrices first, or applying one after the other: both are the exact image up to 9 units of the sum of the sizes. *)
Theorem matf_compose_error (a b : fmat) (v : col4) r : (r < 4)%nat -> let exact := apply (product (rentry a) (rentry b)) (rlane v) r in
  let size := apply (product (sizes (rentry a)) (sizes (rentry b))) (sizes1 (rlane v)) r in
  (fin (lane4 (fm_vec (fm_mul a b) v) r) = true -> near (9 / IZR (2 ^ 24) * size + 2 * tiny * (1 + sum 4 (sizes1 (rlane v)))) (rlane (fm_vec (fm_mul a b) v) r) exact) /\
  (fin (lane4 (fm_vec a (fm_vec b v)) r) = true -> near (9 / IZR (2 ^ 24) * size + 2 * tiny * (1 + sum 4 (sizes (rentry a) r))) (rlane (fm_vec a (fm_vec b v)) r) exact).
Proof.
  intros Hr. cbv zeta. split; intros F.
  - assert (forall k, (k < 4)%nat -> fin (fentry (fm_mul a b) r k) = true) as Fk.
    { clear -F Hr. destruct r as [|[|[|[|r]]]]; try lia; destruct (add_fin _ _ F) as [F1 F2]; destruct (add_fin _ _ F1) as [Fa Fb]; destruct (add_fin _ _ F2) as [Fc Fd];
      intros [|[|[|[|k]]]] Hk; try lia; first [exact (proj1 (mul_fin _ _ Fa))|exact (proj1 (mul_fin _ _ Fb))|exact (proj1 (mul_fin _ _ Fc))|exact (proj1 (mul_fin _ _ Fd))]. }
    apply (two_steps _ (rentry (fm_mul a b) r) (product (rentry a) (rentry b) r) (product (sizes (rentry a)) (sizes (rentry b)) r) (rlane v)).
    + intros k _. apply product_sizes.
    + intros k Hk. apply (matf_mul_error a b). by apply Fk.
    + exact (matf_vec_error (fm_mul a b) v r F).
  - assert (forall k, (k < 4)%nat -> fin (lane4 (fm_vec b v) k) = true) as Fk.
    { clear -F Hr. destruct r as [|[|[|[|r]]]]; try lia; destruct (add_fin _ _ F) as [F1 F2]; destruct (add_fin _ _ F1) as [Fa Fb]; destruct (add_fin _ _ F2) as [Fc Fd];
      intros [|[|[|[|k]]]] Hk; try lia; first [exact (proj2 (mul_fin _ _ Fa))|exact (proj2 (mul_fin _ _ Fb))|exact (proj2 (mul_fin _ _ Fc))|exact (proj2 (mul_fin _ _ Fd))]. }
    pose proof (two_steps (rlane (fm_vec a (fm_vec b v)) r) (rlane (fm_vec b v)) (apply (rentry b) (rlane v)) (apply (sizes (rentry b)) (sizes1 (rlane v))) (rentry a r)) as T.
    unfold near. replace (apply (product (rentry a) (rentry b)) (rlane v) r) with (sum 4 (fun k => apply (rentry b) (rlane v) k * rentry a r k)) by (unfold apply, product; cbn [sum]; ring).
    replace (apply (product (sizes (rentry a)) (sizes (rentry b))) (sizes1 (rlane v)) r) with (sum 4 (fun k => apply (sizes (rentry b)) (sizes1 (rlane v)) k * Rabs (rentry a r k))) by (unfold apply, product, sizes; cbn [sum]; ring).
    apply T.
    + intros k _. apply apply_sizes.
    + intros k Hk. apply (matf_vec_error b v). by apply Fk.
    + pose proof (matf_vec_error a (fm_vec b v) r F) as M. unfold near in M. replace (sum 4 (fun k => rlane (fm_vec b v) k * rentry a r k)) with (apply (rentry a) (rlane (fm_vec b v)) r) by (unfold apply; cbn [sum]; ring).
      replace (sum 4 (fun k => Rabs (rlane (fm_vec b v) k) * Rabs (rentry a r k))) with (apply (sizes (rentry a)) (sizes1 (rlane (fm_vec b v))) r) by (unfold apply, sizes, sizes1; cbn [sum]; ring). exact M.
Qed.

(** ** What is exact *)
Lemma is_self (x : binary32) : fin x = true -> is x (val x).
Proof. by split. Qed.
Lemma is0 : is f0 0.
Proof. exact val0. Qed.
Lemma is1 : is f1 1.
Proof. exact val1. Qed.
Lemma ism1 : is fm1 (-1).
Proof. apply (small_val (-1)). lia. Qed.
Lemma is_bound x r : is x r -> Rabs r < bpow radix2 128 /\ rnd32 r = r.
Proof. intros [_ <-]. split; [apply val_bound|apply rnd_val]. Qed.
Lemma is_mul_exact (a b z : binary32) x y r : is a x -> is b y -> val z = r -> x * y = r -> is (a ⊗ b) r.
Proof.
  intros [Fa <-] [Fb <-] Hz E. pose proof (val_bound z) as B. pose proof (rnd_val z) as N. rewrite Hz in B, N. destruct (mul_cases a b Fa Fb) as [(_ & F & V)|(L & _)]; rewrite E, N in *; [by split|lra].
Qed.
Lemma is_add_exact (a b z : binary32) x y r : is a x -> is b y -> val z = r -> x + y = r -> is (a ⊕ b) r.
Proof.
  intros [Fa <-] [Fb <-] Hz E. pose proof (val_bound z) as B. pose proof (rnd_val z) as N. rewrite Hz in B, N. destruct (add_cases a b Fa Fb) as [(_ & F & V)|(L & _)]; rewrite E, N in *; [by split|lra].
Qed.
Lemma is_sub_exact (a b z : binary32) x y r : is a x -> is b y -> val z = r -> x - y = r -> is (fsub a b) r.
Proof.
  intros [Fa <-] [Fb <-] Hz E. pose proof (val_bound z) as B. pose proof (rnd_val z) as N. rewrite Hz in B, N. pose proof (Bminus_correct 24 128 eq_refl eq_refl binop_nan_pl32 mode_NE a b Fa Fb) as C. unfold fsub, b32_minus. rewrite E, N, Rlt_bool_true in C by done. by destruct C as (C1 & C2 & _).
Qed.
Definition fneg (x : binary32) : binary32 := b32_opp x.
Lemma fneg_val x : val (fneg x) = - val x.
Proof. apply B2R_Bopp. Qed.
Lemma is_opp x r : is x r -> is (fneg x) (- r).
Proof. intros [F <-]. split; [|apply fneg_val]. unfold fneg, b32_opp. by rewrite is_finite_Bopp. Qed.
Lemma mul_0l a b y : is a 0 -> is b y -> is (a ⊗ b) 0.
Proof. intros Ha Hb. apply (is_mul_exact a b f0 0 y); [done|done|apply is0|ring]. Qed.
Lemma mul_0r a b x : is a x -> is b 0 -> is (a ⊗ b) 0.
Proof. intros Ha Hb. apply (is_mul_exact a b f0 x 0); [done|done|apply is0|ring]. Qed.
Lemma mul_1l a b y : is a 1 -> is b y -> is (a ⊗ b) y.
Proof. intros Ha Hb. apply (is_mul_exact a b b 1 y); [done|done|apply Hb|ring]. Qed.
Lemma mul_1r a b x : is a x -> is b 1 -> is (a ⊗ b) x.
Proof. intros Ha Hb. apply (is_mul_exact a b a x 1); [done|done|apply Ha|ring]. Qed.
Lemma mul_m1r a b x : is a x -> is b (-1) -> is (a ⊗ b) (- x).
Proof. intros Ha Hb. apply (is_mul_exact a b (fneg a) x (-1)); [done|done|by apply is_opp|ring]. Qed.
Lemma add_0l a b y : is a 0 -> is b y -> is (a ⊕ b) y.
Proof. intros Ha Hb. apply (is_add_exact a b b 0 y); [done|done|apply Hb|ring]. Qed.
Lemma add_0r a b x : is a x -> is b 0 -> is (a ⊕ b) x.
Proof. intros Ha Hb. apply (is_add_exact a b a x 0); [done|done|apply Ha|ring]. Qed.
Lemma sub_0l a b y : is a 0 -> is b y -> is (fsub a b) (- y).
Proof. intros Ha Hb. apply (is_sub_exact a b (fneg b) 0 y); [done|done|by apply is_opp|ring]. Qed.
Lemma sub_0r a b x : is a x -> is b 0 -> is (fsub a b) x.
Proof. intros Ha Hb. apply (is_sub_exact a b a x 0); [done|done|apply Ha|ring]. Qed.
Lemma div_1r a b x : is a x -> is b 1 -> is (fdiv a b) x.
Proof.
  intros [Fa <-] [Fb E]. pose proof (Bdiv_correct 24 128 eq_refl eq_refl binop_nan_pl32 mode_NE a b) as C. rewrite E in C. specialize (C R1_neq_R0). unfold Rdiv in C. rewrite Rinv_1, Rmult_1_r, rnd_val, Rlt_bool_true in C by apply val_bound. destruct C as (C1 & C2 & _). split; [|exact C1]. exact (eq_trans C2 Fa).
Qed.
Lemma add_opp a b x : is a x -> is b (- x) -> is (a ⊕ b) 0.
Proof. intros Ha Hb. apply (is_add_exact a b f0 x (- x)); [done|done|apply is0|ring]. Qed.
Lemma add_opp' a b x : is a (- x) -> is b x -> is (a ⊕ b) 0.
Proof. intros Ha Hb. apply (is_add_exact a b f0 (- x) x); [done|done|apply is0|ring]. Qed.
(** Rounding sees only the values. *)
Lemma mul_as a b (x y : binary32) : is a (val x) -> is b (val y) -> fin (x ⊗ y) = true -> is (a ⊗ b) (val (x ⊗ y)).
Proof.
  intros [Fa Ea] [Fb Eb] F. destruct (mul_rnd x y F) as [-> B]. rewrite <- Ea, <- Eb in *. destruct (mul_cases a b Fa Fb) as [(_ & F' & V)|(L & _)]; [by split|lra].
Qed.
Lemma add_as a b (x y : binary32) : is a (val x) -> is b (val y) -> fin (x ⊕ y) = true -> is (a ⊕ b) (val (x ⊕ y)).
Proof.
  intros [Fa Ea] [Fb Eb] F. destruct (add_rnd x y F) as [-> B]. rewrite <- Ea, <- Eb in *. destruct (add_cases a b Fa Fb) as [(_ & F' & V)|(L & _)]; [by split|lra].
Qed.
Lemma div_as (z a b y : binary32) : val z = val a -> fin a = true -> is b (val y) -> fin (fdiv z y) = true -> val y <> 0 -> is (fdiv a b) (val (fdiv z y)).
Proof.
  intros Ez Fa [Fb Eb] F Hy. pose proof (Bdiv_correct 24 128 eq_refl eq_refl binop_nan_pl32 mode_NE z y Hy) as C. pose proof (Bdiv_correct 24 128 eq_refl eq_refl binop_nan_pl32 mode_NE a b) as C'. rewrite Eb in C'. specialize (C' Hy). rewrite <- Ez in C'.
  destruct (Rlt_bool (Rabs (rnd32 (val z / val y))) (bpow radix2 128)).
  - destruct C as (C1 & _), C' as (C1' & C2' & _). split; [exact (eq_trans C2' Fa)|exact (eq_trans C1' (eq_sym C1))].
  - exfalso. unfold fdiv, b32_div in F. rewrite <- is_finite_B2FF in F. rewrite C in F. done.
Qed.
(** What is known of an expression of zeros, ones and finite floats. *)
Ltac tidy H := rewrite ?Ropp_0, ?Ropp_involutive in H.
Ltac know e :=
  lazymatch goal with
  | _ : is e _ |- _ => idtac
  | _ =>
    lazymatch e with
    | f0 => pose proof is0
    | f1 => pose proof is1
    | fm1 => pose proof ism1
    | fmul ?a ?b => know a; know b; let H := fresh "K" in
      lazymatch goal with A : is a ?x |- _ => lazymatch goal with B : is b ?y |- _ =>
      lazymatch constr:((x, y)) with
      | (0, _) => pose proof (mul_0l _ _ _ A B) as H
      | (_, 0) => pose proof (mul_0r _ _ _ A B) as H
      | (1, _) => pose proof (mul_1l _ _ _ A B) as H
      | (_, 1) => pose proof (mul_1r _ _ _ A B) as H
      | (_, -1) => pose proof (mul_m1r _ _ _ A B) as H; tidy H
      | (val ?v, val ?w) => match goal with F : fin (fmul v w) = true |- _ => pose proof (mul_as _ _ _ _ A B F) as H end
      end end end
    | fadd ?a ?b => know a; know b; let H := fresh "K" in
      lazymatch goal with A : is a ?x |- _ => lazymatch goal with B : is b ?y |- _ =>
      lazymatch constr:((x, y)) with
      | (0, _) => pose proof (add_0l _ _ _ A B) as H
      | (_, 0) => pose proof (add_0r _ _ _ A B) as H
      | (?v, - ?v) => pose proof (add_opp _ _ _ A B) as H
      | (- ?v, ?v) => pose proof (add_opp' _ _ _ A B) as H
      | (val ?v, val ?w) => match goal with F : fin (fadd v w) = true |- _ => pose proof (add_as _ _ _ _ A B F) as H end
      end end end
    | fsub ?a ?b => know a; know b; let H := fresh "K" in
      lazymatch goal with A : is a ?x |- _ => lazymatch goal with B : is b ?y |- _ =>
      lazymatch constr:((x, y)) with
      | (_, 0) => pose proof (sub_0r _ _ _ A B) as H
      | (0, _) => pose proof (sub_0l _ _ _ A B) as H; tidy H
      end end end
    | fdiv ?a ?b => know a; know b; let H := fresh "K" in
      lazymatch goal with A : is a ?x |- _ => lazymatch goal with B : is b ?y |- _ =>
      lazymatch constr:((x, y)) with
      | (_, 1) => pose proof (div_1r _ _ _ A B) as H
      | (1, val ?d) => match goal with F : fin (fdiv f1 d) = true |- _ => pose proof (div_as f1 a b d (eq_trans (proj2 is1) (eq_sym (proj2 A))) (proj1 A) B F ltac:(assumption)) as H end
      | (-1, val ?d) => match goal with F : fin (fdiv fm1 d) = true |- _ => pose proof (div_as fm1 a b d (eq_trans (proj2 ism1) (eq_sym (proj2 A))) (proj1 A) B F ltac:(assumption)) as H end
      end end end
    | _ => match goal with F : fin e = true |- _ => pose proof (is_self e F) end
    end
  end.
Ltac known := match goal with |- is ?e ?r => know e; lazymatch goal with H : is e _ |- _ => exact H end end.
Ltac open_m := cbv [fm_mul fm_vec fm_rotate fmat_point point_lane fm_mul_col every cols lanes4 all4 fm_I fm_zero fm_scale fm_translate fentry lane4 lane3 the m0 m1 m2 m3 cx cy cz cw px py pz rentry rlane].

(** The identity changes nothing, in whichever position. *)
Lemma fin_entries a : all_fin a -> fin_col (m0 a) /\ fin_col (m1 a) /\ fin_col (m2 a) /\ fin_col (m3 a).
Proof. intros H. split_and!; intros r; [apply (H r 0%nat)|apply (H r 1%nat)|apply (H r 2%nat)|apply (H r 3%nat)]. Qed.
Lemma fin_lanes v : fin_col v -> fin (cx v) = true /\ fin (cy v) = true /\ fin (cz v) = true /\ fin (cw v) = true.
Proof. intros H. split_and!; [apply (H 0%nat)|apply (H 1%nat)|apply (H 2%nat)|apply (H 3%nat)]. Qed.
Theorem matf_identity (a : fmat) (v : col4) (p : pt) : all_fin a -> fin_col v -> fin3 p ->
  (forall r c, is (fentry (fm_mul fm_I a) r c) (rentry a r c) /\ is (fentry (fm_mul a fm_I) r c) (rentry a r c)) /\
  (forall r, is (lane4 (fm_vec fm_I v) r) (rlane v r)) /\ (forall r, is (lane3 (fmat_point fm_I p) r) (val (lane3 p r))) /\ (forall r, is (lane3 (fm_rotate fm_I p) r) (val (lane3 p r))).
Proof.
  intros Ha Hv (P1 & P2 & P3). apply fin_entries in Ha as (H0 & H1 & H2 & H3). apply fin_lanes in H0, H1, H2, H3, Hv. destruct H0 as (? & ? & ? & ?), H1 as (? & ? & ? & ?), H2 as (? & ? & ? & ?), H3 as (? & ? & ? & ?), Hv as (? & ? & ? & ?).
  destruct a as [[a00 a10 a20 a30] [a01 a11 a21 a31] [a02 a12 a22 a32] [a03 a13 a23 a33]], v as [v0 v1 v2 v3], p as [p0 p1 p2]. cbn [m0 m1 m2 m3 cx cy cz cw px py pz] in *. split; [|split; [|split]].
  - intros [|[|[|r]]] [|[|[|c]]]; open_m; split; known.
  - intros [|[|[|r]]]; open_m; known.
  - intros [|[|[|r]]]; open_m; known.
  - intros [|[|[|r]]]; open_m; known.
Qed.

(** ** Moving and scaling *)
Lemma add_is a b x y : is a x -> is b y -> fin (a ⊕ b) = true -> rounded (a ⊕ b) (x + y).
Proof. intros [_ <-] [_ <-] F. by apply rounded_add. Qed.
Lemma sum_rounded a b x y z : is a x -> is b y -> x + y = z -> fin (a ⊕ b) = true -> rounded (a ⊕ b) z.
Proof. intros Ha Hb <- F. by apply add_is. Qed.
Ltac round_sum := intros F; lazymatch goal with |- rounded (fadd ?a ?b) _ => know a; know b; lazymatch goal with A : is a _, B : is b _ |- _ => apply (sum_rounded _ _ _ _ _ A B); [ring|exact F] end end.
Ltac round_right := intros F; lazymatch goal with |- rounded (fadd ?l (fadd ?a ?b)) _ => know l; know a; know b;
  let F' := fresh in pose proof (proj2 (add_fin _ _ F)) as F';
  lazymatch goal with L : is l 0, A : is a _, B : is b _ |- _ => unfold rounded; rewrite (proj2 (add_0l _ _ _ L (is_self _ F'))); apply (sum_rounded _ _ _ _ _ A B); [ring|exact F'] end end.
Ltac round_mul := let F := fresh in intros F; lazymatch goal with |- rounded ?e (val ?x * val ?y) => know e; lazymatch goal with B : is e (val _) |- _ => unfold rounded; rewrite (proj2 B); apply rounded_mul; assumption end end.
(** translate and scale: one rounding for each coordinate, and a direction is not moved.  Two of them make one of the same kind, with one rounding. *)
Theorem matf_translate (t q p : pt) : fin3 t -> fin3 q -> fin3 p ->
  (forall r, fin (lane3 (fmat_point (fm_translate t) p) r) = true -> rounded (lane3 (fmat_point (fm_translate t) p) r) (val (lane3 p r) + val (lane3 t r))) /\
  (forall r, is (lane3 (fm_rotate (fm_translate t) p) r) (val (lane3 p r))) /\
  (forall r c, (c < 3)%nat \/ r = 3%nat -> is (fentry (fm_mul (fm_translate t) (fm_translate q)) r c) (rentry (fm_translate t) r c)) /\
  (forall r, (r < 3)%nat -> fin (fentry (fm_mul (fm_translate t) (fm_translate q)) r 3) = true -> rounded (fentry (fm_mul (fm_translate t) (fm_translate q)) r 3) (val (lane3 t r) + val (lane3 q r))).
Proof.
  intros (? & ? & ?) (? & ? & ?) (? & ? & ?). destruct t as [t0 t1 t2], q as [q0 q1 q2], p as [p0 p1 p2]. cbn [px py pz] in *. split; [|split; [|split]].
  - intros [|[|[|r]]]; open_m; first [round_sum|round_right].
  - intros [|[|[|r]]]; open_m; known.
  - intros [|[|[|r]]] [|[|[|c]]] Hc; try lia; open_m; know f0; know f1; rewrite ?(proj2 is0), ?(proj2 is1); known.
  - intros [|[|[|r]]] Hr; try lia; open_m; first [round_sum|round_right].
Qed.
Theorem matf_scale (s q p : pt) : fin3 s -> fin3 q -> fin3 p ->
  (forall r, fin (fmul (lane3 s r) (lane3 p r)) = true -> is (lane3 (fmat_point (fm_scale s) p) r) (val (fmul (lane3 s r) (lane3 p r))) /\ rounded (lane3 (fmat_point (fm_scale s) p) r) (val (lane3 s r) * val (lane3 p r))) /\
  (forall r c, r <> c -> (r < 4)%nat -> (c < 4)%nat -> is (fentry (fm_mul (fm_scale s) (fm_scale q)) r c) 0) /\ is (fentry (fm_mul (fm_scale s) (fm_scale q)) 3 3) 1 /\
  (forall r, (r < 3)%nat -> fin (fmul (lane3 q r) (lane3 s r)) = true -> rounded (fentry (fm_mul (fm_scale s) (fm_scale q)) r r) (val (lane3 q r) * val (lane3 s r))).
Proof.
  intros (? & ? & ?) (? & ? & ?) (? & ? & ?). destruct s as [s0 s1 s2], q as [q0 q1 q2], p as [p0 p1 p2]. cbn [px py pz] in *. split; [|split; [|split]].
  - intros [|[|[|r]]]; open_m; intros F; (assert (forall e x y, is e (val (fmul x y)) -> fin (fmul x y) = true -> is e (val (fmul x y)) /\ rounded e (val x * val y)) as G by (intros e x y [F1 E1] F2; split; [by split|unfold rounded; rewrite E1; by apply rounded_mul])); apply G; [known|exact F|known|exact F|known|exact F|known|exact F].
  - intros [|[|[|[|r]]]] [|[|[|[|c]]]] Hne Hr Hc; try lia; open_m; known.
  - open_m. known.
  - intros [|[|[|r]]] Hr; try lia; open_m; round_mul.
Qed.

(** ** Transposition *)
Lemma mul_comm_fin (x y : binary32) : fin x = true -> fin y = true -> x ⊗ y = y ⊗ x.
Proof.
  intros Fx Fy. pose proof (Bmult_correct 24 128 eq_refl eq_refl binop_nan_pl32 mode_NE x y) as C. pose proof (Bmult_correct 24 128 eq_refl eq_refl binop_nan_pl32 mode_NE y x) as C'. rewrite (Rmult_comm (val y)) in C'.
  destruct (Rlt_bool (Rabs (rnd32 (val x * val y))) (bpow radix2 128)).
  - destruct C as (V & F & S), C' as (V' & F' & S'). rewrite Fx, Fy in F. rewrite Fx, Fy in F'. assert (forall z : binary32, fin z = true -> Binary.is_nan 24 128 z = false) as N by by intros [].
    apply B2R_Bsign_inj; [exact F|exact F'|exact (eq_trans V (eq_sym V'))|]. exact (eq_trans (S (N _ F)) (eq_trans (xorb_comm _ _) (eq_sym (S' (N _ F'))))).
  - apply B2FF_inj. rewrite xorb_comm in C'. exact (eq_trans C (eq_sym C')).
Qed.
(** Transposing swaps rows and columns, bit for bit, and is its own inverse.  The transpose of a product is the product of the transposes in the
    other order, bit for bit as well. *)
Theorem matf_transpose (a b : fmat) :
  (forall r c, fentry (fm_transpose a) r c = fentry a c r) /\ fm_transpose (fm_transpose a) = a /\
  (all_fin a -> all_fin b -> fm_transpose (fm_mul a b) = fm_mul (fm_transpose b) (fm_transpose a)).
Proof.
  split; [by lanes|]. split; [by destruct a as [[] [] [] []]|]. intros Ha Hb.
  apply fin_entries in Ha as (H0 & H1 & H2 & H3). apply fin_lanes in H0, H1, H2, H3. destruct H0 as (? & ? & ? & ?), H1 as (? & ? & ? & ?), H2 as (? & ? & ? & ?), H3 as (? & ? & ? & ?).
  apply fin_entries in Hb as (H0' & H1' & H2' & H3'). apply fin_lanes in H0', H1', H2', H3'. destruct H0' as (? & ? & ? & ?), H1' as (? & ? & ? & ?), H2' as (? & ? & ? & ?), H3' as (? & ? & ? & ?).
  destruct a as [[a00 a10 a20 a30] [a01 a11 a21 a31] [a02 a12 a22 a32] [a03 a13 a23 a33]], b as [[b00 b10 b20 b30] [b01 b11 b21 b31] [b02 b12 b22 b32] [b03 b13 b23 b33]]. cbn [m0 m1 m2 m3 cx cy cz cw] in *.
  cbv [fm_transpose fm_mul fm_mul_col every lanes4 all4 m0 m1 m2 m3 cx cy cz cw]. f_equal; f_equal; f_equal; f_equal; by apply mul_comm_fin.
Qed.

(** ** Comparison *)
(** == of finite matrices compares the values of all entries, and != is its negation also with NaN. *)
Theorem matf_eq (a b : fmat) : (all_fin a -> all_fin b -> (fm_eq a b = true <-> same (rentry a) (rentry b))) /\ fm_ne a b = negb (fm_eq a b).
Proof.
  split; [|unfold fm_ne, fm_eq; by destruct (eq_col (m0 a) (m0 b)), (eq_col (m1 a) (m1 b)), (eq_col (m2 a) (m2 b)), (eq_col (m3 a) (m3 b))].
  intros Ha Hb. assert (forall r c, f32_eq (fentry a r c) (fentry b r c) = true <-> rentry a r c = rentry b r c) as E by (intros r c; apply f32_eq_finite; done). unfold fm_eq, eq_col. rewrite !andb_true_iff.
  pose proof (E 0 0)%nat as E00. pose proof (E 1 0)%nat as E10. pose proof (E 2 0)%nat as E20. pose proof (E 3 0)%nat as E30. pose proof (E 0 1)%nat as E01. pose proof (E 1 1)%nat as E11. pose proof (E 2 1)%nat as E21. pose proof (E 3 1)%nat as E31.
  pose proof (E 0 2)%nat as E02. pose proof (E 1 2)%nat as E12. pose proof (E 2 2)%nat as E22. pose proof (E 3 2)%nat as E32. pose proof (E 0 3)%nat as E03. pose proof (E 1 3)%nat as E13. pose proof (E 2 3)%nat as E23. pose proof (E 3 3)%nat as E33.
  cbn [fentry lane4 the] in E00, E10, E20, E30, E01, E11, E21, E31, E02, E12, E22, E32, E03, E13, E23, E33. rewrite E00, E10, E20, E30, E01, E11, E21, E31, E02, E12, E22, E32, E03, E13, E23, E33. clear. split.
  - intros H r c Hr Hc. destruct r as [|[|[|[|r]]]], c as [|[|[|[|c]]]]; try lia; tauto.
  - intros H. split_and!; apply H; lia.
Qed.

(** ** Inverses *)
Ltac open_i := cbv [fm_inverse fm_inverse_parts f_mat2_mul f_mat2_adj_mul f_mat2_mul_adj fhadd fshuffle fsw pick fm_mul fm_mul_col every cols lanes4 all4 fm_I fm_scale fm_translate fentry lane4 lane3 the m0 m1 m2 m3 cx cy cz cw px py pz rentry rlane identity Nat.eqb].
(** The inverse of a translation is the translation back, without rounding. *)
Theorem matf_inverse_translate (t : pt) : fin3 t -> forall r c, (r < 4)%nat -> (c < 4)%nat -> is (fentry (fm_inverse (fm_translate t)) r c) (back t r c).
Proof.
  intros (? & ? & ?). destruct t as [t0 t1 t2]. cbn [px py pz] in *. intros [|[|[|[|r]]]] [|[|[|[|c]]]] Hr Hc; try lia; unfold back; cbn [Nat.ltb Nat.leb Nat.eqb andb]; open_i; known.
Qed.
Theorem matf_inverse_translate_undoes (t : pt) : fin3 t -> forall r c, (r < 4)%nat -> (c < 4)%nat ->
  is (fentry (fm_mul (fm_inverse (fm_translate t)) (fm_translate t)) r c) (identity r c) /\ is (fentry (fm_mul (fm_translate t) (fm_inverse (fm_translate t))) r c) (identity r c).
Proof.
  intros Ft. pose proof (matf_inverse_translate t Ft) as I. set (J := fm_inverse (fm_translate t)) in *. clearbody J.
  assert (forall r c, (r <? 4)%nat = true -> (c <? 4)%nat = true -> is (fentry J r c) (back t r c)) as E by (intros r c Hr Hc; apply I; by apply Nat.ltb_lt). clear I.
  pose proof (E 0 0 eq_refl eq_refl)%nat as E00. pose proof (E 1 0 eq_refl eq_refl)%nat as E10. pose proof (E 2 0 eq_refl eq_refl)%nat as E20. pose proof (E 3 0 eq_refl eq_refl)%nat as E30. pose proof (E 0 1 eq_refl eq_refl)%nat as E01. pose proof (E 1 1 eq_refl eq_refl)%nat as E11. pose proof (E 2 1 eq_refl eq_refl)%nat as E21. pose proof (E 3 1 eq_refl eq_refl)%nat as E31.
  pose proof (E 0 2 eq_refl eq_refl)%nat as E02. pose proof (E 1 2 eq_refl eq_refl)%nat as E12. pose proof (E 2 2 eq_refl eq_refl)%nat as E22. pose proof (E 3 2 eq_refl eq_refl)%nat as E32. pose proof (E 0 3 eq_refl eq_refl)%nat as E03. pose proof (E 1 3 eq_refl eq_refl)%nat as E13. pose proof (E 2 3 eq_refl eq_refl)%nat as E23. pose proof (E 3 3 eq_refl eq_refl)%nat as E33. clear E.
  destruct J as [[a00 a10 a20 a30] [a01 a11 a21 a31] [a02 a12 a22 a32] [a03 a13 a23 a33]], t as [t0 t1 t2], Ft as (? & ? & ?). cbv [fentry lane4 the back identity Nat.ltb Nat.leb Nat.eqb andb lane3 m0 m1 m2 m3 cx cy cz cw px py pz] in *.
  intros [|[|[|[|r]]]] [|[|[|[|c]]]] Hr Hc; try lia; open_m; split; known.
Qed.

(** *** The inverse of a scaling *)
Lemma rnd_rel r : bpow radix2 (-126) <= Rabs r -> exists e, Rabs e <= u /\ rnd32 r = r * (1 + e).
Proof.
  intros H. destruct (relative_error_N_FLT_ex radix2 (-149) 24 eq_refl (fun z => negb (Z.even z)) r) as (e & He & Ee); [exact H|]. exists e. split; [|exact Ee]. eapply Rle_trans; [exact He|]. right. unfold u. change (bpow radix2 (Z.opp 24 + 1)) with (/ 8388608). field.
Qed.
Lemma span_mul m n m' n' x y : span m n x -> span m' n' y -> span (m + m') (n + n') (x * y).
Proof. intros [A B] [C D]. unfold span. rewrite Rabs_mult, !bpow_plus. split; apply Rmult_le_compat; try done; try apply bpow_ge_0; apply Rabs_pos. Qed.
Lemma span_inv m n x : span m n x -> span (- n) (- m) (/ x).
Proof. intros [A B]. unfold span. rewrite Rabs_inv, !bpow_opp. pose proof (bpow_gt_0 radix2 m). split; apply Rinv_le_contravar; lra. Qed.
Lemma span_grow m n x r : span m n x -> / 2 <= r <= 2 -> span (m - 1) (n + 1) (x * r).
Proof.
  intros S H. apply (span_mul m n (-1) 1 x r S). unfold span. change (bpow radix2 (-1)) with (/ 2). change (bpow radix2 1) with 2. rewrite Rabs_pos_eq; lra.
Qed.
Lemma span_nz m n x : span m n x -> x <> 0.
Proof. intros [A _] ->. rewrite Rabs_R0 in A. pose proof (bpow_gt_0 radix2 m). lra. Qed.
Lemma span_wide m n m' n' x : span m n x -> (m' <= m)%Z -> (n <= n')%Z -> span m' n' x.
Proof. intros [A B] C D. split; (eapply Rle_trans; [|eassumption]) || (eapply Rle_trans; [eassumption|]); by apply bpow_le. Qed.
(** [r] is 1 up to [k] units. *)
Definition rel (k r : R) : Prop := Rabs (r - 1) <= k * u.
Lemma rel_mul a b x y : 0 <= a <= 10 -> 0 <= b <= 10 -> rel a x -> rel b y -> rel (a + b + / 100) (x * y).
Proof.
  unfold rel, u. intros Ha Hb Hx Hy. replace (x * y - 1) with ((x - 1) * (y - 1) + (x - 1) + (y - 1)) by ring. eapply Rle_trans; [apply Rabs_triang|]. assert (Rabs ((x - 1) * (y - 1) + (x - 1)) <= (a * b * / 16777216 + a) * / 16777216); [|nra].
  eapply Rle_trans; [apply Rabs_triang|]. rewrite Rabs_mult. pose proof (Rabs_pos (x - 1)). pose proof (Rabs_pos (y - 1)). assert (Rabs (x - 1) * Rabs (y - 1) <= a * / 16777216 * (b * / 16777216)) by (apply Rmult_le_compat; done). lra.
Qed.
Lemma rel_inv a x : 0 <= a <= 10 -> rel a x -> rel (a + / 100) (/ x).
Proof.
  unfold rel, u. intros Ha Hx. pose proof (Rabs_le_inv _ _ Hx) as B. assert (0 < x) by lra. replace (/ x - 1) with ((1 - x) * / x) by (field; lra). rewrite Rabs_mult, Rabs_minus_sym. rewrite (Rabs_pos_eq (/ x)) by (apply Rlt_le, Rinv_0_lt_compat; done).
  apply Rmult_le_reg_r with x; [done|]. rewrite Rmult_assoc, Rinv_l, Rmult_1_r by lra. eapply Rle_trans; [exact Hx|]. nra.
Qed.
Lemma rel_half k r : 0 <= k <= 100 -> rel k r -> / 2 <= r <= 2.
Proof. unfold rel, u. intros Hk H. apply Rabs_le_inv in H. lra. Qed.
Lemma rel_e e : Rabs e <= u -> rel 1 (1 + e).
Proof. unfold rel. intros H. replace (1 + e - 1) with e by ring. lra. Qed.
Lemma mul_span m n (x y : binary32) : fin x = true -> fin y = true -> span m n (val x * val y) -> (-126 <= m)%Z -> (n <= 126)%Z -> fin (x ⊗ y) = true /\ exists r, rel 1 r /\ val (x ⊗ y) = val x * val y * r.
Proof.
  intros Fx Fy S Hm Hn. destruct (mul_val x y Fx Fy) as [F V]. { eapply Rle_trans; [apply S|]. apply bpow_le. lia. }
  split; [exact F|]. destruct (rnd_rel (val x * val y)) as (e & He & Ee). { eapply Rle_trans; [|apply S]. by apply bpow_le. }
  exists (1 + e). split; [by apply rel_e|]. exact (eq_trans V Ee).
Qed.
Lemma div_span m n (x y : binary32) : fin x = true -> val y <> 0 -> span m n (val x / val y) -> (-126 <= m)%Z -> (n <= 126)%Z -> fin (fdiv x y) = true /\ exists r, rel 1 r /\ val (fdiv x y) = val x / val y * r.
Proof.
  intros Fx Hy S Hm Hn. pose proof (Bdiv_correct 24 128 eq_refl eq_refl binop_nan_pl32 mode_NE x y Hy) as C. rewrite Rlt_bool_true in C.
  2:{ apply rnd_small. eapply Rle_trans; [apply S|]. apply bpow_le. lia. }
  destruct C as (C1 & C2 & _). split; [exact (eq_trans C2 Fx)|]. destruct (rnd_rel (val x / val y)) as (e & He & Ee). { eapply Rle_trans; [|apply S]. by apply bpow_le. }
  exists (1 + e). split; [by apply rel_e|]. exact (eq_trans C1 Ee).
Qed.
(** One entry: [p] is the product of the other two factors and [w] the reciprocal of the determinant, both rounded. *)
Lemma entry_span (p w : binary32) (q k s : R) : fin p = true -> fin w = true -> span (-40) 40 s -> 0 <= k <= 9 -> rel k q -> val p * val w = / s * q -> fin (p ⊗ w) = true /\ Rabs (val (p ⊗ w) - / s) <= (k + 1 + / 100) * u * Rabs (/ s).
Proof.
  intros Fp FR S Hk Hq E. assert (span (-41) 41 (val p * val w)) as S1. { rewrite E. apply (span_grow (-40) 40); [by apply (span_inv (-40) 40)|]. apply (rel_half k); [lra|done]. }
  destruct (mul_span (-41) 41 p w Fp FR S1) as (F & r & Hr & V); [lia|lia|]. split; [exact F|]. rewrite V, E. replace (/ s * q * r - / s) with ((q * r - 1) * / s) by ring. rewrite Rabs_mult. apply Rmult_le_compat_r; [apply Rabs_pos|]. apply (rel_mul k 1); try lra; done.
Qed.
Theorem matf_inverse_scale_error (s : pt) : fin3 s -> span (-40) 40 (val (px s)) -> span (-40) 40 (val (py s)) -> span (-40) 40 (val (pz s)) ->
  forall r c, (r < 4)%nat -> (c < 4)%nat -> fin (fentry (fm_inverse (fm_scale s)) r c) = true /\ Rabs (rentry (fm_inverse (fm_scale s)) r c - unscale s r c) <= 6 / IZR (2 ^ 24) * Rabs (unscale s r c).
Proof.
  intros (F0 & F1 & F2) S0 S1 S2. destruct s as [s0 s1 s2]. cbn [px py pz] in *. pose proof (span_nz _ _ _ S0) as N0. pose proof (span_nz _ _ _ S1) as N1. pose proof (span_nz _ _ _ S2) as N2.
  destruct (mul_span (-80) 80 s0 s1 F0 F1) as (F01 & r1 & R1 & V01); [by apply (span_mul (-40) 40 (-40) 40)|lia|lia|].
  destruct (mul_span (-80) 80 s2 s1 F2 F1) as (F21 & r2 & R2 & V21); [by apply (span_mul (-40) 40 (-40) 40)|lia|lia|].
  destruct (mul_span (-80) 80 s2 s0 F2 F0) as (F20 & r3 & R3 & V20); [by apply (span_mul (-40) 40 (-40) 40)|lia|lia|].
  assert (span (-81) 81 (val (s0 ⊗ s1))) as S01. { rewrite V01. apply (span_grow (-80) 80); [by apply (span_mul (-40) 40 (-40) 40)|]. apply (rel_half 1); [lra|done]. }
  destruct (mul_span (-121) 121 (s0 ⊗ s1) s2 F01 F2) as (FD & r4 & R4 & VD); [by apply (span_mul (-81) 81 (-40) 40)|lia|lia|]. set (D := s0 ⊗ s1 ⊗ s2) in *.
  assert (span (-122) 122 (val D)) as SD. { rewrite VD. apply (span_grow (-121) 121); [by apply (span_mul (-81) 81 (-40) 40)|]. apply (rel_half 1); [lra|done]. }
  pose proof (span_nz _ _ _ SD) as ND. pose proof (span_inv _ _ _ SD) as SI.
  destruct (div_span (-122) 122 f1 D (proj1 is1) ND) as (FR & r5 & R5 & VR); [rewrite (proj2 is1); unfold Rdiv; by rewrite Rmult_1_l|lia|lia|]. set (Q := fdiv f1 D) in *.
  assert (fin (fdiv fm1 D) = true) as FM. { destruct (div_span (-122) 122 fm1 D (proj1 ism1) ND) as (FM & _); try done. rewrite (proj2 ism1). unfold Rdiv, span. rewrite Rabs_mult. replace (Rabs (-1)) with 1 by (unfold Rabs; destruct (Rcase_abs (-1)); lra). rewrite Rmult_1_l. exact SI. }
  rewrite (proj2 is1) in VR. pose proof (rel_half 1 r1 ltac:(lra) R1) as H1. pose proof (rel_half 1 r4 ltac:(lra) R4) as H4.
  assert (rel (2 + 1 / 10) (/ (r1 * r4))) as RI. { pose proof (rel_mul 1 1 r1 r4 ltac:(lra) ltac:(lra) R1 R4) as M. apply rel_inv in M; [|lra]. unfold rel in *. eapply Rle_trans; [exact M|]. unfold u. lra. }
  assert (rel (1 + 1 / 10) (/ r4)) as RI4. { pose proof (rel_inv 1 r4 ltac:(lra) R4) as M. unfold rel, u in *. lra. }
  assert (val D = val s0 * val s1 * val s2 * (r1 * r4)) as VD' by (rewrite VD, V01; ring).
  assert (val Q = / val s0 * / val s1 * / val s2 * (/ (r1 * r4)) * r5) as VQ. { rewrite VR, VD'. field. split_and!; try done; nra. }
  destruct (entry_span (s2 ⊗ s1) Q (r2 * (/ (r1 * r4) * r5)) (4 + 2 / 10) (val s0)) as [G0 B0]; try done; [lra| |rewrite V21, VQ; field; split_and!; try done; nra|].
  { pose proof (rel_mul (2 + 1 / 10) 1 _ r5 ltac:(lra) ltac:(lra) RI R5) as M. apply (rel_mul 1 _ r2) in M; [|lra|lra|done]. unfold rel, u in *. lra. }
  destruct (entry_span (s2 ⊗ s0) Q (r3 * (/ (r1 * r4) * r5)) (4 + 2 / 10) (val s1)) as [G1 B1]; try done; [lra| |rewrite V20, VQ; field; split_and!; try done; nra|].
  { pose proof (rel_mul (2 + 1 / 10) 1 _ r5 ltac:(lra) ltac:(lra) RI R5) as M. apply (rel_mul 1 _ r3) in M; [|lra|lra|done]. unfold rel, u in *. lra. }
  destruct (entry_span (s0 ⊗ s1) Q (/ r4 * r5) (4 + 2 / 10) (val s2)) as [G2 B2]; try done; [lra| |rewrite V01, VQ; field; split_and!; try done; nra|].
  { pose proof (rel_mul (1 + 1 / 10) 1 _ r5 ltac:(lra) ltac:(lra) RI4 R5) as M. unfold rel, u in *. lra. }
  destruct (entry_span D Q r5 1 1) as [G3 B3]; try done; [unfold span; rewrite Rabs_R1; split; [apply (bpow_le radix2 (-40) 0)|apply (bpow_le radix2 0 40)]; lia|lra|rewrite VR; field; done|].
  subst Q D. intros r c Hr Hc.
  assert (forall e x y, is e x -> Rabs (x - y) <= 6 / IZR (2 ^ 24) * Rabs y -> fin e = true /\ Rabs (val e - y) <= 6 / IZR (2 ^ 24) * Rabs y) as Fin by (intros e x y [Fe ->] H; by split).
  assert (forall e, is e 0 -> fin e = true /\ Rabs (val e - 0) <= 6 / IZR (2 ^ 24) * Rabs 0) as Off by (intros e He; apply (Fin e 0 0 He); rewrite Rminus_0_r, Rabs_R0; lra).
  assert (forall k x y, k <= 6 -> Rabs (x - y) <= k * u * Rabs y -> Rabs (x - y) <= 6 / IZR (2 ^ 24) * Rabs y) as Le.
  { intros k x y Hk H. eapply Rle_trans; [exact H|]. apply Rmult_le_compat_r; [apply Rabs_pos|]. unfold u. change (IZR (2 ^ 24)) with 16777216. lra. }
  apply Le in B0, B1, B2, B3; try lra. rewrite Rinv_1 in B3.
  destruct r as [|[|[|[|r]]]], c as [|[|[|[|c]]]]; try lia; unfold unscale; cbn [Nat.eqb the px py pz]; open_i; first [apply Off; known|refine (Fin _ _ _ _ B0); known|refine (Fin _ _ _ _ B1); known|refine (Fin _ _ _ _ B2); known|refine (Fin _ _ _ _ B3); known].
Qed.

(** ** Findings *)
Definition ints (x y z : Z) : pt := Pt (f32_of_Z x) (f32_of_Z y) (f32_of_Z z).
(** The determinant of a small scaling underflows: scale(2^-50) has the inverse scale(2^50), and inverse() gives infinities and NaN. *)
Definition p2_50 : binary32 := b32_of_bits ((127 - 50) * 2 ^ 23).
Theorem matf_inverse_scale_refuted : exists s, fin3 s /\ val (px s) = bpow radix2 (-50) /\ val (py s) = bpow radix2 (-50) /\ val (pz s) = bpow radix2 (-50) /\
  fin (fentry (fm_inverse (fm_scale s)) 0 0) = false /\ Binary.is_nan 24 128 (fentry (fm_inverse (fm_scale s)) 1 0) = true.
Proof.
  exists (all3 p2_50). assert (val p2_50 = bpow radix2 (-50)) as V.
  { transitivity (F2R (Float radix2 8388608 (-73))); [vm_compute; reflexivity|]. unfold F2R. cbn [Fnum Fexp]. change (IZR 8388608) with (bpow radix2 23). by rewrite <- bpow_plus. }
  split; [split_and!; vm_compute; reflexivity|]. split; [exact V|]. split; [exact V|]. split; [exact V|]. split; vm_compute; reflexivity.
Qed.
(** Also an inverse that is right up to rounding does not multiply back to the identity. *)
Theorem matf_inverse_identity_refuted : exists m, all_fin m /\ all_fin (fm_inverse m) /\ fm_eq (fm_mul m (fm_inverse m)) fm_I = false.
Proof. exists (fm_scale (ints 41 1 1)). split; [lanes; vm_compute; reflexivity|]. split; [lanes; vm_compute; reflexivity|]. vm_compute; reflexivity. Qed.
(** Products are not associative: the order of multiplication shows. *)
Theorem matf_assoc_refuted : exists a b c, all_fin a /\ all_fin b /\ all_fin c /\ fm_eq (fm_mul (fm_mul a b) c) (fm_mul a (fm_mul b c)) = false.
Proof.
  exists (fm_scale (ints 4099 1 1)), (fm_scale (ints 4099 1 1)), (fm_scale (ints 3 1 1)). split; [lanes; vm_compute; reflexivity|]. split; [lanes; vm_compute; reflexivity|]. split; [lanes; vm_compute; reflexivity|]. vm_compute; reflexivity.
Qed.
(** The hypotheses are met. *)
Example matf_premises : fin3 (ints 1 2 3) /\ all_fin (fm_translate (ints 1 2 3)) /\ all_fin (fm_mul (fm_translate (ints 1 2 3)) (fm_scale (ints 4 5 6))) /\ fin_col (fm_vec (fm_scale (ints 4 5 6)) (all4 f2)).
Proof. split; [split_and!; vm_compute; reflexivity|]. split; [lanes; vm_compute; reflexivity|]. split; lanes; vm_compute; reflexivity. Qed.
Example matf_span : span (-40) 40 (val (f32_of_Z 3)).
Proof.
  rewrite (proj2 (small_val 3 ltac:(lia))). unfold span. rewrite Rabs_pos_eq by lra. split.
  - apply Rle_trans with (bpow radix2 0); [by apply bpow_le|change (bpow radix2 0) with 1; lra].
  - apply Rle_trans with (bpow radix2 2); [change (bpow radix2 2) with 4; lra|by apply bpow_le].
Qed.
Print Assumptions matf_entrywise.
Print Assumptions matf_mul_error.
Print Assumptions matf_vec_error.
Print Assumptions matf_point_error.
Print Assumptions matf_rotate_error.
Print Assumptions matf_compose_error.
Print Assumptions matf_identity.
Print Assumptions matf_translate.
Print Assumptions matf_scale.
Print Assumptions matf_transpose.
Print Assumptions matf_eq.
Print Assumptions matf_inverse_translate.
Print Assumptions matf_inverse_translate_undoes.
Print Assumptions matf_inverse_scale_error.
Print Assumptions matf_inverse_scale_refuted.
Print Assumptions matf_inverse_identity_refuted.
Print Assumptions matf_assoc_refuted.
