(** C101: lengths and unit vectors in floating point. *)
From Flocq Require Import IEEE754.BinarySingleNaN IEEE754.Binary IEEE754.Bits.
From stdpp Require Import prelude list.
From Verif Require Import Base Word F32 VectModel VectSpec VectProps FloatModel FloatProps VectLengthModel VectLengthSpec.
From Coq Require Import Reals Lra.
From Flocq Require Import Core Relative Plus_error Mult_error.
From Verif Require Import BoxFloatModel BoxFloatSpec BoxFloatProps BoxErrorProps.
Open Scope R_scope.

Definition m2 : R := / IZR (2 ^ 120).
Lemma eta_m2 : 0 < m2 /\ 64 * eta = u * m2 /\ eta = least_half.
Proof.
  assert (eta = least_half) as E by (unfold eta, least_half; change (bpow radix2 (-150)) with (/ IZR (2 ^ 150)); done).
  split; [unfold m2; apply Rinv_0_lt_compat, (IZR_lt 0); reflexivity|]. split; [|done]. rewrite E. unfold least_half, m2, u. change (2 ^ 150)%Z with (64 * 16777216 * 2 ^ 120)%Z. rewrite !mult_IZR. field. apply (IZR_neq _ 0). discriminate.
Qed.
Lemma squares_nonneg l : 0 <= squares l.
Proof. induction l as [|x l IH]; cbn; [lra|]. fold (squares l). nra. Qed.

(** ** The sum of squares *)
Lemma sum_step K (z x : binary32) S : 0 <= K <= 1000 -> fin (z ⊕ x ⊗ x) = true -> 0 <= S -> Rabs (val z - S) <= (K + 1) * (101 / 100 * u) * S + 2 * K * eta ->
  Rabs (val (z ⊕ x ⊗ x) - (S + val x * val x)) <= (K + 1 + 1) * (101 / 100 * u) * (S + val x * val x) + 2 * (K + 1) * eta.
Proof.
  intros HK F PS Hz. destruct (add_fin _ _ F) as [_ Fp]. pose proof (mul_err _ _ Fp) as M. pose proof (add_err _ _ F) as A. destruct eta_tiny as [Pe _].
  set (q := val x * val x) in *. assert (0 <= q) as Pq by (unfold q; nra). rewrite (Rabs_pos_eq q) in M by done. clearbody q. set (p := val (x ⊗ x)) in *. clearbody p. set (s := val (z ⊕ _)) in *. clearbody s. set (z' := val z) in *. clearbody z'.
  assert (0 <= K * S <= 1000 * S) as HA by nra. assert (0 <= K * q) as HB by nra. assert (0 <= K * eta <= 1000 * eta) as HC by nra.
  replace ((K + 1) * (101 / 100 * u) * S + 2 * K * eta) with (101 / 100 * u * (K * S + S) + 2 * (K * eta)) in Hz by ring.
  replace ((K + 1 + 1) * (101 / 100 * u) * (S + q) + 2 * (K + 1) * eta) with (101 / 100 * u * (K * S + 2 * S + K * q + 2 * q) + 2 * (K * eta) + 2 * eta) by ring.
  set (a := K * S) in *. set (b := K * q) in *. set (c := K * eta) in *. clearbody a b c. unfold u in *.
  assert (Rabs (z' + p) <= S + q + (101 / 100 * / 16777216 * (a + S) + 2 * c) + / 16777216 * q + eta) as T by (abs_all; apply Rabs_le; lra).
  abs_all. apply Rabs_le. lra.
Qed.
Lemma sum_fin (l : list binary32) : forall z n, sum_products (s_add f32_sc) (s_mul f32_sc) z (zip l l) = Some n -> fin n = true -> fin z = true.
Proof.
  induction l as [|a l IH]; intros z n E F; [cbn in E; congruence|]. cbn [zip zip_with sum_products s_mul s_add f32_sc] in E. pose proof (IH _ _ E F) as G. exact (proj1 (add_fin z (a ⊗ a) G)).
Qed.
Lemma sum_err (l : list binary32) : forall (z n : binary32) K S, sum_products (s_add f32_sc) (s_mul f32_sc) z (zip l l) = Some n -> fin n = true -> 0 <= K -> K + INR (length l) <= 1000 -> 0 <= S ->
  Rabs (val z - S) <= (K + 1) * (101 / 100 * u) * S + 2 * K * eta ->
  Rabs (val n - (S + squares (reals l))) <= (K + INR (length l) + 1) * (101 / 100 * u) * (S + squares (reals l)) + 2 * (K + INR (length l)) * eta.
Proof.
  induction l as [|x l IH]; intros z n K S E F HK HN PS Hz.
  - cbn in E. injection E as <-. cbn. replace (K + 0) with K by ring. replace (S + 0) with S by ring. done.
  - cbn [zip zip_with sum_products s_mul s_add f32_sc] in E. change (length (x :: l)) with (Datatypes.S (length l)) in *. rewrite S_INR in *. pose proof (pos_INR (length l)).
    assert (fin (z ⊕ x ⊗ x) = true) as Fz.
    { apply (sum_fin l _ n E F). }
    apply (IH _ _ (K + 1) (S + val x * val x)) in E; [|done|lra|lra|nra|apply sum_step; [lra|done..]].
    cbn [reals map squares fold_right]. fold (reals l) (squares (reals l)). replace (S + (val x * val x + squares (reals l))) with (S + val x * val x + squares (reals l)) by ring.
    replace (K + (INR (length l) + 1)) with (K + 1 + INR (length l)) by ring. done.
Qed.
Lemma norm2_err (l : list binary32) n : sum_products (s_add f32_sc) (s_mul f32_sc) f32_zero (zip l l) = Some n -> fin n = true -> INR (length l) <= 1000 -> m2 <= squares (reals l) ->
  Rabs (val n - squares (reals l)) <= (11 / 10 * INR (length l) + 11 / 10) * u * squares (reals l).
Proof.
  intros E F HN Hm. destruct eta_m2 as (Pm & Em & _). pose proof (pos_INR (length l)) as PN. pose proof (sum_err l f32_zero n 0 0 E F ltac:(lra) ltac:(lra) ltac:(lra)) as H.
  lapply H; [clear H; intros H|]. 2:{ change (val f32_zero) with 0. rewrite Rminus_0_r, Rabs_R0. lra. }
  rewrite !Rplus_0_l in H. set (N := INR (length l)) in *. set (S := squares (reals l)) in *. clearbody N S. eapply Rle_trans; [exact H|]. unfold u in *.
  assert (N * eta <= N * (/ 16777216 / 64 * S)) by (apply Rmult_le_compat_l; lra). assert (0 <= N * S) by nra. nra.
Qed.

(** ** Roots *)
Lemma sqrt_val (x : binary32) : 0 <= val x -> fin x = true -> val (b32_sqrt mode_NE x) = rnd32 (sqrt (val x)) /\ (0 < val x -> fin (b32_sqrt mode_NE x) = true).
Proof.
  intros P F. pose proof (Bsqrt_correct 24 128 eq_refl eq_refl unop_nan_pl32 mode_NE x) as (C1 & C2 & _). unfold b32_sqrt. split; [exact C1|]. intros Q.
  change (fin (Binary.Bsqrt 24 128 eq_refl eq_refl unop_nan_pl32 mode_NE x) = true). rewrite C2. destruct x as [s|s|s|[] m e B]; try done. exfalso. pose proof (F2R_lt_0 radix2 (Float radix2 (Z.neg m) e) ltac:(cbn; lia)) as G. change (val _) with (F2R (Float radix2 (Z.neg m) e)) in Q. lra.
Qed.
Lemma sqrt_fin (x : binary32) : fin (b32_sqrt mode_NE x) = true -> fin x = true.
Proof. destruct x as [s|[]|s|[] m e B]; cbn; done. Qed.
Lemma root_err s S d : 0 < S -> 0 <= d <= / 100 -> Rabs (s - S) <= d * S -> 0 < s /\ Rabs (sqrt s - sqrt S) <= d * sqrt S /\ 0 < sqrt S.
Proof.
  intros PS Hd H. apply Rabs_le_inv in H. assert (0 < s) as Ps by nra. split; [done|]. pose proof (sqrt_sqrt s ltac:(lra)) as Es. pose proof (sqrt_sqrt S ltac:(lra)) as ES. pose proof (sqrt_lt_R0 s Ps). pose proof (sqrt_lt_R0 S PS).
  split; [|done]. set (a := sqrt s) in *. set (b := sqrt S) in *. clearbody a b. subst s S. apply Rabs_le. split.
  - destruct (Rle_lt_dec ((1 - d) * b) a); [lra|]. exfalso. assert (a * a < (1 - d) * b * ((1 - d) * b)) by (apply Rmult_le_0_lt_compat; lra). nra.
  - destruct (Rle_lt_dec a ((1 + d) * b)); [lra|]. exfalso. assert ((1 + d) * b * ((1 + d) * b) < a * a) by (apply Rmult_le_0_lt_compat; nra). nra.
Qed.
Lemma norm_from (s : binary32) S k : m2 <= S -> 0 <= k <= 1101 + / 10 -> fin s = true -> Rabs (val s - S) <= k * u * S -> fin (b32_sqrt mode_NE s) = true /\ Rabs (val (b32_sqrt mode_NE s) - sqrt S) <= (k + 11 / 10) * u * sqrt S.
Proof.
  intros Hm Hk F H. destruct eta_m2 as (Pm & Em & _). destruct (root_err (val s) S (k * u)) as (Ps & R & PS); [lra|unfold u; lra|done|].
  destruct (sqrt_val s ltac:(lra) F) as [E Fs]. split; [auto|]. rewrite E. pose proof (rnd_err (sqrt (val s))) as Q.
  assert (m2 <= sqrt S) as L.
  { apply Rle_trans with (sqrt m2); [|by apply sqrt_le_1_alt]. assert (m2 <= 1) by (unfold m2; rewrite <- Rinv_1; apply Rinv_le_contravar; [lra|apply (IZR_le 1); discriminate]).
    pose proof (sqrt_sqrt m2 ltac:(lra)). pose proof (sqrt_pos m2). assert (sqrt m2 <= 1) by (rewrite <- sqrt_1; by apply sqrt_le_1_alt). nra. }
  rewrite (Rabs_pos_eq (sqrt (val s))) in Q by apply sqrt_pos. set (a := sqrt (val s)) in *. set (b := sqrt S) in *. set (r := rnd32 a) in *. clearbody a b r. clear E Fs.
  replace ((k + 11 / 10) * u * b) with (k * u * b + 11 / 10 * u * b) by ring. assert (k * u * b <= / 1000 * b) by (apply Rmult_le_compat_r; unfold u; lra).
  set (t := k * u * b) in *. clearbody t. unfold u in *. abs_all. apply Rabs_le. lra.
Qed.

(** ** Dividing by the length *)
Lemma div_val (x n : binary32) : fin x = true -> val n <> 0 -> Rabs (rnd32 (val x / val n)) < bpow radix2 128 -> fin (b32_div mode_NE x n) = true /\ val (b32_div mode_NE x n) = rnd32 (val x / val n).
Proof.
  intros F Nz L. pose proof (Bdiv_correct 24 128 eq_refl eq_refl binop_nan_pl32 mode_NE x n Nz) as C. rewrite Rlt_bool_true in C by exact L. destruct C as (C1 & C2 & _). unfold b32_div. split; [by rewrite <- F|done].
Qed.
Lemma unit_lane (x n : binary32) L k : fin x = true -> 0 < L -> 0 <= k <= 2003 -> Rabs (val x) <= L -> Rabs (val n - L) <= k * u * L ->
  fin (b32_div mode_NE x n) = true /\ Rabs (val (b32_div mode_NE x n) - val x / L) <= (101 / 100 * k + 102 / 100) * u * Rabs (val x / L) + eta.
Proof.
  intros F PL Hk Hx Hn. assert (0 <= k * u <= / 8000) as Hku by (unfold u; lra). set (e := k * u) in *. assert (e = k * u) as Ee by done. clearbody e.
  pose proof Hn as Hn'. apply Rabs_le_inv in Hn'. assert (0 < val n) as Pn by nra. set (y := val x / L). assert (val x = y * L) as Ex by (unfold y; field; lra).
  assert (Rabs y <= 1) as Hy. { unfold y, Rdiv. rewrite Rabs_mult, Rabs_inv, (Rabs_pos_eq L) by lra. apply Rmult_le_reg_r with L; [done|]. rewrite Rmult_assoc, Rinv_l by lra. lra. }
  assert (Rabs (val x / val n - y) <= 101 / 100 * e * Rabs y) as Q.
  { replace (val x / val n - y) with (y * ((L - val n) / val n)) by (rewrite Ex; field; lra). rewrite Rabs_mult, Rmult_comm. apply Rmult_le_compat_r; [apply Rabs_pos|].
    unfold Rdiv at 1. rewrite Rabs_mult, Rabs_inv, (Rabs_pos_eq (val n)), Rabs_minus_sym by lra. apply Rmult_le_reg_r with (val n); [done|]. rewrite Rmult_assoc, Rinv_l, Rmult_1_r by lra. eapply Rle_trans; [exact Hn|].
    assert (L <= 101 / 100 * val n) by nra. nra. }
  pose proof (rnd_err (val x / val n)) as Rr. set (q := val x / val n) in *. destruct eta_m2 as (Pm & Em & _). destruct eta_tiny as [Pe _]. assert (m2 <= 1) as M1 by (unfold m2; rewrite <- Rinv_1; apply Rinv_le_contravar; [lra|apply (IZR_le 1); discriminate]).
  assert (Rabs q <= 1001 / 1000 * Rabs y) as Bq. { replace q with (y + (q - y)) by ring. eapply Rle_trans; [apply Rabs_triang|]. pose proof (Rabs_pos y). nra. }
  assert (Rabs (rnd32 q) < bpow radix2 128) as O.
  { apply Rlt_trans with 2; [|change (bpow radix2 128) with (IZR (2 ^ 128)); apply IZR_lt; reflexivity]. replace (rnd32 q) with (q + (rnd32 q - q)) by ring. eapply Rle_lt_trans; [apply Rabs_triang|]. unfold u in *. lra. }
  destruct (div_val x n F ltac:(lra) O) as [Fd ->]. split; [done|]. fold q. replace ((101 / 100 * k + 102 / 100) * u * Rabs y) with (101 / 100 * e * Rabs y + 102 / 100 * u * Rabs y) by (rewrite Ee; ring).
  replace (rnd32 q - y) with (rnd32 q - q + (q - y)) by ring. eapply Rle_trans; [apply Rabs_triang|]. pose proof (Rabs_pos y). unfold u in *. lra.
Qed.
Lemma square_err r y d : Rabs y <= 1 -> 0 <= d <= / 1000 -> Rabs (r - y) <= d * Rabs y + eta -> Rabs (r * r - y * y) <= (2 * d + d * d) * (y * y) + 3 * eta.
Proof.
  intros Hy Hd H. destruct eta_m2 as (Pm & Em & _). destruct eta_tiny as [Pe _]. assert (eta <= / 1000) as Me by (assert (m2 <= 1) by (unfold m2; rewrite <- Rinv_1; apply Rinv_le_contravar; [lra|apply (IZR_le 1); discriminate]); unfold u in *; lra).
  replace (r * r - y * y) with ((r - y) * (r - y) + 2 * y * (r - y)) by ring. eapply Rle_trans; [apply Rabs_triang|]. rewrite !Rabs_mult, (Rabs_pos_eq 2) by lra. assert (y * y = Rabs y * Rabs y) as -> by (rewrite <- Rabs_mult, Rabs_pos_eq; nra).
  pose proof (Rabs_pos y). pose proof (Rabs_pos (r - y)). set (a := Rabs y) in *. set (b := Rabs (r - y)) in *. clearbody a b.
  assert (b * b <= (d * a + eta) * (d * a + eta)) by (apply Rmult_le_compat; lra). assert (a * b <= a * (d * a + eta)) by (apply Rmult_le_compat_l; lra).
  assert (0 <= d * a <= / 1000) by nra. assert (d * a * eta <= / 1000 * eta) by (apply Rmult_le_compat_r; lra). assert (eta * eta <= / 1000 * eta) by (apply Rmult_le_compat_r; lra). assert (a * eta <= 1 * eta) by (apply Rmult_le_compat_r; lra). nra.
Qed.

(** ** Norms and unit vectors of any dimension *)
Lemma v_norm_f32 N (v : list binary32) n : length v = N -> v_norm f32_sc N v = Ok n -> exists s, sum_products (s_add f32_sc) (s_mul f32_sc) f32_zero (zip v v) = Some s /\ n = b32_sqrt mode_NE s.
Proof.
  intros L E. pose proof (vect_normalize f32_sc N v L) as H. rewrite E in H. destruct H as ((s & Es & En) & _). exists s. split; [done|]. cbn in En. congruence.
Qed.
Lemma m2_len l : / IZR (2 ^ 60) <= len l -> m2 <= squares l.
Proof.
  intros H. assert (0 < / IZR (2 ^ 60)) by (apply Rinv_0_lt_compat, (IZR_lt 0); reflexivity). pose proof (sqrt_sqrt _ (squares_nonneg l)) as E. fold (len l) in E. rewrite <- E.
  replace m2 with (/ IZR (2 ^ 60) * / IZR (2 ^ 60)); [nra|]. unfold m2. change (2 ^ 120)%Z with (2 ^ 60 * 2 ^ 60)%Z. rewrite mult_IZR. field. apply (IZR_neq _ 0). discriminate.
Qed.
(** norm() of a vector that is not extremely short is its length up to 2N+3 units, unless it overflows. *)
Theorem vec_norm_error (N : nat) (v : list binary32) (n : binary32) : length v = N -> (N <= 1000)%nat -> / IZR (2 ^ 60) <= len (reals v) -> v_norm f32_sc N v = Ok n -> fin n = true ->
  Rabs (val n - len (reals v)) <= ulps (2 * INR N + 3) * len (reals v).
Proof.
  intros L HN Hl E F. destruct (v_norm_f32 _ _ _ L E) as (s & Es & ->). apply m2_len in Hl. apply le_INR in HN. change (INR 1000) with (INR (40 * 25)) in HN. rewrite mult_INR in HN. cbn [INR] in HN.
  pose proof (norm2_err v s Es (sqrt_fin _ F)) as H. rewrite L in H. pose proof (pos_INR N). destruct (norm_from s (squares (reals v)) (11 / 10 * INR N + 11 / 10)) as [_ G]; [done|lra|by apply sqrt_fin|apply H; [lra|done]|].
  eapply Rle_trans; [exact G|]. apply Rmult_le_compat_r; [apply sqrt_pos|]. unfold ulps, u. change (IZR (2 ^ 24)) with 16777216. lra.
Qed.
Lemma sum_all_fin (l : list binary32) : forall z n, sum_products (s_add f32_sc) (s_mul f32_sc) z (zip l l) = Some n -> fin n = true -> Forall (fun x => fin x = true) l.
Proof.
  induction l as [|a l IH]; intros z n E F; [constructor|]. cbn [zip zip_with sum_products s_mul s_add f32_sc] in E. constructor; [|eapply IH; eauto].
  pose proof (sum_fin _ _ _ E F) as G. apply (add_fin z (a ⊗ a)) in G as [_ G]. by apply mul_fin in G as [G _].
Qed.
Lemma squares_lane l x : In x l -> x * x <= squares l.
Proof. induction l as [|y l IH]; [done|]. intros [-> | H]; cbn; fold (squares l); pose proof (squares_nonneg l); [lra|]. specialize (IH H). nra. Qed.
Lemma len_lane l x : In x l -> Rabs x <= len l.
Proof. intros H. apply squares_lane in H. unfold len. rewrite <- sqrt_Rsqr_abs. apply sqrt_le_1_alt. exact H. Qed.
Lemma squares_scaled l L : squares (map (fun x => x / L) l) = squares l * (/ L * / L).
Proof. induction l as [|x l IH]; cbn; [ring|]. fold (squares (map (fun x => x / L) l)) (squares l). rewrite IH. unfold Rdiv. ring. Qed.
Lemma squares_err d (r y : list R) : 0 <= d <= / 1000 -> Forall2 (fun r y => Rabs y <= 1 /\ Rabs (r - y) <= d * Rabs y + eta) r y -> Rabs (squares r - squares y) <= (2 * d + d * d) * squares y + 3 * INR (length y) * eta.
Proof.
  intros Hd. induction 1 as [|a b r y [Hb Hab] H IH]; [cbn; rewrite Rminus_0_r, Rabs_R0; lra|]. change (length (b :: y)) with (Datatypes.S (length y)). rewrite S_INR. cbn [squares fold_right]. fold (squares r) (squares y).
  pose proof (square_err a b d Hb Hd Hab) as Q. replace (a * a + squares r - (b * b + squares y)) with (a * a - b * b + (squares r - squares y)) by ring. eapply Rle_trans; [apply Rabs_triang|]. lra.
Qed.
Lemma unit_from N (v r : list binary32) (n : binary32) : length v = N -> (N <= 1000)%nat -> / IZR (2 ^ 60) <= len (reals v) -> Forall (fun x => fin x = true) v -> Rabs (val n - len (reals v)) <= ulps (2 * INR N + 3) * len (reals v) ->
  r = map (fun x => b32_div mode_NE x n) v ->
  (forall i x, v !! i = Some x -> exists y, r !! i = Some y /\ fin y = true /\ Rabs (val y - val x / len (reals v)) <= ulps (3 * INR N + 5) * Rabs (val x / len (reals v)) + least_half) /\
  Rabs (squares (reals r) - 1) <= ulps (7 * INR N + 12).
Proof.
  intros L HN Hl Fv Hn ->. assert (0 < / IZR (2 ^ 60)) by (apply Rinv_0_lt_compat, (IZR_lt 0); reflexivity). set (l := len (reals v)) in *. assert (0 < l) as Pl by lra.
  apply le_INR in HN. change (INR 1000) with (INR (40 * 25)) in HN. rewrite mult_INR in HN. cbn [INR] in HN. pose proof (pos_INR N) as PN. destruct eta_m2 as (Pm & Em & El). destruct eta_tiny as [Pe _].
  assert (m2 <= 1) as M1 by (unfold m2; rewrite <- Rinv_1; apply Rinv_le_contravar; [lra|apply (IZR_le 1); discriminate]).
  assert (forall x, In x v -> Rabs (val x / l) <= 1 /\ fin (b32_div mode_NE x n) = true /\ Rabs (val (b32_div mode_NE x n) - val x / l) <= ulps (3 * INR N + 5) * Rabs (val x / l) + eta) as G.
  { intros x Hx. assert (Rabs (val x) <= l) as Bx by (apply len_lane, in_map_iff; eauto). split.
    { unfold Rdiv. rewrite Rabs_mult, Rabs_inv, (Rabs_pos_eq l) by lra. apply Rmult_le_reg_r with l; [done|]. rewrite Rmult_assoc, Rinv_l by lra. lra. }
    destruct (unit_lane x n l (2 * INR N + 3)) as [Fd D]; [rewrite Forall_forall in Fv; by apply Fv, elem_of_list_In|done|lra|done|exact Hn|]. split; [done|]. eapply Rle_trans; [exact D|]. apply Rplus_le_compat_r, Rmult_le_compat_r; [apply Rabs_pos|]. unfold u, ulps. change (IZR (2 ^ 24)) with 16777216. lra. }
  split.
  - intros i x Hi. destruct (G x) as (_ & Fd & D); [by apply elem_of_list_In, elem_of_list_lookup_2 with i|]. exists (b32_div mode_NE x n). split; [by apply list_lookup_fmap_Some; eauto|]. split; [done|]. by rewrite <- El.
  - pose proof (squares_err (ulps (3 * INR N + 5)) (reals (map (fun x => b32_div mode_NE x n) v)) (map (fun x => x / l) (reals v))) as Q.
    lapply Q; [clear Q; intros Q|unfold ulps; change (IZR (2 ^ 24)) with 16777216; lra]. lapply Q; [clear Q; intros Q|].
    2:{ unfold reals. rewrite !map_map. clear -G. clearbody l. induction v as [|x v IH]; cbn [map]; constructor; [destruct (G x) as (? & _ & ?); [by left|done]|]. apply IH. intros y Hy. apply G. by right. }
    rewrite squares_scaled in Q. assert (squares (reals v) * (/ l * / l) = 1) as E1.
    { unfold l, len. rewrite <- (sqrt_sqrt _ (squares_nonneg (reals v))) at 1. fold (len (reals v)). fold l. field. lra. }
    rewrite E1 in Q. assert (length (map (fun x => x / l) (reals v)) = N) as E2 by (unfold reals; rewrite !map_length; exact L). rewrite E2 in Q. eapply Rle_trans; [exact Q|]. unfold ulps, u in *. change (IZR (2 ^ 24)) with 16777216 in *. set (K := INR N) in *. clearbody K. assert (K * eta <= 1000 * eta) by (apply Rmult_le_compat_r; lra). nra.
Qed.
(** unit() divides by the length: each component is right up to 3N+5 units, and the result has length one up to 7N+12 units of its square. *)
Theorem vec_unit_error (N : nat) (v : list binary32) (n : binary32) : length v = N -> (N <= 1000)%nat -> / IZR (2 ^ 60) <= len (reals v) -> v_norm f32_sc N v = Ok n -> fin n = true ->
  exists r, v_unit f32_sc N v = Ok r /\ v_normalize f32_sc N v = Ok (r, r) /\ length r = N /\
  (forall i x, v !! i = Some x -> exists y, r !! i = Some y /\ fin y = true /\ Rabs (val y - val x / len (reals v)) <= ulps (3 * INR N + 5) * Rabs (val x / len (reals v)) + least_half) /\
  Rabs (squares (reals r) - 1) <= ulps (7 * INR N + 12).
Proof.
  intros L HN Hl E F. destruct (v_norm_f32 _ _ _ L E) as (s & Es & En). pose proof (vec_norm_error N v n L HN Hl E F) as Hn. pose proof (vect_normalize f32_sc N v L) as H. rewrite E in H. destruct H as (_ & C1 & C2 & C3).
  assert (forall out : res (list binary32), componentwise (fun x => s_div f32_sc x n) v out -> out = Ok (map (fun x => b32_div mode_NE x n) v)) as G.
  { intros [r| | |]; cbn; try done; [|intros (i & x & _ & Q); done]. intros [Lr Hr]. f_equal. apply list_eq. intros i. rewrite list_lookup_fmap. destruct (v !! i) as [x|] eqn:Ex; cbn.
    - destruct (Hr i x Ex) as (z & Ez & ->). by injection Ez as <-.
    - apply lookup_ge_None in Ex. apply lookup_ge_None. lia. }
  apply G in C1. apply G in C2. exists (map (fun x => b32_div mode_NE x n) v). split; [done|]. split.
  { destruct (v_normalize f32_sc N v) as [[a' r']| | |]; cbn in C2; try done. injection C2 as ->. by rewrite (C3 _ _ eq_refl). }
  split; [by rewrite map_length|]. apply (unit_from N v _ n); try done. subst n. apply sqrt_fin in F. by eapply sum_all_fin.
Qed.
(** The same for Vec4 with SSE, where the sum is built in pairs. *)
Theorem vec4_sse_error (v : list binary32) (n : binary32) : length v = 4%nat -> / IZR (2 ^ 60) <= len (reals v) -> q_norm_sse v = Ok n -> fin n = true ->
  Rabs (val n - len (reals v)) <= ulps 11 * len (reals v) /\
  exists r, q_unit_sse v = Ok r /\ length r = 4%nat /\
  (forall i x, v !! i = Some x -> exists y, r !! i = Some y /\ fin y = true /\ Rabs (val y - val x / len (reals v)) <= ulps 17 * Rabs (val x / len (reals v)) + least_half) /\
  Rabs (squares (reals r) - 1) <= ulps 40.
Proof.
  intros L Hl E F. unfold q_unit_sse. rewrite E. destruct v as [|a [|b [|c [|d [|]]]]]; try done. cbn in E. injection E as <-. apply sqrt_fin in F as F2.
  change (fin ((a ⊗ a ⊕ b ⊗ b) ⊕ (c ⊗ c ⊕ d ⊗ d)) = true) in F2. destruct (add_fin _ _ F2) as [F3 F4]. destruct (add_fin _ _ F3) as [Fa Fb]. destruct (add_fin _ _ F4) as [Fc Fd].
  assert (Rabs (val (b32_sqrt mode_NE ((a ⊗ a ⊕ b ⊗ b) ⊕ (c ⊗ c ⊕ d ⊗ d))) - len (reals [a; b; c; d])) <= ulps 11 * len (reals [a; b; c; d])) as H.
  { apply m2_len in Hl. destruct (norm_from ((a ⊗ a ⊕ b ⊗ b) ⊕ (c ⊗ c ⊕ d ⊗ d)) (squares (reals [a; b; c; d])) 5) as [_ G]; [done|lra|done| |].
    - cbn [squares reals map fold_right] in *. pose proof (mul_err _ _ Fa) as Ma. pose proof (mul_err _ _ Fb) as Mb. pose proof (mul_err _ _ Fc) as Mc. pose proof (mul_err _ _ Fd) as Md.
      pose proof (add_err _ _ F2) as A2. pose proof (add_err _ _ F3) as A3. pose proof (add_err _ _ F4) as A4. destruct eta_m2 as (Pm & Em & _). destruct eta_tiny as [Pe _].
      assert (forall x : R, 0 <= x * x) as Sq by (intros; nra). rewrite (Rabs_pos_eq (_ * _)) in Ma by apply Sq. rewrite (Rabs_pos_eq (_ * _)) in Mb by apply Sq. rewrite (Rabs_pos_eq (_ * _)) in Mc by apply Sq. rewrite (Rabs_pos_eq (_ * _)) in Md by apply Sq.
      pose proof (Sq (val a)). pose proof (Sq (val b)). pose proof (Sq (val c)). pose proof (Sq (val d)). clear Sq F F2 F3 F4 Fa Fb Fc Fd.
      set (qa := val a * val a) in *. set (qb := val b * val b) in *. set (qc := val c * val c) in *. set (qd := val d * val d) in *. set (pa := val (a ⊗ a)) in *. set (pb := val (b ⊗ b)) in *. set (pc := val (c ⊗ c)) in *. set (pd := val (d ⊗ d)) in *.
      set (s := val (_ ⊕ (_ ⊕ _))) in *. set (s1 := val (_ ⊕ b ⊗ b)) in *. set (s2 := val (_ ⊕ d ⊗ d)) in *. clearbody qa qb qc qd pa pb pc pd s s1 s2. unfold u in *.
      assert (Rabs (pa + pb) <= (1 + 1 / 16777216) * (qa + qb) + 2 * eta) as T1 by (abs_all; apply Rabs_le; lra). assert (Rabs (pc + pd) <= (1 + 1 / 16777216) * (qc + qd) + 2 * eta) as T2 by (abs_all; apply Rabs_le; lra).
      assert (Rabs (s1 - (qa + qb)) <= 3 / 16777216 * (qa + qb) + 3 * eta) as S1 by (abs_all; apply Rabs_le; lra). assert (Rabs (s2 - (qc + qd)) <= 3 / 16777216 * (qc + qd) + 3 * eta) as S2 by (abs_all; apply Rabs_le; lra).
      clear A3 A4 T1 T2 Ma Mb Mc Md. assert (Rabs (s1 + s2) <= (1 + 3 / 16777216) * (qa + qb + qc + qd) + 6 * eta) as T by (abs_all; apply Rabs_le; lra). abs_all. apply Rabs_le. lra.
    - eapply Rle_trans; [exact G|]. apply Rmult_le_compat_r; [apply sqrt_pos|]. unfold ulps, u. change (IZR (2 ^ 24)) with 16777216. lra. }
  split; [exact H|]. eexists. split; [reflexivity|]. split; [done|]. set (n := b32_sqrt mode_NE ((a ⊗ a ⊕ b ⊗ b) ⊕ (c ⊗ c ⊕ d ⊗ d))) in *. pose proof (unit_from 4 [a; b; c; d] (map (fun x => b32_div mode_NE x n) [a; b; c; d]) n eq_refl ltac:(lia) Hl) as U.
  replace (2 * INR 4 + 3) with 11 in U by (cbn; ring). replace (3 * INR 4 + 5) with 17 in U by (cbn; ring). replace (7 * INR 4 + 12) with 40 in U by (cbn; ring).
  apply U; [|exact H|reflexivity]. repeat (apply Forall_cons_2; [first [exact (proj1 (mul_fin _ _ Fa))|exact (proj1 (mul_fin _ _ Fb))|exact (proj1 (mul_fin _ _ Fc))|exact (proj1 (mul_fin _ _ Fd))]|]). apply Forall_nil_2.
Qed.

(** Finding: the squares of short vectors vanish and those of long ones overflow.  The unit vector of (2^-76, 0, 0) is not a number, and that of
    (2^64, 0, 0) is the null vector. *)
Definition p2 (e : Z) : binary32 := b32_of_bits ((e + 127) * 2 ^ 23).
Theorem vec_unit_short_refuted : exists v, length v = 3%nat /\ Forall (fun x => fin x = true) v /\ 0 < len (reals v) /\
  exists n r, v_norm f32_sc 3 v = Ok n /\ val n = 0 /\ v_unit f32_sc 3 v = Ok r /\ map (Binary.is_nan 24 128) r = [false; true; true] /\ map fin r = [false; false; false].
Proof.
  exists [p2 (-76); f0; f0]. split; [done|]. split; [repeat (apply Forall_cons_2; [by vm_compute|]); apply Forall_nil_2|]. split.
  { apply sqrt_lt_R0. cbn [reals map squares fold_right]. assert (val (p2 (-76)) = F2R (Float radix2 8388608 (-99))) as -> by (vm_compute; reflexivity). assert (0 < F2R (Float radix2 8388608 (-99))) by (apply F2R_gt_0; done). nra. }
  eexists _, _. split; [reflexivity|]. split; [by vm_compute|]. split; [reflexivity|]. split; vm_compute; reflexivity.
Qed.
Theorem vec_unit_long_refuted : exists v, length v = 3%nat /\ Forall (fun x => fin x = true) v /\
  exists n r, v_norm f32_sc 3 v = Ok n /\ fin n = false /\ v_unit f32_sc 3 v = Ok r /\ squares (reals r) = 0.
Proof.
  exists [p2 64; f0; f0]. split; [done|]. split; [repeat (apply Forall_cons_2; [by vm_compute|]); apply Forall_nil_2|].
  eexists _, _. split; [reflexivity|]. split; [by vm_compute|]. split; [reflexivity|]. transitivity (squares [0; 0; 0]); [f_equal; vm_compute; reflexivity|cbn; ring].
Qed.
(** The hypotheses are met by (3, 0, 4) and by (1, 1, 1, 1). *)
Example vec_length_premises : exists n m, v_norm f32_sc 3 [f32_of_Z 3; f0; f32_of_Z 4] = Ok n /\ fin n = true /\ f32_eq n (f32_of_Z 5) = true /\ q_norm_sse [f1; f1; f1; f1] = Ok m /\ fin m = true /\ f32_eq m (f32_of_Z 2) = true.
Proof. eexists _, _. split; [reflexivity|]. split; [by vm_compute|]. split; [by vm_compute|]. split; [reflexivity|]. split; by vm_compute. Qed.
Example vec_length_long_enough : / IZR (2 ^ 60) <= len (reals [f32_of_Z 3; f0; f32_of_Z 4]).
Proof.
  unfold len. cbn [reals map squares fold_right]. rewrite (proj2 (small_val 3 ltac:(lia))), (proj2 (small_val 4 ltac:(lia))). destruct val0 as [_ ->]. replace (3 * 3 + (0 * 0 + (4 * 4 + 0))) with (5 * 5) by ring. rewrite sqrt_square by lra.
  apply Rle_trans with 1; [|lra]. rewrite <- Rinv_1. apply Rinv_le_contravar; [lra|apply (IZR_le 1); discriminate].
Qed.
Print Assumptions vec_norm_error.
Print Assumptions vec_unit_error.
Print Assumptions vec4_sse_error.
Print Assumptions vec_unit_short_refuted.
Print Assumptions vec_unit_long_refuted.
