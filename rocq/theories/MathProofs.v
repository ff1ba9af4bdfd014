(** Proofs about the integer functions of MathModel. *)
From Verif Require Import Word MathModel.
From Coq Require Import QArith Lqa.
Open Scope Z_scope.

Lemma clz_bits_log2 x n : 0 < x -> Z.log2 x < Z.of_nat n ->
  clz_bits x n = Z.of_nat n - 1 - Z.log2 x.
Proof.
  intros Hx. induction n as [|n IH]; intros H; cbn [clz_bits].
  - pose proof (Z.log2_nonneg x). lia.
  - destruct (Z.testbit x (Z.of_nat n)) eqn:E.
    + destruct (Z_lt_ge_dec (Z.log2 x) (Z.of_nat n)) as [L|L]; [|lia].
      rewrite Z.bits_above_log2 in E by lia. discriminate.
    + destruct (Z.eq_dec (Z.log2 x) (Z.of_nat n)) as [L|L].
      * rewrite <- L, Z.bit_log2 in E by lia. discriminate.
      * rewrite IH by lia. lia.
Qed.

Lemma log2_lt_w w x : 0 < x -> is_u w x -> Z.log2 x < w.
Proof. intros H [_ H2]. apply Z.log2_lt_pow2; lia. Qed.

Lemma ctlz_log2 w x : 0 <= w -> 0 < x -> is_u w x -> ctlz w x = w - 1 - Z.log2 x.
Proof.
  intros Hw Hx Hu. unfold ctlz. destruct (Z.eqb_spec x 0); [lia|].
  pose proof (log2_lt_w w x Hx Hu).
  rewrite clz_bits_log2 by lia. lia.
Qed.

Lemma width_fits w : 0 <= w -> w < 2 ^ w.
Proof. intros. apply Z.pow_gt_lin_r; lia. Qed.

Lemma log2_spec_Z w x : 0 <= w -> 0 < x -> is_u w x -> log2 w x = Z.log2 x.
Proof.
  intros Hw Hx Hu. unfold log2. rewrite ctlz_log2 by done.
  replace (w - 1 - (w - 1 - Z.log2 x)) with (Z.log2 x) by lia.
  apply wrap_small. pose proof (log2_lt_w w x Hx Hu). pose proof (Z.log2_nonneg x).
  pose proof (width_fits w Hw). split; lia.
Qed.

Lemma prev_pow2_Z w x : 0 <= w -> 0 < x -> is_u w x -> prev_pow2 w x = Ok (2 ^ Z.log2 x).
Proof.
  intros Hw Hx Hu. unfold prev_pow2. destruct (Z.eqb_spec x 0); [lia|].
  rewrite log2_spec_Z by done. unfold shl.
  pose proof (log2_lt_w w x Hx Hu). destruct (Z.ltb_spec (Z.log2 x) w); [|lia].
  rewrite Z.mul_1_l, wrap_small; [done|]. pose proof (Z.log2_nonneg x).
  split; [apply Z.pow_nonneg; lia|]. apply Z.pow_lt_mono_r; lia.
Qed.

Lemma next_pow2_Z w x : 1 < w -> 0 < x -> x <= 2 ^ (w - 1) ->
  exists k, 0 <= k < w /\ next_pow2 w x = Ok (2 ^ k) /\ x <= 2 ^ k /\ (k = 0 \/ 2 ^ (k - 1) < x).
Proof.
  intros Hw Hx Hu.
  assert (2 ^ (w - 1) < 2 ^ w) by (apply Z.pow_lt_mono_r; lia).
  assert (is_u w x) as Hu' by (split; lia).
  pose proof (log2_lt_w w x Hx Hu'). pose proof (Z.log2_nonneg x).
  pose proof (Z.log2_spec x Hx) as [L1 L2].
  unfold next_pow2. rewrite prev_pow2_Z by (done || lia). cbn.
  destruct (Z.eqb_spec x (2 ^ Z.log2 x)) as [E|E].
  - exists (Z.log2 x). split; [lia|]. split; [by rewrite <- E|]. split; [lia|].
    destruct (Z.eq_dec (Z.log2 x) 0); [auto|]. right. rewrite E at 2.
    apply Z.pow_lt_mono_r; lia.
  - assert (Z.log2 x < w - 1).
    { apply (Z.pow_lt_mono_r_iff 2); lia. }
    exists (Z.log2 x + 1). split; [lia|].
    rewrite Z.add_simpl_r. split; [|split; [|right; lia]].
    + unfold shl. destruct (Z.ltb_spec 1 w); [|lia]. f_equal.
      rewrite <- Z.pow_add_r by lia. apply wrap_small.
      split; [apply Z.pow_nonneg; lia|]. apply Z.pow_lt_mono_r; lia.
    + replace (Z.log2 x + 1) with (Z.succ (Z.log2 x)) by lia. lia.
Qed.

Lemma next_pow2_overflow w x : 1 < w -> 2 ^ (w - 1) < x -> is_u w x -> next_pow2 w x = Ok 0.
Proof.
  intros Hw Hx Hu. assert (0 < 2 ^ (w - 1)) by (apply pow2_pos; lia).
  assert (Z.log2 x = w - 1) as E.
  { destruct Hu. apply Z.log2_unique; [lia|]. replace (Z.succ (w - 1)) with w by lia. lia. }
  unfold next_pow2. rewrite prev_pow2_Z by (done || lia). cbn. rewrite E.
  destruct (Z.eqb_spec x (2 ^ (w - 1))); [lia|].
  unfold shl. destruct (Z.ltb_spec 1 w); [|lia]. f_equal. unfold wrap.
  rewrite <- Z.pow_add_r by lia. replace (w - 1 + 1) with w by lia. apply Z_mod_same_full.
Qed.

(** ** popcount *)
Lemma testbit_split x n : 0 <= n -> 0 <= x ->
  x mod 2 ^ (n + 1) = x mod 2 ^ n + (if Z.testbit x n then 2 ^ n else 0).
Proof.
  intros Hn Hx. rewrite Z.pow_add_r by lia. change (2 ^ 1) with 2.
  rewrite Z.rem_mul_r; [|apply Z.pow_nonzero; lia|lia].
  f_equal. rewrite <- Z.testbit_spec' by lia.
  destruct (Z.testbit x n); unfold Z.b2z; [apply Z.mul_1_r|apply Z.mul_0_r].
Qed.

Definition sum_pow2 (l : list Z) : Z := foldr (fun i s => 2 ^ i + s) 0 l.

Lemma popcount_bits_spec x n : 0 <= x ->
  exists l, NoDup l /\ (forall i, i ∈ l -> 0 <= i < Z.of_nat n) /\
    x mod 2 ^ Z.of_nat n = sum_pow2 l /\ popcount_bits x n = Z.of_nat (length l).
Proof.
  intros Hx. induction n as [|n (l & ND & Hr & Hs & Hp)].
  - exists []. split; [constructor|]. split; [intros i Hi; inversion Hi|].
    split; [apply Z.mod_1_r|]. done.
  - cbn [popcount_bits]. pose proof (testbit_split x (Z.of_nat n) ltac:(lia) Hx) as E.
    replace (Z.of_nat n + 1) with (Z.of_nat (S n)) in E by lia.
    destruct (Z.testbit x (Z.of_nat n)).
    + exists (Z.of_nat n :: l). split; [|split; [|split]].
      * constructor; [|done]. intros Hin. apply Hr in Hin. lia.
      * intros i [->|Hi]%elem_of_cons; [lia|]. apply Hr in Hi. lia.
      * rewrite E, Hs. unfold sum_pow2. cbn [foldr]. ring.
      * cbn [length]. lia.
    + exists l. split; [done|]. split; [|split].
      * intros i Hi. apply Hr in Hi. lia.
      * rewrite E, Hs. ring.
      * lia.
Qed.

(** ** Alignment *)
Lemma land_high w k x : 0 <= k <= w -> is_u w x ->
  Z.land x (bnot w (2 ^ k - 1)) = x - x mod 2 ^ k.
Proof.
  intros Hk [H1 H2].
  assert (bnot w (2 ^ k - 1) = Z.shiftl (Z.ones (w - k)) k) as ->.
  { unfold bnot. rewrite Z.shiftl_mul_pow2 by lia. rewrite Z.ones_equiv.
    unfold Z.pred. rewrite Z.mul_add_distr_r, <- Z.pow_add_r by lia.
    replace (w - k + k) with w by lia. lia. }
  assert (x - x mod 2 ^ k = Z.shiftl (Z.shiftr x k) k) as ->.
  { rewrite Z.shiftl_mul_pow2, Z.shiftr_div_pow2 by lia.
    pose proof (Z.div_mod x (2 ^ k) ltac:(apply Z.pow_nonzero; lia)). lia. }
  apply Z.bits_inj'. intros n Hn. rewrite Z.land_spec.
  destruct (Z_lt_ge_dec n k).
  - rewrite !Z.shiftl_spec_low by lia. apply andb_false_r.
  - rewrite !Z.shiftl_spec by lia. rewrite Z.shiftr_spec by lia.
    replace (n - k + k) with n by lia.
    destruct (Z_lt_ge_dec n w).
    + rewrite Z.ones_spec_low by lia. apply andb_true_r.
    + destruct (Z.eq_dec x 0) as [->|]; [by rewrite !Z.bits_0|].
      rewrite (Z.bits_above_log2 x n); [done|lia|].
      apply Z.log2_lt_pow2; [lia|]. apply Z.lt_le_trans with (2 ^ w); [lia|].
      apply Z.pow_le_mono_r; lia.
Qed.

Lemma wrap_pow_pred w k : 0 <= k <= w -> wrap w (2 ^ k - 1) = 2 ^ k - 1.
Proof.
  intros H. apply wrap_small. pose proof (pow2_pos k ltac:(lia)).
  pose proof (Z.pow_le_mono_r 2 k w ltac:(lia) ltac:(lia)). split; lia.
Qed.

Lemma mod_pow_sub x w k : 0 <= k <= w -> (x - 2 ^ w) mod 2 ^ k = x mod 2 ^ k.
Proof.
  intros H. replace (2 ^ w) with (2 ^ (w - k) * 2 ^ k).
  - rewrite <- Z.add_opp_r, <- Z.mul_opp_l. apply Z_mod_plus_full.
  - rewrite <- Z.pow_add_r by lia. f_equal. lia.
Qed.

Lemma round_up x a : 0 < a -> 0 <= x ->
  let y := (x + a - 1) - (x + a - 1) mod a in
  y mod a = 0 /\ x <= y < x + a.
Proof.
  intros Ha Hx y. subst y. split.
  - rewrite Zminus_mod_idemp_r. rewrite Z.sub_diag. apply Zmod_0_l.
  - pose proof (Z.mod_pos_bound (x + a - 1) a Ha). lia.
Qed.

(** ** pow *)
Lemma shiftr1 e : Z.shiftr e 1 = e / 2.
Proof. rewrite Z.shiftr_div_pow2 by lia. done. Qed.
Lemma bit0 e : Z.testbit e 0 = (e mod 2 =? 1).
Proof. rewrite Z.bit0_odd, Zmod_odd. destruct (Z.odd e); done. Qed.

Lemma pow_split b e : 0 <= e ->
  b ^ e = (if Z.testbit e 0 then b else 1) * (b * b) ^ (e / 2).
Proof.
  intros He. rewrite bit0. assert (0 <= e / 2) by (apply Z.div_pos; lia).
  replace (b * b) with (b ^ 2) by lia. rewrite <- Z.pow_mul_r by lia.
  destruct (Z.eqb_spec (e mod 2) 1).
  - replace e with (1 + 2 * (e / 2)) at 1 by lia.
    rewrite Z.pow_add_r by lia. rewrite Z.pow_1_r. lia.
  - rewrite Z.mul_1_l. f_equal. lia.
Qed.

Section modular.
  Context (t : int_ty) (f : Z -> Z).
  Hypothesis f_mul_l : forall x y, f (f x * y) = f (x * y).
  Hypothesis f_dom : forall x, f (f x) = f x.
  Hypothesis mul_f : forall a b, f a = a -> f b = b -> mul_assign t a b = Ok (f (a * b)).

  Lemma f_mul_r x y : f (x * f y) = f (x * y).
  Proof. rewrite Z.mul_comm, f_mul_l, Z.mul_comm. done. Qed.
  Lemma f_pow x n : (0 <= n) -> f (f x ^ n) = f (x ^ n).
  Proof.
    intros Hn. pattern n. apply natlike_ind; [|intros m Hm IH|done]; [done|].
    rewrite !Z.pow_succ_r by lia. rewrite f_mul_l, <- f_mul_r, IH, f_mul_r. done.
  Qed.

  Lemma pow_loop_mod fuel : forall r b e, 0 <= e < 2 ^ Z.of_nat fuel -> f r = r -> f b = b ->
    pow_loop t fuel r b e = Ok (f (r * b ^ e)).
  Proof.
    induction fuel as [|n IH]; intros r b e He Hr Hb; cbn [pow_loop].
    - change (2 ^ Z.of_nat 0) with 1 in He. destruct (Z.eqb_spec e 0); [|lia].
      subst. rewrite Z.mul_1_r, Hr. done.
    - destruct (Z.eqb_spec e 0) as [->|Hne]; [by rewrite Z.mul_1_r, Hr|].
      assert (0 <= e / 2 < 2 ^ Z.of_nat n) as Hh.
      { rewrite Nat2Z.inj_succ, Z.pow_succ_r in He by lia. split; [apply Z.div_pos; lia|].
        apply Z.div_lt_upper_bound; lia. }
      rewrite (pow_split b e) by lia. rewrite shiftr1.
      destruct (Z.testbit e 0).
      + rewrite (mul_f r b) by done. cbn. rewrite (mul_f b b) by done. cbn.
        rewrite IH by (done || apply f_dom). f_equal.
        rewrite f_mul_l, <- f_mul_r, f_pow, f_mul_r by lia. f_equal. lia.
      + cbn. rewrite (mul_f b b) by done. cbn.
        rewrite IH by (done || apply f_dom). f_equal.
        rewrite <- f_mul_r, f_pow, f_mul_r by lia. f_equal. lia.
  Qed.
End modular.

Lemma wrap_in_range w x : 0 <= w -> wrap w x = x -> is_u w x.
Proof. intros Hw <-. by apply wrap_range. Qed.

Lemma pow_mod_u t b e : t = U8 \/ t = U32 \/ t = U64 -> in_ty t b -> in_ty t e ->
  pow t b e = Ok (wrap (width t) (b ^ e)).
Proof.
  intros Ht Hb He. unfold pow.
  rewrite (pow_loop_mod t (wrap (width t))).
  - f_equal. f_equal. lia.
  - intros. apply wrap_mul_l.
  - intros. apply wrap_wrap. destruct Ht as [->|[->| ->]]; cbn; lia.
  - intros x y Hx Hy. destruct Ht as [->|[->| ->]]; cbn [mul_assign]; try done.
    apply wrap_in_range in Hx; [|cbn; lia]. apply wrap_in_range in Hy; [|cbn; lia].
    cbn [width] in *. unfold is_u in *. change (2 ^ 8) with 256 in *.
    assert (in_tyb I32 (x * y) = true) as ->; [|done]. unfold in_tyb. cbn [signed width].
    change (2 ^ (32 - 1)) with 2147483648. nia.
  - destruct Ht as [->|[->| ->]]; exact He.
  - apply wrap_small. destruct Ht as [->|[->| ->]]; cbn; split; lia.
  - apply wrap_small. destruct Ht as [->|[->| ->]]; exact Hb.
Qed.

Lemma to_signed_wrap_eq w x y : wrap w x = wrap w y -> to_signed w x = to_signed w y.
Proof. unfold to_signed. intros ->. done. Qed.

Lemma pow_mod_narrow t b e : t = I8 \/ t = I16 -> in_ty t b -> in_ty t e -> 0 <= e ->
  pow t b e = Ok (to_signed (width t) (b ^ e)).
Proof.
  intros Ht Hb He He0. unfold pow.
  assert (1 <= width t) by (destruct Ht as [->| ->]; cbn; lia).
  rewrite (pow_loop_mod t (to_signed (width t))).
  - f_equal. f_equal. lia.
  - intros. apply to_signed_wrap_eq. rewrite <- wrap_mul_l, wrap_to_signed, wrap_mul_l; done.
  - intros. apply to_signed_small; [done|]. by apply to_signed_range.
  - intros x y Hx Hy.
    assert (is_i (width t) x) as Rx by (rewrite <- Hx; by apply to_signed_range).
    assert (is_i (width t) y) as Ry by (rewrite <- Hy; by apply to_signed_range).
    assert (in_tyb I32 (x * y) = true) as Hin.
    { unfold in_tyb. cbn [signed width]. change (2 ^ (32 - 1)) with 2147483648.
      destruct Ht as [->| ->]; cbn [width] in *; unfold is_i in *;
      [change (2 ^ (8 - 1)) with 128 in *|change (2 ^ (16 - 1)) with 32768 in *]; nia. }
    destruct Ht as [->| ->]; cbn [mul_assign]; by rewrite Hin.
  - split; [done|]. destruct Ht as [->| ->]; unfold in_ty, is_i in He; cbn [signed width] in *.
    + change (2 ^ (8 - 1)) with 128 in He. change (2 ^ Z.of_nat (Z.to_nat 8)) with 256. lia.
    + change (2 ^ (16 - 1)) with 32768 in He. change (2 ^ Z.of_nat (Z.to_nat 16)) with 65536. lia.
  - apply to_signed_small; [done|]. destruct Ht as [->| ->]; unfold is_i; cbn; lia.
  - apply to_signed_small; [done|]. destruct Ht as [->| ->]; exact Hb.
Qed.

(** Wide signed types: exact while every square computed fits. *)
Lemma in_tyb_true t x : in_tyb t x = true <-> in_ty t x.
Proof. unfold in_tyb, in_ty, is_i, is_u. destruct (signed t); lia. Qed.

Lemma in_ty_abs t x y : signed t = true -> Z.abs x <= Z.abs y -> Z.abs y < 2 ^ (width t - 1) -> in_ty t x.
Proof. intros S H. unfold in_ty. rewrite S. unfold is_i. lia. Qed.

Lemma pow_abs_le b m n : 0 <= m <= n -> b <> 0 -> Z.abs (b ^ m) <= Z.abs (b ^ n).
Proof.
  intros H Hb. rewrite !Z.abs_pow. apply Z.pow_le_mono_r; lia.
Qed.

Lemma log2_half e : 2 <= e -> Z.log2 e = Z.log2 (e / 2) + 1.
Proof.
  intros H. rewrite <- shiftr1, Z.log2_shiftr by lia.
  assert (Z.log2 2 <= Z.log2 e) by (apply Z.log2_le_mono; lia).
  change (Z.log2 2) with 1 in *. lia.
Qed.

Lemma pow_loop_exact t fuel : t = I32 \/ t = I64 -> forall r b e,
  0 <= e < 2 ^ Z.of_nat fuel -> in_ty t (r * b ^ e) ->
  (forall m, 0 <= m <= e -> in_ty t (r * b ^ m)) ->
  (e = 0 \/ Z.abs (b ^ (2 ^ (Z.log2 e + 1))) < 2 ^ (width t - 1)) ->
  pow_loop t fuel r b e = Ok (r * b ^ e).
Proof.
  intros Ht. assert (signed t = true) as Hs by (destruct Ht as [->| ->]; done).
  assert (forall x y, in_ty t (x * y) -> mul_assign t x y = Ok (x * y)) as Hmul.
  { intros x y H. apply in_tyb_true in H. destruct Ht as [->| ->]; cbn [mul_assign]; by rewrite H. }
  induction fuel as [|n IH]; intros r b e He Hin Hm Hsq; cbn [pow_loop].
  - change (2 ^ Z.of_nat 0) with 1 in He. destruct (Z.eqb_spec e 0); [|lia].
    subst. by rewrite Z.mul_1_r.
  - destruct (Z.eqb_spec e 0) as [->|Hne]; [by rewrite Z.mul_1_r|].
    destruct Hsq as [->|Hsq]; [lia|].
    assert (0 <= e / 2 < 2 ^ Z.of_nat n) as Hh.
    { rewrite Nat2Z.inj_succ, Z.pow_succ_r in He by lia. split; [apply Z.div_pos; lia|].
      apply Z.div_lt_upper_bound; lia. }
    assert (1 <= 2 ^ Z.log2 e) as Hp1 by (pose proof (pow2_pos (Z.log2 e) (Z.log2_nonneg e)); lia).
    assert (2 <= 2 ^ (Z.log2 e + 1)) as Hp.
    { rewrite Z.pow_add_r by (pose proof (Z.log2_nonneg e); lia). lia. }
    assert (in_ty t (b * b)) as Hbb.
    { destruct (Z.eq_dec b 0) as [->|Hb0].
      - replace (0 * 0) with (r * 0 ^ e) by (rewrite Z.pow_0_l; lia). done.
      - apply (in_ty_abs t _ (b ^ 2 ^ (Z.log2 e + 1))); [done| |done].
        replace (b * b) with (b ^ 2) by lia. apply pow_abs_le; [lia|done]. }
    set (r' := if Z.testbit e 0 then r * b else r).
    assert (forall m, 0 <= m <= e / 2 -> in_ty t (r' * (b * b) ^ m)) as Hm'.
    { intros m Hm0. subst r'. replace (b * b) with (b ^ 2) by lia. rewrite <- Z.pow_mul_r by lia.
      rewrite bit0. destruct (Z.eqb_spec (e mod 2) 1).
      - rewrite <- Z.mul_assoc, <- Z.pow_succ_r by (clear -Hm0; lia). apply Hm. clear -Hm0 e0; lia.
      - apply Hm. clear -Hm0 He; lia. }
    assert (r' * (b * b) ^ (e / 2) = r * b ^ e) as Er.
    { rewrite (pow_split b e) by lia. subst r'. destruct (Z.testbit e 0); lia. }
    assert ((if Z.testbit e 0 then mul_assign t r b else Ok r) = Ok r') as ->.
    { subst r'. destruct (Z.testbit e 0); [|done]. apply Hmul.
      replace (r * b) with (r * b ^ 1) by lia. apply Hm. lia. }
    cbn. rewrite (Hmul b b Hbb). cbn. rewrite shiftr1.
    rewrite IH; [by rewrite Er|lia|by rewrite Er|done|].
    destruct (Z.eq_dec (e / 2) 0) as [|Hne2]; [auto|]. right.
    assert (Z.log2 e = Z.log2 (e / 2) + 1) as El by (apply log2_half; clear -Hh Hne Hne2; lia).
    replace (b * b) with (b ^ 2) by lia.
    rewrite <- Z.pow_mul_r by (try lia; apply Z.pow_nonneg; lia).
    replace (2 * 2 ^ (Z.log2 (e / 2) + 1)) with (2 ^ (Z.log2 e + 1)); [done|].
    rewrite El. rewrite (Z.pow_add_r 2 (Z.log2 (e / 2) + 1) 1) by (pose proof (Z.log2_nonneg (e / 2)); lia). lia.
Qed.

Lemma pow_exact t b e : t = I32 \/ t = I64 -> in_ty t b -> in_ty t e -> 0 < e ->
  Z.abs (b ^ (2 ^ (Z.log2 e + 1))) < 2 ^ (width t - 1) ->
  pow t b e = Ok (b ^ e).
Proof.
  intros Ht Hb He He0 Hsq. assert (signed t = true) as Hs by (destruct Ht as [->| ->]; done).
  pose proof (Z.log2_spec e He0) as [L1 L2].
  assert (forall m, 0 <= m <= e -> in_ty t (1 * b ^ m)) as Hm.
  { intros m Hm. rewrite Z.mul_1_l. destruct (Z.eq_dec b 0) as [->|Hb0].
    - destruct (Z.eq_dec m 0) as [->|]; [|rewrite Z.pow_0_l by lia; done].
      destruct Ht as [->| ->]; unfold in_ty, is_i; cbn; lia.
    - apply (in_ty_abs t _ (b ^ 2 ^ (Z.log2 e + 1))); [done| |done].
      apply pow_abs_le; [|done]. replace (Z.log2 e + 1) with (Z.succ (Z.log2 e)) by lia. lia. }
  unfold pow. rewrite (pow_loop_exact t _ Ht); [f_equal; lia| |apply Hm; lia|apply Hm|auto].
  split; [lia|]. unfold in_ty in He. rewrite Hs in He. destruct He as [_ He].
  destruct Ht as [->| ->]; cbn [width] in *.
  - change (2 ^ (32 - 1)) with (2 ^ 31) in *. change (Z.of_nat (Z.to_nat 32)) with 32.
    pose proof (Z.pow_lt_mono_r 2 31 32). lia.
  - change (2 ^ (64 - 1)) with (2 ^ 63) in *. change (Z.of_nat (Z.to_nat 64)) with 64.
    pose proof (Z.pow_lt_mono_r 2 63 64). lia.
Qed.

Lemma pow_loop_neg t fuel : forall r b e, e < 0 -> match pow_loop t fuel r b e with Ok _ => False | _ => True end.
Proof.
  induction fuel as [|n IH]; intros r b e He; cbn [pow_loop]; destruct (Z.eqb_spec e 0); try lia.
  destruct (if Z.testbit e 0 then _ else _); cbn; try done.
  destruct (mul_assign t b b); cbn; try done. apply IH.
  rewrite shiftr1. apply Z.div_lt_upper_bound; lia.
Qed.

(** ** min and max *)
Section ordered.
  Context {T : Type} (lt : T -> T -> bool).
  (** [lt] is a strict total preorder (strict weak order). *)
  Context (irrefl : forall a, lt a a = false)
          (trans : forall a b c, lt a b = true -> lt b c = true -> lt a c = true)
          (negtrans : forall a b c, lt a b = false -> lt b c = false -> lt a c = false).

  Lemma lt_asym a b : lt a b = true -> lt b a = false.
  Proof. intros H. destruct (lt b a) eqn:E; [|done]. rewrite <- (irrefl a). symmetry. eauto. Qed.

  Lemma min_list_acc l : forall limit,
    let m := min_list lt limit l in
    (m = limit \/ m ∈ l) /\ lt limit m = false /\ (forall x, x ∈ l -> lt x m = false).
  Proof.
    induction l as [|a l IH]; intros limit m.
    - split; [auto|]. split; [apply irrefl|]. intros x Hx. inversion Hx.
    - destruct (IH (min2 lt limit a)) as (H1 & H2 & H3).
      change (min_list lt (min2 lt limit a) l) with m in H1, H2, H3. clearbody m.
      assert (lt limit m = false /\ lt a m = false) as [Hl Ha].
      { unfold min2 in H2. destruct (lt limit a) eqn:E.
        - split; [done|]. apply (negtrans _ limit); [by apply lt_asym|done].
        - split; [|done]. apply (negtrans _ a); done. }
      split; [|split; [done|]].
      + destruct H1 as [H1|H1]; [|right; by right]. unfold min2 in H1. destruct (lt limit a); [auto|].
        right. rewrite H1. left.
      + intros x [->|Hx]%elem_of_cons; [done|auto].
  Qed.
End ordered.

Lemma max_list_min {T} (lt : T -> T -> bool) limit l :
  (forall a b, lt a b = false -> lt b a = false -> a = b) ->
  max_list lt limit l = min_list (fun a b => lt b a) limit l.
Proof. intros _. revert limit. induction l; intros; cbn; done. Qed.
Close Scope Z_scope.
